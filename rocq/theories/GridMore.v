From Coq Require Import Reals List ZArith Lia Lra.
From Verif Require Import Base Num ParamsModel CommonModel CommonProofs MerlProofs GridModel GridSpec GridProofs.
Open Scope R_scope.

(** ** Every point of the domain lies in a cell *)
Lemma locate_exists ss : forall mn mx x, Forall (fun s => (2 <= s)%Z) ss -> Forall2 Rlt mn mx -> length mn = length ss ->
  Forall2 Rle mn x -> Forall2 Rle x mx ->
  exists k al, cells ss k al /\ positions ss mn mx (at_frac k al) x.
Proof.
  induction ss as [|s ss IH]; intros mn mx x Hs Hm Hl H1 H2.
  - destruct mn; [|discriminate]. inversion Hm; subst. inversion H1; subst. exists [], []. split; constructor.
  - destruct mn as [|a mn]; [discriminate|]. inversion Hm; subst. inversion H1; subst. inversion H2; subst. inversion Hs; subst.
    match goal with _ : a < ?m, _ : a <= ?w |- _ => rename m into b; rename w into v end.
    destruct (IH mn l' l'0) as (k & al & C & P); try assumption; [cbn in Hl; congruence|].
    set (t := IZR (s - 1) * (v - a) / (b - a)).
    assert (Hs1 : 1 <= IZR (s - 1)) by (apply IZR_le; lia).
    assert (Ht : 0 <= t <= IZR (s - 1)).
    { unfold t. split.
      - apply Rmult_le_pos; [nra|]. apply Rlt_le, Rinv_0_lt_compat. lra.
      - apply Rmult_le_reg_r with (b - a); [lra|]. unfold Rdiv. rewrite Rmult_assoc, Rinv_l by lra. nra. }
    pose proof (Int_part_bounds t) as [B1 B2].
    assert (Hk : (0 <= Int_part t < s)%Z).
    { split.
      - assert (-1 < Int_part t)%Z; [|lia]. apply lt_IZR. change (IZR (-1)) with (-1). lra.
      - apply lt_IZR. rewrite minus_IZR in Ht. lra. }
    exists (Int_part t :: k), (t - IZR (Int_part t) :: al). split.
    + constructor; [|assumption]. split; [assumption|]. split; [lra|]. intros E. rewrite E in *. lra.
    + unfold at_frac in *. cbn [combine List.map fst snd]. replace (IZR (Int_part t) + (t - IZR (Int_part t))) with t by ring.
      assert (Ev : v = position a b s t) by (unfold position, t; field; lra). rewrite Ev at 1. constructor. exact P.
Qed.
Lemma located g x : grid_ok g -> Forall2 Rle (g_min g) x -> Forall2 Rle x (g_max g) -> exists k al, locates g x k al.
Proof.
  intros G H1 H2. apply (locate_exists (g_sizes g)); try assumption; apply G.
Qed.

(** ** Interpolation *)
Lemma blend_ext al : forall f h, (forall b, corner_bits (length al) b -> f b = h b) -> blend al f = blend al h.
Proof.
  induction al as [|a al IH]; intros f h H; cbn [blend].
  - apply H. split; [reflexivity|constructor].
  - rewrite (IH _ (fun b => h (0%Z :: b))), (IH (fun b => f (1%Z :: b)) (fun b => h (1%Z :: b))); [reflexivity| |];
      intros b [Hl Hb]; apply H; (split; [cbn; congruence|constructor; auto]).
Qed.
Lemma blend_bounds al m M : Forall (fun a => 0 <= a <= 1) al -> forall f, (forall b, corner_bits (length al) b -> m <= f b <= M) -> m <= blend al f <= M.
Proof.
  induction 1 as [|a al Ha _ IH]; intros f H; cbn [blend].
  - apply H. split; [reflexivity|constructor].
  - pose proof (IH (fun b => f (0%Z :: b))) as I0. pose proof (IH (fun b => f (1%Z :: b))) as I1.
    cbn beta in *. assert (m <= blend al (fun b => f (0%Z :: b)) <= M) by (apply I0; intros b [Hl Hb]; apply H; split; [cbn; congruence|constructor; auto]).
    assert (m <= blend al (fun b => f (1%Z :: b)) <= M) by (apply I1; intros b [Hl Hb]; apply H; split; [cbn; congruence|constructor; auto]).
    nra.
Qed.
Lemma blend_zero n : forall f, blend (repeat 0 n) f = f (repeat 0%Z n).
Proof. induction n as [|n IH]; intros f; cbn [repeat blend]; [reflexivity|]. rewrite !IH. ring. Qed.
Lemma shift_zero k : shift k (repeat 0%Z (length k)) = k.
Proof. induction k as [|i k IH]; cbn; [reflexivity|]. rewrite IH, Z.add_0_r. reflexivity. Qed.
Lemma blend_add al u : forall f, blend al (fun b => u + f b) = u + blend al f.
Proof. induction al as [|a al IH]; intros f; cbn [blend]; [reflexivity|]. rewrite !IH. ring. Qed.

Fixpoint pos_list (ss : list Z) (mn mx t : list R) : list R :=
  match ss, mn, mx, t with s :: ss', a :: aa, b :: bb, u :: us => position a b s u :: pos_list ss' aa bb us | _, _, _, _ => [] end.
Lemma positions_list ss mn mx t x : positions ss mn mx t x -> x = pos_list ss mn mx t.
Proof. induction 1; cbn; congruence. Qed.
Lemma position_affine a b s t u : position a b s (t + u) - position a b s t = position a b s u - a.
Proof. unfold position, Rdiv. ring. Qed.
Lemma blend_affine ss : forall mn mx k al c, length mn = length ss -> length mx = length ss -> length k = length ss -> length al = length ss -> length c = length ss ->
  blend al (fun b => dot c (pos_list ss mn mx (List.map IZR (shift k b)))) = dot c (pos_list ss mn mx (at_frac k al)).
Proof.
  induction ss as [|s ss IH]; intros [|a mn] [|b mx] [|k ks] [|al als] [|c cs] H1 H2 H3 H4 H5; try discriminate; [reflexivity|].
  unfold at_frac in *. cbn [blend shift List.map combine fst snd pos_list dot].
  rewrite !blend_add, !IH by (cbn in *; lia).
  unfold position, Rdiv. rewrite !plus_IZR. ring.
Qed.

Lemma cells_frac ss k al : cells ss k al -> Forall (fun a => 0 <= a <= 1) al.
Proof. induction 1 as [|s ss k ks a al (_ & H & _) _ IH]; constructor; [lra|assumption]. Qed.
Lemma cells_node ss k : inside ss k -> cells ss k (repeat 0 (length k)).
Proof. induction 1; cbn [length repeat]; constructor; [|assumption]. split; [assumption|]. split; [lra|reflexivity]. Qed.
Lemma at_frac_zero k : at_frac k (repeat 0 (length k)) = List.map IZR k.
Proof. unfold at_frac. induction k as [|i k IH]; cbn; [reflexivity|]. rewrite IH, Rplus_0_r. reflexivity. Qed.
Lemma corner_zero n : corner_bits n (repeat 0%Z n).
Proof. split; [apply repeat_length|]. apply Forall_forall. intros i Hi. apply repeat_spec in Hi. auto. Qed.

Lemma interior_cells ss : forall mn mx x k al, Forall (fun s => (2 <= s)%Z) ss -> Forall2 Rlt mn mx ->
  cells ss k al -> positions ss mn mx (at_frac k al) x -> Forall2 Rlt x mx -> Forall2 (fun s i => (i + 1 < s)%Z) ss k.
Proof.
  induction ss as [|s ss IH]; intros mn mx x k al Hs Hm C P Hx.
  - inversion C; subst. constructor.
  - inversion C; subst. unfold at_frac in P. cbn [combine List.map fst snd] in P. inversion P; subst.
    inversion Hm; subst. inversion Hs; subst. inversion Hx; subst. constructor; [|eapply IH; [eassumption| |eassumption|eassumption|eassumption]; assumption].
    match goal with H : in_cell _ _ _ |- _ => destruct H as (Hk & Ha & Hlast) end.
    match goal with |- (?k + 1 < s)%Z => destruct (Z.eq_dec k (s - 1)) as [->|]; [|lia] end. exfalso.
    assert (1 <= IZR (s - 1)) by (apply IZR_le; lia).
    match goal with H : position _ _ _ _ < _ |- _ => rename H into Hp end.
    rewrite Hlast in Hp by reflexivity.
    unfold position in Hp. rewrite Rplus_0_r in Hp. unfold Rdiv in Hp. rewrite Rinv_r in Hp by lra. lra.
Qed.

Lemma le_of_lt l : forall l', Forall2 Rlt l l' -> Forall2 Rle l l'.
Proof. induction l; intros l' H; inversion H; subst; constructor; [lra|auto]. Qed.

Lemma value_interior g x : grid_ok g -> in_interior g x -> exists k al y, locates g x k al /\ grid_value g x = Ok y /\ length y = g_dy g /\
  (forall b, corner_bits (length (g_sizes g)) b -> inside (g_sizes g) (shift k b)) /\
  forall j, (j < g_dy g)%nat -> nth j y 0 = blend al (fun b => stored g (shift k b) j).
Proof.
  intros G [H1 H2]. destruct (located g x G H1 (le_of_lt _ _ H2)) as (k & al & L).
  pose proof (interior_cells _ _ _ _ _ _ (ok_sizes g G) (ok_domain g G) (proj1 L) (proj2 L) H2) as Hi.
  destruct (value_blend g G x k al L) as (y & E & Ly & N). { apply interior_ok with (al := al) (x := x); assumption. }
  exists k, al, y. split; [exact L|]. split; [exact E|]. split; [exact Ly|]. split; [|exact N].
  intros b Hb. destruct L as [C _]. clear - C Hi Hb. revert b Hb. revert al C. unfold inside.
  induction Hi as [|s i ss ks H _ IH]; intros al C b [Hl Hb]; [constructor|].
  destruct b as [|d b]; [discriminate|]. inversion Hb; subst. inversion C; subst. cbn [shift]. constructor.
  - match goal with Hc : in_cell _ _ _ |- _ => destruct Hc as (Hk & _) end. match goal with Hd : _ \/ _ |- _ => destruct Hd; lia end.
  - eapply IH; [eassumption|]. split; [cbn in Hl; congruence|assumption].
Qed.

Lemma value_affine g x j c0 c : grid_ok g -> in_interior g x -> (j < g_dy g)%nat -> length c = length (g_sizes g) ->
  (forall k xs, inside (g_sizes g) k -> positions (g_sizes g) (g_min g) (g_max g) (List.map IZR k) xs -> stored g k j = c0 + dot c xs) ->
  exists y, grid_value g x = Ok y /\ nth j y 0 = c0 + dot c x.
Proof.
  intros G Hx Hj Hc Hst. destruct (value_interior g x G Hx) as (k & al & y & L & E & Ly & Hin & N).
  exists y. split; [exact E|]. rewrite N by assumption. destruct L as [C P]. destruct (cells_length _ _ _ C) as [Lk La].
  assert (Lm : length (g_max g) = length (g_sizes g)).
  { rewrite <- (ok_dim g G). pose proof (ok_domain g G) as D. clear - D. induction D; cbn; congruence. }
  rewrite (positions_list _ _ _ _ _ P). fold (at_frac k al).
  rewrite <- blend_affine by (assumption || (apply (ok_dim g G)) || (cbn in *; lia)).
  rewrite <- blend_add. apply blend_ext. intros b Hb. rewrite La in Hb.
  apply Hst; [apply Hin; assumption|].
  assert (Lsh : length (shift k b) = length (g_sizes g)) by (rewrite shift_length; [assumption|destruct Hb; congruence]).
  clear - Lsh Lm G. pose proof (ok_dim g G) as Ld. revert Lsh Lm Ld. generalize (shift k b) as ks. generalize (g_sizes g) (g_min g) (g_max g).
  induction l as [|s ss IH]; intros [|a mn] [|u mx] [|i ks] H1 H2 H3; try discriminate; cbn [List.map pos_list]; constructor.
  apply IH; cbn in *; congruence.
Qed.

Lemma value_bounded g x j m M : grid_ok g -> in_interior g x -> (j < g_dy g)%nat ->
  (forall k, inside (g_sizes g) k -> m <= stored g k j <= M) -> exists y, grid_value g x = Ok y /\ m <= nth j y 0 <= M.
Proof.
  intros G Hx Hj Hst. destruct (value_interior g x G Hx) as (k & al & y & L & E & Ly & Hin & N).
  exists y. split; [exact E|]. rewrite N by assumption. destruct (cells_length _ _ _ (proj1 L)) as [Lk La].
  apply blend_bounds; [exact (cells_frac _ _ _ (proj1 L))|]. intros b Hb. apply Hst, Hin. rewrite <- La. exact Hb.
Qed.

Lemma value_node g k xs : grid_ok g -> inside (g_sizes g) k -> positions (g_sizes g) (g_min g) (g_max g) (List.map IZR k) xs ->
  (exists b, corner_bits (length (g_sizes g)) b /\ lex (g_sizes g) (shift k b) = total (g_sizes g)) /\ grid_value g xs = Abort \/
  exists y, grid_value g xs = Ok y /\ length y = g_dy g /\ forall j, (j < g_dy g)%nat -> nth j y 0 = stored g k j.
Proof.
  intros G Hk P. assert (L : locates g xs k (repeat 0 (length k))).
  { split; [apply cells_node; assumption|]. fold (at_frac k (repeat 0 (length k))). rewrite at_frac_zero. exact P. }
  assert (Hdec : (exists d, In d (below (2 ^ length (g_sizes g))) /\ lex (g_sizes g) (shift k (bits (length (g_sizes g)) d)) = total (g_sizes g)) \/
                 forall d, In d (below (2 ^ length (g_sizes g))) -> lex (g_sizes g) (shift k (bits (length (g_sizes g)) d)) <> total (g_sizes g)).
  { generalize (below (2 ^ length (g_sizes g))). induction l as [|d l IH]; [right; intros d []|].
    destruct (Z.eq_dec (lex (g_sizes g) (shift k (bits (length (g_sizes g)) d))) (total (g_sizes g))) as [E|E].
    - left. exists d. split; [left; reflexivity|assumption].
    - destruct IH as [(d' & H1 & H2)|H]; [left; exists d'; split; [right; assumption|assumption]|].
      right. intros d' [<-|H']; auto. }
  destruct Hdec as [(d & Hd & E)|Hno].
  - left. split; [exists (bits (length (g_sizes g)) d); split; [apply bits_corner|exact E]|].
    apply (value_abort g G xs k _ L (bits (length (g_sizes g)) d)); [apply bits_corner|exact E].
  - right. destruct (value_blend g G xs k _ L) as (y & E & Ly & N).
    { intros b Hb. destruct (corner_bits_ex _ b Hb) as (d & Hd & <-). apply Hno. apply below_in. rewrite Nat2N.inj_pow. exact Hd. }
    exists y. split; [exact E|]. split; [exact Ly|]. intros j Hj. rewrite N by assumption. rewrite blend_zero, shift_zero. reflexivity.
Qed.

(** The upper corner of the domain always ends the program. *)
Lemma max_positions ss : forall mn mx, Forall (fun s => (2 <= s)%Z) ss -> length mn = length ss -> length mx = length ss ->
  positions ss mn mx (List.map IZR (List.map (fun s => s - 1)%Z ss)) mx.
Proof.
  induction ss as [|s ss IH]; intros [|a mn] [|b mx] Hs H1 H2; try discriminate; cbn [List.map]; [constructor|].
  inversion Hs; subst. assert (1 <= IZR (s - 1)) by (apply IZR_le; lia).
  assert (E : b = position a b s (IZR (s - 1))) by (unfold position; field; lra). rewrite E at 2. constructor. apply IH; cbn in *; (assumption || congruence).
Qed.
Lemma lex_last ss : Forall (fun s => (2 <= s)%Z) ss -> lex ss (List.map (fun s => s - 1)%Z ss) = (total ss - 1)%Z.
Proof. induction 1 as [|s ss Hs _ IH]; cbn [List.map lex total]; [reflexivity|]. rewrite IH. ring. Qed.
Fixpoint last_bit (n : nat) : list Z := match n with O => [] | S O => [1%Z] | S m => 0%Z :: last_bit m end.
Lemma last_bit_corner n : corner_bits n (last_bit n).
Proof.
  induction n as [|[|n] IH]; [split; [reflexivity|constructor]|split; [reflexivity|constructor; [right; reflexivity|constructor]]|].
  destruct IH as [H1 H2]. split; [cbn [last_bit length] in *; congruence|]. change (last_bit (S (S n))) with (0%Z :: last_bit (S n)). constructor; auto.
Qed.
Lemma lex_last_bit ss : ss <> [] -> lex ss (last_bit (length ss)) = 1%Z.
Proof.
  induction ss as [|s [|s' ss] IH]; intros H; [congruence|reflexivity|].
  change (last_bit (length (s :: s' :: ss))) with (0%Z :: last_bit (length (s' :: ss))). cbn [lex]. rewrite <- IH by discriminate.
  cbn [lex]. ring.
Qed.
Lemma value_max_corner g : grid_ok g -> grid_value g (g_max g) = Abort.
Proof.
  intros G. assert (Lm : length (g_max g) = length (g_sizes g)).
  { rewrite <- (ok_dim g G). pose proof (ok_domain g G) as D. clear - D. induction D; cbn; congruence. }
  pose proof (max_positions _ _ _ (ok_sizes g G) (ok_dim g G) Lm) as P.
  set (k := List.map (fun s => s - 1)%Z (g_sizes g)) in *.
  assert (Hk : inside (g_sizes g) k).
  { unfold k, inside. pose proof (ok_sizes g G) as Hs. clear - Hs. induction Hs; cbn; constructor; [lia|assumption]. }
  assert (Lk : length k = length (g_sizes g)) by (apply map_length).
  assert (L : locates g (g_max g) k (repeat 0 (length k))).
  { split; [apply cells_node; assumption|]. fold (at_frac k (repeat 0 (length k))). rewrite at_frac_zero. exact P. }
  apply (value_abort g G _ k _ L (last_bit (length (g_sizes g))) (last_bit_corner _)).
  rewrite lex_shift; [|exact Lk|apply last_bit_corner]. unfold k. rewrite lex_last by apply G. rewrite lex_last_bit by apply G. ring.
Qed.

(** ** set *)
Lemma set_values g k xs ys ys' : grid_ok g -> inside (g_sizes g) k ->
  positions (g_sizes g) (g_min g) (g_max g) (List.map IZR k) xs -> length ys' = g_dy g ->
  nth_error (g_rows g) (Z.to_nat (lex (g_sizes g) k)) = Some (xs ++ ys) ->
  exists g', grid_set g (get_index (g_sizes g) k) (xs ++ ys') = Ok g' /\ grid_ok g' /\
    g_sizes g' = g_sizes g /\ g_min g' = g_min g /\ g_max g' = g_max g /\ g_dy g' = g_dy g /\
    forall k', inside (g_sizes g) k' -> forall j, (j < g_dy g)%nat ->
      stored g' k' j = if list_eq_dec Z.eq_dec k' k then nth j ys' 0 else stored g k' j.
Proof.
  intros G Hk P Ly E. rewrite get_index_lex by (apply inside_length; assumption). unfold grid_set.
  pose proof (lex_range _ _ Hk) as Hr. pose proof (ok_rows g G) as HN.
  destruct (Z.ltb_spec (lex (g_sizes g) k) 0); [lia|]. destruct (Z.ltb_spec (lex (g_sizes g) k) (Z.of_nat (length (g_rows g)))); [|lia].
  eexists. split; [reflexivity|]. set (n := Z.to_nat (lex (g_sizes g) k)) in *.
  assert (Hn : (n < length (g_rows g))%nat) by lia.
  set (rows' := firstn n (g_rows g) ++ (xs ++ ys') :: skipn (S n) (g_rows g)).
  assert (Hget : forall m, nth_error rows' m = if (m =? n)%nat then Some (xs ++ ys') else nth_error (g_rows g) m).
  { intros m. unfold rows'. destruct (Nat.eqb_spec m n) as [->|Hm].
    - rewrite nth_error_app2 by (rewrite firstn_length; lia). rewrite firstn_length, Nat.min_l, Nat.sub_diag by lia. reflexivity.
    - destruct (Nat.lt_ge_cases m n).
      + rewrite nth_error_app1 by (rewrite firstn_length; lia). rewrite <- (firstn_skipn n (g_rows g)) at 2.
        rewrite nth_error_app1 by (rewrite firstn_length; lia). reflexivity.
      + rewrite nth_error_app2 by (rewrite firstn_length; lia). rewrite firstn_length, Nat.min_l by lia.
        replace (m - n)%nat with (S (m - S n)) by lia. cbn [nth_error].
        rewrite <- (firstn_skipn (S n) (g_rows g)) at 2. rewrite nth_error_app2 by (rewrite firstn_length; lia).
        rewrite firstn_length, Nat.min_l by lia. reflexivity. }
  assert (Hlen : length rows' = length (g_rows g)).
  { unfold rows'. rewrite app_length, firstn_length. cbn [length]. rewrite skipn_length. lia. }
  assert (Hinj : forall k', inside (g_sizes g) k' -> Z.to_nat (lex (g_sizes g) k') = n -> k' = k).
  { intros k' Hk' En. pose proof (lex_range _ _ Hk'). assert (El : lex (g_sizes g) k' = lex (g_sizes g) k) by (unfold n in En; lia).
    rewrite <- (get_indices_lex _ _ Hk'), <- (get_indices_lex _ _ Hk). rewrite El. reflexivity. }
  split; [|split; [reflexivity|split; [reflexivity|split; [reflexivity|split; [reflexivity|]]]]].
  - constructor; cbn [g_sizes g_min g_max g_dy g_rows]; try apply G.
    + rewrite Hlen. exact HN.
    + intros k' Hk'. rewrite Hget. destruct (Nat.eqb_spec (Z.to_nat (lex (g_sizes g) k')) n) as [En|].
      * pose proof (Hinj k' Hk' En) as ->. exists xs, ys'. split; [reflexivity|]. split; assumption.
      * apply (ok_row g G k' Hk').
  - intros k' Hk' j Hj. unfold stored. cbn [g_sizes g_rows].
    assert (En : forall d, nth (Z.to_nat (lex (g_sizes g) k')) rows' d = if (Z.to_nat (lex (g_sizes g) k') =? n)%nat then xs ++ ys' else nth (Z.to_nat (lex (g_sizes g) k')) (g_rows g) d).
    { intros d. pose proof (Hget (Z.to_nat (lex (g_sizes g) k'))) as Hg. pose proof (lex_range _ _ Hk').
      destruct (Nat.eqb_spec (Z.to_nat (lex (g_sizes g) k')) n).
      - exact (nth_error_nth _ _ d Hg).
      - destruct (nth_error (g_rows g) (Z.to_nat (lex (g_sizes g) k'))) eqn:Eg.
        + rewrite (nth_error_nth _ _ d Hg), (nth_error_nth _ _ d Eg). reflexivity.
        + apply nth_error_None in Eg. lia. }
    rewrite En. destruct (list_eq_dec Z.eq_dec k' k) as [->|Hne].
    + rewrite Nat.eqb_refl. pose proof (positions_length _ _ _ _ _ P) as Lx. rewrite <- Lx. rewrite app_nth2_plus. reflexivity.
    + destruct (Nat.eqb_spec (Z.to_nat (lex (g_sizes g) k')) n) as [E2|]; [|reflexivity]. elim Hne. apply Hinj; assumption.
Qed.

(** ** Construction *)
Lemma preallocate_spec junk g n : (n <= length (g_rows g))%nat ->
  preallocate junk g n = Ok (mkGrid (g_sizes g) (g_min g) (g_max g) (g_dy g)
    (List.map (fun m => get_abscissa (g_sizes g) (g_min g) (g_max g) (Z.of_nat m) ++ junk) (seq 0 n) ++ skipn n (g_rows g))).
Proof.
  induction n as [|n IH]; intros H.
  - destruct g. reflexivity.
  - cbn [preallocate]. rewrite IH by lia. cbn [bind]. unfold grid_set. cbn [g_sizes g_min g_max g_dy g_rows].
    set (f := fun m => get_abscissa (g_sizes g) (g_min g) (g_max g) (Z.of_nat m) ++ junk).
    assert (L1 : length (List.map f (seq 0 n)) = n) by (rewrite map_length, seq_length; reflexivity).
    assert (L : length (List.map f (seq 0 n) ++ skipn n (g_rows g)) = length (g_rows g)) by (rewrite app_length, L1, skipn_length; lia).
    destruct (Z.ltb_spec (Z.of_nat n) 0); [lia|]. rewrite L. destruct (Z.ltb_spec (Z.of_nat n) (Z.of_nat (length (g_rows g)))); [|lia].
    rewrite Nat2Z.id. f_equal. f_equal. rewrite firstn_app, L1, Nat.sub_diag. rewrite firstn_all2 by lia. rewrite app_nil_r.
    rewrite seq_S, map_app. rewrite <- app_assoc. f_equal. cbn [List.map app]. f_equal.
    rewrite skipn_app, L1. rewrite skipn_all2 by lia. cbn [app]. replace (S n - n)%nat with 1%nat by lia.
    clear. generalize (g_rows g). induction n as [|n IH]; intros l; [reflexivity|]. destruct l; [reflexivity|]. apply IH.
Qed.
Lemma preallocate_short junk g n : (length (g_rows g) < n)%nat -> preallocate junk g n = Abort.
Proof.
  intros H. induction n as [|n IH]; [lia|]. cbn [preallocate].
  destruct (Nat.lt_ge_cases (length (g_rows g)) n); [rewrite IH by assumption; reflexivity|].
  assert (n = length (g_rows g)) by lia. subst n. rewrite preallocate_spec by lia. cbn [bind]. unfold grid_set. cbn [g_rows].
  destruct (Z.ltb_spec (Z.of_nat (length (g_rows g))) 0); [lia|].
  rewrite app_length, map_length, seq_length, skipn_length.
  destruct (Z.ltb_spec (Z.of_nat (length (g_rows g))) (Z.of_nat (length (g_rows g) + (length (g_rows g) - length (g_rows g))))); [lia|reflexivity].
Qed.
Lemma fold_total ss : fold_left Z.mul ss 1%Z = total ss.
Proof.
  assert (E : forall l n, fold_left Z.mul l n = (n * total l)%Z).
  { induction l as [|s l IH]; intros n; cbn [fold_left total]; [ring|]. rewrite IH. ring. }
  rewrite E. ring.
Qed.
Lemma bounds_ok i mn mx : grid_bounds i = Some (mn, mx) -> Forall2 Rlt mn mx /\ length mn = Z.to_nat (dimension_in i) /\ (0 < length mn)%nat.
Proof.
  pose proof PI_RGT_0 as Hpi. destruct i; cbn; intros E; try discriminate E; injection E as <- <-;
    (split; [repeat constructor; lra|split; [reflexivity|cbn; lia]]).
Qed.
Lemma grid_new_spec junk size i o sizes nY mn mx : grid_bounds i = Some (mn, mx) -> dimension_out o = Ok nY ->
  length sizes = Z.to_nat (dimension_in i) -> Forall (fun s => (2 <= s)%Z) sizes -> length junk = Z.to_nat nY ->
  (Z.of_nat size = total sizes ->
   exists g, grid_new junk size (Some i) (Some o) (Some sizes) = Ok g /\ grid_ok g /\ g_sizes g = sizes /\ g_min g = mn /\ g_max g = mx /\ g_dy g = Z.to_nat nY) /\
  ((Z.of_nat size < total sizes)%Z -> grid_new junk size (Some i) (Some o) (Some sizes) = Abort).
Proof.
  intros Hb Ho Hl Hs Hj. destruct (bounds_ok i mn mx Hb) as (D1 & D2 & D3).
  unfold grid_new. rewrite Ho. cbn [bind]. rewrite Hl, Nat.eqb_refl. cbn [bind]. rewrite Hb, fold_total.
  set (g0 := mkGrid sizes mn mx (Z.to_nat nY) _).
  assert (L0 : length (g_rows g0) = size) by (unfold g0; cbn [g_rows]; apply repeat_length).
  split.
  - intros HN. rewrite preallocate_spec by lia. eexists. split; [reflexivity|]. split; [|repeat (split; [reflexivity|]); reflexivity].
    cbn [g0 g_sizes g_min g_max g_dy g_rows].
    set (f := fun m => get_abscissa sizes mn mx (Z.of_nat m) ++ junk).
    constructor; cbn [g_sizes g_min g_max g_dy g_rows].
    + exact Hs.
    + exact D1.
    + congruence.
    + intros ->. cbn in Hl. lia.
    + rewrite app_length, map_length, seq_length. rewrite skipn_length, repeat_length. lia.
    + intros k Hk. pose proof (lex_range _ _ Hk) as Hr.
      exists (abscissa_of sizes mn mx k), junk. split; [|split; [|exact Hj]].
      * rewrite nth_error_app1 by (rewrite map_length, seq_length; lia).
        erewrite map_nth_error; [|rewrite nth_error_nth' with (d := O) by (rewrite seq_length; lia); rewrite seq_nth by lia; reflexivity].
        cbn [Nat.add]. unfold f, get_abscissa. rewrite Z2Nat.id by lia. rewrite get_indices_lex by assumption. reflexivity.
      * apply abscissa_positions; [congruence| |apply inside_length; assumption].
        rewrite Hl, <- D2. clear - D1. induction D1; cbn; congruence.
  - intros Hlt. apply preallocate_short. rewrite L0. lia.
Qed.

From Coq Require Import Reals List ZArith Lia Lra.
From Verif Require Import Base Num ParamsModel CommonModel CommonProofs MerlProofs GridModel GridSpec.
Open Scope R_scope.

(** ** Ranks *)
Lemma index_lex ss : forall ks N, length ks = length ss -> index_acc N ss ks = (N * total ss + lex ss ks)%Z.
Proof.
  induction ss as [|s ss IH]; intros [|k ks] N H; try discriminate H; cbn [index_acc total lex]; [ring|].
  injection H as H. rewrite IH by assumption. ring.
Qed.
Lemma get_index_lex ss ks : length ks = length ss -> get_index ss ks = lex ss ks.
Proof. intros H. unfold get_index. rewrite index_lex by assumption. ring. Qed.

Lemma total_pos ss : Forall (fun s => (2 <= s)%Z) ss -> (1 <= total ss)%Z.
Proof. induction 1; cbn [total]; nia. Qed.
Lemma inside_length ss ks : inside ss ks -> length ks = length ss.
Proof. induction 1; cbn; congruence. Qed.
Lemma lex_range ss ks : inside ss ks -> (0 <= lex ss ks < total ss)%Z.
Proof. induction 1; cbn [lex total]; [lia|nia]. Qed.
Lemma lex_shift ss : forall ks bs, length ks = length ss -> length bs = length ss ->
  lex ss (shift ks bs) = (lex ss ks + lex ss bs)%Z.
Proof.
  induction ss as [|s ss IH]; intros [|k ks] [|b bs] H1 H2; try discriminate; cbn [lex shift]; [reflexivity|].
  injection H1 as H1. injection H2 as H2. rewrite IH by assumption. ring.
Qed.
Lemma shift_length ks : forall bs, length bs = length ks -> length (shift ks bs) = length ks.
Proof. induction ks as [|k ks IH]; intros [|b bs] H; try discriminate; cbn; [reflexivity|]. f_equal. apply IH. now injection H. Qed.

(** ** Multi-index of a rank *)
Fixpoint lexr (rs rk : list Z) : Z := match rs, rk with s :: rs', k :: rk' => (k + s * lexr rs' rk')%Z | _, _ => 0%Z end.
Lemma total_app a b : total (a ++ b) = (total a * total b)%Z.
Proof. induction a as [|s a IH]; cbn [total app]; [destruct (total b); reflexivity|]. rewrite IH. ring. Qed.
Lemma total_rev ss : total (rev ss) = total ss.
Proof. induction ss as [|s ss IH]; [reflexivity|]. cbn [rev]. rewrite total_app, IH. cbn [total]. ring. Qed.
Lemma lexr_app a : forall k b l, length k = length a -> lexr (a ++ b) (k ++ l) = (lexr a k + total a * lexr b l)%Z.
Proof.
  induction a as [|s a IH]; intros [|k ks] b l H; try discriminate; cbn [lexr app total]; [destruct (lexr b l); reflexivity|].
  injection H as H. rewrite IH by assumption. ring.
Qed.
Lemma lexr_rev ss : forall ks, length ks = length ss -> lexr (rev ss) (rev ks) = lex ss ks.
Proof.
  induction ss as [|s ss IH]; intros [|k ks] H; try discriminate; [reflexivity|]. injection H as H. cbn [rev lex].
  rewrite lexr_app by (rewrite !rev_length; assumption). rewrite IH, total_rev by assumption. cbn [lexr]. ring.
Qed.
Lemma inside_rev ss ks : inside ss ks -> inside (rev ss) (rev ks).
Proof.
  induction 1; cbn [rev]; [constructor|]. apply Forall2_app; [assumption|]. constructor; [assumption|constructor].
Qed.
Lemma lexr_nonneg rs rk : inside rs rk -> (0 <= lexr rs rk)%Z.
Proof. induction 1; cbn [lexr]; nia. Qed.
Lemma indices_rev_lexr rs rk : inside rs rk -> indices_rev rs (lexr rs rk) = rk.
Proof.
  induction 1 as [|s k rs rk H HF IH]; [reflexivity|]. cbn [indices_rev lexr].
  pose proof (lexr_nonneg rs rk HF) as Hn.
  assert (E : Z.rem (k + s * lexr rs rk) s = k).
  { rewrite Z.rem_mod_nonneg by nia. rewrite (Z.mul_comm s), Z.mod_add by lia. apply Z.mod_small. lia. }
  rewrite E. f_equal. replace (k + s * lexr rs rk - k)%Z with (lexr rs rk * s)%Z by ring.
  rewrite Z.quot_mul by lia. exact IH.
Qed.
Lemma indices_rev_inside rs : Forall (fun s => (2 <= s)%Z) rs -> forall n, (0 <= n < total rs)%Z ->
  inside rs (indices_rev rs n) /\ lexr rs (indices_rev rs n) = n.
Proof.
  induction 1 as [|s rs Hs _ IH]; intros n Hn; cbn [total] in Hn.
  - split; [constructor|]. cbn. lia.
  - cbn [indices_rev lexr]. rewrite Z.rem_mod_nonneg by lia.
    pose proof (Z.mod_pos_bound n s ltac:(lia)) as Hm. pose proof (Z.div_mod n s ltac:(lia)) as Hd.
    assert (Eq : Z.quot (n - n mod s) s = (n / s)%Z).
    { replace (n - n mod s)%Z with (n / s * s)%Z by lia. apply Z.quot_mul. lia. }
    rewrite Eq. destruct (IH (n / s)%Z) as [I1 I2].
    { split; [apply Z.div_pos; lia|]. apply Z.div_lt_upper_bound; lia. }
    split; [constructor; [lia|exact I1]|]. rewrite I2. lia.
Qed.
Lemma get_indices_lex ss ks : inside ss ks -> get_indices ss (lex ss ks) = ks.
Proof.
  intros H. unfold get_indices. rewrite <- lexr_rev by (apply inside_length; assumption).
  rewrite indices_rev_lexr by (apply inside_rev; assumption). apply rev_involutive.
Qed.
Lemma get_indices_inside ss n : Forall (fun s => (2 <= s)%Z) ss -> (0 <= n < total ss)%Z ->
  inside ss (get_indices ss n) /\ lex ss (get_indices ss n) = n.
Proof.
  intros H Hn. assert (Hr : Forall (fun s => (2 <= s)%Z) (rev ss)) by (apply Forall_rev; assumption).
  destruct (indices_rev_inside (rev ss) Hr n) as [I1 I2]; [rewrite total_rev; assumption|].
  unfold get_indices. assert (I : inside ss (rev (indices_rev (rev ss) n))).
  { rewrite <- (rev_involutive ss) at 1. apply inside_rev. assumption. }
  split; [exact I|]. rewrite <- lexr_rev by (apply inside_length; assumption). rewrite rev_involutive. exact I2.
Qed.
Lemma rank_bijection ss : Forall (fun s => (2 <= s)%Z) ss ->
  (forall k, inside ss k -> (0 <= get_index ss k < total ss)%Z /\ get_indices ss (get_index ss k) = k) /\
  (forall n, (0 <= n < total ss)%Z -> inside ss (get_indices ss n) /\ get_index ss (get_indices ss n) = n).
Proof.
  intros H. split.
  - intros k Hk. rewrite get_index_lex by (apply inside_length; assumption). split; [apply lex_range; assumption|].
    apply get_indices_lex. assumption.
  - intros n Hn. destruct (get_indices_inside ss n H Hn) as [I1 I2]. split; [exact I1|].
    rewrite get_index_lex by (apply inside_length; assumption). exact I2.
Qed.

(** ** Positions *)
Lemma abscissa_positions ss : forall mn mx k, length mn = length ss -> length mx = length ss -> length k = length ss ->
  positions ss mn mx (List.map IZR k) (abscissa_of ss mn mx k).
Proof.
  induction ss as [|s ss IH]; intros [|a aa] [|b bb] [|k ks] H1 H2 H3; try discriminate; cbn [abscissa_of List.map]; [constructor|].
  assert (E : a + (b - a) * IZR k / IZR (s - 1) = position a b s (IZR k)) by (unfold position; unfold Rdiv; ring).
  rewrite E. constructor. apply IH; cbn in *; lia.
Qed.
Lemma positions_length ss mn mx t x : positions ss mn mx t x -> length x = length ss.
Proof. induction 1; cbn; congruence. Qed.

Lemma position_inv a b s t : a < b -> (2 <= s)%Z -> IZR (s - 1) * (position a b s t - a) / (b - a) = t.
Proof. intros H Hs. assert (1 <= IZR (s - 1)) by (apply IZR_le; lia). unfold position. field. lra. Qed.
Lemma position_diff a b s t u : a < b -> (2 <= s)%Z ->
  IZR (s - 1) * (position a b s t - position a b s u) / (b - a) = t - u.
Proof. intros H Hs. assert (1 <= IZR (s - 1)) by (apply IZR_le; lia). unfold position. field. lra. Qed.

Definition at_frac (k : list Z) (a : list R) : list R := List.map (fun p => IZR (fst p) + snd p) (combine k a).

Lemma cells_length ss ks al : cells ss ks al -> length ks = length ss /\ length al = length ss.
Proof. induction 1 as [|? ? ? ? ? ? ? ? [IH1 IH2]]; cbn; split; congruence. Qed.
Lemma cells_inside ss ks al : cells ss ks al -> inside ss ks.
Proof. induction 1 as [|s ss k ks a al (H & _) _ IH]; constructor; assumption. Qed.

Lemma indices_at_cells ss ks al : cells ss ks al -> forall mn mx x, Forall (fun s => (2 <= s)%Z) ss -> Forall2 Rlt mn mx ->
  positions ss mn mx (at_frac ks al) x -> indices_at ss mn mx x = ks.
Proof.
  induction 1 as [|s ss k ks a al Hc _ IH]; intros mn mx x Hs Hm Hp.
  - inversion Hp; reflexivity.
  - unfold at_frac in Hp. cbn [combine List.map fst snd] in Hp. inversion Hp; subst. inversion Hs; subst. inversion Hm; subst.
    cbn [indices_at]. rewrite position_inv by assumption. f_equal; [|apply IH; assumption].
    destruct Hc as (_ & Ha & _). apply Int_part_unique; lra.
Qed.

Lemma alphas_cells ss ks al : cells ss ks al -> forall mn mx x x0 ys, Forall (fun s => (2 <= s)%Z) ss -> Forall2 Rlt mn mx ->
  positions ss mn mx (at_frac ks al) x -> positions ss mn mx (List.map IZR ks) x0 -> alphas_of ss mn mx x (x0 ++ ys) = al.
Proof.
  induction 1 as [|s ss k ks a al Hc _ IH]; intros mn mx x x0 ys Hs Hm Hp Hq.
  - inversion Hp; subst. destruct (x0 ++ ys); reflexivity.
  - unfold at_frac in Hp. cbn [combine List.map fst snd] in Hp. inversion Hp; subst. inversion Hs; subst. inversion Hm; subst.
    cbn [List.map] in Hq. inversion Hq; subst. cbn [app alphas_of]. rewrite position_diff by assumption.
    f_equal; [|apply IH; assumption]. replace (IZR k + a - IZR k) with a by ring.
    destruct Hc as (_ & Ha & _). unfold clamp. rewrite Rmin_left by lra. apply Rmax_left. lra.
Qed.

(** ** Corners *)
Fixpoint bits (n : nat) (d : N) : list Z :=
  match n with O => [] | S m => (if N.odd d then 1 else 0)%Z :: bits m (N.div2 d) end.
Fixpoint weight (al : list R) (b : list Z) : R :=
  match al, b with a :: al', i :: b' => (if (i =? 1)%Z then a else 1 - a) * weight al' b' | _, _ => 1 end.
Lemma corner_spec ss : forall al d w c, length al = length ss ->
  corner ss al d w c = (w * weight al (bits (length ss) d), index_acc c ss (bits (length ss) d)).
Proof.
  induction ss as [|s ss IH]; intros [|a al] d w c H; try discriminate; cbn [corner length bits weight index_acc].
  - rewrite Rmult_1_r. reflexivity.
  - rewrite IH by (cbn in *; lia). f_equal. destruct (N.odd d); cbn; ring.
Qed.
Lemma bits_corner n : forall d, corner_bits n (bits n d).
Proof.
  induction n as [|n IH]; intros d; cbn [bits]; [split; [reflexivity|constructor]|].
  destruct (IH (N.div2 d)) as [H1 H2]. split; [cbn; congruence|]. constructor; [|assumption]. destruct (N.odd d); auto.
Qed.
Lemma corner_bits_ex n : forall b, corner_bits n b -> exists d, (d < 2 ^ N.of_nat n)%N /\ bits n d = b.
Proof.
  induction n as [|n IH]; intros b [Hl Hb].
  - destruct b; [|discriminate]. exists 0%N. split; [reflexivity|reflexivity].
  - destruct b as [|i b]; [discriminate|]. inversion Hb; subst. destruct (IH b) as (d & Hd & E).
    { split; [cbn in Hl; congruence|assumption]. }
    rewrite Nat2N.inj_succ, N.pow_succ_r'.
    destruct H1 as [-> | ->].
    + exists (N.double d). split; [rewrite N.double_spec; lia|]. cbn [bits]. rewrite N.div2_double, E.
      replace (N.odd (N.double d)) with false; [reflexivity|]. rewrite N.double_spec, N.odd_mul. reflexivity.
    + exists (N.succ_double d). split; [rewrite N.succ_double_spec; lia|]. cbn [bits]. rewrite N.div2_succ_double, E.
      replace (N.odd (N.succ_double d)) with true; [reflexivity|]. rewrite N.succ_double_spec, N.add_1_r, N.odd_succ, N.even_mul. reflexivity.
Qed.

Fixpoint rsum {A} (f : A -> R) (l : list A) : R := match l with [] => 0 | a :: t => f a + rsum f t end.
Lemma rsum_app {A} (f : A -> R) a b : rsum f (a ++ b) = rsum f a + rsum f b.
Proof. induction a as [|x a IH]; cbn [rsum app]; [ring|]. rewrite IH. ring. Qed.
Lemma rsum_ext {A} (f g : A -> R) l : (forall a, In a l -> f a = g a) -> rsum f l = rsum g l.
Proof. induction l as [|x l IH]; intros H; cbn [rsum]; [reflexivity|]. rewrite (H x) by (left; reflexivity). rewrite IH; [reflexivity|]. intros; apply H; right; assumption. Qed.
Lemma rsum_plus {A} (f g : A -> R) l : rsum (fun a => f a + g a) l = rsum f l + rsum g l.
Proof. induction l as [|x l IH]; cbn [rsum]; [ring|]. rewrite IH. ring. Qed.
Lemma rsum_scal {A} c (f : A -> R) l : rsum (fun a => c * f a) l = c * rsum f l.
Proof. induction l as [|x l IH]; cbn [rsum]; [ring|]. rewrite IH. ring. Qed.

Definition below (n : nat) : list N := List.map N.of_nat (seq 0 n).
Lemma below_S n : below (S n) = below n ++ [N.of_nat n].
Proof. unfold below. rewrite seq_S, map_app. reflexivity. Qed.
Lemma below_in n d : In d (below n) <-> (d < N.of_nat n)%N.
Proof.
  unfold below. rewrite in_map_iff. split.
  - intros (i & <- & Hi). apply in_seq in Hi. lia.
  - intros H. exists (N.to_nat d). rewrite in_seq. lia.
Qed.
Lemma rsum_double f m : rsum f (below (2 * m)) = rsum (fun d => f (N.double d) + f (N.succ_double d)) (below m).
Proof.
  induction m as [|m IH]; [reflexivity|]. replace (2 * S m)%nat with (S (S (2 * m))) by lia.
  rewrite !below_S, !rsum_app, IH. cbn [rsum].
  replace (N.of_nat (2 * m)) with (N.double (N.of_nat m)) by (rewrite N.double_spec; lia).
  replace (N.of_nat (S (2 * m))) with (N.succ_double (N.of_nat m)) by (rewrite N.succ_double_spec; lia). ring.
Qed.

Lemma corners_blend al : forall F,
  rsum (fun d => weight al (bits (length al) d) * F (bits (length al) d)) (below (2 ^ length al)) = blend al F.
Proof.
  induction al as [|a al IH]; intros F.
  - cbn. ring.
  - cbn [length blend]. rewrite Nat.pow_succ_r', rsum_double. rewrite <- (IH (fun b => F (0%Z :: b))), <- (IH (fun b => F (1%Z :: b))).
    rewrite <- !rsum_scal, <- rsum_plus. apply rsum_ext. intros d _. cbn [bits weight].
    rewrite N.div2_double, N.div2_succ_double.
    replace (N.odd (N.double d)) with false by (rewrite N.double_spec, N.odd_mul; reflexivity).
    replace (N.odd (N.succ_double d)) with true by (rewrite N.succ_double_spec, N.add_1_r, N.odd_succ, N.even_mul; reflexivity).
    change (1 =? 1)%Z with true. change (0 =? 1)%Z with false. cbv iota beta. ring.
Qed.

(** Corners outside the grid have weight zero. *)
Lemma outside_weight ss ks al : cells ss ks al -> forall b, corner_bits (length ss) b ->
  inside ss (shift ks b) \/ weight al b = 0.
Proof.
  induction 1 as [|s ss k ks a al Hc _ IH]; intros b [Hl Hb].
  - left. constructor.
  - destruct b as [|i b]; [discriminate|]. inversion Hb; subst. cbn [shift weight].
    destruct (IH b) as [Hin|Hw]; [split; [cbn in Hl; congruence|assumption]| |right; rewrite Hw; ring].
    destruct Hc as (Hk & Ha & Hlast). destruct (Z_lt_le_dec (k + i) s).
    + left. constructor; [|assumption]. destruct H1; lia.
    + right. assert (i = 1%Z) by (destruct H1; lia). subst i. rewrite Hlast by lia. change (1 =? 1)%Z with true. cbv iota. ring.
Qed.

(** ** The loop *)
Lemma grid_get_cases g i : (exists r, grid_get g i = Ok r) \/ grid_get g i = Abort.
Proof. unfold grid_get. destruct (i <? 0)%Z; [auto|]. destruct (nth_error _ _); eauto. Qed.
Definition row_read (g : grid) (al : list R) (id : Z) (d : N) : outcome (list R) :=
  let cid := snd (corner (g_sizes g) al d 1 0%Z) in
  grid_get g (id + (if (Z.of_nat (length (g_rows g)) <? id + cid)%Z then 0 else cid))%Z.
Lemma corners_cons g al id d ds y : corners g al id (d :: ds) y =
  bind (row_read g al id d) (fun row => corners g al id ds
        (cwise Rplus y (List.map (fun v => fst (corner (g_sizes g) al d 1 0%Z) * v) (firstn (g_dy g) (skipn (length (g_sizes g)) row))))).
Proof. cbn [corners]. unfold row_read. destruct (corner (g_sizes g) al d 1 0%Z) as [w c]. reflexivity. Qed.
Lemma corners_abort g al id ds : (exists d, In d ds /\ row_read g al id d = Abort) -> forall y, corners g al id ds y = Abort.
Proof.
  induction ds as [|d ds IH]; intros (d0 & Hin & Hd) y; [destruct Hin|]. rewrite corners_cons.
  destruct (grid_get_cases g (id + (if (Z.of_nat (length (g_rows g)) <? id + snd (corner (g_sizes g) al d 1 0%Z))%Z then 0 else snd (corner (g_sizes g) al d 1 0%Z)))%Z) as [[r E]|E];
    change (row_read g al id d = Ok r) in E || change (row_read g al id d = Abort) in E; rewrite E; cbn [bind]; [|reflexivity].
  apply IH. destruct Hin as [->|Hin]; [congruence|]. eauto.
Qed.
Lemma cwise_nth (a : list R) : forall b j, length b = length a -> (j < length a)%nat -> nth j (cwise Rplus a b) 0 = nth j a 0 + nth j b 0.
Proof.
  induction a as [|x a IH]; intros [|y b] j H Hj; try discriminate; cbn in *; [lia|]. destruct j; [reflexivity|]. apply IH; [lia|lia].
Qed.
Lemma cwise_length (a : list R) : forall b, length b = length a -> length (cwise Rplus a b) = length a.
Proof. induction a as [|x a IH]; intros [|y b] H; try discriminate; cbn; [reflexivity|]. f_equal. apply IH. now injection H. Qed.
Lemma nth_firstn_skipn (n m j : nat) (l : list R) : (j < n)%nat -> nth j (firstn n (skipn m l)) 0 = nth (m + j) l 0.
Proof.
  intros Hj. assert (E : forall (l : list R), nth j (firstn n l) 0 = nth j l 0).
  { clear l m. revert j Hj. induction n as [|n IH]; intros j Hj l; [lia|]. destruct l; [reflexivity|]. destruct j; [reflexivity|]. cbn. apply IH. lia. }
  rewrite E. revert l. induction m as [|m IH]; intros l; [reflexivity|]. destruct l; [cbn; destruct (m + j)%nat; destruct j; reflexivity|]. cbn. apply IH.
Qed.
Lemma nth_map0 (w : R) (l : list R) j : nth j (List.map (fun v => w * v) l) 0 = w * nth j l 0.
Proof. revert j. induction l as [|x l IH]; intros [|j]; cbn; try ring. apply IH. Qed.

Lemma corners_ok g al id rowf ds : (forall d, In d ds -> row_read g al id d = Ok (rowf d) /\ length (rowf d) = (length (g_sizes g) + g_dy g)%nat) ->
  forall y, length y = g_dy g -> exists y', corners g al id ds y = Ok y' /\ length y' = g_dy g /\
    forall j, (j < g_dy g)%nat -> nth j y' 0 = nth j y 0 + rsum (fun d => fst (corner (g_sizes g) al d 1 0%Z) * nth (length (g_sizes g) + j) (rowf d) 0) ds.
Proof.
  induction ds as [|d ds IH]; intros H y Hy.
  - exists y. split; [reflexivity|]. split; [assumption|]. intros; cbn; ring.
  - destruct (H d ltac:(left; reflexivity)) as [E L]. rewrite corners_cons, E. cbn [bind].
    set (seg := firstn (g_dy g) (skipn (length (g_sizes g)) (rowf d))).
    assert (Ls : length seg = g_dy g) by (unfold seg; rewrite firstn_length, skipn_length; lia).
    set (w := fst (corner (g_sizes g) al d 1 0%Z)).
    assert (Lm : length (List.map (fun v => w * v) seg) = length y) by (rewrite map_length; congruence).
    destruct (IH ltac:(intros; apply H; right; assumption) (cwise Rplus y (List.map (fun v => w * v) seg))) as (y' & E' & L' & N').
    { rewrite cwise_length by assumption. assumption. }
    exists y'. split; [exact E'|]. split; [exact L'|]. intros j Hj. rewrite N' by assumption. cbn [rsum]. fold w.
    rewrite cwise_nth by (assumption || lia). rewrite nth_map0. unfold seg. rewrite nth_firstn_skipn by assumption. ring.
Qed.

(** ** value *)
Lemma nth_error_nth_get g i r : (0 <= i)%Z -> nth_error (g_rows g) (Z.to_nat i) = Some r -> grid_get g i = Ok r.
Proof. intros H E. unfold grid_get. destruct (Z.ltb_spec i 0); [lia|]. rewrite E. reflexivity. Qed.

Lemma lex_nonneg_bits ss : Forall (fun s => (2 <= s)%Z) ss -> forall b, corner_bits (length ss) b -> (0 <= lex ss b)%Z.
Proof.
  induction 1 as [|s ss Hs Hss IH]; intros b [Hl Hb]; [destruct b; reflexivity|].
  destruct b as [|i b]; [discriminate|]. inversion Hb; subst. cbn [lex].
  assert (0 <= lex ss b)%Z by (apply IH; split; [cbn in Hl; congruence|assumption]).
  pose proof (total_pos ss Hss). destruct H1; subst i; lia.
Qed.

Section Value.
Variable g : grid.
Hypothesis G : grid_ok g.
Variables (x : list R) (k : list Z) (al : list R).
Hypothesis Hloc : locates g x k al.

Let ss := g_sizes g.
Let Lk : length k = length ss. Proof. apply (cells_length _ _ _ (proj1 Hloc)). Qed.
Let Lal : length al = length ss. Proof. apply (cells_length _ _ _ (proj1 Hloc)). Qed.
Let Hin : inside ss k. Proof. exact (cells_inside _ _ _ (proj1 Hloc)). Qed.

Lemma rows_get i : (0 <= i < total ss)%Z -> exists r, grid_get g i = Ok r /\ nth_error (g_rows g) (Z.to_nat i) = Some r /\ length r = (length ss + g_dy g)%nat.
Proof.
  intros Hi. destruct (get_indices_inside ss i (ok_sizes g G) Hi) as [I1 I2].
  destruct (ok_row g G _ I1) as (xs & ys & E & P & L). change (g_sizes g) with ss in E. rewrite I2 in E.
  exists (xs ++ ys). split; [apply nth_error_nth_get; [lia|exact E]|]. split; [exact E|].
  rewrite app_length, L. f_equal. exact (positions_length _ _ _ _ _ P).
Qed.

Lemma value_start : exists row0, grid_get g (lex ss k) = Ok row0 /\
  grid_value g x = corners g al (lex ss k) (below (2 ^ length ss)) (repeat 0 (g_dy g)).
Proof.
  destruct Hloc as [Hc Hp]. destruct (ok_row g G k Hin) as (xs & ys & E & P & L).
  assert (Eg : grid_get g (lex ss k) = Ok (xs ++ ys)).
  { apply nth_error_nth_get; [|exact E]. apply lex_range. exact Hin. }
  exists (xs ++ ys). split; [exact Eg|]. unfold grid_value.
  rewrite (indices_at_cells _ _ _ Hc _ _ _ (ok_sizes g G) (ok_domain g G) Hp).
  rewrite get_index_lex by exact Lk. change (lex (g_sizes g) k) with (lex ss k). rewrite Eg. cbn [bind].
  rewrite (alphas_cells _ _ _ Hc _ _ _ xs ys (ok_sizes g G) (ok_domain g G) Hp P).
  fold ss. replace (N.to_nat (2 ^ N.of_nat (length ss))) with (2 ^ length ss)%nat; [reflexivity|].
  apply Nat2N.inj. rewrite N2Nat.id. rewrite Nat2N.inj_pow. reflexivity.
Qed.

Lemma row_read_spec d : row_read g al (lex ss k) d =
  let r := lex ss (shift k (bits (length ss) d)) in
  grid_get g (if (total ss <? r)%Z then lex ss k else r).
Proof.
  destruct (bits_corner (length ss) d) as [Lb _].
  unfold row_read. fold ss. rewrite corner_spec by exact Lal. cbn [snd]. rewrite index_lex by exact Lb.
  rewrite (ok_rows g G). fold ss. cbv zeta. rewrite (lex_shift ss k _ Lk Lb).
  replace (0 * total ss + lex ss (bits (length ss) d))%Z with (lex ss (bits (length ss) d)) by ring.
  destruct (total ss <? lex ss k + lex ss (bits (length ss) d))%Z; f_equal; ring.
Qed.

Lemma value_abort b : corner_bits (length ss) b -> lex ss (shift k b) = total ss -> grid_value g x = Abort.
Proof.
  intros Hb E. destruct value_start as (row0 & _ & ->). apply corners_abort.
  destruct (corner_bits_ex _ b Hb) as (d & Hd & Ed). exists d. split.
  - apply below_in. rewrite Nat2N.inj_pow. exact Hd.
  - rewrite row_read_spec. rewrite Ed. cbv zeta. rewrite E, Z.ltb_irrefl.
    unfold grid_get. destruct (Z.ltb_spec (total ss) 0); [reflexivity|].
    destruct (nth_error (g_rows g) (Z.to_nat (total ss))) eqn:En; [|reflexivity].
    assert (Hlt : (Z.to_nat (total ss) < length (g_rows g))%nat) by (apply nth_error_Some; congruence).
    pose proof (ok_rows g G) as Hr. fold ss in Hr. lia.
Qed.

Lemma value_blend : (forall b, corner_bits (length ss) b -> lex ss (shift k b) <> total ss) ->
  exists y, grid_value g x = Ok y /\ length y = g_dy g /\
    forall j, (j < g_dy g)%nat -> nth j y 0 = blend al (fun b => stored g (shift k b) j).
Proof.
  intros Hno. destruct value_start as (row0 & E0 & ->).
  set (rowf := fun d => match row_read g al (lex ss k) d with Ok r => r | _ => [] end).
  assert (Hr : forall d, row_read g al (lex ss k) d = Ok (rowf d) /\ length (rowf d) = (length ss + g_dy g)%nat /\
     (inside ss (shift k (bits (length ss) d)) -> forall j, nth (length ss + j) (rowf d) 0 = stored g (shift k (bits (length ss) d)) j)).
  { intros d. pose proof (bits_corner (length ss) d) as Hb. unfold rowf. rewrite row_read_spec. cbv zeta.
    set (r := lex ss (shift k (bits (length ss) d))).
    assert (Hr0 : (0 <= r)%Z).
    { unfold r. rewrite (lex_shift ss k _ Lk (proj1 Hb)). pose proof (lex_nonneg_bits ss (ok_sizes g G) _ Hb).
      pose proof (lex_range ss k Hin). lia. }
    pose proof (Hno _ Hb) as Hne. fold r in Hne.
    destruct (Z.ltb_spec (total ss) r).
    - destruct (rows_get (lex ss k) (lex_range ss k Hin)) as (row & E & _ & L). rewrite E. split; [reflexivity|]. split; [exact L|].
      intros Hi. pose proof (lex_range _ _ Hi). unfold r in *. lia.
    - destruct (rows_get r) as (row & E & En & L); [lia|]. rewrite E. split; [reflexivity|]. split; [exact L|].
      intros Hi j. unfold stored. fold ss. fold r. rewrite (nth_error_nth _ _ [] En). reflexivity. }
  destruct (corners_ok g al (lex ss k) rowf (below (2 ^ length ss))) with (y := repeat 0 (g_dy g)) as (y & E & L & N).
  - intros d _. destruct (Hr d) as (H1 & H2 & _). split; assumption.
  - apply repeat_length.
  - exists y. split; [exact E|]. split; [exact L|]. intros j Hj. rewrite N by assumption.
    rewrite nth_repeat, Rplus_0_l. rewrite <- corners_blend. rewrite Lal. apply rsum_ext. intros d _.
    rewrite corner_spec by exact Lal. cbn [fst]. fold ss. rewrite Rmult_1_l.
    destruct (outside_weight _ _ _ (proj1 Hloc) _ (bits_corner (length ss) d)) as [Hi|Hw].
    + destruct (Hr d) as (_ & _ & H3). rewrite (H3 Hi). reflexivity.
    + rewrite Hw. ring.
Qed.

(** Inside the last nodes no corner leaves the grid. *)
Lemma interior_ok : Forall2 (fun s i => (i + 1 < s)%Z) ss k -> forall b, corner_bits (length ss) b -> lex ss (shift k b) <> total ss.
Proof.
  intros HF b Hb. assert (Hi : inside ss (shift k b)).
  { clear - HF Hb Hin. revert b Hb. unfold inside in Hin. induction HF as [|s i ss' ks' H HF IH]; intros b [Hl Hb].
    - constructor.
    - destruct b as [|d b]; [discriminate|]. inversion Hb; subst. inversion Hin; subst. cbn [shift]. constructor; [destruct H2; lia|].
      apply IH; [assumption|]. split; [cbn in Hl; congruence|assumption]. }
  pose proof (lex_range _ _ Hi). lia.
Qed.
End Value.

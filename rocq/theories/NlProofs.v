(** The loops shared by the non linear function plugins. *)
From Coq Require Import Reals List Lia Lra.
From Verif Require Import Base ParamsModel GeoModel CommonModel FuncModel FuncSpec FuncProofs FuncJac TextModel NlModel NlSpec.
Open Scope R_scope.


Lemma updl_length st : forall l a, length (updl st l a) = length st.
Proof. induction st as [|b st IH]; intros [|l] a; cbn; congruence. Qed.
Lemma nth_updl st : forall l m a, nth m (updl st l a) [] = if ((l =? m) && (m <? length st))%nat%bool then a else nth m st [].
Proof.
  induction st as [|b st IH]; intros l m a.
  - cbn. destruct m, l; cbn; try reflexivity; destruct (Nat.eqb l m); reflexivity.
  - destruct l as [|l], m as [|m]; cbn [updl nth Nat.eqb andb length]; try reflexivity.
    rewrite IH. reflexivity.
Qed.

Lemma rd2_ok k n st l i : shaped k n st -> (l < k)%nat -> (i < n)%nat -> rd2 st l i = Ok (ent st l i).
Proof.
  intros [Hk Hn] Hl Hi. unfold rd2, ent. destruct (nth_error st l) as [a|] eqn:E; [|apply nth_error_None in E; lia].
  assert (Ea : nth l st [] = a) by (apply nth_error_nth; exact E).
  specialize (Hn l Hl). rewrite Ea in *. apply rd_nth. lia.
Qed.

Lemma wr2_ok k n st l i v : shaped k n st -> (l < k)%nat -> (i < n)%nat ->
  exists st', wr2 st l i v = Ok st' /\ shaped k n st' /\
    forall m j, ent st' m j = if ((l =? m) && (i =? j))%nat%bool then v else ent st m j.
Proof.
  intros [Hk Hn] Hl Hi. unfold wr2. destruct (nth_error st l) as [a|] eqn:E; [|apply nth_error_None in E; lia].
  assert (Ea : nth l st [] = a) by (apply nth_error_nth; exact E).
  pose proof (Hn l Hl) as La. rewrite Ea in La. unfold wr. destruct (Nat.ltb_spec i (length a)) as [_|]; [|lia]. cbn [bind].
  eexists. split; [reflexivity|]. split.
  - split; [rewrite updl_length; exact Hk|]. intros m Hm. rewrite nth_updl. destruct (_ && _)%bool; [rewrite upd_length; exact La|apply Hn, Hm].
  - intros m j. unfold ent. rewrite nth_updl. destruct (Nat.eqb_spec l m) as [->|Nm]; [|reflexivity]. cbn [andb].
    destruct (Nat.ltb_spec m (length st)) as [_|]; [|lia]. rewrite nth_upd.
    destruct (Nat.eqb_spec i j) as [->|Nj]; cbn [andb].
    + destruct (Nat.ltb_spec j (length a)); [reflexivity|lia].
    + rewrite Ea. reflexivity.
Qed.

(** a double loop that fills all the members *)
Lemma fill_ok k n (f : nat -> nat -> R) body : forall st, shaped k n st ->
  (forall i l s, (i < n)%nat -> (l < k)%nat -> shaped k n s -> body i l s = wr2 s l i (f i l)) ->
  exists st', for_ n 0 (fun i s => for_ k 0 (fun l s => body i l s) s) st = Ok st' /\ shaped k n st' /\
    forall i l, (i < n)%nat -> (l < k)%nat -> ent st' l i = f i l.
Proof.
  intros st Hst Hb.
  destruct (for_inv (fun m s => shaped k n s /\ forall i l, (i < m)%nat -> (l < k)%nat -> ent s l i = f i l)
    (fun i s => for_ k 0 (fun l s => body i l s) s) n 0) with (s := st) as (st' & E & S1 & E1).
  - intros i s Hi (S0 & E0).
    destruct (for_inv (fun m s => shaped k n s /\ (forall i' l, (i' < i)%nat -> (l < k)%nat -> ent s l i' = f i' l) /\
       forall l, (l < m)%nat -> ent s l i = f i l) (body i) k 0) with (s := s) as (s' & E & S1 & E1 & E2).
    + intros l t Hl (S1 & E1 & E2). rewrite Hb by (auto; lia).
      destruct (wr2_ok k n t l i (f i l) S1 ltac:(lia) ltac:(lia)) as (t' & E & S2 & R2).
      exists t'. split; [exact E|]. split; [exact S2|]. split.
      * intros i' l' Hi' Hl'. rewrite R2. destruct (Nat.eqb_spec i i'); [lia|]. rewrite Bool.andb_false_r. apply E1; assumption.
      * intros l' Hl'. rewrite R2, Nat.eqb_refl, Bool.andb_true_r. destruct (Nat.eqb_spec l l') as [->|]; [reflexivity|]. apply E2. lia.
    + split; [exact S0|]. split; [exact E0|]. intros; lia.
    + exists s'. split; [exact E|]. split; [exact S1|]. intros i' l Hi' Hl.
      destruct (Nat.eq_dec i' i) as [->|]; [apply E2; lia|apply E1; [lia|exact Hl]].
  - split; [exact Hst|]. intros; lia.
  - exists st'. split; [exact E|]. split; [exact S1|]. intros i l Hi Hl. apply E1; [lia|exact Hl].
Qed.

(** reading the members back *)
Lemma gather_ok k n (f : nat -> nat -> R) L body : (L = k * n)%nat -> forall out, length out = L ->
  (forall i l s, (i < n)%nat -> (l < k)%nat -> length s = L -> body i l s = wr s (i * k + l) (f i l)) ->
  exists out', for_ n 0 (fun i s => for_ k 0 (fun l s => body i l s) s) out = Ok out' /\ length out' = L /\
    forall i l, (i < n)%nat -> (l < k)%nat -> nth (i * k + l) out' 0 = f i l.
Proof.
  intros HL out Ho Hb.
  destruct (for_inv (fun m s => length s = L /\ forall i l, (i < m)%nat -> (l < k)%nat -> nth (i * k + l) s 0 = f i l)
    (fun i s => for_ k 0 (fun l s => body i l s) s) n 0) with (s := out) as (st' & E & S1 & E1).
  - intros i s Hi (S0 & E0).
    destruct (for_write k L (fun l => i * k + l)%nat (f i) (body i) s) as (s' & E & S1 & E1 & E2).
    + intros l t Hl Ht. apply Hb; auto. lia.
    + intros l Hl. subst L. apply (mul_add_lt i k l n); lia.
    + intros a b _ _ H. lia.
    + exact S0.
    + exists s'. split; [exact E|]. split; [exact S1|]. intros i' l Hi' Hl.
      destruct (Nat.eq_dec i' i) as [->|]; [apply E1, Hl|].
      rewrite E2. { apply E0; [lia|exact Hl]. }
      intros l' Hl' H. apply mul_add_inj in H; [lia|lia|lia].
  - split; [exact Ho|]. intros; lia.
  - exists st'. split; [exact E|]. split; [exact S1|]. intros i l Hi Hl. apply E1; [lia|exact Hl].
Qed.

(** parameters of channel [y] in the parameter vector *)
Definition channel (k : nat) (p : list R) (y : nat) : list R := map (fun l => nth (y * k + l) p 0) (seq 0 k).

Section Plugin.
Variable junk : R.
Variable F : nlf.
Variable nY : nat.
Notation k := (f_k F).

Lemma set_params_ok p st : shaped k nY st -> length p = (k * nY)%nat ->
  exists st', set_params F nY p st = Ok st' /\ shaped k nY st' /\
    forall i l, (i < nY)%nat -> (l < k)%nat -> ent st' l i = nth (i * k + l) p 0.
Proof.
  intros Hs Hp. apply fill_ok; [exact Hs|]. intros i l s Hi Hl _.
  rewrite rd_nth by (rewrite Hp; apply mul_add_lt; assumption). reflexivity.
Qed.

Lemma get_params_ok st : shaped k nY st ->
  exists p, get_params junk F nY st = Ok p /\ length p = (k * nY)%nat /\
    forall i l, (i < nY)%nat -> (l < k)%nat -> nth (i * k + l) p 0 = ent st l i.
Proof.
  intros Hs. apply gather_ok; [reflexivity|apply repeat_length|]. intros i l s Hi Hl _.
  rewrite (rd2_ok k nY) by assumption. reflexivity.
Qed.

Lemma start_ok st : shaped k nY st ->
  exists st', start F nY st = Ok st' /\ shaped k nY st' /\
    forall i l, (i < nY)%nat -> (l < k)%nat -> ent st' l i = nth l (f_start F) 0.
Proof. intros Hs. apply fill_ok with (f := fun i l => nth l (f_start F) 0); [exact Hs|]. reflexivity. Qed.

Lemma members_shaped : f_sizes F nY = nY -> shaped k nY (members junk F nY).
Proof.
  intros H. unfold members. split; [apply repeat_length|]. intros l Hl. rewrite H.
  rewrite (nth_indep _ [] (repeat junk nY)) by (rewrite repeat_length; exact Hl). rewrite nth_repeat. apply repeat_length.
Qed.

Lemma chan_ok n : forall l st i, shaped k nY st -> (l + n <= k)%nat -> (i < nY)%nat ->
  chan n l st i = Ok (map (fun m => ent st m i) (seq l n)).
Proof.
  induction n as [|n IH]; intros l st i Hs Hl Hi; cbn [chan seq map]; [reflexivity|].
  rewrite (rd2_ok k nY) by (assumption || lia). cbn [bind]. rewrite IH by (assumption || lia). reflexivity.
Qed.

Lemma map_nth_len {A} (f : nat -> A) n i d : (i < n)%nat -> nth i (map f (seq 0 n)) d = f i.
Proof.
  intros H. rewrite (nth_indep _ d (f 0%nat)) by (rewrite map_length, seq_length; exact H).
  rewrite map_nth, seq_nth by exact H. reflexivity.
Qed.

Lemma map_nth_seq0 n (l : list R) : length l = n -> map (fun i => nth i l 0) (seq 0 n) = l.
Proof. intros <-. apply map_nth_seq. Qed.

Variable p : list R.
Hypothesis Hsz : f_sizes F nY = nY.
Hypothesis Hp : length p = (k * nY)%nat.

Lemma stored : exists st, set_params F nY p (members junk F nY) = Ok st /\ shaped k nY st /\
  (forall i, (i < nY)%nat -> chan k 0 st i = Ok (channel k p i)).
Proof.
  destruct (set_params_ok p (members junk F nY) (members_shaped Hsz) Hp) as (st & E & S & R).
  exists st. split; [exact E|]. split; [exact S|]. intros i Hi. rewrite chan_ok by (assumption || lia). f_equal.
  apply map_ext_in. intros l Hl. apply in_seq in Hl. apply R; lia.
Qed.

Lemma value_at_ok x g : f_geo F x = Ok g ->
  value_at junk F nY p x = Ok (map (fun y => f_val F g (channel k p y)) (seq 0 nY)).
Proof.
  intros Hg. destruct stored as (st & E & S & C). unfold value_at. rewrite E. cbn [bind]. unfold value. rewrite Hg. cbn [bind].
  destruct (for_write nY nY (fun i => i) (fun y => f_val F g (channel k p y))
    (fun i res => do c <- chan k 0 st i; wr res i (f_val F g c)) (repeat junk nY)) as (v & Ev & Lv & Nv & _).
  - intros i s Hi _. rewrite C by exact Hi. reflexivity.
  - auto.
  - auto.
  - apply repeat_length.
  - rewrite Ev. f_equal. rewrite <- (map_nth_seq0 nY v Lv). apply map_ext_in. intros y Hy. apply in_seq in Hy. apply Nv. lia.
Qed.

Lemma jacobian_at_ok x g : f_geo F x = Ok g -> (f_trans F = true -> k = 1%nat) ->
  exists J, jacobian_at junk F nY p x = Ok J /\ length J = (nY * (k * nY))%nat /\
    forall y j l, (y < nY)%nat -> (j < nY)%nat -> (l < k)%nat ->
      nth (y * (k * nY) + (j * k + l)) J 0 = if (y =? j)%nat then f_jac F g (channel k p y) l else 0.
Proof.
  intros Hg Ht. destruct stored as (st & E & S & C). unfold jacobian_at. rewrite E. cbn [bind]. unfold jacobian. rewrite Hg. cbn [bind].
  set (L := (nY * (k * nY))%nat).
  set (h := fun i j l => if (i =? j)%nat then f_jac F g (channel k p i) l else 0).
  set (pos := fun i j l : nat => if f_trans F then (j * nY + i)%nat else (i * (k * nY) + j * k + l)%nat).
  assert (Hbody : forall i j l s, (i < nY)%nat ->
    (do v <- (if (i =? j)%nat then do c <- chan k 0 st i; Ok (f_jac F g c l) else Ok 0); wr s (pos i j l) v) = wr s (pos i j l) (h i j l)).
  { intros i j l s Hi. unfold h. destruct (i =? j)%nat; [rewrite C by exact Hi|]; reflexivity. }
  assert (Hrow : forall i s, (i < nY)%nat -> length s = L ->
    exists s', for_ nY 0 (fun j s => for_ k 0 (fun l s =>
      do v <- (if (i =? j)%nat then do c <- chan k 0 st i; Ok (f_jac F g c l) else Ok 0); wr s (pos i j l) v) s) s = Ok s' /\
      length s' = L /\ (forall j l, (j < nY)%nat -> (l < k)%nat -> nth (pos i j l) s' 0 = h i j l) /\
      (forall q, (forall j l, (j < nY)%nat -> (l < k)%nat -> pos i j l <> q) -> nth q s' 0 = nth q s 0)).
  { intros i s Hi Hs.
    destruct (for_inv (fun m t => length t = L /\ (forall j l, (j < m)%nat -> (l < k)%nat -> nth (pos i j l) t 0 = h i j l) /\
       (forall q, (forall j l, (j < m)%nat -> (l < k)%nat -> pos i j l <> q) -> nth q t 0 = nth q s 0))
      (fun j s => for_ k 0 (fun l s =>
      do v <- (if (i =? j)%nat then do c <- chan k 0 st i; Ok (f_jac F g c l) else Ok 0); wr s (pos i j l) v) s) nY 0) with (s := s) as (s' & E1 & A1 & A2 & A3).
    - intros j t Hj (B1 & B2 & B3).
      destruct (for_write k L (pos i j) (h i j) (fun l s =>
        do v <- (if (i =? j)%nat then do c <- chan k 0 st i; Ok (f_jac F g c l) else Ok 0); wr s (pos i j l) v) t) as (t' & E1 & A1 & A2 & A3).
      + intros l u Hl Hu. apply Hbody, Hi.
      + intros l Hl. unfold pos, L. destruct (f_trans F); [rewrite (Ht eq_refl); nia|]. 
        pose proof (mul_add_lt j k l nY ltac:(lia) Hl). nia.
      + intros a b Ha Hb. unfold pos. destruct (f_trans F); [rewrite (Ht eq_refl) in *; lia|lia].
      + exact B1.
      + exists t'. split; [exact E1|]. split; [exact A1|]. split.
        * intros j' l Hj' Hl. destruct (Nat.eq_dec j' j) as [->|]; [apply A2, Hl|].
          rewrite A3. { apply B2; [lia|exact Hl]. }
          intros l' Hl' Eq. unfold pos in Eq. destruct (f_trans F); [nia|].
          assert (j * k + l' = j' * k + l)%nat by lia. apply mul_add_inj in H; lia.
        * intros q Hq. rewrite A3 by (intros; apply Hq; lia). apply B3. intros; apply Hq; lia.
    - split; [exact Hs|]. split; [intros; lia|reflexivity].
    - exists s'. split; [exact E1|]. split; [exact A1|]. split; [intros; apply A2; lia|intros q Hq; apply A3; intros; apply Hq; lia]. }
  destruct (for_inv (fun m t => length t = L /\ forall i j l, (i < m)%nat -> (j < nY)%nat -> (l < k)%nat -> nth (pos i j l) t 0 = h i j l)
    (fun i s => for_ nY 0 (fun j s => for_ k 0 (fun l s =>
      do v <- (if (i =? j)%nat then do c <- chan k 0 st i; Ok (f_jac F g c l) else Ok 0); wr s (pos i j l) v) s) s) nY 0) with (s := repeat junk L) as (J & EJ & LJ & NJ).
  - intros i t Hi (B1 & B2). destruct (Hrow i t ltac:(lia) B1) as (t' & E1 & A1 & A2 & A3).
    exists t'. split; [exact E1|]. split; [exact A1|]. intros i' j l Hi' Hj Hl.
    destruct (Nat.eq_dec i' i) as [->|]; [apply A2; assumption|].
    rewrite A3. { apply B2; [lia|assumption|assumption]. }
    intros j' l' Hj' Hl' Eq. unfold pos in Eq. destruct (f_trans F).
    + assert (j' * nY + i = j * nY + i')%nat by lia. apply mul_add_inj in H; lia.
    + pose proof (mul_add_lt j k l nY Hj Hl). pose proof (mul_add_lt j' k l' nY Hj' Hl').
      assert (i * (k * nY) + (j' * k + l') = i' * (k * nY) + (j * k + l))%nat by lia. apply mul_add_inj in H1; lia.
  - split; [apply repeat_length|]. intros; lia.
  - exists J. split; [exact EJ|]. split; [exact LJ|]. intros y j l Hy Hj Hl.
    destruct (f_trans F) eqn:T.
    + specialize (Ht eq_refl). pose proof (NJ j y l ltac:(lia) Hy Hl) as N. unfold pos, h in N.
      replace (y * (k * nY) + (j * k + l))%nat with (y * nY + j)%nat by (rewrite Ht in *; lia). rewrite N, Nat.eqb_sym.
      destruct (Nat.eqb_spec y j) as [->|]; reflexivity.
    + pose proof (NJ y j l ltac:(lia) Hj Hl) as N. unfold pos, h in N. rewrite Nat.add_assoc. exact N.
Qed.
End Plugin.

Lemma channel_upd k p j l s y : (l < k)%nat -> (j * k + l < length p)%nat ->
  channel k (upd p (j * k + l) s) y = if (y =? j)%nat then upd (channel k p y) l s else channel k p y.
Proof.
  intros Hl Hp. unfold channel.
  assert (G : forall m, (m < k)%nat -> nth (y * k + m) (upd p (j * k + l) s) 0 = if ((y =? j) && (l =? m))%nat%bool then s else nth (y * k + m) p 0).
  { intros m Hm. rewrite nth_upd. destruct (Nat.eqb_spec (j * k + l) (y * k + m)) as [E|N].
    - apply mul_add_inj in E; [|assumption|assumption]. destruct E as [-> ->]. rewrite !Nat.eqb_refl. cbn [andb].
      destruct (Nat.ltb_spec (y * k + m) (length p)); [reflexivity|lia].
    - cbn [andb]. destruct (Nat.eqb_spec y j) as [->|]; [|reflexivity]. cbn [andb]. destruct (Nat.eqb_spec l m) as [->|]; [congruence|reflexivity]. }
  destruct (Nat.eqb_spec y j) as [->|N].
  - apply nth_ext with (d := 0) (d' := 0); [rewrite upd_length, !map_length; reflexivity|].
    intros m Hm. rewrite map_length, seq_length in Hm. rewrite nth_upd, !map_length, seq_length.
    rewrite !map_nth_len by exact Hm. rewrite G by exact Hm. rewrite ?Nat.eqb_refl. cbn [andb].
    destruct (Nat.eqb_spec l m) as [->|]; [|reflexivity]. destruct (Nat.ltb_spec m k); [reflexivity|lia].
  - apply map_ext_in. intros m Hm. apply in_seq in Hm. rewrite G by lia.
    destruct (Nat.eqb_spec y j); [congruence|reflexivity].
Qed.

Lemma split_index k n i : (i < k * n)%nat -> exists j l, i = (j * k + l)%nat /\ (j < n)%nat /\ (l < k)%nat.
Proof.
  intros H. assert (k <> 0)%nat by (destruct k; [cbn in H; lia|discriminate]).
  exists (i / k)%nat, (i mod k)%nat. split; [rewrite Nat.mul_comm; apply Nat.div_mod; assumption|]. split.
  - apply Nat.div_lt_upper_bound; assumption.
  - apply Nat.mod_upper_bound; assumption.
Qed.

Lemma derivable_const c a : derivable_pt_lim (fun _ => c) a 0.
Proof. apply derivable_pt_lim_const. Qed.

(** entry of the Jacobian and slice of the value, in terms of the channel *)
Lemma partial_value junk F nY p x g y j l : f_sizes F nY = nY -> length p = (f_k F * nY)%nat -> f_geo F x = Ok g ->
  (f_trans F = true -> f_k F = 1%nat) -> (y < nY)%nat -> (j < nY)%nat -> (l < f_k F)%nat ->
  partial_at junk F nY p x y (j * f_k F + l) = (if (y =? j)%nat then f_jac F g (channel (f_k F) p y) l else 0) /\
  (forall s, component (value_at junk F nY (upd p (j * f_k F + l) s) x) y =
     f_val F g (if (y =? j)%nat then upd (channel (f_k F) p y) l s else channel (f_k F) p y)).
Proof.
  intros Hsz Hp Hg Ht Hy Hj Hl. pose proof (mul_add_lt j (f_k F) l nY Hj Hl) as Hi. split.
  - unfold partial_at. destruct (jacobian_at_ok junk F nY p Hsz Hp x g Hg Ht) as (J & E & _ & N). rewrite E. cbn [component].
    apply N; assumption.
  - intros s. rewrite (value_at_ok junk F nY _ Hsz) with (g := g); [|rewrite upd_length; exact Hp|exact Hg].
    cbn [component]. rewrite map_nth_len by exact Hy. rewrite channel_upd by (rewrite ?Hp; assumption). reflexivity.
Qed.

Lemma partial_iff junk F nY p x g y j l : f_sizes F nY = nY -> length p = (f_k F * nY)%nat -> f_geo F x = Ok g ->
  (f_trans F = true -> f_k F = 1%nat) -> (y < nY)%nat -> (j < nY)%nat -> (l < f_k F)%nat ->
  (partial_exact junk F nY p x y (j * f_k F + l) <->
   (y = j -> derivable_pt_lim (fun s => f_val F g (upd (channel (f_k F) p y) l s)) (nth l (channel (f_k F) p y) 0) (f_jac F g (channel (f_k F) p y) l))).
Proof.
  intros Hsz Hp Hg Ht Hy Hj Hl. destruct (partial_value junk F nY p x g y j l Hsz Hp Hg Ht Hy Hj Hl) as [Ej Ev].
  unfold partial_exact. rewrite Ej. destruct (Nat.eqb_spec y j) as [E|N].
  - subst j.
    assert (En : nth (y * f_k F + l) p 0 = nth l (channel (f_k F) p y) 0).
    { unfold channel. rewrite map_nth_len by exact Hl. reflexivity. }
    rewrite En. split.
    + intros H _. eapply derivable_ext; [|exact H]. exact Ev.
    + intros H. eapply derivable_ext; [intros s; symmetry; apply Ev|]. apply H. reflexivity.
  - split; [intros _ E; contradiction|]. intros _. eapply derivable_ext; [intros s; symmetry; apply Ev|]. apply derivable_const.
Qed.

Lemma nl_gradient junk F nY p x g : f_sizes F nY = nY -> length p = (f_k F * nY)%nat -> f_geo F x = Ok g ->
  (f_trans F = true -> f_k F = 1%nat) ->
  (forall y l, (y < nY)%nat -> (l < f_k F)%nat ->
     derivable_pt_lim (fun s => f_val F g (upd (channel (f_k F) p y) l s)) (nth l (channel (f_k F) p y) 0) (f_jac F g (channel (f_k F) p y) l)) ->
  gradient_at junk F nY p x.
Proof.
  intros Hsz Hp Hg Ht Hd. split; [|split].
  - intros q Hq. rewrite (value_at_ok junk F nY q Hsz Hq x g Hg). eexists. split; [reflexivity|]. rewrite map_length. apply seq_length.
  - destruct (jacobian_at_ok junk F nY p Hsz Hp x g Hg Ht) as (J & E & L & _). exists J. auto.
  - intros y i Hy Hi. destruct (split_index _ _ _ Hi) as (j & l & -> & Hj & Hl).
    apply (partial_iff junk F nY p x g); try assumption. intros <-. apply Hd; assumption.
Qed.

(** the parameter vector *)
Lemma set_get_params junk F nY p st : shaped (f_k F) nY st -> length p = (f_k F * nY)%nat ->
  (do s <- set_params F nY p st; get_params junk F nY s) = Ok p.
Proof.
  intros Hs Hp. destruct (set_params_ok F nY p st Hs Hp) as (s & E & S & R). rewrite E. cbn [bind].
  destruct (get_params_ok junk F nY s S) as (q & Eq & Lq & Nq). rewrite Eq. f_equal.
  apply nth_ext with (d := 0) (d' := 0); [congruence|]. intros i Hi. rewrite Lq in Hi.
  destruct (split_index _ _ _ Hi) as (j & l & -> & Hj & Hl). rewrite Nq, R by assumption. reflexivity.
Qed.

(** as a leaf of a function tree *)
Lemma leaf_gradient_of junk F par mn mx p x : gradient_at junk F (dimY par) p x -> length p = (f_k F * dimY par)%nat ->
  leaf_gradient (leaf_of junk F par mn mx) p x.
Proof.
  intros (Hv & (J & EJ & LJ) & Hd) Hp y i Hy Hi. cbn in Hy, Hi.
  specialize (Hd y i Hy Hi). unfold partial_exact, partial_at in Hd. rewrite EJ in Hd. cbn [component] in Hd.
  cbn [leaf_of lf_value lf_jac lf_nb]. rewrite EJ.
  eapply derivable_ext; [|exact Hd]. intros s.
  destruct (Hv (upd p i s) ltac:(rewrite upd_length; exact Hp)) as (v & E & _). rewrite E. reflexivity.
Qed.

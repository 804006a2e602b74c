(** Error metrics (C50). *)
From Coq Require Import Reals List Lia Lra FunctionalExtensionality.
From Verif Require Import Base ParamsModel GeoModel GeoSpec ParamsProofs GeoProofs CommonModel FuncModel MetricsModel MetricsSpec.
Open Scope R_scope.

(** *** norms *)
Lemma rsum_total f v : rsum (List.map f v) = total f v.
Proof. induction v as [|x v IH]; cbn; [reflexivity|]. rewrite IH. reflexivity. Qed.
Lemma total_pos f v : (forall x, 0 <= f x) -> 0 <= total f v.
Proof. intros H. induction v as [|x v IH]; cbn; [lra|]. specialize (H x). lra. Qed.
Lemma total_le f g v : (forall x, In x v -> f x <= g x) -> total f v <= total g v.
Proof. induction v as [|x v IH]; cbn; intros H; [lra|]. pose proof (H x (or_introl eq_refl)). assert (total f v <= total g v) by (apply IH; auto). lra. Qed.
Lemma total_scal f a v : total (fun x => a * f x) v = a * total f v.
Proof. induction v as [|x v IH]; cbn; [lra|]. rewrite IH. lra. Qed.
Lemma total_const a v : total (fun _ => a) v = INR (length v) * a.
Proof. induction v as [|x v IH]; cbn [total length]; [cbn; lra|]. rewrite S_INR. rewrite IH. lra. Qed.
Lemma total_ge_one f v x : (forall y, 0 <= f y) -> In x v -> f x <= total f v.
Proof. intros H. induction v as [|y v IH]; cbn; [tauto|]. intros [->|Hx]; [pose proof (total_pos f v H); lra|]. specialize (IH Hx). specialize (H y). lra. Qed.
Lemma total_zero f v : (forall x, 0 <= f x) -> (forall x, f x = 0 -> x = 0) -> total f v = 0 -> Forall (eq 0) v.
Proof.
  intros H Z E. apply Forall_forall. intros x Hx. pose proof (total_ge_one f v x H Hx). specialize (H x). symmetry. apply Z. lra.
Qed.
Lemma total_of_zero f v : f 0 = 0 -> Forall (eq 0) v -> total f v = 0.
Proof. intros Z. induction 1 as [|x v Hx H IH]; cbn; [reflexivity|]. rewrite <- Hx, Z. lra. Qed.

Lemma sq_pos x : 0 <= x * x. Proof. pose proof (Rle_0_sqr x). unfold Rsqr in *. lra. Qed.
Lemma cube_pos x : 0 <= Rabs x ^ 3. Proof. apply pow_le, Rabs_pos. Qed.

Lemma lp2_root v : is_root 2 (total (fun x => x * x) v) (lp2 v).
Proof. unfold lp2. rewrite rsum_total. split; [apply sqrt_pos|]. pose proof (sqrt_sqrt _ (total_pos (fun x => x * x) v sq_pos)). cbn. lra. Qed.
Lemma cbrt_root x : 0 <= x -> is_root 3 x (cbrt x).
Proof.
  intros H. unfold cbrt. destruct (Req_EM_T x 0) as [->|N]; [split; cbn; lra|].
  split; [left; apply exp_pos|]. assert (0 < x) by lra. rewrite <- Rpower_pow by apply exp_pos. rewrite Rpower_mult. replace (/3 * INR 3) with 1 by (cbn; lra). apply Rpower_1. assumption.
Qed.
Lemma lp3_root v : is_root 3 (total (fun x => Rabs x ^ 3) v) (lp3 v).
Proof. unfold lp3. rewrite rsum_total. apply cbrt_root. apply total_pos. intros; apply cube_pos. Qed.
Lemma lpinf_max v : is_max (lpinf v) v.
Proof.
  induction v as [|x v (A & B & C)]; [split; [cbn; lra|split; [cbn; tauto|cbn; intros b Hb _; exact Hb]]|]. cbn [lpinf fold_right]. split; [|split].
  - eapply Rle_trans; [exact A|apply Rmax_r].
  - intros y [<-|Hy]; [apply Rmax_l|]. eapply Rle_trans; [apply B; assumption|apply Rmax_r].
  - intros b Hb Hall. apply Rmax_lub; [apply Hall; left; reflexivity|]. apply C; [assumption|]. intros y Hy. apply Hall. right. assumption.
Qed.

Lemma pow_le_inv a b k : (0 < k)%nat -> 0 <= a -> 0 <= b -> a ^ k <= b ^ k -> a <= b.
Proof. intros Hk Ha Hb H. destruct (Rle_lt_dec a b) as [|L]; [assumption|]. exfalso.
  assert (b ^ k < a ^ k); [|lra]. clear H. induction k as [|k IH]; [lia|]. destruct k as [|k]; [cbn; lra|].
  assert (b ^ S k < a ^ S k) by (apply IH; lia). change (b * b ^ S k < a * a ^ S k).
  apply Rle_lt_trans with (a * b ^ S k); [apply Rmult_le_compat_r; [apply pow_le; assumption|lra]|]. apply Rmult_lt_compat_l; [lra|assumption].
Qed.

Lemma norms_ordered v linf l3 l2 l1 : is_max linf v -> is_root 3 (total (fun x => Rabs x ^ 3) v) l3 ->
  is_root 2 (total (fun x => x * x) v) l2 -> l1 = total Rabs v -> ordered (length v) linf l3 l2 l1.
Proof.
  intros (M0 & M1 & M2) (P3 & E3) (P2 & E2) E1. split; [assumption|]. split; [|split; [|split]].
  - apply M2; [assumption|]. intros x Hx. apply (pow_le_inv _ _ 3); [lia|apply Rabs_pos|assumption|]. rewrite E3. apply (total_ge_one (fun x => Rabs x ^ 3)); [intros; apply cube_pos|assumption].
  - apply (pow_le_inv _ _ 3); [lia|assumption|assumption|]. rewrite E3.
    assert (B : forall x, In x v -> Rabs x <= l2). { intros x Hx. apply (pow_le_inv _ _ 2); [lia|apply Rabs_pos|assumption|]. rewrite E2. replace (Rabs x ^ 2) with (x * x) by (cbn; rewrite Rmult_1_r, <- Rabs_mult, Rabs_pos_eq; [reflexivity|apply sq_pos]). apply (total_ge_one (fun x => x * x)); [intros; apply sq_pos|assumption]. }
    replace (l2 ^ 3) with (l2 * l2 ^ 2) by (cbn; ring). rewrite E2, <- total_scal. apply total_le. intros x Hx. specialize (B x Hx).
    replace (Rabs x ^ 3) with (Rabs x * (x * x)); [apply Rmult_le_compat_r; [apply sq_pos|assumption]|]. cbn. rewrite Rmult_1_r, <- Rabs_mult, (Rabs_pos_eq (x * x)); [reflexivity|apply sq_pos].
  - assert (P1 : 0 <= l1) by (rewrite E1; apply total_pos; apply Rabs_pos). apply (pow_le_inv _ _ 2); [lia|assumption|assumption|]. rewrite E2.
    replace (l1 ^ 2) with (l1 * l1) by (cbn; ring). rewrite E1 at 2. rewrite <- total_scal. apply total_le. intros x Hx.
    replace (x * x) with (Rabs x * Rabs x) by (rewrite <- Rabs_mult, Rabs_pos_eq; [reflexivity|apply sq_pos]). apply Rmult_le_compat_r; [apply Rabs_pos|]. rewrite E1. apply (total_ge_one Rabs); [apply Rabs_pos|assumption].
  - rewrite E1, <- total_const. apply total_le. assumption.
Qed.

(** *** the two conversions do not depend on what the buffers held *)
Definition zeros : mem := fun _ => 0.
Definition clear_from (n : nat) (m : mem) : Prop := forall j, (n <= j)%nat -> m j = 0.
Lemma from_total v p out outb out' : from_cartesian v p out = Ok out' -> exists o, from_cartesian v p outb = Ok o.
Proof.
  unfold from_cartesian. destruct (half_vector v) as [[h0 h1] h2]. destruct (Rle_dec h2 1); [|discriminate]. destruct (Rle_dec 0 h2); [|discriminate].
  destruct (from_cartesian_writes p v); [|discriminate]. intros _. eauto.
Qed.
Lemma to_total v p out outb out' : to_cartesian v p out = Ok out' -> exists o, to_cartesian v p outb = Ok o.
Proof. unfold to_cartesian. destruct (to_cartesian_writes p v); [|discriminate]. eauto. Qed.

Lemma eqb_in p q : input_eqb p q = true -> p = q.
Proof. destruct p, q; cbn; intros; try discriminate; reflexivity. Qed.
Lemma conv_to v p out1 out2 o1 : clear_from 6 out1 -> clear_from 6 out2 -> convert v p CARTESIAN out1 = Ok o1 ->
  convert v p CARTESIAN out2 = Ok o1 /\ clear_from 6 o1.
Proof.
  intros C1 C2. unfold convert. destruct (input_eqb p CARTESIAN) eqn:E.
  - intros H. apply Ok_inj in H. subst o1. split.
    + f_equal. apply functional_extensionality. intros j. unfold copy. change (Z.to_nat (dimension_in CARTESIAN)) with 6%nat. destruct (Nat.ltb_spec j 6); [reflexivity|]. rewrite C1, C2 by lia. reflexivity.
    + intros j Hj. unfold copy. change (Z.to_nat (dimension_in CARTESIAN)) with 6%nat. destruct (Nat.ltb_spec j 6); [lia|]. apply C1. lia.
  - change (input_eqb CARTESIAN CARTESIAN) with true. cbv iota. intros H. destruct (to_total _ _ _ out2 _ H) as [o2 H2].
    destruct (to_frame _ _ _ _ H) as [F1 G1]. destruct (to_frame _ _ _ _ H2) as [F2 _]. split.
    + rewrite H2. f_equal. apply functional_extensionality. intros j. destruct (Nat.lt_ge_cases j 6) as [L|L]; [symmetry; apply (G1 _ _ H2); assumption|]. rewrite F1, F2 by assumption. rewrite C1, C2 by assumption. reflexivity.
    + intros j Hj. rewrite F1 by assumption. apply C1. assumption.
Qed.
Lemma conv_from v q out1 out2 o1 : named_input q -> clear_from (dimn q) out1 -> clear_from (dimn q) out2 -> convert v CARTESIAN q out1 = Ok o1 ->
  convert v CARTESIAN q out2 = Ok o1 /\ clear_from (dimn q) o1.
Proof.
  intros Hn C1 C2. unfold convert. change (input_eqb CARTESIAN CARTESIAN) with true. destruct (input_eqb CARTESIAN q) eqn:E.
  - intros H. apply Ok_inj in H. subst o1. split.
    + f_equal. apply functional_extensionality. intros j. unfold copy. fold (dimn q). destruct (Nat.ltb_spec j (dimn q)); [reflexivity|]. rewrite C1, C2 by lia. reflexivity.
    + intros j Hj. unfold copy. fold (dimn q). destruct (Nat.ltb_spec j (dimn q)); [lia|]. apply C1. lia.
  - cbv iota. intros H. destruct (from_total _ _ _ out2 _ H) as [o2 H2].
    destruct (from_frame _ _ _ _ Hn H) as [F1 G1]. destruct (from_frame _ _ _ _ Hn H2) as [F2 _]. split.
    + rewrite H2. f_equal. apply functional_extensionality. intros j. destruct (Nat.lt_ge_cases j (dimn q)) as [L|L]; [symmetry; apply (G1 _ _ H2); assumption|]. rewrite F1, F2 by assumption. rewrite C1, C2 by assumption. reflexivity.
    + intros j Hj. rewrite F1 by assumption. apply C1. assumption.
Qed.

(** *** rows of a matrix *)
Lemma nth_skip (A : Type) n : forall (m : list A) k, nth_error (skipn n m) k = nth_error m (n + k).
Proof. induction n as [|n IH]; intros m k; [reflexivity|]. destruct m as [|a m]; [destruct k; reflexivity|]. apply IH. Qed.
Lemma set_row_ok i v m m' : set_row i v m = Ok m' -> (i < length m)%nat /\ length m' = length m /\ nth_error m' i = Some v /\
  (forall j, j <> i -> nth_error m' j = nth_error m j) /\ (forall r, nth_error m i = Some r -> length r = length v).
Proof.
  unfold set_row. destruct (nth_error m i) as [r|] eqn:E; [|discriminate]. destruct (Nat.eqb_spec (length r) (length v)) as [L|]; [|discriminate].
  intros H. apply Ok_inj in H. subst m'. assert (Hi : (i < length m)%nat) by (apply nth_error_Some; congruence).
  assert (Lf : length (firstn i m) = i) by (rewrite firstn_length; lia). split; [assumption|]. split.
  { rewrite app_length. cbn [length]. rewrite skipn_length, Lf. lia. }
  split; [rewrite nth_error_app2, Lf, Nat.sub_diag by lia; reflexivity|]. split; [|intros r' Hr; congruence].
  intros j Hj. destruct (Nat.lt_ge_cases j i) as [Lt|Ge].
  - rewrite nth_error_app1 by lia. clear - Lt. revert i Lt. revert j. induction m as [|a m IH]; intros j [|i] Lt; try lia; [destruct j; reflexivity|]. destruct j as [|j]; [reflexivity|]. cbn. apply IH. lia.
  - rewrite nth_error_app2 by lia. rewrite Lf. destruct (j - i)%nat as [|k] eqn:K; [lia|]. change (nth_error (skipn (S i) m) k = nth_error m j). rewrite nth_skip. f_equal. lia.
Qed.
Lemma set_row_total i v m r : nth_error m i = Some r -> length r = length v -> exists m', set_row i v m = Ok m'.
Proof. intros E L. unfold set_row. rewrite E, L, Nat.eqb_refl. eauto. Qed.

Section Eval.
Variable pin pref : parameters.
Variable val : list R -> outcome (list R).
Hypothesis Hnamed : named_input (in_param pin).

(** what the loop writes in the two matrices for a sample *)
Inductive row_pair (xy ry iy : list R) : Prop :=
| pair_below : forall cart, directions pref xy cart -> cart 2%nat < 0 -> cart 5%nat < 0 ->
    ry = repeat 0 (dimY pref) -> iy = repeat 0 (dimY pref) -> row_pair xy ry iy
| pair_above : forall cart x, directions pref xy cart -> 0 <= cart 2%nat \/ 0 <= cart 5%nat -> query pin cart x ->
    val x = Ok iy -> (dimY pref <= length xy)%nat -> ry = measured pref xy -> row_pair xy ry iy.

Definition inv (s : estate) : Prop := clear_from 6 (e_cart s) /\ clear_from (dimn (in_param pin)) (e_dat s).
Definition rect (s : estate) : Prop := length (e_ref s) = length (e_inp s) /\
  Forall (fun r => length r = dimY pref) (e_ref s) /\ Forall (fun r => length r = dimY pref) (e_inp s).

Lemma rgeb0_spec a : rgeb0 a = true <-> 0 <= a.
Proof. unfold rgeb0. destruct (Rle_dec 0 a); split; auto; discriminate. Qed.
Lemma clear_zeros n : clear_from n (fun _ => 0).
Proof. intros j _. reflexivity. Qed.

Definition updated (i : nat) (ry iy : list R) (s s' : estate) : Prop :=
  set_row i ry (e_ref s) = Ok (e_ref s') /\ set_row i iy (e_inp s) = Ok (e_inp s').
Lemma evaluate_row_ok i xy s s' : inv s -> evaluate_row pin pref val i xy s = Ok s' ->
  inv s' /\ exists ry iy, row_pair xy ry iy /\ updated i ry iy s s'.
Proof.
  intros [I1 I2]. unfold evaluate_row. destruct (Nat.ltb_spec (length xy) (dimX pref)); [discriminate|].
  destruct (Nat.ltb_spec (dimX pref) (Z.to_nat (dimension_in (in_param pref)))); [discriminate|].
  destruct (convert _ (in_param pref) CARTESIAN (e_cart s)) as [cart| | |] eqn:Ec; try discriminate. cbn [bind].
  destruct (conv_to _ _ _ (fun _ => 0) _ I1 (clear_zeros 6) Ec) as [Ed Cc].
  destruct (rgeb0 (cart 2%nat) || rgeb0 (cart 5%nat))%bool eqn:Eb.
  - destruct (Nat.ltb_spec (dimX pin) (Z.to_nat (dimension_in (in_param pin)))); [discriminate|].
    destruct (convert cart CARTESIAN (in_param pin) (e_dat s)) as [dat| | |] eqn:Eq; try discriminate. cbn [bind].
    destruct (conv_from _ _ _ (fun _ => 0) _ Hnamed I2 (clear_zeros _) Eq) as [Eq0 Cq].
    destruct (Nat.ltb_spec (length xy) (dimY pref)); [discriminate|].
    destruct (set_row i (skipn _ xy) (e_ref s)) as [ry| | |] eqn:Er; try discriminate. cbn [bind].
    destruct (val _) as [v| | |] eqn:Ev; try discriminate. cbn [bind].
    destruct (set_row i v (e_inp s)) as [iy| | |] eqn:Ei; try discriminate. cbn [bind].
    intros H'. apply Ok_inj in H'. subst s'. split; [split; assumption|]. exists (measured pref xy), v. split; [|split; assumption].
    eapply pair_above; [exact Ed| |exists dat; split; [exact Eq0|reflexivity]|exact Ev|assumption|reflexivity].
    apply Bool.orb_true_iff in Eb as [B|B]; apply rgeb0_spec in B; auto.
  - apply Bool.orb_false_iff in Eb as [B1 B2].
    assert (L1 : cart 2%nat < 0) by (destruct (Rle_lt_dec 0 (cart 2%nat)) as [L|]; [apply rgeb0_spec in L; congruence|assumption]).
    assert (L2 : cart 5%nat < 0) by (destruct (Rle_lt_dec 0 (cart 5%nat)) as [L|]; [apply rgeb0_spec in L; congruence|assumption]).
    destruct (set_row i _ (e_ref s)) as [ry| | |] eqn:Er; try discriminate. cbn [bind].
    destruct (set_row i _ (e_inp s)) as [iy| | |] eqn:Ei; try discriminate. cbn [bind].
    intros H'. apply Ok_inj in H'. subst s'. split; [split; assumption|]. exists (repeat 0 (dimY pref)), (repeat 0 (dimY pref)). split; [|split; assumption].
    eapply pair_below; eauto.
Qed.

Lemma set_row_len i v m m' n : Forall (fun r => length r = n) m -> set_row i v m = Ok m' -> Forall (fun r : list R => length r = n) m' /\ length v = n.
Proof.
  intros F H. destruct (set_row_ok _ _ _ _ H) as (Hi & L & Hv & Ho & Hr).
  destruct (nth_error m i) as [r|] eqn:E; [|apply nth_error_None in E; lia].
  assert (length v = n) as Lv. { rewrite <- (Hr r eq_refl). rewrite Forall_forall in F. apply F. eapply nth_error_In; exact E. }
  split; [|assumption]. apply Forall_forall. intros x Hx. apply In_nth_error in Hx as [j Hj]. destruct (Nat.eq_dec j i) as [->|N].
  - congruence.
  - rewrite Ho in Hj by assumption. rewrite Forall_forall in F. apply F. eapply nth_error_In; exact Hj.
Qed.

(** which samples are looked at *)
Definition kept (mask : option (list (list R))) (k : nat) : Prop :=
  match mask with None => True | Some ms => exists m, nth_error ms k = Some m /\ dropped m = false end.
Definition skipped (mask : option (list (list R))) (k : nat) : Prop :=
  match mask with None => False | Some ms => exists m, nth_error ms k = Some m /\ dropped m = true end.
Definition tail_mask (mask : option (list (list R))) := match mask with None => None | Some ms => Some (List.tl ms) end.
Lemma kept_S mask k : kept mask (S k) <-> kept (tail_mask mask) k.
Proof. destruct mask as [[|m ms]|]; cbn; [|tauto|tauto]. split; intros (m & E & _); [discriminate|destruct k; discriminate]. Qed.

Lemma loop_spec rows : forall mask i s s', inv s -> rect s -> evaluate_loop pin pref val i rows mask s = Ok s' ->
  rect s' /\ length (e_ref s') = length (e_ref s) /\
  (forall k xy, nth_error rows k = Some xy -> kept mask k -> exists ry iy, row_pair xy ry iy /\
     nth_error (e_ref s') (i + k) = Some ry /\ nth_error (e_inp s') (i + k) = Some iy) /\
  (forall j, ~ (exists k, j = (i + k)%nat /\ (k < length rows)%nat /\ kept mask k) ->
     nth_error (e_ref s') j = nth_error (e_ref s) j /\ nth_error (e_inp s') j = nth_error (e_inp s) j).
Proof.
  induction rows as [|xy rows IH]; intros mask i s s' Hi Hr H; cbn [evaluate_loop] in H.
  - apply Ok_inj in H. subst s'. split; [assumption|]. split; [reflexivity|]. split; [intros [|k] ? E; discriminate|auto].
  - assert (Hskip : skipped mask 0 -> evaluate_loop pin pref val (S i) rows (tail_mask mask) s = Ok s' ->
      ~ kept mask 0 -> rect s' /\ length (e_ref s') = length (e_ref s) /\
      (forall k xy0, nth_error (xy :: rows) k = Some xy0 -> kept mask k -> exists ry iy, row_pair xy0 ry iy /\
         nth_error (e_ref s') (i + k) = Some ry /\ nth_error (e_inp s') (i + k) = Some iy) /\
      (forall j, ~ (exists k, j = (i + k)%nat /\ (k < length (xy :: rows))%nat /\ kept mask k) ->
         nth_error (e_ref s') j = nth_error (e_ref s) j /\ nth_error (e_inp s') j = nth_error (e_inp s) j)).
    { intros _ E Nk. destruct (IH _ _ _ _ Hi Hr E) as (A & B & C & D). split; [assumption|]. split; [assumption|]. split.
      - intros [|k] xy0 En Hk; [contradiction|]. rewrite Nat.add_succ_r. apply (C k); [exact En|]. apply kept_S. assumption.
      - intros j Hj. apply D. intros (k & -> & Hk & K). apply Hj. exists (S k). split; [lia|]. split; [cbn; lia|]. apply kept_S. assumption. }
    assert (Hkeep : forall s1, evaluate_row pin pref val i xy s = Ok s1 -> evaluate_loop pin pref val (S i) rows (tail_mask mask) s1 = Ok s' ->
      kept mask 0 -> rect s' /\ length (e_ref s') = length (e_ref s) /\
      (forall k xy0, nth_error (xy :: rows) k = Some xy0 -> kept mask k -> exists ry iy, row_pair xy0 ry iy /\
         nth_error (e_ref s') (i + k) = Some ry /\ nth_error (e_inp s') (i + k) = Some iy) /\
      (forall j, ~ (exists k, j = (i + k)%nat /\ (k < length (xy :: rows))%nat /\ kept mask k) ->
         nth_error (e_ref s') j = nth_error (e_ref s) j /\ nth_error (e_inp s') j = nth_error (e_inp s) j)).
    { intros s1 E1 E K0. destruct (evaluate_row_ok _ _ _ _ Hi E1) as (Hi1 & ry & iy & P & U1 & U2).
      destruct Hr as (R1 & R2 & R3). destruct (set_row_len _ _ _ _ _ R2 U1) as [R2' _], (set_row_len _ _ _ _ _ R3 U2) as [R3' _].
      destruct (set_row_ok _ _ _ _ U1) as (V1 & V2 & V3 & V4 & _). destruct (set_row_ok _ _ _ _ U2) as (W1 & W2 & W3 & W4 & _).
      assert (Hr1 : rect s1) by (split; [congruence|split; assumption]).
      destruct (IH _ _ _ _ Hi1 Hr1 E) as (A & B & C & D). split; [assumption|]. split; [congruence|]. split.
      - intros [|k] xy0 En Hk.
        + injection En as <-. exists ry, iy. split; [assumption|]. rewrite Nat.add_0_r.
          destruct (D i) as [D1 D2]; [intros (k & Ek & _); lia|]. rewrite D1, D2. split; assumption.
        + rewrite Nat.add_succ_r. apply (C k); [exact En|]. apply kept_S. assumption.
      - intros j Hj. assert (j <> i) by (intros ->; apply Hj; exists 0%nat; split; [lia|]; split; [cbn; lia|assumption]).
        destruct (D j) as [D1 D2]; [intros (k & -> & Hk & K); apply Hj; exists (S k); split; [lia|]; split; [cbn; lia|]; apply kept_S; assumption|].
        rewrite D1, D2, V4, W4 by assumption. auto. }
    destruct mask as [[|m ms]|]; [discriminate| |].
    + destruct (dropped m) eqn:Em.
      * apply Hskip; [exists m; auto|exact H|]. intros (m' & E & F). cbn in E. congruence.
      * destruct (evaluate_row pin pref val i xy s) as [s1| | |] eqn:E1; try discriminate. cbn [bind] in H. apply (Hkeep s1); [reflexivity|exact H|]. exists m. auto.
    + destruct (evaluate_row pin pref val i xy s) as [s1| | |] eqn:E1; try discriminate. cbn [bind] in H. apply (Hkeep s1); [reflexivity|exact H|]. cbn. auto.
Qed.

(** *** the difference matrix *)
Lemma msub_nth a : forall b j ra rb, nth_error a j = Some ra -> nth_error b j = Some rb ->
  nth_error (msub a b) j = Some (List.map (fun q => fst q - snd q) (combine ra rb)).
Proof.
  induction a as [|x a IH]; intros [|y b] [|j] ra rb Ea Eb; cbn in *; try discriminate.
  - injection Ea as ->. injection Eb as ->. reflexivity.
  - apply IH; assumption.
Qed.
Lemma msub_length a b : length a = length b -> length (msub a b) = length a.
Proof. intros. unfold msub. rewrite map_length, combine_length. lia. Qed.
Lemma diff_nth ra : forall rb c, length ra = length rb -> nth c (List.map (fun q => fst q - snd q) (combine ra rb)) 0 = nth c ra 0 - nth c rb 0.
Proof. induction ra as [|x ra IH]; intros [|y rb] c L; try discriminate; [destruct c; cbn; lra|]. destruct c as [|c]; [reflexivity|]. cbn. apply IH. cbn in L. lia. Qed.

Lemma pair_error xy ry iy : row_pair xy ry iy -> length ry = dimY pref -> length iy = dimY pref ->
  row_error pin pref val xy (List.map (fun q => fst q - snd q) (combine iy ry)).
Proof.
  intros P Lr Li. destruct P as [cart D B1 B2 -> ->|cart x D A Q V Ly ->].
  - apply (below _ _ _ _ _ cart D B1 B2). clear. induction (dimY pref) as [|n IH]; cbn; [reflexivity|]. rewrite IH. f_equal. lra.
  - apply (above _ _ _ _ _ cart x iy D A Q V); [rewrite map_length, combine_length; lia|assumption|]. intros c Hc. apply diff_nth. congruence.
Qed.

Lemma map_seq_nth (f : nat -> R) n c : (c < n)%nat -> nth c (List.map f (seq 0 n)) 0 = f c.
Proof. intros H. rewrite nth_indep with (d' := f 0%nat) by (rewrite map_length, seq_length; assumption). rewrite map_nth. rewrite seq_nth by assumption. reflexivity. Qed.
Lemma channel_length c errs : length (channel c errs) = length errs.
Proof. apply map_length. Qed.
Lemma fast_reports nY inp ref : length inp = length ref -> reports nY (fastNormComputation nY inp ref) (msub inp ref).
Proof.
  intros L. unfold reports, fastNormComputation. cbn [L1 L2 L3 LInf MSE RMSE]. rewrite !map_length, !seq_length. do 6 (split; [reflexivity|]).
  intros c Hc. rewrite !map_seq_nth by assumption. change (column c (msub inp ref)) with (channel c (msub inp ref)). set (v := channel c (msub inp ref)).
  split; [unfold lp1; apply rsum_total|]. split; [apply lp2_root|]. split; [apply lp3_root|]. split; [apply lpinf_max|].
  rewrite rsum_total, msub_length by assumption. split; [reflexivity|].
  rewrite (nth_indep _ 0 (sqrt 0)) by (rewrite !map_length, seq_length; assumption). rewrite map_nth, map_seq_nth by assumption. rewrite rsum_total.
  split; [apply sqrt_pos|]. cbn [pow]. rewrite Rmult_1_r. apply sqrt_sqrt.
  pose proof (total_pos (fun x => x * x) v sq_pos). destruct (length inp) as [|n]; [cbn; unfold Rdiv; rewrite Rinv_0; lra|]. apply Rmult_le_pos; [assumption|]. left. apply Rinv_0_lt_compat. apply lt_0_INR. lia.
Qed.

Lemma zero_inv n : inv (mkE (fun _ => 0) (fun _ => 0) (repeat (repeat 0 (dimY pref)) n) (repeat (repeat 0 (dimY pref)) n)).
Proof. split; intros j _; reflexivity. Qed.
Lemma zero_rect n : rect (mkE (fun _ => 0) (fun _ => 0) (repeat (repeat 0 (dimY pref)) n) (repeat (repeat 0 (dimY pref)) n)).
Proof. assert (F : Forall (fun r : list R => length r = dimY pref) (repeat (repeat 0 (dimY pref)) n)) by (apply Forall_forall; intros x Hx; apply repeat_spec in Hx; subst; apply repeat_length). split; [reflexivity|split; assumption]. Qed.

(** the general result: whatever the mask, the metrics are those of a matrix
    whose kept rows are the errors and whose other rows are zero *)
Lemma compute_inv rows mask m : compute pin pref val rows mask = Ok m ->
  exists size errs, checkMaskSize rows mask = Ok size /\ length errs = size /\ reports (dimY pref) m errs /\
  (forall k xy, nth_error rows k = Some xy -> kept mask k -> (k < size)%nat /\ exists e, nth_error errs k = Some e /\ row_error pin pref val xy e) /\
  (forall j, (j < size)%nat -> ~ (kept mask j /\ (j < length rows)%nat) -> nth_error errs j = Some (repeat 0 (dimY pref))).
Proof.
  unfold compute. destruct (checkMaskSize rows mask) as [size| | |] eqn:Es; try discriminate. cbn [bind].
  set (z := repeat (repeat 0 (dimY pref)) size).
  destruct (evaluate_loop pin pref val 0 rows mask (mkE (fun _ => 0) (fun _ => 0) z z)) as [s| | |] eqn:El; try discriminate. cbn [bind].
  intros H. apply Ok_inj in H. subst m.
  destruct (loop_spec rows mask 0 _ s (zero_inv size) (zero_rect size) El) as ((R1 & R2 & R3) & Ln & K & N). cbn [e_ref e_inp] in *.
  assert (Lz : length z = size) by apply repeat_length.
  assert (Lr : length (e_ref s) = size) by (rewrite Ln; apply repeat_length).
  exists size, (msub (e_inp s) (e_ref s)). split; [reflexivity|]. assert (Lm : length (msub (e_inp s) (e_ref s)) = size) by (rewrite msub_length; lia).
  split; [assumption|]. split; [apply fast_reports; congruence|]. split.
  - intros k xy Hk Kk. destruct (K k xy Hk Kk) as (ry & iy & P & A & B). cbn [plus] in *.
    assert (k < size)%nat by (rewrite <- Lr; apply nth_error_Some; congruence). split; [assumption|].
    eexists. split; [apply msub_nth; [exact B|exact A]|]. apply pair_error; [assumption| |].
    + rewrite Forall_forall in R2. apply R2. eapply nth_error_In; exact A.
    + rewrite Forall_forall in R3. apply R3. eapply nth_error_In; exact B.
  - intros j Hj Nk. destruct (N j) as [A B]; [intros (k & -> & ? & ?); apply Nk; split; assumption|].
    assert (Ez : nth_error z j = Some (repeat 0 (dimY pref))).
    { destruct (nth_error z j) as [r|] eqn:E; [|apply nth_error_None in E; lia]. apply nth_error_In, repeat_spec in E. congruence. }
    change (nth_error (e_ref s) j = nth_error z j) in A. change (nth_error (e_inp s) j = nth_error z j) in B. rewrite Ez in A, B. rewrite (msub_nth _ _ _ _ _ B A). f_equal. clear. induction (dimY pref) as [|n IH]; cbn; [reflexivity|]. rewrite IH. f_equal. lra.
Qed.

Theorem compute_unmasked rows m : compute pin pref val rows None = Ok m ->
  exists errs, Forall2 (row_error pin pref val) rows errs /\ reports (dimY pref) m errs.
Proof.
  intros H. destruct (compute_inv rows None m H) as (size & errs & Es & Le & Rp & K & _). cbn in Es. apply Ok_inj in Es. assert (Ls : length errs = length rows) by congruence. exists errs. split; [|assumption].
  assert (A : forall k xy, nth_error rows k = Some xy -> exists e, nth_error errs k = Some e /\ row_error pin pref val xy e) by (intros k xy Hk; destruct (K k xy Hk I) as [_ E]; exact E).
  clear - A Ls. revert errs A Ls. induction rows as [|xy rows IH]; intros [|e errs] A L; try discriminate; constructor.
  - destruct (A 0%nat xy eq_refl) as (e' & E & Q). cbn in E. congruence.
  - apply IH; [|cbn in L; lia]. intros k x Hk. apply (A (S k) x Hk).
Qed.

(** *** definedness *)
Lemma evaluate_row_total i xy s e r1 r2 : shapes pin pref -> long_enough pref xy -> inv s -> row_error pin pref val xy e ->
  nth_error (e_ref s) i = Some r1 -> length r1 = dimY pref -> nth_error (e_inp s) i = Some r2 -> length r2 = dimY pref ->
  exists s', evaluate_row pin pref val i xy s = Ok s'.
Proof.
  intros (_ & S1 & S2) [L1 L2] [I1 I2] Re N1 M1 N2 M2. unfold evaluate_row.
  destruct (Nat.ltb_spec (length xy) (dimX pref)); [lia|].
  destruct (Nat.ltb_spec (dimX pref) (Z.to_nat (dimension_in (in_param pref)))); [lia|].
  destruct Re as [cart D B1 B2 _|cart x v D A (mq & Q & ->) V _ Lv _].
  - destruct (conv_to _ _ (fun _ => 0) (e_cart s) _ (clear_zeros 6) I1 D) as [Ec _]. rewrite Ec. cbn [bind].
    destruct (rgeb0 (cart 2%nat)) eqn:G1; [apply rgeb0_spec in G1; lra|]. destruct (rgeb0 (cart 5%nat)) eqn:G2; [apply rgeb0_spec in G2; lra|]. cbn [orb].
    destruct (set_row_total i (repeat 0 (dimY pref)) _ _ N1) as [m1 E1]; [rewrite repeat_length; assumption|].
    destruct (set_row_total i (repeat 0 (dimY pref)) _ _ N2) as [m2 E2]; [rewrite repeat_length; assumption|]. rewrite E1, E2. cbn [bind]. eauto.
  - destruct (conv_to _ _ (fun _ => 0) (e_cart s) _ (clear_zeros 6) I1 D) as [Ec _]. rewrite Ec. cbn [bind].
    assert (G : (rgeb0 (cart 2%nat) || rgeb0 (cart 5%nat))%bool = true) by (apply Bool.orb_true_iff; destruct A; [left|right]; apply rgeb0_spec; assumption). rewrite G.
    destruct (Nat.ltb_spec (dimX pin) (Z.to_nat (dimension_in (in_param pin)))); [lia|].
    destruct (conv_from _ _ (fun _ => 0) (e_dat s) _ Hnamed (clear_zeros _) I2 Q) as [Eq _]. rewrite Eq. cbn [bind].
    destruct (Nat.ltb_spec (length xy) (dimY pref)); [lia|].
    destruct (set_row_total i (skipn (length xy - dimY pref) xy) _ _ N1) as [m1 E1]; [rewrite skipn_length; lia|].
    destruct (set_row_total i v _ _ N2) as [m2 E2]; [lia|]. rewrite E1. cbn [bind]. rewrite V. cbn [bind]. rewrite E2. cbn [bind]. eauto.
Qed.
Lemma loop_total rows : forall i s, shapes pin pref -> Forall (long_enough pref) rows -> Forall (fun xy => exists e, row_error pin pref val xy e) rows ->
  inv s -> rect s -> (i + length rows <= length (e_ref s))%nat -> exists s', evaluate_loop pin pref val i rows None s = Ok s'.
Proof.
  induction rows as [|xy rows IH]; intros i s Sh Fl Fe Hi Hr Hl; cbn [evaluate_loop]; [eauto|].
  inversion Fl as [|? ? L1 L2]; subst. inversion Fe as [|? ? (e & Ee) Fe']; subst. cbn [length] in Hl. pose proof Hr as (R1 & R2 & R3).
  destruct (nth_error (e_ref s) i) as [r1|] eqn:N1; [|apply nth_error_None in N1; lia].
  destruct (nth_error (e_inp s) i) as [r2|] eqn:N2; [|apply nth_error_None in N2; lia].
  assert (length r1 = dimY pref) by (rewrite Forall_forall in R2; apply R2; eapply nth_error_In; exact N1).
  assert (length r2 = dimY pref) by (rewrite Forall_forall in R3; apply R3; eapply nth_error_In; exact N2).
  destruct (evaluate_row_total i xy s e r1 r2 Sh L1 Hi Ee) as [s1 E1]; try assumption. rewrite E1. cbn [bind].
  destruct (evaluate_row_ok _ _ _ _ Hi E1) as (Hi1 & ry & iy & P & U1 & U2).
  destruct (set_row_len _ _ _ _ _ R2 U1) as [R2' _], (set_row_len _ _ _ _ _ R3 U2) as [R3' _].
  destruct (set_row_ok _ _ _ _ U1) as (V1 & V2 & _). destruct (set_row_ok _ _ _ _ U2) as (W1 & W2 & _).
  apply IH; auto; [split; [congruence|split; assumption]|lia].
Qed.
Theorem compute_defined rows : shapes pin pref -> Forall (long_enough pref) rows -> Forall (fun xy => exists e, row_error pin pref val xy e) rows ->
  exists m, compute pin pref val rows None = Ok m.
Proof.
  intros Sh Fl Fe. unfold compute, checkMaskSize. cbn [bind].
  destruct (loop_total rows 0 (mkE (fun _ => 0) (fun _ => 0) (repeat (repeat 0 (dimY pref)) (length rows)) (repeat (repeat 0 (dimY pref)) (length rows))) Sh Fl Fe (zero_inv _) (zero_rect _)) as [s E].
  { cbn. rewrite repeat_length. lia. }
  rewrite E. cbn [bind]. eauto.
Qed.

(** *** masks *)
Lemma dropped_spec r : dropped r = true <-> last r 0 = 0.
Proof. unfold dropped, reqb. destruct (Req_EM_T (last r 0) 0); split; auto; discriminate. Qed.
Theorem mask_sizes rows ms m : compute pin pref val rows (Some ms) = Ok m -> length ms = length rows /\ Forall (fun r => r <> []) ms.
Proof.
  intros H. destruct (compute_inv rows (Some ms) m H) as (size & _ & Es & _). cbn in Es. destruct (Nat.eqb_spec (length rows) (length ms)); [|discriminate].
  destruct (existsb (fun r => length r =? 0)%nat ms) eqn:Ex; [discriminate|]. split; [congruence|]. apply Forall_forall. intros r Hr ->.
  assert (existsb (fun r : list R => length r =? 0)%nat ms = true); [|congruence]. apply existsb_exists. exists []. split; [assumption|reflexivity].
Qed.
Theorem mask_result rows ms m : compute pin pref val rows (Some ms) = Ok m ->
  exists errs, length errs = length (filter dropped ms) /\ reports (dimY pref) m errs /\
  (forall k xy r, nth_error rows k = Some xy -> nth_error ms k = Some r -> mask_true r -> exists e, nth_error errs k = Some e /\ row_error pin pref val xy e) /\
  (forall k r e, nth_error ms k = Some r -> mask_false r -> nth_error errs k = Some e -> e = repeat 0 (dimY pref)).
Proof.
  intros H. destruct (mask_sizes _ _ _ H) as [Ls _]. destruct (compute_inv rows (Some ms) m H) as (size & errs & Es & Le & Rp & K & N). exists errs.
  cbn in Es. rewrite Ls, Nat.eqb_refl in Es. destruct (existsb _ ms); [discriminate|]. apply Ok_inj in Es. split; [congruence|]. split; [assumption|]. split.
  - intros k xy r Hk Hr [_ T]. destruct (K k xy Hk) as [_ E]; [|exact E]. exists r. split; [assumption|]. destruct (dropped r) eqn:D; [apply dropped_spec in D; contradiction|reflexivity].
  - intros k r e Hr [_ F] He. assert (k < length errs)%nat by (apply nth_error_Some; congruence). rewrite N in He; [congruence|lia|]. intros [(r' & E & D) _]. assert (r' = r) by congruence. subst r'. apply dropped_spec in F. congruence.
Qed.
Theorem mask_kept_low rows ms m k r : compute pin pref val rows (Some ms) = Ok m -> nth_error ms k = Some r -> mask_true r -> (k < length (filter dropped ms))%nat.
Proof.
  intros H Hr T. destruct (mask_sizes _ _ _ H) as [Ls _]. destruct (mask_result rows ms m H) as (errs & <- & _ & K & _).
  assert (k < length ms)%nat by (apply nth_error_Some; congruence). destruct (nth_error rows k) as [xy|] eqn:E; [|apply nth_error_None in E; lia].
  destruct (K k xy r E Hr T) as (e & Ee & _). apply nth_error_Some. congruence.
Qed.
Theorem mask_all_true rows ms : rows <> [] -> Forall mask_true ms -> forall m, compute pin pref val rows (Some ms) <> Ok m.
Proof.
  intros Hn F m H. destruct (mask_sizes _ _ _ H) as [Ls _]. destruct ms as [|r ms]; [destruct rows; [congruence|discriminate]|].
  inversion F as [|? ? T F']; subst. pose proof (mask_kept_low rows (r :: ms) m 0 r H eq_refl T) as L.
  assert (E : filter dropped (r :: ms) = []); [|rewrite E in L; cbn in L; lia].
  clear - F. induction F as [|r0 ms0 [_ T] F IH]; [reflexivity|]. cbn. destruct (dropped r0) eqn:D; [apply dropped_spec in D; contradiction|assumption].
Qed.
Lemma loop_dropped rows : forall ms i s, length ms = length rows -> Forall mask_false ms -> evaluate_loop pin pref val i rows (Some ms) s = Ok s.
Proof.
  induction rows as [|xy rows IH]; intros [|r ms] i s L F; try discriminate; [reflexivity|]. inversion F as [|? ? [_ Z] F']; subst. cbn [evaluate_loop].
  assert (dropped r = true) as -> by (apply dropped_spec; assumption). apply IH; [cbn in L; lia|assumption].
Qed.
Theorem mask_all_false rows ms : length ms = length rows -> Forall mask_false ms ->
  exists m, compute pin pref val rows (Some ms) = Ok m /\ reports (dimY pref) m (repeat (repeat 0 (dimY pref)) (length rows)).
Proof.
  intros L F. assert (Ex : existsb (fun r : list R => length r =? 0)%nat ms = false).
  { clear - F. induction F as [|r ms [A _] F IH]; [reflexivity|]. cbn. rewrite IH. destruct r; [congruence|reflexivity]. }
  assert (Ef : length (filter dropped ms) = length rows).
  { rewrite <- L. clear - F. induction F as [|r ms [_ Z] F IH]; [reflexivity|]. cbn. apply dropped_spec in Z. rewrite Z. cbn. congruence. }
  assert (H : exists m, compute pin pref val rows (Some ms) = Ok m).
  { unfold compute, checkMaskSize. rewrite L, Nat.eqb_refl, Ex. cbn [bind]. rewrite loop_dropped by assumption. cbn [bind]. eauto. }
  destruct H as [m H]. exists m. split; [assumption|]. destruct (mask_result rows ms m H) as (errs & Le & Rp & _ & N).
  assert (errs = repeat (repeat 0 (dimY pref)) (length rows)) as <-; [|assumption].
  rewrite Ef in Le. assert (A : Forall (eq (repeat 0 (dimY pref))) errs).
  { apply Forall_forall. intros e He. apply In_nth_error in He as [k Hk]. assert (k < length errs)%nat by (apply nth_error_Some; congruence).
    destruct (nth_error ms k) as [r|] eqn:E; [|apply nth_error_None in E; lia]. symmetry. apply (N k r e E); [|assumption]. rewrite Forall_forall in F. apply F. eapply nth_error_In; exact E. }
  rewrite <- Le. clear - A. induction A as [|e errs He A IH]; [reflexivity|]. cbn. rewrite <- He, <- IH. reflexivity.
Qed.
End Eval.

(** *** what follows for the reported numbers *)
Theorem reports_ordered nY m errs c : reports nY m errs -> (c < nY)%nat ->
  ordered (length errs) (nth c (LInf m) 0) (nth c (L3 m) 0) (nth c (L2 m) 0) (nth c (L1 m) 0) /\
  (errs <> [] -> nth c (L2 m) 0 ^ 2 = INR (length errs) * nth c (MSE m) 0 /\ nth c (RMSE m) 0 ^ 2 = nth c (MSE m) 0 /\ 0 <= nth c (MSE m) 0 /\
     nth c (L2 m) 0 = sqrt (INR (length errs)) * nth c (RMSE m) 0).
Proof.
  intros (_ & _ & _ & _ & _ & _ & H) Hc. destruct (H c Hc) as (E1 & R2 & R3 & M & E & Rr). split.
  - rewrite <- (channel_length c errs). eapply norms_ordered; eassumption.
  - intros Hn. assert (P : 0 < INR (length errs)) by (apply lt_0_INR; destruct errs; [congruence|cbn; lia]).
    destruct R2 as [P2 R2]. destruct Rr as [Pr Rr].
    assert (X : nth c (L2 m) 0 ^ 2 = INR (length errs) * nth c (MSE m) 0) by (rewrite R2, E; field; lra).
    split; [assumption|]. split; [assumption|]. split.
    + rewrite <- Rr. cbn. rewrite Rmult_1_r. apply sq_pos.
    + assert (Q : 0 <= sqrt (INR (length errs)) * nth c (RMSE m) 0) by (apply Rmult_le_pos; [apply sqrt_pos|assumption]).
      assert (S : (sqrt (INR (length errs)) * nth c (RMSE m) 0) ^ 2 = nth c (L2 m) 0 ^ 2).
      { rewrite X, Rpow_mult_distr, Rr. f_equal. cbn. rewrite Rmult_1_r. apply sqrt_sqrt. lra. }
      apply Rle_antisym; apply (pow_le_inv _ _ 2); try assumption; try lia; lra.
Qed.
Lemma root_zero k y s : (0 < k)%nat -> is_root k s y -> (y = 0 <-> s = 0).
Proof. intros Hk [P E]. split; intros Z; [subst y; rewrite <- E; destruct k; [lia|cbn; lra]|]. rewrite Z in E. apply Rle_antisym; [|assumption]. apply (pow_le_inv _ _ k); auto; [lra|]. rewrite E. destruct k; [lia|cbn; lra]. Qed.
Theorem reports_vanish nY m errs c : reports nY m errs -> (c < nY)%nat -> errs <> [] ->
  let zero := Forall (eq 0) (channel c errs) in
  (nth c (L1 m) 0 = 0 <-> zero) /\ (nth c (L2 m) 0 = 0 <-> zero) /\ (nth c (L3 m) 0 = 0 <-> zero) /\
  (nth c (LInf m) 0 = 0 <-> zero) /\ (nth c (MSE m) 0 = 0 <-> zero) /\ (nth c (RMSE m) 0 = 0 <-> zero).
Proof.
  intros Hr Hc Hn zero. destruct (reports_ordered _ _ _ _ Hr Hc) as [(O1 & O2 & O3 & O4 & O5) Q]. destruct (Q Hn) as (Q1 & Q2 & Q3 & _).
  destruct Hr as (_ & _ & _ & _ & _ & _ & H). destruct (H c Hc) as (E1 & R2 & R3 & M & E & Rr).
  assert (P : 0 < INR (length errs)) by (apply lt_0_INR; destruct errs; [congruence|cbn; lia]).
  assert (Z1 : nth c (L1 m) 0 = 0 -> zero). { intros Z. rewrite E1 in Z. eapply (total_zero Rabs); [apply Rabs_pos| |exact Z]. intros x Hx. destruct (Req_dec x 0) as [|N]; [assumption|]. apply Rabs_no_R0 in N. contradiction. }
  assert (Z2 : zero -> nth c (L1 m) 0 = 0) by (intros Z; rewrite E1; apply total_of_zero; [apply Rabs_R0|assumption]).
  assert (Z3 : nth c (LInf m) 0 = 0 -> nth c (L1 m) 0 = 0) by (intros Z; rewrite Z in O5; lra).
  assert (T : nth c (MSE m) 0 = 0 <-> nth c (L2 m) 0 = 0).
  { split; intros Z.
    - apply (root_zero 2 _ _ ltac:(lia) R2). destruct R2 as [_ R2]. rewrite <- R2, Q1, Z. lra.
    - rewrite Z in Q1. replace (0 ^ 2) with 0 in Q1 by (cbn; lra). symmetry in Q1. apply Rmult_integral in Q1 as [Q1|Q1]; lra. }
  split; [tauto|]. split; [split; [intros; apply Z1, Z3; lra|intros Z; apply Z2 in Z; lra]|].
  split; [split; [intros; apply Z1, Z3; lra|intros Z; apply Z2 in Z; lra]|]. split; [split; [auto|intros Z; apply Z2 in Z; lra]|].
  assert (T2 : nth c (L2 m) 0 = 0 <-> zero) by (split; [intros; apply Z1, Z3; lra|intros Z; apply Z2 in Z; lra]).
  split; [tauto|]. pose proof (root_zero 2 _ _ ltac:(lia) Rr). tauto.
Qed.

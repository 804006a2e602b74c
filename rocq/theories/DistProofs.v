(** Distances (C30). *)
From Coq Require Import Reals List Lia Lra.
From Verif Require Import Base ParamsModel GeoModel CommonModel FuncModel FuncJac DistModel DistSpec.
Open Scope R_scope.

Section Dist.
Variable junk : R.
Variable pf pd : parameters.
Variable val : mem -> outcome (list R).

Notation evaluates := (evaluates junk pf pd val).
Notation measured := (measured pd).
Notation reproduces := (reproduces junk pf pd val).
Notation row_defined := (row_defined junk pf pd val).

Lemma sum_sq_pos v : 0 <= sum_sq v.
Proof. induction v as [|x v IH]; cbn; [lra|]. pose proof (Rle_0_sqr x). unfold Rsqr in *. lra. Qed.
Lemma norm_sq v : norm v * norm v = sum_sq v.
Proof. apply sqrt_sqrt. apply sum_sq_pos. Qed.
Lemma sum_sq_zero v : sum_sq v = 0 <-> Forall (eq 0) v.
Proof.
  induction v as [|x v IH]; cbn; [split; [constructor|reflexivity]|]. pose proof (Rle_0_sqr x) as H. unfold Rsqr in H. pose proof (sum_sq_pos v).
  split; intros E.
  - assert (x * x = 0) by lra. assert (sum_sq v = 0) by lra. constructor; [|apply IH; assumption].
    destruct (Rmult_integral x x); lra.
  - inversion E as [|? ? E1 E2]; subst. apply IH in E2. rewrite E2. lra.
Qed.
Lemma vsub_zero a : forall b, length a = length b -> Forall (eq 0) (vsub a b) <-> a = b.
Proof.
  induction a as [|x a IH]; intros [|y b] H; try discriminate; cbn; [split; auto|]. injection H as H. split; intros E.
  - inversion E as [|? ? E1 E2]; subst. f_equal; [lra|]. apply (IH b H). assumption.
  - injection E as -> ->. constructor; [lra|]. apply IH; auto.
Qed.
Lemma sub_checked_inv a b e : sub_checked a b = Ok e -> length a = length b /\ e = vsub a b.
Proof. unfold sub_checked. destruct (Nat.eqb_spec (length a) (length b)); [|discriminate]. intros H. apply Ok_inj in H. auto. Qed.

(** what one row contributes *)
Definition row_l2 (dat : list R) (s : R) : Prop :=
  exists v, evaluates dat v /\ length (measured (dimY pf) dat) = length v /\ (dimX pd + dimY pf <= length dat)%nat /\ s = sum_sq (vsub (measured (dimY pf) dat) v).
Lemma l2_loop_spec rows : forall acc s, l2_loop junk pf pd val rows acc = Ok s ->
  exists l, Forall2 row_l2 rows l /\ s = acc + fold_right Rplus 0 l.
Proof.
  induction rows as [|dat rows IH]; intros acc s H; cbn [l2_loop] in H.
  - apply Ok_inj in H. exists []. split; [constructor|]. cbn. lra.
  - destruct (sample_point junk pf pd dat) as [x| | |] eqn:Ex; try discriminate. cbn [bind] in H.
    unfold sample_value in H. destruct (Nat.leb_spec (dimX pd + dimY pf) (length dat)) as [Hl|]; [|discriminate]. cbn [bind] in H.
    destruct (val x) as [v| | |] eqn:Ev; try discriminate. cbn [bind] in H.
    destruct (sub_checked _ v) as [e| | |] eqn:Ee; try discriminate. cbn [bind] in H.
    apply sub_checked_inv in Ee as [El ->].
    destruct (IH _ _ H) as (l & F & E). exists (sum_sq (vsub (measured (dimY pf) dat) v) :: l). split.
    + constructor; [|assumption]. exists v. split; [exists x; auto|]. auto.
    + cbn. rewrite E, norm_sq. unfold DistSpec.measured. lra.
Qed.
Lemma row_l2_pos dat s : row_l2 dat s -> 0 <= s.
Proof. intros (v & _ & _ & _ & ->). apply sum_sq_pos. Qed.
Lemma row_l2_zero dat s : row_l2 dat s -> (s = 0 <-> reproduces (dimY pf) dat).
Proof.
  intros (v & Hv & Hl & _ & ->). rewrite sum_sq_zero, vsub_zero by assumption. unfold DistSpec.reproduces. split.
  - intros ->. assumption.
  - intros (x & E1 & E2). destruct Hv as (x' & F1 & F2). congruence.
Qed.
Lemma sum_pos l : Forall (fun s => 0 <= s) l -> 0 <= fold_right Rplus 0 l.
Proof. induction 1; cbn; lra. Qed.
Lemma sum_zero l : Forall (fun s => 0 <= s) l -> (fold_right Rplus 0 l = 0 <-> Forall (eq 0) l).
Proof.
  induction 1 as [|s l Hs H IH]; cbn; [split; [constructor|reflexivity]|]. pose proof (sum_pos l H). split; intros E.
  - constructor; [lra|]. apply IH. lra.
  - inversion E as [|? ? E1 E2]; subst. apply IH in E2. lra.
Qed.
Lemma rows_pos rows l : Forall2 row_l2 rows l -> Forall (fun s => 0 <= s) l.
Proof. induction 1; constructor; eauto using row_l2_pos. Qed.

Lemma l2_inv rows d : L2_distance junk pf pd val rows = Ok d ->
  exists l, Forall2 row_l2 rows l /\ (0 < length rows)%nat /\ d = sqrt (fold_right Rplus 0 l / INR (length rows)).
Proof.
  unfold L2_distance. destruct (l2_loop _ _ _ _ _ _) as [s| | |] eqn:E; try discriminate. cbn [bind].
  destruct (Nat.eqb_spec (length rows) 0) as [|Hn]; [discriminate|]. intros H. apply Ok_inj in H.
  destruct (l2_loop_spec rows 0 s E) as (l & F & ->). exists l. split; [assumption|]. split; [lia|]. subst d. rewrite Rplus_0_l. reflexivity.
Qed.

Theorem l2_distance rows d : L2_distance junk pf pd val rows = Ok d ->
  0 <= d /\ (d = 0 <-> Forall (reproduces (dimY pf)) rows).
Proof.
  intros H. destruct (l2_inv rows d H) as (l & F & Hn & ->). split; [apply sqrt_pos|].
  pose proof (rows_pos rows l F) as Hp. pose proof (sum_pos l Hp) as Hs. assert (0 < INR (length rows)) as Hi by (apply lt_0_INR; assumption).
  assert (Q : 0 <= fold_right Rplus 0 l / INR (length rows)) by (apply Rmult_le_pos; [assumption|left; apply Rinv_0_lt_compat; assumption]).
  transitivity (fold_right Rplus 0 l = 0).
  { split; intros E.
    - apply sqrt_eq_0 in E; [|assumption]. unfold Rdiv in E. apply Rmult_integral in E as [E|E]; [assumption|].
      pose proof (Rinv_0_lt_compat _ Hi). lra.
    - rewrite E. unfold Rdiv. rewrite Rmult_0_l. apply sqrt_0. }
  rewrite (sum_zero l Hp). clear - F. induction F as [|dat s rows l H F IH]; [split; constructor|].
  split; intros E; inversion E; subst; constructor; try (apply IH; assumption).
  - apply (row_l2_zero dat 0); [assumption|reflexivity].
  - symmetry. apply (row_l2_zero dat s); assumption.
Qed.

Theorem l2_empty : L2_distance junk pf pd val [] = Abort.
Proof. reflexivity. Qed.

(** *** Linf *)
Lemma max_abs_ge acc e : acc <= max_abs acc e.
Proof. revert acc. induction e as [|x e IH]; intros acc; cbn; [lra|]. eapply Rle_trans; [apply Rmax_l|apply IH]. Qed.
Lemma max_abs_spec e : forall acc b, 0 <= acc -> max_abs acc e <= b <-> acc <= b /\ Forall (fun x => Rabs x <= b) e.
Proof.
  induction e as [|x e IH]; intros acc b H; cbn; [split; [intros; split; [assumption|constructor]|tauto]|].
  rewrite IH by (eapply Rle_trans; [exact H|apply Rmax_l]). split.
  - intros [E F]. split; [eapply Rle_trans; [apply Rmax_l|exact E]|]. constructor; [|assumption]. eapply Rle_trans; [apply Rmax_r|exact E].
  - intros [E F]. inversion F; subst. split; [apply Rmax_lub; assumption|assumption].
Qed.
Definition row_linf (dat e : list R) : Prop :=
  exists v, evaluates dat v /\ length v = dimY pf /\ (dimX pd + dimY pd <= length dat)%nat /\ (dimY pd <= dimY pf)%nat /\ e = vsub (measured (dimY pd) dat) (firstn (dimY pd) v).
Lemma linf_loop_spec rows : forall acc s, 0 <= acc -> linf_loop junk pf pd val rows acc = Ok s ->
  exists l, Forall2 row_linf rows l /\ (forall b, s <= b <-> acc <= b /\ Forall (Forall (fun x => Rabs x <= b)) l).
Proof.
  induction rows as [|dat rows IH]; intros acc s Ha H; cbn [linf_loop] in H.
  - apply Ok_inj in H. subst. exists []. split; [constructor|]. intros b. split; [intros; split; [assumption|constructor]|tauto].
  - destruct (sample_point junk pf pd dat) as [x| | |] eqn:Ex; try discriminate. cbn [bind] in H.
    destruct (Nat.ltb_spec (dimY pf) (dimY pd)) as [|Hd]; [discriminate|].
    unfold sample_value in H. destruct (Nat.leb_spec (dimX pd + dimY pd) (length dat)) as [Hl|]; [|discriminate]. cbn [bind] in H.
    destruct (val x) as [v| | |] eqn:Ev; try discriminate. cbn [bind] in H.
    destruct (Nat.ltb_spec (length v) (dimY pd)); [discriminate|]. destruct (Nat.eqb_spec (length v) (dimY pf)) as [Hv|]; [|discriminate].
    set (e := vsub (firstn (dimY pd) (skipn (dimX pd) dat)) (firstn (dimY pd) v)) in *.
    destruct (IH (max_abs acc e) s ltac:(eapply Rle_trans; [exact Ha|apply max_abs_ge]) H) as (l & F & E).
    exists (e :: l). split.
    + constructor; [|assumption]. exists v. split; [exists x; auto|]. auto.
    + intros b. rewrite E, max_abs_spec by assumption. split; [intros [[A B] C]; split; [assumption|constructor; assumption]|].
      intros [A B]. inversion B; subst. tauto.
Qed.
Lemma linf_inv rows d : Linf_distance junk pf pd val rows = Ok d -> rows <> [] ->
  dimY pf = dimY pd /\ exists l, Forall2 row_linf rows l /\ (forall b, d <= b <-> 0 <= b /\ Forall (Forall (fun x => Rabs x <= b)) l).
Proof.
  intros H Hn. unfold Linf_distance in H. destruct (linf_loop junk pf pd val rows 0) as [m| | |] eqn:E; try discriminate. cbn [bind] in H.
  destruct (linf_loop_spec rows 0 m (Rle_refl 0) E) as (l & F & S).
  unfold linf_second_pass in H. destruct rows as [|r rows]; [congruence|].
  destruct (Nat.ltb_spec (dimY pd) (dimY pf)) as [|Hd]; [discriminate|]. cbn [bind] in H. apply Ok_inj in H. subst m.
  split; [|exists l; auto]. inversion F as [|? ? ? ? (v & _ & _ & _ & Hle & _) _]; subst. lia.
Qed.
Lemma Rabs_zero_le x : Rabs x <= 0 <-> 0 = x.
Proof. split; [intros H; pose proof (Rabs_pos x); assert (Rabs x = 0) by lra; destruct (Req_dec x 0) as [|N]; [auto|apply Rabs_no_R0 in N; contradiction]|intros <-; rewrite Rabs_R0; lra]. Qed.
Lemma row_linf_zero dat e : dimY pf = dimY pd -> row_linf dat e -> (Forall (fun x => Rabs x <= 0) e <-> reproduces (dimY pf) dat).
Proof.
  intros Hd (v & Hv & Hl & Hlen & _ & ->).
  assert (Ef : firstn (dimY pd) v = v) by (rewrite <- Hd, <- Hl; apply firstn_all). rewrite Ef.
  assert (Lm : length (measured (dimY pd) dat) = dimY pd) by (unfold DistSpec.measured; rewrite firstn_length, skipn_length; lia).
  transitivity (Forall (eq 0) (vsub (measured (dimY pd) dat) v)).
  { split; apply Forall_impl; intros x; apply Rabs_zero_le. }
  rewrite vsub_zero by lia. unfold DistSpec.reproduces. rewrite Hd. split.
  - intros ->. assumption.
  - intros (x & E1 & E2). destruct Hv as (x' & F1 & F2). congruence.
Qed.
Theorem linf_distance rows d : rows <> [] -> Linf_distance junk pf pd val rows = Ok d ->
  0 <= d /\ (d = 0 <-> Forall (reproduces (dimY pf)) rows).
Proof.
  intros Hn H. destruct (linf_inv rows d H Hn) as (Hd & l & F & S).
  assert (P : 0 <= d) by (apply (S d); apply Rle_refl). split; [assumption|].
  transitivity (d <= 0); [split; lra|]. rewrite S.
  transitivity (Forall (Forall (fun x => Rabs x <= 0)) l); [split; [tauto|intros; split; [lra|assumption]]|].
  clear - F Hd. induction F as [|dat e rows l H F IH]; [split; constructor|].
  split; intros E; inversion E; subst; constructor; try (apply IH; assumption); apply (row_linf_zero dat e Hd H); assumption.
Qed.

(** the largest deviation bounds every deviation *)
Theorem linf_bounds rows d dat v j : Linf_distance junk pf pd val rows = Ok d -> In dat rows -> evaluates dat v -> (j < dimY pf)%nat ->
  Rabs (nth j (measured (dimY pf) dat) 0 - nth j v 0) <= d.
Proof.
  intros H Hin Hv Hj. destruct (linf_inv rows d H ltac:(intros ->; contradiction)) as (Hd & l & F & S).
  pose proof (proj1 (S d) (Rle_refl d)) as [_ B].
  assert (exists e, In e l /\ row_linf dat e) as (e & He & Hr).
  { clear - F Hin. induction F as [|a e rows l R F IH]; [contradiction|]. destruct Hin as [->|Hin]; [exists e; split; [left; reflexivity|assumption]|].
    destruct (IH Hin) as (e' & A & Q). exists e'. split; [right; assumption|assumption]. }
  rewrite Forall_forall in B. specialize (B e He). destruct Hr as (w & Hw & Hl & Hlen & _ & ->).
  assert (w = v) as ->. { destruct Hw as (x & E1 & E2), Hv as (x' & F1 & F2). congruence. }
  assert (Ef : firstn (dimY pd) v = v) by (rewrite <- Hd, <- Hl; apply firstn_all). rewrite Ef in B. rewrite Hd in *.
  assert (Lm : length (measured (dimY pd) dat) = dimY pd) by (unfold DistSpec.measured; rewrite firstn_length, skipn_length; lia).
  assert (N : nth j (vsub (measured (dimY pd) dat) v) 0 = nth j (measured (dimY pd) dat) 0 - nth j v 0 /\ (j < length (vsub (measured (dimY pd) dat) v))%nat).
  { assert (L : length (measured (dimY pd) dat) = length v) by lia. assert (J : (j < length v)%nat) by lia. clear - L J.
    revert v j L J. induction (measured (dimY pd) dat) as [|a m IH]; intros [|b v] j L J; try discriminate; [cbn in J; lia|].
    destruct j as [|j]; cbn; [split; [reflexivity|lia]|]. destruct (IH v j) as [A B]; [cbn in L; lia|cbn in J; lia|]. split; [exact A|lia]. }
  destruct N as [N NL]. rewrite <- N. rewrite Forall_forall in B. apply B. apply nth_In. assumption.
Qed.

Theorem linf_least rows d b : rows <> [] -> Linf_distance junk pf pd val rows = Ok d -> 0 <= b ->
  (forall dat v j, In dat rows -> evaluates dat v -> (j < dimY pf)%nat ->
     Rabs (nth j (measured (dimY pf) dat) 0 - nth j v 0) <= b) -> d <= b.
Proof.
  intros Hn H Hb B. destruct (linf_inv rows d H Hn) as (Hd & l & F & S). apply S. split; [assumption|].
  clear - F B Hd. induction F as [|dat e rows l R F IH]; [constructor|]. constructor.
  - destruct R as (w & Hw & Hl & Hlen & _ & ->). pose proof (fun j => B dat w j (or_introl eq_refl) Hw) as C.
    assert (Ef : firstn (dimY pd) w = w) by (rewrite <- Hd, <- Hl; apply firstn_all). rewrite Ef. rewrite Hd in *.
    assert (Lm : length (measured (dimY pd) dat) = length w) by (unfold DistSpec.measured; rewrite firstn_length, skipn_length; lia).
    assert (C' : forall j, (j < length w)%nat -> Rabs (nth j (measured (dimY pd) dat) 0 - nth j w 0) <= b) by (intros j Hj; apply C; lia).
    clear - Lm C'. rename C' into C. revert w Lm C. induction (measured (dimY pd) dat) as [|a m IH]; intros [|b' v] L C; try discriminate; [constructor|].
    cbn. constructor; [apply (C 0%nat); cbn; lia|]. apply IH; [cbn in L; lia|]. intros j Hj. apply (C (S j)). cbn. lia.
  - apply IH. intros dat' v j Hin. apply B. right. assumption.
Qed.

(** comparison of the two *)
Lemma sum_sq_bound e b : 0 <= b -> Forall (fun x => Rabs x <= b) e -> sum_sq e <= INR (length e) * (b * b).
Proof.
  intros Hb H. induction H as [|x e Hx H IH]; [cbn; lra|]. cbn [sum_sq length]. rewrite S_INR.
  assert (x * x <= b * b). { rewrite <- (Rabs_right (x * x)) by (pose proof (Rle_0_sqr x); unfold Rsqr in *; lra). rewrite Rabs_mult. apply Rmult_le_compat; auto using Rabs_pos. }
  lra.
Qed.
Lemma sum_sq_member e x : In x e -> x * x <= sum_sq e.
Proof.
  induction e as [|y e IH]; [contradiction|]. cbn. pose proof (Rle_0_sqr y) as Hy. unfold Rsqr in Hy. pose proof (sum_sq_pos e).
  intros [->|H']; [lra|]. specialize (IH H'). lra.
Qed.
Lemma vsub_len a : forall b, length a = length b -> length (vsub a b) = length a.
Proof. induction a as [|x a IH]; intros [|y b] H; try discriminate; [reflexivity|]. cbn in *. injection H as H. rewrite IH; auto. Qed.
Lemma fold_le l b : Forall (fun s => s <= b) l -> fold_right Rplus 0 l <= INR (length l) * b.
Proof. induction 1 as [|s l Hs H IH]; [cbn; lra|]. cbn [fold_right length]. rewrite S_INR. lra. Qed.
Lemma fold_member l s : Forall (fun s => 0 <= s) l -> In s l -> s <= fold_right Rplus 0 l.
Proof. induction 1 as [|t l Ht H IH]; [contradiction|]. cbn. pose proof (sum_pos l H). intros [->|Hin]; [lra|]. specialize (IH Hin). lra. Qed.

Theorem distances_compare rows a b : rows <> [] -> L2_distance junk pf pd val rows = Ok a -> Linf_distance junk pf pd val rows = Ok b ->
  a <= sqrt (INR (dimY pf)) * b /\ b <= sqrt (INR (length rows)) * a.
Proof.
  intros Hn Ha Hb. destruct (linf_inv rows b Hb Hn) as (Hd & le & Fe & S). destruct (l2_inv rows a Ha) as (ls & Fs & Hlen & Ea).
  destruct (linf_distance rows b Hn Hb) as [Pb _]. destruct (l2_distance rows a Ha) as [Pa _].
  pose proof (proj1 (S b) (Rle_refl b)) as [_ Be]. assert (Hi : 0 < INR (length rows)) by (apply lt_0_INR; assumption).
  (* each row of l2 is the sum of squares of the row of linf *)
  assert (Rel : Forall2 (fun s e => s = sum_sq e /\ length e = dimY pf) ls le).
  { clear - Fe Fs Hd. revert le Fe. induction Fs as [|dat s rows ls H Fs IH]; intros le Fe; inversion Fe as [|? e ? le' He Fe']; subst; [constructor|].
    constructor; [|apply IH; assumption].
    destruct H as (v & Hv & Hl & _ & ->). destruct He as (w & Hw & Hlw & Hlen & _ & ->).
    assert (w = v) as ->. { destruct Hw as (x & E1 & E2), Hv as (x' & F1 & F2). congruence. }
    rewrite <- Hd, <- Hlw, firstn_all. rewrite Hlw. split; [reflexivity|]. rewrite vsub_len; lia. }
  assert (Ll : length ls = length rows) by (clear - Fs; induction Fs; cbn; congruence).
  pose proof (rows_pos rows ls Fs) as Hp.
  assert (Q : 0 <= fold_right Rplus 0 ls / INR (length rows)) by (apply Rmult_le_pos; [apply sum_pos; assumption|left; apply Rinv_0_lt_compat; assumption]).
  assert (A2 : a * a = fold_right Rplus 0 ls / INR (length rows)) by (rewrite Ea; apply sqrt_sqrt; assumption).
  split.
  - apply Rsqr_incr_0_var; [|apply Rmult_le_pos; [apply sqrt_pos|assumption]]. unfold Rsqr.
    replace (sqrt (INR (dimY pf)) * b * (sqrt (INR (dimY pf)) * b)) with (INR (dimY pf) * (b * b))
      by (rewrite <- (sqrt_sqrt (INR (dimY pf))) at 1 by apply pos_INR; ring).
    rewrite A2. apply (Rmult_le_reg_r (INR (length rows))); [assumption|].
    replace (fold_right Rplus 0 ls / INR (length rows) * INR (length rows)) with (fold_right Rplus 0 ls) by (field; lra).
    rewrite <- Ll. rewrite Rmult_comm. apply fold_le.
    clear - Rel Be Pb. induction Rel as [|s e ls le [-> L] R IH]; [constructor|]. inversion Be; subst. constructor; [|apply IH; assumption].
    rewrite <- L. apply sum_sq_bound; assumption.
  - apply S. split; [apply Rmult_le_pos; [apply sqrt_pos|assumption]|].
    apply Forall_forall. intros e He. apply Forall_forall. intros x Hx.
    assert (exists s, In s ls /\ s = sum_sq e) as (s & Hs & Es).
    { clear - Rel He. induction Rel as [|s e' ls le [E _] R IH]; [contradiction|]. destruct He as [->|He]; [exists s; split; [left; reflexivity|assumption]|].
      destruct (IH He) as (s' & A & B). exists s'. split; [right; assumption|assumption]. }
    rewrite <- (Rabs_right (sqrt (INR (length rows)) * a)) by (apply Rle_ge, Rmult_le_pos; [apply sqrt_pos|assumption]).
    apply Rsqr_le_abs_0. unfold Rsqr.
    replace (sqrt (INR (length rows)) * a * (sqrt (INR (length rows)) * a)) with (INR (length rows) * (a * a))
      by (rewrite <- (sqrt_sqrt (INR (length rows))) at 1 by apply pos_INR; ring).
    rewrite A2. replace (INR (length rows) * (fold_right Rplus 0 ls / INR (length rows))) with (fold_right Rplus 0 ls) by (field; lra).
    eapply Rle_trans; [apply sum_sq_member; exact Hx|]. rewrite <- Es. apply fold_member; assumption.
Qed.

(** different output dimensions *)
Theorem linf_mismatch rows : rows <> [] -> dimY pf <> dimY pd -> forall d, Linf_distance junk pf pd val rows <> Ok d.
Proof. intros Hn Hd d H. destruct (linf_inv rows d H Hn). contradiction. Qed.

(** both are defined as soon as the function can be evaluated at every sample *)
Lemma l2_loop_defined rows : Forall row_defined rows -> forall acc, exists s, l2_loop junk pf pd val rows acc = Ok s.
Proof.
  induction 1 as [|dat rows (Hl & v & (x & Ex & Ev) & Hv) H IH]; intros acc; [exists acc; reflexivity|]. cbn [l2_loop].
  rewrite Ex. cbn [bind]. unfold sample_value. destruct (Nat.leb_spec (dimX pd + dimY pf) (length dat)); [|lia]. cbn [bind].
  rewrite Ev. cbn [bind]. unfold sub_checked. rewrite firstn_length, skipn_length, Hv.
  destruct (Nat.eqb_spec (Nat.min (dimY pf) (length dat - dimX pd)) (dimY pf)); [|lia]. cbn [bind]. apply IH.
Qed.
Lemma linf_loop_defined rows : dimY pf = dimY pd -> Forall row_defined rows -> forall acc, exists s, linf_loop junk pf pd val rows acc = Ok s.
Proof.
  intros Hd. induction 1 as [|dat rows (Hl & v & (x & Ex & Ev) & Hv) H IH]; intros acc; [exists acc; reflexivity|]. cbn [linf_loop].
  rewrite Ex. cbn [bind]. destruct (Nat.ltb_spec (dimY pf) (dimY pd)); [lia|].
  unfold sample_value. destruct (Nat.leb_spec (dimX pd + dimY pd) (length dat)); [|lia]. cbn [bind].
  rewrite Ev. cbn [bind]. destruct (Nat.ltb_spec (length v) (dimY pd)); [lia|]. destruct (Nat.eqb_spec (length v) (dimY pf)); [|lia]. apply IH.
Qed.
Theorem distances_defined rows : rows <> [] -> Forall row_defined rows ->
  (exists a, L2_distance junk pf pd val rows = Ok a) /\
  (dimY pf = dimY pd -> exists b, Linf_distance junk pf pd val rows = Ok b).
Proof.
  intros Hn H. split.
  - unfold L2_distance. destruct (l2_loop_defined rows H 0) as [s ->]. cbn [bind]. destruct rows; [congruence|]. eexists. reflexivity.
  - intros Hd. unfold Linf_distance. destruct (linf_loop_defined rows Hd H 0) as [s ->]. cbn [bind]. unfold linf_second_pass.
    destruct rows; [congruence|]. destruct (Nat.ltb_spec (dimY pd) (dimY pf)); [lia|]. eexists. reflexivity.
Qed.
End Dist.

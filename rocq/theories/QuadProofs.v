From Coq Require Import Reals List Arith Lia Lra Permutation.
From Verif Require Import Base Num ParamsModel GeoModel ArgsModel DataModel TextModel FuncModel MonoModel MonoProofs FuncFile RatModel RatSpec RatProofs QuadModel QuadSpec.
Open Scope R_scope.

(** ** Vectors *)
Lemma dot_app a : forall b x y, length a = length x -> dot (a ++ b) (x ++ y) = dot a x + dot b y.
Proof. induction a as [|u a IH]; intros b [|v x] y H; try discriminate; cbn [app dot]; [lra|]. rewrite IH by (cbn in H; lia). lra. Qed.
Lemma dot_opp a : forall x, dot (List.map Ropp a) x = - dot a x.
Proof. induction a as [|u a IH]; intros [|v x]; cbn [List.map dot]; try lra. rewrite IH. lra. Qed.
Lemma dot_scale k a : forall x, dot (List.map (fun t => k * t) a) x = k * dot a x.
Proof. induction a as [|u a IH]; intros [|v x]; cbn [List.map dot]; try lra. rewrite IH. lra. Qed.
Lemma dot_scale_r k a : forall x, dot a (List.map (fun t => k * t) x) = k * dot a x.
Proof. induction a as [|u a IH]; intros [|v x]; cbn [List.map dot]; try lra. rewrite IH. lra. Qed.
Lemma dot_self_nonneg x : 0 <= dot x x.
Proof. induction x as [|u x IH]; cbn [dot]; nra. Qed.
Lemma norm2_acc v : forall s, fold_left (fun s t => s + t * t) v s = s + dot v v.
Proof. induction v as [|u v IH]; intros s; cbn [fold_left dot]; [lra|]. rewrite IH. lra. Qed.
Lemma norm2_dot v : norm2 v = dot v v.
Proof. unfold norm2. rewrite norm2_acc. lra. Qed.
Lemma dot_self_zero x : dot x x = 0 -> forall a, dot a x = 0.
Proof.
  induction x as [|u x IH]; intros H [|v a]; cbn [dot] in *; try lra.
  pose proof (dot_self_nonneg x). assert (u = 0) by nra. assert (dot x x = 0) by nra. subst. rewrite IH by assumption. lra.
Qed.
Lemma dot_zeros a n : dot a (repeat 0 n) = 0.
Proof. revert a. induction n as [|n IH]; intros [|u a]; cbn [repeat dot]; try lra. rewrite IH. lra. Qed.

(** ** Columns *)
Lemma put_col_ok {A} (l : list A) : forall i x, (i < length l)%nat -> exists l', put_col l i x = Ok l' /\ length l' = length l /\
  forall j, nth_error l' j = if (j =? i)%nat then Some x else nth_error l j.
Proof.
  induction l as [|y l IH]; intros i x H; [cbn in H; lia|]. destruct i as [|i]; cbn [put_col].
  - exists (x :: l). repeat split. intros [|j]; reflexivity.
  - destruct (IH i x) as (l' & E & L & N); [cbn in H; lia|]. rewrite E. exists (y :: l'). cbn [bind].
    repeat split; [cbn; lia|]. intros [|j]; [reflexivity|]. cbn. rewrite N. reflexivity.
Qed.

(** ** The order of the samples *)
Fixpoint slots (M n k0 k1 : nat) : list nat :=
  match n with O => [] | S n' => k0 :: slots M n' (fst (next_slot M k0 k1)) (snd (next_slot M k0 k1)) end.
Lemma slots_length M n : forall k0 k1, length (slots M n k0 k1) = n.
Proof. induction n as [|n IH]; intros; cbn; [reflexivity|]. rewrite IH. reflexivity. Qed.

(** what has been visited before (k0, k1) *)
Definition visited (M k0 k1 v : nat) : Prop := (v < M)%nat /\ ((v mod 32 < k1 - 1)%nat \/ (v mod 32 = k1 - 1 /\ v < k0)%nat).
Lemma count_visited M l : NoDup l -> (forall v, In v l <-> (v < M)%nat) -> length l = M.
Proof.
  intros N H. rewrite <- (seq_length M 0). apply Permutation_length. apply NoDup_Permutation; [assumption|apply seq_NoDup|].
  intros v. rewrite H, in_seq. lia.
Qed.
Lemma same_residue a b : (a mod 32 = b mod 32)%nat -> (b <= a < b + 32)%nat -> a = b.
Proof. intros H R. pose proof (Nat.div_mod a 32 ltac:(lia)). pose proof (Nat.div_mod b 32 ltac:(lia)). lia. Qed.
Lemma mod_le a : (a mod 32 <= a)%nat.
Proof. apply Nat.mod_le. lia. Qed.
Lemma slots_inv M n : forall k0 k1 don, NoDup don -> (length don + n = M)%nat -> (1 <= k1 <= 33)%nat -> (k0 mod 32 = (k1 - 1) mod 32)%nat -> (k0 < M \/ k0 = k1 - 1)%nat ->
  (forall v, In v don <-> visited M k0 k1 v) -> Permutation (don ++ slots M n k0 k1) (seq 0 M).
Proof.
  induction n as [|n IH]; intros k0 k1 don ND L H1 H2 H3 HV; cbn [slots].
  - rewrite app_nil_r. apply NoDup_Permutation_bis; [assumption|rewrite seq_length; lia|]. intros v Hv. apply HV in Hv as [Hv _]. apply in_seq. lia.
  - assert (Hk : (k1 - 1 < 32)%nat).
    { destruct (le_lt_dec 32 (k1 - 1)); [|assumption]. exfalso. assert (length don = M); [|lia]. apply count_visited; [assumption|].
      intros v. rewrite HV. unfold visited. pose proof (Nat.mod_upper_bound v 32 ltac:(lia)). split; [tauto|]. intros; split; [assumption|left; lia]. }
    rewrite (Nat.mod_small (k1 - 1) 32) in H2 by assumption.
    assert (H4 : (k0 < M)%nat).
    { destruct H3 as [H3|H3]; [assumption|]. destruct (le_lt_dec M k0); [|assumption]. exfalso. assert (length don = M); [|lia].
      apply count_visited; [assumption|]. intros v. rewrite HV. unfold visited. split; [tauto|]. intros Hv. split; [assumption|].
      left. rewrite Nat.mod_small; lia. }
    assert (Hnew : ~ In k0 don) by (rewrite HV; intros [_ [?|[? ?]]]; lia).
    replace (don ++ k0 :: slots M n (fst (next_slot M k0 k1)) (snd (next_slot M k0 k1)))
      with ((don ++ [k0]) ++ slots M n (fst (next_slot M k0 k1)) (snd (next_slot M k0 k1))) by (rewrite <- app_assoc; reflexivity).
    assert (ND' : NoDup (don ++ [k0])).
    { apply (Permutation_NoDup (l := k0 :: don)); [apply Permutation_cons_append|]. constructor; assumption. }
    assert (L' : (length (don ++ [k0]) + n = M)%nat) by (rewrite app_length; cbn; lia).
    unfold next_slot. destruct (Nat.leb_spec M (k0 + 32)); cbn [fst snd].
    + apply IH; try assumption; try lia. { f_equal; lia. }
      intros v. rewrite in_app_iff, HV. cbn [In]. unfold visited. replace (S k1 - 1)%nat with k1 by lia. pose proof (mod_le v). split.
      * intros [[? [?|[? ?]]]|[<-|[]]]; split; try assumption; left; lia.
      * intros [Hv [Hm|[Hm Hl]]]; [|lia]. destruct (Nat.eq_dec (v mod 32) (k1 - 1)) as [He|He]; [|left; split; [assumption|left; lia]].
        destruct (le_lt_dec k0 v); [|left; split; [assumption|right; lia]]. right; left. symmetry. apply same_residue; lia.
    + apply IH; try assumption; try lia.
      { rewrite (Nat.mod_small (k1 - 1) 32) by assumption. replace (k0 + 32)%nat with (k0 + 1 * 32)%nat by lia. rewrite Nat.mod_add by lia. assumption. }
      intros v. rewrite in_app_iff, HV. cbn [In]. unfold visited. split.
      * intros [[? [?|[? ?]]]|[<-|[]]]; split; try assumption; lia.
      * intros [Hv [Hm|[Hm Hl]]]; [left; split; [assumption|left; lia]|].
        destruct (le_lt_dec k0 v); [|left; split; [assumption|right; lia]]. right; left. symmetry. apply same_residue; lia.
Qed.
Lemma slots_permutation M : Permutation (slots M M 0 1) (seq 0 M).
Proof.
  apply (slots_inv M M 0 1 []); [constructor|cbn; lia|lia|reflexivity|right; lia|].
  intros v. cbn [In]. unfold visited. split; [tauto|]. intros [? [?|[? ?]]]; lia.
Qed.

(** ** Filling the matrix *)
Lemma fill_ok np nq M r ss : (forall s, In s ss -> exists c, constraint np nq r s = Ok c) -> forall k0 k1 CI ci,
  NoDup (slots M (length ss) k0 k1) -> (forall k, In k (slots M (length ss) k0 k1) -> (2 * k + 1 < length CI)%nat) -> length ci = length CI ->
  exists CI' ci', fill np nq M r ss k0 k1 CI ci = Ok (CI', ci') /\ length CI' = length CI /\ length ci' = length CI /\
    (forall i s k, nth_error ss i = Some s -> nth_error (slots M (length ss) k0 k1) i = Some k -> exists cu cl, constraint np nq r s = Ok (cu, cl) /\
       nth_error CI' (2 * k) = Some cu /\ nth_error CI' (2 * k + 1) = Some cl /\
       nth_error ci' (2 * k) = Some (- sqrt (norm2 cu)) /\ nth_error ci' (2 * k + 1) = Some (- sqrt (norm2 cl))) /\
    (forall j, ~ In (j / 2)%nat (slots M (length ss) k0 k1) -> nth_error CI' j = nth_error CI j /\ nth_error ci' j = nth_error ci j).
Proof.
  induction ss as [|s ss IH]; intros Hc k0 k1 CI ci ND HB HL; cbn [fill length slots].
  - exists CI, ci. repeat split; auto. intros [|i] ? ? H; discriminate H.
  - cbn [length slots] in ND, HB. inversion ND as [|? ? Hnot ND']; subst.
    destruct (Hc s) as [[cu cl] Ec]; [left; reflexivity|]. rewrite Ec. cbn [bind fst snd].
    assert (B0 : (2 * k0 + 1 < length CI)%nat) by (apply HB; left; reflexivity).
    destruct (put_col_ok CI (2 * k0) cu) as (C1 & E1 & L1 & N1); [lia|]. rewrite E1. cbn [bind].
    destruct (put_col_ok C1 (2 * k0 + 1) cl) as (C2 & E2 & L2 & N2); [lia|]. rewrite E2. cbn [bind].
    destruct (put_col_ok ci (2 * k0) (- sqrt (norm2 cu))) as (D1 & E3 & L3 & N3); [lia|]. rewrite E3. cbn [bind].
    destruct (put_col_ok D1 (2 * k0 + 1) (- sqrt (norm2 cl))) as (D2 & E4 & L4 & N4); [lia|]. rewrite E4. cbn [bind].
    destruct (next_slot M k0 k1) as [k0' k1'] eqn:En. cbn [fst snd] in *.
    destruct (IH (fun s' H => Hc s' (or_intror H)) k0' k1' C2 D2 ND') as (CI' & ci' & E & LC & Lc & HS & HO).
    + intros k Hk. rewrite L2, L1. apply HB. right. assumption.
    + lia.
    + exists CI', ci'. split; [exact E|]. split; [lia|]. split; [lia|]. split.
      * intros [|i] s' k Es Ek; cbn [nth_error] in Es, Ek; [|apply (HS i); assumption].
        injection Es as <-. injection Ek as <-. exists cu, cl. split; [exact Ec|].
        assert (Q0 : (2 * k0 / 2 = k0)%nat) by (rewrite Nat.mul_comm, Nat.div_mul; lia).
        assert (Q1 : ((2 * k0 + 1) / 2 = k0)%nat) by (rewrite Nat.mul_comm, Nat.div_add_l by lia; cbn; lia).
        destruct (HO (2 * k0)%nat) as [-> ->]; [rewrite Q0; assumption|]. destruct (HO (2 * k0 + 1)%nat) as [-> ->]; [rewrite Q1; assumption|].
        rewrite !N2, !N4, !N1, !N3. rewrite !Nat.eqb_refl.
        replace (2 * k0 =? 2 * k0 + 1)%nat with false by (symmetry; apply Nat.eqb_neq; lia). auto.
      * intros j Hj. destruct (HO j) as [-> ->]; [intros C; apply Hj; right; exact C|]. rewrite N2, N4, N1, N3.
        assert (j <> 2 * k0 /\ j <> 2 * k0 + 1)%nat as [J1 J2].
        { split; intros ->; apply Hj; left.
          - rewrite Nat.mul_comm, Nat.div_mul; lia.
          - rewrite Nat.mul_comm, Nat.div_add_l by lia. cbn. lia. }
        apply Nat.eqb_neq in J1, J2. rewrite J1, J2. auto.
Qed.

Lemma fill_spec np nq r ss CI ci : (forall s, In s ss -> exists c, constraint np nq r s = Ok c) -> length CI = (2 * length ss)%nat -> length ci = (2 * length ss)%nat ->
  exists CI' ci' ks, fill np nq (length ss) r ss 0 1 CI ci = Ok (CI', ci') /\ length CI' = (2 * length ss)%nat /\ length ci' = (2 * length ss)%nat /\
    Permutation ks (seq 0 (length ss)) /\
    (forall i s k, nth_error ss i = Some s -> nth_error ks i = Some k -> exists cu cl, constraint np nq r s = Ok (cu, cl) /\
       nth_error CI' (2 * k) = Some cu /\ nth_error CI' (2 * k + 1) = Some cl /\
       nth_error ci' (2 * k) = Some (- sqrt (norm2 cu)) /\ nth_error ci' (2 * k + 1) = Some (- sqrt (norm2 cl))).
Proof.
  intros Hc L1 L2. pose proof (slots_permutation (length ss)) as P.
  destruct (fill_ok np nq (length ss) r ss Hc 0%nat 1%nat CI ci) as (CI' & ci' & E & A & B & C & _).
  - apply (Permutation_NoDup (Permutation_sym P)). apply seq_NoDup.
  - intros k Hk. apply (Permutation_in _ P) in Hk. apply in_seq in Hk. lia.
  - lia.
  - exists CI', ci', (slots (length ss) (length ss) 0 1). repeat split; auto; lia.
Qed.

(** ** The constraints of a sample *)
Definition monos (r : rf1) (n : nat) (x : list R) : list R := List.map (fun i => monomial (r_min r) (r_max r) x (index2degree (r_dim r) i)) (seq 0 n).
Lemma numbered_nth d cs : numbered d cs -> forall i c, nth_error cs i = Some c -> co_deg c = index2degree d i.
Proof.
  unfold numbered. intros H i c E. assert (Hi : (i < length cs)%nat) by (apply nth_error_Some; congruence).
  assert (E1 : nth_error (List.map co_deg cs) i = Some (co_deg c)) by (rewrite nth_error_map, E; reflexivity).
  rewrite H, nth_error_map, (nth_error_nth' _ 0%nat) in E1 by (rewrite seq_length; exact Hi). rewrite seq_nth in E1 by exact Hi. cbn in E1. congruence.
Qed.
Lemma basis_row_spec r cs x : (0 < r_dim r)%nat -> domain_ok (r_dim r) (r_min r) (r_max r) -> numbered (r_dim r) cs -> length x = r_dim r ->
  forall n j, (j + n <= length cs)%nat -> basis_row n j r cs x = Ok (List.map (fun i => monomial (r_min r) (r_max r) x (index2degree (r_dim r) i)) (seq j n)).
Proof.
  intros Hd D Hn Hx. induction n as [|n IH]; intros j Hj; cbn [basis_row seq List.map]; [reflexivity|].
  destruct (nth_error cs j) as [c|] eqn:E; [|apply nth_error_None in E; lia].
  pose proof (numbered_nth _ _ Hn _ _ E) as Ec. rewrite basis_spec; [|assumption|assumption|rewrite Ec; apply index2degree_length; assumption].
  cbn [bind]. rewrite IH by lia. cbn [bind]. rewrite Ec. reflexivity.
Qed.
Lemma dot_monos r x : forall a i, dot (List.map (fun i => monomial (r_min r) (r_max r) x (index2degree (r_dim r) i)) (seq i (length a))) a = polynomial_from i (r_dim r) (r_min r) (r_max r) a x.
Proof. induction a as [|t a IH]; intros i; cbn [length seq List.map dot polynomial_from]; [reflexivity|]. rewrite IH. lra. Qed.

Definition upper_row (r : rf1) (np nq : nat) (s : sample) : list R := monos r np (position s) ++ List.map (fun q => - upper s * q) (monos r nq (position s)).
Definition lower_row (r : rf1) (np nq : nat) (s : sample) : list R := List.map Ropp (monos r np (position s)) ++ List.map (fun q => lower s * q) (monos r nq (position s)).
Lemma constraint_spec np nq r s : well_formed r -> length (r_p r) = np -> length (r_q r) = nq -> length (position s) = r_dim r ->
  constraint np nq r s = Ok (upper_row r np nq s, lower_row r np nq s).
Proof.
  intros (Hd & D & P & Q) Lp Lq Hx. destruct s as [[x yl] yu]. cbn [position lower upper fst snd] in *. unfold constraint.
  rewrite !basis_row_spec by (assumption || lia). reflexivity.
Qed.
Lemma monos_length r n x : length (monos r n x) = n.
Proof. unfold monos. rewrite map_length, seq_length. reflexivity. Qed.
Lemma upper_row_length r np nq s : length (upper_row r np nq s) = (np + nq)%nat.
Proof. unfold upper_row. rewrite app_length, map_length, !monos_length. reflexivity. Qed.
Lemma lower_row_length r np nq s : length (lower_row r np nq s) = (np + nq)%nat.
Proof. unfold lower_row. rewrite app_length, !map_length, !monos_length. reflexivity. Qed.
Definition num (r : rf1) (a : list R) (s : sample) : R := polynomial (r_dim r) (r_min r) (r_max r) a (position s).
Lemma upper_row_dot r a b s : dot (upper_row r (length a) (length b) s) (a ++ b) = num r a s - upper s * num r b s.
Proof.
  unfold upper_row. rewrite dot_app by (rewrite monos_length; reflexivity). rewrite dot_scale. unfold monos. rewrite !dot_monos. unfold num, polynomial. lra.
Qed.
Lemma lower_row_dot r a b s : dot (lower_row r (length a) (length b) s) (a ++ b) = lower s * num r b s - num r a s.
Proof.
  unfold lower_row. rewrite dot_app by (rewrite map_length, monos_length; reflexivity). rewrite dot_opp, dot_scale. unfold monos. rewrite !dot_monos. unfold num, polynomial. lra.
Qed.

Lemma monomial_const mn mx x : forall d, monomial mn mx x (repeat 0%nat d) = 1.
Proof.
  revert mx x. induction mn as [|lo mn IH]; intros mx x d; [reflexivity|].
  destruct mx, x, d; cbn [repeat monomial]; try reflexivity. rewrite IH. cbn [pow]. lra.
Qed.
Lemma monos_first r n x : monos r (S n) x = 1 :: List.map (fun i => monomial (r_min r) (r_max r) x (index2degree (r_dim r) i)) (seq 1 n).
Proof. unfold monos. cbn [seq List.map]. f_equal. apply monomial_const. Qed.
Lemma upper_row_norm r np nq s : (0 < np)%nat -> 1 <= norm2 (upper_row r np nq s).
Proof.
  intros H. rewrite norm2_dot. unfold upper_row. destruct np as [|n]; [lia|]. rewrite monos_first. cbn [app dot].
  match goal with |- context [dot ?v ?v] => pose proof (dot_self_nonneg v) end. lra.
Qed.
Lemma lower_row_norm r np nq s : (0 < np)%nat -> 1 <= norm2 (lower_row r np nq s).
Proof.
  intros H. rewrite norm2_dot. unfold lower_row. destruct np as [|n]; [lia|]. rewrite monos_first. cbn [app List.map dot].
  match goal with |- context [dot ?v ?v] => pose proof (dot_self_nonneg v) end. lra.
Qed.

(** strict constraints and strict interpolation *)
Lemma constraints_between yl yu p q : 0 < p - yu * q -> 0 < yl * q - p -> q <> 0 /\ strictly_between yl yu (p / q).
Proof.
  intros H1 H2. assert (Hq : q <> 0) by (intros ->; lra). split; [assumption|]. unfold strictly_between.
  assert (E : p = p / q * q) by (field; assumption). set (v := p / q) in *. clearbody v.
  destruct (Rlt_or_le q 0).
  - assert (yl < v < yu) by (split; nra). rewrite Rmin_left, Rmax_right by lra. assumption.
  - assert (0 < q) by lra. assert (yu < v < yl) by (split; nra). rewrite Rmin_right, Rmax_left by lra. assumption.
Qed.

(** value of the function after update *)
Lemma updated_passes junk r a b s r' : well_formed r -> length a = length (r_p r) -> length b = length (r_q r) -> length (position s) = r_dim r ->
  update junk r a b = Ok r' -> 0 < num r a s - upper s * num r b s -> 0 < lower s * num r b s - num r a s ->
  well_formed r' /\ r_dim r' = r_dim r /\ r_min r' = r_min r /\ r_max r' = r_max r /\ passes r' s.
Proof.
  intros W La Lb Hx E H1 H2. destruct b as [|b_0 b]; [discriminate E|].
  destruct (update_spec junk r a b_0 b W La Lb) as (r'' & E' & W' & D1 & D2 & D3 & G1 & G2 & V).
  assert (r'' = r') by congruence. subst r''.
  split; [assumption|]. split; [assumption|]. split; [assumption|]. split; [assumption|].
  destruct (constraints_between _ _ _ _ H1 H2) as [Hq HB]. unfold passes. rewrite D1, D2, D3. split.
  - destruct (Rlt_or_le (1 / 10 ^ 16) (Rabs b_0)) as [Hb|Hb].
    + assert (Hb0 : b_0 <> 0). { intros ->. rewrite Rabs_R0 in Hb. assert (0 < 1 / 10 ^ 16) by (apply Rdiv_lt_0_compat; [lra|apply pow_lt; lra]). lra. }
      destruct (G1 Hb) as [_ EQ].
      assert (EQ' : getQ r' = List.map (fun t => t / b_0) (b_0 :: b)). { rewrite EQ. cbn [List.map]. f_equal. field. assumption. }
      rewrite EQ'. unfold polynomial. rewrite poly_scale. intros C. apply Hq. unfold num, polynomial.
      assert (C' := f_equal (fun t => t * b_0) C). cbv beta in C'. unfold Rdiv in C'. rewrite Rmult_assoc, Rinv_l in C' by assumption. lra.
    + destruct (G2 Hb) as [_ ->]. exact Hq.
  - exists (num r a s / num r (b_0 :: b) s). split; [apply V; assumption|exact HB].
Qed.
Lemma update_total junk r a b : well_formed r -> length a = length (r_p r) -> length b = length (r_q r) -> b <> [] -> exists r', update junk r a b = Ok r'.
Proof. intros W La Lb Hb. destruct b as [|b_0 b]; [congruence|]. destruct (update_spec junk r a b_0 b W La Lb) as (r' & E & _). eauto. Qed.

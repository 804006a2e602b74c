(** Proofs about the polynomial bases (C34, C35). *)
From Coq Require Import Reals List Arith Lia Lra.
From Coquelicot Require Import Coquelicot.
From Verif Require Import Base Num ParamsModel GeoModel ArgsModel DataModel TextModel FuncModel MonoModel MonoProofs FuncFile RatModel RatSpec RatProofs BasisModel BasisSpec.
Open Scope R_scope.

(** ** Chebyshev *)
Lemma cheb_SS n x : cheb (S (S n)) x = 2 * x * cheb (S n) x - cheb n x. Proof. reflexivity. Qed.
Lemma rec_cheb_aux x n : recursive_chebychev x n = cheb n x /\ recursive_chebychev x (S n) = cheb (S n) x.
Proof.
  induction n as [|n [IH1 IH2]]; [split; reflexivity|]. split; [assumption|].
  destruct n as [|[|[|n]]]; try (cbn; ring).
  rewrite cheb_SS, <- IH1, <- IH2. reflexivity.
Qed.
Lemma recursive_chebychev_cheb x n : recursive_chebychev x n = cheb n x.
Proof. apply rec_cheb_aux. Qed.
Lemma cheb_cos_aux t n : cheb n (cos t) = cos (INR n * t) /\ cheb (S n) (cos t) = cos (INR (S n) * t).
Proof.
  induction n as [|n [IH1 IH2]].
  - cbn [cheb]. split; [replace (INR 0 * t) with 0 by (cbn; ring); symmetry; apply cos_0|]. f_equal. cbn. ring.
  - split; [assumption|]. rewrite cheb_SS, IH1, IH2. rewrite !S_INR.
    replace ((INR n + 1 + 1) * t) with ((INR n + 1) * t + t) by ring.
    replace (INR n * t) with ((INR n + 1) * t - t) by ring. rewrite cos_plus, cos_minus. ring.
Qed.
Theorem cheb_cos n t : cheb n (cos t) = cos (INR n * t).
Proof. apply cheb_cos_aux. Qed.
Theorem chebychev_cheb x n : chebychev x n = cheb n x.
Proof.
  unfold chebychev. destruct (Rle_dec (Rabs x) 1) as [H|H]; [|apply recursive_chebychev_cheb].
  rewrite <- cheb_cos. rewrite cos_acos; [reflexivity|]. apply Rabs_le_between in H. lra.
Qed.

(** ** Legendre *)
Lemma leg_SS n x : leg (S (S n)) x = ((2 * INR n + 3) * x * leg (S n) x - (INR n + 1) * leg n x) / (INR n + 2).
Proof. change (leg (S (S n)) x) with (((2 * INR (S (S n)) - 1) * x * leg (S n) x - (INR (S (S n)) - 1) * leg n x) / INR (S (S n))).
  rewrite !S_INR. f_equal; [|ring]. f_equal; [|]; f_equal; ring. Qed.
Lemma INR_ne n : INR n + 2 <> 0. Proof. pose proof (pos_INR n). lra. Qed.
Lemma bonnet n x : (INR n + 2) * leg (S (S n)) x = (2 * INR n + 3) * x * leg (S n) x - (INR n + 1) * leg n x.
Proof. rewrite leg_SS. field. apply INR_ne. Qed.
Lemma legendre_aux x n : legendre x n = leg n x /\ legendre x (S n) = leg (S n) x.
Proof.
  induction n as [|n [IH1 IH2]]; [split; reflexivity|]. split; [assumption|].
  change (legendre x (S (S n))) with (((2 * INR (S (S n)) - 1) * x * legendre x (S n) - (INR (S (S n)) - 1) * legendre x n) / INR (S (S n))).
  rewrite IH1, IH2. reflexivity.
Qed.
Theorem legendre_leg x n : legendre x n = leg n x. Proof. apply legendre_aux. Qed.
Lemma legendre_cos_aux x n : legendre_cos x n = leg n x /\ legendre_cos x (S n) = leg (S n) x.
Proof.
  induction n as [|n [IH1 IH2]]; [split; reflexivity|]. split; [assumption|].
  destruct n as [|[|[|[|[|[|n]]]]]]; try (rewrite leg_SS, <- IH1, <- IH2; cbn [legendre_cos INR]; field).
  change (INR (S n) + 1 + 1 + 1 + 1 + 1 + 2 <> 0). pose proof (pos_INR (S n)). lra.
Qed.
Theorem legendre_cos_leg x n : legendre_cos x n = leg n x. Proof. apply legendre_cos_aux. Qed.

(** *** Values, degree *)
Lemma leg_1_aux n : leg n 1 = 1 /\ leg (S n) 1 = 1.
Proof. induction n as [|n [A B]]; [split; reflexivity|]. split; [assumption|]. rewrite leg_SS, A, B. field. apply INR_ne. Qed.
Theorem leg_1 n : leg n 1 = 1. Proof. apply leg_1_aux. Qed.

(** *** Derivative *)
Fixpoint dleg (n : nat) (x : R) : R :=
  match n with 0%nat => 0 | S n' => match n' with 0%nat => 1 | S m => ((2 * INR m + 3) * (leg n' x + x * dleg n' x) - (INR m + 1) * dleg m x) / (INR m + 2) end end.
Lemma dleg_SS n x : dleg (S (S n)) x = ((2 * INR n + 3) * (leg (S n) x + x * dleg (S n) x) - (INR n + 1) * dleg n x) / (INR n + 2).
Proof. reflexivity. Qed.
Lemma is_derive_bonnet (f g : R -> R) x f' g' a b c : c <> 0 -> is_derive f x f' -> is_derive g x g' ->
  is_derive (fun t => (a * t * f t - b * g t) / c) x ((a * (f x + x * f') - b * g') / c).
Proof.
  intros Hc F G. auto_derive; [split; [exists f'; exact F|split; [exists g'; exact G|trivial]]|].
  replace (Derive (fun x0 : R => f x0) x) with f' by (symmetry; apply is_derive_unique; exact F).
  replace (Derive (fun x0 : R => g x0) x) with g' by (symmetry; apply is_derive_unique; exact G). field. assumption.
Qed.
Lemma is_derive_diff (f g : R -> R) x f' g' a : is_derive f x f' -> is_derive g x g' ->
  is_derive (fun t => a * (f t - t * g t)) x (a * (f' - (g x + x * g'))).
Proof.
  intros F G. auto_derive; [split; [exists f'; exact F|split; [exists g'; exact G|trivial]]|].
  replace (Derive (fun x0 : R => f x0) x) with f' by (symmetry; apply is_derive_unique; exact F).
  replace (Derive (fun x0 : R => g x0) x) with g' by (symmetry; apply is_derive_unique; exact G). ring.
Qed.
Lemma is_derive_leg_aux n x : is_derive (leg n) x (dleg n x) /\ is_derive (leg (S n)) x (dleg (S n) x).
Proof.
  induction n as [|n [A B]].
  - split; [apply (is_derive_const 1)|apply (is_derive_id x)].
  - split; [assumption|]. apply is_derive_ext with (f := fun t => ((2 * INR n + 3) * t * leg (S n) t - (INR n + 1) * leg n t) / (INR n + 2)); [intros; symmetry; apply leg_SS|].
    rewrite dleg_SS. apply is_derive_bonnet; [apply INR_ne|assumption|assumption].
Qed.
Lemma is_derive_leg n x : is_derive (leg n) x (dleg n x). Proof. apply is_derive_leg_aux. Qed.
Lemma dleg_AB n x : dleg (S n) x = x * dleg n x + (INR n + 1) * leg n x /\ x * dleg (S n) x - dleg n x = (INR n + 1) * leg (S n) x.
Proof.
  induction n as [|n [A B]]; [split; cbn; ring|].
  assert (P := INR_ne n). rewrite S_INR.
  assert (A' : dleg (S (S n)) x = x * dleg (S n) x + (INR n + 1 + 1) * leg (S n) x).
  { rewrite dleg_SS. replace (dleg n x) with (x * dleg (S n) x - (INR n + 1) * leg (S n) x) by lra. field. assumption. }
  split; [assumption|]. pose proof (bonnet n x) as Bo.
  assert (C : (1 - x * x) * dleg (S n) x = (INR n + 1) * (leg n x - x * leg (S n) x)).
  { replace (dleg n x) with (x * dleg (S n) x - (INR n + 1) * leg (S n) x) in A by lra. transitivity (dleg (S n) x - x * (x * dleg (S n) x)); [ring|]. rewrite A at 1. ring. }
  rewrite A'. transitivity (- ((1 - x * x) * dleg (S n) x) + (INR n + 2) * x * leg (S n) x); [ring|]. rewrite C.
  replace (INR n + 1 + 1) with (INR n + 2) by ring. rewrite Bo. ring.
Qed.
Lemma dleg_C n x : (1 - x * x) * dleg (S n) x = (INR n + 1) * (leg n x - x * leg (S n) x).
Proof.
  destruct (dleg_AB n x) as [A B]. replace (dleg n x) with (x * dleg (S n) x - (INR n + 1) * leg (S n) x) in A by lra.
  transitivity (dleg (S n) x - x * (x * dleg (S n) x)); [ring|]. rewrite A at 1. ring.
Qed.
(** Legendre's differential equation *)
Theorem leg_ode n x : is_derive (fun t => (1 - t * t) * dleg n t) x (- (INR n * (INR n + 1)) * leg n x).
Proof.
  destruct n as [|n].
  - apply is_derive_ext with (f := fun _ => 0); [intros; cbn; ring|]. replace (- (INR 0 * (INR 0 + 1)) * leg 0 x) with 0 by (cbn; ring). apply (is_derive_const 0).
  - apply is_derive_ext with (f := fun t => (INR n + 1) * (leg n t - t * leg (S n) t)); [intros; symmetry; apply dleg_C|].
    replace (- (INR (S n) * (INR (S n) + 1)) * leg (S n) x) with ((INR n + 1) * (dleg n x - (leg (S n) x + x * dleg (S n) x))); [apply is_derive_diff; apply is_derive_leg|].
    destruct (dleg_AB n x) as [_ B]. rewrite S_INR.
    transitivity ((INR n + 1) * (- (x * dleg (S n) x - dleg n x) - leg (S n) x)); [ring|]. rewrite B. ring.
Qed.
Lemma cont_leg n x : continuous (leg n) x.
Proof. apply (ex_derive_continuous (leg n) x). exists (dleg n x). apply is_derive_leg. Qed.
Lemma cont_mult (f g : R -> R) x : continuous f x -> continuous g x -> continuous (fun t => f t * g t) x.
Proof. intros. apply (continuous_mult f g); assumption. Qed.

Lemma RInt_extR (f g : R -> R) a b l : (forall x : R, f x = g x) -> is_RInt f a b l -> is_RInt g a b l.
Proof. intros H I. apply (is_RInt_ext f g a b l); [intros x _; apply H|exact I]. Qed.
Lemma RInt_uniqR (f : R -> R) a b (l m : R) : is_RInt f a b l -> is_RInt f a b m -> l = m.
Proof. intros I J. rewrite <- (is_RInt_unique (V := R_CompleteNormedModule) f a b l I). apply (is_RInt_unique (V := R_CompleteNormedModule) f a b m J). Qed.
Theorem leg_orthogonal n m : n <> m -> is_RInt (fun x => leg n x * leg m x) (-1) 1 0.
Proof.
  intros H. set (c := INR m * (INR m + 1) - INR n * (INR n + 1)).
  assert (Hc : c <> 0).
  { unfold c. assert (INR n <> INR m) by (intros E; apply INR_eq in E; congruence). pose proof (pos_INR n). pose proof (pos_INR m).
    replace (INR m * (INR m + 1) - INR n * (INR n + 1)) with ((INR m - INR n) * (INR m + INR n + 1)) by ring.
    apply Rmult_integral_contrapositive. split; lra. }
  set (F := fun t => (1 - t * t) * dleg n t * leg m t - (1 - t * t) * dleg m t * leg n t).
  assert (D : forall x, is_derive F x (c * (leg n x * leg m x))).
  { intros x. unfold F.
    pose proof (is_derive_mult (fun t => (1 - t * t) * dleg n t) (leg m) x _ _ (leg_ode n x) (is_derive_leg m x) Rmult_comm) as D1.
    pose proof (is_derive_mult (fun t => (1 - t * t) * dleg m t) (leg n) x _ _ (leg_ode m x) (is_derive_leg n x) Rmult_comm) as D2.
    pose proof (is_derive_minus _ _ x _ _ D1 D2) as D3. eapply is_derive_ext; [|eapply (eq_rect _ (fun l => is_derive _ x l)); [exact D3|]].
    - intros t. reflexivity.
    - unfold c, minus, plus, mult, opp. cbn. ring. }
  assert (I : is_RInt (fun x => c * (leg n x * leg m x)) (-1) 1 (F 1 - F (-1))).
  { apply (is_RInt_derive F); [intros; apply D|]. intros x _. apply cont_mult; [apply continuous_const|]. apply cont_mult; apply cont_leg. }
  replace (F 1 - F (-1)) with 0 in I by (unfold F; ring).
  assert (I2 : is_RInt (fun x => / c * (c * (leg n x * leg m x))) (-1) 1 (/ c * 0)) by exact (is_RInt_scal _ _ _ (/ c) _ I).
  rewrite Rmult_0_r in I2. eapply RInt_extR; [|exact I2]. intros x. cbn beta. field. assumption.
Qed.
Lemma leg_int n : is_RInt (fun x => leg n x) (-1) 1 (if Nat.eqb n 0 then 2 else 0).
Proof.
  destruct n as [|n]; cbn [Nat.eqb].
  - assert (I := is_RInt_const (-1) 1 1). replace 2 with (scal (1 - (-1)) 1) by (unfold scal; cbn; unfold mult; cbn; ring). exact I.
  - eapply RInt_extR; [|apply (leg_orthogonal (S n) 0); discriminate]. intros x. cbn [leg]. ring.
Qed.
Theorem leg_norm n : is_RInt (fun x => leg n x * leg n x) (-1) 1 (2 / (2 * INR n + 1)).
Proof.
  assert (EX : forall f : R -> R, (forall x, continuous f x) -> ex_RInt f (-1) 1) by (intros f Hf; apply (ex_RInt_continuous f); intros; apply Hf).
  assert (SC : forall (f : R -> R) k l, is_RInt f (-1) 1 l -> is_RInt (fun x => k * f x) (-1) 1 (k * l)) by (intros f k l I; apply (is_RInt_scal f _ _ k l I)).
  assert (PL : forall (f g : R -> R) l m, is_RInt f (-1) 1 l -> is_RInt g (-1) 1 m -> is_RInt (fun x => f x + g x) (-1) 1 (l + m)) by (intros f g l m I J; apply (is_RInt_plus f g _ _ l m I J)).
  induction n as [|n IH].
  - cbn [INR]. replace (2 / (2 * 0 + 1)) with 2 by field. eapply RInt_extR; [|apply (leg_int 0)]. intros x. cbn. ring.
  - pose proof (pos_INR n) as Pn.
    assert (EJ : exists J : R, is_RInt (fun x => x * (leg n x * leg (S n) x)) (-1) 1 J).
    { apply EX. intros x. apply cont_mult; [apply continuous_id|]. apply cont_mult; apply cont_leg. }
    destruct EJ as [J HJ].
    (* (2n+3) J = (n+1) N_n *)
    assert (E1 : (2 * INR n + 3) * J = (INR n + 1) * (2 / (2 * INR n + 1))).
    { pose proof (SC _ (2 * INR n + 3) _ HJ) as I1.
      pose proof (PL _ _ _ _ (SC _ (INR n + 2) _ (leg_orthogonal (S (S n)) n ltac:(lia))) (SC _ (INR n + 1) _ IH)) as I2.
      assert (I1' : is_RInt (fun x => (INR n + 2) * (leg (S (S n)) x * leg n x) + (INR n + 1) * (leg n x * leg n x)) (-1) 1 ((2 * INR n + 3) * J)).
      { eapply RInt_extR; [|exact I1]. intros x. cbn beta. rewrite <- (Rmult_assoc (INR n + 2)), bonnet. ring. }
      pose proof (RInt_uniqR _ _ _ _ _ I1' I2). lra. }
    (* (n+1) N_(n+1) = (2n+1) J *)
    assert (E2 : is_RInt (fun x => (INR n + 1) * (leg (S n) x * leg (S n) x)) (-1) 1 ((2 * INR n + 1) * J)).
    { pose proof (SC _ (2 * INR n + 1) _ HJ) as I1. destruct n as [|n].
      - eapply RInt_extR; [|exact I1]. intros x. cbn. ring.
      - pose proof (PL _ _ _ _ I1 (SC _ (- (INR n + 1)) _ (leg_orthogonal n (S (S n)) ltac:(lia)))) as I3. rewrite Rmult_0_r, Rplus_0_r in I3.
        eapply RInt_extR; [|exact I3]. intros x. cbn beta. rewrite !S_INR.
        replace (INR n + 1 + 1) with (INR n + 2) by ring. transitivity ((INR n + 2) * leg (S (S n)) x * leg (S (S n)) x); [|ring]. rewrite bonnet. ring. }
    pose proof (SC _ (/ (INR n + 1)) _ E2) as I3.
    assert (EJ : J = (INR n + 1) * (2 / (2 * INR n + 1)) / (2 * INR n + 3)) by (rewrite <- E1; field; lra).
    rewrite S_INR. replace (2 / (2 * (INR n + 1) + 1)) with (/ (INR n + 1) * ((2 * INR n + 1) * J)) by (rewrite EJ; field; lra).
    eapply RInt_extR; [|exact I3]. intros x. cbn beta. field. lra.
Qed.

(** *** Degree *)
Lemma horner_add b k l : forall a, (length b <= length a)%nat ->
  exists c, length c = length a /\ forall x, horner (c ++ [l]) x = horner (a ++ [l]) x + k * horner b x.
Proof.
  induction b as [|y b IH]; intros a H.
  - exists a. split; [reflexivity|]. intros x. cbn [horner]. ring.
  - destruct a as [|z a]; [cbn in H; lia|]. destruct (IH a ltac:(cbn in H; lia)) as (c & L & E). exists (z + k * y :: c).
    split; [cbn; lia|]. intros x. cbn [app horner]. rewrite E. ring.
Qed.
Lemma horner_scale s c x : horner (map (Rmult s) c) x = s * horner c x.
Proof. induction c as [|y c IH]; cbn [map horner]; [ring|]. rewrite IH. ring. Qed.
Lemma degree_step (f g h : R -> R) n a b : a <> 0 -> of_degree (S n) f -> of_degree n g ->
  (forall x, h x = a * x * f x + b * g x) -> of_degree (S (S n)) h.
Proof.
  intros Ha (c1 & l1 & L1 & N1 & E1) (c0 & l0 & L0 & N0 & E0) Eh.
  destruct (horner_add (c0 ++ [l0]) b (a * l1) (0 :: map (Rmult a) c1)) as (c & L & E).
  { rewrite app_length. cbn. rewrite map_length. lia. }
  exists c, (a * l1). split; [rewrite L; cbn; rewrite map_length; lia|]. split; [apply Rmult_integral_contrapositive; auto|].
  intros x. rewrite Eh, E, E1, E0. cbn [app horner]. replace (map (Rmult a) c1 ++ [a * l1]) with (map (Rmult a) (c1 ++ [l1])) by (rewrite map_app; reflexivity).
  rewrite horner_scale. ring.
Qed.
Lemma degree_base (f g : R -> R) : (forall x, f x = 1) -> (forall x, g x = x) -> of_degree 0 f /\ of_degree 1 g.
Proof.
  intros Ef Eg. split; [exists [], 1|exists [0], 1]; repeat split; try apply R1_neq_R0; intros x; [rewrite Ef|rewrite Eg]; cbn; ring.
Qed.
Lemma leg_degree_aux n : of_degree n (leg n) /\ of_degree (S n) (leg (S n)).
Proof.
  induction n as [|n [A B]]; [apply degree_base; reflexivity|]. split; [assumption|].
  apply (degree_step _ _ _ _ ((2 * INR n + 3) / (INR n + 2)) (- (INR n + 1) / (INR n + 2)) ltac:(pose proof (pos_INR n); apply Rmult_integral_contrapositive; split; [lra|apply Rinv_neq_0_compat; lra]) B A).
  intros x. rewrite leg_SS. field. apply INR_ne.
Qed.
Theorem leg_degree n : of_degree n (leg n). Proof. apply leg_degree_aux. Qed.
Lemma cheb_degree_aux n : of_degree n (cheb n) /\ of_degree (S n) (cheb (S n)).
Proof.
  induction n as [|n [A B]]; [apply degree_base; reflexivity|]. split; [assumption|].
  apply (degree_step _ _ _ _ 2 (-1) ltac:(lra) B A). intros x. rewrite cheb_SS. ring.
Qed.
Theorem cheb_degree n : of_degree n (cheb n). Proof. apply cheb_degree_aux. Qed.

(** ** The plugins' evaluation *)
Lemma basis_loop_with_spec (B : R -> nat -> R) (C : nat -> R -> R) : (forall x e, B x e = C e x) ->
  forall n k mn mx x deg res, length (skipn k mn) = n -> length (skipn k mx) = n -> length (skipn k x) = n -> length (skipn k deg) = n ->
  Forall2 (fun lo hi => lo <> hi) (skipn k mn) (skipn k mx) ->
  basis_loop_with B n k mn mx x deg res = Ok (res * tensor C (skipn k mn) (skipn k mx) (skipn k x) (skipn k deg)).
Proof.
  intros HB.
  assert (S1 : forall A (l : list A) k a t, skipn k l = a :: t -> nth_error l k = Some a /\ skipn (S k) l = t).
  { intros A l. induction l as [|y l IH]; intros [|k] a t E; try discriminate.
    - injection E as -> ->. split; reflexivity.
    - exact (IH k a t E). }
  induction n as [|n IH]; intros k mn mx x deg res H1 H2 H3 H4 HF; cbn [basis_loop_with].
  - apply length_zero_iff_nil in H1. rewrite H1. cbn. f_equal. ring.
  - destruct (skipn k mn) as [|lo mn'] eqn:E1; [discriminate|]. destruct (skipn k mx) as [|hi mx'] eqn:E2; [discriminate|].
    destruct (skipn k x) as [|t x'] eqn:E3; [discriminate|]. destruct (skipn k deg) as [|e deg'] eqn:E4; [discriminate|].
    apply S1 in E1 as [A1 B1]. apply S1 in E2 as [A2 B2]. apply S1 in E3 as [A3 B3]. apply S1 in E4 as [A4 B4].
    unfold rd. rewrite A1, A2, A3, A4. cbn [bind]. inversion HF as [|? ? ? ? Hne HF']; subst.
    rewrite IH; [|cbn in *; lia|cbn in *; lia|cbn in *; lia|cbn in *; lia|assumption].
    cbn [tensor]. f_equal. rewrite Rmult_assoc, HB. f_equal. f_equal. f_equal. unfold rescaled. field. lra.
Qed.
Lemma basis_with_spec B C r x i : (forall x e, B x e = C e x) -> (0 < r_dim r)%nat -> domain_ok (r_dim r) (r_min r) (r_max r) -> length x = r_dim r ->
  basis_with B r x i = Ok (tensor C (r_min r) (r_max r) x (index2degree (r_dim r) i)).
Proof.
  intros HB Hd (A & A' & D) Hx. unfold basis_with. rewrite (basis_loop_with_spec B C HB); cbn [skipn]; auto; [f_equal; ring|].
  apply index2degree_length. assumption.
Qed.
Lemma combination_with_spec p C k d mn mx x : (forall i, p x i = Ok (k * tensor C mn mx x (index2degree d i))) ->
  forall cs i acc, combination_with p x i cs acc = Ok (acc + k * expansion_from C i d mn mx (map co_a cs) x).
Proof.
  intros Hp. induction cs as [|c cs IH]; intros i acc; cbn [combination_with map expansion_from]; [f_equal; ring|].
  rewrite Hp. cbn [bind]. rewrite IH. f_equal. ring.
Qed.
Theorem value_with_spec B C r x : (forall x e, B x e = C e x) -> (0 < r_dim r)%nat -> domain_ok (r_dim r) (r_min r) (r_max r) -> length x = r_dim r ->
  value_with (basis_with B r) (basis_with B r) r x =
  Ok (expansion C (r_dim r) (r_min r) (r_max r) (getP r) x / expansion C (r_dim r) (r_min r) (r_max r) (getQ r) x).
Proof.
  intros HB Hd D Hx. unfold value_with. rewrite !(combination_with_spec _ C 1 (r_dim r) (r_min r) (r_max r)); try (intros i; rewrite (basis_with_spec B C); auto; f_equal; ring).
  cbn [bind]. f_equal. unfold expansion, getP, getQ. f_equal; [ring|f_equal; ring].
Qed.
Theorem value_cosine_spec ip cart r x c : (0 < r_dim r)%nat -> domain_ok (r_dim r) (r_min r) (r_max r) -> length x = r_dim r ->
  ip <> UNKNOWN_INPUT -> convert (fun k => nth k x 0) ip CARTESIAN cart = Ok c ->
  value_cosine ip cart r x =
  Ok (c 2%nat * c 5%nat * expansion leg (r_dim r) (r_min r) (r_max r) (getP r) x / expansion leg (r_dim r) (r_min r) (r_max r) (getQ r) x).
Proof.
  intros Hd D Hx Hip Hc. unfold value_cosine, value_with.
  rewrite (combination_with_spec (basis_cosine ip cart r) leg (c 2%nat * c 5%nat) (r_dim r) (r_min r) (r_max r)).
  2: { intros i. unfold basis_cosine. rewrite (basis_with_spec legendre_cos leg); auto using legendre_cos_leg. cbn [bind].
       assert (E : input_eqb ip UNKNOWN_INPUT = false) by (destruct ip; try reflexivity; congruence). rewrite E, Hc. cbn [bind]. f_equal. ring. }
  cbn [bind]. rewrite (combination_with_spec (basis_with legendre_cos r) leg 1 (r_dim r) (r_min r) (r_max r)).
  2: { intros i. rewrite (basis_with_spec legendre_cos leg); auto using legendre_cos_leg. f_equal. ring. }
  cbn [bind]. f_equal. unfold expansion, getP, getQ. f_equal; [ring|f_equal; ring].
Qed.
Theorem value_cosine_unknown cart r x : (0 < r_dim r)%nat -> domain_ok (r_dim r) (r_min r) (r_max r) -> length x = r_dim r ->
  value_cosine UNKNOWN_INPUT cart r x =
  Ok (expansion leg (r_dim r) (r_min r) (r_max r) (getP r) x / expansion leg (r_dim r) (r_min r) (r_max r) (getQ r) x).
Proof.
  intros Hd D Hx. unfold value_cosine, value_with.
  rewrite (combination_with_spec (basis_cosine UNKNOWN_INPUT cart r) leg 1 (r_dim r) (r_min r) (r_max r)).
  2: { intros i. unfold basis_cosine. rewrite (basis_with_spec legendre_cos leg); auto using legendre_cos_leg. cbn [bind input_eqb]. f_equal. ring. }
  cbn [bind]. rewrite (combination_with_spec (basis_with legendre_cos r) leg 1 (r_dim r) (r_min r) (r_max r)).
  2: { intros i. rewrite (basis_with_spec legendre_cos leg); auto using legendre_cos_leg. f_equal. ring. }
  cbn [bind]. f_equal. unfold expansion, getP, getQ. f_equal; [ring|f_equal; ring].
Qed.

(** *** Channels *)
Lemma inflate_one_ok mn : forall mx d, length mn = d -> length mx = d -> domain_ok d (fst (inflate_one mn mx)) (snd (inflate_one mn mx)).
Proof.
  induction mn as [|a mn IH]; intros [|b mx] d H1 H2; cbn in H1, H2; subst; try discriminate; [repeat constructor|].
  injection H2 as H2. cbn [inflate_one]. destruct (IH mx (length mn) eq_refl H2) as (A & B & C). destruct (inflate_one mn mx) as [u v]. cbn [fst snd] in *.
  destruct (Req_EM_T a b); cbn [fst snd]; (split; [cbn; lia|]); (split; [cbn; lia|]); constructor; auto; lra.
Qed.
Lemma inflate_one_widened mn : forall mx, length mn = length mx -> widened 1 mn mx (fst (inflate_one mn mx)) (snd (inflate_one mn mx)).
Proof.
  unfold widened. induction mn as [|a mn IH]; intros [|b mx] H; try discriminate.
  - repeat split; try reflexivity; intros; destruct k; discriminate.
  - injection H as H. destruct (IH mx H) as (A & B & C). cbn [inflate_one]. destruct (inflate_one mn mx) as [u v]. cbn [fst snd] in *.
    destruct (Req_EM_T a b) as [E|E]; cbn [fst snd length]; rewrite A, B; (split; [reflexivity|split; [reflexivity|]]); intros [|k] a' b' H1 H2; cbn [nth_error] in *;
      try (apply C; assumption); injection H1 as <-; injection H2 as <-; split; intros; try congruence; split; reflexivity.
Qed.
Theorem get_one_spec junk f i : length (f_rs f) = f_dimY f -> length (f_min f) = f_dimX f -> length (f_max f) = f_dimX f ->
  ((i < f_dimY f)%nat -> exists r f', get_one junk f i = Ok (Some r, f') /\ get_one junk f' i = Ok (Some r, f') /\
     (forall j, j <> i -> nth_error (f_rs f') j = nth_error (f_rs f) j) /\
     (nth_error (f_rs f) i = Some None -> (0 < f_dimX f)%nat -> well_formed r /\ r_dim r = f_dimX f /\
        length (r_p r) = f_np f /\ length (r_q r) = f_nq f /\ widened 1 (f_min f) (f_max f) (r_min r) (r_max r))) /\
  ((f_dimY f <= i)%nat -> get_one junk f i = Ok (None, f)).
Proof.
  intros Hl Hm HM. split; [|intros H; unfold get_one; destruct (Nat.ltb_spec i (f_dimY f)); [lia|reflexivity]].
  intros Hi. unfold get_one at 1. rewrite (proj2 (Nat.ltb_lt _ _) Hi).
  destruct (nth_error (f_rs f) i) as [[r|]|] eqn:E; [| |apply nth_error_None in E; lia].
  - exists r, f. split; [reflexivity|]. unfold get_one. rewrite (proj2 (Nat.ltb_lt _ _) Hi), E. split; [reflexivity|]. split; [auto|discriminate].
  - rewrite Hm, HM, !Nat.ltb_irrefl. cbn [orb].
    pose proof (inflate_one_ok (f_min f) (f_max f) (f_dimX f) Hm HM) as D. pose proof (inflate_one_widened (f_min f) (f_max f) ltac:(congruence)) as Wd.
    destruct (inflate_one (f_min f) (f_max f)) as [mn mx]. cbn [fst snd] in D, Wd.
    eexists. eexists. split; [reflexivity|]. assert (L : (i < length (f_rs f))%nat) by lia. split; [|split].
    + unfold get_one. cbn [set_channel f_dimY]. rewrite (proj2 (Nat.ltb_lt _ _) Hi), nth_error_set_channel by assumption. reflexivity.
    + intros j Hj; apply nth_error_set_channel_other; auto.
    + intros _ Hd. destruct (new_wf junk (f_dimX f) (f_np f) (f_nq f) mn mx Hd D) as (W & A & B & C & F & G). auto.
Qed.

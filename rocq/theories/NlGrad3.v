(** Ward, Beckmann and shadowing plugins: which derivatives are right. *)
From Coq Require Import Reals List Lia Lra.
From Coquelicot Require Import Coquelicot.
From Verif Require Import Base ParamsModel GeoModel CommonModel FuncModel FuncSpec FuncProofs FuncJac TextModel NlModel NlSpec NlProofs NlGrad NlGrad2.
Open Scope R_scope.

(** an entry computed as [w] is exact when the derivative is [l] iff [w = l] *)
Lemma exact_iff f a l w : derivable_pt_lim f a l -> (derivable_pt_lim f a w <-> w = l).
Proof. intros D. split; [intros H; exact (deriv_unique _ _ _ _ H D)|intros ->; exact D]. Qed.

(** ** Ward *)
Lemma ward_geo x : has_half x -> f_geo ward x = Ok [halfway x 0; halfway x 1; halfway x 2; x 2%nat * x 5%nat].
Proof. intros H. destruct (half_of_ok x H) as (h & E & E0 & E1 & E2). cbn [f_geo ward]. rewrite E. cbn [bind]. rewrite E0, E1, E2. reflexivity. Qed.

Lemma ward_value junk nY p x : length p = (3 * nY)%nat -> has_half x -> 0 < x 2%nat * x 5%nat ->
  value_is junk ward nY p x (fun y => par ward p y 0 / (4 * PI * par ward p y 1 * par ward p y 2 * sqrt (x 2%nat * x 5%nat)) * ward_exp x (par ward p y 1) (par ward p y 2)).
Proof.
  intros Hp Hx Hz. eapply value_is_of with (F := ward); [reflexivity|exact Hp|apply ward_geo, Hx|].
  intros y Hy. unfold par. cbn [f_k ward]. rewrite channel3. cbn [f_val ward]. unfold p0, p1, p2. cbn [nth]. rewrite rltb_true by exact Hz. reflexivity.
Qed.

Section Ward.
Variables (h0 h1 h2 z ks ax ay : R).
Hypothesis Hz : 0 < z.
Hypothesis H2 : h2 <> 0.
Hypothesis Hax : ax <> 0.
Hypothesis Hay : ay <> 0.
Let g := [h0; h1; h2; z].
Let E := exp (- ((h0 / ax * (h0 / ax) + h1 / ay * (h1 / ay)) / (h2 * h2))).
Let K := ks / (4 * PI * ax * ay * sqrt z).

Lemma ward_sqrt : sqrt z <> 0. Proof. apply Rgt_not_eq, sqrt_lt_R0, Hz. Qed.
Lemma ward_pi : PI <> 0. Proof. apply PI_neq0. Qed.

Lemma ward_den : 4 * PI * ax * ay * sqrt z <> 0.
Proof.
  assert (4 * PI <> 0) by (pose proof PI_RGT_0; lra). pose proof ward_sqrt.
  apply Rmult_integral_contrapositive_currified; [|assumption]. apply Rmult_integral_contrapositive_currified; [|assumption].
  apply Rmult_integral_contrapositive_currified; assumption.
Qed.

Lemma ward_ks : derivable_pt_lim (fun s => f_val ward g (upd [ks; ax; ay] 0 s)) ks (f_jac ward g [ks; ax; ay] 0).
Proof.
  unfold g. cbn [f_val f_jac ward]. unfold p0, p1, p2. cbn [nth upd]. cbv zeta. rewrite (rltb_true 0 z Hz).
  apply deriv_of. auto_derive. { exact I. }
  replace (- (h0 / ax * (h0 / ax) + h1 / ay * (h1 / ay)) / (h2 * h2)) with (- ((h0 / ax * (h0 / ax) + h1 / ay * (h1 / ay)) / (h2 * h2))) by (field; auto).
  field. pose proof ward_sqrt. pose proof ward_pi. auto.
Qed.
Lemma ward_ax : derivable_pt_lim (fun s => f_val ward g (upd [ks; ax; ay] 1 s)) ax (K / ax * E * (2 * (h0 / ax * (h0 / ax)) / (h2 * h2) - 1)).
Proof.
  unfold g. cbn [f_val f_jac ward]. unfold p0, p1, p2. cbn [nth upd]. cbv zeta. rewrite (rltb_true 0 z Hz).
  pose proof ward_sqrt as Hs. pose proof ward_pi as Hpi. unfold K, E.
  apply deriv_of. auto_derive. { pose proof ward_den. repeat split; auto. }
  unfold Rdiv. match goal with |- context [exp ?e] => generalize (exp e) end. intros e. field. auto.
Qed.
Lemma ward_ay : derivable_pt_lim (fun s => f_val ward g (upd [ks; ax; ay] 2 s)) ay (K / ay * E * (2 * (h1 / ay * (h1 / ay)) / (h2 * h2) - 1)).
Proof.
  unfold g. cbn [f_val f_jac ward]. unfold p0, p1, p2. cbn [nth upd]. cbv zeta. rewrite (rltb_true 0 z Hz).
  pose proof ward_sqrt as Hs. pose proof ward_pi as Hpi. unfold K, E.
  apply deriv_of. auto_derive. { pose proof ward_den. repeat split; auto. }
  unfold Rdiv. match goal with |- context [exp ?e] => generalize (exp e) end. intros e. field. auto.
Qed.
Lemma ward_jac_ax : f_jac ward g [ks; ax; ay] 1 = K / ax * (2 * h0 * (h0 / ax) / h2 * E - 1).
Proof.
  unfold g. cbn [f_jac ward]. unfold p0, p1, p2. cbn [nth]. cbv zeta. rewrite (rltb_true 0 z Hz). unfold K, E.
  replace (- (h0 / ax * (h0 / ax) + h1 / ay * (h1 / ay)) / (h2 * h2)) with (- ((h0 / ax * (h0 / ax) + h1 / ay * (h1 / ay)) / (h2 * h2))) by (field; auto).
  field. pose proof ward_sqrt. pose proof ward_pi. auto.
Qed.
Lemma ward_jac_ay : f_jac ward g [ks; ax; ay] 2 = K / ay * (2 * h1 * (h1 / ay) / h2 * E - 1).
Proof.
  unfold g. cbn [f_jac ward]. unfold p0, p1, p2. cbn [nth]. cbv zeta. rewrite (rltb_true 0 z Hz). unfold K, E.
  replace (- (h0 / ax * (h0 / ax) + h1 / ay * (h1 / ay)) / (h2 * h2)) with (- ((h0 / ax * (h0 / ax) + h1 / ay * (h1 / ay)) / (h2 * h2))) by (field; auto).
  field. pose proof ward_sqrt. pose proof ward_pi. auto.
Qed.
Lemma ward_K : ks <> 0 -> K <> 0.
Proof.
  intros Hk. unfold K. unfold Rdiv. apply Rmult_integral_contrapositive_currified; [exact Hk|]. apply Rinv_neq_0_compat.
  apply ward_den.
Qed.
End Ward.

(** the roughness derivatives are exact only on the coincidence set *)
Lemma ward_exact junk nY p x y l : length p = (3 * nY)%nat -> has_half x -> 0 < x 2%nat * x 5%nat -> halfway x 2 <> 0 -> (y < nY)%nat ->
  par ward p y 0 <> 0 -> par ward p y 1 <> 0 -> par ward p y 2 <> 0 -> (l = 1 \/ l = 2)%nat ->
  let E := ward_exp x (par ward p y 1) (par ward p y 2) in let h := halfway x (l - 1) in
  (partial_exact junk ward nY p x y (y * 3 + l) <->
   2 * h * (h / par ward p y l) / halfway x 2 * E - 1 = E * (2 * (h / par ward p y l * (h / par ward p y l)) / (halfway x 2 * halfway x 2) - 1)).
Proof.
  intros Hp Hx Hz H2 Hy Hk Ha Hb Hl. unfold par in *. cbn [f_k ward] in *.
  assert (Hl3 : (l < f_k ward)%nat) by (cbn; lia).
  pose proof (partial_iff junk ward nY p x _ y y l eq_refl Hp (ward_geo x Hx) ltac:(discriminate) Hy Hy Hl3) as P. cbn [f_k ward] in P.
  rewrite channel3 in P.
  set (ks := nth (y * 3 + 0) p 0) in *. set (ax := nth (y * 3 + 1) p 0) in *. set (ay := nth (y * 3 + 2) p 0) in *.
  assert (Hs := sqrt_lt_R0 _ Hz).
  assert (K0 := ward_K (x 2%nat * x 5%nat) ks ax ay Hz Ha Hb Hk).
  set (K := ks / (4 * PI * ax * ay * sqrt (x 2%nat * x 5%nat))) in *.
  assert (C : forall a u v : R, a <> 0 -> (K / a * u = K / a * v <-> u = v)).
  { intros a u v Na. split; [|intros ->; reflexivity]. intros Q. apply (Rmult_eq_reg_l (K / a) _ _ Q). unfold Rdiv. apply Rmult_integral_contrapositive_currified; [exact K0|]. apply Rinv_neq_0_compat, Na. }
  cbv zeta. rewrite P.
  destruct Hl as [-> | ->]; cbn [nth Nat.sub].
  - rewrite (ward_jac_ax _ _ _ _ ks ax ay Hz H2 Ha Hb).
    assert (W : forall A B : Prop, (A <-> B) -> ((y = y -> A) <-> B)) by tauto. apply W.
    rewrite (exact_iff _ _ _ _ (ward_ax _ _ _ _ ks ax ay Hz H2 Ha Hb)). fold K. unfold ward_exp. rewrite (Rmult_assoc (K / ax) (exp _)). apply (C ax _ _ Ha).
  - rewrite (ward_jac_ay _ _ _ _ ks ax ay Hz H2 Ha Hb).
    assert (W : forall A B : Prop, (A <-> B) -> ((y = y -> A) <-> B)) by tauto. apply W.
    rewrite (exact_iff _ _ _ _ (ward_ay _ _ _ _ ks ax ay Hz H2 Ha Hb)). fold K. unfold ward_exp. rewrite (Rmult_assoc (K / ay) (exp _)). apply (C ay _ _ Hb).
Qed.
Lemma ward_ks_exact junk nY p x y : length p = (3 * nY)%nat -> has_half x -> 0 < x 2%nat * x 5%nat -> halfway x 2 <> 0 -> (y < nY)%nat ->
  par ward p y 1 <> 0 -> par ward p y 2 <> 0 -> partial_exact junk ward nY p x y (y * 3 + 0).
Proof.
  intros Hp Hx Hz H2 Hy Ha Hb. unfold par in *. cbn [f_k ward] in *.
  apply (partial_iff junk ward nY p x _ y y 0 eq_refl Hp (ward_geo x Hx)); try assumption; try discriminate; [cbn; lia|]. intros _.
  cbn [f_k ward]. rewrite channel3. apply ward_ks; assumption.
Qed.

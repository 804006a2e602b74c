(** Beckmann and the shadowing terms of Smith. *)
From Coq Require Import Reals List Lia Lra.
From Coquelicot Require Import Coquelicot.
From Verif Require Import Base ParamsModel GeoModel CommonModel FuncModel FuncSpec FuncProofs FuncJac TextModel NlModel NlSpec NlProofs NlGrad NlGrad2 NlGrad3.
Open Scope R_scope.

(** ** Beckmann *)
Section Beckmann.
Variables d ks a : R.
Hypothesis Hd : 0 < d.
Hypothesis Ha : a <> 0.
Definition beckmann_slope : R :=
  - ks / (2 * PI * a ^ 3 * d ^ 4) * exp ((d * d - 1) / (a * a * (d * d))) * (1 + (d * d - 1) / (a * a * (d * d))).

Lemma beckmann_den : 4 * PI * (a * a) * (d * d) * (d * d) <> 0.
Proof.
  pose proof PI_RGT_0. assert (0 < a * a) by (destruct (Rtotal_order a 0) as [|[|]]; [nra|contradiction|nra]).
  assert (0 < d * d) by nra. apply Rgt_not_eq. apply Rmult_lt_0_compat; [|assumption]. apply Rmult_lt_0_compat; [|assumption]. apply Rmult_lt_0_compat; lra.
Qed.
Lemma beckmann_a : derivable_pt_lim (fun s => beckmann_value d [ks; s]) a beckmann_slope.
Proof.
  unfold beckmann_value, beckmann_slope, p0, p1. cbn [nth]. cbv zeta. pose proof PI_neq0 as Hpi.
  assert (Hd0 : d <> 0) by lra.
  apply deriv_of. auto_derive.
  - pose proof beckmann_den. assert (a * a * (d * d) <> 0) by (repeat apply Rmult_integral_contrapositive_currified; assumption). repeat split; auto.
  - unfold Rdiv. match goal with |- context [exp ?e] => generalize (exp e) end. intros e. unfold Rminus. field. auto.
Qed.
Lemma beckmann_jac_a : beckmann_jac d [ks; a] 1 = d ^ 3 * beckmann_slope.
Proof.
  unfold beckmann_jac, beckmann_slope, p0, p1. cbn [nth]. cbv zeta. pose proof PI_neq0 as Hpi. assert (Hd0 : d <> 0) by lra.
  match goal with |- context [exp ?e] => generalize (exp e) end. intros e. field. auto.
Qed.
Lemma beckmann_ks : derivable_pt_lim (fun s => beckmann_value d [s; a]) ks (beckmann_jac d [ks; a] 0).
Proof.
  unfold beckmann_value, beckmann_jac, p0, p1. cbn [nth]. cbv zeta. pose proof beckmann_den.
  apply deriv_of. auto_derive; [exact I|]. unfold Rdiv. ring.
Qed.
Lemma beckmann_cube : (beckmann_jac d [ks; a] 1 = beckmann_slope <-> ks = 0 \/ d = 1 \/ a * a * (d * d) = 1 - d * d).
Proof.
  rewrite beckmann_jac_a. pose proof PI_RGT_0 as Hpi. assert (Hd0 : d <> 0) by lra.
  set (e := exp ((d * d - 1) / (a * a * (d * d)))). assert (He : 0 < e) by apply exp_pos.
  assert (Q : beckmann_slope = ks * (a * a * (d * d) + d * d - 1) * (- e / (2 * PI * a ^ 5 * d ^ 6))).
  { unfold beckmann_slope. fold e. field. pose proof PI_neq0. auto. }
  assert (N : - e / (2 * PI * a ^ 5 * d ^ 6) <> 0).
  { unfold Rdiv. apply Rmult_integral_contrapositive_currified; [lra|]. apply Rinv_neq_0_compat.
    assert (a ^ 5 <> 0) by (apply pow_nonzero; assumption). assert (d ^ 6 <> 0) by (apply pow_nonzero; assumption).
    assert (2 * PI <> 0) by lra. apply Rmult_integral_contrapositive_currified; [|assumption]. apply Rmult_integral_contrapositive_currified; assumption. }
  split.
  - intros E. assert (Z : (d ^ 3 - 1) * beckmann_slope = 0) by lra. rewrite Q in Z.
    apply Rmult_integral in Z. destruct Z as [Z|Z].
    + right. left. assert (F : (d - 1) * (d * d + d + 1) = 0) by (rewrite <- Z; ring). apply Rmult_integral in F. destruct F; [lra|nra].
    + apply Rmult_integral in Z. destruct Z as [Z|Z]; [|contradiction]. apply Rmult_integral in Z. destruct Z as [Z|Z]; [auto|].
      right. right. lra.
  - intros [E|[E|E]].
    + rewrite Q, E. ring.
    + rewrite E. ring.
    + rewrite Q. replace (a * a * (d * d) + d * d - 1) with 0 by lra. ring.
Qed.
End Beckmann.

Lemma beckmann_geo x : has_half x -> f_geo beckmann x = Ok [halfway x 2; x 2%nat * x 5%nat].
Proof. intros H. destruct (half_of_ok x H) as (h & E & E0 & E1 & E2). cbn [f_geo beckmann]. rewrite E. cbn [bind]. rewrite E2. reflexivity. Qed.

Lemma beckmann_formula_ok d ks a : beckmann_value d [ks; a] = beckmann_formula d ks a.
Proof.
  unfold beckmann_value, beckmann_formula, p0, p1. cbn [nth]. cbv zeta. replace (4 * PI * (a * a) * d ^ 4) with (4 * PI * (a * a) * (d * d) * (d * d)) by ring. reflexivity.
Qed.
Lemma beckmann_value_is junk nY p x : length p = (2 * nY)%nat -> has_half x -> 0 < halfway x 2 -> 0 < x 2%nat * x 5%nat ->
  value_is junk beckmann nY p x (fun y => beckmann_formula (halfway x 2) (par beckmann p y 0) (par beckmann p y 1)).
Proof.
  intros Hp Hx Hd Hz. eapply value_is_of with (F := beckmann); [reflexivity|exact Hp|apply beckmann_geo, Hx|].
  intros y Hy. unfold par. cbn [f_k beckmann]. rewrite channel2. cbn [f_val beckmann]. unfold p0, p1. cbn [nth]. rewrite !rltb_true by assumption.
  apply beckmann_formula_ok.
Qed.
Lemma beckmann_below junk nY p x : length p = (2 * nY)%nat -> has_half x -> halfway x 2 <= 0 \/ x 2%nat * x 5%nat <= 0 ->
  value_is junk beckmann nY p x (fun _ => 0) /\ gradient_at junk beckmann nY p x.
Proof.
  intros Hp Hx H. assert (C : rltb 0 (halfway x 2) && rltb 0 (x 2%nat * x 5%nat) = false).
  { destruct H as [H|H]; [rewrite rltb_no by exact H; reflexivity|rewrite (rltb_no 0 (_ * _)) by exact H; apply Bool.andb_false_r]. }
  split.
  - eapply value_is_of with (F := beckmann); [reflexivity|exact Hp|apply beckmann_geo, Hx|]. intros y Hy. cbn [f_val beckmann]. unfold p0, p1. cbn [nth]. rewrite C. reflexivity.
  - eapply nl_gradient with (F := beckmann); [reflexivity|exact Hp|apply beckmann_geo, Hx|discriminate|].
    intros y l Hy Hl. cbn [f_val f_jac beckmann]. unfold p0, p1. cbn [nth]. rewrite C. apply derivable_const.
Qed.
Lemma beckmann_exact junk nY p x y : length p = (2 * nY)%nat -> has_half x -> 0 < halfway x 2 -> 0 < x 2%nat * x 5%nat -> (y < nY)%nat ->
  par beckmann p y 1 <> 0 ->
  partial_exact junk beckmann nY p x y (y * 2 + 0) /\
  (partial_exact junk beckmann nY p x y (y * 2 + 1) <->
   par beckmann p y 0 = 0 \/ halfway x 2 = 1 \/
   par beckmann p y 1 * par beckmann p y 1 * (halfway x 2 * halfway x 2) = 1 - halfway x 2 * halfway x 2).
Proof.
  intros Hp Hx Hd Hz Hy Ha. unfold par in *. cbn [f_k beckmann] in *.
  set (d := halfway x 2) in *. 
  assert (P : forall l, (l < 2)%nat -> _) by (intros l Hl; exact (partial_iff junk beckmann nY p x _ y y l eq_refl Hp (beckmann_geo x Hx) ltac:(discriminate) Hy Hy Hl)).
  cbn [f_k beckmann] in P. rewrite channel2 in P. fold d in P.
  set (ks := nth (y * 2 + 0) p 0) in *. set (a := nth (y * 2 + 1) p 0) in *.
  assert (V : forall q, f_val beckmann [d; x 2%nat * x 5%nat] q = beckmann_value d q).
  { intros q. cbn [f_val beckmann]. unfold p0 at 1, p1 at 1. cbn [nth]. rewrite !rltb_true by assumption. reflexivity. }
  assert (J : forall l, f_jac beckmann [d; x 2%nat * x 5%nat] [ks; a] l = beckmann_jac d [ks; a] l).
  { intros l. cbn [f_jac beckmann]. unfold p0 at 1, p1 at 1. cbn [nth]. rewrite !rltb_true by assumption. reflexivity. }
  split.
  - apply (P 0%nat); [lia|]. intros _. rewrite J. cbn [nth upd].
    eapply derivable_ext; [intros s; symmetry; apply V|]. apply (beckmann_ks d ks a); assumption.
  - etransitivity; [exact (P 1%nat ltac:(lia))|]. rewrite J. cbn [nth upd].
    assert (W : forall A B : Prop, (A <-> B) -> ((y = y -> A) <-> B)) by tauto. apply W.
    rewrite <- (beckmann_cube d ks a Hd Ha), <- (exact_iff _ _ _ _ (beckmann_a d ks a Hd Ha)).
    split; intros D; (eapply derivable_ext; [|exact D]); intros s; [symmetry|]; symmetry; apply V.
Qed.

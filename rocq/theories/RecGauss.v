(** The Gauss error function tends to 1, and what it leaves is below the bound of Mills. *)
From Coq Require Import Reals Lia Lra.
From Coquelicot Require Import Coquelicot.
From Verif Require Import NlModel NlGrad5.
Open Scope R_scope.

Definition gint (x : R) : R := RInt (fun t => exp (- (t * t))) 0 x.
Definition gpar (x : R) : R := RInt (fun t => exp (- (x * x) * (1 + t * t)) / (1 + t * t)) 0 1.
Lemma one_sq t : 0 < 1 + t * t.
Proof. pose proof (Rle_0_sqr t). unfold Rsqr in *. lra. Qed.
Lemma gint_derive x : is_derive gint x (exp (- (x * x))).
Proof.
  unfold gint. apply (is_derive_RInt (fun t => exp (- (t * t))) (fun x => RInt (fun t => exp (- (t * t))) 0 x) 0 x).
  - exists (mkposreal 1 Rlt_0_1). intros y _. apply (RInt_correct (fun t => exp (- (t * t)))).
    apply (ex_RInt_continuous (fun t => exp (- (t * t)))). intros z _. apply gauss_cont.
  - apply gauss_cont.
Qed.
Lemma integrand_derive t y : is_derive (fun u => exp (- (u * u) * (1 + t * t)) / (1 + t * t)) y (- 2 * y * exp (- (y * y) * (1 + t * t))).
Proof. pose proof (one_sq t). auto_derive; [lra|]. field. lra. Qed.
Lemma gpar_derive x : is_derive gpar x (RInt (fun t => - 2 * x * exp (- (x * x) * (1 + t * t))) 0 1).
Proof.
  unfold gpar.
  pose proof (is_derive_RInt_param (fun u t => exp (- (u * u) * (1 + t * t)) / (1 + t * t)) 0 1 x) as P.
  assert (E : RInt (fun t => Derive (fun u => exp (- (u * u) * (1 + t * t)) / (1 + t * t)) x) 0 1 = RInt (fun t => - 2 * x * exp (- (x * x) * (1 + t * t))) 0 1).
  { apply RInt_ext. intros t _. apply is_derive_unique, integrand_derive. }
  rewrite <- E. apply P.
  - apply filter_forall. intros y t _. eexists. apply integrand_derive.
  - intros t _. apply (continuity_2d_pt_ext (fun u v => - 2 * u * exp (- (u * u) * (1 + v * v)))).
    + intros u v. symmetry. apply is_derive_unique, integrand_derive.
    + apply continuity_2d_pt_mult.
      * apply continuity_2d_pt_mult; [apply continuity_2d_pt_const|apply continuity_2d_pt_id1].
      * apply (continuity_1d_2d_pt_comp exp (fun u v => - (u * u) * (1 + v * v))).
        -- apply derivable_continuous_pt, derivable_pt_exp.
        -- apply continuity_2d_pt_mult; [apply continuity_2d_pt_opp, continuity_2d_pt_mult; apply continuity_2d_pt_id1|].
           apply continuity_2d_pt_plus; [apply continuity_2d_pt_const|apply continuity_2d_pt_mult; apply continuity_2d_pt_id2].
  - apply filter_forall. intros y. apply (ex_RInt_continuous (fun t => exp (- (y * y) * (1 + t * t)) / (1 + t * t))). intros t _.
    apply (ex_derive_continuous (fun t : R => exp (- (y * y) * (1 + t * t)) / (1 + t * t))). auto_derive. pose proof (one_sq t). lra.
Qed.
Lemma gpar_slope x : RInt (fun t => - 2 * x * exp (- (x * x) * (1 + t * t))) 0 1 = - 2 * exp (- (x * x)) * gint x.
Proof.
  assert (H : RInt (fun t => x * exp (- ((x * t + 0) * (x * t + 0)))) 0 1 = gint x).
  { unfold gint. pose proof (RInt_comp_lin (fun t => exp (- (t * t))) x 0 0 1) as P. rewrite Rmult_0_r, Rmult_1_r, !Rplus_0_r in P.
    rewrite <- P; [reflexivity|]. apply (ex_RInt_continuous (fun t => exp (- (t * t)))). intros z _. apply gauss_cont. }
  rewrite <- H. assert (E : forall f, ex_RInt f 0 1 -> - 2 * exp (- (x * x)) * RInt f 0 1 = RInt (fun t => - 2 * exp (- (x * x)) * f t) 0 1).
  { intros f Hf. symmetry. apply (RInt_scal f 0 1 (- 2 * exp (- (x * x))) Hf). }
  rewrite E.
  - apply RInt_ext. intros t _. replace (- (x * x) * (1 + t * t)) with (- (x * x) + - ((x * t + 0) * (x * t + 0))) by ring. rewrite exp_plus. match goal with |- ?a = ?b => change (@eq R a b) end. ring.
  - apply (ex_RInt_continuous (fun t => x * exp (- ((x * t + 0) * (x * t + 0))))). intros t _.
    apply (ex_derive_continuous (fun t : R => x * exp (- ((x * t + 0) * (x * t + 0))))). auto_derive. exact I.
Qed.

(** the square of the integral and the parametric one add up to pi / 4 *)
Lemma gauss_sum x : gint x * gint x + gpar x = PI / 4.
Proof.
  set (F := fun x => gint x * gint x + gpar x).
  assert (D : forall y, is_derive F y 0).
  { intros y. pose proof (gpar_derive y) as P. rewrite gpar_slope in P. pose proof (gint_derive y) as G.
    replace 0 with (plus (plus (mult (exp (- (y * y))) (gint y)) (mult (gint y) (exp (- (y * y))))) (- 2 * exp (- (y * y)) * gint y)).
    - unfold F. apply (is_derive_plus (fun x => gint x * gint x) gpar y); [|exact P].
      apply (is_derive_mult gint gint y (exp (- (y * y))) (exp (- (y * y)))); [exact G|exact G|intros; apply Rmult_comm].
    - change (exp (- (y * y)) * gint y + gint y * exp (- (y * y)) + - 2 * exp (- (y * y)) * gint y = 0). ring. }
  change (F x = PI / 4).
  assert (E : F x = F 0).
  { destruct (MVT_gen F 0 x (fun _ => 0)) as (c & _ & Hc).
    - intros z _. apply D.
    - intros z _. apply derivable_continuous_pt. exists 0. apply is_derive_Reals, D.
    - lra. }
  rewrite E. unfold F, gint, gpar. rewrite RInt_point. change (zero * zero) with (0 * 0).
  rewrite (RInt_ext _ (fun t => / (1 + t ^ 2))).
  - replace (RInt (fun t => / (1 + t ^ 2)) 0 1) with (atan 1 - atan 0).
    + rewrite atan_1, atan_0. lra.
    + symmetry. apply is_RInt_unique. apply (is_RInt_derive atan (fun t => / (1 + t ^ 2))).
      * intros t _. apply is_derive_Reals. exact (derivable_pt_lim_atan t).
      * intros t _. apply (ex_derive_continuous (fun t : R => / (1 + t ^ 2))). auto_derive. pose proof (one_sq t). lra.
  - intros t _. replace (- (0 * 0) * (1 + t * t)) with 0 by ring. rewrite exp_0. unfold Rdiv. rewrite Rmult_1_l. f_equal. ring.
Qed.
Lemma gpar_range x : 0 <= gpar x <= exp (- (x * x)).
Proof.
  unfold gpar.
  assert (X : ex_RInt (fun t => exp (- (x * x) * (1 + t * t)) / (1 + t * t)) 0 1).
  { apply (ex_RInt_continuous (fun t => exp (- (x * x) * (1 + t * t)) / (1 + t * t))). intros t _.
    apply (ex_derive_continuous (fun t : R => exp (- (x * x) * (1 + t * t)) / (1 + t * t))). auto_derive. pose proof (one_sq t). lra. }
  split.
  - apply RInt_ge_0; [lra|exact X|]. intros t _. left. apply Rdiv_lt_0_compat; [apply exp_pos|apply one_sq].
  - replace (exp (- (x * x))) with (RInt (fun _ => exp (- (x * x))) 0 1) by (rewrite RInt_const; change ((1 - 0) * exp (- (x * x)) = exp (- (x * x))); ring).
    apply RInt_le; [lra|exact X|apply ex_RInt_const|]. intros t _.
    assert (P := one_sq t). apply (Rmult_le_reg_r (1 + t * t)); [exact P|]. unfold Rdiv. rewrite Rmult_assoc, Rinv_l by lra. rewrite Rmult_1_r.
    assert (Q : exp (- (x * x) * (1 + t * t)) <= exp (- (x * x))).
    { pose proof (Rle_0_sqr x). pose proof (Rle_0_sqr t). unfold Rsqr in *. destruct (Rle_lt_or_eq_dec (- (x * x) * (1 + t * t)) (- (x * x))) as [L|L]; [nra|left; apply exp_increasing, L|rewrite L; lra]. }
    pose proof (exp_pos (- (x * x))). pose proof (Rle_0_sqr t). unfold Rsqr in *. nra.
Qed.

Lemma erf_gint x : erf x = 2 / sqrt PI * gint x.
Proof. reflexivity. Qed.
Definition mills (z : R) : R := exp (- (z * z)) / (2 * sqrt PI * z) - 1 / 2 * (1 - erf z).
Lemma mills_derive z : 0 < z -> is_derive mills z (- exp (- (z * z)) / (2 * sqrt PI * (z * z))).
Proof.
  intros Hz. pose proof (sqrt_lt_R0 _ PI_RGT_0) as Hp. unfold mills.
  apply (is_derive_ext (fun z : R => (exp (- (z * z)) / (2 * sqrt PI * z) - 1 / 2) + 1 / 2 * erf z)); [intros t; match goal with |- ?a = ?b => change (@eq R a b) end; ring|].
  replace (- exp (- (z * z)) / (2 * sqrt PI * (z * z))) with
    (plus ((- 2 * (z * z) - 1) * exp (- (z * z)) / (2 * sqrt PI * (z * z))) (1 / 2 * (2 / sqrt PI * exp (- (z * z))))).
  - apply (is_derive_plus (fun z => exp (- (z * z)) / (2 * sqrt PI * z) - 1 / 2) (fun z => 1 / 2 * erf z) z).
    + auto_derive; [nra|]. match goal with |- context [exp ?e] => generalize (exp e) end. intros e. field. lra.
    + apply (is_derive_scal erf z (1 / 2)), erf_derive.
  - match goal with |- ?a = ?b => change (@eq R a b) end. unfold plus. cbn. field. lra.
Qed.
Lemma mills_decreases a b : 0 < a < b -> mills b < mills a.
Proof.
  intros [Ha Hab]. destruct (MVT_gen mills a b (fun z => - exp (- (z * z)) / (2 * sqrt PI * (z * z)))) as (c & Hc & E).
  - intros z Hz. rewrite Rmin_left, Rmax_right in Hz by lra. apply mills_derive. lra.
  - intros z Hz. rewrite Rmin_left, Rmax_right in Hz by lra. apply derivable_continuous_pt. eexists. apply is_derive_Reals, mills_derive. lra.
  - rewrite Rmin_left, Rmax_right in Hc by lra.
    assert (S : - exp (- (c * c)) / (2 * sqrt PI * (c * c)) < 0).
    { pose proof (sqrt_lt_R0 _ PI_RGT_0) as Hp. pose proof (exp_pos (- (c * c))). assert (0 < 2 * sqrt PI * (c * c)) by (apply Rmult_lt_0_compat; nra).
      assert (0 < exp (- (c * c)) / (2 * sqrt PI * (c * c))) by (apply Rdiv_lt_0_compat; assumption). unfold Rdiv in *. lra. }
    nra.
Qed.
Lemma mills_pos z : 0 < z -> 0 < mills z.
Proof.
  intros Hz. destruct (Rlt_le_dec 0 (mills z)) as [H|H]; [exact H|exfalso].
  pose proof (mills_decreases z (z + 1) ltac:(lra)) as H1. set (d := - mills (z + 1)). assert (Hd : 0 < d) by (unfold d; lra).
  set (y := z + 2 + / d). assert (Hy : z + 1 < y) by (unfold y; pose proof (Rinv_0_lt_compat d Hd); lra).
  pose proof (mills_decreases (z + 1) y ltac:(lra)) as H2.
  pose proof (sqrt_lt_R0 _ PI_RGT_0) as Hp. pose proof (sqrt_sqrt PI ltac:(pose proof PI_RGT_0; lra)) as Hs.
  assert (P : 0 < exp (- (y * y)) / (2 * sqrt PI * y)) by (apply Rdiv_lt_0_compat; [apply exp_pos|apply Rmult_lt_0_compat; lra]).
  assert (E : erf y < 1 - 2 * d) by (unfold mills in H2 at 1; unfold d; lra).
  assert (E0 : 0 <= erf y) by (apply erf_pos; lra).
  rewrite erf_gint in E, E0.
  assert (G : gint y = sqrt PI / 2 * (2 / sqrt PI * gint y)) by (field; lra).
  set (e := 2 / sqrt PI * gint y) in *.
  assert (S : gint y * gint y <= PI / 4 * ((1 - 2 * d) * (1 - 2 * d))).
  { rewrite G. replace (sqrt PI / 2 * e * (sqrt PI / 2 * e)) with (sqrt PI * sqrt PI / 4 * (e * e)) by field. rewrite Hs. pose proof PI_RGT_0. apply Rmult_le_compat_l; [lra|nra]. }
  pose proof (gauss_sum y) as Q. pose proof (gpar_range y) as [_ B].
  assert (X : exp (- (y * y)) * (1 + y) <= 1).
  { assert (1 <= y) by (unfold y in *; pose proof (Rinv_0_lt_compat d Hd); lra).
    assert (exp (- (y * y)) <= exp (- y)) by (destruct (Rle_lt_or_eq_dec (- (y * y)) (- y)) as [L|L]; [nra|left; apply exp_increasing, L|rewrite L; lra]).
    pose proof (exp_ineq1_le y). pose proof (exp_pos (- y)). assert (exp (- y) * exp y = 1) by (rewrite <- exp_plus, Rplus_opp_l; apply exp_0). nra. }
  assert (X2 : exp (- (y * y)) < d).
  { apply (Rmult_lt_reg_r (1 + y)); [lra|]. apply Rle_lt_trans with 1; [exact X|]. unfold y. rewrite Rmult_plus_distr_l.
    assert (d * / d = 1) by (apply Rinv_r; lra). nra. }
  assert (PI / 4 * ((1 - 2 * d) * (1 - 2 * d)) + d > PI / 4) by lra.
  pose proof PI2_3_2. assert (0 < 2 * d <= 1) by lra. assert (Z : 3 * (1 / 2) <= PI * (1 - d)) by (apply Rmult_le_compat; lra). assert (d * (3 * (1 / 2)) <= d * (PI * (1 - d))) by (apply Rmult_le_compat_l; lra). lra.
Qed.

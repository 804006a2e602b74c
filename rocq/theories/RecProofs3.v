(** The plugins that are not symmetric. *)
From Coq Require Import Reals List Lia Lra.
From Coquelicot Require Import Coquelicot.
From Verif Require Import Base ParamsModel GeoModel TextModel FuncModel FuncSpec CommonModel NlModel NlSpec NlProofs NlGrad NlGrad5 NlMoreModel NlMoreSpec RecSpec.
Open Scope R_scope.

Lemma erf_le x : 0 <= x -> erf x <= 2 * x.
Proof.
  intros Hx. unfold erf.
  assert (S : 1 <= sqrt PI) by (rewrite <- sqrt_1; apply sqrt_le_1_alt; pose proof PI2_3_2; lra).
  assert (B : RInt (fun t => exp (- (t * t))) 0 x <= RInt (fun _ => 1) 0 x).
  { apply RInt_le; [exact Hx| |apply ex_RInt_const|].
    - apply (ex_RInt_continuous (fun t => exp (- (t * t)))). intros z _. apply gauss_cont.
    - intros t _. rewrite <- exp_0. destruct (Req_dec t 0) as [->|Ht]; [right; f_equal; ring|]. left. apply exp_increasing. assert (0 < t * t) by (apply Rsqr_pos_lt, Ht). lra. }
  rewrite RInt_const in B. change (scal (x - 0) 1) with ((x - 0) * 1) in B.
  assert (0 <= RInt (fun t => exp (- (t * t))) 0 x).
  { apply (RInt_ge_0 (fun t => exp (- (t * t)))); [exact Hx| |intros; left; apply exp_pos].
    apply (ex_RInt_continuous (fun t => exp (- (t * t)))). intros z _. apply gauss_cont. }
  assert (Q : 2 / sqrt PI <= 2). { apply (Rmult_le_reg_r (sqrt PI)); [lra|]. unfold Rdiv. rewrite Rmult_assoc, Rinv_l by lra. lra. }
  assert (0 < 2 / sqrt PI) by (apply Rdiv_lt_0_compat; lra). nra.
Qed.
Lemma smithA_differ : smithA (3 / 40) <> smithA (4 / 30).
Proof.
  unfold smithA. intros E.
  pose proof (exp_ineq1_le (- (1 / 2) * (3 / 40 * (3 / 40)))) as H1.
  assert (H2 : exp (- (1 / 2) * (4 / 30 * (4 / 30))) <= 1) by (apply Rle_trans with (exp 0); [left; apply exp_increasing; lra|rewrite exp_0; lra]).
  set (e1 := exp (- (1 / 2) * (3 / 40 * (3 / 40)))) in *. set (e2 := exp (- (1 / 2) * (4 / 30 * (4 / 30)))) in *.
  assert (P1 : 0 <= erf (c2 * (3 / 40))) by (apply erf_pos; unfold c2; lra).
  assert (P2 : erf (c2 * (4 / 30)) <= 2 * (c2 * (4 / 30))) by (apply erf_le; unfold c2; lra).
  unfold c1, c2 in *. lra.
Qed.

(** a light in the plane of the view, at another angle *)
Definition across : mem := fun i => nth i [3 / 5; 0; 4 / 5; 4 / 5; 0; 3 / 5] 0.
Lemma smith_across junk : component (value_at junk smith 1 [10] across) 0 <> component (value_at junk smith 1 [10] (swap across)) 0.
Proof.
  assert (V : forall y mu, y 2%nat <> 1 -> y 5%nat / sqrt (y 3%nat * y 3%nat + y 4%nat * y 4%nat) = mu -> component (value_at junk smith 1 [10] y) 0 = 1 / (1 + smithA (mu / 10))).
  { intros y mu Hy Hm. destruct (value_is_of junk smith 1 [10] y [y 2%nat; mu] (fun _ => 1 / (1 + smithA (mu / 10))) eq_refl eq_refl) as (v & E & _ & N).
    - rewrite <- Hm. reflexivity.
    - intros i Hi. assert (i = 0%nat) by lia. subst i. cbn [f_k smith]. rewrite channel1. cbn [Nat.mul Nat.add nth]. cbn [f_val smith]. unfold p0, p1. cbn [nth].
      destruct (Req_EM_T (y 2%nat) 1); [contradiction|]. apply smith_value_eq.
    - rewrite E. cbn [component]. apply N. lia. }
  rewrite (V across (3 / 4)), (V (swap across) (4 / 3)).
  - intros E. assert (L1 := smithA_low (3 / 4 / 10) ltac:(lra)). assert (L2 := smithA_low (4 / 3 / 10) ltac:(lra)).
    assert (E2 : 1 + smithA (3 / 4 / 10) = 1 + smithA (4 / 3 / 10)).
    { set (a := 1 + smithA (3 / 4 / 10)) in *. set (b := 1 + smithA (4 / 3 / 10)) in *. apply (f_equal (fun z => a * z * b)) in E.
      replace (a * (1 / a) * b) with b in E by (field; lra). replace (a * (1 / b) * b) with a in E by (field; lra). lra. }
    apply Rplus_eq_reg_l in E2. replace (3 / 4 / 10) with (3 / 40) in E2 by lra. replace (4 / 3 / 10) with (4 / 30) in E2 by lra. apply smithA_differ, E2.
  - unfold swap, across. cbn. lra.
  - unfold swap, across. cbn. replace (sqrt _) with (3 / 5); [lra|]. transitivity (sqrt (3 / 5 * (3 / 5))); [symmetry; apply sqrt_square; lra|f_equal; lra].
  - unfold across. cbn. lra.
  - unfold across. cbn. replace (sqrt _) with (4 / 5); [lra|]. transitivity (sqrt (4 / 5 * (4 / 5))); [symmetry; apply sqrt_square; lra|f_equal; lra].
Qed.

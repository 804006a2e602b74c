(** Retro Beckmann and the shadowing terms of Smith. *)
From Coq Require Import Reals List Lia Lra.
From Coquelicot Require Import Coquelicot.
From Verif Require Import Base ParamsModel GeoModel CommonModel FuncModel FuncSpec FuncProofs FuncJac TextModel NlModel NlSpec NlProofs NlGrad NlGrad2 NlGrad3 NlGrad4.
Open Scope R_scope.

(** ** Retro Beckmann: the "back" cosine is not a cosine *)
Lemma retro_value junk nY p x : length p = (2 * nY)%nat -> 0 < retro_dot x ->
  value_is junk (retrobeckmann false) nY p x (fun y => beckmann_formula (retro_dot x) (par beckmann p y 0) (par beckmann p y 1)).
Proof.
  intros Hp Hd. eapply value_is_of with (F := retrobeckmann false); [reflexivity|exact Hp|reflexivity|].
  intros y Hy. unfold par. cbn [f_k retrobeckmann beckmann]. rewrite channel2. cbn [f_val retrobeckmann]. unfold p0. cbn [nth]. fold (retro_dot x). rewrite !rltb_true by assumption.
  apply beckmann_formula_ok.
Qed.

(** ** Smith: the derivative vanishes where the value's does not *)
Definition c1 : R := 398942280401439 / 1000000000000000.
Definition c2 : R := 70710678118655 / 100000000000000.
Definition smithA (r : R) : R := c1 * exp (- (1 / 2) * (r * r)) / r - 1 / 2 * (1 - erf (c2 * r)).
Lemma gauss_cont t : continuous (fun t => exp (- (t * t))) t.
Proof. apply (ex_derive_continuous (fun t : R => exp (- (t * t)))). auto_derive. exact I. Qed.
Lemma erf_derive x : is_derive erf x (2 / sqrt PI * exp (- (x * x))).
Proof.
  unfold erf. apply (is_derive_scal (fun x => RInt (fun t => exp (- (t * t))) 0 x) x (2 / sqrt PI)).
  apply (is_derive_RInt (fun t => exp (- (t * t))) (fun x => RInt (fun t => exp (- (t * t))) 0 x) 0 x).
  - exists (mkposreal 1 Rlt_0_1). intros y _. apply (RInt_correct (fun t => exp (- (t * t)))).
    apply (ex_RInt_continuous (fun t => exp (- (t * t)))). intros z _. apply gauss_cont.
  - apply gauss_cont.
Qed.
Definition smithA' (r : R) : R :=
  - c1 * exp (- (1 / 2) * (r * r)) * (1 + / (r * r)) + c2 / sqrt PI * exp (- (c2 * r * (c2 * r))).
Lemma smithA_derive r : r <> 0 -> is_derive smithA r (smithA' r).
Proof.
  intros Hr. unfold smithA, smithA'. pose proof (sqrt_lt_R0 _ PI_RGT_0) as Hp.
  apply (is_derive_ext (fun r : R => (c1 * exp (- (1 / 2) * (r * r)) / r - 1 / 2) + (1 / 2) * erf (c2 * r))); [intros t; match goal with |- ?a = ?b => change (@eq R a b) end; ring|].
  apply (is_derive_plus (fun r => c1 * exp (- (1 / 2) * (r * r)) / r - 1 / 2) (fun r => 1 / 2 * erf (c2 * r)) r
     (- c1 * exp (- (1 / 2) * (r * r)) * (1 + / (r * r))) (c2 / sqrt PI * exp (- (c2 * r * (c2 * r))))).
  - auto_derive; [exact Hr|]. match goal with |- context [exp ?e] => generalize (exp e) end. intros e. field. exact Hr.
  - replace (c2 / sqrt PI * exp (- (c2 * r * (c2 * r)))) with (1 / 2 * (c2 * (2 / sqrt PI * exp (- (c2 * r * (c2 * r)))))) by (field; lra).
    apply (is_derive_scal (fun r => erf (c2 * r)) r (1 / 2)).
    apply (is_derive_comp erf (fun r => c2 * r) r (2 / sqrt PI * exp (- (c2 * r * (c2 * r)))) c2).
    + apply erf_derive.
    + auto_derive; [exact I|ring].
Qed.

(** at r^2 = 2 the derivative of A is negative *)
Lemma smithA_slope r : 0 < r -> r * r = 2 -> smithA' r < 0.
Proof.
  intros Hr Hr2. unfold smithA'. rewrite Hr2.
  assert (E : exp (- (c2 * r * (c2 * r))) <= exp (- (1)) * (101 / 100)).
  { replace (- (c2 * r * (c2 * r))) with (- (1) + (1 - 2 * c2 * c2)) by (replace (c2 * r * (c2 * r)) with (c2 * c2 * (r * r)) by ring; rewrite Hr2; ring).
    rewrite exp_plus. apply Rmult_le_compat_l; [left; apply exp_pos|].
    assert (B : 1 - 2 * c2 * c2 <= 1 / 1000) by (unfold c2; lra).
    assert (exp (1 - 2 * c2 * c2) <= exp (1 / 1000)) by (destruct B as [B|B]; [left; apply exp_increasing, B|rewrite B; right; reflexivity]).
    assert (exp (1 / 1000) <= 101 / 100).
    { pose proof (exp_ineq1_le (- (1 / 1000))) as Q. rewrite exp_Ropp in Q. pose proof (exp_pos (1 / 1000)) as P.
      apply (Rmult_le_compat_r (exp (1 / 1000)) _ _ (Rlt_le _ _ P)) in Q. rewrite Rinv_l in Q by lra. lra. }
    lra. }
  replace (- (1 / 2) * 2) with (- (1)) by field.
  assert (P : c2 / sqrt PI <= 41 / 100).
  { assert (S : 173 / 100 <= sqrt PI).
    { rewrite <- (sqrt_square (173 / 100)) by lra. apply sqrt_le_1_alt. pose proof PI2_3_2. lra. }
    apply (Rmult_le_reg_r (sqrt PI)); [lra|]. unfold Rdiv at 1. rewrite Rmult_assoc, Rinv_l by lra. unfold c2. lra. }
  assert (Q : 0 < c2 / sqrt PI) by (apply Rdiv_lt_0_compat; [unfold c2; lra|apply sqrt_lt_R0, PI_RGT_0]).
  pose proof (exp_pos (- (1))) as X. set (e := exp (- (1))) in *.
  assert (c2 / sqrt PI * exp (- (c2 * r * (c2 * r))) <= 41 / 100 * (e * (101 / 100))).
  { apply Rmult_le_compat; [lra|left; apply exp_pos|exact P|exact E]. }
  unfold c1. lra.
Qed.

Lemma erf_pos x : 0 <= x -> 0 <= erf x.
Proof.
  intros Hx. unfold erf. apply Rmult_le_pos.
  - apply Rlt_le, Rdiv_lt_0_compat; [lra|apply sqrt_lt_R0, PI_RGT_0].
  - apply (RInt_ge_0 (fun t => exp (- (t * t)))); [exact Hx| |intros; left; apply exp_pos].
    apply (ex_RInt_continuous (fun t => exp (- (t * t)))). intros z _. apply gauss_cont.
Qed.
Lemma smithA_low r : 0 < r -> 0 < 1 + smithA r.
Proof.
  intros Hr. unfold smithA. assert (0 < c1 * exp (- (1 / 2) * (r * r)) / r).
  { apply Rdiv_lt_0_compat; [|exact Hr]. apply Rmult_lt_0_compat; [unfold c1; lra|apply exp_pos]. }
  assert (0 <= erf (c2 * r)) by (apply erf_pos; unfold c2; lra). lra.
Qed.
Lemma smith_value_eq mu w : smith_value mu w = 1 / (1 + smithA (mu / w)).
Proof. reflexivity. Qed.

Lemma smith_derive mu w : w <> 0 -> 0 < mu / w ->
  derivable_pt_lim (smith_value mu) w (smithA' (mu / w) * (mu / (w * w)) / (1 + smithA (mu / w)) ^ 2).
Proof.
  intros Hw Hr.
  pose proof (smithA_derive (mu / w) ltac:(lra)) as D. pose proof (smithA_low _ Hr) as L.
  assert (D1 : is_derive (fun s => mu / s) w (- mu / (w * w))) by (auto_derive; [exact Hw|field; exact Hw]).
  pose proof (is_derive_comp smithA (fun s => mu / s) w _ _ D D1) as D2.
  apply is_derive_Reals in D2. apply (derivable_shift _ _ _ 1) in D2.
  apply (derivable_quot 1) in D2; [|exact L].
  apply (derivable_ext (fun s => 1 / (1 + smithA (mu / s)))); [reflexivity|].
  eapply derivable_eq; [exact D2|]. change (scal (- mu / (w * w)) (smithA' (mu / w))) with (- mu / (w * w) * smithA' (mu / w)).
  field. split; [exact Hw|]. lra.
Qed.

Lemma smith_wrong junk nY p x y : length p = nY -> (y < nY)%nat -> x 2%nat < 1 -> nth y p 0 <> 0 ->
  0 < x 5%nat / sqrt (x 3%nat * x 3%nat + x 4%nat * x 4%nat) / nth y p 0 ->
  (x 5%nat / sqrt (x 3%nat * x 3%nat + x 4%nat * x 4%nat) / nth y p 0) ^ 2 = 2 ->
  partial_at junk smith nY p x y y = 0 /\ ~ partial_exact junk smith nY p x y y.
Proof.
  intros Hp Hy Hx Hw Hr Hr2. set (mu := x 5%nat / sqrt (x 3%nat * x 3%nat + x 4%nat * x 4%nat)) in *. set (w := nth y p 0) in *.
  assert (Hp' : length p = (f_k smith * nY)%nat) by (cbn; lia).
  assert (Eg : f_geo smith x = Ok [x 2%nat; mu]) by reflexivity.
  assert (Ei : y = (y * f_k smith + 0)%nat) by (cbn; lia).
  destruct (partial_value junk smith nY p x _ y y 0 eq_refl Hp' Eg ltac:(reflexivity) Hy Hy ltac:(cbn; lia)) as [J V].
  pose proof (partial_iff junk smith nY p x _ y y 0 eq_refl Hp' Eg ltac:(reflexivity) Hy Hy ltac:(cbn; lia)) as P.
  rewrite <- Ei in J, P. rewrite Nat.eqb_refl in J.
  assert (Ec : channel (f_k smith) p y = [w]) by (cbn [f_k smith]; rewrite channel1; replace (y * 1 + 0)%nat with y by lia; reflexivity).
  rewrite Ec in J, P.
  assert (Z : f_jac smith [x 2%nat; mu] [w] 0 = 0).
  { cbn [f_jac smith]. unfold p0, p1. cbn [nth]. cbv zeta. rewrite rltb_true by exact Hx.
    replace (mu / w * (mu / w) * (mu / w) / w - 2 * (mu / w) / w) with ((mu / w) / w * ((mu / w) ^ 2 - 2)) by (field; exact Hw).
    rewrite Hr2. unfold Rdiv. ring. }
  split; [rewrite J; exact Z|]. rewrite P, Z. cbn [nth upd]. intros D. specialize (D eq_refl).
  assert (D' : derivable_pt_lim (smith_value mu) w 0).
  { eapply derivable_ext; [|exact D]. intros s. cbn [f_val smith]. unfold p0, p1. cbn [nth]. destruct (Req_EM_T (x 2%nat) 1); [lra|reflexivity]. }
  pose proof (deriv_unique _ _ _ _ D' (smith_derive mu w Hw Hr)) as E.
  pose proof (smithA_slope (mu / w) Hr ltac:(rewrite <- Hr2; ring)) as S. pose proof (smithA_low _ Hr) as L.
  assert (M : mu / (w * w) <> 0).
  { replace (mu / (w * w)) with (mu / w * / w) by (field; exact Hw). apply Rmult_integral_contrapositive_currified; [lra|apply Rinv_neq_0_compat, Hw]. }
  symmetry in E. unfold Rdiv at 1 in E. apply Rmult_integral in E. destruct E as [E|E].
  - apply Rmult_integral in E. destruct E; [lra|contradiction].
  - revert E. apply Rinv_neq_0_compat, pow_nonzero. lra.
Qed.

(** ** Walter's approximation *)
Lemma shadow_one a t : 0 < a -> 0 < t -> a * t < 5 / 8 -> shadow_term (1 / (a * t)) = 1.
Proof.
  intros Ha Ht H. unfold shadow_term. rewrite rleb_true; [reflexivity|]. assert (0 < a * t) by nra.
  apply (Rmult_le_reg_r (a * t)); [assumption|]. unfold Rdiv at 2. rewrite Rmult_assoc, Rinv_l by lra. lra.
Qed.
Lemma walter_slope a t : 0 < a -> 0 < t -> a * t < 5 / 8 -> 0 < partial_derivative a t.
Proof.
  intros Ha Ht H. unfold partial_derivative. set (u := a * t) in *. assert (0 < u) by (unfold u; nra).
  replace (a * a * (t * t)) with (u * u) by (unfold u; ring).
  set (D := 1000 * (u * u) + 2276 * u + 2577). assert (0 < D) by (unfold D; nra).
  apply Rdiv_lt_0_compat; [|nra].
  assert (4362000 * u - 4145739 + 3535000 * (u * u) < 0) by nra. nra.
Qed.
Lemma walter_wrong junk nY p x y : length p = nY -> (y < nY)%nat -> walter_visible x = true ->
  0 < nth y p 0 -> 0 < tangent (x 2%nat) -> 0 < tangent (x 5%nat) ->
  nth y p 0 * tangent (x 2%nat) < 5 / 8 -> nth y p 0 * tangent (x 5%nat) < 5 / 8 ->
  component (value_at junk walter_smith nY p x) y = 1 /\ 0 < partial_at junk walter_smith nY p x y y /\ ~ partial_exact junk walter_smith nY p x y y.
Proof.
  intros Hp Hy Hv Ha H2 H5 B2 B5. set (a := nth y p 0) in *. set (t2 := tangent (x 2%nat)) in *. set (t5 := tangent (x 5%nat)) in *.
  assert (Hp' : length p = (f_k walter_smith * nY)%nat) by (cbn; lia).
  assert (Eg : f_geo walter_smith x = Ok [1; t2; t5]) by (cbn [f_geo walter_smith]; rewrite Hv; reflexivity).
  assert (Ei : y = (y * f_k walter_smith + 0)%nat) by (cbn; lia).
  destruct (partial_value junk walter_smith nY p x _ y y 0 eq_refl Hp' Eg ltac:(discriminate) Hy Hy ltac:(cbn; lia)) as [J V].
  pose proof (partial_iff junk walter_smith nY p x _ y y 0 eq_refl Hp' Eg ltac:(discriminate) Hy Hy ltac:(cbn; lia)) as P.
  rewrite <- Ei in J, P. rewrite Nat.eqb_refl in J.
  assert (Ec : channel (f_k walter_smith) p y = [a]) by (cbn [f_k walter_smith]; rewrite channel1; replace (y * 1 + 0)%nat with y by lia; reflexivity).
  rewrite Ec in J, P.
  assert (Fv : forall s, f_val walter_smith [1; t2; t5] [s] = shadow_term (1 / (s * t5)) * shadow_term (1 / (s * t2))).
  { intros s. cbn [f_val walter_smith]. unfold p0, p1, p2. cbn [nth]. rewrite rleb_no by lra. reflexivity. }
  assert (Z : 0 < f_jac walter_smith [1; t2; t5] [a] 0).
  { cbn [f_jac walter_smith]. unfold p0, p1, p2. cbn [nth]. rewrite rleb_no by lra.
    rewrite !shadow_one by assumption. pose proof (walter_slope a t2 Ha H2 B2). pose proof (walter_slope a t5 Ha H5 B5). lra. }
  split; [|split; [rewrite J; exact Z|]].
  - rewrite (value_at_ok junk walter_smith nY p eq_refl Hp' x _ Eg). cbn [component]. rewrite map_nth_len by exact Hy.
    rewrite Ec, Fv, !shadow_one by assumption. ring.
  - rewrite P. cbn [nth upd]. intros D. specialize (D eq_refl).
    assert (D0 : derivable_pt_lim (fun s => f_val walter_smith [1; t2; t5] [s]) a 0).
    { set (T := Rmax t2 t5). assert (HT : t2 <= T /\ t5 <= T) by (unfold T; split; [apply Rmax_l|apply Rmax_r]).
      assert (0 < T) by lra. assert (aT : a * T < 5 / 8) by (unfold T, Rmax; destruct (Rle_dec t2 t5); assumption).
      apply is_derive_Reals. apply (is_derive_ext_loc (fun _ => 1)); [|apply (is_derive_const 1)].
      assert (Hd : 0 < Rmin a (5 / 8 / T - a)).
      { apply Rmin_pos; [exact Ha|]. apply Rlt_Rminus. apply (Rmult_lt_reg_r T); [assumption|]. unfold Rdiv at 1. rewrite Rmult_assoc, Rinv_l by lra. lra. }
      exists (mkposreal _ Hd). intros s Hs. unfold ball in Hs. cbn in Hs. unfold AbsRing_ball, abs, minus, plus, opp in Hs. cbn in Hs.
      apply Rabs_def2 in Hs. destruct Hs as [S1 S2]. pose proof (Rmin_l a (5 / 8 / T - a)). pose proof (Rmin_r a (5 / 8 / T - a)).
      assert (0 < s) by lra. assert (sT : s * T < 5 / 8).
      { assert (Hs2 : s < 5 / 8 / T) by lra. apply (Rmult_lt_compat_r T) in Hs2; [|assumption]. replace (5 / 8 / T * T) with (5 / 8) in Hs2 by (field; lra). exact Hs2. }
      rewrite Fv, !shadow_one; try assumption; try nra. }
    pose proof (deriv_unique _ _ _ _ D D0). lra.
Qed.

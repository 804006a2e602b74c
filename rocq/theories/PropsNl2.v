(** Properties C66 to C70: more non linear function plugins. *)
From Coq Require Import Reals List Lia Lra.
From Coquelicot Require Import Coquelicot.
From Verif Require Import Base ParamsModel GeoModel CommonModel FuncModel FuncSpec FuncProofs FuncJac TextModel
  NlModel NlSpec NlProofs NlGrad NlGrad2 NlGrad3 NlGrad4 NlGrad5 NlMoreModel NlMoreSpec NlMoreProofs NlLobes NlLobes2 NlSgd.
Open Scope R_scope.

(** ** C66: isotropic Lafortune lobes *)
(** The value of channel i is the sum over the lobes of (L^T D V)^N where that
    dot product is positive. *)
Theorem C66_lafortune_value : forall junk nY L p x, length p = (3 * L * nY)%nat ->
  exists v, laf_value_at junk nY L p x = Ok v /\ length v = nY /\
  forall i, (i < nY)%nat -> nth i v 0 = sum_to L (fun n => laf_lobe nY p x n i).
Proof. exact laf_value_at_ok. Qed.
Print Assumptions C66_lafortune_value.
(** The Jacobian is exact in all parameters of a lobe whose dot product is not
    zero, in its exponent always, and across channels always. *)
Theorem C66_lafortune_gradient : forall junk nY L p x i n j l, length p = (3 * L * nY)%nat ->
  (i < nY)%nat -> (n < L)%nat -> (j < nY)%nat -> (l < 3)%nat ->
  laf_dot nY p x n j <> 0 \/ l = 2%nat \/ i <> j -> laf_exact junk nY L p x i n j l.
Proof. exact laf_gradient. Qed.
Print Assumptions C66_lafortune_gradient.
Theorem C66_lafortune_jacobian_size : forall junk nY L p x, length p = (3 * L * nY)%nat ->
  exists J, laf_jacobian_at junk nY L p x = Ok J /\ length J = (nY * (3 * L * nY))%nat.
Proof. intros junk nY L p x Hp. destruct (laf_jacobian_at_ok junk nY L p x Hp) as (J & E & H & _). exists J. auto. Qed.
Print Assumptions C66_lafortune_jacobian_size.
(** The parameter vector survives; another length ends the process. *)
Theorem C66_lafortune_parameters : forall junk nY L p s, sized nY L s ->
  (length p = (3 * L * nY)%nat -> (do t <- laf_set nY p s; laf_get junk nY t) = Ok p) /\
  (length p <> (3 * L * nY)%nat -> laf_set nY p s = Abort).
Proof. intros junk nY L p s Hs. split; intros H; [apply (laf_round_trip junk nY L p s Hs H)|apply (laf_wrong_size nY L p s (proj1 Hs) H)]. Qed.
Print Assumptions C66_lafortune_parameters.
(** bootstrap: all lobes get the exponent L, and all the same direction unless
    --bootstrap is given *)
Theorem C66_lafortune_start : forall junk nY L given, exists p,
  (do s <- laf_start junk nY L given; laf_get junk nY s) = Ok p /\ length p = (3 * L * nY)%nat /\
  forall m i, (m < L)%nat -> (i < nY)%nat -> laf_par nY p m i 0 = laf_cxy given m /\ laf_par nY p m i 1 = 1 /\ laf_par nY p m i 2 = INR L.
Proof. exact laf_start_ok. Qed.
Print Assumptions C66_lafortune_start.
(** so without the argument the lobes start out identical and stay so under the
    gradient: their Jacobian columns agree at every point *)
Theorem C66_lobes_identical_refuted : forall junk nY L p x J i m n l,
  (do s <- laf_start junk nY L false; laf_get junk nY s) = Ok p -> laf_jacobian_at junk nY L p x = Ok J ->
  (i < nY)%nat -> (m < L)%nat -> (n < L)%nat -> (l < 3)%nat ->
  nth (i * (3 * L * nY) + ((m * nY + i) * 3 + l)) J 0 = nth (i * (3 * L * nY) + ((n * nY + i) * 3 + l)) J 0.
Proof.
  intros junk nY L p x J i m n l Hp HJ Hi Hm Hn Hl. destruct (laf_start_ok junk nY L false) as (p' & E & Lp & N).
  rewrite E in Hp. apply Ok_inj in Hp. subst p'. 
  destruct (laf_jacobian_at_ok junk nY L p x Lp) as (J' & E' & _ & NJ). rewrite E' in HJ. apply Ok_inj in HJ. subst J'.
  rewrite !NJ by assumption. unfold laf_entry, laf_dot.
  destruct (N m i Hm Hi) as (A1 & A2 & A3). destruct (N n i Hn Hi) as (B1 & B2 & B3). rewrite A1, A2, A3, B1, B2, B3. reflexivity.
Qed.
Print Assumptions C66_lobes_identical_refuted.

(** ** C67: spherical Gaussians *)
Theorem C67_gaussian : forall junk t nY p x d, length p = (2 * nY)%nat -> sg_dot t x = Ok d ->
  gradient_at junk (spherical_gaussian t) nY p x /\
  value_is junk (spherical_gaussian t) nY p x (fun y => par (spherical_gaussian t) p y 0 * exp (par (spherical_gaussian t) p y 1 * (d - 1))).
Proof. exact sg_gradient. Qed.
Print Assumptions C67_gaussian.
(** With a non negative amplitude and sharpness the lobe is largest where the
    cosine is 1, and takes the value ks there. *)
Theorem C67_peak : forall junk t nY p x d y, length p = (2 * nY)%nat -> sg_dot t x = Ok d -> (y < nY)%nat ->
  0 <= par (spherical_gaussian t) p y 0 -> 0 <= par (spherical_gaussian t) p y 1 -> d <= 1 ->
  let v := component (value_at junk (spherical_gaussian t) nY p x) y in
  0 <= v <= par (spherical_gaussian t) p y 0 /\ (d = 1 -> v = par (spherical_gaussian t) p y 0).
Proof.
  intros junk t nY p x d y Hp Hd Hy Hk Hn H1. destruct (sg_gradient junk t nY p x d Hp Hd) as (_ & v & E & _ & N). cbv zeta. rewrite E. cbn [component]. rewrite N by exact Hy.
  set (k := par (spherical_gaussian t) p y 0) in *. set (n := par (spherical_gaussian t) p y 1) in *.
  assert (X : exp (n * (d - 1)) <= exp 0). { destruct (Req_dec (n * (d - 1)) 0) as [Q|Q]; [rewrite Q; lra|]. left. apply exp_increasing. nra. } rewrite exp_0 in X.
  pose proof (exp_pos (n * (d - 1))). split; [split; nra|]. intros ->. replace (n * (1 - 1)) with 0 by ring. rewrite exp_0. ring.
Qed.
Print Assumptions C67_peak.

(** ** C68: shadowing terms *)
Theorem C68_schlick_shadowing : forall junk nY p x, length p = nY ->
  value_is junk shadowing_schlick nY p x (fun y =>
    (x 5%nat / (x 5%nat + nth y p 0 * (1 - x 5%nat))) * (x 2%nat / (x 2%nat + nth y p 0 * (1 - x 2%nat)))) /\
  ((forall y, (y < nY)%nat -> x 5%nat + nth y p 0 * (1 - x 5%nat) <> 0 /\ x 2%nat + nth y p 0 * (1 - x 2%nat) <> 0) ->
   gradient_at junk shadowing_schlick nY p x).
Proof. intros junk nY p x Hp. split; [apply shadowing_value, Hp|apply shadowing_gradient, Hp]. Qed.
Print Assumptions C68_schlick_shadowing.
(** a fraction of the light *)
Theorem C68_schlick_fraction : forall junk nY p x y, length p = nY -> (y < nY)%nat -> 0 <= nth y p 0 -> 0 < x 2%nat <= 1 -> 0 < x 5%nat <= 1 ->
  0 < component (value_at junk shadowing_schlick nY p x) y <= 1.
Proof.
  intros junk nY p x y Hp Hy Hw H2 H5. destruct (shadowing_value junk nY p x Hp) as (v & E & _ & N). rewrite E. cbn [component]. rewrite N by exact Hy.
  pose proof (g1_range _ _ H2 Hw) as [A B]. pose proof (g1_range _ _ H5 Hw) as [C D]. split; [nra|].
  rewrite <- (Rmult_1_r 1) at 3. apply Rmult_le_compat; lra.
Qed.
Print Assumptions C68_schlick_fraction.
(** Smith's term: where (mu/w)^2 = 2 the Jacobian is 0 but the derivative is not. *)
Theorem C68_smith_jacobian_refuted : forall junk nY p x y, length p = nY -> (y < nY)%nat -> x 2%nat < 1 -> nth y p 0 <> 0 ->
  let mu := x 5%nat / sqrt (x 3%nat * x 3%nat + x 4%nat * x 4%nat) in
  0 < mu / nth y p 0 -> (mu / nth y p 0) ^ 2 = 2 ->
  partial_at junk smith nY p x y y = 0 /\ ~ partial_exact junk smith nY p x y y.
Proof. exact smith_wrong. Qed.
Print Assumptions C68_smith_jacobian_refuted.
(** Walter's approximation: for small roughness the value is the constant 1 and
    the Jacobian is positive. *)
Theorem C68_walter_jacobian_refuted : forall junk nY p x y, length p = nY -> (y < nY)%nat -> walter_visible x = true ->
  0 < nth y p 0 -> 0 < tangent (x 2%nat) -> 0 < tangent (x 5%nat) ->
  nth y p 0 * tangent (x 2%nat) < 5 / 8 -> nth y p 0 * tangent (x 5%nat) < 5 / 8 ->
  component (value_at junk walter_smith nY p x) y = 1 /\ 0 < partial_at junk walter_smith nY p x y y /\ ~ partial_exact junk walter_smith nY p x y y.
Proof. exact walter_wrong. Qed.
Print Assumptions C68_walter_jacobian_refuted.

(** ** C69: parameter vectors *)
(** What is set is what is got, whatever the members were. *)
Theorem C69_round_trip : forall junk F nY p st, shaped (f_k F) nY st -> length p = (f_k F * nY)%nat ->
  (do s <- set_params F nY p st; get_params junk F nY s) = Ok p.
Proof. exact set_get_params. Qed.
Print Assumptions C69_round_trip.
Theorem C69_sgd_round_trip : forall junk nY p st, shaped 11 nY st -> length p = (11 * nY)%nat ->
  (do s <- sgd_set nY p st; sgd_get junk nY s) = Ok p.
Proof. exact sgd_round_trip. Qed.
Print Assumptions C69_sgd_round_trip.
(** The starting point lies between the reported bounds. *)
Theorem C69_start_within_bounds : forall junk big old jp nY F lo hi, 10 <= big -> In (F, lo, hi) (plugin_bounds big old jp) -> exists p,
  (do st <- start F nY (members junk F nY); get_params junk F nY st) = Ok p /\ length p = (f_k F * nY)%nat /\
  forall y l, (y < nY)%nat -> (l < f_k F)%nat -> nth l lo 0 <= par F p y l <= nth l hi 0.
Proof. exact start_within. Qed.
Print Assumptions C69_start_within_bounds.

(** ** C70: SGD and retro Yoo *)
(** SGD: diffuse colour plus lobe, scaled by a truncated 1/pi, 0 when the light
    is below the surface *)
Theorem C70_sgd_value : forall junk nY p x, length p = (11 * nY)%nat -> exists v, sgd_value_at junk nY p x = Ok v /\ length v = nY /\
  forall y, (y < nY)%nat -> nth y v 0 = one_pi * (if Rlt_dec (x 2%nat) 0 then 0 else 1) * (nth (y + 8 * nY) p 0 + sgd_lobe junk x (sgd_channel nY p y)).
Proof. exact sgd_value_ok. Qed.
Print Assumptions C70_sgd_value.
(** its Jacobian is identically zero, so the entry of the diffuse colour is
    wrong at every point above the surface *)
Theorem C70_sgd_jacobian_refuted : forall junk nY p x y, length p = (11 * nY)%nat -> (y < nY)%nat -> 0 <= x 2%nat ->
  (exists J, sgd_jac junk nY = Ok J /\ length J = (nY * (11 * nY))%nat /\ forall i, (i < nY * (11 * nY))%nat -> nth i J 0 = 0) /\
  ~ derivable_pt_lim (fun s => component (sgd_value_at junk nY (upd p (y + 8 * nY) s) x) y) (nth (y + 8 * nY) p 0) 0.
Proof.
  intros junk nY p x y Hp Hy Hx. split; [apply sgd_jac_zero|]. intros D.
  pose proof (deriv_unique _ _ _ _ D (sgd_rho_d junk nY p x y Hp Hy Hx)) as E. unfold one_pi in E. lra.
Qed.
Print Assumptions C70_sgd_jacobian_refuted.
(** Yoo: what is computed is multiplied by what the fresh vector contained, ... *)
Theorem C70_yoo_value_refuted : forall old junk nY p x, length p = (2 * nY)%nat ->
  value_is junk (yoo old) nY p x (fun y => old * (par (yoo old) p y 0 * yoo_base (2 * PI * x 0%nat / 633) (par (yoo old) p y 1))).
Proof. exact yoo_value. Qed.
Print Assumptions C70_yoo_value_refuted.
(** ... the derivative in kr is exact only if that happened to be 1, ... *)
Theorem C70_yoo_jacobian_refuted : forall old junk nY p x y, length p = (2 * nY)%nat -> (y < nY)%nat ->
  (partial_exact junk (yoo old) nY p x y (y * 2 + 0) <-> old = 1 \/ yoo_base (2 * PI * x 0%nat / 633) (par (yoo old) p y 1) = 0).
Proof. intros old junk nY p x y Hp Hy. apply (yoo_entry_kr old junk nY p x y Hp Hy). Qed.
Print Assumptions C70_yoo_jacobian_refuted.
(** ... and parameters() has a third too many entries, never written. *)
Theorem C70_yoo_parameters_refuted : forall junk old nY p, length p = (2 * nY)%nat -> exists out,
  (do st <- set_params (yoo old) nY p (members junk (yoo old) nY); yoo_parameters junk nY st) = Ok out /\
  length out = (3 * nY)%nat /\ firstn (2 * nY) out = p /\ forall i, (2 * nY <= i < 3 * nY)%nat -> nth i out 0 = junk.
Proof. exact yoo_get. Qed.
Print Assumptions C70_yoo_parameters_refuted.

(** ** Cases *)
(** two lobes, one channel: the first lobe is in front, the second behind *)
Definition mirrored : mem := fun i => nth i [0; 3 / 5; 4 / 5; 0; - (3 / 5); 4 / 5] 0.
Example C66_case : laf_dot 1 [-1; 1; 5; 1; - 1; 2] mirrored 0 0 = 1 /\ laf_dot 1 [-1; 1; 5; 1; - 1; 2] mirrored 1 0 = - 1 /\
  component (laf_value_at 0 1 2 [-1; 1; 5; 1; - 1; 2] mirrored) 0 = 1 /\ laf_exact 0 1 2 [-1; 1; 5; 1; - 1; 2] mirrored 0 1 0 0.
Proof.
  assert (A : laf_dot 1 [-1; 1; 5; 1; - 1; 2] mirrored 0 0 = 1) by (unfold laf_dot, laf_par, mirrored; cbn; lra).
  assert (B : laf_dot 1 [-1; 1; 5; 1; - 1; 2] mirrored 1 0 = - 1) by (unfold laf_dot, laf_par, mirrored; cbn; lra).
  split; [exact A|]. split; [exact B|]. split.
  - destruct (C66_lafortune_value 0 1 2 [-1; 1; 5; 1; - 1; 2] mirrored eq_refl) as (v & E & _ & N). rewrite E. cbn [component]. rewrite (N 0%nat) by lia.
    cbn [sum_to]. unfold laf_lobe. rewrite A, B. destruct (Rlt_dec 0 1); [|lra]. destruct (Rlt_dec 0 (-1)); [lra|]. unfold Rpower. rewrite ln_1, Rmult_0_r, exp_0. ring.
  - apply C66_lafortune_gradient; try lia; [reflexivity|]. left. rewrite B. lra.
Qed.
Example C68_case : let x := fun i => nth i [0; 3 / 5; 4 / 5; 0; - (3 / 5); 4 / 5] 0 in
  walter_visible x = true /\ tangent (x 2%nat) = 3 / 4 /\ 1 / 2 * tangent (x 2%nat) < 5 / 8.
Proof.
  cbv zeta. cbn [nth].
  assert (T : tangent (4 / 5) = 3 / 4).
  { unfold tangent. replace (1 - 4 / 5 * (4 / 5)) with (3 / 5 * (3 / 5)) by lra. rewrite sqrt_square by lra. lra. }
  split; [|rewrite T; lra]. unfold walter_visible. cbv zeta. cbn [nth].
  replace (sqrt _) with (8 / 5) by (symmetry; replace ((0 + 0) * (0 + 0) + (3 / 5 + - (3 / 5)) * (3 / 5 + - (3 / 5)) + (4 / 5 + 4 / 5) * (4 / 5 + 4 / 5)) with (8 / 5 * (8 / 5)) by lra; apply sqrt_square; lra).
  rewrite rltb_no by lra. rewrite !rltb_true; [reflexivity| |]; lra.
Qed.
(** mu = 4/3, w = mu / sqrt 2 *)
Example C68_smith_case : let x := fun i => nth i [0; 0; 1 / 2; 0; - (3 / 5); 4 / 5] 0 in let w := 4 / 3 / sqrt 2 in
  partial_at 0 smith 1 [w] x 0 0 = 0 /\ ~ partial_exact 0 smith 1 [w] x 0 0.
Proof.
  cbv zeta. assert (S2 : 0 < sqrt 2) by (apply sqrt_lt_R0; lra). assert (SS : sqrt 2 * sqrt 2 = 2) by (apply sqrt_sqrt; lra).
  assert (M : 4 / 5 / sqrt (0 * 0 + - (3 / 5) * - (3 / 5)) = 4 / 3).
  { replace (0 * 0 + - (3 / 5) * - (3 / 5)) with (3 / 5 * (3 / 5)) by lra. rewrite sqrt_square by lra. lra. }
  assert (Q : 4 / 3 / (4 / 3 / sqrt 2) = sqrt 2) by (field; lra).
  apply C68_smith_jacobian_refuted; cbn [nth]; try reflexivity; try lia; try lra.
  - apply Rgt_not_eq. apply Rdiv_lt_0_compat; lra.
  - rewrite M, Q. exact S2.
  - rewrite M, Q. cbn [pow]. lra.
Qed.
Example C69_case : shaped (f_k ward) 2 (members 7 ward 2) /\ (do s <- set_params ward 2 [1; 2; 3; 4; 5; 6] (members 7 ward 2); get_params 7 ward 2 s) = Ok [1; 2; 3; 4; 5; 6].
Proof. split; [apply members_shaped; reflexivity|]. apply C69_round_trip; [apply members_shaped; reflexivity|reflexivity]. Qed.
Example C70_case : 0 <= mirrored 2%nat /\ length (repeat 1 33) = (11 * 3)%nat.
Proof. split; [unfold mirrored; cbn; lra|reflexivity]. Qed.

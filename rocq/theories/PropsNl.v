(** Properties C52 to C57 and C71: the non linear function plugins. *)
From Coq Require Import Reals List Lia Lra.
From Coquelicot Require Import Coquelicot.
From Verif Require Import Base ParamsModel GeoModel CommonModel FuncModel FuncSpec FuncProofs FuncJac TextModel
  NlModel NlSpec NlProofs NlGrad NlGrad2 NlGrad3 NlGrad4 NlGrad5 NlMoreModel NlMoreSpec NlMoreProofs.
Open Scope R_scope.

(** ** C52: Blinn *)
Theorem C52_blinn_gradient : forall junk nY p x, length p = (2 * nY)%nat -> gradient_at junk blinn nY p x.
Proof. exact blinn_gradient. Qed.
Print Assumptions C52_blinn_gradient.
Theorem C52_blinn_value : forall junk nY p x, length p = (2 * nY)%nat ->
  value_is junk blinn nY p x (fun y => if Rlt_dec 0 (x 0%nat) then par blinn p y 0 * Rpower (x 0%nat) (par blinn p y 1) else 0).
Proof. exact blinn_value. Qed.
Print Assumptions C52_blinn_value.
(** the retro reflecting one, above the horizon *)
Theorem C52_retroblinn_gradient : forall junk jp nY p x, length p = (2 * nY)%nat -> 0 < x 0%nat ->
  gradient_at junk (retroblinn jp) nY p x.
Proof. exact retroblinn_gradient. Qed.
Print Assumptions C52_retroblinn_gradient.
(** Such a plugin is a leaf whose Jacobian is exact, as C27 asks for. *)
Theorem C52_plugin_in_a_tree : forall junk F pa mn mx p x, gradient_at junk F (dimY pa) p x -> length p = (f_k F * dimY pa)%nat ->
  leaf_gradient (leaf_of junk F pa mn mx) p x.
Proof. exact leaf_gradient_of. Qed.
Print Assumptions C52_plugin_in_a_tree.

(** ** C53: Schlick's Fresnel factor *)
(** in whatever parametrization the object was created with, wherever the
    conversions to half vector and Cartesian coordinates are defined *)
Theorem C53_schlick_gradient : forall junk ip nY p x h c, length p = nY ->
  convert x ip RUSIN_VH (fun _ => 0) = Ok h -> convert x ip CARTESIAN (fun _ => 0) = Ok c ->
  gradient_at junk (schlick ip) nY p x.
Proof. exact schlick_gradient. Qed.
Print Assumptions C53_schlick_gradient.
(** for two directions it is Schlick's formula in the cosine between direction
    and half vector, which for unit vectors v, l is sqrt ((1 + v.l) / 2) *)
Theorem C53_schlick_value : forall junk nY p x, length p = nY -> has_half x ->
  gradient_at junk (schlick CARTESIAN) nY p x /\
  value_is junk (schlick CARTESIAN) nY p x (fun y => nth y p 0 + (1 - nth y p 0) * (1 - Rmax (Rmin (cos_vh x) 1) 0) ^ 5).
Proof. exact schlick_cartesian. Qed.
Print Assumptions C53_schlick_value.
Theorem C53_half_cosine : forall x, 0 < hlen x -> x 0%nat * x 0%nat + x 1%nat * x 1%nat + x 2%nat * x 2%nat = 1 ->
  x 3%nat * x 3%nat + x 4%nat * x 4%nat + x 5%nat * x 5%nat = 1 ->
  0 < cos_vh x <= 1 /\ cos_vh x * cos_vh x = (1 + (x 0%nat * x 3%nat + x 1%nat * x 4%nat + x 2%nat * x 5%nat)) / 2.
Proof. exact cos_vh_square. Qed.
Print Assumptions C53_half_cosine.
(** between R0 and 1, R0 at normal incidence, 1 at grazing incidence,
    decreasing in the cosine *)
Theorem C53_schlick_range : forall junk nY p x y, length p = nY -> has_half x -> (y < nY)%nat -> nth y p 0 <= 1 ->
  let f := component (value_at junk (schlick CARTESIAN) nY p x) y in
  nth y p 0 <= f <= 1 /\ (1 <= cos_vh x -> f = nth y p 0) /\ (cos_vh x <= 0 -> f = 1) /\
  (forall x', has_half x' -> cos_vh x <= cos_vh x' -> component (value_at junk (schlick CARTESIAN) nY p x') y <= f).
Proof.
  intros junk nY p x y Hp Hx Hy Hr.
  assert (V : forall x, has_half x -> component (value_at junk (schlick CARTESIAN) nY p x) y = nth y p 0 + (1 - nth y p 0) * (1 - Rmax (Rmin (cos_vh x) 1) 0) ^ 5).
  { intros z Hz. destruct (schlick_cartesian junk nY p z Hp Hz) as (_ & v & E & _ & N). rewrite E. cbn [component]. apply N, Hy. }
  cbv zeta. rewrite (V x Hx). split; [apply fresnel_range, Hr|]. split; [apply fresnel_normal|]. split; [apply fresnel_grazing|].
  intros x' Hx' H. rewrite (V x' Hx'). apply fresnel_decreases; assumption.
Qed.
Print Assumptions C53_schlick_range.

(** ** C54: ABC *)
Theorem C54_abc_gradient : forall junk nY p x, length p = (3 * nY)%nat -> 0 <= x 0%nat <= 1 ->
  (forall y, (y < nY)%nat -> 0 < 1 + par abc p y 1 * (1 - x 0%nat)) -> gradient_at junk abc nY p x.
Proof. exact abc_gradient. Qed.
Print Assumptions C54_abc_gradient.
Theorem C54_abc_value : forall junk nY p x, length p = (3 * nY)%nat -> 0 <= x 0%nat <= 1 ->
  value_is junk abc nY p x (fun y => par abc p y 0 / Rpower (1 + par abc p y 1 * (1 - x 0%nat)) (par abc p y 2)).
Proof. exact abc_value. Qed.
Print Assumptions C54_abc_value.
(** Outside, where no pair of directions leads, the value is 0 but the derivative
    in a is not. *)
Theorem C54_outside_refuted : forall junk nY p x y, length p = (3 * nY)%nat -> x 0%nat < 0 \/ 1 < x 0%nat -> (y < nY)%nat ->
  value_is junk abc nY p x (fun _ => 0) /\ ~ partial_exact junk abc nY p x y (y * 3 + 0).
Proof. intros junk nY p x y Hp Hx Hy. split; [apply abc_outside; assumption|apply abc_outside_jac; assumption]. Qed.
Print Assumptions C54_outside_refuted.

(** ** C55: Ward *)
Theorem C55_ward_value : forall junk nY p x, length p = (3 * nY)%nat -> has_half x -> 0 < x 2%nat * x 5%nat ->
  value_is junk ward nY p x (fun y => par ward p y 0 / (4 * PI * par ward p y 1 * par ward p y 2 * sqrt (x 2%nat * x 5%nat)) * ward_exp x (par ward p y 1) (par ward p y 2)).
Proof. exact ward_value. Qed.
Print Assumptions C55_ward_value.
Theorem C55_ward_ks : forall junk nY p x y, length p = (3 * nY)%nat -> has_half x -> 0 < x 2%nat * x 5%nat -> halfway x 2 <> 0 -> (y < nY)%nat ->
  par ward p y 1 <> 0 -> par ward p y 2 <> 0 -> partial_exact junk ward nY p x y (y * 3 + 0).
Proof. exact ward_ks_exact. Qed.
Print Assumptions C55_ward_ks.
(** A roughness derivative is exact on a coincidence set only: *)
Theorem C55_ward_roughness : forall junk nY p x y l, length p = (3 * nY)%nat -> has_half x -> 0 < x 2%nat * x 5%nat -> halfway x 2 <> 0 -> (y < nY)%nat ->
  par ward p y 0 <> 0 -> par ward p y 1 <> 0 -> par ward p y 2 <> 0 -> (l = 1 \/ l = 2)%nat ->
  let E := ward_exp x (par ward p y 1) (par ward p y 2) in let h := halfway x (l - 1) in
  (partial_exact junk ward nY p x y (y * 3 + l) <->
   2 * h * (h / par ward p y l) / halfway x 2 * E - 1 = E * (2 * (h / par ward p y l * (h / par ward p y l)) / (halfway x 2 * halfway x 2) - 1)).
Proof. exact ward_exact. Qed.
Print Assumptions C55_ward_roughness.
(** it never is when the half vector leans across the corresponding axis *)
Theorem C55_ward_roughness_refuted : forall junk nY p x y, length p = (3 * nY)%nat -> has_half x -> 0 < x 2%nat * x 5%nat -> halfway x 2 <> 0 -> (y < nY)%nat ->
  par ward p y 0 <> 0 -> par ward p y 1 <> 0 -> par ward p y 2 <> 0 -> halfway x 0 = 0 ->
  (partial_exact junk ward nY p x y (y * 3 + 1) <-> halfway x 1 = 0).
Proof.
  intros junk nY p x y Hp Hx Hz H2 Hy Hk Ha Hb H0.
  rewrite (ward_exact junk nY p x y 1 Hp Hx Hz H2 Hy Hk Ha Hb (or_introl eq_refl)). cbn [Nat.sub]. unfold ward_exp. rewrite H0.
  set (ax := par ward p y 1) in *. set (ay := par ward p y 2) in *. set (h1 := halfway x 1). set (h2 := halfway x 2) in *.
  replace (0 / ax * (0 / ax) + h1 / ay * (h1 / ay)) with (h1 / ay * (h1 / ay)) by (unfold Rdiv; ring).
  split.
  - intros E. set (e := exp (- (h1 / ay * (h1 / ay) / (h2 * h2)))) in *.
    assert (E1 : e = 1). { unfold Rdiv in E. rewrite !Rmult_0_l, !Rmult_0_r, !Rmult_0_l in E. lra. }
    unfold e in E1. rewrite <- exp_0 in E1. apply exp_inv in E1.
    assert (Q : h1 / ay * (h1 / ay) = 0).
    { apply (Rmult_eq_reg_r (/ (h2 * h2))); [unfold Rdiv in *; lra|]. apply Rinv_neq_0_compat, Rmult_integral_contrapositive_currified; assumption. }
    assert (Q2 : h1 / ay = 0) by (apply Rmult_integral in Q; tauto). unfold Rdiv in Q2. apply Rmult_integral in Q2.
    destruct Q2 as [Q2|Q2]; [exact Q2|]. exfalso. revert Q2. apply Rinv_neq_0_compat. exact Hb.
  - intros ->. replace (- (0 / ay * (0 / ay) / (h2 * h2))) with 0 by (unfold Rdiv; ring). rewrite exp_0. unfold Rdiv. ring.
Qed.
Print Assumptions C55_ward_roughness_refuted.

(** ** C56: Beckmann *)
Theorem C56_beckmann_value : forall junk nY p x, length p = (2 * nY)%nat -> has_half x -> 0 < halfway x 2 -> 0 < x 2%nat * x 5%nat ->
  value_is junk beckmann nY p x (fun y => beckmann_formula (halfway x 2) (par beckmann p y 0) (par beckmann p y 1)).
Proof. exact beckmann_value_is. Qed.
Print Assumptions C56_beckmann_value.
Theorem C56_below_horizon : forall junk nY p x, length p = (2 * nY)%nat -> has_half x -> halfway x 2 <= 0 \/ x 2%nat * x 5%nat <= 0 ->
  value_is junk beckmann nY p x (fun _ => 0) /\ gradient_at junk beckmann nY p x.
Proof. exact beckmann_below. Qed.
Print Assumptions C56_below_horizon.
Theorem C56_beckmann_derivatives : forall junk nY p x y, length p = (2 * nY)%nat -> has_half x -> 0 < halfway x 2 -> 0 < x 2%nat * x 5%nat -> (y < nY)%nat ->
  par beckmann p y 1 <> 0 ->
  partial_exact junk beckmann nY p x y (y * 2 + 0) /\
  (partial_exact junk beckmann nY p x y (y * 2 + 1) <->
   par beckmann p y 0 = 0 \/ halfway x 2 = 1 \/
   par beckmann p y 1 * par beckmann p y 1 * (halfway x 2 * halfway x 2) = 1 - halfway x 2 * halfway x 2).
Proof. exact beckmann_exact. Qed.
Print Assumptions C56_beckmann_derivatives.
(** retro Beckmann without the back parametrization: the "cosine" is
    x0 x3 + x2 x4 + x2 x5 *)
Theorem C56_retro_value : forall junk nY p x, length p = (2 * nY)%nat -> 0 < retro_dot x ->
  value_is junk (retrobeckmann false) nY p x (fun y => beckmann_formula (retro_dot x) (par beckmann p y 0) (par beckmann p y 1)).
Proof. exact retro_value. Qed.
Print Assumptions C56_retro_value.

(** ** C57: diffuse *)
(** Without weights: the least value of the channel, capped by DBL_MAX. *)
Theorem C57_minimum : forall maxv ip dX nY rows kd, length kd = nY -> Forall (fun r => length r = (dX + nY)%nat) rows ->
  exists kd', diffuse_bootstrap maxv false false ip dX nY rows kd = Ok kd' /\ length kd' = nY /\
    forall j, (j < nY)%nat -> least maxv (fun r => Some (nth (dX + j) r 0)) rows (nth j kd' 0).
Proof. exact diffuse_plain. Qed.
Print Assumptions C57_minimum.
(** With cosine weights: over all samples but the first, the least quotient of
    value and cosine among those with a positive cosine. *)
Theorem C57_weighted_minimum : forall maxv ip dX nY rows kd, length kd = nY ->
  Forall (fun r => length r = (dX + nY)%nat /\ exists c, convert (row_mem r) ip CARTESIAN (fun _ => 0) = Ok c) rows ->
  exists kd', diffuse_bootstrap maxv false true ip dX nY rows kd = Ok kd' /\ length kd' = nY /\
    forall j, (j < nY)%nat -> least maxv (scaled ip dX j) (tl rows) (nth j kd' 0).
Proof. exact diffuse_weighted. Qed.
Print Assumptions C57_weighted_minimum.
(** so the first sample may lie below the starting point *)
Theorem C57_first_sample_refuted : forall maxv ip dX r kd, length kd = 1%nat -> length r = (dX + 1)%nat ->
  (exists c, convert (row_mem r) ip CARTESIAN (fun _ => 0) = Ok c) ->
  diffuse_bootstrap maxv false true ip dX 1 [r] kd = Ok [maxv].
Proof.
  intros maxv ip dX r kd Hk Hr Hc.
  destruct (diffuse_weighted maxv ip dX 1 [r] kd Hk) as (k & E & L & N); [constructor; [split; assumption|constructor]|].
  rewrite E. destruct k as [|a [|]]; try discriminate. destruct (N 0%nat ltac:(lia)) as (_ & _ & [Q|(r' & [] & _)]). cbn in Q. subst a. reflexivity.
Qed.
Print Assumptions C57_first_sample_refuted.
(** --bootstrap ends the process; otherwise the value is the constant found. *)
Example C57_argument_aborts : forall maxv w ip dX nY rows kd, diffuse_bootstrap maxv true w ip dX nY rows kd = Abort.
Proof. reflexivity. Qed.
Theorem C57_constant : forall nY kd junk, length kd = nY -> diffuse_value nY kd junk = Ok kd.
Proof. exact diffuse_value_ok. Qed.
Print Assumptions C57_constant.

(** ** C71: the other Fresnel factors *)
Theorem C71_retro_schlick_gradient : forall junk nY p x k c, length p = nY ->
  convert x CARTESIAN SCHLICK_VK (fun _ => 0) = Ok k -> convert x CARTESIAN CARTESIAN (fun _ => 0) = Ok c ->
  gradient_at junk retro_schlick nY p x.
Proof. exact retro_schlick_gradient. Qed.
Print Assumptions C71_retro_schlick_gradient.
Theorem C71_normalized_unusable_refuted : forall junk nY p x, (0 < nY)%nat ->
  value_at junk normalized_schlick nY p x = Abort /\ jacobian_at junk normalized_schlick nY p x = Abort.
Proof. exact normalized_schlick_dead. Qed.
Print Assumptions C71_normalized_unusable_refuted.

(** ** Cases *)
Definition dirs (l : list R) : mem := fun i => nth i l 0.
(** v = (0, 3/5, 4/5), l = (0, 0, 1) *)
Definition lean : mem := dirs [0; 3 / 5; 4 / 5; 0; 0; 1].
Example lean_half : has_half lean /\ 0 < lean 2%nat * lean 5%nat /\ halfway lean 0 = 0 /\ halfway lean 1 <> 0 /\ 0 < halfway lean 2 /\ halfway lean 2 <> 1.
Proof.
  assert (H : hlen lean * hlen lean = 18 / 5 /\ 0 < hlen lean).
  { unfold hlen, hsum, lean, dirs. cbn [nth Nat.add]. split; [rewrite sqrt_sqrt; lra|apply sqrt_lt_R0; lra]. }
  destruct H as [Hs Hp]. assert (Q1 : hsum lean 1 = 3 / 5) by (unfold hsum, lean, dirs; cbn; lra). assert (Q2 : hsum lean 2 = 9 / 5) by (unfold hsum, lean, dirs; cbn; lra).
  assert (Q0 : hsum lean 0 = 0) by (unfold hsum, lean, dirs; cbn; lra).
  unfold has_half, halfway. rewrite Q0, Q1, Q2. split; [lra|]. split; [unfold lean, dirs; cbn; lra|]. split; [unfold Rdiv; ring|].
  pose proof (Rinv_0_lt_compat _ Hp). unfold Rdiv at 1 3 5. split; [nra|]. split; [nra|].
  intros E. assert (E2 : hlen lean = 9 / 5). { apply (Rmult_eq_reg_r (/ hlen lean)); [|lra]. rewrite Rinv_r by lra. lra. } rewrite E2 in Hs. lra.
Qed.
(** there neither Ward's nor Beckmann's roughness derivative is right for unit parameters *)
Example C55_case : ~ partial_exact 0 ward 1 [1; 1; 1] lean 0 1.
Proof.
  destruct lean_half as (H1 & H2 & H3 & H4 & H5 & _).
  rewrite (C55_ward_roughness_refuted 0 1 [1; 1; 1] lean 0 eq_refl H1 H2 (Rgt_not_eq _ _ H5) ltac:(lia) R1_neq_R0 R1_neq_R0 R1_neq_R0 H3).
  exact H4.
Qed.
Example C56_case : ~ partial_exact 0 beckmann 1 [1; 1] lean 0 1.
Proof.
  destruct lean_half as (H1 & H2 & H3 & H4 & H5 & H6).
  destruct (C56_beckmann_derivatives 0 1 [1; 1] lean 0 eq_refl H1 H5 H2 ltac:(lia) R1_neq_R0) as [_ E].
  change (0 * 2 + 1)%nat with 1%nat in E. rewrite E. unfold par. cbn [f_k beckmann nth Nat.mul Nat.add]. intros [C|[C|C]]; [lra|contradiction|].
  assert (Hs : hlen lean * hlen lean = 18 / 5 /\ 0 < hlen lean).
  { unfold hlen, hsum, lean, dirs. cbn [nth Nat.add]. split; [rewrite sqrt_sqrt; lra|apply sqrt_lt_R0; lra]. }
  assert (Q : halfway lean 2 * halfway lean 2 = 9 / 10).
  { unfold halfway. replace (hsum lean 2) with (9 / 5) by (unfold hsum, lean, dirs; cbn; lra). destruct Hs as [Hs Hp].
    replace (9 / 5 / hlen lean * (9 / 5 / hlen lean)) with (81 / 25 / (hlen lean * hlen lean)) by (field; lra). rewrite Hs. lra. }
  lra.
Qed.
Example C53_case : exists v, value_at 0 (schlick CARTESIAN) 1 [1 / 2] lean = Ok v.
Proof. destruct (C53_schlick_value 0 1 [1 / 2] lean eq_refl (proj1 lean_half)) as (_ & v & E & _). exists v. exact E. Qed.
(** a Blinn lobe and an ABC lobe in two channels *)
Example C52_case : gradient_at 0 blinn 2 [1; 10; 2; 20] (dirs [9 / 10]).
Proof. apply C52_blinn_gradient. reflexivity. Qed.
Example C54_case : gradient_at 0 abc 2 [1; 2; 3; 4; 5; 6] (dirs [9 / 10]).
Proof.
  apply C54_abc_gradient; [reflexivity|unfold dirs; cbn; lra|]. intros y Hy. unfold par, dirs. cbn [f_k abc nth].
  destruct y as [|[|y]]; [| |lia]; cbn; lra.
Qed.
(** retro Beckmann gives a "cosine" above 1 to v = l = (0, 3/5, 4/5) *)
Example C56_retro_case : retro_dot (dirs [0; 3 / 5; 4 / 5; 0; 3 / 5; 4 / 5]) = 112 / 100.
Proof. unfold retro_dot, dirs. cbn [nth]. rewrite Rmax_left; lra. Qed.
(** two samples of one channel over one angle *)
Example C57_case : exists k, diffuse_bootstrap 1000 false false COS_TH 1 1 [[1 / 2; 3]; [1; 2]] [0] = Ok [k] /\ k = 2.
Proof.
  destruct (C57_minimum 1000 COS_TH 1 1 [[1 / 2; 3]; [1; 2]] [0] eq_refl) as (k & E & L & N); [repeat constructor|].
  destruct k as [|a [|]]; try discriminate. exists a. split; [exact E|].
  destruct (N 0%nat ltac:(lia)) as (A & B & C). cbn [nth Nat.add] in *.
  pose proof (B [1; 2] 2 (or_intror (or_introl eq_refl)) eq_refl). 
  destruct C as [C|(r & [<-|[<-|[]]] & C)]; [lra| |]; injection C as C; cbn in C; lra.
Qed.

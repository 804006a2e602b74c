(** Unit-length results and the half-vector geometry (C04, C05). *)
From Coq Require Import Lra Psatz Nsatz.
From Verif Require Import Base ParamsModel ParamsProofs GeoModel GeoProofs GeoSpec.
Open Scope R_scope.

Lemma sum_sq_nonneg x y : 0 <= x * x + y * y.
Proof. nra. Qed.

Lemma sqrt_sum_sq x y : sqrt (x * x + y * y) * sqrt (x * x + y * y) = x * x + y * y.
Proof. apply sqrt_ss, sum_sq_nonneg. Qed.

(** (x,y)/|..| is a point of the unit circle. *)
Lemma polar_unit x y : let r := sqrt (x * x + y * y) in 0 < r -> x / r * (x / r) + y / r * (y / r) = 1.
Proof.
  intros r Hr. pose proof (sqrt_sum_sq x y) as H. fold r in H.
  replace (x / r * (x / r) + y / r * (y / r)) with ((x * x + y * y) / (r * r)) by (field; lra).
  rewrite H. field. nra.
Qed.

Lemma sqrt_not_pos_zero x y : ~ 0 < sqrt (x * x + y * y) -> x = 0 /\ y = 0.
Proof.
  intros H. pose proof (sqrt_pos (x * x + y * y)) as H1.
  assert (sqrt (x * x + y * y) = 0) as E by lra.
  pose proof (sqrt_sum_sq x y) as H2. rewrite E in H2. nra.
Qed.

Lemma proj_unit x y : let t := sqrt (x * x + y * y) in
  unit3 (if Rlt_dec 0 t then x / t * sin t else 0) (if Rlt_dec 0 t then y / t * sin t else 0) (cos t).
Proof.
  intros t. unfold unit3. destruct (Rlt_dec 0 t) as [Ht|Ht].
  - pose proof (polar_unit x y Ht) as H. fold t in H. pose proof (sc t) as H1.
    set (a := x / t) in *; set (b := y / t) in *; clearbody a b.
    set (s := sin t) in *; set (c := cos t) in *; clearbody s c. nsatz.
  - assert (t = 0) as -> by (pose proof (sqrt_pos (x * x + y * y)); fold t in H; lra).
    rewrite cos_0; ring.
Qed.

Lemma classical_unit a b c d m : two_units (assign (classical_to_cartesian a b c d) m).
Proof.
  unfold two_units, unit3; cbn. pose proof (sc a); pose proof (sc b); pose proof (sc c); pose proof (sc d).
  set (sa := sin a) in *; set (ca := cos a) in *; set (sb := sin b) in *; set (cb := cos b) in *;
  set (s3 := sin c) in *; set (c3 := cos c) in *; set (s4 := sin d) in *; set (c4 := cos d) in *.
  clearbody sa ca sb cb s3 c3 s4 c4. split; nsatz.
Qed.

Lemma one_minus_sq c : -1 <= c <= 1 -> sqrt (1 - c * c) * sqrt (1 - c * c) = 1 - c * c.
Proof. intros H; apply sqrt_ss; nra. Qed.

(** atan2 recovers the direction. *)
Lemma cos_atan_pos u : cos (atan u) = / sqrt (1 + u * u).
Proof. rewrite cos_atan; unfold Rsqr; field. pose proof (sqrt_lt_R0 (1 + u * u)); nra. Qed.
Lemma sin_atan_pos u : sin (atan u) = u / sqrt (1 + u * u).
Proof. rewrite sin_atan; unfold Rsqr; reflexivity. Qed.

Lemma sqrt_quot x y : x <> 0 -> sqrt (1 + y / x * (y / x)) = sqrt (x * x + y * y) / Rabs x.
Proof.
  intros Hx. replace (1 + y / x * (y / x)) with ((x * x + y * y) / (x * x)) by (field; assumption).
  rewrite sqrt_div_alt by nra. f_equal. apply sqrt_Rsqr_abs.
Qed.

Lemma atan2_polar y x : let r := sqrt (x * x + y * y) in
  r * cos (atan2 y x) = x /\ r * sin (atan2 y x) = y.
Proof.
  intros r. unfold atan2.
  assert (Hr : x <> 0 -> 0 < r) by (intros Hx; apply sqrt_lt_R0; nra).
  destruct (Rlt_dec 0 x) as [Hx|Hx].
  - rewrite cos_atan_pos, sin_atan_pos, sqrt_quot by lra. fold r.
    rewrite Rabs_right by lra. specialize (Hr ltac:(lra)). split; field; lra.
  - destruct (Rlt_dec x 0) as [Hx'|Hx'].
    + specialize (Hr ltac:(lra)).
      assert (Hc : cos (atan (y / x)) = - x / r).
      { rewrite cos_atan_pos, sqrt_quot by lra. fold r. rewrite Rabs_left by lra. field; lra. }
      assert (Hs : sin (atan (y / x)) = - y / r).
      { rewrite sin_atan_pos, sqrt_quot by lra. fold r. rewrite Rabs_left by lra. field; lra. }
      destruct (Rle_dec 0 y).
      * rewrite neg_cos, neg_sin, Hc, Hs. split; field; lra.
      * unfold Rminus. rewrite cos_plus, sin_plus, cos_neg, sin_neg, cos_PI, sin_PI, Hc, Hs.
        split; field; lra.
    + assert (x = 0) as -> by lra. 
      assert (r = Rabs y) as ->.
      { unfold r. replace (0 * 0 + y * y) with (Rsqr y) by (unfold Rsqr; ring). apply sqrt_Rsqr_abs. }
      destruct (Rlt_dec 0 y).
      * rewrite cos_PI2, sin_PI2, Rabs_right by lra. lra.
      * destruct (Rlt_dec y 0).
        -- rewrite cos_neg, sin_neg, cos_PI2, sin_PI2, Rabs_left by lra. lra.
        -- assert (y = 0) as -> by lra. rewrite Rabs_R0. lra.
Qed.

(** H and B of STARK_3D are orthogonal. *)
Lemma stark_theta Hz k : let T := atan2 (- Hz) k in k * sin T + Hz * cos T = 0.
Proof.
  intros T. destruct (atan2_polar (- Hz) k) as [Hc Hs]. fold T in Hc, Hs.
  set (r := sqrt (k * k + - Hz * - Hz)) in *.
  destruct (Req_dec r 0) as [Hr|Hr].
  - rewrite Hr in Hc, Hs. assert (Ek : k = 0) by lra. assert (Ez : Hz = 0) by lra. rewrite Ek, Ez at 1; ring.
  - apply (Rmult_eq_reg_l r); [|assumption].
    transitivity (k * (r * sin T) + Hz * (r * cos T)); [ring|]. rewrite Hc, Hs. ring.
Qed.

Lemma retro_unit cl sl cvl svl cp sp :
  sl * sl + cl * cl = 1 -> svl * svl + cvl * cvl = 1 ->
  (cp * cp + sp * sp = 1 \/ (svl = 0 /\ cp = 0 /\ sp = 0)) ->
  let cv := cl * cvl + cp * sl * svl in
  let sv := sqrt (1 - Rmin (cv * cv) 1) in
  let sd := svl * sp / sv in
  unit3 (if Req_EM_T sv 0 then 0 else sv * sqrt (1 - Rmin (sd * sd) 1))
        (if Req_EM_T sv 0 then 0 else sv * sd) cv.
Proof.
  intros Hl Hvl Hp cv sv sd. unfold unit3.
  assert (Hsv : svl * sp * (svl * sp) <= 1 - cv * cv).
  { unfold cv. destruct Hp as [Hp|(-> & -> & ->)]; [|nra].
    (* 1 - cv^2 - svl^2 sp^2 = (sl cvl - cl cp svl)^2 *)
    assert (E : 1 - (cl * cvl + cp * sl * svl) * (cl * cvl + cp * sl * svl) - svl * sp * (svl * sp)
       = (sl * cvl - cl * cp * svl) * (sl * cvl - cl * cp * svl)) by nsatz.
    pose proof (Rle_0_sqr (sl * cvl - cl * cp * svl)) as Hq; unfold Rsqr in Hq. lra. }
  assert (Hcv : cv * cv <= 1) by nra.
  assert (E : sv = sqrt (1 - cv * cv)) by (unfold sv; rewrite Rmin_left by lra; reflexivity).
  assert (Esv : sv * sv = 1 - cv * cv) by (rewrite E; apply sqrt_ss; lra).
  destruct (Req_EM_T sv 0) as [H0|H0].
  - rewrite H0 in Esv. lra.
  - assert (Hsd : sd * sd <= 1).
    { unfold sd. replace (svl * sp / sv * (svl * sp / sv)) with (svl * sp * (svl * sp) / (sv * sv)) by (field; assumption).
      apply (Rmult_le_reg_r (sv * sv)); [nra|].
      replace (svl * sp * (svl * sp) / (sv * sv) * (sv * sv)) with (svl * sp * (svl * sp)) by (field; assumption).
      rewrite Esv; lra. }
    rewrite Rmin_left by assumption.
    pose proof (sqrt_ss (1 - sd * sd) ltac:(lra)) as Hq.
    set (q := sqrt (1 - sd * sd)) in *. clearbody q sd. clear E.
    transitivity (sv * sv * (q * q + sd * sd) + cv * cv); [ring|]. rewrite Hq. 
    transitivity (sv * sv + cv * cv); [ring|]. rewrite Esv; ring.
Qed.

Lemma reflect_unit Kx Ky Kz s c : Kx * Kx + Ky * Ky + Kz * Kz = 1 -> s * s + c * c = 1 ->
  let d := c * Kz - s * Kx in
  unit3 (2 * d * Kx + s) (2 * d * Ky) (2 * d * Kz - c).
Proof.
  intros HK Hs d. unfold unit3.
  transitivity (4 * d * d * (Kx * Kx + Ky * Ky + Kz * Kz) + 4 * d * (s * Kx - c * Kz) + (s * s + c * c)); [ring|].
  rewrite HK, Hs. unfold d. ring.
Qed.

Ltac o6 := unfold six; cbn [assign]; unfold upd; cbn [Nat.eqb].

Lemma to_unit p v out out' : angular p = true -> domain p v ->
  to_cartesian v p out = Ok out' -> two_units out'.
Proof.
  intros Ha Hd H. unfold to_cartesian in H.
  destruct p; try discriminate Ha; cbn [to_cartesian_writes] in H; cbn [domain] in Hd;
    try (injection H as <-; exact (half_unit _ _ _ _ out)).
  - (* SCHLICK_TL_TK_PROJ_DPHI *)
    injection H as <-. unfold two_units; o6.
    pose proof (proj_unit (v 1%nat) (v 2%nat)) as Hk. cbv zeta in Hk.
    split; [apply reflect_unit; [exact Hk|apply sc]|].
    unfold unit3. pose proof (sc (v 0%nat)). lra.
  - (* RETRO *)
    injection H as <-. unfold two_units; o6. split.
    + apply retro_unit.
      * apply sc.
      * apply sc.
      * set (t := sqrt (v 1%nat * v 1%nat + v 2%nat * v 2%nat)).
        destruct (Rlt_dec 0 t) as [Ht|Ht]; [left|right].
        -- apply (polar_unit (v 1%nat) (v 2%nat) Ht).
        -- assert (t = 0) as -> by (pose proof (sqrt_pos (v 1%nat * v 1%nat + v 2%nat * v 2%nat)); unfold t in *; lra).
           rewrite sin_0; auto.
    + unfold unit3. pose proof (sc (v 0%nat)). lra.
  - (* SPHERICAL *)
    injection H as <-. unfold two_units, unit3; o6.
    pose proof (sc (v 0%nat)); pose proof (sc (v 1%nat)); pose proof (sc (v 2%nat)); pose proof (sc (v 3%nat)).
    set (sa := sin (v 0%nat)) in *; set (ca := cos (v 0%nat)) in *; set (sb := sin (v 1%nat)) in *;
    set (cb := cos (v 1%nat)) in *; set (s3 := sin (v 2%nat)) in *; set (c3 := cos (v 2%nat)) in *;
    set (s4 := sin (v 3%nat)) in *; set (c4 := cos (v 3%nat)) in *.
    clearbody sa ca sb cb s3 c3 s4 c4. split; nsatz.
  - injection H as <-. unfold two_units, unit3; o6. pose proof (one_minus_sq _ Hd). split; lra.
  - injection H as <-. unfold two_units, unit3; o6. pose proof (one_minus_sq _ Hd). split; lra.
  - injection H as <-; apply classical_unit.
  - injection H as <-. unfold two_units; o6. split; [apply proj_unit|unfold unit3; lra].
  - injection H as <-. unfold two_units; o6. split; [apply proj_unit|].
    unfold unit3; pose proof (sc (v 0%nat)); lra.
  - (* STARK_2D *)
    injection H as <-. unfold two_units, unit3; o6.
    destruct (Rle_dec (v 0%nat * v 0%nat + v 1%nat * v 1%nat) 1) as [_|n]; [|contradiction].
    rewrite Rmin_left by assumption.
    pose proof (sqrt_ss (1 - (v 0%nat * v 0%nat + v 1%nat * v 1%nat)) ltac:(lra)) as Hq.
    set (q := sqrt _) in *; clearbody q. split; nra.
  - (* STARK_3D *)
    injection H as <-. unfold two_units, unit3; o6.
    pose proof (sqrt_ss (1 - v 0%nat * v 0%nat - v 1%nat * v 1%nat) ltac:(lra)) as Hq.
    set (q := sqrt _) in *. pose proof (stark_theta q (v 0%nat * cos (v 2%nat))) as HT. cbv zeta in HT.
    set (T := atan2 (- q) (v 0%nat * cos (v 2%nat))) in *. clearbody q T.
    pose proof (sc T) as H1; pose proof (sc (v 2%nat)) as H2.
    set (a := v 0%nat) in *; set (b := v 1%nat) in *.
    set (s := sin T) in *; set (c := cos T) in *; set (sp := sin (v 2%nat)) in *; set (cp := cos (v 2%nat)) in *.
    clearbody a b s c sp cp. split; nsatz.
  - (* NEUMANN_2D *)
    injection H as <-. unfold two_units, unit3; o6.
    pose proof (sqrt_ss (1 - v 0%nat * v 0%nat - v 1%nat * v 1%nat) ltac:(lra)) as Hq.
    pose proof (sqrt_ss (1 - v 0%nat * v 0%nat - - v 1%nat * - v 1%nat) ltac:(nra)) as Hq2.
    split; lra.
  - (* NEUMANN_3D *)
    match type of H with context [if ?b then _ else _] => destruct b as [?|n1] end.
    { injection H as <-. unfold two_units, unit3; o6. lra. }
    match type of H with context [if ?b then _ else _] => destruct b as [?|n2] end.
    { injection H as <-. unfold two_units, unit3; o6. lra. }
    injection H as <-. unfold two_units, unit3; o6.
    match goal with |- context [sqrt ?x * sqrt ?x = _] => idtac | _ => idtac end.
    split; rewrite sqrt_ss by lra; lra.
Qed.

(** Three parametrizations whose vectors are not unit vectors. *)
Lemma non_unit_witnesses :
  (exists v out', -1 <= v 0%nat <= 1 /\ to_cartesian v COS_TK (fun _ => 0) = Ok out' /\ ~ two_units out') /\
  (exists v out', unit3 (v 0%nat) (v 1%nat) (v 2%nat) /\
      to_cartesian v SCHLICK_VK (fun _ => 0) = Ok out' /\ ~ two_units out') /\
  (exists v out', to_cartesian v STEREOGRAPHIC (fun _ => 0) = Ok out' /\ ~ two_units out').
Proof.
  split; [|split].
  - exists (fun _ => 1 / 2). eexists; split; [lra|split; [reflexivity|]].
    unfold two_units, unit3; o6. lra.
  - exists (fun i => match i with 0%nat => 3 / 5 | 1%nat => 0 | _ => 4 / 5 end).
    eexists; split; [unfold unit3; lra|split; [reflexivity|]].
    unfold two_units, unit3; o6. lra.
  - exists (fun _ => 0). eexists; split; [reflexivity|].
    unfold two_units, unit3; o6. lra.
Qed.

(** ** Half vector geometry (C05) *)
Lemma half_mirror th ph td pd m :
  let o := assign (half_to_cartesian th ph td pd) m in
  let hx := sin th * cos ph in let hy := sin th * sin ph in let hz := cos th in
  unit3 hx hy hz /\
  o 0%nat * hx + o 1%nat * hy + o 2%nat * hz = cos td /\
  o 3%nat * hx + o 4%nat * hy + o 5%nat * hz = cos td /\
  o 0%nat + o 3%nat = 2 * cos td * hx /\ o 1%nat + o 4%nat = 2 * cos td * hy /\
  o 2%nat + o 5%nat = 2 * cos td * hz.
Proof.
  cbn. unfold unit3.
  pose proof (sc th) as H1; pose proof (sc ph) as H2; pose proof (sc td) as H3; pose proof (sc pd) as H4.
  set (a := sin th) in *; set (b := cos th) in *; set (c := sin ph) in *; set (d := cos ph) in *;
  set (e := sin td) in *; set (f := cos td) in *; set (g := sin pd) in *; set (h := cos pd) in *.
  clearbody a b c d e f g h. repeat split; nsatz.
Qed.

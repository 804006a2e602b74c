(** Round trips through Cartesian coordinates (C06). *)
From Coq Require Import Lra Psatz Nsatz.
From Verif Require Import Base ParamsModel ParamsProofs GeoModel GeoProofs GeoUnit GeoSpec.
Open Scope R_scope.

(** ** atan2 *)
Lemma atan2_range y x : - PI < atan2 y x <= PI.
Proof.
  unfold atan2. pose proof (atan_bound (y / x)) as [H1 H2]. pose proof PI_RGT_0 as HP.
  destruct (Rlt_dec 0 x); [lra|].
  destruct (Rlt_dec x 0) as [Hx|Hx].
  - destruct (Rle_dec 0 y) as [Hy|Hy].
    + assert (y / x <= 0). { unfold Rdiv. pose proof (Rinv_lt_0_compat x Hx). nra. }
      assert (atan (y / x) <= 0).
      { rewrite <- atan_0. destruct (Req_dec (y / x) 0) as [->|]; [lra|].
        left. apply atan_increasing. lra. }
      lra.
    + assert (0 < y / x). { unfold Rdiv. pose proof (Rinv_lt_0_compat x Hx). nra. }
      assert (0 < atan (y / x)) by (rewrite <- atan_0; apply atan_increasing; lra).
      lra.
  - destruct (Rlt_dec 0 y); [lra|]. destruct (Rlt_dec y 0); lra.
Qed.

Lemma angle_unique a b : - PI < a <= PI -> - PI < b <= PI -> cos a = cos b -> sin a = sin b -> a = b.
Proof.
  intros Ha Hb Hc Hs.
  assert (E : cos (a - b) = 1).
  { rewrite cos_minus, Hc, Hs. pose proof (sc b). lra. }
  assert (S0 : sin ((a - b) / 2) = 0).
  { replace (a - b) with (2 * ((a - b) / 2)) in E by field.
    rewrite cos_2a_sin in E. nra. }
  destruct (Rtotal_order ((a - b) / 2) 0) as [H|[H|H]].
  - assert (0 < sin (- ((a - b) / 2))) by (apply sin_gt_0; lra).
    rewrite sin_neg in H0. lra.
  - lra.
  - assert (0 < sin ((a - b) / 2)) by (apply sin_gt_0; lra). lra.
Qed.

Lemma atan2_sincos r phi : 0 < r -> - PI < phi <= PI -> atan2 (r * sin phi) (r * cos phi) = phi.
Proof.
  intros Hr Hp.
  destruct (atan2_polar (r * sin phi) (r * cos phi)) as [Hc Hs].
  replace (r * cos phi * (r * cos phi) + r * sin phi * (r * sin phi)) with (r * r) in *
    by (transitivity (r * r * (sin phi * sin phi + cos phi * cos phi)); [rewrite sc|]; ring).
  rewrite (sqrt_square r) in * by lra.
  apply angle_unique; [apply atan2_range|assumption| |];
    apply (Rmult_eq_reg_l r); lra.
Qed.

Lemma atan2_0_nonneg x : 0 <= x -> atan2 0 x = 0.
Proof.
  intros H. unfold atan2. destruct (Rlt_dec 0 x).
  - unfold Rdiv; rewrite Rmult_0_l; apply atan_0.
  - destruct (Rlt_dec x 0); [lra|]. destruct (Rlt_dec 0 0); [lra|reflexivity].
Qed.

(** ** from_cartesian runs past its asserts *)
Lemma half_vector_range v : 0 <= v 2%nat + v 5%nat -> 0 <= snd (half_vector v) <= 1.
Proof.
  intros H. unfold half_vector. cbv zeta.
  set (a := v 0%nat + v 3%nat). set (b := v 1%nat + v 4%nat). set (c := v 2%nat + v 5%nat) in *.
  destruct (Rle_dec (a * a + b * b + c * c) 0) as [Hs|Hs]; cbn [snd]; [lra|].
  assert (Hq : 0 < sqrt (a * a + b * b + c * c)) by (apply sqrt_lt_R0; lra).
  split.
  - unfold Rdiv. pose proof (Rinv_0_lt_compat _ Hq). nra.
  - apply (Rmult_le_reg_r (sqrt (a * a + b * b + c * c))); [assumption|].
    unfold Rdiv. rewrite Rmult_assoc, Rinv_l, Rmult_1_r, Rmult_1_l by lra.
    apply Rsqr_incr_0_var; [|lra]. unfold Rsqr. rewrite sqrt_ss by nra. nra.
Qed.

Lemma from_ok v p out ws : 0 <= v 2%nat + v 5%nat -> from_cartesian_writes p v = Some ws ->
  from_cartesian v p out = Ok (assign ws out).
Proof.
  intros H E. unfold from_cartesian. pose proof (half_vector_range v H) as HR.
  destruct (half_vector v) as [[h0 h1] h2]; cbn in HR.
  destruct (Rle_dec h2 1); [|lra]. destruct (Rle_dec 0 h2); [|lra]. rewrite E. reflexivity.
Qed.

(** the half vector of a pair produced by half_to_cartesian *)
Lemma half_of_half th ph td pd m : 0 < cos td ->
  half_vector (assign (half_to_cartesian th ph td pd) m) = (sin th * cos ph, sin th * sin ph, cos th).
Proof.
  intros Hc. pose proof (half_mirror th ph td pd m) as H. cbv zeta in H.
  destruct H as (Hu & _ & _ & Ha & Hb & Hz). unfold half_vector. rewrite Ha, Hb, Hz. unfold unit3 in Hu.
  set (x := sin th * cos ph) in *; set (y := sin th * sin ph) in *; set (z := cos th) in *.
  assert (E : 2 * cos td * x * (2 * cos td * x) + 2 * cos td * y * (2 * cos td * y) +
     2 * cos td * z * (2 * cos td * z) = (2 * cos td) * (2 * cos td)).
  { transitivity (4 * cos td * cos td * (x * x + y * y + z * z)); [ring|rewrite Hu; ring]. }
  cbv zeta. rewrite E. destruct (Rle_dec (2 * cos td * (2 * cos td)) 0); [nra|].
  rewrite sqrt_square by lra. f_equal; [f_equal|]; field; lra.
Qed.

Lemma half_z th ph td pd m : 0 <= cos td -> 0 <= cos th ->
  let o := assign (half_to_cartesian th ph td pd) m in 0 <= o 2%nat + o 5%nat.
Proof.
  intros H1 H2 o. destruct (half_mirror th ph td pd m) as (_ & _ & _ & _ & _ & Hz).
  fold o in Hz. rewrite Hz. nra.
Qed.

Lemma half_dot th ph td pd m :
  let o := assign (half_to_cartesian th ph td pd) m in
  sin th * cos ph * o 0%nat + sin th * sin ph * o 1%nat + cos th * o 2%nat = cos td.
Proof.
  intros o. destruct (half_mirror th ph td pd m) as (_ & Hd & _). fold o in Hd. rewrite <- Hd. ring.
Qed.

(** rotating back into the half-vector frame gives the difference vector *)
Lemma half_rotate_back th ph td pd m :
  let o := assign (half_to_cartesian th ph td pd) m in
  rotate (o 0%nat, o 1%nat, o 2%nat) (- ph) (- th) = (sin td * cos pd, sin td * sin pd, cos td).
Proof.
  cbn. rewrite !cos_neg, !sin_neg.
  pose proof (sc th) as H1; pose proof (sc ph) as H2.
  set (a := sin th) in *; set (b := cos th) in *; set (c := sin ph) in *; set (d := cos ph) in *;
  set (e := sin td) in *; set (f := cos td) in *; set (g := sin pd) in *; set (h := cos pd) in *.
  clearbody a b c d e f g h. f_equal; [f_equal|]; nsatz.
Qed.

Lemma not_along td pd : 0 <= cos td <= 1 - / 10 ^ 14 ->
  alongside_z (sin td * cos pd, sin td * sin pd, cos td) = false.
Proof.
  intros [H0 H]. unfold alongside_z, is_zero, close_to.
  set (e := / 10 ^ 14) in *. assert (He : 0 < e < 1 / 1000) by (unfold e; lra).
  destruct (Rlt_dec (Rabs (cos td - 1)) e) as [Hc|_].
  { rewrite Rabs_left1 in Hc; lra. }
  rewrite orb_false_r.
  destruct (Rlt_dec (Rabs (sin td * cos pd - 0)) e) as [Ha|]; [|reflexivity].
  destruct (Rlt_dec (Rabs (sin td * sin pd - 0)) e) as [Hb|]; [|reflexivity].
  exfalso. rewrite Rminus_0_r in Ha, Hb.
  pose proof (sc td) as H1; pose proof (sc pd) as H2.
  assert (A : (sin td * cos pd) * (sin td * cos pd) <= e * e).
  { apply Rabs_def2 in Ha. nra. }
  assert (B : (sin td * sin pd) * (sin td * sin pd) <= e * e).
  { apply Rabs_def2 in Hb. nra. }
  assert (C : sin td * sin td <= 2 * e * e).
  { replace (sin td * sin td) with ((sin td * cos pd) * (sin td * cos pd) + (sin td * sin pd) * (sin td * sin pd)); [lra|].
    transitivity (sin td * sin td * (sin pd * sin pd + cos pd * cos pd)); [ring|rewrite H2; ring]. }
  nra.
Qed.

(** ** Domains and expected results *)

Lemma cos_lt_PI2 t : 0 <= t < PI / 2 -> 0 < cos t.
Proof. intros; apply cos_gt_0; pose proof PI_RGT_0; lra. Qed.
Lemma cos_le_PI2 t : 0 <= t <= PI / 2 -> 0 <= cos t.
Proof. intros; apply cos_ge_0; pose proof PI_RGT_0; lra. Qed.

Lemma acos_cos_q t : 0 <= t <= PI / 2 -> acos (cos t) = t.
Proof. intros; apply acos_cos; pose proof PI_RGT_0; lra. Qed.

Lemma sqrt_lt_PI x y : x * x + y * y < PI * PI -> 0 <= sqrt (x * x + y * y) < PI.
Proof.
  intros H. split; [apply sqrt_pos|]. pose proof PI_RGT_0.
  rewrite <- (sqrt_square PI) by lra. apply sqrt_lt_1; nra.
Qed.

(** polar decoding of a projected direction *)
Lemma proj_decode x y : x * x + y * y < PI * PI ->
  let t := sqrt (x * x + y * y) in
  let a := atan2 (if Rlt_dec 0 t then y / t * sin t else 0) (if Rlt_dec 0 t then x / t * sin t else 0) in
  acos (cos t) = t /\ t * cos a = x /\ t * sin a = y.
Proof.
  intros H t a. pose proof (sqrt_lt_PI x y H) as Ht. fold t in Ht.
  split; [apply acos_cos; lra|].
  unfold a. destruct (Rlt_dec 0 t) as [Hp|Hp].
  - assert (Hs : 0 < sin t) by (apply sin_gt_0; lra).
    destruct (atan2_polar (y / t * sin t) (x / t * sin t)) as [Hc' Hs'].
    pose proof (polar_unit x y Hp) as Hu. fold t in Hu.
    replace (x / t * sin t * (x / t * sin t) + y / t * sin t * (y / t * sin t)) with (sin t * sin t) in *
      by (transitivity (sin t * sin t * (x / t * (x / t) + y / t * (y / t))); [rewrite Hu|]; ring).
    rewrite sqrt_square in * by lra.
    set (A := atan2 _ _) in *. clearbody A.
    split; apply (Rmult_eq_reg_l (sin t)); try lra.
    + transitivity (t * (sin t * cos A)); [ring|]. rewrite Hc'. field; lra.
    + transitivity (t * (sin t * sin A)); [ring|]. rewrite Hs'. field; lra.
  - destruct (sqrt_not_pos_zero x y Hp) as [-> ->].
    assert (t = 0) as -> by lra. lra.
Qed.

Ltac dimlia H := exfalso; match type of H with (_ < ?d)%Z => let d' := eval vm_compute in d in change d with d' in H end; lia.
Ltac start := intros out1 out2; eexists; eexists; split; [reflexivity|]; split.
Ltac each1 := let i := fresh in let H := fresh in intros i H; destruct i as [|i]; [|dimlia H].
Ltac each2 := let i := fresh in let H := fresh in intros i H; destruct i as [|[|i]]; [| |dimlia H].
Ltac each3 := let i := fresh in let H := fresh in intros i H; destruct i as [|[|[|i]]]; [| | |dimlia H].
Ltac each4 := let i := fresh in let H := fresh in intros i H; destruct i as [|[|[|[|i]]]]; [| | | |dimlia H].
Ltac fw := unfold from_cartesian_writes;
  match goal with |- context [half_vector ?w] => destruct (half_vector w) as [[? ?] ?] end; reflexivity.
Ltac o6a := unfold six, classical_to_cartesian; cbn [assign app]; unfold upd; cbn [Nat.eqb].

Lemma rt_spherical v : rt_domain SPHERICAL_TL_PL_TV_PV v -> round_trip SPHERICAL_TL_PL_TV_PV v v.
Proof.
  intros (H0 & H1 & H2 & H3 & Hz). start.
  - apply from_ok; [o6a; lra|]. fw.
  - each4; o6a.
    + apply acos_cos; lra.
    + rewrite (Rmult_comm (sin _)), (Rmult_comm (cos _)). apply atan2_sincos; [apply sin_gt_0; lra|assumption].
    + apply acos_cos; lra.
    + rewrite (Rmult_comm (sin _)), (Rmult_comm (cos _)). apply atan2_sincos; [apply sin_gt_0; lra|assumption].
Qed.

Lemma rt_isotropic v : rt_domain ISOTROPIC_TV_TL_DPHI v -> round_trip ISOTROPIC_TV_TL_DPHI v v.
Proof.
  intros (H0 & H1 & H2 & Hz). start.
  - apply from_ok; [o6a; lra|]. fw.
  - each3; o6a.
    + apply acos_cos; lra.
    + apply acos_cos; lra.
    + rewrite sin_0, cos_0, Rmult_0_l, Rmult_1_l, (atan2_0_nonneg (sin (v 0%nat))) by (apply sin_ge_0; lra).
      rewrite (Rmult_comm (sin _)), (Rmult_comm (cos _)), atan2_sincos; [lra|apply sin_gt_0; lra|assumption].
Qed.

Lemma dim_conv p n i : dimension_in p = Z.of_nat n -> (Z.of_nat i < dimension_in p)%Z -> (i < n)%nat.
Proof. intros ->. lia. Qed.

Lemma rt_th_td v : rt_domain RUSIN_TH_TD v -> round_trip RUSIN_TH_TD v v.
Proof.
  intros (H0 & H1). pose proof (cos_lt_PI2 _ H1). pose proof (cos_le_PI2 _ H0). start.
  - apply from_ok; [apply half_z; lra|]. unfold from_cartesian_writes.
    rewrite half_of_half by assumption. reflexivity.
  - each2; o6a.
    + apply acos_cos_q; lra.
    + rewrite (half_dot (v 0%nat) 0 (v 1%nat) (1 / 2 * PI)).
      unfold clampR. pose proof (COS_bound (v 1%nat)).
      rewrite Rmin_left, Rmax_left by lra. apply acos_cos_q; lra.
Qed.

Lemma rt_th_ph_td v : rt_domain RUSIN_TH_PH_TD v -> round_trip RUSIN_TH_PH_TD v v.
Proof.
  intros (H0 & H1 & H2). pose proof (cos_lt_PI2 _ H2). pose proof (cos_le_PI2 (v 0%nat) ltac:(lra)).
  intros out1 out2; eexists; eexists; split; [reflexivity|]; split.
  - apply from_ok; [apply half_z; lra|]. unfold from_cartesian_writes.
    rewrite half_of_half by assumption. reflexivity.
  - (* the dimension of this unlisted parametrization is -1 *)
    intros i Hi. dimlia Hi.
Qed.

Lemma rt_th_ph_td_all v : rt_domain RUSIN_TH_PH_TD v ->
  forall out1 out2, exists t o, to_cartesian v RUSIN_TH_PH_TD out1 = Ok t /\
    from_cartesian t RUSIN_TH_PH_TD out2 = Ok o /\
    o 0%nat = v 0%nat /\ o 1%nat = v 1%nat /\ o 2%nat = v 2%nat.
Proof.
  intros (H0 & H1 & H2) out1 out2. pose proof (cos_lt_PI2 _ H2). pose proof (cos_le_PI2 (v 0%nat) ltac:(lra)).
  eexists; eexists; split; [reflexivity|]; split.
  - apply from_ok; [apply half_z; lra|]. unfold from_cartesian_writes.
    rewrite half_of_half by assumption. reflexivity.
  - o6a. split; [apply acos_cos_q; lra|split].
    + apply atan2_sincos; [apply sin_gt_0; pose proof PI_RGT_0; lra|assumption].
    + rewrite (half_dot (v 0%nat) (v 1%nat) (v 2%nat) 0). apply acos_cos_q; lra.
Qed.

Lemma rt_vh v : rt_domain RUSIN_VH v -> round_trip RUSIN_VH v v.
Proof.
  intros (Hu & Hz). unfold unit3 in Hu. assert (Hz1 : -1 <= v 2%nat <= 1) by nra.
  assert (E : sin (acos (v 2%nat)) = sqrt (v 0%nat * v 0%nat + v 1%nat * v 1%nat)).
  { rewrite sin_acos by lra. unfold Rsqr. f_equal. lra. }
  destruct (atan2_polar (v 1%nat) (v 0%nat)) as [Hc Hs].
  start.
  - apply from_ok.
    + apply half_z; [rewrite cos_0; lra|rewrite cos_acos; lra].
    + unfold from_cartesian_writes. rewrite half_of_half by (rewrite cos_0; lra). reflexivity.
  - each3; o6a; [rewrite E; assumption..|apply cos_acos; lra].
Qed.

Lemma rt_cos_th v : rt_domain COS_TH v -> round_trip COS_TH v v.
Proof.
  intros H. cbn in H. start.
  - apply from_ok.
    + apply half_z; [rewrite cos_0; lra|rewrite cos_acos; lra].
    + unfold from_cartesian_writes. rewrite half_of_half by (rewrite cos_0; lra). reflexivity.
  - each1; o6a. apply cos_acos; lra.
Qed.

Lemma rt_cos_th_td v : rt_domain COS_TH_TD v -> round_trip COS_TH_TD v v.
Proof.
  intros (H0 & H1). start.
  - apply from_ok.
    + apply half_z; rewrite cos_acos; lra.
    + unfold from_cartesian_writes. rewrite half_of_half by (rewrite cos_acos; lra). reflexivity.
  - each2; o6a; [apply cos_acos; lra|].
    rewrite (half_dot (acos (v 0%nat)) 0 (acos (v 1%nat)) 0). apply cos_acos; lra.
Qed.

Lemma rt_th_td_pd v : rt_domain RUSIN_TH_TD_PD v -> round_trip RUSIN_TH_TD_PD v v.
Proof.
  intros (H0 & H1 & Hf & H2). pose proof (cos_lt_PI2 _ H1). pose proof (cos_le_PI2 _ H0).
  pose proof PI_RGT_0 as HP.
  start.
  - apply from_ok; [apply half_z; lra|]. unfold from_cartesian_writes.
    rewrite half_of_half by assumption.
    rewrite sin_0, cos_0, Rmult_0_r, Rmult_1_r, (atan2_0_nonneg (sin (v 0%nat))) by (apply sin_ge_0; lra).
    rewrite acos_cos_q by lra.
    rewrite (half_rotate_back (v 0%nat) 0 (v 1%nat) (v 2%nat)). reflexivity.
  - each3; o6a.
    + reflexivity.
    + apply acos_cos_q; lra.
    + rewrite not_along by lra. apply atan2_sincos; [|assumption].
      apply sin_gt_0; [|lra]. destruct (Req_dec (v 1%nat) 0) as [E|]; [|lra].
      rewrite E, cos_0 in Hf. exfalso. lra.
Qed.

Lemma rt_th_ph_td_pd v : rt_domain RUSIN_TH_PH_TD_PD v -> round_trip RUSIN_TH_PH_TD_PD v v.
Proof.
  intros (H0 & Hph & H1 & Hf & H2). pose proof (cos_lt_PI2 _ H1). pose proof (cos_le_PI2 (v 0%nat) ltac:(lra)).
  pose proof PI_RGT_0 as HP.
  start.
  - apply from_ok; [apply half_z; lra|]. unfold from_cartesian_writes.
    rewrite half_of_half by assumption.
    rewrite acos_cos_q by lra.
    rewrite atan2_sincos by (try assumption; apply sin_gt_0; lra).
    rewrite (half_rotate_back (v 0%nat) (v 1%nat) (v 2%nat) (v 3%nat)), not_along by lra. reflexivity.
  - each4; o6a; [reflexivity|reflexivity|apply acos_cos_q; lra|].
    apply atan2_sincos; [|assumption].
    apply sin_gt_0; [|lra]. destruct (Req_dec (v 2%nat) 0) as [E|]; [|lra].
    rewrite E, cos_0 in Hf. exfalso. lra.
Qed.

Lemma rt_stark2 v : rt_domain STARK_2D v -> round_trip STARK_2D v v.
Proof.
  intros (H0 & H1 & Hs). start.
  - apply from_ok.
    + o6a. destruct (Rle_dec (v 0%nat * v 0%nat + v 1%nat * v 1%nat) 1); [|contradiction].
      pose proof (sqrt_pos (1 - Rmin (v 0%nat * v 0%nat + v 1%nat * v 1%nat) 1)). lra.
    + fw.
  - each2; o6a.
    + match goal with |- sqrt ?e = _ => replace e with (v 0%nat * v 0%nat) by (field) end.
      apply sqrt_square; assumption.
    + match goal with |- sqrt ?e = _ => replace e with (v 1%nat * v 1%nat) by (field) end.
      apply sqrt_square; assumption.
Qed.

Lemma rt_neumann2 v : rt_domain NEUMANN_2D v -> round_trip NEUMANN_2D v v.
Proof.
  intros (H0 & H1 & Hs). start.
  - apply from_ok.
    + o6a. match goal with |- _ <= sqrt ?a + sqrt ?b => pose proof (sqrt_pos a); pose proof (sqrt_pos b) end. lra.
    + fw.
  - each2; o6a.
    + match goal with |- sqrt ?e = _ => replace e with (v 0%nat * v 0%nat) by (field) end.
      apply sqrt_square; assumption.
    + match goal with |- sqrt ?e = _ => replace e with (v 1%nat * v 1%nat) by (field) end.
      apply sqrt_square; assumption.
Qed.

Lemma rt_tlv v : rt_domain COS_TLV v -> round_trip COS_TLV v v.
Proof.
  intros H. cbn in H. start.
  - apply from_ok; [o6a; lra|].
    fw.
  - each1; o6a. ring.
Qed.

Lemma rt_tlr v : -1 <= v 0%nat <= 1 -> round_trip COS_TLR v (fun i => - v i).
Proof.
  intros H. start.
  - apply from_ok; [o6a; lra|].
    fw.
  - each1; o6a. ring.
Qed.

Lemma rt_proj v : rt_domain ISOTROPIC_TV_PROJ_DPHI v -> round_trip ISOTROPIC_TV_PROJ_DPHI v v.
Proof.
  intros H. cbn in H. destruct (proj_decode _ _ H) as (Ha & Hc & Hs).
  start.
  - apply from_ok.
    + o6a. pose proof (COS_bound (sqrt (v 0%nat * v 0%nat + v 1%nat * v 1%nat))). lra.
    + fw.
  - each2; o6a; rewrite (atan2_0_nonneg 0), Rminus_0_r, Ha by lra; assumption.
Qed.

Lemma rt_cartesian v : rt_domain CARTESIAN v -> round_trip CARTESIAN v v.
Proof.
  intros H. cbn in H. start.
  - apply from_ok; [o6a; lra|].
    fw.
  - intros i Hi. do 6 (destruct i as [|i]; [reflexivity|]). dimlia Hi.
Qed.

Theorem round_trip_domain p v : rt_domain p v -> round_trip p v v.
Proof.
  destruct p; intros H; try contradiction H.
  - apply rt_th_ph_td_pd, H. 
  - apply rt_th_ph_td, H. 
  - apply rt_th_td_pd, H. 
  - apply rt_th_td, H. 
  - apply rt_vh, H. 
  - apply rt_cos_th_td, H. 
  - apply rt_cos_th, H. 
  - apply rt_spherical, H. 
  - apply rt_tlv, H. 
  - apply rt_isotropic, H. 
  - apply rt_proj, H. 
  - apply rt_stark2, H. 
  - apply rt_neumann2, H. 
  - apply rt_cartesian, H. 
Qed.

(** ** Parametrizations whose round trip flips a sign or shifts an azimuth *)

Lemma rt_tl_tv_proj v : 0 <= v 0%nat <= PI -> v 1%nat * v 1%nat + v 2%nat * v 2%nat < PI * PI ->
  0 <= cos (v 0%nat) + cos (sqrt (v 1%nat * v 1%nat + v 2%nat * v 2%nat)) ->
  round_trip ISOTROPIC_TL_TV_PROJ_DPHI v (flip_y v).
Proof.
  intros H0 H Hz. destruct (proj_decode _ _ H) as (Ha & Hc & Hs).
  start.
  - apply from_ok; [o6a; lra|]. 
    fw.
  - each3; o6a; unfold flip_y; cbn [Nat.eqb].
    + apply acos_cos; lra.
    + rewrite (atan2_0_nonneg (sin (v 0%nat))) by (apply sin_ge_0; lra).
      rewrite Ha, Rminus_0_l, cos_neg. assumption.
    + rewrite (atan2_0_nonneg (sin (v 0%nat))) by (apply sin_ge_0; lra).
      rewrite Ha, Rminus_0_l, sin_neg. rewrite Ropp_mult_distr_r_reverse. lra.
Qed.

Lemma atan2_scale k y x : 0 < k -> atan2 (k * y) (k * x) = atan2 y x.
Proof.
  intros Hk. unfold atan2.
  destruct (Rlt_dec 0 x), (Rlt_dec 0 (k * x)); try (exfalso; nra).
  - f_equal; field; lra.
  - destruct (Rlt_dec x 0), (Rlt_dec (k * x) 0); try (exfalso; nra).
    + destruct (Rle_dec 0 y), (Rle_dec 0 (k * y)); try (exfalso; nra); do 2 f_equal; field; lra.
    + destruct (Rlt_dec 0 y), (Rlt_dec 0 (k * y)); try (exfalso; nra); [reflexivity|].
      destruct (Rlt_dec y 0), (Rlt_dec (k * y) 0); try (exfalso; nra); reflexivity.
Qed.

(** direction K, with K.r > 0 for r = (-sin tl, 0, cos tl) *)
Lemma rt_schlick v : 0 <= v 0%nat <= PI ->
  let x := v 1%nat in let y := v 2%nat in let t := sqrt (x * x + y * y) in
  x * x + y * y <= PI * PI / 4 ->
  0 < cos (v 0%nat) * cos t - sin (v 0%nat) * (if Rlt_dec 0 t then x / t * sin t else 0) ->
  round_trip SCHLICK_TL_TK_PROJ_DPHI v (flip_y v).
Proof.
  intros H0 x y t H Hd. pose proof PI_RGT_0 as HP.
  destruct (proj_decode x y ltac:(nra)) as (Ha & Hc & Hs). fold t in Ha, Hc, Hs.
  pose proof (proj_unit x y) as Hu. cbv zeta in Hu. fold t in Hu.
  assert (Ht : 0 <= t <= PI / 2).
  { split; [apply sqrt_pos|]. unfold t. rewrite <- (sqrt_square (PI / 2)) by lra. apply sqrt_le_1; nra. }
  pose proof (cos_le_PI2 t Ht) as Hct.
  set (Kx := if Rlt_dec 0 t then x / t * sin t else 0) in *.
  set (Ky := if Rlt_dec 0 t then y / t * sin t else 0) in *.
  set (d := cos (v 0%nat) * cos t - sin (v 0%nat) * Kx) in *.
  start.
  - apply from_ok.
    + o6a. fold x y t. fold Kx. fold d. nra.
    + fw.
  - assert (N : forall a b c, sqrt (a * a + b * b + c * c) = 2 * d ->
       forall ax bx cx, a = ax -> b = bx -> c = cx -> sqrt (ax * ax + bx * bx + cx * cx) = 2 * d)
      by (intros; subst; assumption).
    assert (NN : sqrt (2 * d * Kx * (2 * d * Kx) + 2 * d * Ky * (2 * d * Ky) + 2 * d * cos t * (2 * d * cos t)) = 2 * d).
    { replace (2 * d * Kx * (2 * d * Kx) + 2 * d * Ky * (2 * d * Ky) + 2 * d * cos t * (2 * d * cos t))
        with (2 * d * (2 * d)).
      - apply sqrt_square; lra.
      - unfold unit3 in Hu. transitivity (4 * d * d * (Kx * Kx + Ky * Ky + cos t * cos t)); [rewrite Hu|]; ring. }
    each3; o6a; fold x y t; fold Kx Ky; fold d; unfold flip_y; cbn [Nat.eqb].
    + apply acos_cos; lra.
    + rewrite (N _ _ _ NN) by ring.
      rewrite (atan2_0_nonneg (sin (v 0%nat))) by (apply sin_ge_0; lra).
      replace ((2 * d * Ky - 0) / (2 * d)) with Ky by (field; lra).
      replace ((2 * d * Kx + sin (v 0%nat) - sin (v 0%nat)) / (2 * d)) with Kx by (field; lra).
      replace ((2 * d * cos t - cos (v 0%nat) + cos (v 0%nat)) / (2 * d)) with (cos t) by (field; lra).
      rewrite Ha, Rminus_0_l, cos_neg. assumption.
    + rewrite (N _ _ _ NN) by ring.
      rewrite (atan2_0_nonneg (sin (v 0%nat))) by (apply sin_ge_0; lra).
      replace ((2 * d * Ky - 0) / (2 * d)) with Ky by (field; lra).
      replace ((2 * d * Kx + sin (v 0%nat) - sin (v 0%nat)) / (2 * d)) with Kx by (field; lra).
      replace ((2 * d * cos t - cos (v 0%nat) + cos (v 0%nat)) / (2 * d)) with (cos t) by (field; lra).
      rewrite Ha, Rminus_0_l, sin_neg, Ropp_mult_distr_r_reverse. fold y. lra.
Qed.

Lemma flip_angle r phi : 0 < r -> - PI < phi <= PI ->
  atan2 (- (r * sin phi)) (- (r * cos phi)) = (if Rlt_dec 0 phi then phi - PI else phi + PI).
Proof.
  intros Hr Hp. destruct (Rlt_dec 0 phi).
  - rewrite <- (atan2_sincos r (phi - PI)) by (lra).
    f_equal; unfold Rminus; rewrite ?sin_plus, ?cos_plus, ?sin_neg, ?cos_neg, sin_PI, cos_PI; ring.
  - rewrite <- (atan2_sincos r (phi + PI)) by (lra).
    f_equal; rewrite ?sin_plus, ?cos_plus, sin_PI, cos_PI; ring.
Qed.

Lemma rt_neumann3 v : 0 <= v 0%nat -> 0 < v 1%nat -> - PI < v 2%nat <= PI ->
  (v 0%nat + v 1%nat) * (v 0%nat + v 1%nat) <= 1 ->
  round_trip NEUMANN_3D v (shift3 v (if Rlt_dec 0 (v 2%nat) then v 2%nat - PI else v 2%nat + PI)).
Proof.
  intros H0 H1 H2 Hs.
  assert (B : forall s, (s = 1 \/ s = -1) ->
    (v 0%nat + s * (cos (v 2%nat) * v 1%nat)) * (v 0%nat + s * (cos (v 2%nat) * v 1%nat)) + sin (v 2%nat) * v 1%nat * (sin (v 2%nat) * v 1%nat) <= 1).
  { intros s Hs'. assert (Es : s * s = 1) by (destruct Hs'; subst; ring).
    pose proof (sc (v 2%nat)) as E. pose proof (COS_bound (v 2%nat)) as Hb.
    assert (s * cos (v 2%nat) <= 1) by (destruct Hs'; subst; lra).
    apply (Rle_trans _ (v 0%nat * v 0%nat + 2 * (s * cos (v 2%nat)) * (v 0%nat * v 1%nat) + v 1%nat * v 1%nat)).
    - apply Req_le. transitivity (v 0%nat * v 0%nat + 2 * (s * cos (v 2%nat)) * (v 0%nat * v 1%nat) + v 1%nat * v 1%nat * (sin (v 2%nat) * sin (v 2%nat) + s * s * (cos (v 2%nat) * cos (v 2%nat)))); [ring|].
      rewrite Es, Rmult_1_l, E. ring.
    - set (k := s * cos (v 2%nat)) in *. clearbody k.
      assert (0 <= v 0%nat * v 1%nat) by nra.
      assert (0 <= (1 - k) * (v 0%nat * v 1%nat)) by (apply Rmult_le_pos; lra). lra. }
  pose proof (B 1 ltac:(auto)) as B1. pose proof (B (-1) ltac:(auto)) as B2.
  intros out1 out2. unfold to_cartesian. cbn [to_cartesian_writes]. cbv zeta.
  destruct (Rlt_dec 1 _) as [Hx|_]; [exfalso; lra|].
  destruct (Rlt_dec 1 _) as [Hx|_]; [exfalso; lra|].
  eexists; eexists; split; [reflexivity|]; split.
  - apply from_ok.
    + o6a. match goal with |- _ <= sqrt ?a + sqrt ?b => pose proof (sqrt_pos a); pose proof (sqrt_pos b) end. lra.
    + fw.
  - each3; o6a; unfold shift3; cbn [Nat.eqb].
    + match goal with |- sqrt ?e = _ => replace e with (v 0%nat * v 0%nat) by field end.
      apply sqrt_square; assumption.
    + pose proof (sc (v 2%nat)) as E.
      match goal with |- sqrt ?e = _ => replace e with (v 1%nat * v 1%nat * (sin (v 2%nat) * sin (v 2%nat) + cos (v 2%nat) * cos (v 2%nat))) by field end.
      rewrite E, Rmult_1_r. apply sqrt_square; lra.
    + match goal with |- atan2 ?a ?b - atan2 ?c ?d = _ =>
        replace a with (- (v 1%nat * sin (v 2%nat))) by field;
        replace b with (- (v 1%nat * cos (v 2%nat))) by field;
        replace c with 0 by field; replace d with (v 0%nat) by field end.
      rewrite (atan2_0_nonneg (v 0%nat)), flip_angle by assumption. lra.
Qed.

Lemma rt_stark3 v : 0 <= v 0%nat -> 0 < v 1%nat -> - PI < v 2%nat <= PI ->
  v 0%nat * v 0%nat + v 1%nat * v 1%nat < 1 ->
  round_trip STARK_3D v (shift3 v (if Rlt_dec (v 2%nat) PI then v 2%nat + PI else 0)).
Proof.
  intros H0 H1 H2 Hs.
  set (Hz := sqrt (1 - v 0%nat * v 0%nat - v 1%nat * v 1%nat)).
  assert (HHz : 0 < Hz) by (apply sqrt_lt_R0; lra).
  set (T := atan2 (- Hz) (v 0%nat * cos (v 2%nat))).
  assert (HT : sin T < 0).
  { destruct (atan2_polar (- Hz) (v 0%nat * cos (v 2%nat))) as [_ E]. fold T in E.
    match type of E with sqrt ?e * _ = _ => assert (0 <= sqrt e) by apply sqrt_pos end. nra. }
  assert (A : atan2 (v 1%nat * sin T * sin (v 2%nat)) (v 1%nat * sin T * cos (v 2%nat)) =
     (if Rlt_dec 0 (v 2%nat) then v 2%nat - PI else v 2%nat + PI)).
  { rewrite <- (flip_angle (v 1%nat * - sin T)) by (try assumption; nra). f_equal; ring. }
  pose proof PI_RGT_0 as HP.
  start.
  - apply from_ok.
    + o6a. fold Hz. lra.
    + fw.
  - assert (P2 : forall Hx Hy Bx By, Hx = v 0%nat -> Hy = 0 -> Bx = v 1%nat * sin T * cos (v 2%nat) ->
      By = v 1%nat * sin T * sin (v 2%nat) ->
      atan2 By Bx - atan2 Hy Hx = (if Rlt_dec 0 (v 2%nat) then v 2%nat - PI else v 2%nat + PI)).
    { intros; subst. rewrite A, (atan2_0_nonneg (v 0%nat)) by assumption. lra. }
    intros i Hi. rewrite P2.
    2,3,4,5: o6a; fold Hz; fold T; field.
    set (o2 := if Rlt_dec 0 (v 2%nat) then v 2%nat - PI else v 2%nat + PI).
    assert (F : forall l, (l = [] \/ exists a, l = [(2%nat, a)]) -> forall a b c m, 
      assign ([(0%nat, a); (1%nat, b); (2%nat, c)] ++ l) m 0%nat = a /\
      assign ([(0%nat, a); (1%nat, b); (2%nat, c)] ++ l) m 1%nat = b).
    { intros l [->|[a ->]] a' b' c' m; split; reflexivity. }
    destruct i as [|[|[|i]]]; [| | |dimlia Hi]; unfold shift3; cbn [Nat.eqb].
    + match goal with |- assign ([(_, ?a); (_, ?b); (_, ?c)] ++ ?l) ?m 0%nat = _ =>
        destruct (F l ltac:(destruct (Rlt_dec o2 0); eauto) a b c m) as [E _]; rewrite E end.
      o6a. fold Hz; fold T.
      match goal with |- sqrt ?e = _ => replace e with (v 0%nat * v 0%nat) by field end.
      apply sqrt_square; assumption.
    + match goal with |- assign ([(_, ?a); (_, ?b); (_, ?c)] ++ ?l) ?m 1%nat = _ =>
        destruct (F l ltac:(destruct (Rlt_dec o2 0); eauto) a b c m) as [_ E]; rewrite E end.
      o6a. fold Hz; fold T.
      match goal with |- sqrt ?e = _ => replace e with (v 1%nat * v 1%nat) end.
      { apply sqrt_square; lra. }
      pose proof (sc T) as E1; pose proof (sc (v 2%nat)) as E2.
      transitivity (v 1%nat * v 1%nat * (sin T * sin T * (sin (v 2%nat) * sin (v 2%nat) + cos (v 2%nat) * cos (v 2%nat)) + cos T * cos T)).
      { rewrite E2, Rmult_1_r, E1. ring. }
      field.
    + unfold o2. destruct (Rlt_dec 0 (v 2%nat)), (Rlt_dec (v 2%nat) PI);
      match goal with |- context [if Rlt_dec ?a 0 then _ else _] => destruct (Rlt_dec a 0) end;
      try (exfalso; lra); cbn; lra.
Qed.

(** RETRO: 0 < theta_l < PI, 0 < theta_vl < PI, view not at the pole and on the
    azimuth side where cos(dphi) >= 0. *)
Lemma rt_retro v : 0 < v 0%nat < PI ->
  let x := v 1%nat in let y := v 2%nat in let t := sqrt (x * x + y * y) in
  0 < t < PI ->
  let cv := cos (v 0%nat) * cos t + x / t * sin (v 0%nat) * sin t in
  cv * cv < 1 -> 0 <= cv + cos (v 0%nat) ->
  0 <= sin (v 0%nat) * cos t - cos (v 0%nat) * (x / t) * sin t ->
  round_trip RETRO_TL_TVL_PROJ_DPHI v (flip_y v).
Proof.
  intros H0 x y t Ht cv Hcv Hz HD. 
  assert (Hsl : 0 < sin (v 0%nat)) by (apply sin_gt_0; lra).
  assert (Hst : 0 < sin t) by (apply sin_gt_0; lra).
  pose proof (polar_unit x y (proj1 Ht)) as Hu. fold t in Hu.
  pose proof (sc (v 0%nat)) as S1; pose proof (sc t) as S2.
  set (sl := sin (v 0%nat)) in *; set (cl := cos (v 0%nat)) in *.
  set (cp := x / t) in *; set (sp := y / t) in *.
  set (D := sl * cos t - cl * cp * sin t) in *.
  assert (E1 : 1 - cv * cv = sin t * sp * (sin t * sp) + D * D).
  { unfold cv, D. clearbody cp sp sl cl. 
    set (s := sin t) in *; set (c := cos t) in *. clearbody s c. nsatz. }
  assert (Esv : sqrt (1 - Rmin (cv * cv) 1) = sqrt (1 - cv * cv)) by (rewrite Rmin_left by lra; reflexivity).
  set (sv := sqrt (1 - cv * cv)) in *.
  assert (Hsv : 0 < sv) by (apply sqrt_lt_R0; lra).
  assert (Hsv2 : sv * sv = 1 - cv * cv) by (apply sqrt_ss; lra).
  set (sd := sin t * sp / sv).
  assert (Hsd : sd * sd = 1 - (D / sv) * (D / sv)).
  { unfold sd. apply (Rmult_eq_reg_r (sv * sv)); [|nra].
    transitivity (sin t * sp * (sin t * sp)); [field; lra|].
    transitivity (sv * sv - D * D); [lra|field; lra]. }
  assert (Hcd : sqrt (1 - Rmin (sd * sd) 1) = D / sv).
  { rewrite Rmin_left by (pose proof (Rle_0_sqr (D / sv)) as Q; unfold Rsqr in Q; lra).
    rewrite Hsd. replace (1 - (1 - D / sv * (D / sv))) with (D / sv * (D / sv)) by ring.
    apply sqrt_square. unfold Rdiv. pose proof (Rinv_0_lt_compat _ Hsv). nra. }
  assert (W : exists out, to_cartesian_writes RETRO_TL_TVL_PROJ_DPHI v = Some out /\
     out = six D (sin t * sp) cv sl 0 cl).
  { eexists. split; [reflexivity|]. fold x y t. cbv zeta. fold sl cl.
    destruct (Rlt_dec 0 t) as [_|]; [|lra]. fold cp sp. fold cv. rewrite Esv.
    destruct (Req_EM_T sv 0); [lra|]. fold sd. rewrite Hcd. unfold sd. unfold six.
    unfold six. f_equal; repeat (f_equal; try (field; lra)). }
  destruct W as (ws & W1 & ->).
  intros out1 out2. unfold to_cartesian. rewrite W1.
  eexists; eexists; split; [reflexivity|]; split.
  - apply from_ok.
    + o6a. fold cl. lra.
    + unfold from_cartesian_writes; match goal with |- context [half_vector ?w] => destruct (half_vector w) as [[? ?] ?] end.
      o6a. 
      assert (Ecvl : D * sl + sin t * sp * 0 + cv * cl = cos t).
      { unfold D, cv. clearbody cp sp sl cl. clear - S1. set (s := sin t) in *; set (c := cos t) in *. clearbody s c. nsatz. }
      rewrite Ecvl.
      assert (Es1 : sqrt (1 - cl * cl) = sl).
      { replace (1 - cl * cl) with (sl * sl) by lra. apply sqrt_square; lra. }
      assert (Es2 : sqrt (1 - cos t * cos t) = sin t).
      { replace (1 - cos t * cos t) with (sin t * sin t) by lra. apply sqrt_square; lra. }
      rewrite Es1, Es2. fold sv.
      destruct (Req_EM_T (sin t) 0); [exfalso; lra|]. destruct (Req_EM_T sl 0); [exfalso; lra|].
      assert (Ed : sin (atan2 0 sl - atan2 (sin t * sp) D) = - (sin t * sp / sv)).
      { rewrite atan2_0_nonneg, Rminus_0_l, sin_neg by lra. f_equal.
        destruct (atan2_polar (sin t * sp) D) as [_ Q].
        replace (D * D + sin t * sp * (sin t * sp)) with (sv * sv) in Q by lra.
        rewrite (sqrt_square sv) in Q by lra.
        apply (Rmult_eq_reg_l sv); [rewrite Q; field|]; lra. }
      rewrite Ed. reflexivity.
  - each3; o6a; unfold flip_y; cbn [Nat.eqb].
    + unfold cl. apply acos_cos; lra.
    + fold x. rewrite acos_cos by lra.
      replace ((cv - cl * cos t) / (sl * sin t)) with cp by (unfold cv; field; lra).
      unfold cp. field; lra.
    + fold y. rewrite acos_cos by lra. unfold sp. field. lra.
Qed.

(** ** Parametrizations whose round trip is wrong *)

(** what a round trip must give at component [i] *)
Lemma rt_inv p v w ws ws2 i : round_trip p v w -> to_cartesian_writes p v = Some ws ->
  let t := assign ws (fun _ => 0) in 0 <= t 2%nat + t 5%nat -> from_cartesian_writes p t = Some ws2 ->
  (Z.of_nat i < dimension_in p)%Z -> assign ws2 (fun _ => 0) i = w i.
Proof.
  intros H E1 t Hz E2 Hi. destruct (H (fun _ => 0) (fun _ => 0)) as (t' & o & F1 & F2 & F3).
  unfold to_cartesian in F1. rewrite E1 in F1. injection F1 as <-. fold t in F2.
  rewrite (from_ok _ _ _ _ Hz E2) in F2. injection F2 as <-. apply F3, Hi.
Qed.

Lemma rt_refuted :
  (exists v, 0 <= v 0%nat <= 1 /\ ~ round_trip COS_TK v v) /\
  (exists v, unit3 (v 0%nat) (v 1%nat) (v 2%nat) /\ 0 <= v 2%nat /\ ~ round_trip SCHLICK_VK v v) /\
  (exists v, ~ round_trip STEREOGRAPHIC v v).
Proof.
  split; [|split].
  - exists (fun _ => 3 / 5). split; [lra|]. intros H.
    eapply (rt_inv _ _ _ _ _ 0) in H; [|reflexivity|o6a; lra|fw|reflexivity].
    revert H. o6a.
    match goal with |- ?a / sqrt ?e = _ -> _ => assert (Hq : 0 < sqrt e) by (apply sqrt_lt_R0; lra);
      pose proof (sqrt_ss e ltac:(lra)) as Hs; set (q := sqrt e) in *; clearbody q end.
    intros H. assert (E : 3 / 5 + 3 / 5 = 3 / 5 * q) by (rewrite <- H at 3; field; lra).
    assert (q = 2) by lra. subst q. lra.
  - exists (fun i => match i with 0%nat => - 4 / 5 | 1%nat => 0 | _ => 3 / 5 end).
    split; [unfold unit3; lra|split; [lra|]]. intros H.
    eapply (rt_inv _ _ _ _ _ 0) in H; [|reflexivity|o6a; lra| |reflexivity].
    2: { unfold from_cartesian_writes.
         match goal with |- context [half_vector ?w] => destruct (half_vector w) as [[? ?] ?] end.
         o6a. destruct (Rlt_dec _ _) as [_|n]; [reflexivity|].
         exfalso. apply n. match goal with |- _ < sqrt ?e => apply (Rlt_le_trans _ 1); [clear; lra|];
           apply (Rle_trans _ (sqrt 1)); [rewrite sqrt_1; lra|apply sqrt_le_1; lra] end. }
    revert H. o6a.
    match goal with |- ?a / sqrt ?e = _ -> _ => assert (Hq : 0 < sqrt e) by (apply sqrt_lt_R0; lra);
      set (q := sqrt e) in *; clearbody q end.
    intros H. assert (0 < ((1 - 3 / 5 * (3 / 5)) - (3 / 5 * (3 / 5) - 1)) / q); [|rewrite H in *; lra].
    unfold Rdiv. apply Rmult_lt_0_compat; [lra|]. apply Rinv_0_lt_compat, Hq.
  - exists (fun _ => 0). intros H.
    eapply (rt_inv _ _ _ _ _ 0) in H; [|reflexivity|o6a; lra|fw|reflexivity].
    revert H. o6a. lra.
Qed.

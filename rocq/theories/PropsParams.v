(** Properties C01-C08: parametrizations and their conversions (params.h, params.cpp). *)
From Coq Require Import Lra.
From Verif Require Import Base ParamsModel ParamsProofs GeoModel GeoSpec GeoProofs GeoUnit GeoRoundtrip GeoApi.
Open Scope R_scope.

(** C01 *)
Theorem C01_input_names_roundtrip : forall p,
  parse_input (get_name_in p) = p <-> (named_input p \/ p = UNKNOWN_INPUT).
Proof. exact parse_get_name_in. Qed.
Print Assumptions C01_input_names_roundtrip.

Theorem C01_input_names_distinct : forall p q, named_input p -> named_input q ->
  get_name_in p = get_name_in q -> p = q.
Proof. exact get_name_in_inj. Qed.
Print Assumptions C01_input_names_distinct.

Theorem C01_only_table_names_parse : forall txt p,
  parse_input txt = p -> p <> UNKNOWN_INPUT -> txt = get_name_in p.
Proof. exact parse_input_sound. Qed.
Print Assumptions C01_only_table_names_parse.

Theorem C01_dimension_known_iff_named : forall p, (0 < dimension_in p)%Z <-> named_input p.
Proof. exact dimension_named. Qed.
Print Assumptions C01_dimension_known_iff_named.

Theorem C01_output_names_roundtrip : forall p, parse_output (get_name_out p) = p.
Proof. exact parse_get_name_out. Qed.
Print Assumptions C01_output_names_roundtrip.

Theorem C01_only_output_names_parse : forall txt p,
  parse_output txt = p -> p <> UNKNOWN_OUTPUT -> txt = get_name_out p.
Proof. exact parse_output_sound. Qed.
Print Assumptions C01_only_output_names_parse.

Theorem C01_unlisted_name_lost_refuted :
  parse_input (get_name_in RUSIN_TH_PH_TD) = UNKNOWN_INPUT /\ dimension_in RUSIN_TH_PH_TD = (-1)%Z /\
  get_name_in SCHLICK_VK = lit "SCHLICK_VH".
Proof. repeat split. Qed.
Print Assumptions C01_unlisted_name_lost_refuted.

Example C01_case : named_input RUSIN_TH_TD_PD /\ get_name_in RUSIN_TH_TD_PD = lit "RUSIN_TH_TD_PD" /\
  parse_input (lit "RUSIN_TH_TD_PD") = RUSIN_TH_TD_PD /\ parse_input (lit "RUSIN_TH_TD_P") = UNKNOWN_INPUT.
Proof. split; [apply named_iff; reflexivity|repeat split]. Qed.

(** C02 *)
Theorem C02_from_cartesian_writes_exactly_dimension : forall v p out out',
  named_input p -> from_cartesian v p out = Ok out' ->
  (forall j, (dimn p <= j)%nat -> out' j = out j) /\
  (forall outb outb', from_cartesian v p outb = Ok outb' ->
     forall j, (j < dimn p)%nat -> out' j = outb' j).
Proof. exact from_frame. Qed.
Print Assumptions C02_from_cartesian_writes_exactly_dimension.

Theorem C02_to_cartesian_writes_exactly_six : forall v p out out',
  to_cartesian v p out = Ok out' ->
  (forall j, (6 <= j)%nat -> out' j = out j) /\
  (forall outb outb', to_cartesian v p outb = Ok outb' ->
     forall j, (j < 6)%nat -> out' j = outb' j).
Proof. exact to_frame. Qed.
Print Assumptions C02_to_cartesian_writes_exactly_six.

Theorem C02_to_cartesian_reads_only_dimension : forall v w p out, named_input p ->
  (forall j, (j < dimn p)%nat -> v j = w j) ->
  to_cartesian v p out = to_cartesian w p out.
Proof. exact to_reads_api. Qed.
Print Assumptions C02_to_cartesian_reads_only_dimension.

Theorem C02_from_cartesian_reads_only_six : forall v w p out,
  (forall j, (j < 6)%nat -> v j = w j) -> from_cartesian v p out = from_cartesian w p out.
Proof. exact from_reads_only. Qed.
Print Assumptions C02_from_cartesian_reads_only_six.

Example C02_case : exists out', from_cartesian (fun i => if Nat.eqb i 2 then 1 else if Nat.eqb i 5 then 1 else 0)
    COS_TLV (fun _ => 7) = Ok out' /\ out' 0%nat = 1 /\ out' 1%nat = 7.
Proof.
  eexists. split; [apply from_ok; [cbn; lra|fw]|]. cbn. split; [ring|reflexivity].
Qed.

(** C03 *)
Theorem C03_same_parametrization_copies : forall v p out, named_input p -> exists out',
  convert v p p out = Ok out' /\ (forall j, (j < dimn p)%nat -> out' j = v j) /\
  (forall j, (dimn p <= j)%nat -> out' j = out j).
Proof. exact convert_same. Qed.
Print Assumptions C03_same_parametrization_copies.

Theorem C03_through_cartesian : forall v p q out, p <> q -> q <> CARTESIAN ->
  convert v p q out = (do t <- to_cartesian v p (fun _ => 0); from_cartesian t q out).
Proof. exact convert_general. Qed.
Print Assumptions C03_through_cartesian.

Theorem C03_to_cartesian : forall v p out, p <> CARTESIAN ->
  convert v p CARTESIAN out = to_cartesian v p out.
Proof. exact convert_to_cartesian. Qed.
Print Assumptions C03_to_cartesian.

Theorem C03_no_rule_never_returns : forall v p q out, p <> q ->
  (In p no_rule_list \/ In q no_rule_list) -> convert v p q out = Abort.
Proof. exact convert_no_rule. Qed.
Print Assumptions C03_no_rule_never_returns.

Theorem C03_every_other_is_readable : forall v p out, ~ In p no_rule_list ->
  exists o, to_cartesian v p out = Ok o.
Proof. exact to_total. Qed.
Print Assumptions C03_every_other_is_readable.

(** C04 *)
Theorem C04_angular_parametrizations_are_unit : forall p v out out',
  angular p = true -> domain p v -> to_cartesian v p out = Ok out' -> two_units out'.
Proof. exact to_unit. Qed.
Print Assumptions C04_angular_parametrizations_are_unit.

Theorem C04_three_parametrizations_refuted :
  (exists v out', -1 <= v 0%nat <= 1 /\ to_cartesian v COS_TK (fun _ => 0) = Ok out' /\ ~ two_units out') /\
  (exists v out', unit3 (v 0%nat) (v 1%nat) (v 2%nat) /\
      to_cartesian v SCHLICK_VK (fun _ => 0) = Ok out' /\ ~ two_units out') /\
  (exists v out', to_cartesian v STEREOGRAPHIC (fun _ => 0) = Ok out' /\ ~ two_units out').
Proof. exact non_unit_witnesses. Qed.
Print Assumptions C04_three_parametrizations_refuted.

Example C04_case : domain STARK_3D (fun i => match i with 0%nat => 1 / 2 | 1%nat => 1 / 3 | _ => 2 end)
  /\ angular STARK_3D = true.
Proof. cbn. split; [lra|reflexivity]. Qed.

(** C05. With h the direction (theta_h, phi_h): the light is the mirror image of
    the view about h and both make the angle theta_d with h. *)
Theorem C05_mirrored_about_half_vector : forall v out o,
  to_cartesian v RUSIN_TH_PH_TD_PD out = Ok o ->
  let hx := sin (v 0%nat) * cos (v 1%nat) in
  let hy := sin (v 0%nat) * sin (v 1%nat) in
  let hz := cos (v 0%nat) in
  let dot := hx * o 0%nat + hy * o 1%nat + hz * o 2%nat in
  hx * hx + hy * hy + hz * hz = 1 /\
  dot = cos (v 2%nat) /\
  hx * o 3%nat + hy * o 4%nat + hz * o 5%nat = cos (v 2%nat) /\
  o 3%nat = 2 * dot * hx - o 0%nat /\ o 4%nat = 2 * dot * hy - o 1%nat /\ o 5%nat = 2 * dot * hz - o 2%nat.
Proof. exact mirror_api. Qed.
Print Assumptions C05_mirrored_about_half_vector.

Example C05_case : exists o, to_cartesian (fun _ => 1 / 2) RUSIN_TH_PH_TD_PD (fun _ => 0) = Ok o.
Proof. eexists; reflexivity. Qed.

(** C06 *)
Theorem C06_round_trip_on_domain : forall p v, rt_domain p v -> round_trip p v v.
Proof. exact round_trip_domain. Qed.
Print Assumptions C06_round_trip_on_domain.

Theorem C06_half_angles_without_pd : forall v, rt_domain RUSIN_TH_PH_TD v ->
  forall out1 out2, exists t o, to_cartesian v RUSIN_TH_PH_TD out1 = Ok t /\
    from_cartesian t RUSIN_TH_PH_TD out2 = Ok o /\
    o 0%nat = v 0%nat /\ o 1%nat = v 1%nat /\ o 2%nat = v 2%nat.
Proof. exact rt_th_ph_td_all. Qed.
Print Assumptions C06_half_angles_without_pd.

Theorem C06_cos_tlr_negated : forall v, -1 <= v 0%nat <= 1 -> round_trip COS_TLR v (fun i => - v i).
Proof. exact rt_tlr. Qed.
Print Assumptions C06_cos_tlr_negated.

Theorem C06_tl_tv_proj_flips_sign : forall v, 0 <= v 0%nat <= PI ->
  v 1%nat * v 1%nat + v 2%nat * v 2%nat < PI * PI ->
  0 <= cos (v 0%nat) + cos (sqrt (v 1%nat * v 1%nat + v 2%nat * v 2%nat)) ->
  round_trip ISOTROPIC_TL_TV_PROJ_DPHI v (flip_y v).
Proof. exact rt_tl_tv_proj. Qed.
Print Assumptions C06_tl_tv_proj_flips_sign.

Theorem C06_schlick_proj_flips_sign : forall v, 0 <= v 0%nat <= PI ->
  let x := v 1%nat in let y := v 2%nat in let t := sqrt (x * x + y * y) in
  x * x + y * y <= PI * PI / 4 ->
  0 < cos (v 0%nat) * cos t - sin (v 0%nat) * (if Rlt_dec 0 t then x / t * sin t else 0) ->
  round_trip SCHLICK_TL_TK_PROJ_DPHI v (flip_y v).
Proof. exact rt_schlick. Qed.
Print Assumptions C06_schlick_proj_flips_sign.

Theorem C06_retro_flips_sign : forall v, 0 < v 0%nat < PI ->
  let x := v 1%nat in let y := v 2%nat in let t := sqrt (x * x + y * y) in
  0 < t < PI ->
  let cv := cos (v 0%nat) * cos t + x / t * sin (v 0%nat) * sin t in
  cv * cv < 1 -> 0 <= cv + cos (v 0%nat) ->
  0 <= sin (v 0%nat) * cos t - cos (v 0%nat) * (x / t) * sin t ->
  round_trip RETRO_TL_TVL_PROJ_DPHI v (flip_y v).
Proof. exact rt_retro. Qed.
Print Assumptions C06_retro_flips_sign.

Theorem C06_neumann3_azimuth_shift : forall v, 0 <= v 0%nat -> 0 < v 1%nat -> - PI < v 2%nat <= PI ->
  (v 0%nat + v 1%nat) * (v 0%nat + v 1%nat) <= 1 ->
  round_trip NEUMANN_3D v (shift3 v (if Rlt_dec 0 (v 2%nat) then v 2%nat - PI else v 2%nat + PI)).
Proof. exact rt_neumann3. Qed.
Print Assumptions C06_neumann3_azimuth_shift.

Theorem C06_stark3_azimuth_shift : forall v, 0 <= v 0%nat -> 0 < v 1%nat -> - PI < v 2%nat <= PI ->
  v 0%nat * v 0%nat + v 1%nat * v 1%nat < 1 ->
  round_trip STARK_3D v (shift3 v (if Rlt_dec (v 2%nat) PI then v 2%nat + PI else 0)).
Proof. exact rt_stark3. Qed.
Print Assumptions C06_stark3_azimuth_shift.

Theorem C06_three_parametrizations_refuted :
  (exists v, 0 <= v 0%nat <= 1 /\ ~ round_trip COS_TK v v) /\
  (exists v, unit3 (v 0%nat) (v 1%nat) (v 2%nat) /\ 0 <= v 2%nat /\ ~ round_trip SCHLICK_VK v v) /\
  (exists v, ~ round_trip STEREOGRAPHIC v v).
Proof. exact rt_refuted. Qed.
Print Assumptions C06_three_parametrizations_refuted.

Example C06_case_spherical : rt_domain SPHERICAL_TL_PL_TV_PV
  (fun i => match i with 0%nat => PI / 4 | 1%nat => 1 | 2%nat => PI / 3 | _ => -1 end).
Proof.
  cbn. pose proof PI_RGT_0. pose proof PI2_3_2 as H2. pose proof (cos_gt_0 (PI / 4)); pose proof (cos_gt_0 (PI / 3)).
  repeat split; lra.
Qed.
Example C06_case_th_td : rt_domain RUSIN_TH_TD (fun _ => 1).
Proof. cbn. pose proof PI2_3_2. pose proof PI_RGT_0. lra. Qed.

(** C07 *)
Theorem C07_output_conversion : forall v indim outdim out,
  (indim = outdim -> exists o, convert_out v indim outdim out = Ok o /\
     (forall j, (j < outdim)%nat -> o j = v j) /\ (forall j, (outdim <= j)%nat -> o j = out j)) /\
  (indim = 1%nat -> exists o, convert_out v indim outdim out = Ok o /\
     (forall j, (j < outdim)%nat -> o j = v 0%nat) /\ (forall j, (outdim <= j)%nat -> o j = out j)) /\
  (outdim = 1%nat -> (1 < indim)%nat -> exists o, convert_out v indim outdim out = Ok o /\
     o 0%nat = (out 0%nat + total indim v) / INR indim /\ (forall j, (1 <= j)%nat -> o j = out j)) /\
  (indim <> outdim -> indim <> 1%nat -> outdim <> 1%nat -> convert_out v indim outdim out = Abort).
Proof. exact convert_out_cases. Qed.
Print Assumptions C07_output_conversion.

(** averaging into a destination that is not zero is not the average *)
Theorem C07_dirty_destination_refuted : exists v out o,
  convert_out v 3 1 out = Ok o /\ o 0%nat <> total 3 v / INR 3.
Proof.
  exists (fun _ => 1), (fun _ => 1). eexists; split; [reflexivity|]. cbn. lra.
Qed.
Print Assumptions C07_dirty_destination_refuted.

(** C08 *)
Theorem C08_hemisphere_cartesian : forall v, is_above_hemisphere v CARTESIAN =
  Ok ((if Rle_dec 0 (v 2%nat) then true else false) && (if Rle_dec 0 (v 5%nat) then true else false)).
Proof. exact hemisphere_cart. Qed.
Print Assumptions C08_hemisphere_cartesian.

Theorem C08_hemisphere_iff : forall v p, (exists o, to_cartesian v p (fun _ => 0) = Ok o) ->
  exists b o, is_above_hemisphere v p = Ok b /\ to_cartesian v p (fun _ => 0) = Ok o /\
    (b = true <-> 0 <= o 2%nat /\ 0 <= o 5%nat).
Proof. exact hemisphere_iff. Qed.
Print Assumptions C08_hemisphere_iff.

Example C08_case : exists o, to_cartesian (fun _ => 1) ISOTROPIC_TV_TL_DPHI (fun _ => 0) = Ok o.
Proof. eexists; reflexivity. Qed.

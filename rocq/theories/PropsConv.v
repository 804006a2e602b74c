(** C76-C80: the command line tools data2data, brdf2data, brdf2gnuplot and fit2stat. *)
From Coq Require Import Reals List Lia Lra Permutation.
From Verif Require Import Base ParamsModel ParamsProofs GeoModel GeoSpec GeoProofs GeoApi GeoRoundtrip CommonModel TextModel TextProofs NlMoreModel FuncModel MetricsModel MetricsSpec MetricsProofs FitModel ConvModel ConvSpec ConvProofs ConvProofs2 ConvProofs3 ConvProofs4 ConvProofs5 ConvProofs6.
From Verif Require DistModel.
Open Scope R_scope.

(** ** C76: data2data without interpolation *)
Theorem C76_target : forall pin arg,
  (forall p, named_input p -> arg = get_name_in p -> compute_parameters pin arg = Some (mkParameters (dimn p) (dimY pin) p (out_param pin))) /\
  ((forall p, named_input p -> arg <> get_name_in p) -> named_input (in_param pin) ->
     compute_parameters pin arg = Some (mkParameters (dimn (in_param pin)) (dimY pin) (in_param pin) (out_param pin))) /\
  ((forall p, named_input p -> arg <> get_name_in p) -> in_param pin = UNKNOWN_INPUT -> forall junk all rows, data2data junk pin arg all rows = Ok None).
Proof.
  intros pin arg. split; [intros p Hp ->; apply target_named; assumption|]. split; [apply target_kept|].
  intros H E junk all rows. unfold data2data. rewrite (target_none _ _ H E). reflexivity.
Qed.
Print Assumptions C76_target.

Lemma data2data_inv junk pin arg all rows pout out : data2data junk pin arg all rows = Ok (Some (pout, out)) ->
  compute_parameters pin arg = Some pout /\ splat junk pin pout all rows (repeat (repeat 0 (dimX pout + dimY pout)) (length rows)) = Ok out.
Proof.
  unfold data2data. destruct (compute_parameters pin arg) as [p|]; [|discriminate]. destruct (splat _ _ _ _ _ _) as [o| | |] eqn:E; cbn [bind]; try discriminate.
  intros H. apply Ok_inj in H. injection H as -> ->. split; [reflexivity|assumption].
Qed.

Theorem C76_samples : forall junk pin arg all rows pout out, regular pin -> Forall (sample_of pin) rows ->
  data2data junk pin arg all rows = Ok (Some (pout, out)) ->
  regular pout /\ dimY pout = dimY pin /\ Forall (sample_of pout) out /\ pointwise (converted pin pout all) rows out.
Proof.
  intros junk pin arg all rows pout out Rin Hs H. destruct (data2data_inv _ _ _ _ _ _ _ H) as [Ec Es]. destruct (target_regular _ _ _ Rin Ec) as (Rout & HY & _).
  pose proof (splat_spec junk pin pout all Rin Rout HY rows out Hs Es) as P. split; [assumption|]. split; [assumption|]. split; [|assumption].
  destruct P as [L P]. apply Forall_forall. intros o Ho. apply In_nth_error in Ho. destruct Ho as [k Hk]. destruct (nth_error_ex rows k) as [r Hr]; [rewrite L; apply nth_error_Some; congruence|].
  apply (converted_sample pin pout all r); [apply Rout|assumption|rewrite Forall_forall in Hs; apply Hs; apply nth_error_In in Hr; assumption|apply (P k); assumption].
Qed.
Print Assumptions C76_samples.

Theorem C76_completes : forall junk pin arg all rows pout, regular pin -> Forall (sample_of pin) rows -> compute_parameters pin arg = Some pout ->
  ((exists out, data2data junk pin arg all rows = Ok (Some (pout, out))) <->
   (rows = [] \/ ~ In (in_param pout) no_rule_list) /\ Forall (fun r => exists w, converts r (in_param pin) (in_param pout) w) rows).
Proof.
  intros junk pin arg all rows pout Rin Hs Ec. destruct (target_regular _ _ _ Rin Ec) as (Rout & HY & _). rewrite <- (splat_defined junk pin pout all Rin Rout HY rows Hs). unfold data2data. rewrite Ec. split.
  - intros [out H]. destruct (splat _ _ _ _ _ _) as [o| | |]; cbn [bind] in H; try discriminate. eauto.
  - intros [out H]. rewrite H. cbn [bind]. eauto.
Qed.
Print Assumptions C76_completes.

(** keeping the parametrization copies the data *)
Theorem C76_copy : forall junk pin arg all rows, regular pin -> Forall (sample_of pin) rows -> ~ In (in_param pin) no_rule_list ->
  (arg = get_name_in (in_param pin) \/ forall p, named_input p -> arg <> get_name_in p) ->
  (all = true \/ Forall (fun r => visible r (in_param pin)) rows) -> data2data junk pin arg all rows = Ok (Some (pin, rows)).
Proof.
  intros junk pin arg all rows Rin Hs Nr Ha Hv. assert (Ec : compute_parameters pin arg = Some pin).
  { pose proof Rin as (Ni & Xi & _). destruct pin as [x y p o]. cbn in Xi, Ni. subst x. destruct Ha as [->|Ha]; [apply target_named|rewrite target_kept]; auto. }
  destruct (proj2 (C76_completes junk pin arg all rows pin Rin Hs Ec)) as [out H].
  { split; [right; assumption|]. apply Forall_forall. intros r Hr. rewrite Forall_forall in Hs. specialize (Hs r Hr). unfold sample_of in Hs. destruct Rin as (Ni & Xi & _). eexists. apply converts_same; [assumption|lia]. }
  rewrite H. do 3 f_equal. destruct (C76_samples _ _ _ _ _ _ _ Rin Hs H) as (_ & _ & _ & P). symmetry. apply pointwise_eq. apply (pointwise_impl (converted pin pin all)); [|assumption].
  intros x y Hx C. symmetry. rewrite Forall_forall in Hs. apply (converted_same pin pin all x y Rin eq_refl (Hs x Hx)); [|assumption]. destruct Hv as [Hv|Hv]; [left; assumption|right; rewrite Forall_forall in Hv; apply Hv; assumption].
Qed.
Print Assumptions C76_copy.

(** a conversion to CARTESIAN and back restores the data *)
Theorem C76_there_and_back : forall junk pin rows, regular pin -> Forall (sample_of pin) rows -> Forall (fun r => rt_domain (in_param pin) (row_mem r)) rows ->
  ~ In (in_param pin) no_rule_list ->
  exists mid, data2data junk pin (get_name_in CARTESIAN) true rows = Ok (Some (mkParameters 6 (dimY pin) CARTESIAN (out_param pin), mid)) /\
    data2data junk (mkParameters 6 (dimY pin) CARTESIAN (out_param pin)) (get_name_in (in_param pin)) true mid = Ok (Some (pin, rows)).
Proof.
  intros junk pin rows Rin Hs Hd Nr. pose proof Rin as (Ni & Xi & Yi). fold (cart_of pin).
  assert (Ec : compute_parameters pin (get_name_in CARTESIAN) = Some (cart_of pin)) by (apply (target_named pin CARTESIAN named_cart)).
  assert (Eb : compute_parameters (cart_of pin) (get_name_in (in_param pin)) = Some pin).
  { rewrite (target_named (cart_of pin) _ Ni). unfold cart_of. cbn [dimY out_param]. rewrite <- Xi. destruct pin; reflexivity. }
  assert (Rc : regular (cart_of pin)) by (split; [apply named_cart|split; [reflexivity|assumption]]).
  assert (Conv : forall r, In r rows -> exists w, converts r (in_param pin) CARTESIAN w /\ exists w', converts w CARTESIAN (in_param pin) w').
  { intros r Hr. rewrite Forall_forall in Hd, Hs. specialize (Hd r Hr). specialize (Hs r Hr). unfold sample_of in Hs. destruct (input_eqb_spec (in_param pin) CARTESIAN) as [E|N].
    - rewrite E in *. exists (firstn 6 r). change (dimn CARTESIAN) with 6%nat in Xi. split; [apply (converts_same r CARTESIAN named_cart); change (dimn CARTESIAN) with 6%nat; lia|].
      eexists. apply (converts_same _ CARTESIAN named_cart). rewrite firstn_length. change (dimn CARTESIAN) with 6%nat. lia.
    - destruct (round_trip_domain _ _ Hd (fun _ => 0) (fun _ => 0)) as (t & o & Ht & Ho & _). exists (List.map t (seq 0 6)). split; [exists t; split; [rewrite convert_to_cartesian by assumption; assumption|reflexivity]|].
      eexists. exists o. split; [|reflexivity]. rewrite (conv_reads _ t); [|apply named_cart|intros j Hj; unfold row_mem; apply nth_map_seq; exact Hj]. unfold convert. destruct (input_eqb_spec CARTESIAN (in_param pin)) as [E|_]; [congruence|]. exact Ho. }
  destruct (proj2 (C76_completes junk pin _ true rows (cart_of pin) Rin Hs Ec)) as [mid Hm].
  { split; [right; intros Hin; cbn in Hin; intuition discriminate|]. apply Forall_forall. intros r Hr. destruct (Conv r Hr) as (w & C & _). eauto. }
  destruct (C76_samples _ _ _ _ _ _ _ Rin Hs Hm) as (_ & _ & Hsm & Pm). exists mid. split; [assumption|].
  destruct (proj2 (C76_completes junk (cart_of pin) _ true mid pin Rc Hsm Eb)) as [back Hb].
  { split; [right; assumption|]. apply Forall_forall. intros o Ho. apply In_nth_error in Ho. destruct Ho as [k Hk]. destruct Pm as [L Pm]. destruct (nth_error_ex rows k) as [r Hr]; [rewrite L; apply nth_error_Some; congruence|].
    destruct (Pm k r o Hr Hk) as [w C _ ->|w _ Ha _ _]; [|discriminate]. destruct (Conv r) as (w0 & C0 & w' & C'); [apply nth_error_In in Hr; assumption|]. rewrite (converts_fun _ _ _ _ _ C0 C) in C'. exists w'.
    apply (converts_reads w); [apply named_cart| |assumption]. intros j Hj. symmetry. apply app_nth1. rewrite (converts_length _ _ _ _ C). exact Hj. }
  rewrite Hb. do 3 f_equal. destruct (C76_samples _ _ _ _ _ _ _ Rc Hsm Hb) as (_ & _ & _ & [Lb Pb]). destruct Pm as [Lm Pm]. apply pointwise_eq. split; [congruence|]. intros i b r Hib Hir.
  destruct (nth_error_ex mid i) as [o Ho]; [rewrite Lb; apply nth_error_Some; congruence|]. rewrite Forall_forall in Hs, Hd. assert (Inr : In r rows) by (apply nth_error_In in Hir; assumption).
  apply (converted_back pin true r o b Rin (Hs r Inr) (Hd r Inr) eq_refl); [apply (Pm i); assumption|apply (Pb i); assumption].
Qed.
Print Assumptions C76_there_and_back.

(** parametrizations without a conversion rule cannot even be copied *)
Theorem C76_no_rule_refuted : forall junk pin arg all rows pout, regular pin -> Forall (sample_of pin) rows -> rows <> [] -> compute_parameters pin arg = Some pout ->
  In (in_param pout) no_rule_list -> forall res, data2data junk pin arg all rows <> Ok res.
Proof.
  intros junk pin arg all rows pout Rin Hs Hne Ec Hin res H. assert (E : exists out, res = Some (pout, out)).
  { unfold data2data in H. rewrite Ec in H. destruct (splat _ _ _ _ _ _) as [o| | |]; cbn [bind] in H; try discriminate. apply Ok_inj in H. eauto. }
  destruct E as [out ->]. destruct (proj1 (C76_completes junk pin arg all rows pout Rin Hs Ec) (ex_intro _ out H)) as [[K|K] _]; contradiction.
Qed.
Print Assumptions C76_no_rule_refuted.

(** a sample below the horizon is not dropped: a sample of zeros, which is not in
    the input, takes its place *)
Theorem C76_hidden_refuted : exists junk pin rows pout out r, regular pin /\ Forall (sample_of pin) rows /\
  data2data junk pin (get_name_in CARTESIAN) false rows = Ok (Some (pout, out)) /\ In r out /\ ~ In r rows.
Proof.
  set (pin := mkParameters 6 1 CARTESIAN UNKNOWN_OUTPUT). assert (Rin : regular pin) by (split; [apply named_cart|split; [reflexivity|cbn; lia]]).
  assert (Hs : Forall (sample_of pin) [[0; 0; -1; 0; 0; 1; 9]]) by (repeat constructor). exists 0, pin, [[0; 0; -1; 0; 0; 1; 9]], pin.
  assert (Ec : compute_parameters pin (get_name_in CARTESIAN) = Some pin) by apply (target_named pin CARTESIAN named_cart).
  assert (Nr : ~ In (in_param pin) no_rule_list) by (cbn; intuition discriminate).
  destruct (proj2 (C76_completes 0 pin _ false _ pin Rin Hs Ec)) as [out H].
  { split; [right; assumption|]. repeat constructor. eexists. apply converts_same; [apply named_cart|cbn; lia]. }
  destruct (C76_samples _ _ _ _ _ _ _ Rin Hs H) as (_ & _ & _ & [L P]). destruct out as [|o [|? ?]]; cbn in L; try discriminate. specialize (P 0%nat _ _ eq_refl eq_refl).
  exists [o], o. split; [assumption|]. split; [assumption|]. split; [assumption|]. split; [left; reflexivity|].
  assert (K : converts [0; 0; -1; 0; 0; 1; 9] CARTESIAN CARTESIAN [0; 0; -1; 0; 0; 1]) by (apply (converts_same [0; 0; -1; 0; 0; 1; 9] CARTESIAN named_cart); cbn; lia).
  destruct P as [w C [V|V] _|w C _ _ ->]; [discriminate| |].
  - exfalso. cbn [in_param pin] in *. rewrite (converts_fun _ _ _ _ _ C K) in V. destruct V as (c & Cc & V2 & _).
    assert (K2 : converts [0; 0; -1; 0; 0; 1] CARTESIAN CARTESIAN [0; 0; -1; 0; 0; 1]) by (apply (converts_same [0; 0; -1; 0; 0; 1] CARTESIAN named_cart); cbn; lia).
    rewrite (converts_fun _ _ _ _ _ Cc K2) in V2. cbn in V2. lra.
  - cbn. intros [E|[]]. injection E as E _. lra.
Qed.
Print Assumptions C76_hidden_refuted.

Definition conv_par : parameters := mkParameters 1 1 COS_TLV UNKNOWN_OUTPUT.
Example C76_case : regular conv_par /\ Forall (sample_of conv_par) [[1 / 2; 7]] /\ Forall (fun r => rt_domain (in_param conv_par) (row_mem r)) [[1 / 2; 7]] /\ ~ In (in_param conv_par) no_rule_list.
Proof.
  split; [split; [apply named_iff; reflexivity|split; [reflexivity|cbn; lia]]|]. split; [repeat constructor|]. split; [constructor; [cbn; lra|constructor]|]. cbn. intuition discriminate.
Qed.

(** ** C77: data2data with interpolation *)
Theorem C77_interpolation : forall junk pin pout val order out out', regular pin -> regular pout -> (forall w y, val w = Ok y -> length y = dimY pin) ->
  Permutation order (seq 0 (length out)) -> Forall (sample_of pout) out ->
  (interpolate junk pin pout val order out = Ok out' <-> pointwise (interpolated pin pout val) out out').
Proof. intros. apply interpolate_iff; assumption. Qed.
Print Assumptions C77_interpolation.

(** whatever the order of the iterations *)
Theorem C77_any_schedule : forall junk pin pout val o1 o2 out out', regular pin -> regular pout -> (forall w y, val w = Ok y -> length y = dimY pin) ->
  Permutation o1 (seq 0 (length out)) -> Permutation o2 (seq 0 (length out)) -> Forall (sample_of pout) out ->
  interpolate junk pin pout val o1 out = Ok out' -> interpolate junk pin pout val o2 out = Ok out'.
Proof. intros junk pin pout val o1 o2 out out' Ri Ro Hv P1 P2 Hs H. apply (interpolate_iff junk pin pout val Ri Ro Hv o2); [assumption|assumption|]. apply (interpolate_iff junk pin pout val Ri Ro Hv o1) in H; assumption. Qed.
Print Assumptions C77_any_schedule.

Theorem C77_positions_kept : forall junk pin pout val order out out' i x o, regular pin -> regular pout -> (forall w y, val w = Ok y -> length y = dimY pin) ->
  Permutation order (seq 0 (length out)) -> Forall (sample_of pout) out -> interpolate junk pin pout val order out = Ok out' ->
  nth_error out i = Some x -> nth_error out' i = Some o -> firstn (dimX pout) o = firstn (dimX pout) x.
Proof.
  intros junk pin pout val order out out' i x o Ri Ro Hv P Hs H Hx Ho. apply (interpolate_iff junk pin pout val Ri Ro Hv order) in H; [|assumption|assumption]. destruct H as [_ H]. destruct (H i x o Hx Ho) as (y & z & _ & _ & ->).
  apply position_of_written. rewrite Forall_forall in Hs. apply Hs. apply nth_error_In in Hx. assumption.
Qed.
Print Assumptions C77_positions_kept.

(** three channels to one: what the destination held is added to the sum *)
Theorem C77_average_refuted : exists junk pin pout val out out', regular pin /\ regular pout /\ (forall w y, val w = Ok y -> length y = dimY pin) /\ Forall (sample_of pout) out /\
  (forall w, val w = Ok [1; 1; 1]) /\ interpolate junk pin pout val [0%nat] out = Ok out' /\ exists o, nth_error out' 0 = Some o /\ values pout o = [8 / 3].
Proof.
  set (pin := mkParameters 6 3 CARTESIAN RGB_COLOR). set (pout := mkParameters 6 1 CARTESIAN UNKNOWN_OUTPUT). set (val := fun _ : list R => Ok [1; 1; 1]).
  assert (Ri : regular pin) by (split; [apply named_cart|split; [reflexivity|cbn; lia]]). assert (Ro : regular pout) by (split; [apply named_cart|split; [reflexivity|cbn; lia]]).
  assert (Hv : forall w y, val w = Ok y -> length y = dimY pin) by (intros w y H; apply Ok_inj in H; subst; reflexivity).
  exists 0, pin, pout, val, [[0; 0; 1; 0; 0; 1; 5]], [[0; 0; 1; 0; 0; 1; 8 / 3]]. split; [assumption|]. split; [assumption|]. split; [assumption|].
  assert (Hs : Forall (sample_of pout) [[0; 0; 1; 0; 0; 1; 5]]) by (repeat constructor). split; [assumption|]. split; [reflexivity|]. split; [|eexists; split; reflexivity].
  apply (interpolate_iff 0 pin pout val Ri Ro Hv [0%nat]); [apply Permutation_refl|assumption|]. split; [reflexivity|]. intros [|i] x y Hx Hy; [|destruct i; discriminate]. injection Hx as <-. injection Hy as <-.
  assert (K : converts [0; 0; 1; 0; 0; 1; 5] CARTESIAN CARTESIAN [0; 0; 1; 0; 0; 1]) by (apply (converts_same [0; 0; 1; 0; 0; 1; 5] CARTESIAN named_cart); cbn; lia).
  assert (K2 : converts [0; 0; 1; 0; 0; 1] CARTESIAN CARTESIAN [0; 0; 1; 0; 0; 1]) by (apply (converts_same [0; 0; 1; 0; 0; 1] CARTESIAN named_cart); cbn; lia).
  exists [1; 1; 1], [8 / 3]. split; [apply (seen _ _ _ _ _ [0; 0; 1; 0; 0; 1] [0; 0; 1; 0; 0; 1]); cbn [nth]; try assumption; try lra; reflexivity|]. split; [|reflexivity].
  apply averaged; [cbn; lia|reflexivity|]. f_equal. cbn. field.
Qed.
Print Assumptions C77_average_refuted.
Example C77_case : Permutation [1%nat; 0%nat] (seq 0 (length [[0; 0; 1; 0; 0; 1; 5]; [0; 0; -1; 0; 0; 1; 5]])) /\
  interpolated (mkParameters 6 1 CARTESIAN UNKNOWN_OUTPUT) (mkParameters 6 1 CARTESIAN UNKNOWN_OUTPUT) (fun _ => Ok [2]) [0; 0; -1; 0; 0; 1; 5] [0; 0; -1; 0; 0; 1; 0].
Proof.
  split; [cbn; constructor|]. exists [0], [0]. split; [|split; [apply same_channels; reflexivity|reflexivity]].
  apply (unseen _ _ _ _ _ [0; 0; -1; 0; 0; 1]); [apply (converts_same [0; 0; -1; 0; 0; 1; 5] CARTESIAN named_cart); cbn; lia|cbn; lra|reflexivity].
Qed.

(** ** C78: brdf2data *)
Theorem C78_export : forall junk pf pd val diff rows out, usable pf -> regular pd -> Forall (sample_of pd) rows ->
  (brdf2data junk pf pd val diff rows = Ok out <-> pointwise (exported pf pd val diff) rows out).
Proof. intros. apply brdf2data_iff; try assumption. apply sized. assumption. Qed.
Print Assumptions C78_export.

(** measured = exported value + exported difference *)
Theorem C78_value_and_difference : forall junk pf pd val rows a b, usable pf -> regular pd -> Forall (sample_of pd) rows ->
  brdf2data junk pf pd val false rows = Ok a -> brdf2data junk pf pd val true rows = Ok b ->
  forall i r x y c, nth_error rows i = Some r -> nth_error a i = Some x -> nth_error b i = Some y -> (c < dimY pd)%nat ->
  nth c (values pd r) 0 = nth c (values pd x) 0 + nth c (values pd y) 0.
Proof.
  intros junk pf pd val rows a b Hu Rd Hs Ha Hb i r x y c Hr Hx Hy Hc. apply C78_export in Ha; try assumption. apply C78_export in Hb; try assumption. destruct Ha as [_ Ha], Hb as [_ Hb].
  assert (Sr : sample_of pd r) by (rewrite Forall_forall in Hs; apply Hs; apply nth_error_In in Hr; assumption).
  destruct (Ha i r x Hr Hx) as (w & v & z & A & V & L & -> & ->), (Hb i r y Hr Hy) as (w' & v' & z' & A' & V' & L' & [Lz Z] & ->).
  rewrite (argument_fun _ _ _ _ _ A' A) in V'. rewrite V in V'. apply Ok_inj in V'. subst v'. rewrite !values_of_written by assumption. rewrite Z; [lra|]. unfold values. rewrite skipn_length. unfold sample_of in Sr. lia.
Qed.
Print Assumptions C78_value_and_difference.

(** exporting a second time changes nothing, and the difference with what was
    exported is zero *)
Theorem C78_export_twice : forall junk pf pd val rows out, usable pf -> regular pd -> (in_param pf = UNKNOWN_INPUT -> (dimX pf <= dimX pd)%nat) -> Forall (sample_of pd) rows ->
  brdf2data junk pf pd val false rows = Ok out ->
  brdf2data junk pf pd val false out = Ok out /\ brdf2data junk pf pd val true out = Ok (List.map (fun r => firstn (dimX pd) r ++ repeat 0 (dimY pd)) rows).
Proof. intros. apply export_twice; assumption. Qed.
Print Assumptions C78_export_twice.

(** the root mean square of the exported differences is the L2 distance of C30 *)
Theorem C78_rms : forall junk pf pd val rows out d, usable pf -> regular pd -> dimY pf = dimY pd -> Forall (sample_of pd) rows ->
  brdf2data junk pf pd val true rows = Ok out -> DistModel.L2_distance junk pf pd (fun m => val (vec_of pf m)) rows = Ok d ->
  d = sqrt (fold_right Rplus 0 (List.map (fun o => MetricsSpec.total (fun x => x * x) (values pd o)) out) / INR (length rows)).
Proof. intros. eapply export_rms; eassumption. Qed.
Print Assumptions C78_rms.
Example C78_case : usable conv_par /\ regular conv_par /\ exported conv_par conv_par (fun x => Ok [nth 0 x 0]) true [1 / 2; 7] [1 / 2; 7 - 1 / 2].
Proof.
  split; [right; split; [apply named_iff; reflexivity|reflexivity]|]. split; [apply C76_case|]. exists [1 / 2], [1 / 2], [7 - 1 / 2].
  split; [right; split; [discriminate|]; apply (converts_same [1 / 2; 7] COS_TLV); [apply named_iff; reflexivity|cbn; lia]|]. split; [reflexivity|]. split; [reflexivity|]. split; [|reflexivity].
  split; [reflexivity|]. intros [|c] Hc; cbn in Hc; [reflexivity|lia].
Qed.

(** ** C79: brdf2gnuplot *)
Theorem C79_lines : forall junk pf pd val p cosine rows lines, usable pf -> regular pd -> Forall (sample_of pd) rows ->
  (plot_lines junk pf pd val p cosine 0 rows = Ok lines <->
   length rows = length lines /\ forall i r l, nth_error rows i = Some r -> nth_error lines i = Some l -> plotted pf pd val (kind_of p) cosine i r l).
Proof. intros junk pf pd val p cosine rows lines Hu Rd Hs. apply (plot_lines_iff junk pf pd val Hu (sized pd Rd) p cosine rows 0 lines Hs). Qed.
Print Assumptions C79_lines.

Theorem C79_polar : forall junk pf val inc n lines, named_input (in_param pf) -> dimX pf = dimn (in_param pf) ->
  (polar_plot junk pf val inc n = Ok lines <->
   length lines = (2 * n)%nat /\ forall i, (i < n)%nat -> let tv := PI / 2 * INR i / INR n in
     (exists l, nth_error lines i = Some l /\ polar pf val inc tv PI (- tv) l) /\ (exists l, nth_error lines (n + i) = Some l /\ polar pf val inc tv 0 tv l)).
Proof. intros. apply polar_plot_iff; assumption. Qed.
Print Assumptions C79_polar.
Example C79_case : plotted conv_par conv_par (fun x => Ok [nth 0 x 0]) KRelative false 3 [1 / 2; 7] [INR 3; (7 - 1 * (1 / 2)) / 7].
Proof.
  exists [1 / 2], [1 / 2], 1, [(7 - 1 * (1 / 2)) / 7]. split; [right; split; [discriminate|]; apply (converts_same [1 / 2; 7] COS_TLV); [apply named_iff; reflexivity|cbn; lia]|]. split; [reflexivity|]. split; [cbn; lia|]. split; [reflexivity|]. split; [reflexivity|]. split; [|reflexivity].
  intros [|u] Hlt; cbn in Hlt; [reflexivity|lia].
Qed.

(** ** C80: fit2stat *)
(** the data in the parametrization of the function *)
Theorem C80_conversion : forall pf pd rows, regular pf -> regular pd -> Forall (sample_of pd) rows ->
  (in_param pd = in_param pf -> out_param pd = out_param pf -> adapt pf pd rows = Ok (pd, rows)) /\
  (in_param pd <> in_param pf -> out_param pd = out_param pf -> dimY pf = dimY pd -> forall out, adapt pf pd rows = Ok (pf, out) <-> pointwise (adapted pf pd) rows out) /\
  (in_param pd <> in_param pf -> out_param pd = out_param pf -> dimY pf <> dimY pd -> rows <> [] -> forall c, adapt pf pd rows <> Ok c) /\
  (in_param pd = in_param pf -> out_param pd <> out_param pf -> dimY pd = dimY pf \/ dimY pd = 1%nat -> forall out, adapt pf pd rows = Ok (pf, out) <-> pointwise (rechanneled pf pd) rows out) /\
  (in_param pd <> in_param pf -> out_param pd <> out_param pf -> adapt pf pd rows = Abort).
Proof.
  intros pf pd rows Rf Rd Hs. split; [intros; apply adapt_same; assumption|]. split; [intros; apply adapt_input; assumption|]. split; [intros; apply adapt_input_channels; assumption|].
  split; [intros; apply adapt_output_plain; assumption|intros; apply adapt_both; assumption].
Qed.
Print Assumptions C80_conversion.

(** three channels to one: the sum is never reset, every sample also counts in
    those that follow *)
Theorem C80_average_accumulates : forall pf pd rows, regular pf -> regular pd -> Forall (sample_of pd) rows -> in_param pd = in_param pf -> out_param pd <> out_param pf -> dimY pf = 1%nat -> (1 < dimY pd)%nat ->
  exists out a, adapt pf pd rows = Ok (pf, out) /\ length out = length rows /\ a 0%nat = 0 /\
    forall k r, nth_error rows k = Some r -> a (S k) = (a k + fold_right Rplus 0 (values pd r)) / INR (dimY pd) /\ nth_error out k = Some (firstn (dimX pd) r ++ [a (S k)]).
Proof. intros. apply adapt_output_average; assumption. Qed.
Print Assumptions C80_average_accumulates.
Theorem C80_average_refuted : exists pf pd rows out, regular pf /\ regular pd /\ Forall (sample_of pd) rows /\ (forall r, In r rows -> values pd r = [3; 3; 3]) /\
  adapt pf pd rows = Ok (pf, out) /\ exists o, nth_error out 1 = Some o /\ values pf o = [4].
Proof.
  set (pd := mkParameters 6 3 CARTESIAN RGB_COLOR). set (pf := mkParameters 6 1 CARTESIAN UNKNOWN_OUTPUT). set (r := [0; 0; 1; 0; 0; 1; 3; 3; 3]).
  assert (Rd : regular pd) by (split; [apply named_cart|split; [reflexivity|cbn; lia]]). assert (Rf : regular pf) by (split; [apply named_cart|split; [reflexivity|cbn; lia]]).
  assert (Hs : Forall (sample_of pd) [r; r]) by (repeat constructor).
  destruct (C80_average_accumulates pf pd [r; r] Rf Rd Hs eq_refl ltac:(discriminate) eq_refl ltac:(cbn; lia)) as (out & a & E & L & A0 & P).
  exists pf, pd, [r; r], out. split; [assumption|]. split; [assumption|]. split; [assumption|]. split; [intros x [<-|[<-|[]]]; reflexivity|]. split; [assumption|].
  destruct (P 0%nat r eq_refl) as [E1 _]. destruct (P 1%nat r eq_refl) as [E2 N2]. eexists. split; [exact N2|]. rewrite A0 in E1. cbn in E1, E2. assert (E4 : a 2%nat = 4) by (rewrite E2, E1; field). rewrite E4. reflexivity.
Qed.
Print Assumptions C80_average_refuted.

(** the reported numbers are those of the errors measured - evaluated *)
Theorem C80_statistics : forall pf val pd rows rep, fit2stat pf val pd rows = Ok rep -> forall pc conv, adapt pf pd rows = Ok (pc, conv) -> Forall (sample_of pc) conv ->
  exists errs, pointwise (error_at pc val) conv errs /\ reports (dimY pf) (plain rep) errs /\
    weighted_report (dimY pf) errs (List.map (fun r => nth 2 r 0) conv) (by_light rep) /\
    weighted_report (dimY pf) errs (List.map (fun r => nth 2 r 0 * nth 5 r 0) conv) (by_both rep).
Proof. exact fit2stat_ok. Qed.
Print Assumptions C80_statistics.
Theorem C80_completes : forall pf val pd rows pc conv errs, adapt pf pd rows = Ok (pc, conv) -> in_param pf = CARTESIAN -> (6 <= dimX pc)%nat -> dimY pc = dimY pf -> Forall (sample_of pc) conv ->
  pointwise (error_at pc val) conv errs -> exists rep, fit2stat pf val pd rows = Ok rep.
Proof. exact fit2stat_defined. Qed.
Print Assumptions C80_completes.
(** only functions in CARTESIAN coordinates get that far *)
Theorem C80_cartesian_only : forall pf val pd rows, in_param pf <> CARTESIAN -> forall rep, fit2stat pf val pd rows <> Ok rep.
Proof. intros pf val pd rows N rep H. apply N. apply (fit2stat_cartesian _ _ _ _ _ H). Qed.
Print Assumptions C80_cartesian_only.
Example C80_case : let p := mkParameters 6 1 CARTESIAN UNKNOWN_OUTPUT in
  adapt p p [[0; 0; 1; 0; 0; 1; 5]] = Ok (p, [[0; 0; 1; 0; 0; 1; 5]]) /\ pointwise (error_at p (fun _ => Ok [2])) [[0; 0; 1; 0; 0; 1; 5]] [[3]].
Proof.
  split; [reflexivity|]. split; [reflexivity|]. intros [|i] x y Hx Hy; [|destruct i; discriminate]. injection Hx as <-. injection Hy as <-. exists [2]. split; [reflexivity|]. split; [reflexivity|]. split; [reflexivity|].
  intros [|c] Hc; cbn in Hc; [cbn; lra|lia].
Qed.

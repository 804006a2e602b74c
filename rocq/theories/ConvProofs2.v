(** Proofs for C76-C78. *)
From Coq Require Import Reals List Lia Lra FunctionalExtensionality Permutation.
From Verif Require Import Base ParamsModel ParamsProofs GeoModel GeoSpec GeoProofs GeoApi GeoRoundtrip CommonModel TextModel TextProofs NlMoreModel FuncModel MetricsModel MetricsProofs FitModel FitProofs NlGrad ConvModel ConvSpec ConvProofs.
Open Scope R_scope.

(** ** the target of data2data *)
Lemma nth_error_repeat {A} (a : A) n i x : nth_error (repeat a n) i = Some x -> x = a.
Proof. intros H. apply nth_error_In in H. apply (repeat_spec _ _ _ H). Qed.
Lemma nth_error_ex {A} (l : list A) i : (i < length l)%nat -> exists x, nth_error l i = Some x.
Proof. intros H. apply nth_error_Some in H. destruct (nth_error l i); [eauto|congruence]. Qed.

Lemma target_named pin p : named_input p -> compute_parameters pin (get_name_in p) = Some (mkParameters (dimn p) (dimY pin) p (out_param pin)).
Proof.
  intros Hp. unfold compute_parameters. rewrite (proj2 (parse_get_name_in p) (or_introl Hp)). destruct (input_eqb_spec p UNKNOWN_INPUT) as [->|_]; [|reflexivity].
  exfalso. apply named_iff in Hp. discriminate.
Qed.
Lemma parse_unnamed arg : (forall p, named_input p -> arg <> get_name_in p) -> parse_input arg = UNKNOWN_INPUT.
Proof.
  intros H. destruct (input_eqb_spec (parse_input arg) UNKNOWN_INPUT) as [E|N]; [assumption|].
  pose proof (parse_input_sound _ _ eq_refl N) as E. assert (G : parse_input (get_name_in (parse_input arg)) = parse_input arg) by (rewrite <- E; reflexivity).
  apply parse_get_name_in in G. destruct G as [G|G]; [|contradiction]. exfalso. apply (H _ G E).
Qed.
Lemma target_kept pin arg : (forall p, named_input p -> arg <> get_name_in p) -> named_input (in_param pin) ->
  compute_parameters pin arg = Some (mkParameters (dimn (in_param pin)) (dimY pin) (in_param pin) (out_param pin)).
Proof.
  intros H Hn. unfold compute_parameters. rewrite (parse_unnamed _ H). destruct (input_eqb_spec UNKNOWN_INPUT UNKNOWN_INPUT) as [_|n]; [|congruence].
  destruct (input_eqb_spec (in_param pin) UNKNOWN_INPUT) as [E|_]; [|reflexivity]. exfalso. rewrite E in Hn. apply named_iff in Hn. discriminate.
Qed.
Lemma target_none pin arg : (forall p, named_input p -> arg <> get_name_in p) -> in_param pin = UNKNOWN_INPUT -> compute_parameters pin arg = None.
Proof. intros H E. unfold compute_parameters. rewrite (parse_unnamed _ H), E. reflexivity. Qed.

Lemma target_regular pin arg pout : regular pin -> compute_parameters pin arg = Some pout -> regular pout /\ dimY pout = dimY pin /\ out_param pout = out_param pin.
Proof.
  intros (Ni & Xi & Yi). assert (D : (forall p, named_input p -> arg <> get_name_in p) \/ exists p, named_input p /\ arg = get_name_in p).
  { destruct (input_eqb_spec (parse_input arg) UNKNOWN_INPUT) as [E|N].
    - left. intros p Hp Ha. subst arg. rewrite (proj2 (parse_get_name_in p) (or_introl Hp)) in E. subst p. apply named_iff in Hp. discriminate.
    - right. exists (parse_input arg). pose proof (parse_input_sound _ _ eq_refl N) as E. split; [|assumption].
      assert (G : parse_input (get_name_in (parse_input arg)) = parse_input arg) by (rewrite <- E; reflexivity). apply parse_get_name_in in G. destruct G; [assumption|contradiction]. }
  destruct D as [H|(p & Hp & ->)].
  - rewrite (target_kept _ _ H Ni). intros E. injection E as <-. repeat split; assumption.
  - rewrite (target_named _ _ Hp). intros E. injection E as <-. repeat split; assumption.
Qed.

(** ** data2data *)
Section D2D.
Variable junk : R.
Variable pin pout : parameters.
Variable all : bool.
Hypothesis Rin : regular pin.
Hypothesis Rout : regular pout.
Hypothesis HY : dimY pout = dimY pin.
Let blank n := repeat (repeat 0 (dimX pout + dimY pout)) n.

Lemma splat_spec rows out : Forall (sample_of pin) rows -> splat junk pin pout all rows (blank (length rows)) = Ok out -> pointwise (converted pin pout all) rows out.
Proof.
  intros HD H. unfold splat in H. destruct (each _ 0 rows _) as [[t' out']| | |] eqn:E; cbn [bind] in H; try discriminate. apply Ok_inj in H. cbn [snd] in H. subst out'.
  destruct (each_rows (splat_row pin pout all) (splat_rel pin pout all) (sample_of pin) (fun i r t o t' o' Hd => splat_step pin pout all Rin Rout HY i r t o t' o' Hd) rows 0 _ _ _ _ HD (Nat.eq_le_incl _ _ (eq_sym (repeat_length _ _))) E) as (L & P & _).
  unfold blank in L. rewrite repeat_length in L. split; [symmetry; exact L|]. intros i x y Hx Hy. destruct (P i x Hx) as (old & o & A & B & C). cbn [Nat.add] in A, B. rewrite Hy in B. injection B as <-.
  apply nth_error_repeat in A. subst old. destruct C as (_ & _ & w & Cw & [(V & _ & ->)|((Ha & V) & ->)]); [eapply kept|eapply blanked]; eauto.
Qed.
Lemma splat_defined rows : Forall (sample_of pin) rows ->
  ((exists out, splat junk pin pout all rows (blank (length rows)) = Ok out) <->
   (rows = [] \/ ~ In (in_param pout) no_rule_list) /\ Forall (fun r => exists w, converts r (in_param pin) (in_param pout) w) rows).
Proof.
  intros HD. split.
  - intros [out H]. unfold splat in H. destruct (each _ 0 rows _) as [[t' out']| | |] eqn:E; cbn [bind] in H; try discriminate. clear H.
    destruct (each_rows (splat_row pin pout all) (splat_rel pin pout all) (sample_of pin) (fun i r t o t' o' Hd => splat_step pin pout all Rin Rout HY i r t o t' o' Hd) rows 0 _ _ _ _ HD (Nat.eq_le_incl _ _ (eq_sym (repeat_length _ _))) E) as (_ & P & _).
    split.
    + destruct rows as [|r rows]; [left; reflexivity|]. right. destruct (P 0%nat r eq_refl) as (_ & _ & _ & _ & _ & Nr & _). assumption.
    + apply Forall_forall. intros r Hr. apply In_nth_error in Hr. destruct Hr as [k Hk]. destruct (P k r Hk) as (_ & _ & _ & _ & _ & _ & w & Cw & _). eauto.
  - intros [Nr HC]. unfold splat.
    destruct (each_total (splat_row pin pout all) (splat_rel pin pout all) (sample_of pin) (fun i r t o t' o' Hd => splat_step pin pout all Rin Rout HY i r t o t' o' Hd) (splat_total pin pout all Rin Rout HY) rows 0 (fun _ => junk) (blank (length rows)) HD) as [[t' out'] E].
    + intros k r Hk. assert (Hl : (k < length rows)%nat) by (apply nth_error_Some; congruence). assert (Hr : In r rows) by (apply nth_error_In in Hk; assumption).
      destruct Nr as [->|Nr]; [destruct Hr|]. rewrite Forall_forall in HD, HC. destruct (HC r Hr) as [w Cw].
      exists (repeat 0 (dimX pout + dimY pout)). destruct (nth_error_ex (blank (length rows)) k) as [old Ho]; [unfold blank; rewrite repeat_length; assumption|]. pose proof (nth_error_repeat _ _ _ _ Ho). subst old.
      assert (Dv : (all = true \/ visible w (in_param pout)) \/ (all = false /\ ~ visible w (in_param pout))).
      { destruct all; [auto|]. destruct (above_total (row_mem w) _ Nr) as [b Eb]. pose proof (above_spec (row_mem w) _ w b (proj1 Rout) ltac:(reflexivity) Eb) as V. destruct b; [left; right; apply V; reflexivity|right; split; [reflexivity|]; rewrite <- V; discriminate]. }
      destruct Dv as [Dv|Dv]; eexists; (split; [exact Ho|]); (split; [apply HD; assumption|]); (split; [assumption|]); exists w; (split; [assumption|]); [left|right]; (split; [assumption|]); [split; [apply repeat_length|reflexivity]|reflexivity].
    + exists out'. match goal with |- bind ?x _ = _ => replace x with (Ok (t', out')) by (symmetry; exact E) end. reflexivity.
Qed.
End D2D.

Lemma pointwise_eq a b : pointwise eq a b -> a = b.
Proof.
  intros [L H]. revert b L H. induction a as [|x a IH]; intros [|y b] L H; try discriminate; [reflexivity|]. f_equal; [apply (H 0%nat); reflexivity|]. apply IH; [cbn in L; lia|]. intros i. apply (H (S i)).
Qed.
Lemma pointwise_impl (P Q : list R -> list R -> Prop) a b : (forall x y, In x a -> P x y -> Q x y) -> pointwise P a b -> pointwise Q a b.
Proof. intros H [L F]. split; [assumption|]. intros i x y Hx Hy. apply H; [apply nth_error_In in Hx; assumption|apply (F i); assumption]. Qed.
Lemma pointwise_sample (P : list R -> list R -> Prop) a b (D : list R -> Prop) : (forall x y, P x y -> D y) -> pointwise P a b -> Forall D b.
Proof.
  intros H [L F]. apply Forall_forall. intros y Hy. apply In_nth_error in Hy. destruct Hy as [i Hi]. destruct (nth_error_ex a i) as [x Hx]; [rewrite L; apply nth_error_Some; congruence|]. apply (H x). apply (F i); assumption.
Qed.

(** a copy *)
Lemma split_row p r : sample_of p r -> firstn (dimX p) r ++ values p r = r.
Proof. intros _. apply firstn_skipn. Qed.
Lemma converted_same pin pout all r o : regular pin -> in_param pout = in_param pin -> sample_of pin r -> (all = true \/ visible r (in_param pin)) -> converted pin pout all r o -> o = r.
Proof.
  intros (Ni & Xi & Yi) E Hr V C. assert (Cs : converts r (in_param pin) (in_param pout) (firstn (dimX pin) r)) by (rewrite E, Xi; apply converts_same; [assumption|unfold sample_of in Hr; lia]).
  destruct C as [w Cw _ ->|w Cw Ha Nv _]; rewrite (converts_fun _ _ _ _ _ Cw Cs) in *; [apply split_row; assumption|].
  exfalso. destruct V as [V|(c & K & V)]; [congruence|]. apply Nv. exists c. split; [|assumption]. rewrite E. apply (converts_reads r); [assumption| |assumption].
  intros j Hj. rewrite <- Xi in Hj. rewrite <- (firstn_skipn (dimX pin) r) at 1. apply app_nth1. rewrite firstn_length. unfold sample_of in Hr. lia.
Qed.
Lemma converted_sample pin pout all r o : dimX pout = dimn (in_param pout) -> dimY pout = dimY pin -> sample_of pin r -> converted pin pout all r o -> sample_of pout o.
Proof.
  intros X Y Hr [w Cw _ ->|w _ _ _ ->]; unfold sample_of in *; [|apply repeat_length]. rewrite app_length, (converts_length _ _ _ _ Cw). unfold values. rewrite skipn_length. lia.
Qed.

(** there and back *)
Definition cart_of (pin : parameters) : parameters := mkParameters 6 (dimY pin) CARTESIAN (out_param pin).
Lemma converted_back pin all r o o' : regular pin -> sample_of pin r -> rt_domain (in_param pin) (row_mem r) -> all = true ->
  converted pin (cart_of pin) all r o -> converted (cart_of pin) pin all o o' -> o' = r.
Proof.
  intros (Ni & Xi & Yi) Hr Hd -> [w Cw _ ->|w _ Ha _ _] [w' Cw' _ ->|w' _ Ha' _ _]; try discriminate.
  change (in_param (cart_of pin)) with CARTESIAN in *. assert (Lw : length w = 6%nat) by (rewrite (converts_length _ _ _ _ Cw); reflexivity).
  assert (Vs : values (cart_of pin) (w ++ values pin r) = values pin r) by (unfold values at 1; cbn [dimX cart_of]; rewrite skipn_app, Lw, Nat.sub_diag, skipn_all2 by lia; reflexivity).
  rewrite Vs. transitivity (firstn (dimX pin) r ++ values pin r); [|apply split_row; assumption]. f_equal.
  unfold sample_of in Hr. assert (Cw2 : converts w CARTESIAN (in_param pin) w').
  { apply (converts_reads (w ++ values pin r)); [apply named_cart| |assumption]. intros j Hj. apply app_nth1. rewrite Lw. exact Hj. }
  destruct (input_eqb_spec (in_param pin) CARTESIAN) as [E|N].
  - rewrite E in *. assert (Lr : (6 <= length r)%nat) by (change (dimn CARTESIAN) with 6%nat in Xi; lia). rewrite Xi.
    pose proof (converts_same r CARTESIAN named_cart Lr) as K. rewrite (converts_fun _ _ _ _ _ Cw K) in *. clear K. change (dimn CARTESIAN) with 6%nat in *.
    pose proof (converts_same (firstn 6 r) CARTESIAN named_cart) as K. assert (L6 : (dimn CARTESIAN <= length (firstn 6 r))%nat) by (rewrite firstn_length; change (dimn CARTESIAN) with 6%nat; lia). rewrite (converts_fun _ _ _ _ _ Cw2 (K L6)). change (dimn CARTESIAN) with 6%nat. rewrite firstn_firstn. reflexivity.
  - destruct (round_trip_domain _ _ Hd (fun _ => 0) (fun _ => 0)) as (t & o & Ht & Ho & Hi).
    destruct Cw as (t' & Ht' & ->). rewrite convert_to_cartesian in Ht' by assumption. rewrite Ht in Ht'. apply Ok_inj in Ht'. subst t'.
    destruct Cw2 as (o2 & Ho2 & ->). assert (E2 : convert t CARTESIAN (in_param pin) (fun _ => 0) = Ok o2).
    { rewrite <- Ho2. apply conv_reads; [apply named_cart|]. intros j Hj. symmetry. unfold row_mem. apply nth_map_seq. exact Hj. }
    unfold convert in E2. destruct (input_eqb_spec CARTESIAN (in_param pin)) as [E|_]; [congruence|]. change (input_eqb CARTESIAN CARTESIAN) with true in E2. cbv iota in E2. rewrite Ho in E2. apply Ok_inj in E2. subst o2.
    rewrite Xi, <- map_nth_seq by lia. apply map_seq_agree. intros j Hj. apply Hi. unfold dimn in Hj. apply dimension_named in Ni. lia.
Qed.

(** Proofs for C77 and C78. *)
From Coq Require Import Reals List Lia Lra FunctionalExtensionality Permutation.
From Verif Require Import Base ParamsModel ParamsProofs GeoModel GeoSpec GeoProofs GeoApi CommonModel TextModel TextProofs NlMoreModel FuncModel MetricsModel MetricsProofs FitModel FitProofs ConvModel ConvSpec ConvProofs ConvProofs2.
Open Scope R_scope.

Section Interp.
Variable junk : R.
Variable pin pout : parameters.
Variable val : list R -> outcome (list R).
Hypothesis Rin : regular pin.
Hypothesis Rout : regular pout.
Hypothesis Hval : forall w y, val w = Ok y -> length y = dimY pin.

Lemma channels_ok y old out0 : length y = dimY pin -> length old = dimY pout -> (forall j, (j < dimY pout)%nat -> out0 j = nth j old 0) ->
  (forall z, channels (dimY pin) (dimY pout) y old z -> exists o, convert_out (fun j => nth j y 0) (dimY pin) (dimY pout) out0 = Ok o /\ List.map o (seq 0 (dimY pout)) = z) /\
  (forall o, convert_out (fun j => nth j y 0) (dimY pin) (dimY pout) out0 = Ok o -> channels (dimY pin) (dimY pout) y old (List.map o (seq 0 (dimY pout)))).
Proof.
  intros Ly Lo Ho. destruct Rin as (_ & _ & Yi). destruct (convert_out_cases (fun j => nth j y 0) (dimY pin) (dimY pout) out0) as (C1 & C2 & C3 & C4).
  assert (K : forall o z, convert_out (fun j => nth j y 0) (dimY pin) (dimY pout) out0 = Ok o -> channels (dimY pin) (dimY pout) y old z -> List.map o (seq 0 (dimY pout)) = z).
  { intros o z E [Hs ->|H1 H2 ->|H1 H2 ->].
    - destruct (C1 Hs) as (o' & E' & A & _). rewrite E in E'. apply Ok_inj in E'. subst o'. rewrite <- (firstn_all y), Ly, Hs, <- map_nth_seq by lia. apply map_seq_agree. assumption.
    - destruct (C2 H1) as (o' & E' & A & _). rewrite E in E'. apply Ok_inj in E'. subst o'. rewrite (map_seq_agree o (fun _ => hd 0 y) (dimY pout)); [|intros j Hj; rewrite A by assumption; destruct y; reflexivity].
      clear. generalize 0%nat. induction (dimY pout) as [|n IH]; intros s; [reflexivity|]. cbn. f_equal. apply IH.
    - destruct (C3 H2 H1) as (o' & E' & A & _). rewrite E in E'. apply Ok_inj in E'. subst o'. rewrite H2 in *. cbn [seq List.map]. f_equal. rewrite A. f_equal. f_equal.
      + rewrite Ho by lia. destruct old; reflexivity.
      + unfold total. rewrite map_nth_seq by lia. rewrite <- Ly, firstn_all. reflexivity. }
  split.
  - intros z Hz. assert (E : exists o, convert_out (fun j => nth j y 0) (dimY pin) (dimY pout) out0 = Ok o).
    { destruct Hz as [Hs _|H1 _ _|H1 H2 _]; [destruct (C1 Hs) as (o & E & _)|destruct (C2 H1) as (o & E & _)|destruct (C3 H2 H1) as (o & E & _)]; eauto. }
    destruct E as [o E]. exists o. split; [assumption|]. apply (K o z); assumption.
  - intros o E. destruct (Nat.eq_dec (dimY pin) (dimY pout)) as [Hs|Hs].
    + assert (Hz : channels (dimY pin) (dimY pout) y old y) by (apply same_channels; auto). rewrite (K _ _ E Hz). assumption.
    + destruct (Nat.eq_dec (dimY pin) 1) as [H1|H1].
      * assert (Hz : channels (dimY pin) (dimY pout) y old (repeat (hd 0 y) (dimY pout))) by (apply broadcast; [assumption|lia|reflexivity]). rewrite (K _ _ E Hz). assumption.
      * destruct (Nat.eq_dec (dimY pout) 1) as [H2|H2]; [|rewrite C4 in E by assumption; discriminate].
        assert (Hz : channels (dimY pin) (dimY pout) y old [(hd 0 old + fold_right Rplus 0 y) / INR (dimY pin)]) by (apply averaged; [lia|assumption|reflexivity]). rewrite (K _ _ E Hz). assumption.
Qed.

Lemma cart_nth x p c : named_input p -> converts x p CARTESIAN c -> forall out cart, convert (row_mem x) p CARTESIAN out = Ok cart -> nth 2 c 0 = cart 2%nat /\ nth 5 c 0 = cart 5%nat /\ forall j, (j < dimn CARTESIAN)%nat -> cart j = nth j c 0.
Proof.
  intros Hp Cc out cart E. destruct (proj1 (converts_iff _ _ _ _ out named_cart) Cc) as (o & E' & -> & _). rewrite E in E'. apply Ok_inj in E'. subst o.
  split; [reflexivity|]. split; [reflexivity|]. intros j Hj. rewrite nth_map_seq by assumption. reflexivity.
Qed.
Lemma cart_ex x p out cart : convert (row_mem x) p CARTESIAN out = Ok cart -> exists c, converts x p CARTESIAN c.
Proof. intros E. destruct (conv_any _ _ _ _ _ named_cart E (fun _ => 0)) as (o & E2 & _). eexists. exists o. eauto. Qed.
Lemma rleb_iff a b : (rleb a b = true <-> a <= b). Proof. apply rleb_spec. Qed.

(** the looked up value *)
Lemma lookup_spec x y (cart : mem) : convert (row_mem x) (in_param pout) CARTESIAN (fun _ => junk) = Ok cart ->
  (if rleb 0 (cart 2%nat) && rleb 0 (cart 5%nat) then
     if (dimX pin <? Z.to_nat (dimension_in (in_param pin)))%nat then UB else
     do temp <- convert cart CARTESIAN (in_param pin) (fun _ => junk); val (List.map temp (seq 0 (dimX pin)))
   else Ok (repeat 0 (dimY pin))) = Ok y <-> looked_up pin pout val x y.
Proof.
  intros E. destruct Rin as (Ni & Xi & Yi), Rout as (No & Xo & Yo). destruct (cart_ex _ _ _ _ E) as [c Cc]. destruct (cart_nth _ _ _ No Cc _ _ E) as (E2 & E5 & Ec).
  assert (Cr : forall out, convert cart CARTESIAN (in_param pin) out = convert (row_mem c) CARTESIAN (in_param pin) out) by (intros out; apply conv_reads; [apply named_cart|assumption]).
  fold (dimn (in_param pin)). rewrite Xi. destruct (Nat.ltb_spec (dimn (in_param pin)) (dimn (in_param pin))) as [|_]; [lia|].
  destruct (rleb 0 (cart 2%nat) && rleb 0 (cart 5%nat))%bool eqn:Eb.
  - apply andb_prop in Eb. rewrite !rleb_iff in Eb. destruct Eb as [B2 B5]. rewrite Cr. split.
    + destruct (convert (row_mem c) CARTESIAN (in_param pin) (fun _ => junk)) as [temp| | |] eqn:Et; cbn [bind]; try discriminate. intros Hv. apply (seen _ _ _ _ _ c (List.map temp (seq 0 (dimn (in_param pin))))); try assumption; try (rewrite ?E2, ?E5; assumption).
      * destruct (conv_any _ _ _ _ _ Ni Et (fun _ => 0)) as (o & Eo & A & _). exists o. split; [assumption|]. apply map_seq_agree. intros j Hj. symmetry. apply A. assumption.
      * apply (Hval _ _ Hv).
    + intros [c' w Cc' V2 V5 Cw Hv _|c' Cc' V _]; rewrite (converts_fun _ _ _ _ _ Cc' Cc) in *; [|lra].
      destruct (proj1 (converts_iff _ _ _ _ (fun _ => junk) Ni) Cw) as (o & Eo & -> & _). rewrite Eo. exact Hv.
  - split.
    + intros H. apply Ok_inj in H. subst y. apply (unseen _ _ _ _ _ c Cc); [|reflexivity]. rewrite E2, E5. apply Bool.andb_false_iff in Eb. destruct Eb as [Eb|Eb]; [left|right]; apply Rnot_le_lt; intros Hn; apply rleb_iff in Hn; congruence.
    + intros [c' w Cc' V2 V5 _ _ _|c' Cc' V ->]; rewrite (converts_fun _ _ _ _ _ Cc' Cc) in *; [|reflexivity].
      exfalso. rewrite E2 in V2. rewrite E5 in V5. apply rleb_iff in V2, V5. rewrite V2, V5 in Eb. discriminate.
Qed.
Lemma looked_up_length x y : looked_up pin pout val x y -> length y = dimY pin.
Proof. intros [c w _ _ _ _ _ L|c _ _ ->]; [assumption|apply repeat_length]. Qed.
Lemma looked_up_fun x y y' : looked_up pin pout val x y -> looked_up pin pout val x y' -> y = y'.
Proof.
  intros H H'. assert (Ex : exists c, converts x (in_param pout) CARTESIAN c) by (destruct H; eauto). destruct Ex as (c & o & Eo & _).
  destruct (conv_any _ _ _ _ _ named_cart Eo (fun _ => junk)) as (cart & E & _). apply (lookup_spec x y cart E) in H. apply (lookup_spec x y' cart E) in H'. rewrite H in H'. apply Ok_inj in H'. congruence.
Qed.
Lemma interpolated_fun x o o' : length x = (dimX pout + dimY pout)%nat -> interpolated pin pout val x o -> interpolated pin pout val x o' -> o = o'.
Proof.
  intros Lx (y & z & H & Hz & ->) (y' & z' & H' & Hz' & ->). rewrite <- (looked_up_fun _ _ _ H H') in Hz'. f_equal.
  destruct (channels_ok y (values pout x) (fun j => nth j (values pout x) 0) (looked_up_length _ _ H)) as [C _]; [unfold values; rewrite skipn_length; lia|reflexivity|].
  destruct (C z Hz) as (o1 & E1 & <-), (C z' Hz') as (o2 & E2 & <-). rewrite E1 in E2. apply Ok_inj in E2. subst. reflexivity.
Qed.
Lemma interpolated_sample x o : sample_of pout x -> interpolated pin pout val x o -> sample_of pout o.
Proof.
  intros Lx (y & z & H & Hz & ->). unfold sample_of in *. rewrite app_length, firstn_length.
  destruct (channels_ok y (values pout x) (fun j => nth j (values pout x) 0) (looked_up_length _ _ H)) as [C _]; [unfold values; rewrite skipn_length; lia|reflexivity|].
  destruct (C z Hz) as (o1 & _ & <-). rewrite map_length, seq_length. lia.
Qed.

Lemma interp_row_ok i out x : nth_error out i = Some x -> sample_of pout x -> forall out', interp_row junk pin pout val i out = Ok out' ->
  exists o, interpolated pin pout val x o /\ length out' = length out /\ nth_error out' i = Some o /\ forall j, j <> i -> nth_error out' j = nth_error out j.
Proof.
  intros Hi Lx out'. unfold interp_row. rewrite Hi. destruct (Nat.ltb_spec (length x) (Z.to_nat (dimension_in (in_param pout)))) as [|_]; [discriminate|].
  destruct (convert (row_mem x) (in_param pout) CARTESIAN (fun _ => junk)) as [cart| | |] eqn:Ec; cbn [bind]; try discriminate.
  match goal with |- bind ?e _ = _ -> _ => destruct e as [y| | |] eqn:Ey end; cbn [bind]; try discriminate. apply (lookup_spec x y cart Ec) in Ey.
  pose proof (looked_up_length _ _ Ey) as Ly. destruct (Nat.ltb_spec (length y) (dimY pin)) as [|_]; [discriminate|]. destruct (Nat.ltb_spec (length x) (dimX pout + dimY pout)) as [|_]; [discriminate|].
  unfold sample_of in Lx. assert (Lv : length (values pout x) = dimY pout) by (unfold values; rewrite skipn_length; lia).
  destruct (convert_out _ _ _ _) as [z| | |] eqn:Ez; cbn [bind]; try discriminate. intros Hs.
  destruct (channels_ok y (values pout x) (fun j => nth (dimX pout + j) x 0) Ly Lv) as [_ C].
  { intros j Hj. unfold values. clear. revert x. induction (dimX pout) as [|n IH]; intros x; [reflexivity|]. destruct x; [destruct j; reflexivity|]. apply IH. }
  specialize (C z Ez). destruct (set_row_ok _ _ _ _ Hs) as (_ & Hl & Hn & Ho & _). rewrite (skipn_all2 x) in Hn by lia. rewrite app_nil_r in Hn.
  eexists. split; [|split; [exact Hl|split; [exact Hn|exact Ho]]]. exists y, (List.map z (seq 0 (dimY pout))). auto.
Qed.
Lemma interp_row_total i out x o : nth_error out i = Some x -> sample_of pout x -> interpolated pin pout val x o -> exists out', interp_row junk pin pout val i out = Ok out'.
Proof.
  intros Hi Lx (y & z & H & Hz & _). unfold interp_row. rewrite Hi. destruct Rout as (No & Xo & Yo). unfold sample_of in Lx. fold (dimn (in_param pout)). destruct (Nat.ltb_spec (length x) (dimn (in_param pout))) as [|_]; [lia|].
  assert (Ex : exists c, converts x (in_param pout) CARTESIAN c) by (destruct H; eauto). destruct Ex as (c & Cc). destruct (proj1 (converts_iff _ _ _ _ (fun _ => junk) named_cart) Cc) as (cart & Ec & _ & _).
  rewrite Ec. cbn [bind]. rewrite (proj2 (lookup_spec x y cart Ec) H). cbn [bind]. pose proof (looked_up_length _ _ H) as Ly. destruct (Nat.ltb_spec (length y) (dimY pin)) as [|_]; [lia|].
  destruct (Nat.ltb_spec (length x) (dimX pout + dimY pout)) as [|_]; [lia|].
  assert (Lv : length (values pout x) = dimY pout) by (unfold values; rewrite skipn_length; lia).
  destruct (channels_ok y (values pout x) (fun j => nth (dimX pout + j) x 0) Ly Lv) as [C _].
  { intros j Hj. unfold values. clear. revert x. induction (dimX pout) as [|n IH]; intros x; [reflexivity|]. destruct x; [destruct j; reflexivity|]. apply IH. }
  destruct (C z Hz) as (zo & Ez & Ezz). rewrite Ez. cbn [bind]. apply (set_row_total _ _ _ x Hi). rewrite !app_length, firstn_length, map_length, seq_length, skipn_length. lia.
Qed.

Lemma interpolate_ok order : forall out out', NoDup order -> (forall i, In i order -> (i < length out)%nat) -> Forall (sample_of pout) out -> interpolate junk pin pout val order out = Ok out' ->
  length out' = length out /\ (forall i x o, In i order -> nth_error out i = Some x -> nth_error out' i = Some o -> interpolated pin pout val x o) /\ (forall i, ~ In i order -> nth_error out' i = nth_error out i).
Proof.
  induction order as [|i order IH]; intros out out' Nd Hin Hs H; cbn [interpolate] in H.
  - apply Ok_inj in H. subst. split; [reflexivity|]. split; [contradiction|reflexivity].
  - inversion_clear Nd as [|? ? Ni Nd']. destruct (nth_error_ex out i (Hin i (or_introl eq_refl))) as [x Hx]. assert (Sx : sample_of pout x) by (rewrite Forall_forall in Hs; apply Hs; apply nth_error_In in Hx; assumption).
    destruct (interp_row _ _ _ _ i out) as [out1| | |] eqn:E; cbn [bind] in H; try discriminate. destruct (interp_row_ok _ _ _ Hx Sx _ E) as (o & Io & L1 & O1 & F1).
    assert (Hs1 : Forall (sample_of pout) out1).
    { apply Forall_forall. intros r Hr. apply In_nth_error in Hr. destruct Hr as [k Hk]. destruct (Nat.eq_dec k i) as [->|Nk]; [rewrite O1 in Hk; injection Hk as <-; apply (interpolated_sample x); assumption|]. rewrite F1 in Hk by assumption. rewrite Forall_forall in Hs. apply Hs. apply nth_error_In in Hk. assumption. }
    destruct (IH out1 out' Nd' ltac:(intros k Hk; rewrite L1; apply Hin; right; assumption) Hs1 H) as (L & P & U). split; [congruence|]. split.
    + intros k x' o' [<-|Hk] Hx' Ho'.
      * rewrite U in Ho' by assumption. rewrite O1 in Ho'. injection Ho' as <-. rewrite Hx in Hx'. injection Hx' as <-. assumption.
      * apply (P k); [assumption| |assumption]. rewrite F1; [assumption|]. intros ->. contradiction.
    + intros k Hk. rewrite U by (intros Hn; apply Hk; right; assumption). apply F1. intros ->. apply Hk. left. reflexivity.
Qed.
Lemma interpolate_total order : forall out, NoDup order -> Forall (sample_of pout) out -> (forall i, In i order -> exists x o, nth_error out i = Some x /\ interpolated pin pout val x o) -> exists out', interpolate junk pin pout val order out = Ok out'.
Proof.
  induction order as [|i order IH]; intros out Nd Hs H; cbn [interpolate]; [eauto|]. inversion_clear Nd as [|? ? Ni Nd'].
  destruct (H i (or_introl eq_refl)) as (x & o & Hx & Ho). assert (Sx : sample_of pout x) by (rewrite Forall_forall in Hs; apply Hs; apply nth_error_In in Hx; assumption).
  destruct (interp_row_total _ _ _ _ Hx Sx Ho) as [out1 E]. rewrite E. cbn [bind]. destruct (interp_row_ok _ _ _ Hx Sx _ E) as (o1 & Io & L1 & O1 & F1). apply IH; [assumption| |].
  - apply Forall_forall. intros r Hr. apply In_nth_error in Hr. destruct Hr as [k Hk]. destruct (Nat.eq_dec k i) as [->|Nk]; [rewrite O1 in Hk; injection Hk as <-; apply (interpolated_sample x); assumption|]. rewrite F1 in Hk by assumption. rewrite Forall_forall in Hs. apply Hs. apply nth_error_In in Hk. assumption.
  - intros k Hk. destruct (H k (or_intror Hk)) as (x' & o' & Hx' & Ho'). exists x', o'. split; [|assumption]. rewrite F1; [assumption|]. intros ->. contradiction.
Qed.

Theorem interpolate_iff order out out' : Permutation order (seq 0 (length out)) -> Forall (sample_of pout) out ->
  interpolate junk pin pout val order out = Ok out' <-> pointwise (interpolated pin pout val) out out'.
Proof.
  intros Pm Hs. assert (Nd : NoDup order) by (apply (Permutation_NoDup (Permutation_sym Pm)); apply seq_NoDup).
  assert (Hin : forall i, In i order <-> (i < length out)%nat) by (intros i; split; [intros Hi; apply (Permutation_in _ Pm) in Hi; apply in_seq in Hi; lia|intros Hi; apply (Permutation_in _ (Permutation_sym Pm)); apply in_seq; lia]).
  assert (Fwd : forall out', interpolate junk pin pout val order out = Ok out' -> pointwise (interpolated pin pout val) out out').
  { intros o H. destruct (interpolate_ok order out o Nd (fun i Hi => proj1 (Hin i) Hi) Hs H) as (L & P & _). split; [congruence|]. intros i x y Hx Hy. apply (P i); [apply Hin; apply nth_error_Some; congruence|assumption|assumption]. }
  split; [apply Fwd|]. intros [L P]. destruct (interpolate_total order out Nd Hs) as [o1 H1].
  { intros i Hi. apply Hin in Hi. destruct (nth_error_ex out i Hi) as [x Hx]. destruct (nth_error_ex out' i ltac:(lia)) as [o Ho]. exists x, o. split; [assumption|]. apply (P i); assumption. }
  rewrite H1. f_equal. destruct (Fwd _ H1) as [L1 P1]. apply pointwise_eq. split; [congruence|]. intros i a b Ha Hb. destruct (nth_error_ex out i) as [x Hx]; [rewrite L1; apply nth_error_Some; congruence|].
  apply (interpolated_fun x); [rewrite Forall_forall in Hs; apply Hs; apply nth_error_In in Hx; assumption|apply (P1 i); assumption|apply (P i); assumption].
Qed.
End Interp.

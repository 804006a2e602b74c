(** Proofs for C76-C79. *)
From Coq Require Import Reals List Lia Lra FunctionalExtensionality Permutation.
From Verif Require Import Base ParamsModel ParamsProofs GeoModel GeoSpec GeoProofs GeoApi GeoRoundtrip CommonModel TextModel TextProofs NlMoreModel FuncModel MetricsModel MetricsProofs FitModel FitProofs ConvModel ConvSpec.
Open Scope R_scope.

(** ** conversions *)
Lemma conv_reads v w p q out : named_input p -> (forall j, (j < dimn p)%nat -> v j = w j) -> convert v p q out = convert w p q out.
Proof.
  intros Hp H. unfold convert. destruct (input_eqb_spec p q) as [<-|N].
  - f_equal. apply functional_extensionality. intros j. unfold copy. fold (dimn p). destruct (Nat.ltb_spec j (dimn p)); [apply H; assumption|reflexivity].
  - destruct (input_eqb_spec p CARTESIAN) as [->|N2]; [apply from_reads_only; intros j Hj; apply H; exact Hj|].
    destruct (input_eqb_spec q CARTESIAN) as [->|N3]; [apply to_reads_api; assumption|].
    rewrite (to_reads_api v w p _ Hp H). reflexivity.
Qed.
Lemma conv_any v p q out1 o1 : named_input q -> convert v p q out1 = Ok o1 -> forall out2, exists o2, convert v p q out2 = Ok o2 /\
  (forall j, (j < dimn q)%nat -> o2 j = o1 j) /\ (forall j, (dimn q <= j)%nat -> o2 j = out2 j).
Proof.
  intros Hq. unfold convert. destruct (input_eqb_spec p q) as [<-|N].
  - intros H out2. apply Ok_inj in H. subst o1. eexists. split; [reflexivity|]. unfold copy. fold (dimn p). split; intros j Hj; destruct (Nat.ltb_spec j (dimn p)); (reflexivity || lia).
  - assert (F : forall v' o, from_cartesian v' q out1 = Ok o -> forall out2, exists o2, from_cartesian v' q out2 = Ok o2 /\ (forall j, (j < dimn q)%nat -> o2 j = o j) /\ (forall j, (dimn q <= j)%nat -> o2 j = out2 j)).
    { intros v' o H out2. destruct (from_total _ _ _ out2 _ H) as [o2 H2]. exists o2. split; [assumption|]. destruct (from_frame _ _ _ _ Hq H) as [_ G]. destruct (from_frame _ _ _ _ Hq H2) as [F2 _].
      split; [intros j Hj; symmetry; apply (G _ _ H2); assumption|assumption]. }
    destruct (input_eqb_spec p CARTESIAN) as [->|N2]; [intros H out2; apply (F _ _ H)|].
    destruct (input_eqb_spec q CARTESIAN) as [->|N3].
    + intros H out2. destruct (MetricsProofs.to_total _ _ _ out2 _ H) as [o2 H2]. exists o2. split; [assumption|]. destruct (to_frame _ _ _ _ H) as [_ G]. destruct (to_frame _ _ _ _ H2) as [F2 _].
      split; [intros j Hj; symmetry; apply (G _ _ H2); assumption|exact F2].
    + destruct (to_cartesian v p (fun _ => 0)) as [t| | |]; cbn [bind]; try discriminate. intros H out2. apply (F _ _ H).
Qed.
Lemma map_seq_agree (f g : nat -> R) n : (forall j, (j < n)%nat -> f j = g j) -> List.map f (seq 0 n) = List.map g (seq 0 n).
Proof. intros H. apply List.map_ext_in. intros j Hj. apply in_seq in Hj. apply H. lia. Qed.
Lemma nth_map_seq (f : nat -> R) n j : (j < n)%nat -> nth j (List.map f (seq 0 n)) 0 = f j.
Proof. apply map_seq_nth. Qed.

(** [converts] for any destination *)
Lemma converts_iff r p q w out : named_input q -> converts r p q w <->
  exists o, convert (row_mem r) p q out = Ok o /\ w = List.map o (seq 0 (dimn q)) /\ forall j, (dimn q <= j)%nat -> o j = out j.
Proof.
  intros Hq. split.
  - intros (o & H & ->). destruct (conv_any _ _ _ _ _ Hq H out) as (o2 & H2 & A & B). exists o2. split; [assumption|]. split; [|assumption]. apply map_seq_agree. intros j Hj. symmetry. apply A. assumption.
  - intros (o & H & -> & _). destruct (conv_any _ _ _ _ _ Hq H (fun _ => 0)) as (o2 & H2 & A & B). exists o2. split; [assumption|]. apply map_seq_agree. intros j Hj. symmetry. apply A. assumption.
Qed.
Lemma converts_fun r p q w w' : converts r p q w -> converts r p q w' -> w = w'.
Proof. intros (o & H & ->) (o' & H' & ->). rewrite H in H'. apply Ok_inj in H'. subst. reflexivity. Qed.
Lemma converts_length r p q w : converts r p q w -> length w = dimn q.
Proof. intros (o & _ & ->). rewrite map_length, seq_length. reflexivity. Qed.
Lemma converts_reads r r' p q w : named_input p -> (forall j, (j < dimn p)%nat -> nth j r 0 = nth j r' 0) -> converts r p q w -> converts r' p q w.
Proof. intros Hp H (o & Ho & ->). exists o. split; [|reflexivity]. rewrite <- Ho. apply conv_reads; [assumption|]. intros j Hj. symmetry. apply H. assumption. Qed.
Lemma named_cart : named_input CARTESIAN.
Proof. apply named_iff. reflexivity. Qed.
Lemma map_nth_seq (l : list R) n : (n <= length l)%nat -> List.map (fun j => nth j l 0) (seq 0 n) = firstn n l.
Proof.
  revert n. induction l as [|a l IH]; intros [|n] H; cbn in H; try lia; [reflexivity|reflexivity|]. cbn [seq List.map firstn nth]. f_equal. rewrite <- seq_shift, List.map_map. apply IH. lia.
Qed.
Lemma converts_same r p : named_input p -> (dimn p <= length r)%nat -> converts r p p (firstn (dimn p) r).
Proof.
  intros Hp L. destruct (convert_same (row_mem r) p (fun _ => 0) Hp) as (o & H & A & _). exists o. split; [assumption|]. rewrite <- map_nth_seq by assumption. apply map_seq_agree. intros j Hj. symmetry. apply A. assumption.
Qed.

(** ** is_above_hemisphere on a converted position *)
Lemma above_spec t q w b : named_input q -> (forall j, (j < dimn q)%nat -> nth j w 0 = t j) -> is_above_hemisphere t q = Ok b -> (b = true <-> visible w q).
Proof.
  intros Hq E H. assert (C : is_above_hemisphere (row_mem w) q = Ok b) by (rewrite <- H; unfold is_above_hemisphere; rewrite (conv_reads (row_mem w) t); auto).
  clear H. unfold is_above_hemisphere in C. destruct (convert (row_mem w) q CARTESIAN (fun _ => 0)) as [c| | |] eqn:Ec; cbn [bind] in C; try discriminate. apply Ok_inj in C. subst b.
  assert (K : converts w q CARTESIAN (List.map c (seq 0 6))) by (exists c; auto). unfold visible. split.
  - intros H. apply andb_prop in H. destruct H as [H1 H2]. exists (List.map c (seq 0 6)). split; [assumption|]. cbn. destruct (Rle_dec 0 (c 2%nat)), (Rle_dec 0 (c 5%nat)); try discriminate. split; assumption.
  - intros (c' & K' & H1 & H2). rewrite (converts_fun _ _ _ _ _ K' K) in *. cbn in H1, H2. destruct (Rle_dec 0 (c 2%nat)), (Rle_dec 0 (c 5%nat)); try contradiction. reflexivity.
Qed.
Lemma above_total t q : ~ In q no_rule_list -> exists b, is_above_hemisphere t q = Ok b.
Proof. intros H. destruct (GeoApi.to_total t q (fun _ => 0) H) as [o Ho]. destruct (hemisphere_iff t q) as (b & o' & Hb & _); eauto. Qed.
Lemma above_no_rule t q : In q no_rule_list -> is_above_hemisphere t q = Abort.
Proof.
  intros H. unfold is_above_hemisphere. rewrite convert_no_rule; [reflexivity| |left; assumption]. intros ->. cbn in H. intuition discriminate.
Qed.

(** ** loops that handle one row at each iteration *)
Section Rows.
Context {T : Type}.
Variable body : nat -> list R -> T * list (list R) -> outcome (T * list (list R)).
Variable Q : list R -> list R -> list R -> Prop.
Variable D : list R -> Prop.
Hypothesis step : forall i r t out t' out', D r -> body i r (t, out) = Ok (t', out') -> nth_error out i <> None ->
  exists old o, nth_error out i = Some old /\ Q r old o /\ length out' = length out /\ nth_error out' i = Some o /\ forall j, j <> i -> nth_error out' j = nth_error out j.
Lemma each_rows rows : forall s t out t' out', Forall D rows -> (s + length rows <= length out)%nat -> each body s rows (t, out) = Ok (t', out') ->
  length out' = length out /\
  (forall k r, nth_error rows k = Some r -> exists old o, nth_error out (s + k) = Some old /\ nth_error out' (s + k) = Some o /\ Q r old o) /\
  (forall j, (j < s \/ s + length rows <= j)%nat -> nth_error out' j = nth_error out j).
Proof.
  induction rows as [|r rows IH]; intros s t out t' out' HD HL H; cbn [each] in H.
  - apply Ok_inj in H. injection H as -> ->. split; [reflexivity|]. split; [intros [|k] r Hr; discriminate|reflexivity].
  - inversion_clear HD as [|? ? HD1 HD2]. cbn [length] in HL. destruct (body s r (t, out)) as [[t1 out1]| | |] eqn:E; cbn [bind] in H; try discriminate.
    destruct (step _ _ _ _ _ _ HD1 E) as (old & o & A & B & C & F & G); [apply nth_error_Some; lia|]. assert (HL2 : (S s + length rows <= length out1)%nat) by lia. destruct (IH _ _ _ _ _ HD2 HL2 H) as (L & P & U).
    split; [lia|]. split.
    + intros [|k] r' Hr; cbn in Hr.
      * injection Hr as <-. exists old, o. rewrite Nat.add_0_r. split; [assumption|]. split; [|assumption]. rewrite U by lia. assumption.
      * destruct (P _ _ Hr) as (old' & o' & P1 & P2 & P3). exists old', o'. replace (s + S k)%nat with (S s + k)%nat by lia. split; [|split; assumption]. rewrite <- P1. symmetry. apply G. lia.
    + intros j Hj. cbn [length] in Hj. rewrite U by lia. apply G. lia.
Qed.
Hypothesis total : forall i r t out old o, nth_error out i = Some old -> Q r old o -> exists st, body i r (t, out) = Ok st.
Lemma each_total rows : forall s t out, Forall D rows -> (forall k r, nth_error rows k = Some r -> exists old o, nth_error out (s + k) = Some old /\ Q r old o) -> exists st, each body s rows (t, out) = Ok st.
Proof.
  induction rows as [|r rows IH]; intros s t out HD H; cbn [each]; [eauto|]. inversion_clear HD as [|? ? HD1 HD2].
  destruct (H 0%nat r eq_refl) as (old & o & A & B). rewrite Nat.add_0_r in A. destruct (total s r t out old o A B) as [[t1 out1] E]. rewrite E. cbn [bind].
  destruct (step _ _ _ _ _ _ HD1 E) as (_ & _ & _ & _ & _ & _ & F); [congruence|]. apply IH; [assumption|]. intros k r' Hr. destruct (H (S k) r' Hr) as (old' & o' & P1 & P2). exists old', o'. split; [|assumption].
  rewrite F by lia. rewrite <- P1. f_equal. lia.
Qed.
End Rows.

(** ** data2data without interpolation *)
Section Splat.
Variable junk : R.
Variable pin pout : parameters.
Variable all : bool.
Hypothesis Rin : regular pin.
Hypothesis Rout : regular pout.
Hypothesis HY : dimY pout = dimY pin.

Definition splat_rel (r old o : list R) : Prop :=
  sample_of pin r /\ ~ In (in_param pout) no_rule_list /\ exists w, converts r (in_param pin) (in_param pout) w /\
  ((all = true \/ visible w (in_param pout)) /\ length old = (dimX pout + dimY pout)%nat /\ o = w ++ values pin r \/ (all = false /\ ~ visible w (in_param pout)) /\ o = old).

Lemma map_app_seq (t : mem) a b : List.map t (seq 0 (a + b)) = List.map t (seq 0 a) ++ List.map (fun j => t (a + j)%nat) (seq 0 b).
Proof.
  rewrite seq_app, List.map_app. f_equal. cbn [Nat.add]. rewrite <- (Nat.add_0_r a) at 1. generalize 0%nat as s. induction b as [|b IH]; intros s; [reflexivity|]. cbn. f_equal. rewrite <- IH. f_equal. f_equal. lia.
Qed.
Lemma values_seq (r : list R) : sample_of pin r -> List.map (fun j => nth (dimX pin + j) r 0) (seq 0 (dimY pin)) = values pin r.
Proof.
  intros L. unfold values. assert (L2 : length (skipn (dimX pin) r) = dimY pin) by (rewrite skipn_length; unfold sample_of in L; lia).
  rewrite <- (firstn_all (skipn (dimX pin) r)), L2, <- map_nth_seq by lia. apply List.map_ext. intros j. clear. revert r. induction (dimX pin) as [|n IH]; intros r; [reflexivity|]. destruct r; [destruct j; reflexivity|]. apply IH.
Qed.

Lemma splat_written r w t1 t2 : sample_of pin r -> w = List.map t1 (seq 0 (dimn (in_param pout))) ->
  (forall j, (j < dimY pout)%nat -> t2 j = nth (dimX pin + j) r 0) ->
  temp_vec pout (fun j => if (j <? dimX pout)%nat then t1 j else t2 (j - dimX pout)%nat) = w ++ values pin r.
Proof.
  intros L -> H. unfold temp_vec. rewrite map_app_seq. destruct Rout as (_ & -> & _). f_equal.
  - apply map_seq_agree. intros j Hj. destruct (Nat.ltb_spec j (dimn (in_param pout))); [reflexivity|lia].
  - rewrite <- (values_seq r L), <- HY. apply map_seq_agree. intros j Hj. destruct (Nat.ltb_spec (dimn (in_param pout) + j) (dimn (in_param pout))); [lia|]. rewrite <- H by assumption. f_equal. lia.
Qed.

(** one iteration *)
Lemma splat_step i r t out t' out' : sample_of pin r -> splat_row pin pout all i r (t, out) = Ok (t', out') ->
  nth_error out i <> None ->
  exists old o, nth_error out i = Some old /\ splat_rel r old o /\ length out' = length out /\ nth_error out' i = Some o /\ forall j, j <> i -> nth_error out' j = nth_error out j.
Proof.
  intros Hr. unfold splat_row. destruct Rin as (Ni & Xi & Yi), Rout as (No & Xo & Yo).
  destruct (Nat.ltb_spec (length r) (Z.to_nat (dimension_in (in_param pin)))) as [|Lr]; [discriminate|].
  destruct (Nat.ltb_spec (dimX pout + dimY pout) (Z.to_nat (dimension_in (in_param pout)))) as [|Lo]; [discriminate|].
  destruct (convert (row_mem r) (in_param pin) (in_param pout) t) as [t1| | |] eqn:Ec; cbn [bind]; try discriminate.
  destruct (is_above_hemisphere t1 (in_param pout)) as [above| | |] eqn:Ea; cbn [bind]; try discriminate.
  assert (Nr : ~ In (in_param pout) no_rule_list) by (intros Hin; rewrite (above_no_rule t1 _ Hin) in Ea; discriminate).
  set (w := List.map t1 (seq 0 (dimn (in_param pout)))).
  assert (Cw : converts r (in_param pin) (in_param pout) w).
  { destruct (conv_any _ _ _ _ _ No Ec (fun _ => 0)) as (o2 & H2 & A & B). exists o2. split; [assumption|]. apply map_seq_agree. intros j Hj. symmetry. apply A. assumption. }
  assert (V : above = true <-> visible w (in_param pout)) by (apply (above_spec t1); [assumption| |assumption]; intros j Hj; unfold w; apply nth_map_seq; assumption).
  destruct (above || all)%bool eqn:Eb.
  - destruct (Nat.ltb_spec (length r) (dimX pin + dimY pin)) as [Hbad|_]; [discriminate|].
    destruct (convert_out_cases (fun j => row_mem r (dimX pin + j)%nat) (dimY pin) (dimY pout) (fun j => t1 (dimX pout + j)%nat)) as [Cs _].
    destruct (Cs (eq_sym HY)) as (t2 & H2 & A2 & _). rewrite H2. cbn [bind].
    rewrite (splat_written r w t1 t2 Hr eq_refl) by (intros j Hj; rewrite A2 by assumption; reflexivity).
    destruct (set_row i (w ++ values pin r) out) as [out1| | |] eqn:Es; cbn [bind]; try discriminate. intros H _. apply Ok_inj in H. injection H as -> ->.
    destruct (set_row_ok _ _ _ _ Es) as (Hi & Hl & Hn & Ho & Hlen). destruct (nth_error out i) as [old|] eqn:En; [|exfalso; apply nth_error_Some in Hi; contradiction].
    exists old, (w ++ values pin r). split; [reflexivity|]. split; [|auto]. split; [assumption|]. split; [assumption|]. exists w. split; [assumption|]. left. split.
    + apply Bool.orb_prop in Eb. rewrite <- V. tauto.
    + split; [|reflexivity]. rewrite (Hlen old eq_refl), app_length. unfold w, values. rewrite map_length, seq_length, skipn_length. unfold sample_of in Hr. lia.
  - intros H Hn. apply Ok_inj in H. injection H as -> ->. apply Bool.orb_false_elim in Eb. destruct Eb as [-> ->]. destruct (nth_error out i) as [old|] eqn:En; [|congruence].
    exists old, old. split; [reflexivity|]. split; [|auto]. split; [assumption|]. split; [assumption|]. exists w. split; [assumption|]. right. split; [|reflexivity]. split; [assumption|]. rewrite <- V. discriminate.
Qed.
Lemma splat_total i r t out old o : nth_error out i = Some old -> splat_rel r old o -> exists st, splat_row pin pout all i r (t, out) = Ok st.
Proof.
  intros Hold (Hr & Nr & w & Cw & D). unfold splat_row. destruct Rin as (Ni & Xi & Yi), Rout as (No & Xo & Yo). unfold sample_of in Hr.
  fold (dimn (in_param pin)). fold (dimn (in_param pout)).
  destruct (Nat.ltb_spec (length r) (dimn (in_param pin))) as [|Lr]; [lia|].
  destruct (Nat.ltb_spec (dimX pout + dimY pout) (dimn (in_param pout))) as [|Lo]; [lia|].
  destruct (proj1 (converts_iff _ _ _ _ t No) Cw) as (t1 & Ec & Ew & _). rewrite Ec. cbn [bind].
  destruct (above_total t1 _ Nr) as [above Ea]. rewrite Ea. cbn [bind].
  assert (V : above = true <-> visible w (in_param pout)) by (apply (above_spec t1); [assumption| |assumption]; intros j Hj; rewrite Ew; apply nth_map_seq; assumption).
  destruct (above || all)%bool eqn:Eb; [|eauto].
  destruct (Nat.ltb_spec (length r) (dimX pin + dimY pin)) as [Hbad|_]; [lia|].
  destruct (convert_out_cases (fun j => row_mem r (dimX pin + j)%nat) (dimY pin) (dimY pout) (fun j => t1 (dimX pout + j)%nat)) as [Cs _].
  destruct (Cs (eq_sym HY)) as (t2 & H2 & A2 & _). rewrite H2. cbn [bind].
  rewrite (splat_written r w t1 t2 Hr Ew) by (intros j Hj; rewrite A2 by assumption; reflexivity).
  destruct D as [(_ & Lold & _)|((Ha & Nv) & _)].
  - destruct (set_row_total i (w ++ values pin r) out old Hold) as [m' Hm]; [|rewrite Hm; cbn [bind]; eauto]. rewrite Lold, app_length. unfold values. rewrite (converts_length _ _ _ _ Cw), skipn_length. lia.
  - exfalso. apply Nv, V. rewrite Ha, Bool.orb_false_r in Eb. exact Eb.
Qed.
End Splat.

(** Proofs for C78 and C79: brdf2data and brdf2gnuplot. *)
From Coq Require Import Reals List Lia Lra FunctionalExtensionality Permutation.
From Verif Require Import Base ParamsModel ParamsProofs GeoModel GeoSpec GeoProofs GeoApi CommonModel TextModel TextProofs NlMoreModel FuncModel MetricsModel MetricsProofs FitModel FitProofs ConvModel ConvSpec ConvProofs ConvProofs2 ConvProofs3.
Open Scope R_scope.

Lemma difference_vsub a b d : length a = length b -> (difference a b d <-> d = vsub a b).
Proof.
  intros L. split.
  - intros [Ld H]. apply (nth_ext _ _ 0 0); [rewrite vsub_length by assumption; assumption|]. intros n Hn. rewrite vsub_nth by assumption. apply H. lia.
  - intros ->. split; [apply vsub_length; assumption|]. intros c _. apply vsub_nth. assumption.
Qed.

Section Ev.
Variable junk : R.
Variable pf pd : parameters.
Variable val : list R -> outcome (list R).
Hypothesis Hu : usable pf.
Hypothesis Hd : (dimn (in_param pd) <= dimX pd)%nat.

Lemma unknown_unnamed : ~ named_input UNKNOWN_INPUT.
Proof. rewrite named_iff. discriminate. Qed.
Lemma eval_ok ck r temp t : eval_point pf pd ck r temp = Ok t -> argument pf pd r (vec_of pf t).
Proof.
  unfold eval_point. destruct (input_eqb_spec (in_param pf) UNKNOWN_INPUT) as [E|N].
  - destruct (Nat.ltb_spec (length r) (dimX pf)) as [|L]; [destruct ck; discriminate|]. intros H. apply Ok_inj in H. subst t. left. split; [assumption|]. split; [assumption|].
    unfold vec_of. rewrite <- map_nth_seq by assumption. apply map_seq_agree. intros j Hj. unfold copy. destruct (Nat.ltb_spec j (dimX pf)); [reflexivity|lia].
  - destruct (Nat.ltb_spec (length r) (Z.to_nat (dimension_in (in_param pd)))) as [|_]; [discriminate|]. destruct (Nat.ltb_spec (dimX pf) (Z.to_nat (dimension_in (in_param pf)))) as [|_]; [discriminate|].
    intros H. right. split; [assumption|]. destruct Hu as [E|[Hn Hx]]; [contradiction|]. destruct (conv_any _ _ _ _ _ Hn H (fun _ => 0)) as (o & Ho & A & _). exists o. split; [assumption|].
    unfold vec_of. rewrite Hx. apply map_seq_agree. intros j Hj. symmetry. apply A. assumption.
Qed.
Lemma eval_total ck r temp w : sample_of pd r -> argument pf pd r w -> exists t, eval_point pf pd ck r temp = Ok t /\ vec_of pf t = w.
Proof.
  unfold eval_point. unfold sample_of. intros Hr [(E & L & ->)|(N & C)].
  - destruct (input_eqb_spec (in_param pf) UNKNOWN_INPUT) as [_|N]; [|contradiction]. destruct (Nat.ltb_spec (length r) (dimX pf)) as [|_]; [lia|]. eexists. split; [reflexivity|].
    unfold vec_of. rewrite <- map_nth_seq by assumption. apply map_seq_agree. intros j Hj. unfold copy. destruct (Nat.ltb_spec j (dimX pf)); [reflexivity|lia].
  - destruct (input_eqb_spec (in_param pf) UNKNOWN_INPUT) as [E|_]; [contradiction|]. fold (dimn (in_param pd)). fold (dimn (in_param pf)). destruct Hu as [E|[Hn Hx]]; [contradiction|].
    destruct (Nat.ltb_spec (length r) (dimn (in_param pd))) as [|_]; [lia|]. destruct (Nat.ltb_spec (dimX pf) (dimn (in_param pf))) as [|_]; [lia|].
    destruct (proj1 (converts_iff _ _ _ _ temp Hn) C) as (o & Ho & -> & _). exists o. split; [assumption|]. unfold vec_of. rewrite Hx. reflexivity.
Qed.
Lemma argument_fun r w w' : argument pf pd r w -> argument pf pd r w' -> w = w'.
Proof. intros [(E & _ & ->)|(N & C)] [(E' & _ & ->)|(N' & C')]; try contradiction; [reflexivity|]. apply (converts_fun _ _ _ _ _ C C'). Qed.

(** ** brdf2data *)
Lemma exported_fun diff r o o' : sample_of pd r -> exported pf pd val diff r o -> exported pf pd val diff r o' -> o = o'.
Proof.
  intros Hr (w & y & z & A & V & L & Z & ->) (w' & y' & z' & A' & V' & L' & Z' & ->). rewrite (argument_fun _ _ _ A' A) in V'. rewrite V in V'. apply Ok_inj in V'. subst y'. f_equal.
  assert (Lv : length (values pd r) = length y) by (unfold values; rewrite skipn_length; unfold sample_of in Hr; lia).
  destruct diff; [|congruence]. apply (difference_vsub _ _ _ Lv) in Z, Z'. congruence.
Qed.
Lemma exported_sample diff r o : sample_of pd r -> exported pf pd val diff r o -> sample_of pd o.
Proof.
  intros Hr (w & y & z & A & V & L & Z & ->). unfold sample_of in *. assert (Lv : length (values pd r) = dimY pd) by (unfold values; rewrite skipn_length; lia).
  assert (Lz : length z = dimY pd) by (destruct diff; [destruct Z as [Z _]; congruence|congruence]). rewrite app_length, firstn_length, Lz. lia.
Qed.
Definition export_rel (diff : bool) (r old o : list R) : Prop := sample_of pd r /\ sample_of pd old /\ exported pf pd val diff r o.
Lemma export_step diff i r t out t' out' : sample_of pd r -> export_row pf pd val diff i r (t, out) = Ok (t', out') -> nth_error out i <> None ->
  exists old o, nth_error out i = Some old /\ export_rel diff r old o /\ length out' = length out /\ nth_error out' i = Some o /\ forall j, j <> i -> nth_error out' j = nth_error out j.
Proof.
  intros Hr. unfold export_row. destruct (eval_point pf pd true r t) as [t1| | |] eqn:Ee; cbn [bind]; try discriminate. apply eval_ok in Ee.
  destruct (val (vec_of pf t1)) as [y| | |] eqn:Ev; cbn [bind]; try discriminate. destruct (Nat.ltb_spec (length r) (dimY pd)) as [|_]; [discriminate|].
  unfold sample_of in Hr. replace (length r - dimY pd)%nat with (dimX pd) by lia. destruct (Nat.eqb_spec (length y) (dimY pd)) as [Ly|]; cbn [negb]; [|discriminate].
  destruct (set_row _ _ _) as [rows'| | |] eqn:Es; cbn [bind]; try discriminate. intros H Hn. apply Ok_inj in H. injection H as -> ->. destruct (set_row_ok _ _ _ _ Es) as (_ & Hl & Hi & Ho & Hlen).
  destruct (nth_error out i) as [old|] eqn:En; [|congruence]. exists old. eexists. split; [reflexivity|]. split; [|split; [exact Hl|split; [exact Hi|exact Ho]]].
  assert (Lv : length (values pd r) = length y) by (unfold values; rewrite skipn_length; lia).
  assert (X : exported pf pd val diff r (firstn (dimX pd) r ++ (if diff then vsub (skipn (dimX pd) r) y else y))).
  { exists (vec_of pf t1), y. eexists. split; [exact Ee|]. split; [exact Ev|]. split; [assumption|]. split; [|reflexivity]. destruct diff; [|reflexivity]. apply difference_vsub; [assumption|reflexivity]. }
  split; [assumption|]. split; [|exact X]. unfold sample_of. rewrite (Hlen old eq_refl). apply (exported_sample diff r _ Hr X).
Qed.
Lemma export_total diff i r t out old o : nth_error out i = Some old -> export_rel diff r old o -> exists st, export_row pf pd val diff i r (t, out) = Ok st.
Proof.
  intros Hi (Hr & Ho & X). destruct X as (w & y & z & A & V & L & Z & Eo). unfold export_row. destruct (eval_total true r t w Hr A) as (t1 & -> & Ew). cbn [bind]. rewrite Ew, V. cbn [bind].
  unfold sample_of in Hr, Ho. destruct (Nat.ltb_spec (length r) (dimY pd)) as [|_]; [lia|]. rewrite L, Nat.eqb_refl. cbn [negb].
  destruct (set_row_total i (firstn (length r - dimY pd) r ++ (if diff then vsub (skipn (length r - dimY pd) r) y else y)) out old Hi) as [m' ->]; [|cbn [bind]; eauto].
  rewrite Ho, app_length, firstn_length. destruct diff; [rewrite vsub_length; rewrite skipn_length; lia|lia].
Qed.
Theorem brdf2data_iff diff rows out : Forall (sample_of pd) rows -> brdf2data junk pf pd val diff rows = Ok out <-> pointwise (exported pf pd val diff) rows out.
Proof.
  intros Hs. assert (Fwd : forall out, brdf2data junk pf pd val diff rows = Ok out -> pointwise (exported pf pd val diff) rows out).
  { intros out0 H. unfold brdf2data in H. destruct (each _ 0 rows _) as [[t' out']| | |] eqn:E; cbn [bind] in H; try discriminate. apply Ok_inj in H. cbn [snd] in H. subst out'.
    destruct (each_rows _ (export_rel diff) (sample_of pd) (export_step diff) rows 0 _ _ _ _ Hs (Nat.le_refl _) E) as (L & P & _). split; [symmetry; exact L|]. intros i x y Hx Hy.
    destruct (P i x Hx) as (old & o & _ & B & _ & _ & X). cbn [Nat.add] in B. rewrite Hy in B. injection B as <-. assumption. }
  split; [apply Fwd|]. intros [L P]. destruct (each_total _ (export_rel diff) (sample_of pd) (export_step diff) (export_total diff) rows 0 (fun _ => junk) rows Hs) as [[t' out'] E].
  { intros k r Hk. assert (Sr : sample_of pd r) by (rewrite Forall_forall in Hs; apply Hs; apply nth_error_In in Hk; assumption). destruct (nth_error_ex out k) as [o Ho]; [rewrite <- L; apply nth_error_Some; congruence|].
    exists r, o. split; [assumption|]. split; [assumption|]. split; [assumption|]. apply (P k); assumption. }
  assert (H1 : brdf2data junk pf pd val diff rows = Ok out') by (unfold brdf2data; match goal with |- bind ?x _ = _ => replace x with (Ok (t', out')) by (symmetry; exact E) end; reflexivity).
  rewrite H1. f_equal. destruct (Fwd _ H1) as [L1 P1]. apply pointwise_eq. split; [congruence|]. intros i a b Ha Hb. destruct (nth_error_ex rows i) as [x Hx]; [rewrite L1; apply nth_error_Some; congruence|].
  apply (exported_fun diff x); [rewrite Forall_forall in Hs; apply Hs; apply nth_error_In in Hx; assumption|apply (P1 i); assumption|apply (P i); assumption].
Qed.

(** ** brdf2gnuplot *)
Definition kind_of (p : plot) : kind := match p with Values => KValues | Errors => KErrors | LinearErrors => KRelative end.
Lemma nth_checked_ok l i : (i < length l)%nat -> nth_checked l i = Ok (nth i l 0).
Proof. intros H. unfold nth_checked. rewrite (nth_error_nth' l 0 H). reflexivity. Qed.
Lemma nth_checked_inv l i a : nth_checked l i = Ok a -> (i < length l)%nat /\ a = nth i l 0.
Proof.
  intros H. assert (L : (i < length l)%nat) by (apply nth_error_Some; unfold nth_checked in H; destruct (nth_error l i); congruence). rewrite (nth_checked_ok _ _ L) in H. apply Ok_inj in H. auto.
Qed.
Lemma values_nth r u : nth (dimX pd + u) r 0 = nth u (values pd r) 0.
Proof. unfold values. generalize (dimX pd) as n. intros n. revert r. induction n as [|n IH]; intros r; [reflexivity|]. destruct r; [destruct u; reflexivity|]. apply IH. Qed.
Lemma columns_ok p r y2 n : forall u, (dimX pd + u + n <= length r)%nat -> (u + n <= length y2)%nat ->
  columns pd p r y2 u n = Ok (List.map (fun j => entry (kind_of p) (nth j (values pd r) 0) (nth j y2 0)) (seq u n)).
Proof.
  induction n as [|n IH]; intros u L1 L2; [reflexivity|]. cbn [columns seq List.map]. rewrite nth_checked_ok by lia. cbn [bind].
  assert (E : (match p with Values => Ok (nth u y2 0) | Errors => do a <- nth_checked r (dimX pd + u); Ok (a - nth u y2 0) | LinearErrors => do a <- nth_checked r (dimX pd + u); Ok ((a - nth u y2 0) / a) end) = Ok (entry (kind_of p) (nth u (values pd r) 0) (nth u y2 0))).
  { destruct p; cbn [kind_of entry]; [reflexivity| |]; rewrite nth_checked_ok by lia; cbn [bind]; rewrite values_nth; reflexivity. }
  rewrite E. cbn [bind]. rewrite IH by lia. reflexivity.
Qed.
Lemma columns_inv p r y2 n : forall u l, columns pd p r y2 u n = Ok l -> (n = 0 \/ u + n <= length y2)%nat.
Proof.
  induction n as [|n IH]; intros u l H; [auto|]. right. cbn [columns] in H. destruct (nth_checked y2 u) as [b| | |] eqn:Eb; cbn [bind] in H; try discriminate. apply nth_checked_inv in Eb.
  match type of H with bind ?e _ = _ => destruct e as [c| | |]; cbn [bind] in H; try discriminate end. destruct (columns pd p r y2 (S u) n) as [l'| | |] eqn:El; cbn [bind] in H; try discriminate. destruct (IH _ _ El); lia.
Qed.
Lemma map_seq_shift (f : nat -> R) n j : (j < n)%nat -> nth j (List.map f (seq 0 n)) 0 = f j. Proof. apply nth_map_seq. Qed.

Lemma plot_line_iff p cosine i r line : sample_of pd r -> plot_line junk pf pd val p cosine i r = Ok line <-> plotted pf pd val (kind_of p) cosine i r line.
Proof.
  intros Hr. unfold plot_line. pose proof Hr as Lr. unfold sample_of in Lr. split.
  - destruct (eval_point pf pd false r (fun _ => junk)) as [x| | |] eqn:Ee; cbn [bind]; try discriminate. pose proof (eval_ok _ _ _ _ Ee) as A. intros H.
    match type of H with bind ?e _ = _ => destruct e as [c| | |] eqn:Ef; cbn [bind] in H; try discriminate end.
    destruct (val (vec_of pf x)) as [y| | |] eqn:Ev; cbn [bind] in H; try discriminate. match type of H with bind ?e _ = _ => destruct e as [h| | |] eqn:Eh; cbn [bind] in H; try discriminate end.
    destruct (columns pd p r (List.map (Rmult c) y) 0 (dimY pd)) as [l| | |] eqn:Ec; cbn [bind] in H; try discriminate. apply Ok_inj in H. subst line.
    assert (Ly : (dimY pd <= length y)%nat) by (destruct (columns_inv _ _ _ _ _ _ Ec) as [E|E]; [lia|rewrite map_length in E; exact E]).
    rewrite columns_ok in Ec by (rewrite ?map_length; lia). apply Ok_inj in Ec.
    exists (vec_of pf x), y, c, l. split; [assumption|]. split; [assumption|]. split; [assumption|]. split.
    { unfold factor. destruct (input_eqb_spec (in_param pf) UNKNOWN_INPUT) as [E|N]; destruct cosine; cbn [andb negb] in Ef.
      - left. split; [assumption|]. apply Ok_inj in Ef. congruence.
      - apply Ok_inj in Ef. congruence.
      - right. split; [assumption|]. destruct (convert x (in_param pf) CARTESIAN (fun _ => junk)) as [cart| | |] eqn:Ek; cbn [bind] in Ef; try discriminate. apply Ok_inj in Ef. subst c.
        destruct Hu as [E|[Hn Hx]]; [contradiction|]. assert (E2 : convert (row_mem (vec_of pf x)) (in_param pf) CARTESIAN (fun _ => junk) = Ok cart).
        { rewrite <- Ek. apply conv_reads; [assumption|]. intros j Hj. unfold row_mem, vec_of. apply nth_map_seq. lia. }
        destruct (conv_any _ _ _ _ _ named_cart E2 (fun _ => 0)) as (o & Eo & B & _). exists (List.map o (seq 0 6)). split; [exists o; split; [assumption|reflexivity]|]. cbn. rewrite !B by (cbn; lia). reflexivity.
      - apply Ok_inj in Ef. congruence. }
    subst l. split; [rewrite map_length, seq_length; reflexivity|]. split.
    { intros u Hlt. rewrite nth_map_seq by assumption. f_equal. rewrite (nth_indep _ 0 (c * 0)) by (rewrite map_length; lia). apply map_nth. }
    assert (Nb : (length r <? dimX pd)%nat = false) by (apply Nat.ltb_ge; lia). rewrite Nb in Eh. destruct p; cbn [kind_of]; apply Ok_inj in Eh; subst h; reflexivity.
  - intros (w & y & f & cols & A & V & Ly & F & Lc & Hc & ->). destruct (eval_total false r (fun _ => junk) w Hr A) as (x & -> & Ex). cbn [bind].
    assert (Ef : (if cosine && negb (input_eqb (in_param pf) UNKNOWN_INPUT) then do cart <- convert x (in_param pf) CARTESIAN (fun _ => junk); Ok (cart 5%nat * cart 2%nat) else Ok 1) = Ok f).
    { unfold factor in F. destruct cosine; cbn [andb]; [|congruence]. destruct (input_eqb_spec (in_param pf) UNKNOWN_INPUT) as [E|N]; cbn [negb].
      - destruct F as [[_ ->]|[N _]]; [reflexivity|contradiction].
      - destruct F as [[E _]|[_ (c & Cc & ->)]]; [contradiction|]. destruct Hu as [E|[Hn Hx]]; [contradiction|]. destruct (proj1 (converts_iff _ _ _ _ (fun _ => junk) named_cart) Cc) as (o & Eo & -> & _).
        assert (E2 : convert x (in_param pf) CARTESIAN (fun _ => junk) = Ok o) by (rewrite <- Eo; apply conv_reads; [assumption|]; intros j Hj; unfold row_mem; rewrite <- Ex; unfold vec_of; symmetry; apply nth_map_seq; lia).
        rewrite E2. reflexivity. }
    rewrite Ef. cbn [bind]. rewrite Ex, V. cbn [bind].
    assert (Eh : match p with LinearErrors => Ok [INR i] | _ => if (length r <? dimX pd)%nat then Abort else Ok (firstn (dimX pd) r) end = Ok (match kind_of p with KRelative => [INR i] | _ => firstn (dimX pd) r end)).
    { destruct p; cbn [kind_of]; try reflexivity; (destruct (Nat.ltb_spec (length r) (dimX pd)) as [Hbad|_]; [lia|reflexivity]). }
    rewrite Eh. cbn [bind]. rewrite columns_ok by (rewrite ?map_length; lia). cbn [bind]. f_equal. f_equal.
    apply (nth_ext _ _ 0 0); [rewrite map_length, seq_length; congruence|]. intros u Hlt. rewrite map_length, seq_length in Hlt. rewrite nth_map_seq by assumption. rewrite Hc by assumption. f_equal.
    rewrite (nth_indep _ 0 (f * 0)) by (rewrite map_length; lia). apply map_nth.
Qed.
Lemma plot_lines_iff p cosine rows : forall i lines, Forall (sample_of pd) rows ->
  plot_lines junk pf pd val p cosine i rows = Ok lines <-> length rows = length lines /\ forall k r l, nth_error rows k = Some r -> nth_error lines k = Some l -> plotted pf pd val (kind_of p) cosine (i + k) r l.
Proof.
  induction rows as [|r rows IH]; intros i lines Hs; cbn [plot_lines].
  - split; [intros H; apply Ok_inj in H; subst; split; [reflexivity|intros [|k] ? ? Hk; discriminate]|]. intros [L _]. destruct lines; [reflexivity|discriminate].
  - inversion_clear Hs as [|? ? H1 H2]. split.
    + destruct (plot_line junk pf pd val p cosine i r) as [l| | |] eqn:El; cbn [bind]; try discriminate. destruct (plot_lines junk pf pd val p cosine (S i) rows) as [ls| | |] eqn:Els; cbn [bind]; try discriminate. intros H. apply Ok_inj in H. subst lines.
      apply (IH (S i) ls H2) in Els. destruct Els as [L P]. split; [cbn; congruence|]. intros [|k] r' l' Hr Hl; cbn in Hr, Hl.
      * injection Hr as <-. injection Hl as <-. rewrite Nat.add_0_r. apply plot_line_iff; assumption.
      * replace (i + S k)%nat with (S i + k)%nat by lia. apply P; assumption.
    + intros [L P]. destruct lines as [|l lines]; [discriminate|]. assert (Hl : plotted pf pd val (kind_of p) cosine i r l) by (rewrite <- (Nat.add_0_r i); apply (P 0%nat); reflexivity). apply plot_line_iff in Hl; [|assumption]. rewrite Hl. cbn [bind].
      rewrite (proj2 (IH (S i) lines H2)); [reflexivity|]. split; [cbn in L; lia|]. intros k r' l' Hr Hl'. replace (S i + k)%nat with (i + S k)%nat by lia. apply (P (S k)); assumption.
Qed.
End Ev.

Section Polar.
Variable junk : R.
Variable pf : parameters.
Variable val : list R -> outcome (list R).
Hypothesis Hn : named_input (in_param pf).
Hypothesis Hx : dimX pf = dimn (in_param pf).
Lemma spherical_mem inc tv pv : forall j, (j < dimn SPHERICAL_TL_PL_TV_PV)%nat -> (fun j => match j with 0 => inc | 1 => PI | 2 => tv | _ => pv end)%nat j = row_mem [inc; PI; tv; pv] j.
Proof. intros j Hj. change (dimn SPHERICAL_TL_PL_TV_PV) with 4%nat in Hj. do 4 (destruct j as [|j]; [reflexivity|]). lia. Qed.
Lemma named_sph : named_input SPHERICAL_TL_PL_TV_PV. Proof. apply named_iff. reflexivity. Qed.
Lemma polar_line_iff inc pv sign n i line : polar_line junk pf val inc pv sign n i = Ok line <-> polar pf val inc (1 / 2 * PI * INR i / INR n) pv (sign * (1 / 2 * PI * INR i / INR n)) line.
Proof.
  unfold polar_line. cbv zeta. set (tv := 1 / 2 * PI * INR i / INR n). fold (dimn (in_param pf)). destruct (Nat.ltb_spec (dimX pf) (dimn (in_param pf))) as [|_]; [lia|].
  rewrite (conv_reads _ _ _ _ _ named_sph (spherical_mem inc tv pv)). split.
  - destruct (convert _ _ _ _) as [x| | |] eqn:Ec; cbn [bind]; try discriminate. destruct (val (vec_of pf x)) as [y| | |] eqn:Ev; cbn [bind]; try discriminate. destruct (Nat.ltb_spec (length y) (dimY pf)) as [|L]; [discriminate|]. intros H. apply Ok_inj in H. subst line.
    exists (vec_of pf x), y. split; [|auto]. destruct (conv_any _ _ _ _ _ Hn Ec (fun _ => 0)) as (o & Eo & A & _). exists o. split; [assumption|]. unfold vec_of. rewrite Hx. apply map_seq_agree. intros j Hj. symmetry. apply A. assumption.
  - intros (w & y & C & V & L & ->). destruct (proj1 (converts_iff _ _ _ _ (fun _ => junk) Hn) C) as (o & Eo & -> & _). rewrite Eo. cbn [bind]. unfold vec_of. rewrite Hx, V. cbn [bind]. destruct (Nat.ltb_spec (length y) (dimY pf)) as [|_]; [lia|]. reflexivity.
Qed.
Lemma polar_loop_iff inc pv sign n ids : forall lines, polar_loop junk pf val inc pv sign n ids = Ok lines <->
  length lines = length ids /\ forall k i l, nth_error ids k = Some i -> nth_error lines k = Some l -> polar pf val inc (1 / 2 * PI * INR i / INR n) pv (sign * (1 / 2 * PI * INR i / INR n)) l.
Proof.
  induction ids as [|i ids IH]; intros lines; cbn [polar_loop].
  - split; [intros H; apply Ok_inj in H; subst; split; [reflexivity|intros [|k] ? ? Hk; discriminate]|]. intros [L _]. destruct lines; [reflexivity|discriminate].
  - split.
    + destruct (polar_line junk pf val inc pv sign n i) as [l| | |] eqn:El; cbn [bind]; try discriminate. destruct (polar_loop junk pf val inc pv sign n ids) as [ls| | |]; cbn [bind]; try discriminate. intros H. apply Ok_inj in H. subst lines.
      destruct (proj1 (IH ls) eq_refl) as [L P]. split; [cbn; congruence|]. intros [|k] i' l' Hi Hl; cbn in Hi, Hl; [injection Hi as <-; injection Hl as <-; apply polar_line_iff; assumption|apply (P k); assumption].
    + intros [L P]. destruct lines as [|l lines]; [discriminate|]. rewrite (proj2 (polar_line_iff inc pv sign n i l) (P 0%nat i l eq_refl eq_refl)). cbn [bind]. rewrite (proj2 (IH lines)); [reflexivity|]. split; [cbn in L; lia|]. intros k. apply (P (S k)).
Qed.
Lemma nth_error_seq0 n k i : nth_error (seq 0 n) k = Some i <-> (k < n)%nat /\ i = k.
Proof.
  split.
  - intros H. assert (L : (k < n)%nat) by (rewrite <- (seq_length n 0); apply nth_error_Some; congruence). split; [assumption|]. rewrite (nth_error_nth' _ 0%nat) in H by (rewrite seq_length; assumption). rewrite seq_nth in H by assumption. injection H as <-. reflexivity.
  - intros [L ->]. rewrite (nth_error_nth' _ 0%nat) by (rewrite seq_length; assumption). rewrite seq_nth by assumption. reflexivity.
Qed.
Theorem polar_plot_iff inc n lines : polar_plot junk pf val inc n = Ok lines <->
  length lines = (2 * n)%nat /\ forall i, (i < n)%nat -> let tv := PI / 2 * INR i / INR n in
    (exists l, nth_error lines i = Some l /\ polar pf val inc tv PI (- tv) l) /\ (exists l, nth_error lines (n + i) = Some l /\ polar pf val inc tv 0 tv l).
Proof.
  assert (Et : forall i, 1 / 2 * PI * INR i / INR n = PI / 2 * INR i / INR n) by (intros i; unfold Rdiv; ring).
  assert (Es : forall t, -1 * t = - t) by (intros; ring).
  unfold polar_plot. split.
  - destruct (polar_loop junk pf val inc PI (-1) n (seq 0 n)) as [a| | |] eqn:Ea; cbn [bind]; try discriminate. destruct (polar_loop junk pf val inc 0 1 n (seq 0 n)) as [b| | |] eqn:Eb; cbn [bind]; try discriminate. intros H. apply Ok_inj in H. subst lines.
    apply polar_loop_iff in Ea. apply polar_loop_iff in Eb. destruct Ea as [La Pa], Eb as [Lb Pb]. rewrite seq_length in La, Lb. split; [rewrite app_length; lia|]. intros i Hi. cbv zeta. split.
    + destruct (nth_error_ex a i) as [l Hl]; [lia|]. exists l. split; [rewrite nth_error_app1 by lia; assumption|]. specialize (Pa i i l (proj2 (nth_error_seq0 n i i) (conj Hi eq_refl)) Hl). rewrite Es, Et in Pa. assumption.
    + destruct (nth_error_ex b i) as [l Hl]; [lia|]. exists l. split; [rewrite nth_error_app2 by lia; replace (n + i - length a)%nat with i by lia; assumption|]. specialize (Pb i i l (proj2 (nth_error_seq0 n i i) (conj Hi eq_refl)) Hl). rewrite Rmult_1_l, Et in Pb. assumption.
  - intros [L P]. rewrite <- (firstn_skipn n lines). rewrite (proj2 (polar_loop_iff inc PI (-1) n (seq 0 n) (firstn n lines))).
    + cbn [bind]. rewrite (proj2 (polar_loop_iff inc 0 1 n (seq 0 n) (skipn n lines))); [reflexivity|]. rewrite skipn_length, seq_length. split; [lia|]. intros k i l Hi Hl. apply nth_error_seq0 in Hi. destruct Hi as [Hi ->].
      destruct (P k Hi) as [_ (l' & Hl' & Q)]. rewrite nth_skip in Hl. rewrite Hl in Hl'. injection Hl' as <-. rewrite Rmult_1_l, Et. assumption.
    + rewrite firstn_length, seq_length. split; [lia|]. intros k i l Hi Hl. apply nth_error_seq0 in Hi. destruct Hi as [Hi ->]. destruct (P k Hi) as [(l' & Hl' & Q) _].
      assert (E : nth_error lines k = Some l) by (rewrite <- (firstn_skipn n lines), nth_error_app1 by (rewrite firstn_length; lia); assumption). rewrite E in Hl'. injection Hl' as <-. rewrite Es, Et. assumption.
Qed.
End Polar.

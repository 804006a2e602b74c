(** Proofs for C95, C98 and C99. *)
From Coq Require Import Reals List ZArith Lia Lra.
From Verif Require Import Base Num ParamsModel ParamsProofs GeoModel GeoSpec GeoProofs CommonModel CommonProofs ArgsModel NlMoreModel FuncModel FuncSpec FuncProofs MetricsModel MetricsProofs FitModel ConvModel ConvSpec ConvProofs ConvProofs2 ConvProofs3 ConvProofs4 PyModel PySpec PyProofs PyProofs2 PyProofs3.
Open Scope R_scope.

Lemma product_value junk par t1 t2 x v : value junk (Product par false false t1 t2) x = Ok v ->
  exists x1 x2 v1 v2, child_point junk x (in_param par) (par_of t1) = Ok x1 /\ child_point junk x (in_param par) (par_of t2) = Ok x2 /\
    value junk t1 x1 = Ok v1 /\ value junk t2 x2 = Ok v2 /\
    ((length v1 = length v /\ length v2 = length v /\ forall y, nth y v 0 = nth y v1 0 * nth y v2 0) \/
     (length v1 = length v /\ length v2 = 1%nat /\ forall y, nth y v 0 = nth y v1 0 * nth 0 v2 0) \/
     (length v1 = 1%nat /\ length v2 = length v /\ forall y, nth y v 0 = nth 0 v1 0 * nth y v2 0)).
Proof.
  cbn [value]. destruct (child_point junk x (in_param par) (par_of t1)) as [x1| | |]; cbn [bind]; try discriminate.
  destruct (value junk t1 x1) as [v1| | |] eqn:E1; cbn [bind]; try discriminate.
  destruct (child_point junk x (in_param par) (par_of t2)) as [x2| | |]; cbn [bind]; try discriminate.
  destruct (value junk t2 x2) as [v2| | |] eqn:E2; cbn [bind]; try discriminate. intros H. exists x1, x2, v1, v2. do 4 (split; [assumption||reflexivity|]).
  assert (M : forall (l : list R) s y, nth y (map (fun a => a * s) l) 0 = nth y l 0 * s).
  { intros l s y. revert y. induction l as [|a l IH]; intros [|y]; cbn; try lra; apply IH. }
  destruct (Nat.eq_dec (length v1) 1) as [L1|L1].
  - right. right. destruct v1 as [|a [|]]; try discriminate. rewrite product_scalar_left in H. apply Ok_inj in H. subst v.
    split; [reflexivity|]. split; [rewrite map_length; reflexivity|]. intros y. rewrite M. cbn. lra.
  - destruct (Nat.eq_dec (length v2) 1) as [L2|L2].
    + right. left. destruct v2 as [|b [|]]; try discriminate. rewrite product_scalar_right in H by assumption. apply Ok_inj in H. subst v.
      split; [rewrite map_length; reflexivity|]. split; [reflexivity|]. intros y. rewrite M. reflexivity.
    + left. destruct (Nat.eq_dec (length v1) (length v2)) as [L|L]; [|rewrite product_mismatch in H by assumption; discriminate].
      destruct (product_same_size Rmult v1 v2 L L1) as (c & Hc & Lc & N). rewrite H in Hc. apply Ok_inj in Hc. subst c. split; [congruence|]. split; [congruence|]. intros y.
      destruct (Nat.lt_ge_cases y (length v1)) as [Hy|Hy].
      * assert (Hy2 : (y < length v2)%nat) by lia. rewrite (nth_error_nth v y 0 (N y _ _ (nth_error_nth' v1 0 Hy) (nth_error_nth' v2 0 Hy2))). reflexivity.
      * rewrite !nth_overflow by lia. lra.
Qed.

Lemma sum_parts st f g st1 c st2 : good st -> py_add st f g = Ok (st1, Some c) -> steps st1 st2 -> parts st2 (Some c) = parts st2 f ++ parts st2 g.
Proof.
  intros G H K. destruct (sum_cell st f g st1 c st2 G H K) as (a & b & t1 & t2 & par & -> & -> & _ & _ & _ & Hc & La & Lb). cbn [parts].
  apply (leaves_compound _ _ par); assumption.
Qed.
Lemma product_parts st f g st1 c st2 : good st -> py_mult st f g = Ok (st1, Some c) -> steps st1 st2 -> parts st2 (Some c) = parts st2 f ++ parts st2 g.
Proof.
  intros G H K. destruct (product_cell st f g st1 c st2 G H K) as (a & b & t1 & t2 & par & -> & -> & _ & _ & _ & Hc & La & Lb). cbn [parts].
  apply (leaves_product _ _ par); assumption.
Qed.

Lemma map_seq_app (t : nat -> R) a b : List.map t (seq 0 (a + b)) = List.map t (seq 0 a) ++ List.map (fun j => t (a + j)%nat) (seq 0 b).
Proof.
  rewrite seq_app, map_app. f_equal. cbn [Nat.add]. apply (nth_ext _ _ 0 0); [rewrite !map_length, !seq_length; reflexivity|].
  intros n Hn. rewrite map_length, seq_length in Hn. rewrite nth_map_seq by assumption. rewrite nth_indep with (d' := t 0%nat) by (rewrite map_length, seq_length; assumption).
  rewrite (map_nth t). rewrite seq_nth by assumption. reflexivity.
Qed.

Section Data.
Variable junk : R.
Variable pin target : parameters.
Hypothesis Rin : regular pin.
Hypothesis Rout : regular target.
Lemma junk_old (j : nat) : (j < dimY target)%nat -> junk = nth j (repeat junk (dimY target)) 0.
Proof. intros H. rewrite nth_indep with (d' := junk) by (rewrite repeat_length; assumption). symmetry. apply nth_repeat. Qed.
Lemma zeros (n : nat) s : List.map (fun _ : nat => 0) (seq s n) = repeat 0 n.
Proof. revert s. induction n as [|n IH]; intros s; [reflexivity|]. cbn. f_equal. apply IH. Qed.
Lemma py_row_iff r o : sample_of pin r -> py_row junk pin target r = Ok o <-> py_converted junk pin target r o.
Proof.
  intros Hr. pose proof Hr as Lr. unfold sample_of in Lr. pose proof Rin as (Ni & Xi & Yi). pose proof Rout as (No & Xo & Yo). unfold py_row. cbv zeta.
  fold (dimn (in_param pin)). fold (dimn (in_param target)).
  destruct (Nat.ltb_spec (length r) (dimn (in_param pin))) as [|_]; [lia|]. destruct (Nat.ltb_spec (dimX target + 3 * dimY target) (dimn (in_param target))) as [|_]; [lia|].
  destruct (Nat.leb_spec (length r) (dimX pin)) as [|_]; [lia|]. destruct (Nat.ltb_spec (length r) (dimX pin + dimY pin)) as [|_]; [lia|].
  assert (EY : (fun j => row_mem r (dimX pin + j)%nat) = (fun j => nth j (values pin r) 0)).
  { apply FunctionalExtensionality.functional_extensionality. intros j. unfold row_mem. apply values_nth. }
  rewrite EY. assert (Lv : length (values pin r) = dimY pin) by (unfold values; rewrite skipn_length; lia).
  assert (Shape : forall t1 t2, List.map (fun j => if (j <? dimX target)%nat then t1 j else if (j <? dimX target + dimY target)%nat then t2 (j - dimX target)%nat else 0) (seq 0 (dimX target + 3 * dimY target))
     = List.map t1 (seq 0 (dimX target)) ++ List.map t2 (seq 0 (dimY target)) ++ repeat 0 (2 * dimY target)).
  { intros t1 t2. rewrite map_seq_app. f_equal.
    - apply map_seq_agree. intros j Hj. destruct (Nat.ltb_spec j (dimX target)); [reflexivity|lia].
    - replace (3 * dimY target)%nat with (dimY target + 2 * dimY target)%nat by lia. rewrite map_seq_app. f_equal.
      + apply map_seq_agree. intros j Hj. destruct (Nat.ltb_spec (dimX target + j) (dimX target)); [lia|]. destruct (Nat.ltb_spec (dimX target + j) (dimX target + dimY target)); [|lia]. f_equal. lia.
      + rewrite <- (zeros _ 0). apply map_seq_agree. intros j Hj. destruct (Nat.ltb_spec (dimX target + (dimY target + j)) (dimX target)); [lia|]. destruct (Nat.ltb_spec (dimX target + (dimY target + j)) (dimX target + dimY target)); [lia|]. reflexivity. }
  split.
  - destruct (convert (row_mem r) (in_param pin) (in_param target) (fun _ => junk)) as [t1| | |] eqn:E1; cbn [bind]; try discriminate.
    destruct (convert_out _ _ _ _) as [t2| | |] eqn:E2; cbn [bind]; try discriminate. intros H. apply Ok_inj in H. subst o. rewrite Shape.
    destruct (conv_any _ _ _ _ _ No E1 (fun _ => junk)) as (o & Eo & _ & Ho). rewrite E1 in Eo. apply Ok_inj in Eo. subst o.
    exists (List.map t1 (seq 0 (dimX target))), (List.map t2 (seq 0 (dimY target))). split; [|split; [|reflexivity]].
    + apply (converts_iff _ _ _ _ (fun _ => junk) No). exists t1. rewrite Xo. auto.
    + apply (channels_ok pin target Rin _ (repeat junk (dimY target)) (fun j => t1 (dimX target + j)%nat) Lv); [apply repeat_length| |assumption].
      intros j Hj. rewrite Ho by lia. apply junk_old. assumption.
  - intros (w & z & Cw & Cz & ->). destruct (proj1 (converts_iff _ _ _ _ (fun _ => junk) No) Cw) as (t1 & E1 & -> & Ho). rewrite E1. cbn [bind].
    assert (Hold : forall j, (j < dimY target)%nat -> (fun j => t1 (dimX target + j)%nat) j = nth j (repeat junk (dimY target)) 0) by (intros j Hj; cbv beta; rewrite Ho by lia; apply junk_old; assumption).
    destruct (proj1 (channels_ok pin target Rin _ (repeat junk (dimY target)) (fun j => t1 (dimX target + j)%nat) Lv (repeat_length _ _) Hold) z Cz) as (t2 & E2 & <-). rewrite E2. cbn [bind]. rewrite Shape, Xo. reflexivity.
Qed.
Lemma py_rows_iff rows : Forall (sample_of pin) rows -> forall out, py_rows junk pin target rows = Ok out <-> pointwise (py_converted junk pin target) rows out.
Proof.
  induction 1 as [|r rows Hr Hs IH]; intros out; cbn [py_rows].
  - split; [intros H; apply Ok_inj in H; subst; split; [reflexivity|intros [|i]; discriminate]|]. intros [L _]. destruct out; [reflexivity|discriminate].
  - split.
    + destruct (py_row junk pin target r) as [o| | |] eqn:E; cbn [bind]; try discriminate. destruct (py_rows junk pin target rows) as [os| | |] eqn:Es; cbn [bind]; try discriminate.
      intros H. apply Ok_inj in H. subst out. pose proof (proj1 (IH os) eq_refl) as [L P]. split; [cbn; congruence|]. intros [|i] a b Ha Hb; cbn in Ha, Hb.
      * injection Ha as <-. injection Hb as <-. apply py_row_iff; assumption.
      * apply (P i); assumption.
    + intros [L P]. destruct out as [|o out]; [discriminate|]. rewrite (proj2 (py_row_iff r o Hr) (P 0%nat r o eq_refl eq_refl)). cbn [bind].
      rewrite (proj2 (IH out)); [reflexivity|]. split; [cbn in L; lia|]. intros i. apply (P (S i)).
Qed.
Theorem py_data2data_iff rows : Forall (sample_of pin) rows -> forall p out, py_data2data junk pin target rows = Ok (p, out) <-> p = target /\ pointwise (py_converted junk pin target) rows out.
Proof.
  intros Hs p out. unfold py_data2data. rewrite <- (py_rows_iff rows Hs). destruct (py_rows junk pin target rows) as [os| | |]; cbn [bind].
  - split; [intros H; apply Ok_inj in H; injection H as -> ->; auto|]. intros [-> H]. apply Ok_inj in H. subst. reflexivity.
  - split; [discriminate|intros [_ H]; discriminate].
  - split; [discriminate|intros [_ H]; discriminate].
  - split; [discriminate|intros [_ H]; discriminate].
Qed.
End Data.

Section Brdf.
Variable junk : R.
Variable pf pd : parameters.
Variable val : list R -> outcome (list R).
Hypothesis Hu : usable pf.
Hypothesis Hd : (dimn (in_param pd) <= dimX pd)%nat.
(** the rows may carry intervals after the values *)
Definition long (r : list R) : Prop := (dimX pd + dimY pd <= length r)%nat.
Lemma eval_long ck r temp w : long r -> argument pf pd r w -> exists t, eval_point pf pd ck r temp = Ok t /\ vec_of pf t = w.
Proof.
  unfold eval_point. unfold long. intros Hr [(E & L & ->)|(N & C)].
  - destruct (input_eqb_spec (in_param pf) UNKNOWN_INPUT) as [_|N]; [|contradiction]. destruct (Nat.ltb_spec (length r) (dimX pf)) as [|_]; [lia|]. eexists. split; [reflexivity|].
    unfold vec_of. rewrite <- map_nth_seq by assumption. apply map_seq_agree. intros j Hj. unfold copy. destruct (Nat.ltb_spec j (dimX pf)); [reflexivity|lia].
  - destruct (input_eqb_spec (in_param pf) UNKNOWN_INPUT) as [E|_]; [contradiction|]. fold (dimn (in_param pd)). fold (dimn (in_param pf)). destruct Hu as [E|[Hn Hx]]; [contradiction|].
    destruct (Nat.ltb_spec (length r) (dimn (in_param pd))) as [|_]; [lia|]. destruct (Nat.ltb_spec (dimX pf) (dimn (in_param pf))) as [|_]; [lia|].
    destruct (proj1 (converts_iff _ _ _ _ temp Hn) C) as (o & Ho & -> & _). exists o. split; [assumption|]. unfold vec_of. rewrite Hx. reflexivity.
Qed.
Lemma overwrite_spec y n : forall x j, (j + n <= length y)%nat -> (dimX pd + j + n <= length x)%nat ->
  overwrite x y (dimX pd) j n = Ok (firstn (dimX pd + j) x ++ firstn n (skipn j y) ++ skipn (dimX pd + j + n) x).
Proof.
  induction n as [|n IH]; intros x j Hy Hx; cbn [overwrite].
  - rewrite Nat.add_0_r. cbn. rewrite firstn_skipn. reflexivity.
  - unfold rd. rewrite (nth_error_nth' y 0) by lia. cbn [bind]. unfold wr. destruct (Nat.ltb_spec (dimX pd + j) (length x)) as [_|]; [|lia]. cbn [bind].
    assert (Lu : length (upd x (dimX pd + j) (nth j y 0)) = length x) by (apply upd_length).
    rewrite IH by lia. f_equal.
    assert (Ux : upd x (dimX pd + j) (nth j y 0) = firstn (dimX pd + j) x ++ nth j y 0 :: skipn (S (dimX pd + j)) x).
    { revert Hx. generalize (dimX pd + j)%nat, (nth j y 0). clear. intros m q. revert x. induction m as [|m IHm]; intros [|a x] H; cbn in *; try lia; [reflexivity|]. f_equal. apply IHm. lia. }
    rewrite Ux. assert (L1 : length (firstn (dimX pd + j) x) = (dimX pd + j)%nat) by (rewrite firstn_length; lia).
    rewrite firstn_app, L1. replace (dimX pd + S j - (dimX pd + j))%nat with 1%nat by lia. rewrite (firstn_all2 (firstn (dimX pd + j) x)) by lia. cbn [firstn].
    rewrite skipn_app, L1. rewrite (skipn_all2 (firstn (dimX pd + j) x)) by lia. replace (dimX pd + S j + n - (dimX pd + j))%nat with (S n) by lia. rewrite skipn_cons, app_nil_l.
    rewrite <- app_assoc. f_equal.
    assert (Sy : skipn j y = nth j y 0 :: skipn (S j) y).
    { clear -Hy. revert y Hy. induction j as [|j IHj]; intros [|a y] Hy; cbn in *; try lia; [reflexivity|]. apply IHj. lia. }
    rewrite Sy. cbn [firstn app]. f_equal. f_equal.
    assert (SS : forall a b (l : list R), skipn a (skipn b l) = skipn (b + a) l) by (clear; intros a b; induction b as [|b IHb]; intros l; [reflexivity|]; destruct l; [cbn; apply skipn_nil|apply IHb]).
    rewrite SS. f_equal. lia.
Qed.
Lemma overwrite_short y n : forall x j, (length y < j + n)%nat -> (j <= length y)%nat -> (dimX pd + j + n <= length x)%nat -> forall x', overwrite x y (dimX pd) j n <> Ok x'.
Proof.
  induction n as [|n IH]; intros x j Hy Hj Hx x'; cbn [overwrite]; [lia|]. unfold rd. destruct (Nat.eq_dec j (length y)) as [->|Nj].
  - rewrite (proj2 (nth_error_None y (length y))) by lia. discriminate.
  - rewrite (nth_error_nth' y 0) by lia. cbn [bind]. unfold wr. destruct (Nat.ltb_spec (dimX pd + j) (length x)) as [_|]; [|lia]. cbn [bind]. apply IH; try lia. rewrite upd_length. lia.
Qed.
Definition py_rel (r old o : list R) : Prop := long r /\ length old = length r /\ py_exported pf pd val r o.
Lemma exported_len r o : long r -> py_exported pf pd val r o -> length o = length r.
Proof. unfold long. intros Hr (w & y & _ & _ & L & ->). rewrite !app_length, !firstn_length, skipn_length. lia. Qed.
Lemma py_step i r t out t' out' : long r -> py_export_row pf pd val i r (t, out) = Ok (t', out') -> nth_error out i <> None ->
  exists old o, nth_error out i = Some old /\ py_rel r old o /\ length out' = length out /\ nth_error out' i = Some o /\ forall j, j <> i -> nth_error out' j = nth_error out j.
Proof.
  intros Hr. unfold py_export_row. destruct (eval_point pf pd false r t) as [t1| | |] eqn:Ee; cbn [bind]; try discriminate. apply (eval_ok pf pd Hu Hd) in Ee.
  destruct (val (vec_of pf t1)) as [y| | |] eqn:Ev; cbn [bind]; try discriminate. destruct (overwrite r y (dimX pd) 0 (dimY pd)) as [x'| | |] eqn:Eo; cbn [bind]; try discriminate.
  destruct (set_row _ _ _) as [rows'| | |] eqn:Es; cbn [bind]; try discriminate. intros H Hn. apply Ok_inj in H. injection H as -> ->. destruct (set_row_ok _ _ _ _ Es) as (_ & Hl & Hi & Ho & Hlen).
  destruct (nth_error out i) as [old|] eqn:En; [|congruence]. exists old. eexists. split; [reflexivity|]. split; [|split; [exact Hl|split; [exact Hi|exact Ho]]].
  assert (Ly : (dimY pd <= length y)%nat). { destruct (Nat.le_gt_cases (dimY pd) (length y)) as [|Hb]; [assumption|]. exfalso. unfold long in Hr. apply (overwrite_short y (dimY pd) r 0) with (x' := x') in Eo; try assumption; lia. }
  unfold long in Hr. rewrite overwrite_spec in Eo by lia. apply Ok_inj in Eo. rewrite Nat.add_0_r in Eo. cbn [skipn] in Eo.
  assert (X : py_exported pf pd val r x') by (exists (vec_of pf t1), y; subst x'; auto).
  split; [assumption|]. split; [|exact X]. rewrite <- (exported_len r x' Hr X). exact (Hlen old eq_refl).
Qed.
Lemma py_total i r t out old o : nth_error out i = Some old -> py_rel r old o -> exists st, py_export_row pf pd val i r (t, out) = Ok st.
Proof.
  intros Hi (Hr & Ho & X). pose proof (exported_len r o Hr X) as Lo. destruct X as (w & y & A & V & L & Eo). unfold py_export_row. destruct (eval_long false r t w Hr A) as (t1 & -> & Ew). cbn [bind]. rewrite Ew, V. cbn [bind].
  unfold long in Hr. rewrite overwrite_spec by lia. cbn [bind]. rewrite Nat.add_0_r. cbn [skipn]. rewrite <- Eo.
  destruct (set_row_total i o out old Hi) as [m' ->]; [congruence|]. cbn [bind]. eauto.
Qed.
Lemma py_exported_fun r o o' : py_exported pf pd val r o -> py_exported pf pd val r o' -> o = o'.
Proof. intros (w & y & A & V & _ & ->) (w' & y' & A' & V' & _ & ->). rewrite (argument_fun pf pd _ _ _ A' A) in V'. rewrite V in V'. apply Ok_inj in V'. subst. reflexivity. Qed.
Theorem py_brdf2data_iff rows out : Forall long rows -> py_brdf2data junk pf pd val rows = Ok out <-> pointwise (py_exported pf pd val) rows out.
Proof.
  intros Hs. assert (E0 : py_brdf2data junk pf pd val rows = do st <- each (py_export_row pf pd val) 0 rows (fun _ => junk, rows); Ok (snd st)) by (destruct rows; reflexivity). rewrite E0. clear E0.
  assert (Fwd : forall out, (do st <- each (py_export_row pf pd val) 0 rows (fun _ => junk, rows); Ok (snd st)) = Ok out -> pointwise (py_exported pf pd val) rows out).
  { intros out0 H. destruct (each _ 0 rows _) as [[t' out']| | |] eqn:E; cbn [bind] in H; try discriminate. apply Ok_inj in H. cbn [snd] in H. subst out'.
    destruct (each_rows _ py_rel long py_step rows 0 _ _ _ _ Hs (Nat.le_refl _) E) as (L & P & _). split; [symmetry; exact L|]. intros i x y Hx Hy.
    destruct (P i x Hx) as (old & o & _ & B & _ & _ & X). cbn [Nat.add] in B. rewrite Hy in B. injection B as <-. assumption. }
  split; [apply Fwd|]. intros [L P]. destruct (each_total _ py_rel long py_step py_total rows 0 (fun _ => junk) rows Hs) as [[t' out'] E].
  { intros k r Hk. assert (Sr : long r) by (rewrite Forall_forall in Hs; apply Hs; apply nth_error_In in Hk; assumption). destruct (nth_error_ex out k) as [o Ho]; [rewrite <- L; apply nth_error_Some; congruence|].
    exists r, o. split; [assumption|]. split; [assumption|]. split; [reflexivity|]. apply (P k); assumption. }
  assert (H1 : (do st <- each (py_export_row pf pd val) 0 rows (fun _ => junk, rows); Ok (snd st)) = Ok out') by (match goal with |- bind ?x _ = _ => replace x with (Ok (t', out')) by (symmetry; exact E) end; reflexivity).
  rewrite H1. f_equal. destruct (Fwd _ H1) as [L1 P1]. apply pointwise_eq. split; [congruence|]. intros i a b Ha Hb. destruct (nth_error_ex rows i) as [x Hx]; [rewrite L1; apply nth_error_Some; congruence|].
  apply (py_exported_fun x); [apply (P1 i); assumption|apply (P i); assumption].
Qed.
End Brdf.

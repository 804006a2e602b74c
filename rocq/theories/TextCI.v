(** Confidence intervals of loaded text data (C19). *)
From Coq Require Import Reals List Lia Lra.
From Verif Require Import Base Num ParamsModel GeoModel GeoSpec ArgsModel ArgsSpec ArgsProofs ParamsProofs DataModel DataSpec DataProofs TextModel TextProofs TextRound.
Open Scope R_scope.

(** ** Specification vocabulary: the columns of a loaded row *)
Definition meas (p : parameters) (r : list R) (c : nat) : R := nth (dimX p + c) r 0.
Definition lower (p : parameters) (r : list R) (c : nat) : R := nth (dimX p + dimY p + c) r 0.
Definition upper (p : parameters) (r : list R) (c : nat) : R := nth (dimX p + 2 * dimY p + c) r 0.

(** the confidence interval kind announced by the file *)
Definition no_ci_columns (header : arguments) : Prop := ci_kind_from_number (get_int header (lit "VS") 0%Z) = NO_CI.

Section CI.
Variable lex : str -> option (R * str).
Variable stod : str -> outcome R.
Variable atof : str -> R.
Variable flt_max : R.
Notation load := (load_data_from_text lex stod atof flt_max).
Notation dt_of args dt := (get_double stod args (lit "dt") (1 / 10) = Ok dt).

Lemma channel_dt_default kind args dt i s u v s' : dt_of args dt -> (kind = NO_CI \/ (0 < i)%nat) ->
  channel_dt lex stod kind args i s = Ok (u, v, s') -> u = - dt /\ v = dt.
Proof.
  intros Hdt Hk H. assert (E : channel_dt lex stod kind args i s = Ok (- dt, dt, s)).
  { unfold channel_dt. change (get_double stod args "dt"%string (1 / 10)) with (get_double stod args (lit "dt") (1 / 10)). rewrite Hdt.
    destruct Hk as [->|Hi]; [destruct i; reflexivity|]. destruct i; [lia|]. reflexivity. }
  rewrite E in H. apply Ok_inj in H. injection H as -> -> _. auto.
Qed.

(** every channel that takes its width from the command line *)
Lemma loaded_channel header args s d dt c r : is_defined args (lit "data-correct-cosine") = false -> dt_of args dt ->
  load s header args = Ok d -> In r (td_rows d) -> (c < dimY (td_par d))%nat -> (no_ci_columns header \/ (0 < c)%nat) ->
  exists y, (meas (td_par d) r c, lower (td_par d) r c, upper (td_par d) r c) = channel_interval args y (- dt) dt.
Proof.
  intros Hc Hdt HL Hin Hlt Hk. pose proof (loaded_rows lex stod atof flt_max header args s d Hc HL) as F. cbv zeta in F.
  rewrite Forall_forall in F. destruct (F r Hin c Hlt) as (y & u & v & s0 & s1 & E & T).
  destruct (channel_dt_default _ _ dt _ _ _ _ _ Hdt Hk E) as [-> ->]. exists y. exact T.
Qed.

Theorem ci_absolute header args s d dt c r : is_defined args (lit "data-correct-cosine") = false ->
  is_defined args (lit "dt-relative") = false -> is_defined args (lit "dt-max") = false -> dt_of args dt -> 0 <= dt ->
  load s header args = Ok d -> In r (td_rows d) -> (c < dimY (td_par d))%nat -> (no_ci_columns header \/ (0 < c)%nat) ->
  lower (td_par d) r c <= meas (td_par d) r c <= upper (td_par d) r c /\
  (is_defined args (lit "dt-positive") = true -> 0 <= lower (td_par d) r c) /\
  (is_defined args (lit "dt-positive") = false ->
     lower (td_par d) r c = meas (td_par d) r c - dt /\ upper (td_par d) r c = meas (td_par d) r c + dt).
Proof.
  intros H0 H1 H2 Hdt Hpos HL Hin Hlt Hk. destruct (loaded_channel _ _ _ _ _ _ _ H0 Hdt HL Hin Hlt Hk) as (y & E).
  pose proof (interval_absolute args y (- dt) dt H1 H2 ltac:(lra)) as I. rewrite <- E in I. destruct I as [I1 I2].
  split; [assumption|]. split; [assumption|]. intros H3. revert E. unfold channel_interval.
  change (is_defined args "dt-relative"%string) with (is_defined args (lit "dt-relative")). rewrite H1.
  change (is_defined args "dt-max"%string) with (is_defined args (lit "dt-max")). rewrite H2.
  change (is_defined args "dt-positive"%string) with (is_defined args (lit "dt-positive")). rewrite H3.
  intros E. injection E as -> -> ->. lra.
Qed.

(** relative and maximal tolerances *)
Theorem ci_scaled header args s d dt c r : is_defined args (lit "data-correct-cosine") = false ->
  (is_defined args (lit "dt-relative") = true \/ is_defined args (lit "dt-max") = true) ->
  is_defined args (lit "dt-positive") = false -> dt_of args dt -> 0 < dt ->
  load s header args = Ok d -> In r (td_rows d) -> (c < dimY (td_par d))%nat -> (no_ci_columns header \/ (0 < c)%nat) ->
  (lower (td_par d) r c <= meas (td_par d) r c <= upper (td_par d) r c <-> 0 <= meas (td_par d) r c).
Proof.
  intros H0 Hm H3 Hdt Hpos HL Hin Hlt Hk. destruct (loaded_channel _ _ _ _ _ _ _ H0 Hdt HL Hin Hlt Hk) as (y & E).
  assert (Ey : meas (td_par d) r c = y).
  { revert E. unfold channel_interval. change (is_defined args "dt-positive"%string) with (is_defined args (lit "dt-positive")). rewrite H3.
    destruct (is_defined args "dt-relative"%string), (is_defined args "dt-max"%string); intros E; injection E; auto. }
  rewrite Ey. destruct (is_defined args (lit "dt-relative")) eqn:Hr.
  - destruct (Rle_or_lt 0 y) as [Hy|Hy]; split; intros H; try assumption; try lra.
    + pose proof (interval_relative args y (- dt) dt Hr ltac:(lra) Hy) as I. rewrite <- E in I. rewrite Ey in I. exact I.
    + pose proof (interval_relative_negative args y (- dt) dt Hr H3 ltac:(lra) Hy) as I. rewrite <- E in I. rewrite Ey in I. lra.
  - assert (Hx : is_defined args (lit "dt-max") = true) by (destruct Hm; congruence).
    destruct (Rle_or_lt 0 y) as [Hy|Hy]; split; intros H; try assumption; try lra.
    + pose proof (interval_max args y (- dt) dt Hr Hx ltac:(lra) Hy) as I. rewrite <- E in I. rewrite Ey in I. exact I.
    + pose proof (interval_max_negative args y (- dt) dt Hr Hx H3 ltac:(lra) Hy) as I. rewrite <- E in I. rewrite Ey in I. lra.
Qed.

(** intervals written in the file *)
Lemma read_row_state fs more : Forall (fun f => numeral lex (fst f) (snd f)) fs -> fs <> [] -> forall w, forallb is_space w = true ->
  read_values lex (length fs) {| trest := w ++ concat (map (fun f => fst f ++ [tab]) fs) ++ more; tgood := true |}
  = Ok (map snd fs, {| trest := tab :: more; tgood := true |}).
Proof.
  induction 1 as [|[t v] fs Hf Hfs IH]; intros Hn w Hw; [congruence|].
  destruct Hf as ((c & t' & Et & Hc & _) & _ & Hlex). cbn [fst snd] in *.
  cbn [length TextModel.read_values map concat]. unfold read_num. cbn [tgood trest negb].
  rewrite skip_ws_app by assumption. rewrite <- !app_assoc. cbn [app fst]. rewrite Et. cbn [app skip_ws]. rewrite Hc.
  change (c :: t' ++ ?x) with ((c :: t') ++ x). rewrite <- Et. rewrite Hlex by reflexivity. cbn [snd].
  destruct fs as [|f fs]; [reflexivity|].
  pose proof (IH ltac:(discriminate) [tab] eq_refl) as E. cbn [app] in E. cbn [app]. rewrite E. reflexivity.
Qed.
Lemma read_num_numeral t v more w : numeral lex t v -> forallb is_space w = true ->
  read_num lex {| trest := w ++ t ++ tab :: more; tgood := true |} = (Some v, {| trest := tab :: more; tgood := true |}).
Proof.
  intros ((c & t' & Et & Hc & _) & _ & Hlex) Hw. unfold read_num. cbn [tgood trest negb].
  rewrite skip_ws_app by assumption. rewrite Et. cbn [app skip_ws]. rewrite Hc.
  change (c :: t' ++ ?x) with ((c :: t') ++ x). rewrite <- Et. rewrite Hlex by reflexivity. reflexivity.
Qed.
Lemma read_ci_rest args dt kind ys : dt_of args dt ->
  is_defined args (lit "dt-relative") = false -> is_defined args (lit "dt-max") = false -> is_defined args (lit "dt-positive") = false ->
  forall i s, read_ci lex stod kind args (S i) ys s = Ok (map (fun y => (y, y - dt, y + dt)) ys).
Proof.
  intros Hdt H1 H2 H3. induction ys as [|y ys IH]; intros i s; [reflexivity|]. cbn [TextModel.read_ci].
  assert (E : channel_dt lex stod kind args (S i) s = Ok (- dt, dt, s)).
  { unfold channel_dt. change (get_double stod args "dt"%string (1 / 10)) with (get_double stod args (lit "dt") (1 / 10)). rewrite Hdt. reflexivity. }
  rewrite E. cbn [bind]. rewrite IH. cbn [bind map]. unfold channel_interval.
  change (is_defined args "dt-relative"%string) with (is_defined args (lit "dt-relative")). rewrite H1.
  change (is_defined args "dt-max"%string) with (is_defined args (lit "dt-max")). rewrite H2.
  change (is_defined args "dt-positive"%string) with (is_defined args (lit "dt-positive")). rewrite H3. reflexivity.
Qed.

Lemma row_head (all : list (str * R)) more : Forall (fun f => numeral lex (fst f) (snd f)) all -> all <> [] ->
  exists c0 t0, concat (map (fun f => fst f ++ [tab]) all) ++ more = c0 :: t0 /\ c0 <> "#"%char.
Proof.
  intros HF Hne. destruct HF as [|[t v] all ((c & t' & Et & _ & Hn) & _) _]; [congruence|]. cbn [fst] in Et. subst t.
  cbn [map concat fst app]. eexists _, _. split; [reflexivity|assumption].
Qed.

Theorem ci_from_file args dt dx fs ys y cis lo hi kind p xlo xhi ylo yhi : dt_of args dt ->
  is_defined args (lit "dt-relative") = false -> is_defined args (lit "dt-max") = false ->
  is_defined args (lit "dt-positive") = false -> is_defined args (lit "data-correct-cosine") = false ->
  Forall (fun f => numeral lex (fst f) (snd f)) (fs ++ y :: ys ++ cis) -> length fs = dx ->
  (kind = ASYMMETRICAL_CI /\ map snd cis = [lo; hi] \/ kind = SYMMETRICAL_CI /\ map snd cis = [lo] /\ hi = lo) ->
  within_bounds (map snd fs) xlo xhi = true -> within_bounds (map snd (y :: ys)) ylo yhi = true ->
  load_line lex stod args dx (S (length ys)) p kind xlo xhi ylo yhi (concat (map (fun f => fst f ++ [tab]) (fs ++ y :: ys ++ cis))) =
  Ok (Some (map snd fs ++ map snd (y :: ys) ++ (snd y - lo :: map (fun v => v - dt) (map snd ys)) ++ (snd y + hi :: map (fun v => v + dt) (map snd ys)))).
Proof.
  intros Hdt H1 H2 H3 Hc HF Hl Hk Hx Hy. set (all := fs ++ y :: ys) in *.
  assert (Ea : fs ++ y :: ys ++ cis = all ++ cis) by (unfold all; rewrite <- app_assoc; reflexivity). rewrite Ea in *.
  apply Forall_app in HF as [HFa HFc].
  assert (Hne : all <> []) by (unfold all; destruct fs; discriminate).
  assert (La : (dx + S (length ys))%nat = length all) by (unfold all; rewrite app_length; cbn; lia).
  rewrite map_app, concat_app.
  set (line := concat (map (fun f => fst f ++ [tab]) all) ++ concat (map (fun f => fst f ++ [tab]) cis)).
  pose proof (read_row_state all (concat (map (fun f => fst f ++ [tab]) cis)) HFa Hne [] eq_refl) as ER. cbn [app] in ER. fold line in ER.
  assert (exists c0 t0, line = c0 :: t0 /\ c0 <> "#"%char) as (c0 & t0 & El & Hh) by (apply row_head; assumption).
  match goal with |- load_line _ _ _ _ _ _ _ _ _ _ _ ?l = _ => change l with line end.
  unfold load_line. rewrite El in *. destruct (aeqb_spec c0 "#") as [|_]; [contradiction|]. rewrite La, ER. cbn [bind fst snd].
  assert (Ef : firstn dx (map snd all) = map snd fs).
  { unfold all. rewrite map_app, firstn_app, map_length, Hl, Nat.sub_diag, firstn_O, app_nil_r. apply firstn_all2. rewrite map_length. lia. }
  assert (Es : skipn dx (map snd all) = snd y :: map snd ys).
  { unfold all. rewrite map_app, skipn_app, map_length, Hl, Nat.sub_diag, skipn_all2 by (rewrite map_length; lia). reflexivity. }
  rewrite Ef, Es.
  assert (ED : exists s', channel_dt lex stod kind args 0 {| trest := tab :: concat (map (fun f => fst f ++ [tab]) cis); tgood := true |} = Ok (- lo, hi, s')).
  { destruct Hk as [[-> Ec]|(-> & Ec & ->)].
    - destruct cis as [|[ta a] [|[tb b] [|]]]; try discriminate. cbn [map snd] in Ec. injection Ec as -> ->.
      inversion HFc as [|? ? Na HFb]; subst. inversion HFb as [|? ? Nb _]; subst. cbn [fst snd] in *.
      cbn [map concat channel_dt fst]. rewrite app_nil_r, <- !app_assoc. cbn [app].
      pose proof (read_num_numeral ta lo (tb ++ [tab]) [tab] Na eq_refl) as A. cbn [app] in A. rewrite A.
      pose proof (read_num_numeral tb hi [] [tab] Nb eq_refl) as B. cbn [app] in B. rewrite B. eexists. reflexivity.
    - destruct cis as [|[ta a] [|]]; try discriminate. cbn [map snd] in Ec. injection Ec as ->.
      inversion HFc as [|? ? Na _]; subst. cbn [fst snd] in *.
      cbn [map concat channel_dt fst]. rewrite app_nil_r.
      pose proof (read_num_numeral ta lo [] [tab] Na eq_refl) as A. cbn [app] in A. rewrite A. eexists. reflexivity. }
  destruct ED as [s' ED]. cbn [TextModel.read_ci]. rewrite ED. cbn [bind]. rewrite (read_ci_rest args dt) by assumption. cbn [bind].
  assert (EI : channel_interval args (snd y) (- lo) hi = (snd y, snd y - lo, snd y + hi)).
  { unfold channel_interval.
    change (is_defined args "dt-relative"%string) with (is_defined args (lit "dt-relative")). rewrite H1.
    change (is_defined args "dt-max"%string) with (is_defined args (lit "dt-max")). rewrite H2.
    change (is_defined args "dt-positive"%string) with (is_defined args (lit "dt-positive")). rewrite H3. reflexivity. }
  rewrite EI. cbn [map fst snd]. rewrite !map_map. cbn [fst snd].
  assert (Em : map (fun x : str * R => snd x) ys = map snd ys) by reflexivity. rewrite Em.
  change (snd y :: map snd ys) with (map snd (y :: ys)). rewrite Hx, Hy. cbn [andb].
  change (is_defined args "data-correct-cosine"%string) with (is_defined args (lit "data-correct-cosine")). rewrite Hc.
  reflexivity.
Qed.
End CI.

(** cosine correction scales the measured channels of an accepted row, and those only *)
Theorem cosine_correction_spec row dx dy p cart : length row = (dx + 3 * dy)%nat ->
  convert (fun i => nth i row 0) p CARTESIAN (fun _ => 0) = Ok cart ->
  (0 < cart 5%nat /\ 0 < cart 2%nat -> exists row', cosine_correction row dx dy p = Ok (Some row') /\ length row' = length row /\
     (forall c, (c < dy)%nat -> nth (dx + c) row' 0 * cart 2%nat = nth (dx + c) row 0 * cart 5%nat) /\
     (forall k, (k < dx \/ dx + dy <= k)%nat -> nth k row' 0 = nth k row 0)) /\
  (~ (0 < cart 5%nat /\ 0 < cart 2%nat) -> cosine_correction row dx dy p = Ok None).
Proof.
  intros Hl Hc. unfold cosine_correction. rewrite Hc. cbn [bind].
  unfold rltb. destruct (Rlt_dec 0 (cart 5%nat)) as [A|A], (Rlt_dec 0 (cart 2%nat)) as [B|B]; cbn [andb]; split; try tauto; intros H; try (exfalso; tauto).
  eexists. split; [reflexivity|].
  assert (L1 : length (firstn dx row) = dx) by (rewrite firstn_length; lia).
  assert (L2 : length (firstn dy (skipn dx row)) = dy) by (rewrite firstn_length, skipn_length; lia).
  split; [|split].
  - rewrite !app_length, map_length, L1, L2, skipn_length. lia.
  - intros c Hcy. rewrite app_nth2 by lia. rewrite L1, app_nth1 by (rewrite map_length; lia).
    replace (dx + c - dx)%nat with c by lia.
    set (f := fun y => y / (1 / cart 5%nat * cart 2%nat)).
    rewrite (nth_indep _ 0 (f 0)) by (rewrite map_length; lia).
    rewrite map_nth. unfold f.
    replace (nth c (firstn dy (skipn dx row)) 0) with (nth (dx + c) row 0).
    + field. split; lra.
    + rewrite <- (firstn_skipn dx row) at 1. rewrite app_nth2 by lia. rewrite L1. replace (dx + c - dx)%nat with c by lia.
      rewrite <- (firstn_skipn dy (skipn dx row)) at 1. rewrite app_nth1 by lia. reflexivity.
  - intros k Hk. destruct (Nat.lt_ge_cases k dx) as [Hlt|Hge].
    + rewrite app_nth1 by lia. rewrite <- (firstn_skipn dx row) at 2. rewrite app_nth1 by lia. reflexivity.
    + destruct Hk as [Hk|Hk]; [lia|]. rewrite app_nth2 by lia. rewrite app_nth2 by (rewrite map_length; lia).
      rewrite map_length, L1, L2. rewrite <- (firstn_skipn (dx + dy) row) at 2.
      rewrite app_nth2 by (rewrite firstn_length; lia). f_equal. rewrite firstn_length. lia.
Qed.

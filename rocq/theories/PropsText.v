(** Properties C18 and C19: text data files. *)
From Coq Require Import Reals List Lia Lra.
From Verif Require Import Base Num ParamsModel GeoModel GeoSpec ArgsModel ArgsSpec DataModel TextModel TextProofs TextRound TextCI.
Open Scope R_scope.

(** C18. For every file made of numeric rows, comments and empty lines, and for
    every requested box, exactly the rows inside the box are kept, in file
    order, with the values written in the file. *)
Theorem C18_rows_in_box_are_kept_in_order : forall lex stod atof flt_max (args : arguments) dt (header : arguments) items s dx dy,
  get_double stod args (lit "dt") (1 / 10) = Ok dt ->
  is_defined args (lit "dt-relative") = false -> is_defined args (lit "dt-max") = false ->
  is_defined args (lit "dt-positive") = false -> is_defined args (lit "data-correct-cosine") = false ->
  map_find (lit "DIM") header = Some (print_nat dx ++ lit " " ++ print_nat dy) -> (0 < dx + dy)%nat ->
  map_find (lit "VS") header = None ->
  Forall (item_ok lex (dx + dy)) items ->
  rest s = concat (map render items) -> (good s = true \/ rest s = []) ->
  exists d, load_data_from_text lex stod atof flt_max s header args = Ok d /\
    td_par d = mkParameters dx dy (parse_input (get_string header (lit "PARAM_IN") (lit "UNKNOWN_INPUT")))
                                  (parse_output (get_string header (lit "PARAM_OUT") (lit "UNKNOWN_OUTPUT"))) /\
    keeps (in_box atof flt_max args dx dy) (td_rows d) (file_rows dx dt items).
Proof. exact text_file_rows. Qed.
Print Assumptions C18_rows_in_box_are_kept_in_order.

(** Shrinking the box removes rows and changes nothing else, for every file
    that loads, with any kind of interval columns. *)
Theorem C18_smaller_box_filters : forall lex stod atof flt_max a b header s db, same_reading a b ->
  (forall dx dy r, in_box atof flt_max a dx dy r -> in_box atof flt_max b dx dy r) ->
  load_data_from_text lex stod atof flt_max s header b = Ok db ->
  exists da, load_data_from_text lex stod atof flt_max s header a = Ok da /\ td_par da = td_par db /\
    keeps (in_box atof flt_max a (dimX (td_par db)) (dimY (td_par db))) (td_rows da) (td_rows db).
Proof. exact text_box_filters. Qed.
Print Assumptions C18_smaller_box_filters.

(** Saving and loading: the rows come back with the values as rounded by the
    printed representation; the interval is the default one. *)
Theorem C18_save_then_load : forall lex stod atof flt_max print rnd p samples,
  prints lex print rnd -> (0 < dimX p + dimY p)%nat ->
  Forall (fun x => (dimX p + dimY p <= length x)%nat /\ Forall (fun v => Rabs (rnd v) <= flt_max) x) samples ->
  parse_input (get_name_in (in_param p)) = in_param p -> parse_output (get_name_out (out_param p)) = out_param p ->
  load_text lex stod atof flt_max (save_text print p samples) [] =
  Ok (mkText p (map (fun x => let v := map rnd (firstn (dimX p + dimY p) x) in let y := skipn (dimX p) v in
                              v ++ map (fun t => t - 1 / 10) y ++ map (fun t => t + 1 / 10) y) samples)).
Proof. exact text_round_trip. Qed.
Print Assumptions C18_save_then_load.

(** Files outside that shape: a line of blanks makes the loader use a variable
    it never set, and a file without dimensions ends the process. *)
Theorem C18_blank_line_refuted : forall lex stod args dx dy p kind lo hi ylo yhi line, (0 < dx + dy)%nat ->
  line <> [] -> Forall (fun c => is_space c = true) line ->
  load_line lex stod args dx dy p kind lo hi ylo yhi line = UB.
Proof. exact short_row. Qed.
Print Assumptions C18_blank_line_refuted.

Theorem C18_missing_dimensions_abort : forall lex stod atof flt_max s (header : arguments) args, map_find (lit "DIM") header = None ->
  load_data_from_text lex stod atof flt_max s header args = Abort.
Proof. exact missing_dim. Qed.
Print Assumptions C18_missing_dimensions_abort.

(** A file with a comment, an empty line and two rows, loaded with "--max 5":
    the hypotheses hold and the second row is the only one dropped. *)
Definition C18_items : list item :=
  [TRow [(lit "3", 3); (lit "-7", -7)] []; TEmpty; TComment (lit " note"); TRow [(lit "12", 12); (lit "4", 4)] (lit "99")].
Lemma C18_demo_numeral z : numeral demo_lex (print_Z z) (IZR z).
Proof. pose proof (demo_prints (IZR z)) as H. unfold demo_print in H. 
  replace (Int_part (IZR z)) with z in H; [exact H|].
  unfold Int_part. rewrite <- (up_tech (IZR z) z); [lia|lra|]. rewrite plus_IZR. lra.
Qed.
Example C18_items_ok : Forall (item_ok demo_lex 2) C18_items.
Proof.
  assert (N : forall l : str, forallb (fun c => negb (aeqb c nl)) l = true -> ~ In nl l).
  { intros l H Hin. rewrite forallb_forall in H. apply H in Hin. discriminate. }
  unfold C18_items. repeat apply Forall_cons; try apply Forall_nil; cbn [item_ok]; repeat split; try (apply N; reflexivity);
  repeat apply Forall_cons; try apply Forall_nil; cbn [fst snd].
  - exact (C18_demo_numeral 3).
  - exact (C18_demo_numeral (-7)).
  - exact (C18_demo_numeral 12).
  - exact (C18_demo_numeral 4).
Qed.
Example C18_case : in_box (fun _ => 5) 1000 [(lit "max", lit "5")] 1 1 [3; -7; -7 - 1; -7 + 1] /\
  ~ in_box (fun _ => 5) 1000 [(lit "max", lit "5")] 1 1 [12; 4; 3; 5].
Proof.
  unfold in_box, block_in. cbn -[Rle]. split.
  - split; intros [|[|c]] l h E1 E2; try discriminate; injection E1 as <-; injection E2 as <-; cbn; lra.
  - intros [H _]. specialize (H 0%nat _ _ eq_refl eq_refl). cbn in H. lra.
Qed.
Example C18_round_trip_case : load_text demo_lex (fun _ => Throw) (fun _ => 0) 1000
   (save_text demo_print (mkParameters 1 1 COS_TH INV_STERADIAN) [[3; -7]; [12; 4]]) [] =
  Ok (mkText (mkParameters 1 1 COS_TH INV_STERADIAN) (map (fun x => let v := map (fun t => IZR (Int_part t)) (firstn 2 x) in
      let y := skipn 1 v in v ++ map (fun t => t - 1 / 10) y ++ map (fun t => t + 1 / 10) y) [[3; -7]; [12; 4]])).
Proof.
  apply (text_round_trip demo_lex _ _ 1000 demo_print (fun v => IZR (Int_part v))); try reflexivity.
  - exact demo_prints.
  - cbn. lia.
  - assert (forall z, Int_part (IZR z) = z) as E.
    { intros z. unfold Int_part. rewrite <- (up_tech (IZR z) z); [lia|lra|]. rewrite plus_IZR. lra. }
    repeat constructor; rewrite E; unfold Rabs; destruct Rcase_abs; lra.
Qed.

(** C19. Absolute tolerances bracket the measurement; dt-positive clamps. *)
Theorem C19_absolute_tolerance_brackets : forall lex stod atof flt_max header args s d dt c r,
  is_defined args (lit "data-correct-cosine") = false ->
  is_defined args (lit "dt-relative") = false -> is_defined args (lit "dt-max") = false ->
  get_double stod args (lit "dt") (1 / 10) = Ok dt -> 0 <= dt ->
  load_data_from_text lex stod atof flt_max s header args = Ok d -> In r (td_rows d) ->
  (c < dimY (td_par d))%nat -> (no_ci_columns header \/ (0 < c)%nat) ->
  lower (td_par d) r c <= meas (td_par d) r c <= upper (td_par d) r c /\
  (is_defined args (lit "dt-positive") = true -> 0 <= lower (td_par d) r c) /\
  (is_defined args (lit "dt-positive") = false ->
     lower (td_par d) r c = meas (td_par d) r c - dt /\ upper (td_par d) r c = meas (td_par d) r c + dt).
Proof. exact ci_absolute. Qed.
Print Assumptions C19_absolute_tolerance_brackets.

(** Relative and "max" tolerances bracket exactly the non negative measurements. *)
Theorem C19_scaled_tolerance_brackets_iff_non_negative : forall lex stod atof flt_max header args s d dt c r,
  is_defined args (lit "data-correct-cosine") = false ->
  (is_defined args (lit "dt-relative") = true \/ is_defined args (lit "dt-max") = true) ->
  is_defined args (lit "dt-positive") = false ->
  get_double stod args (lit "dt") (1 / 10) = Ok dt -> 0 < dt ->
  load_data_from_text lex stod atof flt_max s header args = Ok d -> In r (td_rows d) ->
  (c < dimY (td_par d))%nat -> (no_ci_columns header \/ (0 < c)%nat) ->
  (lower (td_par d) r c <= meas (td_par d) r c <= upper (td_par d) r c <-> 0 <= meas (td_par d) r c).
Proof. exact ci_scaled. Qed.
Print Assumptions C19_scaled_tolerance_brackets_iff_non_negative.

(** Intervals written in the file: on a line holding the abscissa, the measured
    channels and then the interval columns announced by the header (one or two
    numbers), the first channel gets [y - lo, y + hi] with the widths of the
    file; the other channels get the width of the command line. *)
Theorem C19_intervals_from_file : forall lex stod args dt dx (fs ys : list (str * R)) y cis lo hi kind p xlo xhi ylo yhi,
  get_double stod args (lit "dt") (1 / 10) = Ok dt ->
  is_defined args (lit "dt-relative") = false -> is_defined args (lit "dt-max") = false ->
  is_defined args (lit "dt-positive") = false -> is_defined args (lit "data-correct-cosine") = false ->
  Forall (fun f => numeral lex (fst f) (snd f)) (fs ++ y :: ys ++ cis) -> length fs = dx ->
  (kind = ASYMMETRICAL_CI /\ map snd cis = [lo; hi] \/ kind = SYMMETRICAL_CI /\ map snd cis = [lo] /\ hi = lo) ->
  within_bounds (map snd fs) xlo xhi = true -> within_bounds (map snd (y :: ys)) ylo yhi = true ->
  load_line lex stod args dx (S (length ys)) p kind xlo xhi ylo yhi (concat (map (fun f => fst f ++ [tab]) (fs ++ y :: ys ++ cis))) =
  Ok (Some (map snd fs ++ map snd (y :: ys) ++ (snd y - lo :: map (fun v => v - dt) (map snd ys)) ++ (snd y + hi :: map (fun v => v + dt) (map snd ys)))).
Proof. exact ci_from_file. Qed.
Print Assumptions C19_intervals_from_file.

Example C19_intervals_case : exists fs ys y cis, length fs = 1%nat /\ length ys = 1%nat /\ length cis = 2%nat /\
  Forall (fun f => numeral demo_lex (fst f) (snd f)) (fs ++ y :: ys ++ cis) /\ map snd cis = [2; 5].
Proof.
  exists [(lit "3", 3)], [(lit "8", 8)], (lit "-7", -7), [(lit "2", 2); (lit "5", 5)]. repeat split.
  repeat apply Forall_cons; try apply Forall_nil; cbn [fst snd].
  - exact (C18_demo_numeral 3).
  - exact (C18_demo_numeral (-7)).
  - exact (C18_demo_numeral 8).
  - exact (C18_demo_numeral 2).
  - exact (C18_demo_numeral 5).
Qed.

(** Cosine correction keeps the rows above the horizon and scales their
    measured channels only: abscissas and interval bounds stay as they were. *)
Theorem C19_cosine_correction : forall row dx dy p cart, length row = (dx + 3 * dy)%nat ->
  convert (fun i => nth i row 0) p CARTESIAN (fun _ => 0) = Ok cart ->
  (0 < cart 5%nat /\ 0 < cart 2%nat -> exists row', cosine_correction row dx dy p = Ok (Some row') /\ length row' = length row /\
     (forall c, (c < dy)%nat -> nth (dx + c) row' 0 * cart 2%nat = nth (dx + c) row 0 * cart 5%nat) /\
     (forall k, (k < dx \/ dx + dy <= k)%nat -> nth k row' 0 = nth k row 0)) /\
  (~ (0 < cart 5%nat /\ 0 < cart 2%nat) -> cosine_correction row dx dy p = Ok None).
Proof. exact cosine_correction_spec. Qed.
Print Assumptions C19_cosine_correction.

(** Hence a corrected measurement can leave its own interval. *)
Theorem C19_cosine_correction_leaves_interval_refuted : exists row row',
  nth 7 row 0 <= nth 6 row 0 <= nth 8 row 0 /\
  cosine_correction row 6 1 CARTESIAN = Ok (Some row') /\ ~ (nth 7 row' 0 <= nth 6 row' 0 <= nth 8 row' 0).
Proof.
  exists [0; 0; 1; 0; 0; 3; 1; 9/10; 11/10].
  destruct (cosine_correction_spec [0; 0; 1; 0; 0; 3; 1; 9/10; 11/10] 6 1 CARTESIAN _ eq_refl eq_refl) as [H _].
  destruct H as (row' & E & _ & Hy & Hk); [split; [change (0 < 3)|change (0 < 1)]; lra|]. exists row'.
  split; [cbn; lra|]. split; [exact E|].
  specialize (Hy 0%nat ltac:(lia)). rewrite (Hk 8%nat), (Hk 7%nat) by (right; lia).
  change (nth 6 row' 0 * 1 = 1 * 3) in Hy. change (~ (9 / 10 <= nth 6 row' 0 <= 11 / 10)). lra.
Qed.
Print Assumptions C19_cosine_correction_leaves_interval_refuted.

Example C19_case : exists d, load_data_from_text demo_lex (fun _ => Throw) (fun _ => 0) 1000
    {| rest := concat (map render C18_items); eofbit := false; failbit := false |} [(lit "DIM", lit "1 1")] [] = Ok d /\
  no_ci_columns [(lit "DIM", lit "1 1")] /\ In [3; -7; -7 - 1 / 10; -7 + 1 / 10] (td_rows d) /\ dimY (td_par d) = 1%nat.
Proof.
  destruct (text_file_rows demo_lex (fun _ => Throw) (fun _ => 0) 1000 [] (1/10) [(lit "DIM", lit "1 1")] C18_items
    {| rest := concat (map render C18_items); eofbit := false; failbit := false |} 1 1) as (d & E & P & K); try reflexivity.
  - lia.
  - exact C18_items_ok.
  - left. reflexivity.
  - exists d. split; [exact E|]. split; [reflexivity|]. rewrite P. split; [|reflexivity].
    apply keeps_all in K; [rewrite K; left; reflexivity|].
    intros x [<-|[<-|[]]]; (split; intros [|[|c]] l h E1 E2; try discriminate; injection E1 as <-; injection E2 as <-; cbn; lra).
Qed.

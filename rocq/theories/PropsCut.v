(** Property C114: text data files that are cut short. *)
From Coq Require Import Reals List Lia Lra.
From Verif Require Import Base Num ParamsModel GeoModel GeoSpec ArgsModel ArgsSpec DataModel TextModel TextRound CutSpec CutProofs PropsPf.
Open Scope R_scope.

(** Every cut behind the header is one of three: whole lines, a line without its
    end, or a line that stops inside or in front of one of its numbers. *)
Theorem C114_cuts : forall print p samples m, Forall (fun x => (dimX p + dimY p <= length x)%nat) samples ->
  (length (save_text print p []) <= m)%nat -> cut_file print p samples (firstn m (save_text print p samples)).
Proof. intros print p samples m. apply every_cut. Qed.
Print Assumptions C114_cuts.
(** After whole lines, with or without the end of the last one, the load
    succeeds and gives the samples of these lines: the loss goes unnoticed. *)
Theorem C114_whole_lines : forall lex stod atof flt_max print rnd p samples, prints lex print rnd -> (0 < dimX p + dimY p)%nat ->
  Forall (fun x => (dimX p + dimY p <= length x)%nat /\ Forall (fun v => Rabs (rnd v) <= flt_max) x) samples ->
  parse_input (get_name_in (in_param p)) = in_param p -> parse_output (get_name_out (out_param p)) = out_param p ->
  forall k, let read := fun file => load_text lex stod atof flt_max file [] in
  let values := map (fun x => stored p (map rnd (firstn (dimX p + dimY p) x))) in
  read (save_text print p (firstn k samples)) = Ok (mkText p (values (firstn k samples))) /\
  (forall x, nth_error samples k = Some x -> read (save_text print p (firstn k samples) ++ numbers print (firstn (dimX p + dimY p) x)) = Ok (mkText p (values (firstn (S k) samples)))).
Proof.
  intros lex stod atof flt_max print rnd p samples HP Hn Hs Hin Hout k read values. split.
  - apply cut_lines; assumption.
  - intros x Hx. apply cut_line_end; assumption.
Qed.
Print Assumptions C114_whole_lines.
(** In front of a number other than the first of its line, or inside a number
    other than the last, the loader uses a variable it never set. *)
Theorem C114_inside_a_line_refuted : forall lex stod atof flt_max print rnd p samples, prints lex print rnd -> prefixes_end lex print -> (0 < dimX p + dimY p)%nat ->
  Forall (fun x => (dimX p + dimY p <= length x)%nat /\ Forall (fun v => Rabs (rnd v) <= flt_max) x) samples ->
  parse_input (get_name_in (in_param p)) = in_param p -> parse_output (get_name_out (out_param p)) = out_param p ->
  forall k x j v q r, nth_error samples k = Some x -> (j < dimX p + dimY p)%nat -> nth_error x j = Some v -> print v = q ++ r ->
  (q = [] /\ j <> 0%nat \/ q <> [] /\ S j <> (dimX p + dimY p)%nat) ->
  load_text lex stod atof flt_max (save_text print p (firstn k samples) ++ numbers print (firstn j x) ++ q) [] = UB.
Proof. intros lex stod atof flt_max print rnd p samples HP HE Hn Hs Hin Hout k x j v q r. apply (cut_inside lex stod atof flt_max print rnd HP HE p Hn Hin Hout); assumption. Qed.
Print Assumptions C114_inside_a_line_refuted.
(** Inside the last number of a line the load succeeds with the number that
    the rest of its digits spell, or 0. *)
Theorem C114_last_number_refuted : forall lex stod atof flt_max print rnd p samples, prints lex print rnd -> prefixes_end lex print -> (0 < dimX p + dimY p)%nat ->
  Forall (fun x => (dimX p + dimY p <= length x)%nat /\ Forall (fun v => Rabs (rnd v) <= flt_max) x) samples ->
  parse_input (get_name_in (in_param p)) = in_param p -> parse_output (get_name_out (out_param p)) = out_param p ->
  forall k x j v q r, nth_error samples k = Some x -> S j = (dimX p + dimY p)%nat -> nth_error x j = Some v -> print v = q ++ r -> q <> [] -> Rabs (cut_number lex q) <= flt_max ->
  load_text lex stod atof flt_max (save_text print p (firstn k samples) ++ numbers print (firstn j x) ++ q) [] =
  Ok (mkText p (map (fun x => stored p (map rnd (firstn (dimX p + dimY p) x))) (firstn k samples) ++ [stored p (map rnd (firstn j x) ++ [cut_number lex q])])).
Proof.
  intros lex stod atof flt_max print rnd p samples HP HE Hn Hs Hin Hout k x j v q r H1 H2 H3 H4 H5 H6. rewrite (cut_last lex stod atof flt_max print rnd HP HE p Hn Hin Hout samples k x j v q r) by assumption.
  rewrite (proj2 (TextProofs.rleb_spec _ _) H6). reflexivity.
Qed.
Print Assumptions C114_last_number_refuted.

(** Two samples of a function of one variable; the file is cut inside the last
    number, 47, of which 4 is left. *)
Definition par6 : parameters := mkParameters 1 1 RUSIN_TH_PH_TD_PD INV_STERADIAN.
Definition two_samples : list (list R) := [[1; 25]; [2; 47]].
Lemma two_fine : Forall (fun x => (dimX par6 + dimY par6 <= length x)%nat /\ Forall (fun v => Rabs (IZR (Int_part v)) <= 1000) x) two_samples.
Proof. repeat constructor; try (cbn; lia); rewrite whole_numbers, Rabs_right by lra; lra. Qed.
Lemma print_47 : demo_print 47 = lit "47".
Proof. unfold demo_print. replace (Int_part 47) with 47%Z; [reflexivity|]. apply eq_IZR. rewrite whole_numbers. reflexivity. Qed.
Example C114_case : exists file, file = firstn (length (save_text demo_print par6 two_samples) - 3) (save_text demo_print par6 two_samples) /\
  load_text demo_lex (fun _ => Throw) (fun _ => 0) 1000 file [] = Ok (mkText par6 [[1; 25; 25 - 1 / 10; 25 + 1 / 10]; [2; 4; 4 - 1 / 10; 4 + 1 / 10]]).
Proof.
  exists (save_text demo_print par6 (firstn 1 two_samples) ++ numbers demo_print (firstn 1 [2; 47]) ++ lit "4"). split.
  - assert (E : save_text demo_print par6 two_samples = (save_text demo_print par6 (firstn 1 two_samples) ++ numbers demo_print (firstn 1 [2; 47]) ++ lit "4") ++ lit "7" ++ [tab; nl]).
    { unfold save_text, two_samples, numbers, save_row, endl. cbn [firstn map concat dimX dimY par6 Nat.add]. rewrite print_47. rewrite <- !app_assoc. reflexivity. }
    rewrite E. rewrite app_length. cbn [length lit String.list_ascii_of_string app]. rewrite Nat.add_sub. rewrite firstn_app, firstn_all, Nat.sub_diag, firstn_O, app_nil_r. reflexivity.
  - rewrite (C114_last_number_refuted demo_lex (fun _ => Throw) (fun _ => 0) 1000 demo_print _ par6 two_samples demo_prints demo_prefixes) with (k := 1%nat) (x := [2; 47]) (j := 1%nat) (v := 47) (r := lit "7").
    + unfold stored, two_samples, cut_number. change (demo_lex (lit "4")) with (Some (4, @nil ascii)). cbn [firstn map app skipn dimX dimY par6 Nat.add]. rewrite !whole_numbers. reflexivity.
    + cbn; lia.
    + exact two_fine.
    + reflexivity.
    + reflexivity.
    + reflexivity.
    + reflexivity.
    + reflexivity.
    + exact print_47.
    + discriminate.
    + change (cut_number demo_lex (lit "4")) with 4. rewrite Rabs_right by lra. lra.
Qed.

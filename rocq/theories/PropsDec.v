(** C118, C119: how precisely numbers survive in files. *)
From Coq Require Import Reals List Lia Lra ZArith String.
From Verif Require Import Base Num ParamsModel GeoModel ArgsModel ArgsSpec DataModel TextModel TextRound FuncModel FuncFile FuncFileSpec RatModel RatSpec RatFile CutSpec GlslSpec.
From Verif Require Import DecModel DecSpec DecProofs DecProofs2 DecProofs3 DecProofs4 DecProofs5.
Open Scope R_scope.
Import ListNotations.

(** What is written for a number is read back as the nearest number of P decimal
    digits (converted to a double by [store]), in both notations; it contains no
    blank and no line end; and if the file ends inside, what is left is read to its
    end or refused. *)
Theorem C118_written_numbers : forall store P, (0 < P)%nat ->
  TextRound.prints (lex_number store) (print_general P) (fun v => store (dec_round (Z.of_nat P) v)) /\
  TextRound.prints (lex_number store) (print_scientific P) (fun v => store (dec_round (Z.of_nat P) v)) /\
  prefixes_end (lex_number store) (print_general P) /\ prefixes_end (lex_number store) (print_scientific P).
Proof. intros store P HP. exact (conj (general_prints store P HP) (conj (scientific_prints store P HP) (conj (general_prefixes store P HP) (scientific_prefixes store P HP)))). Qed.
Print Assumptions C118_written_numbers.
(** Nearest number of P digits, and nearest double. *)
Theorem C118_nearest : forall P v, (0 < P)%Z -> nearest (decimal P) v (dec_round P v) /\ nearest double v (to_double v).
Proof. intros P v HP. split; [apply dec_nearest; exact HP|apply double_nearest]. Qed.
Print Assumptions C118_nearest.
(** The error: relative to the number it is at most 5 in the digit after the last. *)
Theorem C118_error : forall P v, (0 < P)%Z -> Rabs (dec_round P v - v) <= 5 * powerRZ 10 (- P) * Rabs v.
Proof. exact dec_error. Qed.
Print Assumptions C118_error.
(** Written numbers keep their order (distinct numbers may become equal). *)
Theorem C118_order : forall P v w, (0 < P)%Z -> v <= w -> dec_round P v <= dec_round P w.
Proof. exact dec_monotone. Qed.
Print Assumptions C118_order.
(** Up to 15 digits, a double that is read from its text is written as the same
    text, and a double that stands for a number of at most P digits is not
    changed at all. *)
Theorem C118_stable : forall P, (0 < P <= 15)%nat ->
  (forall v, normal v -> print_general P (to_double (dec_round (Z.of_nat P) v)) = print_general P v /\
                         print_scientific P (to_double (dec_round (Z.of_nat P) v)) = print_scientific P v) /\
  (forall d, decimal (Z.of_nat P) d -> normal d -> to_double (dec_round (Z.of_nat P) (to_double d)) = to_double d).
Proof. intros P HP. split; [intros v Hv; split; [apply same_general|apply same_scientific]; assumption|intros d H1 H2; apply typed; [lia|exact H1|exact H2]]. Qed.
Print Assumptions C118_stable.
(** But the 15 digits of data files do not tell all doubles apart: 1 and the
    double after 1 are written alike, and the second comes back as 1.  With 17
    digits every double comes back. *)
Theorem C118_doubles_lost_refuted : exists v, double v /\ normal v /\ v <> 1 /\
  print_general 15 v = print_general 15 1 /\ to_double (dec_round 15 v) = 1.
Proof.
  exists (1 + powerRZ 2 (-52)). pose proof (powerRZ_lt 2 (-52) ltac:(lra)) as B. split; [exact after_one_double|]. split.
  - right. rewrite Rabs_pos_eq by lra. apply Rle_trans with 1; [|lra]. change 1 with (powerRZ 2 0). rewrite <- !bpow2. apply Flocq.Core.Raux.bpow_le. lia.
  - split; [lra|]. split.
    + unfold print_general. change (Z.of_nat 15) with 15%Z. rewrite after_one. rewrite (decimal_fixed 15 1) by (try apply one_decimal; lia). reflexivity.
    + rewrite after_one. apply double_fixed, one_double.
Qed.
Print Assumptions C118_doubles_lost_refuted.
Theorem C118_seventeen_digits : forall v, double v -> normal v -> to_double (dec_round 17 v) = v.
Proof. exact seventeen_digits. Qed.
Print Assumptions C118_seventeen_digits.
(** Literals of exported shaders are decimal numbers with the same value. *)
Theorem C118_literals : forall P, (0 < P)%nat -> GlslSpec.prints (fun v => as_string (print_general P v)) (dec_round (Z.of_nat P)).
Proof. exact general_literals. Qed.
Print Assumptions C118_literals.
(** The digits that are written: those of the number if it has P digits. *)
Example C118_texts : print_general 15 (1 / 10) = lit "0.1" /\ print_general 15 (-12345678 / 1000) = lit "-12345.678" /\ print_general 15 (1 / 100000) = lit "1e-05" /\
  print_general 10 100000000000000000000 = lit "1e+20" /\ print_general 10 0 = lit "0" /\ print_general 15 250 = lit "250" /\ print_general 10 (1 / 1024) = lit "0.0009765625" /\
  print_scientific 11 (-5 / 2) = lit "-2.5000000000e+00" /\ print_general 10 (2 / 3) = lit "0.6666666667".
Proof. exact texts. Qed.

(** Text data: what is loaded agrees with what was saved up to 15 digits, and
    saving it again gives the same file. *)
Theorem C119_text_data : forall stod atof flt_max p samples, (0 < dimX p + dimY p)%nat ->
  Forall (fun x => (dimX p + dimY p <= length x)%nat /\ Forall (fun v => normal v /\ Rabs v <= flt_max / 2) x) samples ->
  parse_input (get_name_in (in_param p)) = in_param p -> parse_output (get_name_out (out_param p)) = out_param p ->
  exists rows, load_text (lex_number to_double) stod atof flt_max (save_text (print_general 15) p samples) [] = Ok (mkText p rows) /\
    Forall2 (fun x row => Forall2 (close 15) (firstn (dimX p + dimY p) x) (firstn (dimX p + dimY p) row)) samples rows /\
    save_text (print_general 15) p rows = save_text (print_general 15) p samples.
Proof. exact data_file. Qed.
Print Assumptions C119_text_data.
(** Function files: 10 digits. *)
Theorem C119_functions : forall get_function args t t0, map_ok args -> writable args -> savable t -> same_shape t0 t -> Forall normal (all_params t) ->
  parse_input (get_name_in (in_param (par_of t))) = in_param (par_of t) ->
  get_function args (mkParameters (dimX (par_of t)) (dimY (par_of t)) (in_param (par_of t)) UNKNOWN_OUTPUT) = Ok t0 ->
  exists g, load_function (lex_number to_double) get_function (save_file (print_general 10) args t) = Ok (Some g) /\
    close_function 10 t g /\ save_file (print_general 10) args g = save_file (print_general 10) args t.
Proof. exact function_file. Qed.
Print Assumptions C119_functions.
(** Rational functions: 11 digits. *)
Theorem C119_rational_functions : forall junk f channels np nq, (0 < f_dimX f)%nat -> length (f_min f) = f_dimX f -> length (f_max f) = f_dimX f ->
  f_rs f = map Some channels -> length channels = f_dimY f -> Forall (channel_ok (f_dimX f)) channels ->
  Forall normal (f_min f) -> Forall normal (f_max f) -> Forall normal_channel channels ->
  exists t g s', save_rf (print_scientific 11) f = Ok t /\
    load_rf junk (lex_number to_double) (new_rf (f_dimX f) (f_dimY f) np nq) (good_stream t) = Ok (true, g, s') /\
    Forall2 (close 11) (f_min f) (f_min g) /\ Forall2 (close 11) (f_max f) (f_max g) /\ Forall2 (close_channel 11) channels (f_rs g) /\
    save_rf (print_scientific 11) g = Ok t.
Proof. exact rational_file. Qed.
Print Assumptions C119_rational_functions.
(** Saving a function and loading it changes it: the parameter 1 + 2^-35, which
    is a double, comes back as 1. *)
Theorem C119_function_changed_refuted : forall get_function args l t0, map_ok args -> writable args -> lf_nb l = 1%nat -> same_shape t0 (Leaf l []) ->
  parse_input (get_name_in (in_param (lf_par l))) = in_param (lf_par l) ->
  get_function args (mkParameters (dimX (lf_par l)) (dimY (lf_par l)) (in_param (lf_par l)) UNKNOWN_OUTPUT) = Ok t0 ->
  exists v, double v /\ v <> 1 /\ load_function (lex_number to_double) get_function (save_file (print_general 10) args (Leaf l [v])) = Ok (Some (Leaf l [1])).
Proof. exact function_changed. Qed.
Print Assumptions C119_function_changed_refuted.

(** Samples of a function of one variable. *)
Definition par7 : parameters := mkParameters 1 1 RUSIN_TH_PH_TD_PD INV_STERADIAN.
Example C119_case : exists rows, load_text (lex_number to_double) (fun _ => Abort) (fun _ => 0) (powerRZ 2 127) (save_text (print_general 15) par7 [[1 / 3; 2]; [0; -1 / 7]]) [] = Ok (mkText par7 rows) /\
  Forall2 (fun x row => Forall2 (close 15) (firstn 2 x) (firstn 2 row)) [[1 / 3; 2]; [0; -1 / 7]] rows.
Proof. exact data_case. Qed.

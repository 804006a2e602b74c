(** Data files as the programs read and write them (C115): objects of class
    vertical_segment, seen through data::get, which returns positions and values
    without the intervals.  Conversions between numbers and text, binary files and
    the data plugins are parameters. *)
From Coq Require Import Reals List.
From Verif Require Import Base Num ParamsModel GeoModel ArgsModel DataModel TextModel ConvModel ToolModel.

Inductive data_obj := DSeg (p : parameters) (samples : list (list R)) | DOther (id : nat).

Section Files.
Variable lex : str -> option (R * str).
Variable stod : str -> outcome R.
Variable atof : str -> R.
Variable flt_max : R.
Variable print : R -> str.
Variable junk : R.
Variable read_binary : str -> outcome (attempt (option data_obj)).

Definition segment_class (n : str) : bool := str_eqb n [] || str_eqb n (lit "vertical_segment").
(** vertical_segment.cpp:145-148 get: the first dimX + dimY columns *)
Definition seg_of (d : text_data) : data_obj := DSeg (td_par d) (map (firstn (dimX (td_par d) + dimY (td_par d))) (td_rows d)).
(** plugins_manager.cpp:475-500 load_data, for the class vertical_segment *)
Definition read_segment (content : str) (args : arguments) : outcome (attempt (option data_obj)) :=
  if str_eqb (at_key (fst (parse_header content)) (lit "FORMAT")) (lit "binary") then read_binary content
  else do d <- load_text lex stod atof flt_max content args; Ok (Done (Some (seg_of d))).

(** A world where these objects are read (plugins_manager.cpp:475-530), created
    with zeros (vertical_segment.cpp:96-104), saved (data.cpp:18-29,
    data_storage.cpp:268-290), converted (ConvModel.splat) and evaluated
    (ConvModel.brdf2data) by the code of the repository. *)
Definition real_data {F Ft} (value : F -> list R -> outcome (list R)) (w : world data_obj F Ft) : Prop :=
  (forall t c a, segment_class t = true -> w_read_data w t c a = read_segment c a) /\
  (forall t n p a, segment_class t = true -> w_get_data w t n p a = Ok (Some (DSeg p (repeat (repeat 0%R (dimX p + dimY p)) n)))) /\
  (forall p l, w_par w (DSeg p l) = p /\ w_size w (DSeg p l) = length l /\ w_is_segment w (DSeg p l) = true /\ w_save_throws w (DSeg p l) = true /\
               w_data_text w (DSeg p l) = (save_text print p l, Ok tt)) /\
  (forall p l q m all, w_splat w (DSeg p l) (DSeg q m) all = do out <- splat junk p q all l m; Ok (DSeg q out)) /\
  (forall f p l diff, w_evaluate w f (DSeg p l) diff = do out <- ConvModel.brdf2data junk (w_fpar w f) p (value f) diff l; Ok (DSeg p out)).
End Files.

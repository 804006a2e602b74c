(** Vocabulary for C115. *)
From Coq Require Import Reals List.
From Verif Require Import Base Num ParamsModel GeoModel ArgsModel DataModel TextModel TextRound ConvModel ConvSpec ToolModel ToolSpec TdModel.
Open Scope R_scope.

(** the options that change what is read from a text file *)
Definition reading_options : list str := map lit ["min"; "max"; "ymin"; "ymax"; "dt"; "dt-relative"; "dt-max"; "dt-positive"; "data-correct-cosine"]%string.
Definition no_reading_options (a : arguments) : Prop := forall k, In k reading_options -> ~ given a k.
(** samples that a text file can hold, for numbers up to flt_max *)
Definition writable_samples (flt_max : R) (rnd : R -> R) (p : parameters) (l : list (list R)) : Prop :=
  Forall (fun r => sample_of p r /\ Forall (fun v => Rabs (rnd v) <= flt_max) r) l.
(** a number that was read is printed as it was *)
Definition reprints (print : R -> str) (rnd : R -> R) : Prop := forall v, print (rnd v) = print v.
(** the output parametrization has a name *)
Definition named_output (o : output) : Prop := parse_output (get_name_out o) = o.
(** a file whose header does not say that it is binary *)
Definition text_file (content : str) : Prop := str_eqb (at_key (fst (parse_header content)) (lit "FORMAT")) (lit "binary") = false.
(** positions and values of the samples *)
Definition samples_of (d : text_data) : list (list R) := map (firstn (dimX (td_par d) + dimY (td_par d))) (td_rows d).

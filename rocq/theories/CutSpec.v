(** Vocabulary for text data files that are cut short (C114). *)
From Coq Require Import Reals List.
From Verif Require Import Base Num ParamsModel GeoModel ArgsModel DataModel TextModel TextRound.
Open Scope R_scope.

(** Any non empty beginning of a printed number is read to its end or refused. *)
Definition prefixes_end (lex : str -> option (R * str)) (print : R -> str) : Prop :=
  forall v q r, print v = q ++ r -> q <> [] -> lex q = None \/ exists w, lex q = Some (w, []).
(** The number that is read from such a beginning: 0 when it is refused. *)
Definition cut_number (lex : str -> option (R * str)) (q : str) : R := match lex q with Some (w, _) => w | None => 0 end.
(** The text of j numbers. *)
Definition numbers (print : R -> str) (l : list R) : str := concat (map (fun v => print v ++ [tab]) l).
(** The sample that is stored for the numbers v: intervals of half width 0.1. *)
Definition stored (p : parameters) (v : list R) : list R :=
  v ++ map (fun t => t - 1 / 10) (skipn (dimX p) v) ++ map (fun t => t + 1 / 10) (skipn (dimX p) v).
(** Whole lines of the samples before k, and a part of the line of sample k. *)
Inductive cut_file (print : R -> str) (p : parameters) (samples : list (list R)) : str -> Prop :=
| Cut_lines k : (k <= length samples)%nat -> cut_file print p samples (save_text print p (firstn k samples))
| Cut_line_end k x : nth_error samples k = Some x -> cut_file print p samples (save_text print p (firstn k samples) ++ numbers print (firstn (dimX p + dimY p) x))
  (** j numbers are complete, and q is the beginning of the next *)
| Cut_number k x j v q r : nth_error samples k = Some x -> (j < dimX p + dimY p)%nat -> nth_error x j = Some v -> print v = q ++ r ->
    cut_file print p samples (save_text print p (firstn k samples) ++ numbers print (firstn j x) ++ q).

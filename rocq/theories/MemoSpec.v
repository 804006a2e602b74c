(** Vocabulary of fitters that are used several times. *)
From Coq Require Import Reals List ZArith.
From Verif Require Import Base Num ArgsModel ToolSpec OptModel OptSpec MemoModel.
Import ListNotations.

(** b: the last arguments given to set_parameters that satisfy P *)
Definition last_giving (P : arguments -> Prop) (h : list call) (b : arguments) : Prop :=
  exists pre post, h = pre ++ SetParameters b :: post /\ P b /\ forall c, In (SetParameters c) post -> ~ P c.
Definition none_giving (P : arguments -> Prop) (h : list call) : Prop := forall c, In (SetParameters c) h -> ~ P c.
Definition last_set (h : list call) (b : arguments) : Prop := last_giving (fun _ => True) h b.
Definition never_set (h : list call) : Prop := none_giving (fun _ => True) h.

(** The call makes [z] the number for [key] of the leastsquare fitter *)
Definition sets_size (key : str) (c : call) (z : Z) : Prop :=
  match c with
  | SetParameters b => int_given b key z \/ (~ given b key /\ z = 10%Z)
  | FitData b => int_given b key z
  end.
(** [z]: the number the last call made, 10 when none did *)
Definition size_after (key : str) (h : list call) (z : Z) : Prop :=
  (exists pre c post, h = pre ++ c :: post /\ sets_size key c z /\ forall c' z', In c' post -> ~ sets_size key c' z') \/
  ((forall c z', In c h -> ~ sets_size key c z') /\ z = 10%Z).

(** one of Ceres' three tolerances is given *)
Definition gives_tolerance (a : arguments) : Prop := exists t, In t tolerances /\ given a t.

(** In a script: the arguments of the last fit that had some *)
Definition last_with (l : list py_fit) (b : arguments) : Prop :=
  exists pre post, l = pre ++ With b :: post /\ forall c, ~ In (With c) post.
Definition never_with (l : list py_fit) : Prop := forall c, ~ In (With c) l.

(** Reading the numbers of the options [ks] in order, up to the first one that is given
    and no number: [v] is the last number read, [old] when there was none; [bad]: there
    is such an option. *)
Inductive numbers_read (stod : str -> outcome R) (a : arguments) : list str -> R -> R -> bool -> Prop :=
| read_none old : numbers_read stod a [] old old false
| read_absent k ks old v bad : ~ given a k -> numbers_read stod a ks old v bad -> numbers_read stod a (k :: ks) old v bad
| read_number k ks old w v bad : number_given stod a k w -> numbers_read stod a ks w v bad -> numbers_read stod a (k :: ks) old v bad
| read_bad k ks old : given a k -> (forall w, ~ number_given stod a k w) -> numbers_read stod a (k :: ks) old old true.
(** the same for one call after the other *)
Inductive all_read (stod : str -> outcome R) (ks : list str) : list arguments -> R -> R -> Prop :=
| all_none old : all_read stod ks [] old old
| all_one a l old w v bad : numbers_read stod a ks old w bad -> all_read stod ks l w v -> all_read stod ks (a :: l) old v.

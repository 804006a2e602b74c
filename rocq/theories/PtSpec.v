(** Vocabulary for the files of trees of plugins (C112, C113). *)
From Coq Require Import Reals List ZArith.
From Verif Require Import Base Num ParamsModel GeoModel ArgsModel DataModel TextModel FuncModel FuncFile FuncFileSpec PfModel PfSpec PtModel ArgsSpec.

(** Plugin f is restored from its file by the object f0 (C90). *)
Definition restorable_by (f f0 : pfun) : Prop :=
  sound_format f /\ nameable f /\ alike f0 f /\ complete f /\ (is_lafortune (pf_kind f) = false -> complete f0).
(** t0 is a tree of the same form whose plugins restore those of t; sums are not empty. *)
Fixpoint tree_for (t t0 : ptree) : Prop :=
  match t, t0 with
  | PLeaf f, PLeaf f0 => restorable_by f f0
  | PSum fs, PSum fs0 => fs <> [] /\ (fix all l l0 := match l, l0 with [], [] => True | f :: r, f0 :: r0 => tree_for f f0 /\ all r r0 | _, _ => False end) fs fs0
  | PProd f g, PProd f0 g0 => tree_for f f0 /\ tree_for g g0
  | _, _ => False
  end.
(** What loading makes of t0: every plugin as in [loaded]. *)
Fixpoint restored (rnd : R -> R) (t t0 : ptree) : ptree :=
  match t, t0 with
  | PLeaf f, PLeaf f0 => PLeaf (loaded rnd f f0)
  | PSum fs, PSum fs0 => PSum ((fix all l l0 := match l, l0 with f :: r, f0 :: r0 => restored rnd f f0 :: all r r0 | _, _ => [] end) fs fs0)
  | PProd f g, PProd f0 g0 => PProd (restored rnd f f0) (restored rnd g g0)
  | _, _ => t0
  end.
(** Lines that a reader of functions skips. *)
Definition skippable (w : str) : Prop := exists ls, w = flat_map endl ls /\ Forall (fun l => ~ In nl l /\ (length l <= 255)%nat /\ ~ begins "#" l) ls.

(** Loading a text that holds some of the functions of a sum: [chosen fs0 fs gs],
    the functions fs are those of the text, each for a member of fs0 in order, and
    gs is what becomes of the members.  A member without text is followed by one
    from another family, or by no function of the text at all. *)
Inductive chosen (rnd : R -> R) : list pfun -> list pfun -> list pfun -> Prop :=
| CH_end fs0 : chosen rnd fs0 [] fs0
| CH_take f f0 fs0 fs gs : restorable_by f f0 -> chosen rnd fs0 fs gs -> chosen rnd (f0 :: fs0) (f :: fs) (loaded rnd f f0 :: gs)
| CH_skip f f0 fs0 fs gs : same_family (pf_kind f0) (pf_kind f) = false -> chosen rnd fs0 (f :: fs) gs -> chosen rnd (f0 :: fs0) (f :: fs) (f0 :: gs).
(** the plugins of a tree *)
Fixpoint leaves_of (t : ptree) : list pfun :=
  match t with
  | PLeaf f => [f]
  | PSum fs => (fix all l := match l with [] => [] | f :: r => leaves_of f ++ all r end)%list fs
  | PProd f g => (leaves_of f ++ leaves_of g)%list
  end.
(** trees of the same form *)
Fixpoint same_form (t t' : ptree) : Prop :=
  match t, t' with
  | PLeaf _, PLeaf _ => True
  | PSum fs, PSum fs' => (fix all l l' := match l, l' with [], [] => True | f :: r, f' :: r' => same_form f f' /\ all r r' | _, _ => False end) fs fs'
  | PProd f g, PProd f' g' => same_form f f' /\ same_form g g'
  | _, _ => False
  end.
(** Members that are read one after the other from the text r: one that is loaded leaves
    the text after it to the next, one that is not leaves the text as it was. *)
Inductive members (load : ptree -> istream -> outcome (bool * ptree * istream)) : str -> list ptree -> list bool -> list ptree -> str -> Prop :=
| M_nil r : members load r [] [] [] r
| M_yes r f g r1 fs bs gs r' : load f (good_stream r) = Ok (true, g, good_stream r1) -> members load r1 fs bs gs r' -> members load r (f :: fs) (true :: bs) (g :: gs) r'
| M_no r f g s fs bs gs r' : load f (good_stream r) = Ok (false, g, s) -> failbit s = false -> members load r fs bs gs r' -> members load r (f :: fs) (false :: bs) (g :: gs) r'.

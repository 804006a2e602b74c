(** Vocabulary for function files (C29). *)
From Coq Require Import Reals List.
From Verif Require Import Base Num ArgsModel DataModel ParamsModel GeoModel TextModel FuncModel FuncFile.

(** the tree with other leaf parameters *)
Fixpoint map_params (h : list R -> list R) (t : tree) : tree :=
  match t with
  | Leaf l p => Leaf l (h p)
  | Compound par fs => Compound par (map (fun f : bool * tree => (fst f, map_params h (snd f))) fs)
  | Product par x1 x2 f1 f2 => Product par x1 x2 (map_params h f1) (map_params h f2)
  end.
(** same structure and same leaf functions, parameters aside *)
Definition same_shape (t t' : tree) : Prop := map_params (fun _ => []) t = map_params (fun _ => []) t'.
(** leaves hold as many parameters as they announce; compounds are not empty *)
Fixpoint savable (t : tree) : Prop :=
  match t with
  | Leaf l p => length p = lf_nb l
  | Compound _ fs => fs <> [] /\ fold_right (fun (f : bool * tree) P => savable (snd f) /\ P) True fs
  | Product _ _ _ f1 f2 => savable f1 /\ savable f2
  end.

Definition good_stream (r : str) : istream := {| rest := r; eofbit := false; failbit := false |}.
Definition newlines (w : str) : Prop := Forall (eq nl) w.


(** Loading functions one after the other from the text r: [Loads r fs bs gs r'].
    A function that is loaded leaves the text after it to the next ones; a
    function that is not leaves the text as it was. *)
Inductive Loads (load : tree -> istream -> outcome (bool * tree * istream)) : str -> list tree -> list bool -> list tree -> str -> Prop :=
| Loads_nil r : Loads load r [] [] [] r
| Loads_yes r f g r1 fs bs gs r' : load f (good_stream r) = Ok (true, g, good_stream r1) -> Loads load r1 fs bs gs r' -> Loads load r (f :: fs) (true :: bs) (g :: gs) r'
| Loads_no r f g s fs bs gs r' : load f (good_stream r) = Ok (false, g, s) -> failbit s = false -> Loads load r fs bs gs r' -> Loads load r (f :: fs) (false :: bs) (g :: gs) r'.
(** a word of a text *)
Definition solid (t : str) : Prop := t <> [] /\ Forall (fun c => is_space c = false) t.

(** Vocabulary for C101 (bootstrap). *)
From Coq Require Import Reals List.
From Verif Require Import Base Num ArgsModel ArgsSpec DataModel TextModel FuncModel FuncFile FuncFileSpec BootModel.

Definition composite_tree (t : tree) : Prop := match t with Leaf _ _ => False | _ => True end.
(** the text has the line [l] *)
Definition has_line (l c : str) : Prop :=
  exists pre post, c = pre ++ l ++ post /\ (pre = [] \/ exists p, pre = p ++ [nl]) /\ (post = [] \/ exists q, post = nl :: q).
(** the option is the list of the texts [es] *)
Definition vector_option (args : arguments) (es : list str) : Prop :=
  map_find key args = Some ("["%char :: join comma es ++ ["]"%char]) /\ es <> [] /\ Forall (fun e => ~ In ","%char e) es.
(** the option is the name of a file *)
Definition file_option (args : arguments) (name : str) : Prop :=
  map_find key args = Some name /\ first_is "[" name = false /\ name <> [].
Definition no_option (args : arguments) : Prop := map_find key args = None.
(** a plugin sets as many parameters as it has *)
Definition starts_sized (start : leaf_fn -> list R -> arguments -> list R) : Prop :=
  forall l p args, length p = lf_nb l -> length (start l p args) = lf_nb l.

(** the text [c] has lines, then the line that ends a header, then [body] *)
Definition after_header (c body : str) : Prop :=
  exists ls, c = concat (List.map endl ls) ++ endl (lit "#ALTA HEADER END") ++ body /\
    Forall (fun l => ~ In nl l /\ l <> lit "#ALTA HEADER END") ls.

Section Fills.
Variable lex : str -> option (R * str).
(** the function starts as it would on its own *)
Variable starts : tree -> atree -> arguments -> tree -> Prop.
(** a function is set by the text at [r] and leaves the text after it, or it starts as on
    its own with the options [args] and leaves the text as it was *)
Inductive Fills1 (r : str) (f : tree) (a : atree) (args : arguments) : tree -> str -> Prop :=
| Fills_file g r' : load lex f (good_stream r) = Ok (true, g, good_stream r') -> Fills1 r f a args g r'
| Fills_start g s : load lex f (good_stream r) = Ok (false, f, s) -> failbit s = false -> starts f a args g -> Fills1 r f a args g r.
(** the functions of a sum one after the other, from the [i]-th one: a function starts on its
    own with its own options [al], except for the factors of a product, which get the
    options [args] of the sum *)
Inductive Fills (al : list (arguments * atree)) (args : arguments) : nat -> str -> list (bool * tree) -> list (bool * tree) -> Prop :=
| Fills_nil i r : Fills al args i r [] []
| Fills_one i r x f g r' fs gs : match f with Product _ _ _ _ _ => False | _ => True end ->
    Fills1 r f (snd (achild al i)) (fst (achild al i)) g r' -> Fills al args (S i) r' fs gs -> Fills al args i r ((x, f) :: fs) ((x, g) :: gs)
| Fills_product i r x par x1 x2 f1 f2 g1 g2 r1 r2 fs gs :
    Fills1 r f1 (afirst (snd (achild al i))) args g1 r1 -> Fills1 r1 f2 (asecond (snd (achild al i))) args g2 r2 -> Fills al args (S i) r2 fs gs ->
    Fills al args i r ((x, Product par x1 x2 f1 f2) :: fs) ((x, Product par x1 x2 g1 g2) :: gs).
End Fills.

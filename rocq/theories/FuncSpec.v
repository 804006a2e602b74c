(** Specification vocabulary for function trees (C26, C27). *)
From Coq Require Import Reals List.
From Verif Require Import Base ParamsModel GeoModel FuncModel.
Open Scope R_scope.

(** a leaf that respects the sizes it announces *)
Definition leaf_ok (l : leaf_fn) (p : list R) : Prop :=
  length p = lf_nb l /\ length (lf_min l) = lf_nb l /\ length (lf_max l) = lf_nb l /\
  forall q x, length q = lf_nb l ->
    length (lf_value l q x) = dimY (lf_par l) /\ length (lf_jac l q x) = (dimY (lf_par l) * lf_nb l)%nat.

(** all leaves are well behaved and all functions of a composite have its
    number of outputs *)
Fixpoint tree_ok (t : tree) : Prop :=
  match t with
  | Leaf l p => leaf_ok l p
  | Compound par fs => fold_right (fun (f : bool * tree) P => (tree_ok (snd f) /\ dimY (par_of (snd f)) = dimY par) /\ P) True fs
  | Product par _ _ f1 f2 => tree_ok f1 /\ tree_ok f2 /\ dimY (par_of f1) = dimY par /\ dimY (par_of f2) = dimY par
  end.

(** the free parameters, left to right: leaf, its current parameters, index *)
Fixpoint slots (t : tree) : list (leaf_fn * list R * nat) :=
  match t with
  | Leaf l p => map (fun i => (l, p, i)) (seq 0 (lf_nb l))
  | Compound _ fs => flat_map (fun f : bool * tree => if fst f then [] else slots (snd f)) fs
  | Product _ x1 x2 f1 f2 => (if x1 then [] else slots f1) ++ (if x2 then [] else slots f2)
  end.
Definition slot_value (s : leaf_fn * list R * nat) : R := nth (snd s) (snd (fst s)) 0.
Definition slot_min (s : leaf_fn * list R * nat) : R := nth (snd s) (lf_min (fst (fst s))) 0.
Definition slot_max (s : leaf_fn * list R * nat) : R := nth (snd s) (lf_max (fst (fst s))) 0.

(** [t'] is [t] with other values in its free leaves; nothing else differs *)
Inductive free_change : tree -> tree -> Prop :=
| fc_leaf l p q : free_change (Leaf l p) (Leaf l q)
| fc_compound par fs gs : free_changes fs gs -> free_change (Compound par fs) (Compound par gs)
| fc_product par x1 x2 f1 f2 g1 g2 : flagged_change x1 f1 g1 -> flagged_change x2 f2 g2 ->
    free_change (Product par x1 x2 f1 f2) (Product par x1 x2 g1 g2)
with free_changes : list (bool * tree) -> list (bool * tree) -> Prop :=
| fcs_nil : free_changes [] []
| fcs_cons x f g fs gs : flagged_change x f g -> free_changes fs gs -> free_changes ((x, f) :: fs) ((x, g) :: gs)
with flagged_change : bool -> tree -> tree -> Prop :=
| fl_fixed f : flagged_change true f f
| fl_free f g : free_change f g -> flagged_change false f g.

(** component [y] of a computed vector *)
Definition component (o : outcome (list R)) (y : nat) : R :=
  match o with Ok v => nth y v 0 | _ => 0 end.

(** the leaf's Jacobian at [x] consists of the partial derivatives of its value *)
Definition leaf_gradient (l : leaf_fn) (p : list R) (x : mem) : Prop :=
  forall y i, (y < dimY (lf_par l))%nat -> (i < lf_nb l)%nat ->
  derivable_pt_lim (fun s => nth y (lf_value l (upd p i s) x) 0) (nth i p 0) (nth (y * lf_nb l + i) (lf_jac l p x) 0).
(** every leaf does so at the point where the tree, evaluated at [x], uses it *)
Fixpoint leaves_gradient (junk : R) (t : tree) (x : mem) : Prop :=
  match t with
  | Leaf l p => leaf_gradient l p x
  | Compound par fs => fold_right (fun (f : bool * tree) P =>
      (forall x', child_point junk x (in_param par) (par_of (snd f)) = Ok x' -> leaves_gradient junk (snd f) x') /\ P) True fs
  | Product par _ _ f1 f2 =>
      (forall x', child_point junk x (in_param par) (par_of f1) = Ok x' -> leaves_gradient junk f1 x') /\
      (forall x', child_point junk x (in_param par) (par_of f2) = Ok x' -> leaves_gradient junk f2 x')
  end.

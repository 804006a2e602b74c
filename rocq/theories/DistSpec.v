(** Vocabulary for the distance properties (C30): [val] is the function's
    value, [pf] and [pd] the parametrizations of the function and of the data. *)
From Coq Require Import Reals List.
From Verif Require Import Base ParamsModel GeoModel CommonModel FuncModel DistModel.
Open Scope R_scope.

Section Spec.
Variable junk : R.
Variable pf pd : parameters.
Variable val : mem -> outcome (list R).
(** the function takes, at the sample's position, the value [v] *)
Definition evaluates (dat v : list R) : Prop := exists x, sample_point junk pf pd dat = Ok x /\ val x = Ok v.
(** the measured values of a sample *)
Definition measured (n : nat) (dat : list R) : list R := firstn n (skipn (dimX pd) dat).
Definition reproduces (n : nat) (dat : list R) : Prop := evaluates dat (measured n dat).

(** the sample holds enough numbers and the function has a value at its position *)
Definition row_defined (dat : list R) : Prop :=
  (dimX pd + dimY pf <= length dat)%nat /\ exists v, evaluates dat v /\ length v = dimY pf.
End Spec.

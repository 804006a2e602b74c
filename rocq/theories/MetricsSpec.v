(** Vocabulary for C50: the error of a data object at the samples of another. *)
From Coq Require Import Reals List.
From Verif Require Import Base ParamsModel GeoModel GeoSpec MetricsModel.
Open Scope R_scope.

Section Spec.
Variable pin pref : parameters.
Variable val : list R -> outcome (list R).

(** the pair of directions of a sample *)
Definition directions (xy : list R) (cart : mem) : Prop :=
  convert (fun j => nth j (firstn (dimX pref) xy) 0) (in_param pref) CARTESIAN (fun _ => 0) = Ok cart.
(** the same pair in the coordinates of the compared object *)
Definition query (cart : mem) (x : list R) : Prop :=
  exists m, convert cart CARTESIAN (in_param pin) (fun _ => 0) = Ok m /\ x = List.map m (seq 0 (dimX pin)).
Definition measured (xy : list R) : list R := skipn (length xy - dimY pref) xy.

(** the error at a sample, one number per channel: nothing when both
    directions are below the horizon, else value minus measurement *)
Inductive row_error (xy e : list R) : Prop :=
| below : forall cart, directions xy cart -> cart 2%nat < 0 -> cart 5%nat < 0 ->
    e = repeat 0 (dimY pref) -> row_error xy e
| above : forall cart x v, directions xy cart -> 0 <= cart 2%nat \/ 0 <= cart 5%nat ->
    query cart x -> val x = Ok v -> length e = dimY pref -> length v = dimY pref ->
    (forall c, (c < dimY pref)%nat -> nth c e 0 = nth c v 0 - nth c (measured xy) 0) -> row_error xy e.

(** the parametrization of the compared object has a name, and the vectors are
    as long as their parametrizations need *)
Definition shapes : Prop := named_input (in_param pin) /\
  (Z.to_nat (dimension_in (in_param pref)) <= dimX pref)%nat /\ (Z.to_nat (dimension_in (in_param pin)) <= dimX pin)%nat.
Definition long_enough (xy : list R) : Prop := (dimX pref <= length xy)%nat /\ (dimY pref <= length xy)%nat.
End Spec.

(** the errors of one channel *)
Definition channel (c : nat) (errs : list (list R)) : list R := List.map (fun e => nth c e 0) errs.

(** norms of a vector, as least upper bound, sum of absolute values, and
    positive roots of power sums *)
Fixpoint total (f : R -> R) (v : list R) : R := match v with [] => 0 | x :: v' => f x + total f v' end.
Definition is_max (m : R) (v : list R) : Prop := 0 <= m /\ (forall x, In x v -> Rabs x <= m) /\ forall b, 0 <= b -> (forall x, In x v -> Rabs x <= b) -> m <= b.
Definition is_root (k : nat) (s y : R) : Prop := 0 <= y /\ y ^ k = s.

(** the six reported vectors are the metrics of the errors, channel by channel *)
Definition reports (nY : nat) (m : metrics) (errs : list (list R)) : Prop :=
  length (L1 m) = nY /\ length (L2 m) = nY /\ length (L3 m) = nY /\ length (LInf m) = nY /\ length (MSE m) = nY /\ length (RMSE m) = nY /\
  forall c, (c < nY)%nat -> let v := channel c errs in
    nth c (L1 m) 0 = total Rabs v /\
    is_root 2 (total (fun x => x * x) v) (nth c (L2 m) 0) /\
    is_root 3 (total (fun x => Rabs x ^ 3) v) (nth c (L3 m) 0) /\
    is_max (nth c (LInf m) 0) v /\
    nth c (MSE m) 0 = total (fun x => x * x) v / INR (length errs) /\
    is_root 2 (nth c (MSE m) 0) (nth c (RMSE m) 0).

(** a mask entry whose last number is zero means 'false' *)
Definition mask_false (r : list R) : Prop := r <> [] /\ last r 0 = 0.
Definition mask_true (r : list R) : Prop := r <> [] /\ last r 0 <> 0.
Definition ordered (n : nat) (linf l3 l2 l1 : R) : Prop := 0 <= linf /\ linf <= l3 /\ l3 <= l2 /\ l2 <= l1 /\ l1 <= INR n * linf.

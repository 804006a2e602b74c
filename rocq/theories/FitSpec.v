(** Specification vocabulary for the non linear fitters (C72-C75). *)
From Coq Require Import Reals List.
From Verif Require Import Base ParamsModel GeoModel FuncModel FuncSpec NlMoreModel FitModel.
Open Scope R_scope.

Section Fit.
Variable junk : R.
Variable t : tree.                 (* the function *)
Variable dp : parameters.          (* the data's parametrization *)

(** the position of a sample in the function's parametrization *)
Definition position (r : list R) : outcome mem := convert (row_mem r) (in_param dp) (in_param (par_of t)) (fun _ => junk).
(** channel [i] of the function with parameters [q] at a sample *)
Definition predicted (q : list R) (r : list R) (i : nat) : R :=
  component (do t' <- set_parameters t q; do x <- position r; value junk t' x) i.
(** channel [i] of the sample *)
Definition observed (r : list R) (i : nat) : R := nth (dimX dp + i) r 0.
(** --fit-with-cosine: the height of the second direction *)
Definition weight (cosw : bool) (r : list R) : R :=
  if cosw then match convert (row_mem r) (in_param dp) CARTESIAN (fun _ => junk) with Ok c => c 5%nat | _ => 0 end else 1.
Definition misfit (cosw : bool) (q : list R) (r : list R) (i : nat) : R := observed r i - weight cosw r * predicted q r i.
(** the sum of the squared misfits over all samples and channels *)
Definition total (l : list R) : R := fold_right Rplus 0 l.
Definition sum_of_squares (rows : list (list R)) (q : list R) : R :=
  total (List.map (fun r => total (List.map (fun i => (misfit false q r i) ^ 2) (seq 0 (dimY (par_of t))))) rows).

(** A function and data that can be compared: same number of outputs, samples of
    the announced size at positions where the function can be evaluated. *)
Definition sample_ok (r : list R) : Prop :=
  length r = (dimX dp + dimY dp)%nat /\ (Z.to_nat (dimension_in (in_param dp)) <= length r)%nat /\
  (exists c, convert (row_mem r) (in_param dp) CARTESIAN (fun _ => junk) = Ok c) /\
  exists x v, position r = Ok x /\ value junk t x = Ok v.
Definition comparable (rows : list (list R)) : Prop :=
  tree_ok t /\ dimY (par_of t) = dimY dp /\ (Z.to_nat (dimension_in (in_param (par_of t))) <= dimX (par_of t))%nat /\
  Forall sample_ok rows.
(** the function's own Jacobian is exact at the samples, for the parameters [q] *)
Definition exact_for (q : list R) (rows : list (list R)) : Prop :=
  forall t', set_parameters t q = Ok t' -> Forall (fun r => forall x, position r = Ok x -> leaves_gradient junk t' x) rows.

(** [x] respects the bounds of the function *)
Definition within (x : list R) : Prop :=
  forall i, (i < length (slots t))%nat -> nth i (map slot_min (slots t)) 0 <= nth i x 0 <= nth i (map slot_max (slots t)) 0.
End Fit.

(** entry (row, column) of a matrix given by its rows *)
Definition entry (m : list (list R)) (a b : nat) : R := nth b (nth a m []) 0.
(** a matrix of [a] rows and [b] columns *)
Definition matrix (a b : nat) (m : list (list R)) : Prop := length m = a /\ forall i, (i < a)%nat -> length (nth i m []) = b.

(** ** Ceres *)
(** channel [i] of the function with parameters [q] at the vector [xi] *)
Definition predicted_at (junk : R) (t : tree) (q : list R) (xi : mem) (i : nat) : R :=
  component (do t' <- set_parameters t q; value junk t' xi) i.
(** the values of a sample follow its position in the vector *)
Definition observed_in (t : tree) (xi : mem) (i : nat) : R := xi (dimX (par_of t) + i)%nat.
Definition log_misfit (junk : R) (t : tree) (q : list R) (xi : mem) (i : nat) : R :=
  ln (1 + observed_in t xi i) - ln (1 + predicted_at junk t q xi i).

(** the function only looks at the entries of its argument that make a position *)
Definition reads_position (junk : R) (t : tree) (q : list R) : Prop :=
  forall t' a b, set_parameters t q = Ok t' -> (forall k, (k < dimX (par_of t))%nat -> a k = b k) -> value junk t' a = value junk t' b.

(** ** Solvers *)
(** all questions of the solver satisfy [P], whatever it is answered, and its
    final answer satisfies [Z] *)
Fixpoint asks {Q A E} (P : Q -> Prop) (Z : E -> Prop) (s : FitModel.solver Q A E) : Prop :=
  match s with FitModel.Stop e => Z e | FitModel.Ask q k => P q /\ forall a, asks P Z (k a) end.
(** every point a question is about has the right size and satisfies [K] *)
Definition lm_sized (n : nat) (K : list R -> Prop) (q : lm_question) : Prop :=
  match q with LmResidual x _ | LmJacobian x _ => length x = n /\ K x end.
Definition ip_sized (n : nat) (K : list R -> Prop) (q : ip_question) : Prop := match q with IpF x | IpGrad x => length x = n /\ K x end.

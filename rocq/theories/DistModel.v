(** Model of function::L2_distance and function::Linf_distance
    (sources/core/function.cpp:167-278), in real numbers, for any function
    object [val] of parametrization [pf] and a data set of parametrization [pd]
    whose samples are [rows].  The mean and variance printed by Linf_distance
    are not modelled, the memory accesses made for them are. *)
From Coq Require Import Reals List.
From Verif Require Import Base ParamsModel GeoModel CommonModel FuncModel.
Open Scope R_scope.

Section Dist.
Variable junk : R.
Variable pf pd : parameters.
Variable val : mem -> outcome (list R).

(** function.cpp:170-185: the position of a sample in the function's
    parametrization; memcpy must stay inside the row *)
Definition sample_point (dat : list R) : outcome mem :=
  let m := fun i => nth i dat 0 in
  if input_eqb (in_param pf) UNKNOWN_INPUT then
    if (dimX pf <=? length dat)%nat then Ok (copy (dimX pf) m (fun _ => junk)) else UB
  else if (dimX pf <? Z.to_nat (dimension_in (in_param pf)))%nat then UB
  else convert m (in_param pd) (in_param pf) (fun _ => junk).
(** memcpy(&y[0], &dat[dimX], n*sizeof(double)) *)
Definition sample_value (dat : list R) (n : nat) : outcome (list R) :=
  if (dimX pd + n <=? length dat)%nat then Ok (firstn n (skipn (dimX pd) dat)) else UB.

Fixpoint vsub (a b : list R) : list R :=
  match a, b with x :: a', y :: b' => x - y :: vsub a' b' | _, _ => [] end.
Definition sub_checked (a b : list R) : outcome (list R) :=
  if (length a =? length b)%nat then Ok (vsub a b) else Abort.
(** common.h norm: sqrt of the sum of squares *)
Fixpoint sum_sq (v : list R) : R := match v with [] => 0 | x :: v' => x * x + sum_sq v' end.
Definition norm (v : list R) : R := sqrt (sum_sq v).

Fixpoint l2_loop (rows : list (list R)) (acc : R) : outcome R :=
  match rows with
  | [] => Ok acc
  | dat :: rows' =>
      do x <- sample_point dat; do y <- sample_value dat (dimY pf);
      do v <- val x; do e <- sub_checked y v; l2_loop rows' (acc + norm e * norm e)
  end.
(** function.cpp:167-196; the assertion refuses an empty data set *)
Definition L2_distance (rows : list (list R)) : outcome R :=
  do s <- l2_loop rows 0;
  if (length rows =? 0)%nat then Abort else Ok (sqrt (s / INR (length rows))).

(** for j<n: dist = max(dist, |y[j]-v[j]|) *)
Fixpoint max_abs (acc : R) (e : list R) : R :=
  match e with [] => acc | x :: e' => max_abs (Rmax acc (Rabs x)) e' end.
(** function.cpp:199-241.  The copy writes d->dimY() numbers into a vector of
    dimY() entries, and mean += y - v needs equal sizes. *)
Fixpoint linf_loop (rows : list (list R)) (acc : R) : outcome R :=
  match rows with
  | [] => Ok acc
  | dat :: rows' =>
      do x <- sample_point dat;
      if (dimY pf <? dimY pd)%nat then UB else
      do y <- sample_value dat (dimY pd);
      do v <- val x;
      if (length v <? dimY pd)%nat then Abort
      else if (length v =? dimY pf)%nat then linf_loop rows' (max_abs acc (vsub y (firstn (dimY pd) v)))
      else Abort
  end.
(** function.cpp:243-278, second pass: dimY() numbers are written into a vector
    of d->dimY() entries *)
Definition linf_second_pass (rows : list (list R)) : outcome unit :=
  match rows with [] => Ok tt | _ => if (dimY pd <? dimY pf)%nat then UB else Ok tt end.
Definition Linf_distance (rows : list (list R)) : outcome R :=
  do m <- linf_loop rows 0; do _ <- linf_second_pass rows; Ok m.
End Dist.

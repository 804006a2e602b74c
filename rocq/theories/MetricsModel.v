(** Model of errors::compute (sources/core/metrics.cpp), in real numbers, for
    any data object [val] of parametrization [pin] compared with the samples
    [rows] of a data object of parametrization [pref].  A matrix is the list of
    its rows.  The timers of the DEBUG build are not modelled. *)
From Coq Require Import Reals List.
From Verif Require Import Base ParamsModel GeoModel CommonModel FuncModel.
Open Scope R_scope.

Definition reqb (a b : R) : bool := if Req_EM_T a b then true else false.
Definition rgeb0 (a : R) : bool := if Rle_dec 0 a then true else false.

(** mask->get(i).tail(1)[0] == 0.0 *)
Definition dropped (r : list R) : bool := reqb (last r 0) 0.
(** metrics.cpp:53-71 checkMaskSize.  The entries counted are those that
    evaluate skips. *)
Definition checkMaskSize (rows : list (list R)) (mask : option (list (list R))) : outcome nat :=
  match mask with
  | None => Ok (length rows)
  | Some ms =>
      if (length rows =? length ms)%nat then
        if existsb (fun r => length r =? 0)%nat ms then Abort    (* tail(1) of an empty vector *)
        else Ok (length (filter dropped ms))
      else Abort
  end.

(** M.row(i) = v : Eigen asserts that the row exists and the sizes agree *)
Definition set_row (i : nat) (v : list R) (m : list (list R)) : outcome (list (list R)) :=
  match nth_error m i with
  | Some r => if (length r =? length v)%nat then Ok (firstn i m ++ v :: skipn (S i) m) else Abort
  | None => Abort
  end.

Section Evaluate.
Variable pin pref : parameters.
Variable val : list R -> outcome (list R).

(** the vectors declared at metrics.cpp:80-84 that live across the iterations,
    and the two matrices *)
Record estate := mkE { e_cart : mem; e_dat : mem; e_ref : list (list R); e_inp : list (list R) }.

(** metrics.cpp:101-136, the body of the loop for a sample that is not
    skipped.  head/tail assert that the vector is long enough; params::convert
    reads and writes through raw pointers. *)
Definition evaluate_row (i : nat) (xy : list R) (s : estate) : outcome estate :=
  if (length xy <? dimX pref)%nat then Abort else
  let x := firstn (dimX pref) xy in
  if (dimX pref <? Z.to_nat (dimension_in (in_param pref)))%nat then UB else
  do cart <- convert (fun j => nth j x 0) (in_param pref) CARTESIAN (e_cart s);
  if rgeb0 (cart 2%nat) || rgeb0 (cart 5%nat) then
    if (dimX pin <? Z.to_nat (dimension_in (in_param pin)))%nat then UB else
    do dat <- convert cart CARTESIAN (in_param pin) (e_dat s);
    if (length xy <? dimY pref)%nat then Abort else
    do ry <- set_row i (skipn (length xy - dimY pref) xy) (e_ref s);
    do v <- val (List.map dat (seq 0 (dimX pin)));
    do iy <- set_row i v (e_inp s);
    Ok (mkE cart dat ry iy)
  else
    do ry <- set_row i (repeat 0 (dimY pref)) (e_ref s);
    do iy <- set_row i (repeat 0 (dimY pref)) (e_inp s);
    Ok (mkE cart (e_dat s) ry iy).

(** metrics.cpp:93-137, the loop *)
Fixpoint evaluate_loop (i : nat) (rows : list (list R)) (mask : option (list (list R))) (s : estate) : outcome estate :=
  match rows with
  | [] => Ok s
  | xy :: rows' =>
      match mask with
      | None => do s' <- evaluate_row i xy s; evaluate_loop (S i) rows' None s'
      | Some (m :: ms) =>
          if dropped m then evaluate_loop (S i) rows' (Some ms) s
          else do s' <- evaluate_row i xy s; evaluate_loop (S i) rows' (Some ms) s'
      | Some [] => UB
      end
  end.
End Evaluate.

(** Eigen's lpNorm<1>, <2>, <3>, <Infinity> of a column *)
Fixpoint rsum (v : list R) : R := match v with [] => 0 | x :: v' => x + rsum v' end.
Definition cbrt (x : R) : R := if Req_EM_T x 0 then 0 else Rpower x (/ 3).
Definition lp1 (v : list R) : R := rsum (List.map Rabs v).
Definition lp2 (v : list R) : R := sqrt (rsum (List.map (fun x => x * x) v)).
Definition lp3 (v : list R) : R := cbrt (rsum (List.map (fun x => Rabs x ^ 3) v)).
Definition lpinf (v : list R) : R := fold_right (fun x a => Rmax (Rabs x) a) 0 v.

Definition column (c : nat) (m : list (list R)) : list R := List.map (fun r => nth c r 0) m.
Definition msub (a b : list (list R)) : list (list R) :=
  List.map (fun p => List.map (fun q => fst q - snd q) (combine (fst p) (snd p))) (combine a b).

Record metrics := mkMetrics { L1 : list R; L2 : list R; L3 : list R; LInf : list R; MSE : list R; RMSE : list R }.
(** metrics.cpp:137-168 fastNormComputation.  No row: the division is 0/0. *)
Definition fastNormComputation (ncols : nat) (inp ref : list (list R)) : metrics :=
  let d := msub inp ref in
  let col (f : list R -> R) := List.map (fun c => f (column c d)) (seq 0 ncols) in
  let mse := col (fun v => rsum (List.map (fun x => x * x) v) / INR (length inp)) in
  mkMetrics (col lp1) (col lp2) (col lp3) (col lpinf) mse (List.map sqrt mse).

(** metrics.cpp:5-51 errors::compute *)
Definition compute (pin pref : parameters) (val : list R -> outcome (list R)) (rows : list (list R)) (mask : option (list (list R))) : outcome metrics :=
  do size <- checkMaskSize rows mask;
  let zero := repeat (repeat 0 (dimY pref)) size in
  do s <- evaluate_loop pin pref val 0 rows mask (mkE (fun _ => 0) (fun _ => 0) zero zero);
  Ok (fastNormComputation (dimY pref) (e_inp s) (e_ref s)).

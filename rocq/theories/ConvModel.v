(** Model of the command line tools that convert and evaluate data: data2data,
    brdf2data, brdf2gnuplot and fit2stat (sources/softs), after their inputs have
    been loaded and before their outputs are written.  Numbers are real; a data
    object is its parametrization and its samples (dimX numbers then dimY
    numbers); what is printed on the console is left out. *)
From Coq Require Import Reals List.
From Verif Require Import Base ParamsModel GeoModel CommonModel TextModel NlMoreModel FuncModel MetricsModel FitModel.
Open Scope R_scope.

(** ** data2data *)
(** data2data/main.cpp:112-137 compute_parameters; [None] is exit(EXIT_FAILURE).
    [arg] is args["param"]. *)
Definition compute_parameters (pin : parameters) (arg : str) : option parameters :=
  let param := parse_input arg in
  let mk p := mkParameters (Z.to_nat (dimension_in p)) (dimY pin) p (out_param pin) in
  if input_eqb param UNKNOWN_INPUT then
    if negb (input_eqb (in_param pin) UNKNOWN_INPUT) then Some (mk (in_param pin)) else None
  else Some (mk param).

Section Convert.
Variable junk : R.
Variable pin pout : parameters.

(** the vector [temp] as d_out->set sees it *)
Definition temp_vec (t : mem) : list R := List.map t (seq 0 (dimX pout + dimY pout)).
(** data2data/main.cpp:161-202, the body of the loop of convert_vertical_segment.
    [temp] is allocated once, before the loop. *)
Definition splat_row (all : bool) (i : nat) (r : list R) (st : mem * list (list R)) : outcome (mem * list (list R)) :=
  let '(temp, out) := st in
  if (length r <? Z.to_nat (dimension_in (in_param pin)))%nat then UB
  else if (dimX pout + dimY pout <? Z.to_nat (dimension_in (in_param pout)))%nat then UB
  else
    do t1 <- convert (row_mem r) (in_param pin) (in_param pout) temp;
    do above <- is_above_hemisphere t1 (in_param pout);
    if (above || all)%bool then
      if (length r <? dimX pin + dimY pin)%nat then UB else
      do t2 <- convert_out (fun j => row_mem r (dimX pin + j)%nat) (dimY pin) (dimY pout) (fun j => t1 (dimX pout + j)%nat);
      let t3 := fun j => if (j <? dimX pout)%nat then t1 j else t2 (j - dimX pout)%nat in
      do out' <- set_row i (temp_vec t3) out;
      Ok (t3, out')
    else Ok (t1, out).
(** data2data/main.cpp:143-212 convert_vertical_segment *)
Definition splat (all : bool) (rows out : list (list R)) : outcome (list (list R)) :=
  do st <- each (splat_row all) 0 rows (fun _ => junk, out);
  Ok (snd st).

(** data2data/main.cpp:235-270, the body of the loop of convert_with_interpolation
    for sample [i] of the output; [val] is d_in->value *)
Variable val : list R -> outcome (list R).
Definition interp_row (i : nat) (out : list (list R)) : outcome (list (list R)) :=
  match nth_error out i with
  | None => Abort
  | Some x =>
      if (length x <? Z.to_nat (dimension_in (in_param pout)))%nat then UB else
      do cart <- convert (row_mem x) (in_param pout) CARTESIAN (fun _ => junk);
      do y <- (if rleb 0 (cart 2%nat) && rleb 0 (cart 5%nat) then
                 if (dimX pin <? Z.to_nat (dimension_in (in_param pin)))%nat then UB else
                 do temp <- convert cart CARTESIAN (in_param pin) (fun _ => junk);
                 val (List.map temp (seq 0 (dimX pin)))
               else Ok (repeat 0 (dimY pin)));
      if (length y <? dimY pin)%nat then UB
      else if (length x <? dimX pout + dimY pout)%nat then UB
      else
        do z <- convert_out (fun j => nth j y 0) (dimY pin) (dimY pout) (fun j => nth (dimX pout + j) x 0);
        set_row i (firstn (dimX pout) x ++ List.map z (seq 0 (dimY pout)) ++ skipn (dimX pout + dimY pout) x) out
  end.
(** data2data/main.cpp:217-276 convert_with_interpolation; the iterations of the
    parallel loop are executed in some order *)
Fixpoint interpolate (order : list nat) (out : list (list R)) : outcome (list (list R)) :=
  match order with [] => Ok out | i :: order' => do out' <- interp_row i out; interpolate order' out' end.
End Convert.

(** main, data2data/main.cpp:372-394, for an output of class vertical_segment
    (data2data/main.cpp:281), created with as many samples as the input, all zero *)
Definition data2data (junk : R) (pin : parameters) (arg : str) (all : bool) (rows : list (list R)) : outcome (option (parameters * list (list R))) :=
  match compute_parameters pin arg with
  | None => Ok None
  | Some pout =>
      do out <- splat junk pin pout all rows (repeat (repeat 0 (dimX pout + dimY pout)) (length rows));
      Ok (Some (pout, out))
  end.

(** ** brdf2data *)
Section Evaluate.
Variable junk : R.
Variable pf pd : parameters.
Variable val : list R -> outcome (list R).     (* f->value *)

(** brdf2data/main.cpp:104-114, brdf2gnuplot/main.cpp:123-132: the converted position in [temp], of dimX(f)
    entries.  x.head is checked ([checked]), memcpy is not. *)
Definition eval_point (checked : bool) (r : list R) (temp : mem) : outcome mem :=
  if input_eqb (in_param pf) UNKNOWN_INPUT then
    if (length r <? dimX pf)%nat then (if checked then Abort else UB) else Ok (copy (dimX pf) (row_mem r) temp)
  else if (length r <? Z.to_nat (dimension_in (in_param pd)))%nat then UB
  else if (dimX pf <? Z.to_nat (dimension_in (in_param pf)))%nat then UB
  else convert (row_mem r) (in_param pd) (in_param pf) temp.
Definition vec_of (t : mem) : list R := List.map t (seq 0 (dimX pf)).
(** brdf2data/main.cpp:97-120; assigning to x.tail(dimY) needs equal sizes *)
Definition export_row (diff : bool) (i : nat) (x : list R) (st : mem * list (list R)) : outcome (mem * list (list R)) :=
  let '(temp, rows) := st in
  do t <- eval_point true x temp;
  do y <- val (vec_of t);
  if (length x <? dimY pd)%nat then Abort else
  let k := (length x - dimY pd)%nat in
  if negb (length y =? dimY pd)%nat then Abort else
  let z := if diff then vsub (skipn k x) y else y in
  do rows' <- set_row i (firstn k x ++ z) rows;
  Ok (t, rows').
Definition brdf2data (diff : bool) (rows : list (list R)) : outcome (list (list R)) :=
  do st <- each (export_row diff) 0 rows (fun _ => junk, rows);
  Ok (snd st).

(** ** brdf2gnuplot *)
(** brdf2gnuplot/main.cpp:117-174: the numbers of a line, for plots with --error,
    --linear_error or neither *)
Inductive plot := Values | Errors | LinearErrors.
Definition nth_checked (l : list R) (i : nat) : outcome R := match nth_error l i with Some a => Ok a | None => Abort end.
Fixpoint columns (kind : plot) (v y2 : list R) (u n : nat) : outcome (list R) :=
  match n with
  | O => Ok []
  | S n' =>
      do b <- nth_checked y2 u;
      do c <- (match kind with
               | Values => Ok b
               | Errors => do a <- nth_checked v (dimX pd + u); Ok (a - b)
               | LinearErrors => do a <- nth_checked v (dimX pd + u); Ok ((a - b) / a)
               end);
      do l <- columns kind v y2 (S u) n'; Ok (c :: l)
  end.
Definition plot_line (kind : plot) (cosine : bool) (i : nat) (v : list R) : outcome (list R) :=
  do x <- eval_point false v (fun _ => junk);
  do c <- (if cosine && negb (input_eqb (in_param pf) UNKNOWN_INPUT) then
             do cart <- convert x (in_param pf) CARTESIAN (fun _ => junk); Ok (cart 5%nat * cart 2%nat)
           else Ok 1);
  do y <- val (vec_of x);
  do head <- (match kind with
              | LinearErrors => Ok [INR i]
              | _ => if (length v <? dimX pd)%nat then Abort else Ok (firstn (dimX pd) v)
              end);
  do l <- columns kind v (List.map (Rmult c) y) 0 (dimY pd);
  Ok (head ++ l).
Fixpoint plot_lines (kind : plot) (cosine : bool) (i : nat) (rows : list (list R)) : outcome (list (list R)) :=
  match rows with
  | [] => Ok []
  | v :: rows' => do l <- plot_line kind cosine i v; do ls <- plot_lines kind cosine (S i) rows'; Ok (l :: ls)
  end.
(** brdf2gnuplot/main.cpp:178-220: --polar-plot, the two loops; [inc] is --inc-angle
    and [n] half the number of samples *)
Definition polar_line (inc pv sign : R) (n i : nat) : outcome (list R) :=
  let tv := 1 / 2 * PI * INR i / INR n in
  if (dimX pf <? Z.to_nat (dimension_in (in_param pf)))%nat then UB else
  do x <- convert (fun j => match j with 0 => inc | 1 => PI | 2 => tv | _ => pv end)%nat SPHERICAL_TL_PL_TV_PV (in_param pf) (fun _ => junk);
  do y <- val (vec_of x);
  if (length y <? dimY pf)%nat then Abort else Ok (sign * tv :: firstn (dimY pf) y).
Fixpoint polar_loop (inc pv sign : R) (n : nat) (is : list nat) : outcome (list (list R)) :=
  match is with [] => Ok [] | i :: is' => do l <- polar_line inc pv sign n i; do ls <- polar_loop inc pv sign n is'; Ok (l :: ls) end.
Definition polar_plot (inc : R) (n : nat) : outcome (list (list R)) :=
  do a <- polar_loop inc PI (-1) n (seq 0 n);
  do b <- polar_loop inc 0 1 n (seq 0 n);
  Ok (a ++ b).

(** ** fit2stat *)
(** fit2stat/fit2stat.cpp:210-315 convertDataToFunctionParam: the samples in the
    function's parametrization; new_data_y, new_data_x and new_data outlive an
    iteration.  NOT_IMPLEMENTED is a bare throw. *)
Definition split_x (r : list R) : list R := firstn (dimX pd) r.
Definition split_y (r : list R) : list R := skipn (length r - dimY pd) r.
Definition adapt_out_row (i : nat) (r : list R) (st : mem * list (list R)) : outcome (mem * list (list R)) :=
  let '(ny, out) := st in
  if (length r <? dimX pd)%nat then Abort else if (length r <? dimY pd)%nat then Abort else
  do ny' <- convert_out (fun j => nth j (split_y r) 0) (dimY pd) (dimY pf) ny;
  do out' <- set_row i (split_x r ++ List.map ny' (seq 0 (dimY pf))) out;
  Ok (ny', out').
Definition adapt_in_row (i : nat) (r : list R) (st : mem * list (list R)) : outcome (mem * list (list R)) :=
  let '(nx, out) := st in
  if (length r <? dimX pd)%nat then Abort else if (length r <? dimY pd)%nat then Abort
  else if (dimX pd <? Z.to_nat (dimension_in (in_param pd)))%nat then UB
  else if (dimX pf <? Z.to_nat (dimension_in (in_param pf)))%nat then UB
  else
    do nx' <- convert (fun j => nth j (split_x r) 0) (in_param pd) (in_param pf) nx;
    if negb (dimY pf =? dimY pd)%nat then Abort else
    do out' <- set_row i (vec_of nx' ++ split_y r) out;
    Ok (nx', out').
Definition adapt (rows : list (list R)) : outcome (parameters * list (list R)) :=
  let fresh := repeat (repeat 0 (dimX pf + dimY pf)) (length rows) in
  let same_in := input_eqb (in_param pd) (in_param pf) in
  let same_out := output_eqb (out_param pd) (out_param pf) in
  if same_in && same_out then Ok (pd, rows)
  else if same_in then do st <- each adapt_out_row 0 rows (fun _ => 0, fresh); Ok (pf, snd st)
  else if same_out then do st <- each adapt_in_row 0 rows (fun _ => 0, fresh); Ok (pf, snd st)
  else Abort.
End Evaluate.

Section Stat.
Variable pf : parameters.
Variable val : list R -> outcome (list R).
(** fit2stat/fit2stat.cpp:345-375 demultiplexData and evaluateFunctionAtData for
    converted data of parametrization [pc] *)
Fixpoint values_at (pc : parameters) (rows : list (list R)) : outcome (list (list R) * list (list R)) :=
  match rows with
  | [] => Ok ([], [])
  | r :: rows' =>
      if (length r <? dimX pc)%nat then Abort else if (length r <? dimY pc)%nat then Abort else
      do v <- val (firstn (dimX pc) r);
      if negb (length v =? dimY pf)%nat then Abort else
      do l <- values_at pc rows';
      Ok (skipn (length r - dimY pc) r :: fst l, v :: snd l)
  end.
(** fit2stat/fit2stat.cpp:320-342 computeCosineFactorsFromData *)
Fixpoint cosines (rows : list (list R)) : outcome (list R * list R) :=
  match rows with
  | [] => Ok ([], [])
  | r :: rows' => do a <- nth_checked r 2; do b <- nth_checked r 5; do l <- cosines rows'; Ok (a :: fst l, b :: snd l)
  end.
(** fit2stat/fit2stat.cpp:402-422 fastWeightedErrors: mse and rmse *)
Definition weighted (ncols : nat) (dy fy : list (list R)) (w : list R) : list R * list R :=
  let d := msub dy fy in
  let mse := List.map (fun c => rsum (List.map (fun q => (fst q * snd q) * (fst q * snd q)) (combine (column c d) w)) / INR (length dy)) (seq 0 ncols) in
  (mse, List.map sqrt mse).
(** fit2stat/fit2stat.cpp:507-629 main: the metrics and the two pairs of weighted
    errors.  The difference of two arrays needs equal shapes. *)
Record report := mkReport { plain : metrics; by_light : list R * list R; by_both : list R * list R }.
Definition fit2stat (pd : parameters) (rows : list (list R)) : outcome report :=
  do c <- adapt pf pd rows;
  do l <- values_at (fst c) (snd c);
  if negb (dimY (fst c) =? dimY pf)%nat then Abort else
  let m := fastNormComputation (dimY pf) (fst l) (snd l) in
  if negb (input_eqb (in_param (fst c)) CARTESIAN) then Abort else
  do w <- cosines (snd c);
  let both := List.map (fun q => fst q * snd q) (combine (fst w) (snd w)) in
  Ok (mkReport m (weighted (dimY pf) (fst l) (snd l) (fst w)) (weighted (dimY pf) (fst l) (snd l) both)).
End Stat.

(** Model of the four non linear fitters, sources/plugins/nonlinear_fitter_eigen,
    nonlinear_fitter_ceres, nonlinear_fitter_nlopt and nonlinear_fitter_ipopt
    (fitter.cpp in each): what they hand to the solver and what they do with its
    answer.  The function is a tree of FuncModel, numbers are real.  The solver is
    any program that asks for finitely many evaluations. *)
From Coq Require Import Reals List.
From Verif Require Import Base ParamsModel GeoModel CommonModel TextModel NlModel NlMoreModel FuncModel.
Open Scope R_scope.

Section Fit.
Variable junk : R.
Variable dp : parameters.          (* the data's parametrization *)
Variable rows : list (list R).     (* d->get(0), d->get(1), ... *)
Notation size := (length rows).

(** nonlinear_fitter_eigen/fitter.cpp:74-81 and 123-130, nonlinear_fitter_nlopt/fitter.cpp:67-71 and 118-122, nonlinear_fitter_ipopt/fitter.cpp:125-127 and 167-169: the
    sample converted to the function's space in a new vector of dimX entries *)
Definition sample_point (fp : parameters) (r : list R) : outcome mem :=
  if (length r <? Z.to_nat (dimension_in (in_param dp)))%nat then UB
  else child_point junk (row_mem r) (in_param dp) fp.
(** nonlinear_fitter_eigen/fitter.cpp:85-93 and 134-142 *)
Definition cosine (on : bool) (r : list R) : outcome R :=
  if on then
    if (length r <? Z.to_nat (dimension_in (in_param dp)))%nat then UB
    else do c <- convert (row_mem r) (in_param dp) CARTESIAN (fun _ => junk); Ok (c 5%nat)
  else Ok 1.
(** a - b on vectors *)
Fixpoint vsub (a b : list R) : list R :=
  match a, b with x :: a', y :: b' => x - y :: vsub a' b' | _, _ => [] end.
Definition sub_checked (a b : list R) : outcome (list R) :=
  if (length a =? length b)%nat then Ok (vsub a b) else Abort.

(** the loops over the samples *)
Fixpoint each {S} (body : nat -> list R -> S -> outcome S) (s : nat) (l : list (list R)) (st : S) : outcome S :=
  match l with [] => Ok st | r :: l' => do st' <- body s r st; each body (Datatypes.S s) l' st' end.

(** nonlinear_fitter_eigen/fitter.cpp:54-62, nonlinear_fitter_ceres/fitter.cpp:47-55: is a parameter outside of its bounds? *)
Fixpoint outside (n k : nat) (x mn mx : list R) : outcome bool :=
  match n with
  | O => Ok false
  | S n' =>
      do v <- rd x k; do a <- rd mn k;
      if rltb v a then Ok true else
      do b <- rd mx k;
      if rltb b v then Ok true else outside n' (S k) x mn mx
  end.

(** ** nonlinear_fitter_eigen *)
(** EigenFunctor::operator(), nonlinear_fitter_eigen/fitter.cpp:46-110.  [None] is the return value -1; [y] is
    the vector provided by the solver.  The function keeps the parameters. *)
Definition eigen_row (cosw : bool) (t : tree) (s : nat) (r : list R) (y : list R) : outcome (list R) :=
  let ny := dimY (par_of t) in
  do x <- sample_point (par_of t) r;
  do c <- cosine cosw r;
  do di <- slice r (dimX dp) ny;
  do v <- value junk t x;
  do e <- sub_checked di (List.map (Rmult c) v);
  for_ ny 0 (fun i y => do a <- rd e i; wr y (i * size + s) a) y.
Definition eigen_residual (cosw : bool) (x y : list R) (t : tree) : outcome (option (list R) * tree) :=
  do mn <- get_parameters_min junk t;
  do mx <- get_parameters_max junk t;
  do bad <- outside (nb t) 0 x mn mx;
  if bad then Ok (None, t) else
  do p <- slice x 0 (nb t);
  do t' <- set_parameters t p;
  do y' <- each (eigen_row cosw t') 0 rows y;
  Ok (Some y', t').
(** EigenFunctor::df, nonlinear_fitter_eigen/fitter.cpp:112-159; the matrix is a list of rows *)
Definition eigen_jac_row (cosw : bool) (t : tree) (s : nat) (r : list R) (m : list (list R)) : outcome (list (list R)) :=
  do x <- sample_point (par_of t) r;
  do c <- cosine cosw r;
  do J <- jacobian junk t x;
  for_ (nb t) 0 (fun j m => for_ (dimY (par_of t)) 0 (fun i m =>
    do v <- rd J (i * nb t + j); wr2 m (i * size + s) j (- c * v)) m) m.
Definition eigen_jacobian (cosw : bool) (x : list R) (m : list (list R)) (t : tree) : outcome (list (list R) * tree) :=
  do p <- slice x 0 (nb t);
  do t' <- set_parameters t p;
  do m' <- each (eigen_jac_row cosw t') 0 rows m;
  Ok (m', t').

(** ** nonlinear_fitter_nlopt *)
(** nonlinear_fitter_nlopt/fitter.cpp:107-130 *)
Definition nlopt_row (t : tree) (_ : nat) (r : list R) (y : R) : outcome R :=
  do di <- slice r (dimX dp) (dimY dp);
  do x <- sample_point (par_of t) r;
  do v <- value junk t x;
  do e <- sub_checked v di;
  for_ (dimY (par_of t)) 0 (fun i y => do a <- rd e i; Ok (y + a ^ 2)) y.
(** df, nonlinear_fitter_nlopt/fitter.cpp:50-91 *)
Definition nlopt_jac_row (t : tree) (_ : nat) (r : list R) (g : list R) : outcome (list R) :=
  do di <- slice r (dimX dp) (dimY dp);
  do x <- sample_point (par_of t) r;
  do J <- jacobian junk t x;
  do v <- value junk t x;
  do e <- sub_checked v di;
  for_ (nb t) 0 (fun j g => for_ (dimY (par_of t)) 0 (fun i g =>
    do o <- rd g j; do a <- rd e i; do b <- rd J (i * nb t + j); wr g j (o + 2 * a * b)) g) g.
(** f, nonlinear_fitter_nlopt/fitter.cpp:93-138; [grad] tells whether dy is given *)
Definition nlopt_objective (x : list R) (grad : bool) (t : tree) : outcome ((R * option (list R)) * tree) :=
  do p <- slice x 0 (nb t);
  do t' <- set_parameters t p;
  do y <- each (nlopt_row t') 0 rows 0;
  if grad then do g <- each (nlopt_jac_row t') 0 rows (repeat 0 (nb t')); Ok ((y, Some g), t')
  else Ok ((y, None), t').

(** ** nonlinear_fitter_ipopt *)
(** eval_f, nonlinear_fitter_ipopt/fitter.cpp:99-139.  A failed assertion ends the process. *)
Definition ipopt_row (t : tree) (_ : nat) (r : list R) (y : R) : outcome R :=
  if negb (dimY dp =? dimY (par_of t))%nat then Abort else
  do di <- slice r (dimX dp) (dimY (par_of t));
  do x <- sample_point (par_of t) r;
  do v <- value junk t x;
  do e <- sub_checked di v;
  for_ (dimY (par_of t)) 0 (fun i y => do a <- rd e i; Ok (y + a ^ 2)) y.
Definition ipopt_objective (x : list R) (t : tree) : outcome (R * tree) :=
  do p <- slice x 0 (nb t);
  do t' <- set_parameters t p;
  do y <- each (ipopt_row t') 0 rows 0;
  Ok (y, t').
(** eval_grad_f, nonlinear_fitter_ipopt/fitter.cpp:141-192 *)
Definition ipopt_jac_row (t : tree) (_ : nat) (r : list R) (g : list R) : outcome (list R) :=
  do di <- slice r (dimX dp) (dimY (par_of t));
  do x <- sample_point (par_of t) r;
  do v <- value junk t x;
  do e <- sub_checked v di;
  do J <- jacobian junk t x;
  for_ (nb t) 0 (fun j g => for_ (dimY (par_of t)) 0 (fun i g =>
    do o <- rd g j; do a <- rd e i; do b <- rd J (i * nb t + j); wr g j (o + 2 * a * b)) g) g.
Definition ipopt_gradient (x : list R) (t : tree) : outcome (list R * tree) :=
  do p <- slice x 0 (nb t);
  do t' <- set_parameters t p;
  do g <- each (ipopt_jac_row t') 0 rows (repeat 0 (nb t'));
  Ok (g, t').

(** ** nonlinear_fitter_ceres *)
(** nonlinear_fitter_ceres/fitter.cpp:157-166: the vector xf of a sample, its first entries converted, then
    the values.  A converted component beyond dimX is overwritten. *)
Definition ceres_block (fp : parameters) (r : list R) : outcome mem :=
  if (length r <? Z.to_nat (dimension_in (in_param dp)))%nat then UB
  else if (dimX fp + dimY fp <? Z.to_nat (dimension_in (in_param fp)))%nat then UB
  else
    do x <- convert (row_mem r) (in_param dp) (in_param fp) (fun _ => junk);
    do di <- slice r (dimX dp) (dimY fp);
    Ok (fun i => if ((dimX fp <=? i) && (i <? dimX fp + dimY fp))%nat then nth (i - dimX fp) di 0 else x i).
(** nonlinear_fitter_ceres/fitter.cpp:68-73 *)
Definition ceres_entry (logf : bool) (d v : R) : R := if logf then ln (1 + d) - ln (1 + v) else d - v.
(** nonlinear_fitter_ceres/fitter.cpp:98 *)
Definition ceres_jac_entry (logf : bool) (d j : R) : R := - (if logf then j / (1 + d) else j).
(** CeresFunctor::Evaluate and df, nonlinear_fitter_ceres/fitter.cpp:43-101, for the residual block [xi];
    [None] is the return value false *)
Definition ceres_evaluate (logf : bool) (xi : mem) (x : list R) (grad : bool) (t : tree) : outcome (option (list R * option (list R)) * tree) :=
  do mn <- get_parameters_min junk t;
  do mx <- get_parameters_max junk t;
  do bad <- outside (nb t) 0 x mn mx;
  if bad then Ok (None, t) else
  do p <- slice x 0 (nb t);
  do t' <- set_parameters t p;
  let ny := dimY (par_of t') in
  let di := List.map (fun i => xi (dimX (par_of t') + i)%nat) (seq 0 ny) in
  do v <- value junk t' xi;
  do e <- sub_checked di v;
  do y <- for_ ny 0 (fun i y => do d <- rd di i; do a <- rd v i; wr y i (ceres_entry logf d a)) (repeat junk ny);
  if grad then
    do J <- jacobian junk t' xi;
    do g <- for_ ny 0 (fun i g => for_ (nb t') 0 (fun j g =>
              do d <- rd di i; do b <- rd J (i * nb t' + j); wr g (i * nb t' + j) (ceres_jac_entry logf d b)) g)
            (repeat junk (ny * nb t'));
    Ok (Some (y, Some g), t')
  else Ok (Some (y, None), t').
End Fit.

(** ** Solvers *)
(** A solver asks questions [Q] about the function, gets answers [A] and stops
    with a result [E]. *)
Inductive solver (Q A E : Type) :=
| Stop (e : E)
| Ask (q : Q) (k : A -> solver Q A E).
Arguments Stop {Q A E}.
Arguments Ask {Q A E}.
Fixpoint run {Q A E} (ans : Q -> tree -> outcome (A * tree)) (s : solver Q A E) (t : tree) : outcome (E * tree) :=
  match s with
  | Stop e => Ok (e, t)
  | Ask q k => do r <- ans q t; run ans (k (fst r)) (snd r)
  end.

(** ** fit_data *)
(** The function object given to fit_data: bounds of its definition domain and,
    if it is a nonlinear_function, its state. *)
Record fobject := mkFobject { fo_min : list R; fo_max : list R; fo_fun : option tree }.
Definition nonlinear (o : fobject) (t : tree) : fobject := mkFobject (fo_min o) (fo_max o) (Some t).

Section FitData.
Variable junk : R.
Variable dp : parameters.
Variable rows : list (list R).
Variable dmin dmax : list R.               (* d->min(), d->max() *)
Variable boot : tree -> outcome tree.      (* bootstrap(d, args) *)

(** the beginning of all four: nonlinear_fitter_eigen/fitter.cpp:328-346, nonlinear_fitter_nlopt/fitter.cpp:151-170, nonlinear_fitter_ipopt/fitter.cpp:248-266,
    nonlinear_fitter_ceres/fitter.cpp:124-145 (where the function is bootstrapped last) *)
Definition fit_with (count_first : bool) (solve : tree -> outcome (bool * tree)) (o : fobject) : outcome (bool * fobject) :=
  match fo_fun o with
  | None => Ok (false, mkFobject dmin dmax None)
  | Some t =>
      let o' := mkFobject dmin dmax (Some t) in
      if (count_first && (nb t =? 0)%nat)%bool then Ok (true, o') else
      do t1 <- boot t;
      if (negb count_first && (nb t1 =? 0)%nat)%bool then Ok (true, nonlinear o' t1) else
      do r <- solve t1; Ok (fst r, nonlinear o' (snd r))
  end.

(** What Eigen's solver asks for, and how it stops: nonlinear_fitter_eigen/fitter.cpp:362-373 *)
Inductive lm_question := LmResidual (x y : list R) | LmJacobian (x : list R) (m : list (list R)).
Inductive lm_answer := LmY (y : option (list R)) | LmJ (m : list (list R)).
Inductive lm_info := ImproperInputParameters | UserAsked | OtherInfo.
Definition lm_ans (cosw : bool) (q : lm_question) (t : tree) : outcome (lm_answer * tree) :=
  match q with
  | LmResidual x y => do r <- eigen_residual junk dp rows cosw x y t; Ok (LmY (fst r), snd r)
  | LmJacobian x m => do r <- eigen_jacobian junk dp rows cosw x m t; Ok (LmJ (fst r), snd r)
  end.
(** nonlinear_fitter_eigen/fitter.cpp:349-386; the solver is given the starting point and stops with its
    status and the point it reached *)
Definition eigen_solve (cosw : bool) (lm : list R -> solver lm_question lm_answer (lm_info * list R)) (t : tree) : outcome (bool * tree) :=
  do p <- get_parameters junk t;
  do r <- run (lm_ans cosw) (lm p) t;
  match fst (fst r) with
  | ImproperInputParameters | UserAsked => Ok (false, snd r)
  | OtherInfo => do p' <- slice (snd (fst r)) 0 (nb t); do t' <- set_parameters (snd r) p'; Ok (true, t')
  end.
Definition eigen_fit cosw lm := fit_with false (eigen_solve cosw lm).

(** nonlinear_fitter_nlopt/fitter.cpp:174-305: [nlopt_create] may fail; the sign of the result decides *)
Definition nlopt_ans (q : list R * bool) (t : tree) : outcome ((R * option (list R)) * tree) :=
  nlopt_objective junk dp rows (fst q) (snd q) t.
Definition nlopt_solve (opt : option (list R -> list R -> list R -> solver (list R * bool) (R * option (list R)) (Z * list R))) (t : tree) : outcome (bool * tree) :=
  do p <- get_parameters junk t;
  match opt with
  | None => Ok (false, t)
  | Some nl =>
      do mn <- get_parameters_min junk t;
      do mx <- get_parameters_max junk t;
      do r <- run nlopt_ans (nl p mn mx) t;
      if (0 <? fst (fst r))%Z then do t' <- set_parameters (snd r) (snd (fst r)); Ok (true, t') else Ok (false, snd r)
  end.
Definition nlopt_fit opt := fit_with false (nlopt_solve opt).

(** nonlinear_fitter_ipopt/fitter.cpp:269-323 and finalize_solution 218-229, called with the final point
    [Some x] at the end of a run, or not at all *)
Inductive ip_question := IpF (x : list R) | IpGrad (x : list R).
Inductive ip_answer := IpObj (y : R) | IpG (g : list R).
Inductive ip_status := Solve_Succeeded | Maximum_Iterations_Exceeded | OtherStatus.
Definition ip_ans (q : ip_question) (t : tree) : outcome (ip_answer * tree) :=
  match q with
  | IpF x => do r <- ipopt_objective junk dp rows x t; Ok (IpObj (fst r), snd r)
  | IpGrad x => do r <- ipopt_gradient junk dp rows x t; Ok (IpG (fst r), snd r)
  end.
Definition ipopt_solve (app : option (list R -> list R -> list R -> solver ip_question ip_answer (ip_status * option (list R)))) (t : tree) : outcome (bool * tree) :=
  do p <- get_parameters junk t;
  match app with
  | None => Ok (false, t)
  | Some ip =>
      do mn <- get_parameters_min junk t;
      do mx <- get_parameters_max junk t;
      do r <- run ip_ans (ip p mn mx) t;
      do t' <- match snd (fst r) with Some x => set_parameters (snd r) x | None => Ok (snd r) end;
      match fst (fst r) with
      | Solve_Succeeded | Maximum_Iterations_Exceeded => Ok (true, t')
      | OtherStatus => Ok (false, t')
      end
  end.
Definition ipopt_fit app := fit_with false (ipopt_solve app).

(** nonlinear_fitter_ceres/fitter.cpp:148-182: a block per sample, the solver stops with the point it leaves
    in p; its summary is not consulted *)
Definition ceres_ans (logf : bool) (blocks : list mem) (q : nat * list R * bool) (t : tree) : outcome (option (list R * option (list R)) * tree) :=
  let '(b, x, grad) := q in
  match nth_error blocks b with Some xi => ceres_evaluate junk logf xi x grad t | None => UB end.
Fixpoint ceres_blocks (fp : parameters) (l : list (list R)) : outcome (list mem) :=
  match l with [] => Ok [] | r :: l' => do b <- ceres_block junk dp fp r; do bs <- ceres_blocks fp l'; Ok (b :: bs) end.
Definition ceres_solve (logf : bool) (ce : list R -> solver (nat * list R * bool) (option (list R * option (list R))) (list R)) (t : tree) : outcome (bool * tree) :=
  do p <- get_parameters junk t;
  do bs <- ceres_blocks (par_of t) rows;
  do r <- run (ceres_ans logf bs) (ce p) t;
  do t' <- set_parameters (snd r) (fst r); Ok (true, t').
Definition ceres_fit logf ce := fit_with true (ceres_solve logf ce).
End FitData.

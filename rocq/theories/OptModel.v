(** Options of the fitting plugins: what they ask of their solvers.  Texts are
    converted to numbers by the functions of the C library, which are parameters
    ([atof], [stod]); atoi is ArgsModel.atoi.  Infinities and NaN texts are left out. *)
From Coq Require Import Reals List ZArith.
From Flocq Require Import Core.
From Verif Require Import Base Num ArgsModel.
Open Scope R_scope.

(** A double stored as float (round to nearest, ties to even; overflow to infinity
    left out) *)
Definition to_float (x : R) : R := round radix2 (FLT_exp (-149) 24) ZnearestE x.
(** Conversion to int: the fraction is dropped; undefined outside the range of int *)
Definition to_int (x : R) : outcome Z :=
  let z := Ztrunc x in if ((- 2 ^ 31 <=? z) && (z <? 2 ^ 31))%Z then Ok z else UB.

Section Options.
Variable atof : str -> R.
Variable stod : str -> outcome R.
(** args.h:180-186 *)
Definition get_float (a : arguments) (k : str) (d : R) : R := get_num (fun s => to_float (atof s)) a k (to_float d).

(** ** nonlinear_fitter_ceres *)
Record ceres_options := mkCeres { c_iterations : Z; c_cholesky : bool; c_progress : bool; c_function_tol : R; c_gradient_tol : R; c_parameter_tol : R }.
(** nonlinear_fitter_ceres/fitter.cpp:185-224 set_parameters.  operator[] of the
    arguments is ArgsModel.at_key; all three tolerances are stored in
    function_tolerance. *)
Definition ceres_set_parameters (a : arguments) (o : ceres_options) : outcome ceres_options :=
  let iterations := if is_defined a (lit "ceres-max-num-iterations") then get_int a (lit "ceres-max-num-iterations") 50 else c_iterations o in
  let cholesky := str_eqb (at_key a (lit "ceres-factorization")) (lit "normal-cholesky") in
  let progress := if is_defined a (lit "ceres-debug") then true else c_progress o in
  do f1 <- (if is_defined a (lit "ceres-function-tolerance") then get_double stod a (lit "ceres-function-tolerance") (1 / 1000000) else Ok (c_function_tol o));
  do f2 <- (if is_defined a (lit "ceres-gradient-tolerance") then get_double stod a (lit "ceres-gradient-tolerance") (1 / 10000000000) else Ok f1);
  do f3 <- (if is_defined a (lit "ceres-parameter-tolerance") then get_double stod a (lit "ceres-parameter-tolerance") (1 / 100000000) else Ok f2);
  Ok (mkCeres iterations cholesky progress f3 (c_gradient_tol o) (c_parameter_tol o)).

(** ** nonlinear_fitter_nlopt *)
Inductive algorithm := LN_COBYLA | LN_BOBYQA | LN_NEWUOA_BOUND | LN_PRAXIS | LN_NELDERMEAD | LN_SBPLX | GN_CRS2_LM | GD_STOGO | GN_ISRES | LD_MMA | LD_SLSQP.
(** nonlinear_fitter_nlopt/fitter.cpp:179-227 *)
Definition nlopt_algorithm (name : str) : algorithm :=
  if str_eqb name (lit "local-COBYLA") then LN_COBYLA
  else if str_eqb name (lit "local-BOBYQA") then LN_BOBYQA
  else if str_eqb name (lit "local-NEWUOA") then LN_NEWUOA_BOUND
  else if str_eqb name (lit "local-PRAXIS") then LN_PRAXIS
  else if str_eqb name (lit "local-Nelder-Mead") then LN_NELDERMEAD
  else if str_eqb name (lit "local-spblx") then LN_SBPLX
  else if str_eqb name (lit "global-crs") then GN_CRS2_LM
  else if str_eqb name (lit "global-stogo") then GD_STOGO
  else if str_eqb name (lit "global-isres") then GN_ISRES
  else if str_eqb name (lit "local-mma") then LD_MMA
  else if str_eqb name (lit "local-sqp") then LD_SLSQP
  else LD_SLSQP.
(** what the solver is told; [None]: nothing *)
Record nlopt_options := mkNlopt { n_algorithm : algorithm; n_maxeval : option Z; n_xtol_rel : R; n_ftol_rel : option R; n_ftol_abs : option R }.
(** nonlinear_fitter_nlopt/fitter.cpp:179-274 without the bounds; refusals by the
    solver, which are only printed, are left out *)
Definition nlopt_settings (a : arguments) : outcome nlopt_options :=
  let maxeval := if is_defined a (lit "nlop-max-num-iterations") then Some (get_int a (lit "nlop-max-num-iterations") 10) else None in
  do xtol <- (if is_defined a (lit "nlop-relative-function-tolerance") then get_double stod a (lit "nlop-relative-function-tolerance") (1 / 10000) else Ok (1 / 10000));
  do ftol <- (if is_defined a (lit "nlop-abs-function-tolerance") then do v <- get_double stod a (lit "nlop-abs-function-tolerance") (1 / 1000000); Ok (Some v) else Ok None);
  Ok (mkNlopt (nlopt_algorithm (at_key a (lit "nlopt-optimizer"))) maxeval xtol None ftol).

(** ** nonlinear_fitter_ipopt *)
(** nonlinear_fitter_ipopt/fitter.cpp:293-294: iterations and linear solver *)
Definition ipopt_settings (a : arguments) : Z * str := (get_int a (lit "ipopt-max-iter") 10, get_string a (lit "ipopt-solver") (lit "mumps")).

(** ** Rational fitters *)
Record ranges := mkRanges { q_min_np : Z; q_min_nq : Z; q_max_np : Z; q_max_nq : Z }.
(** quadprog.cpp:138-146; the defaults of the lower ends go through float *)
Definition quadprog_set_parameters (a : arguments) : outcome ranges :=
  do max_np <- to_int (get_float a (lit "np") 10);
  do max_nq <- to_int (get_float a (lit "nq") 10);
  do min_np <- to_int (get_float a (lit "min-np") (IZR max_np));
  do min_nq <- to_int (get_float a (lit "min-nq") (IZR max_nq));
  Ok (mkRanges min_np min_nq (Z.max max_np min_np) (Z.max max_nq min_nq)).
(** rational_fitter_matlab/rational_fitter.cpp:103-111: sizes, and whether Matlab's
    own solver is used *)
Definition matlab_set_parameters (a : arguments) : outcome (ranges * bool) :=
  do max_np <- to_int (get_float a (lit "np") 10);
  do max_nq <- to_int (get_float a (lit "nq") 10);
  do min_np <- to_int (get_float a (lit "min-np") (IZR max_np));
  do min_nq <- to_int (get_float a (lit "min-nq") (IZR max_nq));
  Ok (mkRanges min_np min_nq max_np max_nq, negb (is_defined a (lit "use-qpas"))).
(** eigen.cpp:98-102 *)
Definition eigen_set_parameters (a : arguments) : outcome (Z * Z) :=
  do np <- to_int (get_float a (lit "np") 10);
  do nq <- to_int (get_float a (lit "nq") 10);
  Ok (np, nq).
(** leastsquare.cpp:96-101: sizes and number of rounds *)
Definition leastsquare_set_parameters (a : arguments) : Z * Z * Z := (get_int a (lit "np") 10, get_int a (lit "nq") 10, get_int a (lit "max-iter") 1).
(** quadprog_parallel.cpp:138-146: first and last number of coefficients, number of
    starting points, step and use_delta *)
Record search_options := mkSearch { s_first : Z; s_last : Z; s_points : Z; s_step : Z; s_use_delta : bool }.
Definition parallel_settings (a : arguments) : search_options :=
  let first := get_int a (lit "min-np") 10 in
  mkSearch first (get_int a (lit "np") first) (get_int a (lit "nb-starting-points") 100) (get_int a (lit "np-step") 1) (is_defined a (lit "use_delta")).
End Options.

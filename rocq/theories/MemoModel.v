(** Fitters that are used several times: which settings a fit uses.  A fitter object
    keeps what set_parameters stored; Python's fit_data calls set_parameters when it
    is given arguments.  The settings themselves are those of OptModel. *)
From Coq Require Import Reals List ZArith.
From Verif Require Import Base Num ArgsModel OptModel.

(** The calls a fitter receives *)
Inductive call := SetParameters (a : arguments) | FitData (a : arguments).
(** A kind of fitter: the members of a new object, set_parameters, and fit_data, as
    the members after it and the settings of the fit *)
Record kind (S U : Type) := mkKind { k_new : S; k_set : arguments -> S -> outcome S; k_fit : arguments -> S -> outcome (S * U) }.
Arguments mkKind {S U}. Arguments k_new {S U}. Arguments k_set {S U}. Arguments k_fit {S U}.

Section Run.
Context {S U : Type}.
Variable k : kind S U.
Definition receive (c : call) (s : S) : outcome S :=
  match c with
  | SetParameters a => k_set k a s
  | FitData a => do r <- k_fit k a s; Ok (fst r)
  end.
Fixpoint receive_all (h : list call) (s : S) : outcome S :=
  match h with [] => Ok s | c :: h' => do s' <- receive c s; receive_all h' s' end.
(** the settings of a fit after the calls [h] on a new object *)
Definition settings (h : list call) (a : arguments) : outcome U :=
  do s <- receive_all h (k_new k); do r <- k_fit k a s; Ok (snd r).
End Run.

Section Kinds.
Variable atof : str -> R.
Variable stod : str -> outcome R.
(** quadprog.cpp:57-72 the constructor sets no size ([None]); 74-100 and 138-146:
    fit_data uses the sizes stored by set_parameters *)
Definition quadprog_kind : kind (option ranges) (option ranges) :=
  mkKind None (fun a _ => do q <- quadprog_set_parameters atof a; Ok (Some q)) (fun _ s => Ok (s, s)).
(** eigen.cpp:44-52 the constructor sets no size; 54-102 *)
Definition eigen_kind : kind (option (Z * Z)) (option (Z * Z)) :=
  mkKind None (fun a _ => do q <- eigen_set_parameters atof a; Ok (Some q)) (fun _ s => Ok (s, s)).
(** rational_fitter_matlab/rational_fitter.cpp:32-43 the constructor sets no size;
    49-72 and 103-111 *)
Definition matlab_kind : kind (option (ranges * bool)) (option (ranges * bool)) :=
  mkKind None (fun a _ => do q <- matlab_set_parameters atof a; Ok (Some q)) (fun _ s => Ok (s, s)).
(** leastsquare.cpp:49-51, 72-74 and 96-101: fit_data reads np and nq again, and
    stores them; number of rounds from set_parameters *)
Definition leastsquare_kind : kind (Z * Z * Z) (Z * Z * Z) :=
  mkKind (10, 10, 1)%Z (fun a _ => Ok (leastsquare_set_parameters a))
    (fun a s => let '(np, nq, it) := s in
                let s' := (get_int a (lit "np") np, get_int a (lit "nq") nq, it) in Ok (s', s')).
(** nonlinear_fitter_ceres/fitter.cpp:113-119 and 185-224; [o0]: the options Ceres
    starts with.  A text that is no number ends the history; see [ceres_left] for
    scripts that go on. *)
Definition ceres_kind (o0 : ceres_options) : kind ceres_options ceres_options :=
  mkKind o0 (ceres_set_parameters stod) (fun _ o => Ok (o, o)).
(** nonlinear_fitter_ceres/fitter.cpp:207-223 one tolerance: the member
    function_tolerance, and whether an exception has been thrown *)
Definition assign_tolerance (a : arguments) (k : str) (d : R) (s : R * bool) : R * bool :=
  if snd s then s else
  if is_defined a k then match get_double stod a k d with Ok v => (v, false) | _ => (fst s, true) end else s.
(** nonlinear_fitter_ceres/fitter.cpp:185-226 set_parameters, when the script catches
    the exception: the options it leaves, and whether it threw one *)
Definition ceres_left (a : arguments) (o : ceres_options) : ceres_options * bool :=
  let iterations := if is_defined a (lit "ceres-max-num-iterations") then get_int a (lit "ceres-max-num-iterations") 50 else c_iterations o in
  let cholesky := str_eqb (at_key a (lit "ceres-factorization")) (lit "normal-cholesky") in
  let progress := if is_defined a (lit "ceres-debug") then true else c_progress o in
  let s := assign_tolerance a (lit "ceres-parameter-tolerance") (1 / 100000000)
             (assign_tolerance a (lit "ceres-gradient-tolerance") (1 / 10000000000)
               (assign_tolerance a (lit "ceres-function-tolerance") (1 / 1000000) (c_function_tol o, false))) in
  (mkCeres iterations cholesky progress (fst s) (c_gradient_tol o) (c_parameter_tol o), snd s).
(** a script that calls set_parameters with each of [l] and catches every exception *)
Definition ceres_left_all (l : list arguments) (o : ceres_options) : ceres_options := fold_left (fun o a => fst (ceres_left a o)) l o.
(** quadprog_parallel.cpp:138-146: only the arguments of the fit *)
Definition parallel_kind : kind unit search_options := mkKind tt (fun _ s => Ok s) (fun a s => Ok (s, parallel_settings a)).
(** nonlinear_fitter_nlopt/fitter.cpp:179-274 and 308-310: only the arguments of the fit *)
Definition nlopt_kind : kind unit nlopt_options := mkKind tt (fun _ s => Ok s) (fun a s => do o <- nlopt_settings stod a; Ok (s, o)).
(** nonlinear_fitter_ipopt/fitter.cpp:293-294 and 326-328: only the arguments of the fit *)
Definition ipopt_kind : kind unit (Z * str) := mkKind tt (fun _ s => Ok s) (fun a s => Ok (s, ipopt_settings a)).
End Kinds.

(** A fit in Python: f.fit_data(d, func, args) or f.fit_data(d, func) *)
Inductive py_fit := With (a : arguments) | Without.
(** python/alta.cpp:204-208 fit_data_with_args and 197-202 fit_data_without_args:
    the calls that come before fit_data, and its arguments *)
Definition before (f : py_fit) : list call := match f with With a => [SetParameters a] | Without => [] end.
Definition own (f : py_fit) : arguments := match f with With a => a | Without => [] end.
Definition py_calls (l : list py_fit) : list call := flat_map (fun f => before f ++ [FitData (own f)]) l.
(** the settings of the fit [f] in a script that made the fits [l] before with the
    same fitter *)
Definition py_settings {S U} (k : kind S U) (l : list py_fit) (f : py_fit) : outcome U :=
  settings k (py_calls l ++ before f) (own f).

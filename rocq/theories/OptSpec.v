(** Vocabulary for C116. *)
From Coq Require Import Reals List ZArith.
From Verif Require Import Base Num ArgsModel ToolSpec OptModel QuadModel.
Open Scope R_scope.

Section Spec.
Variable atof : str -> R.
Variable stod : str -> outcome R.
(** option [k] is given with a text that is the number [v] *)
Definition number_given (a : arguments) (k : str) (v : R) : Prop := exists t, map_find k a = Some t /\ stod t = Ok v.
(** option [k] is given with a text that is no number *)
Definition no_number (a : arguments) (k : str) : Prop := exists t, map_find k a = Some t /\ stod t = Throw.
(** option [k] is given with a whole number of at most eight digits *)
Definition whole_given (a : arguments) (k : str) (z : Z) : Prop := exists t, map_find k a = Some t /\ atof (c_str t) = IZR z /\ (Z.abs z <= 2 ^ 24)%Z.
(** the number asked for with [k], [d] without the option *)
Definition asked (a : arguments) (k : str) (d z : Z) : Prop := whole_given a k z \/ (~ given a k /\ z = d).
(** the integer that a text begins with *)
Definition int_given (a : arguments) (k : str) (z : Z) : Prop := exists t, map_find k a = Some t /\ atoi (c_str t) = z.

(** the last tolerance given, in the order function, gradient, parameter *)
Definition last_tolerance (a : arguments) (old v : R) : Prop :=
  number_given a (lit "ceres-parameter-tolerance") v \/
  (~ given a (lit "ceres-parameter-tolerance") /\ number_given a (lit "ceres-gradient-tolerance") v) \/
  (~ given a (lit "ceres-parameter-tolerance") /\ ~ given a (lit "ceres-gradient-tolerance") /\ number_given a (lit "ceres-function-tolerance") v) \/
  (~ given a (lit "ceres-parameter-tolerance") /\ ~ given a (lit "ceres-gradient-tolerance") /\ ~ given a (lit "ceres-function-tolerance") /\ v = old).
End Spec.
Definition tolerances : list str := map lit ["ceres-function-tolerance"; "ceres-gradient-tolerance"; "ceres-parameter-tolerance"]%string.
Definition ceres_keys : list str := map lit ["ceres-max-num-iterations"; "ceres-factorization"; "ceres-debug"]%string ++ tolerances.
(** the names of NLopt's algorithms *)
Definition algorithm_names : list (str * algorithm) :=
  map (fun p => (lit (fst p), snd p))
  [("local-COBYLA", LN_COBYLA); ("local-BOBYQA", LN_BOBYQA); ("local-NEWUOA", LN_NEWUOA_BOUND); ("local-PRAXIS", LN_PRAXIS); ("local-Nelder-Mead", LN_NELDERMEAD);
   ("local-spblx", LN_SBPLX); ("global-crs", GN_CRS2_LM); ("global-stogo", GD_STOGO); ("global-isres", GN_ISRES); ("local-mma", LD_MMA); ("local-sqp", LD_SLSQP)]%string.
(** a range of sizes as the search of quadprog uses it *)
Definition same_ranges (q : ranges) (z : sizes) : Prop :=
  q_min_np q = Z.of_nat (z_min_np z) /\ q_min_nq q = Z.of_nat (z_min_nq z) /\ q_max_np q = Z.of_nat (z_max_np z) /\ q_max_nq q = Z.of_nat (z_max_nq z).

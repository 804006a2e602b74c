(** Property C116: the options of the fitting plugins. *)
From Coq Require Import Reals List ZArith Lia Lra.
From Verif Require Import Base Num ArgsModel ToolSpec QuadModel QuadSpec OptModel OptSpec OptProofs.
Open Scope R_scope.

(** The Ceres plugin: whatever the options, if the tolerances are numbers the solver
    is set up; the tolerance on the function is the last tolerance given, whichever it
    is, and the two others stay as they were. *)
Theorem C116_ceres : forall stod a o, (forall k, In k tolerances -> given a k -> exists v, number_given stod a k v) ->
  exists o', ceres_set_parameters stod a o = Ok o' /\
    (int_given a (lit "ceres-max-num-iterations") (c_iterations o') \/ (~ given a (lit "ceres-max-num-iterations") /\ c_iterations o' = c_iterations o)) /\
    (c_cholesky o' = true <-> map_find (lit "ceres-factorization") a = Some (lit "normal-cholesky")) /\
    (c_progress o' = true <-> given a (lit "ceres-debug") \/ c_progress o = true) /\
    last_tolerance stod a (c_function_tol o) (c_function_tol o') /\
    c_gradient_tol o' = c_gradient_tol o /\ c_parameter_tol o' = c_parameter_tol o.
Proof.
  intros stod a o H. unfold ceres_set_parameters.
  assert (T : forall k old, In k tolerances -> exists v, match map_find k a with Some t => stod t | None => Ok old end = Ok v /\ (number_given stod a k v \/ (~ given a k /\ v = old))).
  { intros k old Hk. destruct (map_find k a) as [t|] eqn:E.
    - destruct (H k Hk ltac:(eexists; exact E)) as (v & t' & E' & Hv). assert (t' = t) by congruence. subst t'. exists v. split; [exact Hv|]. left. exists t. auto.
    - exists old. split; [reflexivity|]. right. split; [|reflexivity]. intros [v Hv]. congruence. }
 
  rewrite tol_step. destruct (T (lit "ceres-function-tolerance") (c_function_tol o)) as (f1 & -> & F1); [left; reflexivity|]. cbn [bind].
  rewrite tol_step. destruct (T (lit "ceres-gradient-tolerance") f1) as (f2 & -> & F2); [right; left; reflexivity|]. cbn [bind].
  rewrite tol_step. destruct (T (lit "ceres-parameter-tolerance") f2) as (f3 & -> & F3); [right; right; left; reflexivity|]. cbn [bind].
  eexists. split; [reflexivity|]. cbn [c_iterations c_cholesky c_progress c_function_tol c_gradient_tol c_parameter_tol]. split; [|split; [|split; [|split; [|split; reflexivity]]]].
  - unfold int_given, given, is_defined, get_int, get_num. destruct (map_find _ a) as [t|]; [left; exists t; auto|right; split; [|reflexivity]]. intros [v Hv]. discriminate.
  - unfold at_key. destruct (map_find _ a) as [t|]; [|split; [intros Hf; discriminate|intros Hf; discriminate]]. destruct (str_eqb_spec t (lit "normal-cholesky")) as [->|N]; split; try reflexivity; intros Hf; congruence.
  - unfold given, is_defined. destruct (map_find _ a) as [t|]; split; auto; intros Hf; try (left; eexists; reflexivity). destruct Hf as [[v Hv]|Hf]; [discriminate|assumption].
  - unfold last_tolerance. destruct F3 as [F3|[N3 ->]]; [left; assumption|]. right. destruct F2 as [F2|[N2 ->]]; [left; split; assumption|]. right. destruct F1 as [F1|[N1 ->]]; [left; auto|right; auto].
Qed.
Print Assumptions C116_ceres.
(** So the documented options for the gradient and the parameters do something else. *)
Theorem C116_ceres_gradient_refuted : forall stod a o v, number_given stod a (lit "ceres-gradient-tolerance") v ->
  (forall k, In k tolerances -> given a k -> exists v, number_given stod a k v) -> ~ given a (lit "ceres-parameter-tolerance") ->
  exists o', ceres_set_parameters stod a o = Ok o' /\ c_function_tol o' = v /\ c_gradient_tol o' = c_gradient_tol o.
Proof.
  intros stod a o v Hv H N. destruct (C116_ceres stod a o H) as (o' & E & _ & _ & _ & L & G & _). exists o'. split; [assumption|]. split; [|assumption].
  destruct Hv as (t & Ht & Hv). destruct L as [(t' & Ht' & _)|[(_ & t' & Ht' & Hv')|[(_ & N2 & _)|(_ & N2 & _)]]].
  - exfalso. apply N. eexists; exact Ht'.
  - congruence.
  - exfalso. apply N2. eexists; exact Ht.
  - exfalso. apply N2. eexists; exact Ht.
Qed.
Print Assumptions C116_ceres_gradient_refuted.
(** A tolerance that is no number ends the program by an exception. *)
Theorem C116_ceres_no_number : forall stod a o k, (forall t, stod t = Throw \/ exists v, stod t = Ok v) -> In k tolerances -> no_number stod a k -> ceres_set_parameters stod a o = Throw.
Proof.
  intros stod a o k S Hk (t & Et & Ht). unfold ceres_set_parameters.
  assert (M : forall k old, match map_find k a with Some t => stod t | None => Ok old end = Throw \/ exists v, match map_find k a with Some t => stod t | None => Ok old end = Ok v).
  { intros k' old. destruct (map_find k' a); [apply S|right; eexists; reflexivity]. }
  destruct Hk as [<-|[<-|[<-|[]]]].
  - rewrite tol_step, Et, Ht. reflexivity.
  - rewrite tol_step. destruct (M (lit "ceres-function-tolerance") (c_function_tol o)) as [->|[v ->]]; [reflexivity|]. cbn [bind]. rewrite tol_step, Et, Ht. reflexivity.
  - rewrite tol_step. destruct (M (lit "ceres-function-tolerance") (c_function_tol o)) as [->|[v ->]]; [reflexivity|]. cbn [bind].
    rewrite tol_step. destruct (M (lit "ceres-gradient-tolerance") v) as [->|[v' ->]]; [reflexivity|]. cbn [bind]. rewrite tol_step, Et, Ht. reflexivity.
Qed.
Print Assumptions C116_ceres_no_number.
(** No other option matters, in particular not --ceres-factorizer, which is the documented one. *)
Theorem C116_ceres_other_options : forall stod a b o, (forall k, In k ceres_keys -> map_find k a = map_find k b) -> ceres_set_parameters stod a o = ceres_set_parameters stod b o.
Proof. intros stod a b o H. unfold ceres_set_parameters, is_defined, at_key, get_int, get_num, get_double. rewrite !H by (cbn; tauto). reflexivity. Qed.
Print Assumptions C116_ceres_other_options.

(** The NLopt plugin.  The relative tolerance for the function is set as a tolerance for
    the parameters; without its option the number of evaluations has no limit. *)
Theorem C116_nlopt : forall stod a,
  (forall k, In k [lit "nlop-relative-function-tolerance"; lit "nlop-abs-function-tolerance"] -> given a k -> exists v, number_given stod a k v) ->
  exists o, nlopt_settings stod a = Ok o /\
    (forall z, n_maxeval o = Some z <-> int_given a (lit "nlop-max-num-iterations") z) /\
    (number_given stod a (lit "nlop-relative-function-tolerance") (n_xtol_rel o) \/ (~ given a (lit "nlop-relative-function-tolerance") /\ n_xtol_rel o = 1 / 10000)) /\
    n_ftol_rel o = None /\
    (forall v, n_ftol_abs o = Some v <-> number_given stod a (lit "nlop-abs-function-tolerance") v) /\
    (forall name alg, In (name, alg) algorithm_names -> map_find (lit "nlopt-optimizer") a = Some name -> n_algorithm o = alg) /\
    ((forall name, map_find (lit "nlopt-optimizer") a = Some name -> ~ In name (map fst algorithm_names)) -> n_algorithm o = LD_SLSQP).
Proof.
  intros stod a H. unfold nlopt_settings.
  rewrite tol_step.
  assert (T1 : exists x, match map_find (lit "nlop-relative-function-tolerance") a with Some t => stod t | None => Ok (1 / 10000) end = Ok x /\
    (number_given stod a (lit "nlop-relative-function-tolerance") x \/ (~ given a (lit "nlop-relative-function-tolerance") /\ x = 1 / 10000))).
  { destruct (map_find (lit "nlop-relative-function-tolerance") a) as [t|] eqn:E.
    - destruct (H (lit "nlop-relative-function-tolerance") ltac:(left; reflexivity) ltac:(eexists; exact E)) as (v & t' & E' & Hv). assert (t' = t) by congruence. subst t'. exists v. split; [exact Hv|]. left. exists t. auto.
    - eexists. split; [reflexivity|]. right. split; [|reflexivity]. intros [v Hv]. congruence. }
  destruct T1 as (x & E1 & X). rewrite E1. cbn [bind].
  assert (T2 : exists y, (if is_defined a (lit "nlop-abs-function-tolerance") then do v <- get_double stod a (lit "nlop-abs-function-tolerance") (1 / 1000000); Ok (Some v) else Ok None) = Ok y /\
    forall v, y = Some v <-> number_given stod a (lit "nlop-abs-function-tolerance") v).
  { unfold is_defined, get_double. destruct (map_find (lit "nlop-abs-function-tolerance") a) as [t|] eqn:E.
    - destruct (H (lit "nlop-abs-function-tolerance") ltac:(right; left; reflexivity) ltac:(eexists; exact E)) as (v & t' & E' & Hv). assert (t' = t) by congruence. subst t'. rewrite Hv. cbn [bind]. exists (Some v). split; [reflexivity|].
      intros u. split; [intros U; injection U as <-; exists t; auto|]. intros (t' & E2 & Hu). congruence.
    - exists None. split; [reflexivity|]. intros v. split; [discriminate|]. intros (t' & E2 & _). congruence. }
  destruct T2 as (y & -> & Y). cbn [bind]. eexists. split; [reflexivity|]. cbn [n_algorithm n_maxeval n_xtol_rel n_ftol_rel n_ftol_abs].
  split; [|split; [exact X|split; [reflexivity|split; [exact Y|split]]]].
  - intros z. unfold is_defined, int_given, get_int, get_num. destruct (map_find (lit "nlop-max-num-iterations") a) as [t|]; split.
    + intros U. exists t. split; [reflexivity|]. congruence.
    + intros (t' & E2 & <-). congruence.
    + discriminate.
    + intros (t' & E2 & _). discriminate.
  - intros name alg Hin E. unfold at_key. rewrite E. cbn in Hin. repeat (destruct Hin as [Hin|Hin]; [injection Hin as <- <-; reflexivity|]). contradiction.
  - intros N. unfold at_key. destruct (map_find (lit "nlopt-optimizer") a) as [t|]; [|reflexivity]. specialize (N t eq_refl). unfold nlopt_algorithm.
    repeat match goal with |- context [str_eqb t ?n] => destruct (str_eqb_spec t n) as [->|?]; [exfalso; apply N; cbn; tauto|] end. reflexivity.
Qed.
Print Assumptions C116_nlopt.
(** The Ipopt plugin. *)
Theorem C116_ipopt : forall a,
  (int_given a (lit "ipopt-max-iter") (fst (ipopt_settings a)) \/ (~ given a (lit "ipopt-max-iter") /\ fst (ipopt_settings a) = 10%Z)) /\
  ((exists t, map_find (lit "ipopt-solver") a = Some t /\ snd (ipopt_settings a) = c_str t) \/ (~ given a (lit "ipopt-solver") /\ snd (ipopt_settings a) = lit "mumps")).
Proof.
  intros a. unfold ipopt_settings, get_int, get_num, get_string, int_given, given. cbn [fst snd]. split.
  - destruct (map_find (lit "ipopt-max-iter") a) as [t|]; [left; exists t; auto|right; split; [|reflexivity]]. intros [v Hv]. discriminate.
  - destruct (map_find (lit "ipopt-solver") a) as [t|]; [left; exists t; auto|right; split; [|reflexivity]]. intros [v Hv]. discriminate.
Qed.
Print Assumptions C116_ipopt.

(** The quadratic program fitter reads its sizes as floating point numbers: whole numbers
    arrive unchanged, the ranges are never empty, and a missing lower end is the upper end. *)
Theorem C116_quadprog : forall atof a np nq min_np min_nq,
  asked atof a (lit "np") 10 np -> asked atof a (lit "nq") 10 nq -> asked atof a (lit "min-np") np min_np -> asked atof a (lit "min-nq") nq min_nq ->
  quadprog_set_parameters atof a = Ok (mkRanges min_np min_nq (Z.max np min_np) (Z.max nq min_nq)).
Proof. exact quadprog_sizes. Qed.
Print Assumptions C116_quadprog.
(** With positive sizes this is the range that the search of C48 goes through. *)
Theorem C116_quadprog_search : forall atof a np nq min_np min_nq, (0 < np)%Z -> (0 < nq)%Z -> (0 < min_np)%Z -> (0 < min_nq)%Z ->
  asked atof a (lit "np") 10 np -> asked atof a (lit "nq") 10 nq -> asked atof a (lit "min-np") np min_np -> asked atof a (lit "min-nq") nq min_nq ->
  exists q z, quadprog_set_parameters atof a = Ok q /\ same_ranges q z /\ sizes_ok z /\
    z = set_parameters (Some (Z.to_nat np)) (Some (Z.to_nat nq)) (Some (Z.to_nat min_np)) (Some (Z.to_nat min_nq)).
Proof.
  intros atof a np nq mp mq P1 P2 P3 P4 A B C D. eexists _, _. split; [eapply quadprog_sizes; eassumption|]. split; [|split; [|reflexivity]].
  - unfold same_ranges, set_parameters. cbn [q_min_np q_min_nq q_max_np q_max_nq z_min_np z_min_nq z_max_np z_max_nq]. rewrite !Nat2Z.inj_max, !Z2Nat.id by lia. auto.
  - unfold sizes_ok, set_parameters. cbn [z_min_np z_min_nq z_max_np z_max_nq]. lia.
Qed.
Print Assumptions C116_quadprog_search.
Theorem C116_eigen : forall atof a np nq, asked atof a (lit "np") 10 np -> asked atof a (lit "nq") 10 nq -> eigen_set_parameters atof a = Ok (np, nq).
Proof. exact eigen_sizes. Qed.
Print Assumptions C116_eigen.
(** A size that is too large for an int is undefined behaviour. *)
Theorem C116_large_sizes_refuted : forall atof a t, map_find (lit "np") a = Some t -> IZR (2 ^ 31) <= atof (c_str t) ->
  quadprog_set_parameters atof a = UB /\ eigen_set_parameters atof a = UB.
Proof.
  intros atof a t E H. assert (U : to_int (get_float atof a (lit "np") 10) = UB) by (unfold get_float, get_num; rewrite E; apply int_large, float_large; assumption).
  unfold quadprog_set_parameters, eigen_set_parameters. rewrite U. split; reflexivity.
Qed.
Print Assumptions C116_large_sizes_refuted.
(** The same text is not the same size for every fitter. *)
Theorem C116_same_text_refuted : forall atof a, atof (lit "1e1") = 10 -> map_find (lit "np") a = Some (lit "1e1") -> asked atof a (lit "nq") 10 10 ->
  eigen_set_parameters atof a = Ok (10, 10)%Z /\ fst (fst (leastsquare_set_parameters a)) = 1%Z.
Proof.
  intros atof a H E A. split.
  - apply eigen_sizes; [|assumption]. left. eexists. split; [exact E|]. split; [exact H|lia].
  - unfold leastsquare_set_parameters, get_int, get_num. cbn [fst]. rewrite E. reflexivity.
Qed.
Print Assumptions C116_same_text_refuted.
(** The parallel search with --np alone starts at 10 coefficients: asked for fewer, it
    fails without a try. *)
Theorem C116_parallel_small_refuted : forall a n, int_given a (lit "np") n -> ~ given a (lit "min-np") ->
  s_first (parallel_settings a) = 10%Z /\ s_last (parallel_settings a) = n /\
  ((0 <= n < 10)%Z -> forall junk solver cond distance use_delta channels order fuel step f,
     search junk solver cond distance use_delta channels order (S fuel) (Z.to_nat (s_first (parallel_settings a))) (Z.to_nat (s_last (parallel_settings a))) step f = Ok (Some (false, f))).
Proof.
  intros a n (t & E & Ht) N. assert (F : s_first (parallel_settings a) = 10%Z).
  { unfold parallel_settings, get_int, get_num. cbn [s_first]. destruct (map_find (lit "min-np") a) eqn:Em; [exfalso; apply N; eexists; exact Em|reflexivity]. }
  assert (L : s_last (parallel_settings a) = n). { unfold parallel_settings, get_int, get_num. cbn [s_last]. rewrite E. exact Ht. }
  split; [assumption|]. split; [assumption|]. intros Hn junk solver cond distance use_delta channels order fuel step f. rewrite F, L. cbn [search].
  replace (Z.to_nat 10 <=? Z.to_nat n)%nat with false; [reflexivity|]. symmetry. apply Nat.leb_gt. lia.
Qed.
Print Assumptions C116_parallel_small_refuted.

(** The least squares and the parallel fitters read integers; each missing option has
    its default. *)
Theorem C116_integer_options : forall a,
  let takes k d z := int_given a (lit k) z \/ (~ given a (lit k) /\ z = d) in
  (exists np nq rounds, leastsquare_set_parameters a = (np, nq, rounds) /\ takes "np"%string 10%Z np /\ takes "nq"%string 10%Z nq /\ takes "max-iter"%string 1%Z rounds) /\
  takes "min-np"%string 10%Z (s_first (parallel_settings a)) /\ takes "np"%string (s_first (parallel_settings a)) (s_last (parallel_settings a)) /\
  takes "nb-starting-points"%string 100%Z (s_points (parallel_settings a)) /\ takes "np-step"%string 1%Z (s_step (parallel_settings a)) /\
  (s_use_delta (parallel_settings a) = true <-> given a (lit "use_delta")).
Proof.
  intros a takes. assert (K : forall k d, takes k d (get_int a (lit k) d)).
  { intros k d. unfold takes, get_int, get_num, int_given, given. destruct (map_find (lit k) a) as [t|]; [left; exists t; auto|right; split; [|reflexivity]]. intros [v Hv]. discriminate. }
  split; [eexists _, _, _; split; [reflexivity|]; auto|]. unfold parallel_settings. cbn [s_first s_last s_points s_step s_use_delta]. split; [apply K|]. split; [apply K|]. split; [apply K|]. split; [apply K|].
  unfold is_defined, given. destruct (map_find (lit "use_delta") a) as [t|]; split; try (intros; eexists; reflexivity); try discriminate; try reflexivity. intros [v Hv]. discriminate.
Qed.
Print Assumptions C116_integer_options.

(** ** Cases *)
Definition stod2 (t : str) : outcome R := if str_eqb t (lit "0.5") then Ok (1 / 2) else if str_eqb t (lit "0.25") then Ok (1 / 4) else Throw.
Definition ceres_args : arguments := [(lit "ceres-debug", []); (lit "ceres-gradient-tolerance", lit "0.5"); (lit "ceres-max-num-iterations", lit "70")].
Example C116_ceres_case :
  ceres_set_parameters stod2 ceres_args (mkCeres 50 false false 1 2 3) = Ok (mkCeres 70 false true (1 / 2) 2 3) /\
  ceres_set_parameters stod2 [(lit "ceres-gradient-tolerance", lit "small")] (mkCeres 50 false false 1 2 3) = Throw /\
  nlopt_settings stod2 [(lit "nlop-relative-function-tolerance", lit "0.25"); (lit "nlopt-optimizer", lit "local-mma")] = Ok (mkNlopt LD_MMA None (1 / 4) None None).
Proof. split; [reflexivity|]. split; reflexivity. Qed.
Example C116_ceres_fine : forall k, In k tolerances -> given ceres_args k -> exists v, number_given stod2 ceres_args k v.
Proof. intros k Hk [t Ht]. cbn in Hk. destruct Hk as [<-|[<-|[<-|[]]]]; try discriminate. exists (1 / 2), (lit "0.5"). split; reflexivity. Qed.
Definition atof2 (t : str) : R := if str_eqb t (lit "1e1") then 10 else IZR (atoi t).
Example C116_quadprog_case : quadprog_set_parameters atof2 [(lit "min-np", lit "4"); (lit "np", lit "1e1")] = Ok (mkRanges 4 10 10 10).
Proof.
  apply (C116_quadprog atof2 _ 10 10 4 10).
  - left. exists (lit "1e1"). repeat split. lia.
  - right. split; [|reflexivity]. intros [v Hv]. discriminate.
  - left. exists (lit "4"). repeat split. lia.
  - right. split; [|reflexivity]. intros [v Hv]. discriminate.
Qed.

(** Property C128: what a fitter remembers between fits. *)
From Coq Require Import Reals List ZArith Lia Lra.
From Verif Require Import Base Num ArgsModel ToolSpec OptModel OptSpec OptProofs MemoModel MemoSpec MemoProofs MemoProofs2 MemoProofs3.
Import ListNotations.

(** The sizes of a fit are those of the last set_parameters, whatever the arguments
    of this and of earlier fits; before the first set_parameters nobody has set
    them: quadratic program, ... *)
Theorem C128_quadprog : forall atof h a, (forall b, In (SetParameters b) h -> exists q, quadprog_set_parameters atof b = Ok q) ->
  (forall b, last_set h b -> exists q, quadprog_set_parameters atof b = Ok q /\ settings (quadprog_kind atof) h a = Ok (Some q)) /\
  (never_set h -> settings (quadprog_kind atof) h a = Ok None).
Proof. intros atof h a H. exact (stored_settings (quadprog_set_parameters atof) h a H). Qed.
Print Assumptions C128_quadprog.

(** ... eigenvector, ... *)
Theorem C128_eigen : forall atof h a, (forall b, In (SetParameters b) h -> exists q, eigen_set_parameters atof b = Ok q) ->
  (forall b, last_set h b -> exists q, eigen_set_parameters atof b = Ok q /\ settings (eigen_kind atof) h a = Ok (Some q)) /\
  (never_set h -> settings (eigen_kind atof) h a = Ok None).
Proof. intros atof h a H. exact (stored_settings (eigen_set_parameters atof) h a H). Qed.
Print Assumptions C128_eigen.

(** ... and Matlab fitters. *)
Theorem C128_matlab : forall atof h a, (forall b, In (SetParameters b) h -> exists q, matlab_set_parameters atof b = Ok q) ->
  (forall b, last_set h b -> exists q, matlab_set_parameters atof b = Ok q /\ settings (matlab_kind atof) h a = Ok (Some q)) /\
  (never_set h -> settings (matlab_kind atof) h a = Ok None).
Proof. intros atof h a H. exact (stored_settings (matlab_set_parameters atof) h a H). Qed.
Print Assumptions C128_matlab.

(** The least squares fitter remembers the sizes given to fits, too, but not the
    number of rounds. *)
Theorem C128_leastsquare : forall h a, exists np nq it, settings leastsquare_kind h a = Ok (np, nq, it) /\
  size_after (lit "np") (h ++ [FitData a]) np /\ size_after (lit "nq") (h ++ [FitData a]) nq /\
  ((exists b, last_set h b /\ (int_given b (lit "max-iter") it \/ (~ given b (lit "max-iter") /\ it = 1%Z))) \/ (never_set h /\ it = 1%Z)).
Proof. exact leastsquare_settings. Qed.
Print Assumptions C128_leastsquare.

(** The Ceres plugin remembers every option it was ever given until it is given
    again; the tolerance is the last one given, whichever of the three it is; only the
    factorization is chosen anew each time. *)
Theorem C128_ceres : forall stod o0 h a,
  (forall b k, In (SetParameters b) h -> In k tolerances -> given b k -> exists v, number_given stod b k v) ->
  exists o, settings (ceres_kind stod o0) h a = Ok o /\
  ((exists b, last_giving (fun b => given b (lit "ceres-max-num-iterations")) h b /\ int_given b (lit "ceres-max-num-iterations") (c_iterations o)) \/
   (none_giving (fun b => given b (lit "ceres-max-num-iterations")) h /\ c_iterations o = c_iterations o0)) /\
  ((exists b, last_set h b /\ (c_cholesky o = true <-> map_find (lit "ceres-factorization") b = Some (lit "normal-cholesky"))) \/
   (never_set h /\ c_cholesky o = c_cholesky o0)) /\
  (c_progress o = true <-> (exists b, In (SetParameters b) h /\ given b (lit "ceres-debug")) \/ c_progress o0 = true) /\
  ((exists b, last_giving gives_tolerance h b /\ forall old, last_tolerance stod b old (c_function_tol o)) \/
   (none_giving gives_tolerance h /\ c_function_tol o = c_function_tol o0)) /\
  c_gradient_tol o = c_gradient_tol o0 /\ c_parameter_tol o = c_parameter_tol o0.
Proof.
  intros stod o0 h a H. destruct (ceres_state stod o0 h H) as (o & E & P). exists o. split; [|exact P].
  unfold settings. change (k_new (ceres_kind stod o0)) with o0. rewrite E. reflexivity.
Qed.
Print Assumptions C128_ceres.

(** set_parameters as a script sees it that catches exceptions: the same options when
    there is none. *)
Theorem C128_ceres_caught_or_not : forall stod a o o', ceres_set_parameters stod a o = Ok o' <-> ceres_left stod a o = (o', false).
Proof. exact left_agrees. Qed.
Print Assumptions C128_ceres_caught_or_not.

(** Whatever the texts: an exception undoes nothing. The number of iterations, the
    factorization and the progress output are those of C128_ceres, and the tolerance is
    the last one read, each call reading up to its first text that is no number. *)
Theorem C128_ceres_caught : forall stod o0 l, let o := ceres_left_all stod l o0 in let h := map SetParameters l in
  ((exists b, last_giving (fun b => given b (lit "ceres-max-num-iterations")) h b /\ int_given b (lit "ceres-max-num-iterations") (c_iterations o)) \/
   (none_giving (fun b => given b (lit "ceres-max-num-iterations")) h /\ c_iterations o = c_iterations o0)) /\
  ((exists b, last_set h b /\ (c_cholesky o = true <-> map_find (lit "ceres-factorization") b = Some (lit "normal-cholesky"))) \/
   (never_set h /\ c_cholesky o = c_cholesky o0)) /\
  (c_progress o = true <-> (exists b, In b l /\ given b (lit "ceres-debug")) \/ c_progress o0 = true) /\
  all_read stod tolerances l (c_function_tol o0) (c_function_tol o) /\
  c_gradient_tol o = c_gradient_tol o0 /\ c_parameter_tol o = c_parameter_tol o0.
Proof. intros stod o0 l. exact (ceres_all_left stod o0 l). Qed.
Print Assumptions C128_ceres_caught.

(** So a call that raises an exception changes the fits after it. *)
Theorem C128_ceres_exception_refuted : forall stod o0, stod (lit "x") = Throw -> exists b,
  ceres_set_parameters stod b o0 = Throw /\ snd (ceres_left stod b o0) = true /\ c_iterations (fst (ceres_left stod b o0)) <> c_iterations o0.
Proof.
  intros stod o0 H.
  assert (G : forall t z, get_int [(lit "ceres-max-num-iterations", t); (lit "ceres-function-tolerance", lit "x")] (lit "ceres-max-num-iterations") 50 = z ->
    let b := [(lit "ceres-max-num-iterations", t); (lit "ceres-function-tolerance", lit "x")] in
    ceres_set_parameters stod b o0 = Throw /\ snd (ceres_left stod b o0) = true /\ c_iterations (fst (ceres_left stod b o0)) = z).
  { intros t z Hz b. split; [|split].
    - unfold ceres_set_parameters, b. change (get_double stod _ (lit "ceres-function-tolerance") (1 / 1000000)) with (stod (lit "x")). rewrite H. reflexivity.
    - unfold ceres_left, assign_tolerance, b. cbn [fst snd]. change (is_defined _ (lit "ceres-function-tolerance")) with true.
      change (get_double stod _ (lit "ceres-function-tolerance") (1 / 1000000)) with (stod (lit "x")). rewrite H. reflexivity.
    - unfold ceres_left, b. cbn [fst c_iterations]. change (is_defined _ (lit "ceres-max-num-iterations")) with true. exact Hz. }
  destruct (Z.eq_dec (c_iterations o0) 7) as [E|N].
  - destruct (G (lit "8") 8%Z eq_refl) as (A & B & C). eexists. split; [exact A|]. split; [exact B|]. rewrite C, E. discriminate.
  - destruct (G (lit "7") 7%Z eq_refl) as (A & B & C). eexists. split; [exact A|]. split; [exact B|]. rewrite C. congruence.
Qed.
Print Assumptions C128_ceres_exception_refuted.

(** In a script, a fit that is given arguments has the settings it has with a new
    fitter, whatever the fits before, ... *)
Theorem C128_with_arguments : forall atof l a,
  ((forall b, In (With b) l -> exists q, quadprog_set_parameters atof b = Ok q) -> py_settings (quadprog_kind atof) l (With a) = py_settings (quadprog_kind atof) [] (With a)) /\
  ((forall b, In (With b) l -> exists q, eigen_set_parameters atof b = Ok q) -> py_settings (eigen_kind atof) l (With a) = py_settings (eigen_kind atof) [] (With a)) /\
  ((forall b, In (With b) l -> exists q, matlab_set_parameters atof b = Ok q) -> py_settings (matlab_kind atof) l (With a) = py_settings (matlab_kind atof) [] (With a)) /\
  py_settings leastsquare_kind l (With a) = py_settings leastsquare_kind [] (With a).
Proof.
  intros atof l a.
  assert (G : forall Q (f : arguments -> outcome Q), (forall b, In (With b) l -> exists q, f b = Ok q) -> py_settings (stored f) l (With a) = py_settings (stored f) [] (With a)).
  { intros Q f H. rewrite (stored_with f l a H), (stored_with f [] a) by (intros c []). reflexivity. }
  split; [|split; [|split]].
  - exact (G _ (quadprog_set_parameters atof)).
  - exact (G _ (eigen_set_parameters atof)).
  - exact (G _ (matlab_set_parameters atof)).
  - rewrite !leastsquare_with. reflexivity.
Qed.
Print Assumptions C128_with_arguments.

(** ... except with Ceres: an option that is left out keeps its earlier value. *)
Theorem C128_ceres_refuted : forall stod o0, exists b,
  py_settings (ceres_kind stod o0) [With b] (With []) <> py_settings (ceres_kind stod o0) [] (With []).
Proof.
  intros stod o0. destruct (Z.eq_dec (c_iterations o0) 7) as [E|N].
  - exists [(lit "ceres-max-num-iterations", lit "8")]. intros H. apply (f_equal (fun x => match x with Ok o => c_iterations o | _ => 0%Z end)) in H.
    cbv - [c_iterations] in H. change (8 = c_iterations o0)%Z in H. lia.
  - exists [(lit "ceres-max-num-iterations", lit "7")]. intros H. apply (f_equal (fun x => match x with Ok o => c_iterations o | _ => 0%Z end)) in H.
    cbv - [c_iterations] in H. change (7 = c_iterations o0)%Z in H. lia.
Qed.
Print Assumptions C128_ceres_refuted.

(** A fit without arguments has the settings of the last fit that had some. *)
Theorem C128_without_arguments : forall atof l b, last_with l b ->
  ((forall c, In (With c) l -> exists q, quadprog_set_parameters atof c = Ok q) -> py_settings (quadprog_kind atof) l Without = py_settings (quadprog_kind atof) [] (With b)) /\
  ((forall c, In (With c) l -> exists q, eigen_set_parameters atof c = Ok q) -> py_settings (eigen_kind atof) l Without = py_settings (eigen_kind atof) [] (With b)) /\
  ((forall c, In (With c) l -> exists q, matlab_set_parameters atof c = Ok q) -> py_settings (matlab_kind atof) l Without = py_settings (matlab_kind atof) [] (With b)) /\
  py_settings leastsquare_kind l Without = py_settings leastsquare_kind [] (With b).
Proof.
  intros atof l b Hb. split; [|split; [|split]].
  - intros H. apply (stored_without (quadprog_set_parameters atof) l H). exact Hb.
  - intros H. apply (stored_without (eigen_set_parameters atof) l H). exact Hb.
  - intros H. apply (stored_without (matlab_set_parameters atof) l H). exact Hb.
  - apply leastsquare_without. exact Hb.
Qed.
Print Assumptions C128_without_arguments.

(** So the first fits of a script, when they have none, have sizes that nobody has
    set, except with the least squares fitter. *)
Theorem C128_unset_refuted : forall atof l, never_with l ->
  py_settings (quadprog_kind atof) l Without = Ok None /\ py_settings (eigen_kind atof) l Without = Ok None /\ py_settings (matlab_kind atof) l Without = Ok None /\
  py_settings leastsquare_kind l Without = Ok (10, 10, 1)%Z.
Proof.
  intros atof l H. assert (F : forall Q (f : arguments -> outcome Q) b, In (With b) l -> exists q, f b = Ok q) by (intros Q f b Hb; exfalso; eapply H; exact Hb).
  split; [|split; [|split]].
  - apply (stored_without (quadprog_set_parameters atof) l (F _ _)). exact H.
  - apply (stored_without (eigen_set_parameters atof) l (F _ _)). exact H.
  - apply (stored_without (matlab_set_parameters atof) l (F _ _)). exact H.
  - apply leastsquare_without. exact H.
Qed.
Print Assumptions C128_unset_refuted.

(** The three others remember nothing: only the arguments of the fit count. *)
Theorem C128_others : forall stod h a, (forall b, In (FitData b) h -> exists o, nlopt_settings stod b = Ok o) ->
  settings parallel_kind h a = Ok (parallel_settings a) /\ settings (nlopt_kind stod) h a = nlopt_settings stod a /\ settings ipopt_kind h a = Ok (ipopt_settings a).
Proof.
  intros stod h a H.
  assert (E : receive_all parallel_kind h tt = Ok tt /\ receive_all (nlopt_kind stod) h tt = Ok tt /\ receive_all ipopt_kind h tt = Ok tt).
  { clear a. induction h as [|c h IH]; [auto|]. destruct IH as (A & B & C); [intros b Hb; apply H; right; assumption|].
    destruct c as [b|b]; [auto|]. destruct (H b ltac:(left; reflexivity)) as [o Eo].
    split; [exact A|]. split; [|exact C]. cbn [receive_all receive nlopt_kind k_fit]. rewrite Eo. exact B. }
  destruct E as (A & B & C). unfold settings. change (k_new parallel_kind) with tt. change (k_new (nlopt_kind stod)) with tt. change (k_new ipopt_kind) with tt.
  rewrite A, B, C. split; [reflexivity|]. split; [|reflexivity]. cbn [bind nlopt_kind k_fit]. destruct (nlopt_settings stod a); reflexivity.
Qed.
Print Assumptions C128_others.

(** In a script these are the arguments that were given, or none. *)
Theorem C128_others_python : forall stod l, (forall b, In (With b) l -> exists o, nlopt_settings stod b = Ok o) -> (exists o, nlopt_settings stod [] = Ok o) ->
  (forall a, py_settings parallel_kind l (With a) = Ok (parallel_settings a) /\ py_settings (nlopt_kind stod) l (With a) = nlopt_settings stod a /\ py_settings ipopt_kind l (With a) = Ok (ipopt_settings a)) /\
  py_settings parallel_kind l Without = Ok (parallel_settings []) /\ py_settings (nlopt_kind stod) l Without = nlopt_settings stod [] /\ py_settings ipopt_kind l Without = Ok (ipopt_settings []).
Proof.
  intros stod l H H0.
  assert (F : forall f b, In (FitData b) (py_calls l ++ before f) -> exists o, nlopt_settings stod b = Ok o).
  { intros f b Hb. apply in_app_or in Hb. destruct Hb as [Hb|Hb]; [|destruct f; [destruct Hb as [Hb|[]]; discriminate|destruct Hb]].
    unfold py_calls in Hb. apply in_flat_map in Hb. destruct Hb as ([a|] & Hx & Hb); cbn in Hb.
    - destruct Hb as [Hb|[Hb|[]]]; [discriminate|]. injection Hb as <-. apply H. assumption.
    - destruct Hb as [Hb|[]]. injection Hb as <-. assumption. }
  split; [intros a; exact (C128_others stod _ a (F (With a)))|exact (C128_others stod _ [] (F Without))].
Qed.
Print Assumptions C128_others_python.

(** np = 5 given to a fit; the next fit, without arguments, of the least squares
    fitter has np = 5 as well. *)
Example C128_case : settings leastsquare_kind [FitData [(lit "np", lit "5")]] [] = Ok (5, 10, 1)%Z /\
  last_with [With [(lit "np", lit "5")]; Without] [(lit "np", lit "5")] /\ never_with [Without] /\
  py_settings leastsquare_kind [With [(lit "np", lit "5")]; Without] Without = Ok (5, 10, 1)%Z.
Proof.
  split; [reflexivity|]. split; [|split; [|reflexivity]].
  - exists [], [Without]. split; [reflexivity|]. intros c [C|[]]; discriminate.
  - intros c [C|[]]; discriminate.
Qed.
Example C128_case_sizes : forall atof, atof (c_str (lit "5")) = 5%R ->
  exists q, quadprog_set_parameters atof [(lit "np", lit "5")] = Ok q /\ q_max_np q = 5%Z /\
    settings (quadprog_kind atof) [SetParameters [(lit "np", lit "5")]] [(lit "np", lit "6")] = Ok (Some q).
Proof.
  intros atof H. eexists. split; [|split].
  - apply (quadprog_sizes atof _ 5 10 5 10).
    + left. exists (lit "5"). split; [reflexivity|]. split; [exact H|lia].
    + right. split; [intros [v C]; discriminate|reflexivity].
    + right. split; [intros [v C]; discriminate|reflexivity].
    + right. split; [intros [v C]; discriminate|reflexivity].
  - reflexivity.
  - pose proof (C128_quadprog atof [SetParameters [(lit "np", lit "5")]] [(lit "np", lit "6")]) as P.
    assert (Q : quadprog_set_parameters atof [(lit "np", lit "5")] = Ok (mkRanges 5 10 (Z.max 5 5) (Z.max 10 10))).
    { apply (quadprog_sizes atof _ 5 10 5 10); [left; exists (lit "5"); split; [reflexivity|split; [exact H|lia]]|right; split; [intros [v C]; discriminate|reflexivity]..]. }
    destruct P as [P _]; [intros b [Hb|[]]; injection Hb as <-; eexists; exact Q|].
    destruct (P [(lit "np", lit "5")]) as (q & Eq & Es); [exists [], []; split; [reflexivity|split; [exact I|intros c []]]|].
    rewrite Es. f_equal. f_equal. congruence.
Qed.

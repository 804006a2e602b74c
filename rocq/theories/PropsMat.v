(** Property C127. *)
From Coq Require Import Reals List ZArith Arith Lia Lra.
From Coq Require ClassicalEpsilon.
From Verif Require Import Base Num ParamsModel GeoModel ArgsModel DataModel TextModel FuncModel MonoModel FuncFile RatModel RatSpec QuadModel QuadSpec ToolSpec OptModel OptSpec OptProofs MatModel MatSpec MatProofs MatProofs2 MatProofs3 MatProofs4.
Import ListNotations.
Open Scope R_scope.

(** With a solver that always answers and flags what is not a solution, a fit
    passes strictly inside every interval of every channel, and a failure of the
    fit means that with none of the sizes tried this is possible. *)
Theorem C127_fit : forall junk quadprog qpas ratio z mn mx channels fuel f e,
  reliable quadprog -> (0 < f_dimX f)%nat -> length mn = f_dimX f -> length mx = f_dimX f -> (length channels <= f_dimY f)%nat ->
  Forall (positions_ok (f_dimX f)) channels -> Forall (fun ss => ss <> []) channels -> (0 < z_min_np z)%nat -> (0 < z_min_nq z)%nat -> (length (tried z) < fuel)%nat ->
  exists b f' e', mat_fit junk quadprog qpas ratio true true z mn mx channels fuel f e = Ok (Some (b, f', e')) /\
    (b = true -> In (f_np f', f_nq f') (tried z) /\ f_dimX f' = f_dimX f /\ f_dimY f' = f_dimY f /\ f_min f' = mn /\ f_max f' = mx /\
       forall j ss, nth_error channels j = Some ss -> exists r, channel_of f' j r /\ Forall (passes r) ss) /\
    (b = false -> (forall A, ratio A <> None) -> complete_flag quadprog -> forall np nq, In (np, nq) (tried z) ->
       exists lo hi ss, widened (1 / 10) mn mx lo hi /\ In ss channels /\
         ~ exists a c, length a = np /\ length c = nq /\ Forall (interpolates (f_dimX f) lo hi a c) ss).
Proof. exact mat_fit_reliable. Qed.
Print Assumptions C127_fit.

(** Whatever the solver and the session: the sizes are tried in order until a fit
    succeeds, and the search ends. *)
Theorem C127_search : forall junk quadprog qpas ratio use_matlab z mn mx channels fuel f e, (length (tried z) < fuel)%nat ->
  mat_fit junk quadprog qpas ratio true use_matlab z mn mx channels fuel f e =
  (do b <- first_success (fun np nq fe => do b <- mat_attempt junk quadprog qpas ratio use_matlab channels np nq (fst fe) (snd fe);
                                          let '(ok, f, e) := b in Ok (ok, (f, e)))
             (tried z) (set_max (set_min f mn) mx, e);
   Ok (Some (fst b, fst (snd b), snd (snd b)))).
Proof.
  intros. apply mat_fit_sizes. rewrite tried_pairs, map_length, seq_length in H. exact H.
Qed.
Print Assumptions C127_search.

(** The sizes tried exceed the ones that were asked for by one at most, ... *)
Theorem C127_sizes : forall z np nq, In (np, nq) (tried z) ->
  (z_min_np z <= np <= Nat.max (z_min_np z) (S (z_max_np z)))%nat /\ (z_min_nq z <= nq <= Nat.max (z_min_nq z) (S (z_max_nq z)))%nat.
Proof. exact tried_range. Qed.
Print Assumptions C127_sizes.

(** ... and they do exceed it when there are fewer sizes for the numerator than
    for the denominator. *)
Theorem C127_sizes_refuted : forall z, (z_min_np z <= z_max_np z)%nat ->
  (exists np nq, In (np, nq) (tried z) /\ (z_max_np z < np)%nat) <->
  (z_max_np z - z_min_np z < z_max_nq z - z_min_nq z)%nat.
Proof.
  intros z H. rewrite tried_beyond by assumption. unfold width. lia.
Qed.
Print Assumptions C127_sizes_refuted.

(** The sizes come from the options: 10 by default, and the smallest is the largest
    when it is not given. *)
Theorem C127_options : forall atof a np nq min_np min_nq,
  asked atof a (lit "np") 10 np -> asked atof a (lit "nq") 10 nq -> asked atof a (lit "min-np") np min_np -> asked atof a (lit "min-nq") nq min_nq ->
  exists q um, matlab_set_parameters atof a = Ok (q, um) /\ q = mkRanges min_np min_nq np nq /\ (um = true <-> ~ given a (lit "use-qpas")).
Proof.
  intros atof a np nq mp mq A B C D. eexists _, _. split; [eapply matlab_sizes; eassumption|]. split; [reflexivity|].
  unfold given, is_defined. destruct (map_find _ a) as [t|]; cbn [negb]; split; try reflexivity; try discriminate.
  - intros N. exfalso. apply N. exists t. reflexivity.
  - intros _ [v H]. discriminate.
Qed.
Print Assumptions C127_options.

(** A range whose smallest size is above the largest is not put right, as the other
    fitters do: when both are, the fit fails and nothing was tried. *)
Theorem C127_empty_ranges_refuted : forall junk quadprog qpas ratio um z mn mx channels fuel f e,
  (z_max_np z < z_min_np z)%nat -> (z_max_nq z < z_min_nq z)%nat -> (0 < fuel)%nat ->
  mat_fit junk quadprog qpas ratio true um z mn mx channels fuel f e = Ok (Some (false, set_max (set_min f mn) mx, e)).
Proof.
  intros junk quadprog qpas ratio um z mn mx channels fuel f e H1 H2 Hf. unfold mat_fit. destruct fuel as [|fuel]; [lia|].
  cbn [mat_sizes]. apply Nat.leb_gt in H1, H2. rewrite H1, H2. reflexivity.
Qed.
Print Assumptions C127_empty_ranges_refuted.

(** A fit that is not accepted (no rational function, no data with asymmetric intervals,
    no session) fails and leaves the function and the session as they were. *)
Theorem C127_not_accepted : forall junk quadprog qpas ratio um z mn mx channels fuel f e,
  mat_fit junk quadprog qpas ratio false um z mn mx channels fuel f e = Ok (Some (false, f, e)).
Proof. reflexivity. Qed.
Print Assumptions C127_not_accepted.

(** The session holds the last answer there was. *)
Theorem C127_session : forall quadprog qpas problems e,
  let answers := map (fun p : nat * list (list R) * list R => let '(n, A, b) := p in quadprog n A b) problems in
  let e' := fold_left (fun e p => let '(n, A, b) := p in evaluate quadprog qpas true n A b e) problems e in
  e_x e' = last_answer (map (option_map fst) answers) (e_x e) /\
  e_flag e' = last_answer (map (option_map snd) answers) (e_flag e).
Proof. exact memory. Qed.
Print Assumptions C127_session.

(** When the solver stops on an error, that answer is taken for the answer to the
    new problem: it fails if it was flagged, is read beyond its end if it has too
    few numbers, and otherwise its numbers become the coefficients, whatever the
    data. *)
Theorem C127_error : forall junk quadprog qpas ratio np nq x v err r ss,
  (forall A b, quadprog (np + nq)%nat A b = None) -> (forall A, ratio A <> None) ->
  well_formed r -> length (r_p r) = np -> length (r_q r) = nq -> (0 < nq)%nat -> positions_ok (r_dim r) ss -> ss <> [] ->
  let e := mkEngine (Some x) (Some v) err in
  (v < 0 -> mat_1d junk quadprog qpas ratio true np nq e r ss = Ok (false, r, e)) /\
  (0 <= v -> (length x < np + nq)%nat -> mat_1d junk quadprog qpas ratio true np nq e r ss = UB) /\
  (0 <= v -> forall a c rest, x = a ++ c ++ rest -> length a = np -> length c = nq ->
     exists r', update junk r a c = Ok r' /\ mat_1d junk quadprog qpas ratio true np nq e r ss = Ok (true, r', e)).
Proof. exact error_reuses. Qed.
Print Assumptions C127_error.

(** In a new session, where there is no answer, the fit fails. *)
Theorem C127_error_in_new_session : forall junk quadprog qpas ratio use_matlab np nq r ss,
  (forall A b, quadprog (np + nq)%nat A b = None) -> (forall A b, qpas (np + nq)%nat A b = None) ->
  well_formed r -> length (r_p r) = np -> length (r_q r) = nq -> (0 < nq)%nat -> positions_ok (r_dim r) ss -> ss <> [] ->
  mat_1d junk quadprog qpas ratio use_matlab np nq new_engine r ss = Ok (false, r, new_engine).
Proof. intros. apply no_memory_fails; assumption. Qed.
Print Assumptions C127_error_in_new_session.

(** So with a solver whose answers are right but that stops on an error for the
    second channel, a fit is reported that misses the second channel. *)
Theorem C127_error_refuted : exists quadprog ratio channels f, sound_above (fun v => 0 <= v) quadprog /\ forall junk qpas,
  exists f' e', mat_attempt junk quadprog qpas ratio true channels 1 1 f new_engine = Ok (true, f', e') /\
    exists r ss, nth_error channels 1 = Some ss /\ channel_of f' 1 r /\ ~ Forall (passes r) ss.
Proof.
  exists answers_one, (fun _ => Some 1), [ss1; ss2], one_rf. split; [exact answers_one_sound|]. intros junk qpas.
  destruct (stale_answer junk qpas) as (f' & e' & E & r & C & H). exists f', e'. split; [exact E|]. exists r, ss2. auto.
Qed.
Print Assumptions C127_error_refuted.

(** A solver that ran out of iterations (flag 0) is believed. *)
Theorem C127_unfinished_refuted : exists quadprog ratio channels f, sound_above (fun v => 0 < v) quadprog /\ forall junk qpas,
  exists f' e', mat_attempt junk quadprog qpas ratio true channels 1 1 f new_engine = Ok (true, f', e') /\
    exists r ss, nth_error channels 0 = Some ss /\ channel_of f' 0 r /\ ~ Forall (passes r) ss.
Proof.
  exists gives_up, (fun _ => Some 1), [ss1], one_rf. split; [exact gives_up_sound|]. intros junk qpas.
  destruct (unfinished_accepted junk qpas) as (f' & e' & E & r & C & H). exists f', e'. split; [exact E|]. exists r, ss1. auto.
Qed.
Print Assumptions C127_unfinished_refuted.

(** With --use-qpas no error of the solver is ever reported: every fit is a
    success, whatever the data and the error number. *)
Theorem C127_qpas_refuted : forall junk quadprog qpas ratio channels np nq f e,
  (forall n A b, exists x err, qpas n A b = Some (x, err) /\ length x = n) -> (forall A, ratio A <> None) ->
  (0 < f_dimX f)%nat -> length (f_min f) = f_dimX f -> length (f_max f) = f_dimX f -> (length channels <= f_dimY f)%nat -> (0 < nq)%nat ->
  Forall (positions_ok (f_dimX f)) channels -> Forall (fun ss => ss <> []) channels ->
  exists f' e', mat_attempt junk quadprog qpas ratio false channels np nq f e = Ok (true, f', e').
Proof. intros. apply qpas_attempt; try assumption. split; [assumption|split; assumption]. Qed.
Print Assumptions C127_qpas_refuted.

(** Data without samples stop the program. *)
Example C127_no_samples : forall junk quadprog qpas ratio um np nq e r, mat_1d junk quadprog qpas ratio um np nq e r [] = Abort.
Proof. intros. apply mat_1d_empty. Qed.

(** np = 10 in both, denominators from 8: 11 coefficients in the numerator. *)
Example C127_case_sizes : tried (mkSizes 10 8 10 10) = [(10, 8); (11, 9); (11, 10)]%nat /\
  tried (mkSizes 2 2 4 4) = [(2, 2); (3, 3); (4, 4)]%nat.
Proof. split; reflexivity. Qed.

(** A reliable and complete solver exists: it answers with a solution when there
    is one. *)
Example C127_case : exists solver, reliable solver /\ complete_flag solver.
Proof.
  exists (fun n A b => match ClassicalEpsilon.excluded_middle_informative (exists x, length x = n /\ satisfies A b x) with
    | left H => Some (proj1_sig (ClassicalEpsilon.constructive_indefinite_description _ H), 1)
    | right _ => Some ([], -2) end).
  split.
  - intros n A b _. destruct (ClassicalEpsilon.excluded_middle_informative _) as [H|H]; do 2 eexists; (split; [reflexivity|]).
    + intros _. destruct (ClassicalEpsilon.constructive_indefinite_description _ H) as [x Hx]. exact Hx.
    + intros; lra.
  - intros n A b x v y _. destruct (ClassicalEpsilon.excluded_middle_informative _) as [H|H]; intros E; injection E as _ <-; [intros; lra|].
    intros _ Hy C. apply H. exists y. auto.
Qed.

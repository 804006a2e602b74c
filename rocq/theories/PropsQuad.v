(** Interval fitting of rational functions: C46-C49, C62, C63. *)
From Coq Require Import Reals List Arith Lia Lra Permutation.
From Coq Require ClassicalEpsilon.
From Verif Require Import Base Num ParamsModel GeoModel ArgsModel DataModel TextModel FuncModel MonoModel FuncFile RatModel RatSpec RatProofs QuadModel QuadSpec QuadProofs QuadFit QuadSizes QuadPar QuadSearch QuadSched.
From Verif Require TextProofs.
Import ListNotations.
Open Scope R_scope.

(** ** C46: each sample has its own two constraints *)
(** For every number of samples there is a permutation [ks] of their ranks such
    that sample i owns columns 2 ks(i) and 2 ks(i) + 1; for coefficients a, b the
    columns are p(x) - yu q(x) and yl q(x) - p(x), and the right hand sides are minus
    their norms. *)
Theorem C46_constraints np nq r ss : well_formed r -> length (r_p r) = np -> length (r_q r) = nq -> positions_ok (r_dim r) ss ->
  exists CI ci ks, fill np nq (length ss) r ss 0 1 (repeat (repeat 0 (np + nq)) (2 * length ss)) (repeat 0 (2 * length ss)) = Ok (CI, ci) /\
    length CI = (2 * length ss)%nat /\ length ci = (2 * length ss)%nat /\ Permutation ks (seq 0 (length ss)) /\
    forall i s k, nth_error ss i = Some s -> nth_error ks i = Some k -> exists cu cl,
      nth_error CI (2 * k) = Some cu /\ nth_error CI (2 * k + 1) = Some cl /\ length cu = (np + nq)%nat /\ length cl = (np + nq)%nat /\
      nth_error ci (2 * k) = Some (- sqrt (dot cu cu)) /\ nth_error ci (2 * k + 1) = Some (- sqrt (dot cl cl)) /\
      forall a b, length a = np -> length b = nq ->
        let p := polynomial (r_dim r) (r_min r) (r_max r) a (position s) in
        let q := polynomial (r_dim r) (r_min r) (r_max r) b (position s) in
        dot cu (a ++ b) = p - upper s * q /\ dot cl (a ++ b) = lower s * q - p.
Proof.
  intros W Lp Lq HP. destruct (fill_spec np nq r ss (repeat (repeat 0 (np + nq)) (2 * length ss)) (repeat 0 (2 * length ss))) as (CI & ci & ks & E & A & B & P & H).
  - intros s Hs. unfold positions_ok in HP. rewrite Forall_forall in HP. rewrite constraint_spec by auto. eauto.
  - apply repeat_length.
  - apply repeat_length.
  - exists CI, ci, ks. repeat (split; [assumption|]). intros i s k Es Ek. destruct (H i s k Es Ek) as (cu & cl & Ec & N1 & N2 & M1 & M2).
    unfold positions_ok in HP. rewrite Forall_forall in HP. rewrite constraint_spec in Ec by (auto; apply HP; eapply nth_error_In; eassumption). injection Ec as <- <-.
    exists (upper_row r np nq s), (lower_row r np nq s). rewrite norm2_dot in M1, M2. repeat (split; [first [assumption|apply upper_row_length|apply lower_row_length]|]).
    intros a b <- <-. cbn zeta. split; [apply upper_row_dot|apply lower_row_dot].
Qed.
Print Assumptions C46_constraints.

(** ** C47: a fit passes strictly inside every interval *)
Theorem C47_fit_interpolates junk solver delta channels np nq f f' : sound solver -> 0 < delta -> (0 < f_dimX f)%nat -> length (f_min f) = f_dimX f -> length (f_max f) = f_dimX f ->
  (length channels <= f_dimY f)%nat -> (0 < np)%nat -> (0 < nq)%nat -> Forall (positions_ok (f_dimX f)) channels ->
  attempt junk solver delta channels np nq f = Ok (true, f') ->
  f_dimX f' = f_dimX f /\ f_dimY f' = f_dimY f /\ f_min f' = f_min f /\ f_max f' = f_max f /\ f_np f' = np /\ f_nq f' = nq /\
  forall j ss, nth_error channels j = Some ss -> exists r, channel_of f' j r /\ Forall (passes r) ss.
Proof. intros Hs Hd A B C. apply attempt_true; try assumption. split; [assumption|split; assumption]. Qed.
Print Assumptions C47_fit_interpolates.

(** With a solver that finds a solution when there is one, an attempt fails only
    if some channel cannot be interpolated with these sizes. *)
Theorem C47_failure_means_impossible junk solver delta channels np nq f f' : sound solver -> complete solver -> 0 < delta ->
  (0 < f_dimX f)%nat -> length (f_min f) = f_dimX f -> length (f_max f) = f_dimX f ->
  (length channels <= f_dimY f)%nat -> (0 < np)%nat -> (0 < nq)%nat -> Forall (positions_ok (f_dimX f)) channels -> Forall (fun ss => ss <> []) channels ->
  attempt junk solver delta channels np nq f = Ok (false, f') ->
  exists mn mx ss, widened (1 / 10) (f_min f) (f_max f) mn mx /\ In ss channels /\
    ~ exists a b, length a = np /\ length b = nq /\ Forall (interpolates (f_dimX f) mn mx a b) ss.
Proof. intros Hs Hc Hd A B C. apply attempt_false; try assumption. split; [assumption|split; assumption]. Qed.
Print Assumptions C47_failure_means_impossible.

(** An attempt always gives an answer, whatever delta is. *)
Theorem C47_always_answers junk solver delta channels np nq f : sound solver -> (0 < f_dimX f)%nat -> length (f_min f) = f_dimX f -> length (f_max f) = f_dimX f ->
  (length channels <= f_dimY f)%nat -> (0 < nq)%nat -> Forall (positions_ok (f_dimX f)) channels ->
  exists b f', attempt junk solver delta channels np nq f = Ok (b, f').
Proof. intros Hs A B C. apply attempt_total; try assumption. split; [assumption|split; assumption]. Qed.
Print Assumptions C47_always_answers.

(** Without a positive delta the zero vector is the solution and one channel
    is never fitted. *)
Theorem C47_no_fit_without_margin junk solver delta np nq r ss : sound solver -> least_norm solver -> delta <= 0 -> well_formed r -> length (r_p r) = np -> length (r_q r) = nq ->
  (0 < nq)%nat -> positions_ok (r_dim r) ss -> exists r', fit_1d junk solver delta np nq r ss = Ok (false, r').
Proof. intros Hs. apply fit_1d_no_margin; assumption. Qed.
Print Assumptions C47_no_fit_without_margin.

(** Refuted: "data and function may have different numbers of outputs".  With more
    outputs in the data than in the function the fitter follows a null pointer. *)
Lemma fit_channels_app junk fit1 np nq : forall c1 c2 j f, fit_channels junk fit1 np nq j (c1 ++ c2) f =
  (do u <- fit_channels junk fit1 np nq j c1 f; if fst u then fit_channels junk fit1 np nq (j + length c1) c2 (snd u) else Ok u).
Proof.
  induction c1 as [|ss c1 IH]; intros c2 j f; cbn [app fit_channels length].
  - cbn [bind fst snd]. rewrite Nat.add_0_r. reflexivity.
  - destruct (get junk f j) as [[[r|] f1]| | |]; try reflexivity. cbn [bind]. destruct (fit1 _ ss) as [[b r']| | |]; try reflexivity. cbn [bind fst snd].
    destruct b; [|reflexivity]. rewrite IH. replace (S j + length c1)%nat with (j + S (length c1))%nat by lia. reflexivity.
Qed.
Theorem C47_more_outputs_refuted junk solver delta channels ss more np nq f f' : sound solver -> (0 < f_dimX f)%nat -> length (f_min f) = f_dimX f -> length (f_max f) = f_dimX f ->
  length channels = f_dimY f -> attempt junk solver delta channels np nq f = Ok (true, f') ->
  attempt junk solver delta (channels ++ ss :: more) np nq f = UB.
Proof.
  intros Hs A B C HL H. unfold attempt. rewrite fit_channels_app. unfold attempt in H. rewrite H. cbn [bind fst snd].
  assert (HY : f_dimY f' = f_dimY f).
  { fold (attempt junk solver delta channels np nq f) in H. rewrite attempt_spec in H; [|split; [assumption|split; assumption]|lia].
    destruct (fits _ _ _) as [[b us]| | |]; try discriminate. cbn [bind fst snd] in H. injection H as _ <-. reflexivity. }
  cbn [fit_channels Nat.add]. unfold get. rewrite HY, HL, Nat.ltb_irrefl. reflexivity.
Qed.
Print Assumptions C47_more_outputs_refuted.

(** ** C48: the search over the sizes *)
Theorem C48_search junk solver delta z mn mx channels fuel f : sound solver -> (0 < f_dimX f)%nat -> length mn = f_dimX f -> length mx = f_dimX f -> (length channels <= f_dimY f)%nat ->
  Forall (positions_ok (f_dimX f)) channels -> sizes_ok z -> (last_size z < fuel)%nat ->
  let f0 := set_max (set_min f mn) mx in
  exists b f', fit_data junk solver delta z mn mx channels fuel f = Ok (Some (b, f')) /\
    if b then exists k, (k <= last_size z)%nat /\ attempt junk solver delta channels (nth_np z k) (nth_nq z k) f0 = Ok (true, f') /\
                forall i, (i < k)%nat -> exists g, attempt junk solver delta channels (nth_np z i) (nth_nq z i) f0 = Ok (false, g)
    else forall i, (i <= last_size z)%nat -> exists g, attempt junk solver delta channels (nth_np z i) (nth_nq z i) f0 = Ok (false, g).
Proof. apply fit_data_spec. Qed.
Print Assumptions C48_search.
(** The options always give a range of sizes. *)
Theorem C48_options np nq min_np min_nq : (forall n, np = Some n -> (0 < n)%nat) -> (forall n, nq = Some n -> (0 < n)%nat) -> (forall n, min_np = Some n -> (0 < n)%nat) -> (forall n, min_nq = Some n -> (0 < n)%nat) ->
  let z := set_parameters np nq min_np min_nq in
  sizes_ok z /\ (min_np = None -> z_min_np z = z_max_np z) /\ (min_nq = None -> z_min_nq z = z_max_nq z) /\
  (forall n, np = Some n -> (n <= z_max_np z)%nat) /\ (forall n, nq = Some n -> (n <= z_max_nq z)%nat) /\
  (forall n, min_np = Some n -> z_min_np z = n) /\ (forall n, min_nq = Some n -> z_min_nq z = n).
Proof.
  intros A B C D. assert (KA : forall v, (0 < v)%nat -> (0 < match np with Some n => n | None => v end)%nat) by (intros; destruct np; auto).
  assert (KB : forall v, (0 < v)%nat -> (0 < match nq with Some n => n | None => v end)%nat) by (intros; destruct nq; auto).
  assert (KC : forall v, (0 < v)%nat -> (0 < match min_np with Some n => n | None => v end)%nat) by (intros; destruct min_np; auto).
  assert (KD : forall v, (0 < v)%nat -> (0 < match min_nq with Some n => n | None => v end)%nat) by (intros; destruct min_nq; auto).
  cbn zeta. unfold set_parameters, sizes_ok. cbn [z_min_np z_min_nq z_max_np z_max_nq].
  specialize (KA 10%nat ltac:(lia)). specialize (KB 10%nat ltac:(lia)). specialize (KC _ KA). specialize (KD _ KB).
  split; [split; lia|]. split; [intros ->; lia|]. split; [intros ->; lia|]. split; [intros n ->; lia|]. split; [intros n ->; lia|]. split; intros n ->; reflexivity.
Qed.
Print Assumptions C48_options.

(** ** C49: adding the samples one by one *)
(** One round: nothing is violated, or the sample with the largest violation moves
    from the training set to the constraints. *)
Theorem C49_one_round np nq r CI pool : well_formed r -> length (r_p r) = np -> length (r_q r) = nq -> positions_ok (r_dim r) pool -> Forall ordered pool ->
  (test_constraints np nq r CI pool = Ok None /\ Forall (fun s => within r s \/ undefined r s) pool) \/
  (exists s d cu cl pool', Permutation (s :: pool') pool /\ misses r s d /\ (forall s' d', In s' pool -> misses r s' d' -> dev_le d' d) /\
     constraint np nq r s = Ok (cu, cl) /\ test_constraints np nq r CI pool = Ok (Some (CI ++ [cu; cl], pool'))).
Proof. apply test_constraints_worst. Qed.
Print Assumptions C49_one_round.

(** The whole loop: it ends after at most one program per sample that is not in
    the start set (every [stride]-th sample), plus one.  Success: the samples used as
    constraints are passed strictly, the others are within their interval or the
    function is 0/0 there.  Failure: no coefficients interpolate, or every remaining
    sample has been moved to the constraints one after the other. *)
Theorem C49_loop junk solver cond use_delta np nq r ss delta fuel : sound solver -> (0 < np)%nat -> (0 < nq)%nat -> well_formed r -> length (r_p r) = np -> length (r_q r) = nq ->
  positions_ok (r_dim r) ss -> Forall ordered ss -> ss <> [] -> (length ss < fuel)%nat -> 0 < delta -> (use_delta = true -> forall CI, 0 < cond CI) ->
  exists b r' delta' solved, parallel_1d junk solver cond use_delta fuel np nq r ss delta = Ok (Some (b, r', delta', solved)) /\
    let start := every (stride (length ss)) 0 ss in
    let pool := others (stride (length ss)) 0 ss in
    (0 < solved <= S (length pool))%nat /\ r_dim r' = r_dim r /\ r_min r' = r_min r /\ r_max r' = r_max r /\ length (r_p r') = np /\ length (r_q r') = nq /\
    if b then exists added rest, Permutation ((start ++ added) ++ rest) ss /\ S (length added) = solved /\
                Forall (passes r') (start ++ added) /\ Forall (fun s => within r' s \/ undefined r' s) rest
    else (complete solver -> ~ exists a b, length a = np /\ length b = nq /\ Forall (interpolates (r_dim r) (r_min r) (r_max r) a b) ss) \/
         (0 < length pool /\ solved = length pool)%nat.
Proof.
  intros Hs Hnp Hnq W Lp Lq HP HO Hne Hfu Hdel Hcond.
  destruct (parallel_1d_spec junk solver cond Hs use_delta np nq r ss delta fuel Hnp Hnq W Lp Lq HP HO Hne Hfu Hdel Hcond) as (b & r' & d & s & E & A & B & C & (D1 & D2 & D3) & F & G & _ & H).
  exists b, r', d, s. split; [exact E|]. cbn zeta. split; [exact A|]. repeat (split; [assumption|]). exact H.
Qed.
Print Assumptions C49_loop.
(** Up to 198 samples all of them are constraints from the start. *)
Theorem C49_small_data (ss : list sample) : (length ss <= 198)%nat -> every (stride (length ss)) 0 ss = ss /\ others (stride (length ss)) 0 ss = [].
Proof.
  intros H. assert (E : stride (length ss) = 1%nat).
  { unfold stride, nb_starting_points. change (100 - 1)%nat with 99%nat. assert ((length ss - 1) / 99 < 2)%nat by (apply Nat.div_lt_upper_bound; lia). lia. }
  rewrite E. split; [|apply others_nil]. assert (K : forall l i, every 1 i l = (l : list sample)); [|apply K].
  clear. induction l as [|s l IH]; intros i; cbn [every]; [reflexivity|]. rewrite Nat.mod_1_r. cbn [Nat.eqb]. rewrite IH. reflexivity.
Qed.
Print Assumptions C49_small_data.
(** Refuted: "failure means that the samples cannot be interpolated".  The program
    with the constraints of all the samples is never solved: when the last sample
    left is violated, the answer is no, whether or not that program has a solution. *)
Theorem C49_last_sample_refuted junk solver cond fuel np nq r CI s delta solved x r' : forall m, length CI = (2 * m)%nat ->
  sound solver -> Forall (fun col => length col = (np + nq)%nat) CI -> well_formed r -> length (r_p r) = np -> length (r_q r) = nq -> length (position s) = r_dim r -> ordered s ->
  solver (np + nq)%nat CI (List.map (fun c => - delta * sqrt (norm2 c)) CI) = Some x -> 0 < norm2 x ->
  update junk r (firstn np x) (skipn np x) = Ok r' -> (exists d, misses r' s d) ->
  qp_loop junk solver cond (S fuel) false np nq (S m) r CI [s] delta solved = Ok (Some (false, r', delta, S solved)).
Proof. apply last_not_solved. Qed.
Print Assumptions C49_last_sample_refuted.
(** Refuted: "the function has a value at every sample": 0/0 is accepted. *)
Theorem C49_undefined_accepted_refuted np nq r CI s : well_formed r -> length (position s) = r_dim r -> undefined r s -> test_constraints np nq r CI [s] = Ok None.
Proof. apply test_undefined. Qed.
Print Assumptions C49_undefined_accepted_refuted.
(** Refuted: without [ordered].  With the bounds of a sample exchanged and a value
    in the middle, an iterator that was never set is erased. *)
Theorem C49_exchanged_bounds_refuted np nq r CI s : well_formed r -> length (position s) = r_dim r -> upper s < lower s ->
  polynomial (r_dim r) (r_min r) (r_max r) (getQ r) (position s) <> 0 -> value1 r (position s) = Ok ((lower s + upper s) / 2) ->
  test_constraints np nq r CI [s] = UB.
Proof. apply test_inverted. Qed.
Print Assumptions C49_exchanged_bounds_refuted.

(** ** C62: the parallel search over the sizes *)
(** What every iteration computes. *)
Theorem C62_iteration junk solver cond distance use_delta channels f i j : sound solver -> (0 < j < i)%nat -> (0 < f_dimX f)%nat -> length (f_min f) = f_dimX f -> length (f_max f) = f_dimX f ->
  (length channels <= f_dimY f)%nat -> (use_delta = true -> forall CI, 0 < cond CI) ->
  Forall (positions_ok (f_dimX f)) channels -> Forall (Forall ordered) channels -> Forall (fun ss => ss <> []) channels ->
  exists c, candidate junk solver cond distance use_delta channels f i j = Ok c /\
    (forall g, fitted c g -> f_dimX g = f_dimX f /\ f_dimY g = f_dimY f /\ f_np g = (i - j)%nat /\ f_nq g = j /\
       forall k ss, nth_error channels k = Some ss -> exists r, channel_of g k r /\ Forall (fun s => passes r s \/ within r s \/ undefined r s) ss) /\
    (c = None -> complete solver -> exists mn mx ss, widened (1 / 10) (f_min f) (f_max f) mn mx /\ In ss channels /\
       (~ (exists a b, length a = (i - j)%nat /\ length b = j /\ Forall (interpolates (f_dimX f) mn mx a b) ss) \/ (198 < length ss)%nat)).
Proof. intros Hs Hj A B C. apply candidate_total; try assumption. split; [assumption|split; assumption]. Qed.
Print Assumptions C62_iteration.

(** For every schedule: the first size for which an iteration found a fit wins, and
    the function is one of the fits of that size with the smallest distance (with
    --use_delta, the smallest delta). *)
Theorem C62_best_fit junk solver cond distance use_delta channels f order step max_n i fuel :
  (forall i j, (0 < j < i)%nat -> exists c, candidate junk solver cond distance use_delta channels f i j = Ok c) ->
  schedule order -> (0 < step)%nat -> (S max_n - i < fuel)%nat ->
  let results n cs := Forall2 (fun j c => candidate junk solver cond distance use_delta channels f n j = Ok c) (seq 1 (n - 1)) cs in
  exists b g, search junk solver cond distance use_delta channels order fuel i max_n step f = Ok (Some (b, g)) /\
    if b then exists k cs, (i + k * step <= max_n)%nat /\ results (i + k * step)%nat cs /\ best_of use_delta cs g /\
                forall k' cs', (k' < k)%nat -> results (i + k' * step)%nat cs' -> none_of use_delta cs'
    else g = f /\ forall k cs, (i + k * step <= max_n)%nat -> results (i + k * step)%nat cs -> none_of use_delta cs.
Proof. intros Hok Hs Hst Hfu results. exact (search_spec junk solver cond distance use_delta channels f Hok order step max_n Hs Hst (S max_n - i) i fuel (le_n _) Hfu). Qed.
Print Assumptions C62_best_fit.

(** Two schedules give the same answer, and the same function unless two fits have
    equal distances. *)
Theorem C62_schedule junk solver cond distance use_delta channels f order order' step max_n i fuel :
  (forall i j, (0 < j < i)%nat -> exists c, candidate junk solver cond distance use_delta channels f i j = Ok c) ->
  schedule order -> schedule order' -> (0 < step)%nat -> (S max_n - i < fuel)%nat ->
  exists b g g', search junk solver cond distance use_delta channels order fuel i max_n step f = Ok (Some (b, g)) /\
    search junk solver cond distance use_delta channels order' fuel i max_n step f = Ok (Some (b, g')) /\
    ((forall n cs, Forall2 (fun j c => candidate junk solver cond distance use_delta channels f n j = Ok c) (seq 1 (n - 1)) cs -> no_ties use_delta cs) -> g = g').
Proof. intros Hok. exact (search_schedule junk solver cond distance use_delta channels f Hok order order' step max_n i fuel). Qed.
Print Assumptions C62_schedule.

(** --np-step 0: when nothing is found for the first size, the search never ends. *)
Theorem C62_step_zero_refuted junk solver cond distance use_delta channels f order i max_n cs : 
  schedule order -> (i <= max_n)%nat -> Forall2 (fun j c => candidate junk solver cond distance use_delta channels f i j = Ok c) (seq 1 (i - 1)) cs -> none_of use_delta cs ->
  forall fuel, search junk solver cond distance use_delta channels order fuel i max_n 0 f = Ok None.
Proof. apply search_stuck. Qed.
Print Assumptions C62_step_zero_refuted.

(** With ties the schedule decides. *)
Theorem C62_ties_refuted d l g g' f : g <> g' -> 
  n_best (critical false (critical false (mkFound None None f) (d, Some l, g)) (d, Some l, g')) <>
  n_best (critical false (critical false (mkFound None None f) (d, Some l, g')) (d, Some l, g)).
Proof.
  intros H. cbn. assert (E : rltb l l = false) by (apply rltb_false; lra). rewrite E. cbn. assumption.
Qed.
Print Assumptions C62_ties_refuted.

(** ** C63: the automatic conversion of data without intervals *)
(** What is stored at every entry of the converted array ([None]: uninitialised).
    The samples are written one entry apart instead of one record apart. *)
Theorem C63_stored dx dy dt xs : Forall (fun x => length x = (dx + dy)%nat) xs -> (0 < dx + 3 * dy)%nat ->
  exists l, convert dx dy dt xs = Ok l /\ length l = (length xs * (dx + 3 * dy))%nat /\
    forall j, (j < length xs * (dx + 3 * dy))%nat -> nth_error l j =
      let n := Nat.min j (length xs - 1) in Some (match nth_error xs n with Some x => nth_error (record dx dt x) (j - n) | None => None end).
Proof. apply convert_spec. Qed.
Print Assumptions C63_stored.
(** A single sample is converted. *)
Theorem C63_one_sample dx dy dt x : length x = (dx + dy)%nat -> (0 < dx + 3 * dy)%nat -> convert dx dy dt [x] = Ok (map Some (record dx dt x)).
Proof.
  intros Hx He. destruct (convert_spec dx dy dt [x]) as (l & E & L & N); [constructor; [assumption|constructor]|assumption|]. rewrite E. f_equal.
  cbn [length] in L, N. rewrite Nat.mul_1_l in L, N. apply nth_error_ext. intros j. destruct (le_lt_dec (dx + 3 * dy) j) as [Hj|Hj].
  - rewrite !(proj2 (nth_error_None _ _)); [reflexivity|rewrite map_length, (record_length dx dy) by assumption; lia|lia].
  - rewrite N by assumption. cbn zeta. rewrite Nat.min_0_r. cbn [nth_error]. rewrite Nat.sub_0_r, nth_error_map.
    destruct (nth_error (record dx dt x) j) as [t|] eqn:Et; [reflexivity|]. apply nth_error_None in Et. rewrite (record_length dx dy) in Et by assumption. lia.
Qed.
Print Assumptions C63_one_sample.
(** Refuted: with two samples or more the last upper bound is never written, so the
    converted data always contain uninitialised values. *)
Theorem C63_several_samples_refuted dx dy dt xs : Forall (fun x => length x = (dx + dy)%nat) xs -> (0 < dx)%nat -> (0 < dy)%nat -> (2 <= length xs)%nat ->
  exists l, convert dx dy dt xs = Ok l /\ nth_error l (length xs * (dx + 3 * dy) - 1) = Some None.
Proof.
  intros HF Hdx Hdy Hn. destruct (convert_spec dx dy dt xs HF) as (l & E & L & N); [lia|]. exists l. split; [exact E|].
  rewrite N by nia. cbn zeta. set (e := (dx + 3 * dy)%nat) in *. assert (He : (4 <= e)%nat) by (unfold e; lia).
  replace (Nat.min (length xs * e - 1) (length xs - 1)) with (length xs - 1)%nat by nia.
  destruct (nth_error xs (length xs - 1)) as [x|] eqn:Ex; [|reflexivity]. f_equal. apply nth_error_None.
  rewrite Forall_forall in HF. rewrite (record_length dx dy) by (apply HF; eapply nth_error_In; eassumption). fold e. nia.
Qed.
Print Assumptions C63_several_samples_refuted.

(** ** Examples *)
(** A solver that returns a given vector when it satisfies the constraints. *)
Fixpoint check (CI : list (list R)) (ci x : list R) : bool :=
  match CI, ci with
  | [], [] => true
  | col :: CI', c :: ci' => rleb 0 (dot col x + c) && check CI' ci' x
  | _, _ => false
  end.
Definition guess (v : list R) (n : nat) (CI : list (list R)) (ci : list R) : option (list R) :=
  if ((length v =? n)%nat && check CI ci v)%bool then Some v else None.
Lemma check_feasible : forall CI ci x, check CI ci x = true <-> feasible CI ci x.
Proof.
  unfold feasible. induction CI as [|col CI IH]; intros [|c ci] x; cbn [check].
  - split; constructor.
  - split; [discriminate|]. intros H; inversion H.
  - split; [discriminate|]. intros H; inversion H.
  - rewrite Bool.andb_true_iff, IH, TextProofs.rleb_spec. split; [intros [A B]; constructor; assumption|]. intros H; inversion H; auto.
Qed.
Example guess_sound v : sound (guess v).
Proof.
  intros n CI ci x _ H. unfold guess in H. destruct (length v =? n)%nat eqn:E1; [|discriminate]. destruct (check CI ci v) eqn:E2; [|discriminate].
  injection H as <-. split; [apply Nat.eqb_eq; assumption|]. apply check_feasible. assumption.
Qed.
(** Zero when it is allowed: least norm. *)
Example zero_least_norm n : sound (guess (repeat 0 n)) /\ least_norm (guess (repeat 0 n)).
Proof.
  split; [apply guess_sound|]. intros m CI ci x y _ H _ _. unfold guess in H. destruct (_ && _)%bool; [|discriminate]. injection H as <-. rewrite dot_zeros. apply dot_self_nonneg.
Qed.
(** A sound and complete solver exists. *)
Example complete_solver : exists solver, sound solver /\ complete solver.
Proof.
  exists (fun n CI ci => match ClassicalEpsilon.excluded_middle_informative (exists x, length x = n /\ feasible CI ci x) with
                         | left H => Some (proj1_sig (ClassicalEpsilon.constructive_indefinite_description _ H)) | right _ => None end).
  split.
  - intros n CI ci x _. destruct (ClassicalEpsilon.excluded_middle_informative _) as [H|H]; [|discriminate].
    destruct (ClassicalEpsilon.constructive_indefinite_description _ H) as [y Hy]. cbn [proj1_sig]. intros E. injection E as <-. exact Hy.
  - intros n CI ci y _ Hl Hy. destruct (ClassicalEpsilon.excluded_middle_informative _) as [H|H]; [discriminate|]. exfalso. apply H. eauto.
Qed.
(** One sample with the interval [1, 3] and one coefficient on each side: the
    fitter finds a constant between 1 and 3. *)
Definition constant_r : rf1 := set_domain (new_rf1 0 1 1 1) [0] [1].
Example one_interval : exists r', fit_1d 0 (guess [-8; -4]) 1 1 1 constant_r [([1 / 2], 1, 3)] = Ok (true, r') /\ Forall (passes r') [([1 / 2], 1, 3)].
Proof.
  assert (D : domain_ok 1 [0] [1]) by (split; [reflexivity|split; [reflexivity|constructor; [lra|constructor]]]).
  destruct (new_wf 0 1 1 1 [0] [1] ltac:(lia) D) as (W & A & B & C & F & G). fold constant_r in *.
  assert (HP : positions_ok (r_dim constant_r) [([1 / 2], 1, 3)]) by (rewrite A; repeat constructor).
  destruct (fit_1d_total 0 (guess [-8; -4]) (guess_sound _) 1 1 1 constant_r [([1 / 2], 1, 3)] W) as (b & r' & E); [assumption|assumption|lia|assumption|].
  exists r'. assert (Hb : b = true).
  { destruct (fill_feasible 1 1 constant_r [([1 / 2], 1, 3)] W) as (CI & ci & Ef & LC & Fe); [assumption|assumption|assumption|].
    revert E. unfold fit_1d. rewrite Ef. cbn [bind fst snd].
    assert (K : feasible CI (List.map (fun t => t * 1) ci) [-8; -4]).
    { apply Fe. constructor; [|constructor]. unfold margins, upper_row, lower_row, position, lower, upper, monos. cbn [fst snd]. rewrite F, G, A.
      cbn [seq List.map app dot]. replace (monomial [0] [1] [1 / 2] (index2degree 1 0)) with 1 by (symmetry; apply (monomial_const [0] [1] [1 / 2] 1)).
      unfold norm2. cbn [fold_left].
      assert (S1 : sqrt (0 + 1 * 1 + - (3) * 1 * (- (3) * 1)) <= 4). { replace 4 with (sqrt 16). { apply sqrt_le_1; lra. } replace 16 with (4 * 4) by lra. apply sqrt_square. lra. }
      assert (S2 : sqrt (0 + - (1) * - (1) + 1 * 1 * (1 * 1)) <= 4). { replace 4 with (sqrt 16). { apply sqrt_le_1; lra. } replace 16 with (4 * 4) by lra. apply sqrt_square. lra. }
      split; lra. }
    unfold guess. rewrite (proj2 (check_feasible _ _ _) K). cbn [length Nat.add Nat.eqb andb].
    destruct (update _ _ _ _) as [r1| | |]; try discriminate. cbn [bind]. intros E. assert (E2 : rltb 0 (norm2 [-8; -4]) = b) by congruence. rewrite <- E2.
    apply rltb_spec. unfold norm2. cbn [fold_left]. lra. }
  subst b. split; [exact E|]. eapply (fit_1d_passes 0 (guess [-8; -4]) (guess_sound _) 1 1 1); try eassumption; try lra; try lia.
Qed.
(** The order of the columns for 70 samples starts 0, 32, 64, 1, 33, 65, 2. *)
Example column_order : firstn 7 (slots 70 70 0 1) = [0; 32; 64; 1; 33; 65; 2]%nat.
Proof. reflexivity. Qed.
(** The threads may run in reverse. *)
Example reverse_schedule : schedule (fun i => rev (seq 1 (i - 1))).
Proof. intros i. apply Permutation_rev. Qed.
(** Three samples (x, y): the converted array. *)
Example converted : convert 1 1 (1 / 10) [[1; 10]; [2; 20]; [3; 30]] =
  Ok [Some 1; Some 2; Some 3; Some 30; Some ((1 - 1 / 10) * 30); Some ((1 + 1 / 10) * 30); None; None; None; None; None; None].
Proof. reflexivity. Qed.

From Coq Require Import Reals List Arith Lia Lra Permutation Bool.
From Verif Require Import Base Num ParamsModel GeoModel ArgsModel DataModel TextModel FuncModel MonoModel MonoProofs FuncFile RatModel RatSpec RatProofs QuadModel QuadSpec QuadProofs QuadFit QuadSizes QuadPar QuadSearch.
Open Scope R_scope.

Section Sched.
Variable junk : R.
Variable solver : nat -> list (list R) -> list R -> option (list R).
Variable cond : list (list R) -> R.
Variable distance : rf -> option R.
Variable use_delta : bool.
Variable channels : list (list sample).
Variable f : rf.
Notation cand := (candidate junk solver cond distance use_delta channels f).
(** the results of the iterations 1 .. i-1 *)
Definition results (i : nat) (cs : list (option (R * option R * rf))) : Prop := Forall2 (fun j c => cand i j = Ok c) (seq 1 (i - 1)) cs.
Hypothesis Hok : forall i j, (0 < j < i)%nat -> exists c, cand i j = Ok c.

Lemma results_exist i : exists cs, results i cs.
Proof. apply (all_ok_total junk solver cond distance). intros j Hj. apply in_seq in Hj. apply Hok. lia. Qed.
Lemma results_unique i cs cs' : results i cs -> results i cs' -> cs = cs'.
Proof.
  unfold results. intros H. revert cs'. induction H as [|j c o cs Hc H IH]; intros cs' H'; inversion H' as [|? c' ? cs1 Hc' H'']; subst; [reflexivity|].
  f_equal; [congruence|apply IH; assumption].
Qed.
Lemma best_of_perm cs cs' g : Permutation cs cs' -> best_of use_delta cs g -> best_of use_delta cs' g.
Proof.
  intros P (c & k & Hin & Hf & Hk & Hm). exists c, k. split; [eapply Permutation_in; eassumption|]. split; [assumption|]. split; [assumption|].
  intros c' k' Hc'. apply Hm. eapply Permutation_in; [apply Permutation_sym|]; eassumption.
Qed.
Lemma round_spec order i cs : results i cs -> Permutation (seq 1 (i - 1)) order ->
  exists st, parallel_for junk solver cond distance use_delta channels f i order (mkFound None None f) = Ok st /\
    ((n_delta st = None /\ n_best st = f /\ none_of use_delta cs) \/ (exists d, n_delta st = Some d /\ best_of use_delta cs (n_best st))).
Proof.
  intros Hcs P. destruct (all_ok_perm junk solver cond distance use_delta channels f i _ _ cs P Hcs) as (cs' & Pc & Hcs').
  destruct (parallel_for_best junk solver cond distance use_delta channels f i order cs' Hcs') as (st & E & H). exists st. split; [exact E|].
  destruct H as [(H1 & H2 & H3)|(c & d & k & Hin & Hf & Hd & Hk & Hm)].
  - left. split; [assumption|]. split; [assumption|]. intros c Hc. apply H3. eapply Permutation_in; eassumption.
  - right. exists d. split; [assumption|]. apply (best_of_perm cs'); [apply Permutation_sym; assumption|]. exists c, k. auto.
Qed.
Lemma best_not_none cs g : best_of use_delta cs g -> none_of use_delta cs -> False.
Proof. intros (c & k & Hin & _ & Hk & _) H. specialize (H c Hin). congruence. Qed.
Lemma best_unique cs g g' : no_ties use_delta cs -> best_of use_delta cs g -> best_of use_delta cs g' -> g = g'.
Proof.
  intros HT (c & k & Hin & (d & l & Hf) & Hk & Hm) (c' & k' & Hin' & (d' & l' & Hf') & Hk' & Hm').
  assert (k = k') by (apply Rle_antisym; eauto). subst k'.
  apply In_nth_error in Hin as [m Em]. apply In_nth_error in Hin' as [n En].
  assert (m = n) by (eapply HT; eassumption). subst n. congruence.
Qed.

Lemma search_spec order step max_n : schedule order -> (0 < step)%nat -> forall n i fuel, (S max_n - i <= n)%nat -> (n < fuel)%nat ->
  exists b g, search junk solver cond distance use_delta channels order fuel i max_n step f = Ok (Some (b, g)) /\
    if b then exists k cs, (i + k * step <= max_n)%nat /\ results (i + k * step) cs /\ best_of use_delta cs g /\
                forall k' cs', (k' < k)%nat -> results (i + k' * step) cs' -> none_of use_delta cs'
    else g = f /\ forall k cs, (i + k * step <= max_n)%nat -> results (i + k * step) cs -> none_of use_delta cs.
Proof.
  intros Hs Hst. induction n as [|n IH]; intros i [|fuel] Hn Hfu; try lia; cbn [search].
  - destruct (Nat.leb_spec i max_n); [lia|]. exists false, f. split; [reflexivity|]. split; [reflexivity|]. intros; lia.
  - destruct (Nat.leb_spec i max_n) as [Hi|Hi].
    2: { exists false, f. split; [reflexivity|]. split; [reflexivity|]. intros; lia. }
    destruct (results_exist i) as [cs Hcs]. destruct (round_spec (order i) i cs Hcs (Hs i)) as (st & E & H). rewrite E. cbn [bind].
    destruct H as [(H1 & H2 & H3)|(d & H1 & H2)]; rewrite H1.
    + destruct (IH (i + step)%nat fuel) as (b & g & E' & H'); [lia|lia|]. exists b, g. split; [exact E'|]. destruct b.
      * destruct H' as (k & cs' & K1 & K2 & K3 & K4). exists (S k), cs'. cbn [Nat.mul].
        replace (i + (step + k * step))%nat with (i + step + k * step)%nat by lia. split; [assumption|]. split; [assumption|]. split; [assumption|].
        intros [|k'] cs'' Hk' Hcs''.
        -- cbn [Nat.mul] in Hcs''. rewrite Nat.add_0_r in Hcs''. rewrite (results_unique _ _ _ Hcs'' Hcs). assumption.
        -- apply (K4 k'); [lia|]. cbn [Nat.mul] in Hcs''. replace (i + step + k' * step)%nat with (i + (step + k' * step))%nat by lia. assumption.
      * destruct H' as [-> H']. split; [reflexivity|]. intros [|k] cs'' Hk' Hcs''.
        -- cbn [Nat.mul] in Hcs''. rewrite Nat.add_0_r in Hcs''. rewrite (results_unique _ _ _ Hcs'' Hcs). assumption.
        -- cbn [Nat.mul] in Hk', Hcs''. apply (H' k). { lia. } replace (i + step + k * step)%nat with (i + (step + k * step))%nat by lia. assumption.
    + exists true, (n_best st). split; [reflexivity|]. exists 0%nat, cs. cbn [Nat.mul]. rewrite Nat.add_0_r. repeat split; try assumption. intros; lia.
Qed.

(** Two schedules: the same answer, and the same function unless two fits tie. *)
Lemma search_schedule order order' step max_n i fuel : schedule order -> schedule order' -> (0 < step)%nat -> (S max_n - i < fuel)%nat ->
  exists b g g', search junk solver cond distance use_delta channels order fuel i max_n step f = Ok (Some (b, g)) /\
    search junk solver cond distance use_delta channels order' fuel i max_n step f = Ok (Some (b, g')) /\
    ((forall n cs, results n cs -> no_ties use_delta cs) -> g = g').
Proof.
  intros Hs Hs' Hst Hfu.
  destruct (search_spec order step max_n Hs Hst (S max_n - i) i fuel (le_n _) Hfu) as (b & g & E & H).
  destruct (search_spec order' step max_n Hs' Hst (S max_n - i) i fuel (le_n _) Hfu) as (b' & g' & E' & H').
  destruct b, b'.
  - destruct H as (k & cs & K1 & K2 & K3 & K4), H' as (k' & cs' & K1' & K2' & K3' & K4').
    assert (k = k'). { destruct (Nat.lt_trichotomy k k') as [L|[L|L]]; [|assumption|]; exfalso.
      - eapply best_not_none; [exact K3|]. eapply K4'; eassumption.
      - eapply best_not_none; [exact K3'|]. eapply K4; eassumption. }
    subst k'. rewrite (results_unique _ _ _ K2' K2) in K3'. exists true, g, g'. split; [assumption|]. split; [assumption|]. intros HT. exact (best_unique cs g g' (HT _ _ K2) K3 K3').
  - destruct H as (k & cs & K1 & K2 & K3 & K4), H' as [_ H']. exfalso. eapply best_not_none; [exact K3|]. eapply H'; eassumption.
  - destruct H' as (k & cs & K1 & K2 & K3 & K4), H as [_ H]. exfalso. eapply best_not_none; [exact K3|]. eapply H; eassumption.
  - exists false, g, g'. split; [assumption|]. split; [assumption|]. intros _. destruct H, H'. congruence.
Qed.
(** --np-step 0 *)
Lemma search_stuck order i max_n cs : schedule order -> (i <= max_n)%nat -> results i cs -> none_of use_delta cs ->
  forall fuel, search junk solver cond distance use_delta channels order fuel i max_n 0 f = Ok None.
Proof.
  intros Hs Hi Hcs Hnone. induction fuel as [|fuel IH]; cbn [search]; [reflexivity|]. rewrite (proj2 (Nat.leb_le _ _) Hi).
  destruct (round_spec (order i) i cs Hcs (Hs i)) as (st & E & H). rewrite E. cbn [bind].
  destruct H as [(H1 & _)|(d & H1 & H2)]; [|exfalso; eapply best_not_none; eassumption]. rewrite H1, Nat.add_0_r. exact IH.
Qed.
End Sched.

(** ** Violations *)
Lemma misses_failing r s : failing r s = true <-> exists d, misses r s d.
Proof.
  unfold failing, quot, misses. fold (nume r s). fold (deno r s). destruct (Req_EM_T (deno r s) 0) as [H0|H0].
  - destruct (Req_EM_T (nume r s) 0) as [H1|H1]; cbn [fails].
    + split; [discriminate|]. intros (d & [(A & _)|(_ & A & _)]); contradiction.
    + split; [|reflexivity]. intros _. exists None. right. auto.
  - cbn [fails]. split.
    + intros H. eexists. left. split; [assumption|]. split; [|reflexivity]. apply orb_true_iff in H as [H|H]; apply rltb_spec in H; lra.
    + intros (d & [(_ & A & _)|(A & _)]); [|contradiction]. apply orb_true_iff. rewrite !rltb_spec.
      destruct (Rlt_or_le (upper s) (nume r s / deno r s)); [auto|]. destruct (Rlt_or_le (nume r s / deno r s) (lower s)); [auto|]. exfalso. apply A. lra.
Qed.
Lemma misses_dev r s d : misses r s d -> dev_of r s = d.
Proof.
  unfold dev_of, quot, misses. fold (nume r s). fold (deno r s). intros [(A & _ & ->)|(A & B & ->)].
  - destruct (Req_EM_T (deno r s) 0) as [H0|H0]; [contradiction|]. cbn [deviation]. f_equal. f_equal. lra.
  - destruct (Req_EM_T (deno r s) 0) as [H0|H0]; [|contradiction]. destruct (Req_EM_T (nume r s) 0) as [H1|H1]; [contradiction|]. reflexivity.
Qed.
Lemma dev_lt_le a b : dev_lt a b = false <-> dev_le b a.
Proof. destruct a, b; cbn; try rewrite rltb_false; split; congruence || tauto || lra. Qed.
Lemma test_constraints_worst np nq r CI pool : well_formed r -> length (r_p r) = np -> length (r_q r) = nq -> positions_ok (r_dim r) pool -> Forall ordered pool ->
  (test_constraints np nq r CI pool = Ok None /\ Forall (fun s => within r s \/ undefined r s) pool) \/
  (exists s d cu cl pool', Permutation (s :: pool') pool /\ misses r s d /\ (forall s' d', In s' pool -> misses r s' d' -> dev_le d' d) /\
     constraint np nq r s = Ok (cu, cl) /\ test_constraints np nq r CI pool = Ok (Some (CI ++ [cu; cl], pool'))).
Proof.
  intros W Lp Lq HP HO. destruct (test_constraints_spec np nq r CI pool W Lp Lq HP HO) as [[E H]|(s & pool' & P & Hf & Hw & E)].
  - left. split; [assumption|]. unfold positions_ok in HP. rewrite Forall_forall in H, HP |- *. intros s Hs. apply not_failing; auto.
  - right. destruct (proj1 (misses_failing r s) Hf) as [d Hd]. exists s, d, (upper_row r np nq s), (lower_row r np nq s), pool'. repeat split; auto.
    + intros s' d' Hin Hm. apply dev_lt_le. rewrite <- (misses_dev _ _ _ Hm), <- (misses_dev _ _ _ Hd). apply Hw; [assumption|]. apply misses_failing. eauto.
    + apply constraint_spec; try assumption. unfold positions_ok in HP. rewrite Forall_forall in HP. apply HP. eapply Permutation_in; [exact P|]. left. reflexivity.
Qed.
Lemma test_undefined np nq r CI s : well_formed r -> length (position s) = r_dim r -> undefined r s -> test_constraints np nq r CI [s] = Ok None.
Proof.
  intros W Hx [H1 H2]. unfold test_constraints. destruct s as [[x yl] yu]. cbn [worst]. pose proof (quotient_at_spec r (x, yl, yu) W Hx) as E. cbn [position fst] in E.
  rewrite E. cbn [bind]. unfold quot, deno, nume. rewrite H2. destruct (Req_EM_T 0 0) as [_|C]; [|congruence]. rewrite H1. destruct (Req_EM_T 0 0) as [_|C]; [|congruence]. reflexivity.
Qed.
Lemma test_inverted np nq r CI s : well_formed r -> length (position s) = r_dim r -> upper s < lower s ->
  polynomial (r_dim r) (r_min r) (r_max r) (getQ r) (position s) <> 0 -> value1 r (position s) = Ok ((lower s + upper s) / 2) ->
  test_constraints np nq r CI [s] = UB.
Proof.
  intros W Hx HI HQ HV. unfold test_constraints. rewrite value1_spec in HV by assumption. fold (nume r s) in HV. fold (deno r s) in HV, HQ.
  assert (HV' : nume r s / deno r s = (lower s + upper s) / 2) by congruence. clear HV.
  pose proof (quotient_at_spec r s W Hx) as E. unfold quot in E. destruct (Req_EM_T (deno r s) 0) as [|_]; [contradiction|]. rewrite HV' in E.
  destruct s as [[x yl] yu]. cbn [position lower upper fst snd] in *. cbn [worst]. rewrite E. cbn [bind fails deviation].
  assert (F : rltb yu ((yl + yu) / 2) = true) by (apply rltb_spec; lra). rewrite F. cbn [orb dev_lt].
  replace (5 / 10 * (yu + yl) - (yl + yu) / 2) with 0 by lra. rewrite Rabs_R0.
  assert (G : rltb 0 0 = false) by (apply rltb_false; lra). rewrite G. reflexivity.
Qed.
(** the last sample *)
Lemma last_not_solved junk solver cond fuel np nq r CI s delta solved x r' : forall m, length CI = (2 * m)%nat ->
  sound solver -> Forall (fun col => length col = (np + nq)%nat) CI -> well_formed r -> length (r_p r) = np -> length (r_q r) = nq -> length (position s) = r_dim r -> ordered s ->
  solver (np + nq)%nat CI (List.map (fun c => - delta * sqrt (norm2 c)) CI) = Some x -> 0 < norm2 x ->
  update junk r (firstn np x) (skipn np x) = Ok r' -> (exists d, misses r' s d) ->
  qp_loop junk solver cond (S fuel) false np nq (S m) r CI [s] delta solved = Ok (Some (false, r', delta, S solved)).
Proof.
  intros m Hm Hs HC W Lp Lq Hx Ho Es Hn Eu Hmiss. destruct (Hs _ _ _ _ HC Es) as [Lx _].
  destruct (updated junk r (firstn np x) (skipn np x) r' W) as (W' & (D1 & _) & L1 & L2); [rewrite firstn_length; lia|rewrite skipn_length; lia|assumption|].
  cbn [qp_loop]. rewrite Es, Eu. cbn [bind]. rewrite (proj2 (rltb_spec 0 (norm2 x)) Hn).
  assert (P1 : positions_ok (r_dim r') [s]) by (constructor; [congruence|constructor]).
  destruct (test_constraints_spec np nq r' CI [s] W' ltac:(lia) ltac:(lia) P1) as [[E H]|(s' & pool' & P & Hf & Hw & E)].
  - constructor; [assumption|constructor].
  - exfalso. apply Forall_inv in H. apply misses_failing in Hmiss. congruence.
  - rewrite E. cbn [bind]. rewrite app_length, Hm. cbn [length]. replace (2 * m + 2 <? 2 * S m)%nat with false by (symmetry; apply Nat.ltb_ge; lia). reflexivity.
Qed.

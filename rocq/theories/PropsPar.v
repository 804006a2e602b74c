(** The loops that run in parallel: C120 and C121. *)
From Coq Require Import Reals List Lia Lra Permutation.
From Verif Require Import Base ParamsModel ParamsProofs GeoModel GeoSpec NlMoreModel ConvModel ConvSpec ConvProofs ConvProofs2 ConvProofs3 ParModel ParSpec ParProofs ParProofs2 ParProofs3.
From Verif Require Import MonoModel RatModel QuadModel QuadSpec QuadSearch QuadSched QparModel QparProofs.
Open Scope R_scope.

(** ** C120: data2data with interpolation, its iterations interleaved access by access *)
(** What is in memory when the loop has ended, for every schedule: the samples of
    a loop without parallelism; the counter of incorrect configurations is at most
    their number and not zero if there is one. *)
Theorem C120_result : forall junk pin pout val out hs sched m, regular pin -> regular pout -> (forall w y, val w = Ok y -> length y = dimY pin) ->
  Forall (sample_of pout) out -> hidden_ones pout out hs -> interleave junk pin pout val sched (begin_loop out) = Ok m -> joined m ->
  pointwise (interpolated pin pout val) out (m_rows m) /\ (m_count m <= length hs)%nat /\ (hs <> [] -> 1 <= m_count m)%nat.
Proof.
  intros junk pin pout val out hs sched m Ri Ro Hv Hs Hh H J. pose proof (interleave_inv junk pin pout val out Hs sched _ m (minv_begin junk pin pout val out) H) as I.
  split; [apply (joined_rows junk pin pout val Ri Ro Hv out Hs); assumption|]. apply (joined_count junk pin pout val Ri Ro Hv out Hs); assumption.
Qed.
Print Assumptions C120_result.

(** When every sample can be converted, no schedule fails, and at every moment of
    every schedule a sample has its new entries up to some place and its old ones
    after it. *)
Theorem C120_every_moment : forall junk pin pout val out out' sched, regular pin -> regular pout -> (forall w y, val w = Ok y -> length y = dimY pin) ->
  Forall (sample_of pout) out -> pointwise (interpolated pin pout val) out out' ->
  exists m, interleave junk pin pout val sched (begin_loop out) = Ok m /\ length (m_rows m) = length out /\
    forall i x o, nth_error out i = Some x -> nth_error out' i = Some o -> exists row k, nth_error (m_rows m) i = Some row /\ row = firstn k o ++ skipn k x /\ length row = length x.
Proof.
  intros junk pin pout val out out' sched Ri Ro Hv Hs Hp. pose proof (minv_begin junk pin pout val out) as I0. destruct (interleave_safe junk pin pout val Ri Ro Hv out Hs out' Hp sched _ I0) as [m E]. exists m. split; [assumption|].
  pose proof (interleave_inv junk pin pout val out Hs sched _ m I0 E) as I. pose proof I as (Lr & _). split; [assumption|]. intros i x o Hx Ho.
  destruct (nth_error (m_rows m) i) as [row|] eqn:Er; [|apply nth_error_None in Er; apply nth_lt in Hx; lia]. exists row. destruct (final_at junk pin pout val Ri Ro Hv out Hs out' Hp i x Hx) as (o' & Ho' & F). rewrite Ho in Ho'. injection Ho' as <-.
  destruct (moment junk pin pout val out Hs m i x row o I Hx Er F) as (L & k & Hk). exists k. auto.
Qed.
Print Assumptions C120_every_moment.

(** Every schedule that gives each iteration enough steps ends, with the samples
    of the loop without parallelism. *)
Theorem C120_ends : forall junk pin pout val out out' order sched, regular pin -> regular pout -> (forall w y, val w = Ok y -> length y = dimY pin) ->
  Forall (sample_of pout) out -> Permutation order (seq 0 (length out)) -> interpolate junk pin pout val order out = Ok out' ->
  fair sched (length out) (2 * (dimX pout + dimY pout) + 5) ->
  exists m, interleave junk pin pout val sched (begin_loop out) = Ok m /\ joined m /\ m_rows m = out'.
Proof.
  intros junk pin pout val out out' order sched Ri Ro Hv Hs P H Hf. apply (interpolate_iff junk pin pout val Ri Ro Hv order) in H; [|assumption|assumption]. pose proof (minv_begin junk pin pout val out) as I0.
  destruct (interleave_safe junk pin pout val Ri Ro Hv out Hs out' H sched _ I0) as [m E]. exists m. split; [assumption|].
  assert (J : joined m). { apply (fair_joins junk pin pout val out Hs sched _ m I0); [|assumption]. intros i Li. apply Nat.le_trans with (2 * (dimX pout + dimY pout) + 5)%nat; [apply rank_begin|apply Hf; assumption]. }
  split; [assumption|]. pose proof (interleave_inv junk pin pout val out Hs sched _ m I0 E) as I. pose proof (joined_rows junk pin pout val Ri Ro Hv out Hs m I J) as [L2 P2]. destruct H as [L1 P1].
  apply pointwise_eq. split; [congruence|]. intros i a b Ha Hb. destruct (nth_error_ex out i) as [x Hx]; [rewrite L2; apply nth_error_Some; congruence|].
  apply (interpolated_fun junk pin pout val Ri Ro Hv x); [rewrite Forall_forall in Hs; apply Hs; apply nth_error_In in Hx; assumption|apply (P2 i); assumption|apply (P1 i); assumption].
Qed.
Print Assumptions C120_ends.

(** One iteration after the other, the counter is exact. *)
Theorem C120_one_thread : forall junk pin pout val out out' hs order n, regular pin -> regular pout -> (forall w y, val w = Ok y -> length y = dimY pin) ->
  Forall (sample_of pout) out -> pointwise (interpolated pin pout val) out out' -> hidden_ones pout out hs ->
  Permutation order (seq 0 (length out)) -> (2 * (dimX pout + dimY pout) + 5 <= n)%nat ->
  exists m, interleave junk pin pout val (flat_map (fun i => repeat i n) order) (begin_loop out) = Ok m /\ joined m /\ m_count m = length hs.
Proof. intros junk pin pout val out out' hs order n Ri Ro Hv Hs Hp Hh P Hn. apply (sequence_counts junk pin pout val Ri Ro Hv out out' Hs Hp hs Hh order n P Hn). Qed.
Print Assumptions C120_one_thread.

(** In parallel it is not: with several incorrect configurations every count from
    one to their number is possible, although the samples are the same. *)
Theorem C120_any_count : forall junk pin pout val out out' hs c, regular pin -> regular pout -> (forall w y, val w = Ok y -> length y = dimY pin) ->
  Forall (sample_of pout) out -> pointwise (interpolated pin pout val) out out' -> hidden_ones pout out hs -> (1 <= c <= length hs)%nat ->
  exists sched m, interleave junk pin pout val sched (begin_loop out) = Ok m /\ joined m /\ m_count m = c.
Proof. intros junk pin pout val out out' hs c Ri Ro Hv Hs Hp Hh Hc. apply (every_count junk pin pout val Ri Ro Hv out out' Hs Hp hs Hh c Hc). Qed.
Print Assumptions C120_any_count.

(** three samples, two of them below the horizon *)
Definition par_p : parameters := mkParameters 6 1 CARTESIAN UNKNOWN_OUTPUT.
Definition par_rows : list (list R) := [[0; 0; -1; 0; 0; 1; 5]; [0; 0; 1; 0; 0; 1; 5]; [0; 0; 1; 0; 0; -1; 5]].
Definition par_rows' : list (list R) := [[0; 0; -1; 0; 0; 1; 0]; [0; 0; 1; 0; 0; 1; 2]; [0; 0; 1; 0; 0; -1; 0]].
Example C120_case : regular par_p /\ Forall (sample_of par_p) par_rows /\ pointwise (interpolated par_p par_p (fun _ => Ok [2])) par_rows par_rows' /\ hidden_ones par_p par_rows [0; 2]%nat.
Proof.
  assert (K : forall a b c d e f g, converts [a; b; c; d; e; f; g] CARTESIAN CARTESIAN [a; b; c; d; e; f]) by (intros; apply (converts_same [a; b; c; d; e; f; g] CARTESIAN named_cart); cbn; lia).
  assert (K' : forall a b c d e f, converts [a; b; c; d; e; f] CARTESIAN CARTESIAN [a; b; c; d; e; f]) by (intros; apply (converts_same [a; b; c; d; e; f] CARTESIAN named_cart); cbn; lia).
  split; [split; [apply named_cart|split; [reflexivity|cbn; lia]]|]. split; [repeat constructor|]. split.
  - split; [reflexivity|]. intros [|[|[|i]]] x y Hx Hy; cbn in Hx, Hy; [| | |destruct i; discriminate]; injection Hx as <-; injection Hy as <-.
    + exists [0], [0]. split; [eapply unseen; [apply K|cbn; lra|reflexivity]|]. split; [apply same_channels; reflexivity|reflexivity].
    + exists [2], [2]. split; [eapply seen; [apply K|cbn; lra|cbn; lra|apply K'|reflexivity|reflexivity]|]. split; [apply same_channels; reflexivity|reflexivity].
    + exists [0], [0]. split; [eapply unseen; [apply K|cbn; lra|reflexivity]|]. split; [apply same_channels; reflexivity|reflexivity].
  - split; [repeat constructor; cbn; intuition discriminate|]. intros i. split.
    + intros [<-|[<-|[]]]; eexists; (split; [reflexivity|]); (eexists; split; [apply K|cbn; lra]).
    + intros (x & Hx & c & Hc & V). destruct i as [|[|[|i]]]; cbn in Hx; [left; reflexivity| |right; left; reflexivity|destruct i; discriminate].
      injection Hx as <-. pose proof (K 0 0 1 0 0 1 5) as K1. rewrite (converts_fun _ _ _ _ _ Hc K1) in V. cbn in V. lra.
Qed.

(** ** C121: the parallel search for a rational function *)
(** What is in memory when the loop of size [i] has ended, for every interleaving
    of the actions of its iterations: a fit with the smallest number, or the
    function as it was; the counters count every iteration once. *)
Theorem C121_loop : forall junk solver cond distance use_delta channels f i cs sched q,
  Forall2 (fun j c => candidate junk solver cond distance use_delta channels f i j = Ok c) (seq 1 (i - 1)) cs ->
  acts junk solver cond distance use_delta channels i sched (enter_loop i f) = Ok q -> all_over q = true ->
  ((n_delta (q_found q) = None /\ n_best (q_found q) = f /\ none_of use_delta cs) \/ (exists d, n_delta (q_found q) = Some d /\ best_of use_delta cs (n_best (q_found q)))) /\
  q_tested q = (i - 1)%nat /\ q_nfound q = length (filter some_fit cs) /\ q_sum q = fold_right Rplus 0 (map delta_of cs).
Proof.
  intros junk solver cond distance use_delta channels f i cs sched q Hcs H Ho. pose proof (acts_inv junk solver cond distance use_delta channels f i sched _ q (qinv_begin junk solver cond distance use_delta channels f i) H) as I.
  destruct (over_spec junk solver cond distance use_delta channels f i q I Ho) as (order & cs' & P & Ha & Hp & Hn & Hsum & Ht).
  destruct (round_spec junk solver cond distance use_delta channels f order i cs Hcs P) as (st & Est & R). rewrite Hp in Est. apply Ok_inj in Est. subst st. split; [assumption|]. split; [assumption|].
  assert (Pc : Permutation cs cs').
  { destruct (all_ok_perm junk solver cond distance use_delta channels f i _ _ cs P Hcs) as (cs1 & Pc & Hcs1). replace cs' with cs1; [assumption|]. clear -Ha Hcs1. revert cs1 Hcs1. unfold all_ok in Ha. induction Ha as [|j c o cs2 Hc Hr IH]; intros cs1 H1; inversion H1 as [|? c1 ? cs3 Hc1 Hr1]; subst; [reflexivity|]. f_equal; [congruence|apply IH; assumption]. }
  split.
  - rewrite Hn. symmetry. apply Permutation_length. clear -Pc. induction Pc as [|c a b P IH|c d a|a b c P1 IH1 P2 IH2]; cbn [filter]; [constructor|destruct (some_fit c); [constructor|]; assumption| |etransitivity; eassumption].
    destruct (some_fit c), (some_fit d); try apply Permutation_refl. constructor.
  - rewrite Hsum. clear -Pc. induction Pc as [|c a b P IH|c d a|a b c P1 IH1 P2 IH2]; cbn [map fold_right]; [reflexivity|rewrite IH; reflexivity|lra|congruence].
Qed.
Print Assumptions C121_loop.

(** No schedule fails, and every schedule that gives each iteration its six
    actions ends. *)
Theorem C121_ends : forall junk solver cond distance use_delta channels f i sched,
  (forall j, (0 < j < i)%nat -> exists c, candidate junk solver cond distance use_delta channels f i j = Ok c) ->
  exists q, acts junk solver cond distance use_delta channels i sched (enter_loop i f) = Ok q /\ (fair sched (i - 1) 6 -> all_over q = true).
Proof.
  intros junk solver cond distance use_delta channels f i sched Hok. destruct (acts_safe junk solver cond distance use_delta channels f i Hok sched _ (qinv_begin junk solver cond distance use_delta channels f i)) as [q E].
  exists q. split; [assumption|]. intros Hf. apply (fair_over junk solver cond distance use_delta channels f i sched); [assumption|]. intros k Hk. apply Hf. assumption.
Qed.
Print Assumptions C121_ends.

(** The whole search: the first size with a fit wins, with a best fit of that size. *)
Theorem C121_search : forall junk solver cond distance use_delta channels f sched step max_n i fuel,
  (forall i j, (0 < j < i)%nat -> exists c, candidate junk solver cond distance use_delta channels f i j = Ok c) ->
  (forall n, fair (sched n) (n - 1) 6) -> (0 < step)%nat -> (S max_n - i < fuel)%nat ->
  let results n cs := Forall2 (fun j c => candidate junk solver cond distance use_delta channels f n j = Ok c) (seq 1 (n - 1)) cs in
  exists b g, par_search junk solver cond distance use_delta channels sched fuel i max_n step f = Ok (Some (b, g)) /\
    if b then exists k cs, (i + k * step <= max_n)%nat /\ results (i + k * step)%nat cs /\ best_of use_delta cs g /\
                forall k' cs', (k' < k)%nat -> results (i + k' * step)%nat cs' -> none_of use_delta cs'
    else g = f /\ forall k cs, (i + k * step <= max_n)%nat -> results (i + k * step)%nat cs -> none_of use_delta cs.
Proof.
  intros junk solver cond distance use_delta channels f sched step max_n i fuel Hok Hf Hst Hfu results. destruct (par_search_order junk solver cond distance use_delta channels f Hok sched step max_n Hst (fun n k Hk => Hf n k Hk) fuel i) as (order & Hs & E). rewrite E.
  exact (search_spec junk solver cond distance use_delta channels f Hok order step max_n Hs Hst (S max_n - i) i fuel (le_n _) Hfu).
Qed.
Print Assumptions C121_search.

(** Two interleavings give the same answer, and the same function when no two fits
    have the same number. *)
Theorem C121_schedules : forall junk solver cond distance use_delta channels f sched sched' step max_n i fuel,
  (forall i j, (0 < j < i)%nat -> exists c, candidate junk solver cond distance use_delta channels f i j = Ok c) ->
  (forall n, fair (sched n) (n - 1) 6) -> (forall n, fair (sched' n) (n - 1) 6) -> (0 < step)%nat -> (S max_n - i < fuel)%nat ->
  exists b g g', par_search junk solver cond distance use_delta channels sched fuel i max_n step f = Ok (Some (b, g)) /\
    par_search junk solver cond distance use_delta channels sched' fuel i max_n step f = Ok (Some (b, g')) /\
    ((forall n cs, Forall2 (fun j c => candidate junk solver cond distance use_delta channels f n j = Ok c) (seq 1 (n - 1)) cs -> no_ties use_delta cs) -> g = g').
Proof.
  intros junk solver cond distance use_delta channels f sched sched' step max_n i fuel Hok Hf Hf' Hst Hfu.
  destruct (par_search_order junk solver cond distance use_delta channels f Hok sched step max_n Hst (fun n k Hk => Hf n k Hk) fuel i) as (order & Hs & E).
  destruct (par_search_order junk solver cond distance use_delta channels f Hok sched' step max_n Hst (fun n k Hk => Hf' n k Hk) fuel i) as (order' & Hs' & E'). rewrite E, E'.
  exact (search_schedule junk solver cond distance use_delta channels f Hok order order' step max_n i fuel Hs Hs' Hst Hfu).
Qed.
Print Assumptions C121_schedules.
(** any solver that returns solutions, two samples and the round robin schedule *)
Example C121_case : let f := set_max (new_rf 1 1 1 1) [1] in
  (forall solver, sound solver -> forall i j, (0 < j < i)%nat -> exists c, candidate 0 solver (fun _ => 1) (fun _ => Some 0) false [[([0], 1, 2); ([1], 2, 3)]] f i j = Ok c) /\
  (forall n, fair (concat (repeat (seq 0 (n - 1)) 6)) (n - 1) 6).
Proof.
  cbv zeta. split.
  - intros solver Hs i j Hj. destruct (candidate_total 0 solver (fun _ => 1) Hs (fun _ => Some 0) false [[([0], 1, 2); ([1], 2, 3)]] (set_max (new_rf 1 1 1 1) [1]) i j Hj) as (c & Hc & _); [repeat split; cbn; lia|cbn; lia|discriminate| | | |exists c; exact Hc].
    + constructor; [|constructor]. constructor; [reflexivity|constructor; [reflexivity|constructor]].
    + constructor; [|constructor]. constructor; [unfold ordered; cbn; lra|constructor; [unfold ordered; cbn; lra|constructor]].
    + constructor; [discriminate|constructor].
  - intros n k Hk. cbn [repeat concat]. rewrite app_nil_r, !count_occ_app. assert (H : (0 < count_occ Nat.eq_dec (seq 0 (n - 1)) k)%nat) by (apply count_occ_In; apply in_seq; lia). lia.
Qed.

(** Proofs for C120: the counter. *)
From Coq Require Import Reals List Lia Lra Permutation.
From Verif Require Import Base ParamsModel ParamsProofs GeoModel GeoSpec GeoProofs GeoApi CommonModel TextModel TextProofs NlMoreModel FuncModel MetricsModel MetricsProofs FitModel FitProofs ConvModel ConvSpec ConvProofs ConvProofs2 ConvProofs3 ParModel ParSpec ParProofs ParProofs2.
Open Scope R_scope.

Lemma nodup_split {A} (a b : list A) : NoDup (a ++ b) -> NoDup a /\ NoDup b /\ forall i, In i a -> ~ In i b.
Proof.
  induction a as [|x a IH]; cbn [app]; intros H; [split; [constructor|split; [assumption|contradiction]]|]. inversion_clear H as [|? ? Nx Nd]. destruct (IH Nd) as (A1 & A2 & A3). split; [constructor; [|assumption]; intros Hx; apply Nx; apply in_or_app; left; assumption|]. split; [assumption|].
  intros i [->|Hi]; [intros Hb; apply Nx; apply in_or_app; right; assumption|apply A3; assumption].
Qed.

Section Par.
Variable junk : R.
Variable pin pout : parameters.
Variable val : list R -> outcome (list R).
Hypothesis Rin : regular pin.
Hypothesis Rout : regular pout.
Hypothesis Hval : forall w y, val w = Ok y -> length y = dimY pin.

Local Notation look := (look junk pin pout val).
Local Notation access := (access junk pin pout val).
Local Notation interleave := (interleave junk pin pout val).
Local Notation final := (final junk pin pout val).
Local Notation minv := (minv junk pin pout val).
Local Notation moved := (moved junk pin pout val).
Local Notation full := (full pout).
Local Notation rank := (rank pout).
Local Notation rank_at := (rank_at pout).

Variable out out' : list (list R).
Hypothesis Hs : Forall (sample_of pout) out.
Hypothesis Seq : pointwise (interpolated pin pout val) out out'.

Definition hid (i : nat) : Prop := exists x, nth_error out i = Some x /\ look x = Ok None.
(** the counter once iteration [i] has gone on alone *)
Definition after (m : machine) (i : nat) : nat :=
  match nth_error (m_at m) i with
  | Some (Counted _ c) => S c
  | Some (Writing _ _) | Some Finished | None => m_count m
  | Some _ => S (m_count m)
  end.

Lemma to_moved i m m' : minv out m -> (i < length out)%nat -> access i m = Ok m' -> exists x, nth_error out i = Some x /\ moved i m x m'.
Proof using Hs. intros Hi Li H. destruct (nth_error out i) as [x|] eqn:Ex; [|apply nth_error_None in Ex; lia]. exists x. split; [reflexivity|]. apply (access_moves junk pin pout val out); assumption. Qed.
Lemma access_others i m m' j : minv out m -> access i m = Ok m' -> j <> i -> nth_error (m_at m') j = nth_error (m_at m) j.
Proof using Hs.
  intros Hi H N. destruct (Nat.lt_ge_cases i (length out)) as [L|L].
  - destruct (to_moved i m m' Hi L H) as (x & _ & Mv). destruct Hi as (Lr & La & _). destruct (moved_others junk pin pout val i m x m' j) as [_ O2]; try assumption; lia.
  - apply nth_error_None in L. rewrite (access_none junk pin pout val out m i Hi L) in H. apply Ok_inj in H. subst. reflexivity.
Qed.
Lemma hid_lt i : hid i -> (i < length out)%nat.
Proof. intros (x & Hx & _). apply (nth_lt _ _ _ Hx). Qed.

(** *** one iteration alone *)
Lemma access_after i m m' : minv out m -> hid i -> access i m = Ok m' -> after m' i = after m i.
Proof using Hs.
  intros Hi Hh H. destruct (to_moved i m m' Hi (hid_lt i Hh) H) as (x & Hx & Mv). destruct Hh as (x' & Hx' & Hl). rewrite Hx in Hx'. injection Hx' as <-. pose proof Hi as (Lr & La & _). pose proof (nth_lt _ _ _ Hx) as Li. assert (Lia' : (i < length (m_at m))%nat) by lia.
  unfold after. destruct Mv as [acc v Hp0 Hv|Hp0|o Hp0 Hf Hn Lo|Hp0 _|Hp0 _|c o Hp0 _ Hf Lo|o k v Hp0 Hf Lo Hv|o k Hp0 Hf Lo Hro Hk|Hp0]; cbn [go m_at m_count]; try rewrite put_same by assumption; rewrite Hp0; try reflexivity. contradiction.
Qed.
Lemma access_visible i m m' : minv out m -> ~ hid i -> access i m = Ok m' -> m_count m' = m_count m.
Proof using Hs.
  intros Hi Hh H. destruct (Nat.lt_ge_cases i (length out)) as [L|L].
  - destruct (to_moved i m m' Hi L H) as (x & Hx & Mv). destruct Mv as [acc v Hp0 Hv|Hp0|o Hp0 Hf Hn Lo|Hp0 Hl|Hp0 Hl|c o Hp0 Hl Hf Lo|o k v Hp0 Hf Lo Hv|o k Hp0 Hf Lo Hro Hk|Hp0]; try reflexivity. exfalso. apply Hh. exists x. auto.
  - apply nth_error_None in L. rewrite (access_none junk pin pout val out m i Hi L) in H. apply Ok_inj in H. subst. reflexivity.
Qed.
(** only a store changes the counter *)
Lemma access_keeps i m m' : minv out m -> (forall x c, nth_error (m_at m) i <> Some (Counted x c)) -> access i m = Ok m' -> m_count m' = m_count m.
Proof using Hs.
  intros Hi Hh H. destruct (Nat.lt_ge_cases i (length out)) as [L|L].
  - destruct (to_moved i m m' Hi L H) as (x & Hx & Mv). destruct Mv as [acc v Hp0 Hv|Hp0|o Hp0 Hf Hn Lo|Hp0 Hl|Hp0 Hl|c o Hp0 Hl Hf Lo|o k v Hp0 Hf Lo Hv|o k Hp0 Hf Lo Hro Hk|Hp0]; try reflexivity. exfalso. apply (Hh _ _ Hp0).
  - apply nth_error_None in L. rewrite (access_none junk pin pout val out m i Hi L) in H. apply Ok_inj in H. subst. reflexivity.
Qed.
Lemma access_exact i m m' : minv out m -> hid i -> access i m = Ok m' -> rank_at m' i = (rank_at m i - 1)%nat.
Proof using Hs.
  intros Hi Hh H. destruct (to_moved i m m' Hi (hid_lt i Hh) H) as (x & Hx & Mv). destruct Hh as (x' & Hx' & Hl). rewrite Hx in Hx'. injection Hx' as <-. pose proof Hi as (Lr & La & Iv & _). pose proof (nth_lt _ _ _ Hx) as Li. assert (Lia' : (i < length (m_at m))%nat) by lia.
  pose proof (sample_at pout out Hs i x Hx) as Sx. unfold sample_of in Sx. fold full in Sx. assert (Sx' : length x = full) by exact Sx.
  assert (Er : exists row, nth_error (m_rows m) i = Some row). { destruct (nth_error (m_rows m) i) eqn:Er; [eauto|]. apply nth_error_None in Er. lia. } destruct Er as [row Er].
  unfold ParProofs2.rank_at. destruct Mv as [acc v Hp0 Hv|Hp0|o Hp0 Hf Hn Lo|Hp0 _|Hp0 _|c o Hp0 _ Hf Lo|o k v Hp0 Hf Lo Hv|o k Hp0 Hf Lo Hro Hk|Hp0]; cbn [go m_at m_count]; try rewrite put_same by assumption; rewrite Hp0; cbn [ParProofs2.rank]; try lia.
  - rewrite app_length. cbn [length]. apply nth_lt in Hv. lia.
  - contradiction.
  - pose proof (nth_lt _ _ _ Hv). lia.
Qed.

(** runs of one iteration *)
Lemma solo n i : forall m, minv out m -> exists m', interleave (repeat i n) m = Ok m' /\ minv out m' /\ (forall j, j <> i -> nth_error (m_at m') j = nth_error (m_at m) j) /\
  (rank_at m' i <= rank_at m i - n)%nat /\ (hid i -> after m' i = after m i /\ rank_at m' i = (rank_at m i - n)%nat) /\ (~ hid i -> m_count m' = m_count m) /\
  ((n + full + 2 <= rank_at m i)%nat -> hid i -> m_count m' = m_count m).
Proof using All.
  induction n as [|n IH]; intros m Hi; cbn [repeat ParModel.interleave].
  - exists m. split; [reflexivity|]. split; [assumption|]. split; [reflexivity|]. split; [lia|]. split; [intros _; split; [reflexivity|lia]|]. split; reflexivity.
  - destruct (access_safe junk pin pout val Rin Rout Hval out Hs out' Seq i m Hi) as [m1 E1]. rewrite E1. cbn [bind]. pose proof (access_inv junk pin pout val out Hs i m m1 Hi E1) as Hi1.
    destruct (IH m1 Hi1) as (m2 & E2 & I2 & O2 & R2 & A2 & V2 & K2). exists m2. split; [assumption|]. split; [assumption|]. pose proof (access_rank junk pin pout val out Hs i m m1 i Hi E1) as R1. destruct (Nat.eq_dec i i) as [_|]; [|contradiction].
    split; [intros j N; rewrite O2 by assumption; apply (access_others i m m1); assumption|]. split; [lia|]. split; [|split].
    + intros Hh. destruct (A2 Hh) as [B1 B2]. split; [rewrite B1; apply (access_after i m m1); assumption|]. rewrite B2, (access_exact i m m1 Hi Hh E1). lia.
    + intros Hh. rewrite (V2 Hh). apply (access_visible i m m1); assumption.
    + intros Lr Hh. pose proof (access_exact i m m1 Hi Hh E1) as X. rewrite K2 by (assumption || lia). apply (access_keeps i m m1); [assumption| |assumption].
      intros x c Ec. unfold ParProofs2.rank_at in Lr. rewrite Ec in Lr. cbn in Lr. lia.
Qed.
Definition fresh (m : machine) (i : nat) : Prop := nth_error (m_at m) i = Some (Reading []).
Lemma fresh_rank m i : fresh m i -> rank_at m i = (2 * full + 5)%nat.
Proof. intros H. unfold ParProofs2.rank_at. rewrite H. cbn. lia. Qed.
Lemma ended m i : (i < length (m_at m))%nat -> rank_at m i = 0%nat -> nth_error (m_at m) i = Some Finished.
Proof. intros L H. unfold ParProofs2.rank_at in H. destruct (nth_error (m_at m) i) as [ph|] eqn:E; [|apply nth_error_None in E; lia]. destruct ph; cbn in H; try lia. reflexivity. Qed.

Variable hs : list nat.
Hypothesis Hh : hidden_ones pout out hs.
Lemma hid_iff i : hid i <-> In i hs.
Proof using Hh Hs Hval Rin Rout Seq out'.
  destruct Hh as [_ H]. rewrite H. split.
  - intros (x & Hx & Hl). exists x. split; [assumption|]. apply (look_hidden junk pin pout val Rout x None); [assumption|reflexivity].
  - intros (x & Hx & Hb). exists x. split; [assumption|]. destruct (final_at junk pin pout val Rin Rout Hval out Hs out' Seq i x Hx) as (o & _ & F). unfold ParProofs.final in F.
    destruct (look x) as [v| | |] eqn:El; cbn [bind] in F; try discriminate. rewrite (proj2 (look_hidden junk pin pout val Rout x v El) Hb). reflexivity.
Qed.
Definition is_hid (i : nat) : bool := if in_dec Nat.eq_dec i hs then true else false.

(** *** iterations one after the other *)
Lemma in_sequence N order : (2 * full + 5 <= N)%nat -> forall m, NoDup order -> (forall i, In i order -> (i < length out)%nat) -> minv out m -> (forall i, In i order -> fresh m i) ->
  exists m', interleave (flat_map (fun i => repeat i N) order) m = Ok m' /\ minv out m' /\ (forall j, ~ In j order -> nth_error (m_at m') j = nth_error (m_at m) j) /\
    (forall i, In i order -> nth_error (m_at m') i = Some Finished) /\ m_count m' = (m_count m + length (filter is_hid order))%nat.
Proof using All.
  intros HN. induction order as [|i order IH]; intros m Nd Hin Hi Hf; cbn [flat_map].
  - exists m. split; [reflexivity|]. split; [assumption|]. split; [reflexivity|]. split; [contradiction|]. cbn. lia.
  - inversion_clear Nd as [|? ? Ni Nd']. destruct (solo N i m Hi) as (m1 & E1 & I1 & O1 & R1 & A1 & V1 & _). pose proof (fresh_rank m i (Hf i (or_introl eq_refl))) as R0.
    destruct (IH m1 Nd' ltac:(intros j Hj; apply Hin; right; assumption) I1) as (m2 & E2 & I2 & O2 & F2 & C2).
    { intros j Hj. unfold fresh. rewrite O1; [apply Hf; right; assumption|]. intros ->. contradiction. }
    exists m2. rewrite interleave_app, E1. cbn [bind]. split; [assumption|]. split; [assumption|].
    assert (L1 : (i < length (m_at m1))%nat) by (destruct I1 as (_ & La & _); rewrite La; apply Hin; left; reflexivity).
    assert (Fi : nth_error (m_at m1) i = Some Finished) by (apply ended; [assumption|lia]).
    split; [intros j Hj; rewrite O2 by (intros Hn; apply Hj; right; assumption); apply O1; intros ->; apply Hj; left; reflexivity|]. split.
    + intros j [<-|Hj]; [rewrite O2 by assumption; assumption|apply F2; assumption].
    + rewrite C2. cbn [filter]. assert (C1 : m_count m1 = (m_count m + if is_hid i then 1 else 0)%nat).
      { unfold is_hid. destruct (in_dec Nat.eq_dec i hs) as [Hi'|Hn]; rewrite <- hid_iff in *.
        - destruct (A1 Hi') as [A _]. unfold after in A. rewrite Fi in A. rewrite (Hf i (or_introl eq_refl)) in A. lia.
        - rewrite (V1 Hn). lia. }
      destruct (is_hid i); cbn [length]; lia.
Qed.
(** *** iterations up to the store *)
Lemma all_load order : forall m, NoDup order -> (forall i, In i order -> hid i) -> minv out m -> (forall i, In i order -> fresh m i) ->
  exists m', interleave (flat_map (fun i => repeat i (full + 3)) order) m = Ok m' /\ minv out m' /\ (forall j, ~ In j order -> nth_error (m_at m') j = nth_error (m_at m) j) /\
    (forall i, In i order -> exists x, nth_error (m_at m') i = Some (Counted x (m_count m))) /\ m_count m' = m_count m.
Proof using All.
  induction order as [|i order IH]; intros m Nd Hin Hi Hf; cbn [flat_map].
  - exists m. split; [reflexivity|]. split; [assumption|]. split; [reflexivity|]. split; [contradiction|]. reflexivity.
  - inversion_clear Nd as [|? ? Ni Nd']. destruct (solo (full + 3) i m Hi) as (m1 & E1 & I1 & O1 & R1 & A1 & _ & K1). pose proof (fresh_rank m i (Hf i (or_introl eq_refl))) as R0. pose proof (Hin i (or_introl eq_refl)) as Hi'.
    specialize (K1 ltac:(lia) Hi'). destruct (A1 Hi') as [A R]. rewrite R0 in R. destruct (IH m1 Nd' ltac:(intros j Hj; apply Hin; right; assumption) I1) as (m2 & E2 & I2 & O2 & F2 & C2).
    { intros j Hj. unfold fresh. rewrite O1; [apply Hf; right; assumption|]. intros ->. contradiction. }
    exists m2. rewrite interleave_app, E1. cbn [bind]. split; [assumption|]. split; [assumption|].
    split; [intros j Hj; rewrite O2 by (intros Hn; apply Hj; right; assumption); apply O1; intros ->; apply Hj; left; reflexivity|]. split; [|congruence].
    intros j [<-|Hj]; [|rewrite <- K1; apply F2; assumption]. rewrite O2 by assumption. unfold after in A. rewrite (Hf i (or_introl eq_refl)) in A. unfold ParProofs2.rank_at in R.
    destruct (nth_error (m_at m1) i) as [ph|]; [|lia]. destruct ph as [acc|x|x|x c|o k|]; cbn [ParProofs2.rank] in R; try lia. exists x. injection A as ->. reflexivity.
Qed.
(** *** the stores *)
Lemma all_store c order : forall m, NoDup order -> minv out m -> (forall i, In i order -> exists x, nth_error (m_at m) i = Some (Counted x c)) -> (order = [] -> m_count m = S c) ->
  exists m', interleave order m = Ok m' /\ minv out m' /\ (forall j, ~ In j order -> nth_error (m_at m') j = nth_error (m_at m) j) /\
    (forall i, In i order -> exists ph, nth_error (m_at m') i = Some ph /\ past ph) /\ m_count m' = S c.
Proof using All.
  induction order as [|i order IH]; intros m Nd Hi Hf Hc; cbn [ParModel.interleave].
  - exists m. split; [reflexivity|]. split; [assumption|]. split; [reflexivity|]. split; [contradiction|]. apply Hc. reflexivity.
  - inversion_clear Nd as [|? ? Ni Nd']. destruct (access_safe junk pin pout val Rin Rout Hval out Hs out' Seq i m Hi) as [m1 E1]. rewrite E1. cbn [bind]. pose proof (access_inv junk pin pout val out Hs i m m1 Hi E1) as Hi1.
    destruct (Hf i (or_introl eq_refl)) as [x Hx]. pose proof Hi as (_ & La & _). destruct (to_moved i m m1 Hi ltac:(rewrite <- La; apply (nth_lt _ _ _ Hx)) E1) as (x0 & Hx0 & Mv).
    assert (St : m_count m1 = S c /\ exists ph, nth_error (m_at m1) i = Some ph /\ past ph).
    { assert (Lia' : (i < length (m_at m))%nat) by apply (nth_lt _ _ _ Hx). destruct Mv as [acc v Hp0 Hv|Hp0|o Hp0 Hf0 Hn Lo|Hp0 Hl|Hp0 Hl|c0 o Hp0 Hl Hf0 Lo|o k v Hp0 Hf0 Lo Hv|o k Hp0 Hf0 Lo Hro Hk|Hp0]; rewrite Hx in Hp0; try discriminate.
      injection Hp0 as -> ->. cbn [m_count m_at]. split; [reflexivity|]. rewrite put_same by assumption. eexists. split; [reflexivity|exact I]. }
    destruct St as [C1 P1]. destruct (IH m1 Nd' Hi1) as (m2 & E2 & I2 & O2 & F2 & C2).
    { intros j Hj. rewrite (access_others i m m1) by (assumption || (intros ->; contradiction)). apply Hf. right. assumption. }
    { intros _. assumption. }
    exists m2. split; [assumption|]. split; [assumption|]. split; [|split; [|assumption]].
    + intros j Hj. rewrite O2 by (intros Hn; apply Hj; right; assumption). apply (access_others i m m1); [assumption|assumption|]. intros ->. apply Hj. left. reflexivity.
    + intros j [<-|Hj]; [rewrite O2 by assumption; assumption|apply F2; assumption].
Qed.
(** *** nothing is counted any more *)
Lemma access_past i m m' : minv out m -> (forall j, hid j -> exists ph, nth_error (m_at m) j = Some ph /\ past ph) -> access i m = Ok m' ->
  m_count m' = m_count m /\ forall j, hid j -> exists ph, nth_error (m_at m') j = Some ph /\ past ph.
Proof using Hs.
  intros Hi Hp H. split.
  - destruct (Nat.lt_ge_cases i (length out)) as [L|L].
    + destruct (to_moved i m m' Hi L H) as (x & Hx & Mv). destruct Mv as [acc v Hp0 Hv|Hp0|o Hp0 Hf Hn Lo|Hp0 Hl|Hp0 Hl|c o Hp0 Hl Hf Lo|o k v Hp0 Hf Lo Hv|o k Hp0 Hf Lo Hro Hk|Hp0]; try reflexivity.
      exfalso. destruct (Hp i) as (ph & Eh & P); [exists x; auto|]. rewrite Hp0 in Eh. injection Eh as <-. contradiction.
    + apply nth_error_None in L. rewrite (access_none junk pin pout val out m i Hi L) in H. apply Ok_inj in H. subst. reflexivity.
  - intros j Hj. destruct (Hp j Hj) as (ph & Eh & P). destruct (Nat.eq_dec j i) as [->|N]; [|rewrite (access_others i m m') by assumption; eauto].
    destruct (to_moved i m m' Hi (hid_lt i Hj) H) as (x & Hx & Mv). assert (Lia' : (i < length (m_at m))%nat) by apply (nth_lt _ _ _ Eh).
    destruct Mv as [acc v Hp0 Hv|Hp0|o Hp0 Hf Hn Lo|Hp0 Hl|Hp0 Hl|c o Hp0 Hl Hf Lo|o k v Hp0 Hf Lo Hv|o k Hp0 Hf Lo Hro Hk|Hp0]; rewrite Hp0 in Eh; injection Eh as <-; try contradiction; cbn [go m_at]; try rewrite put_same by assumption; try (eexists; split; [reflexivity|exact I]).
    exists Finished. split; [assumption|exact I].
Qed.
Lemma interleave_past sched : forall m m', minv out m -> (forall j, hid j -> exists ph, nth_error (m_at m) j = Some ph /\ past ph) -> interleave sched m = Ok m' -> m_count m' = m_count m.
Proof using Hs.
  induction sched as [|i sched IH]; intros m m' Hi Hp H; cbn [ParModel.interleave] in H; [apply Ok_inj in H; subst; reflexivity|].
  destruct (access i m) as [m1| | |] eqn:E; cbn [bind] in H; try discriminate. destruct (access_past i m m1 Hi Hp E) as [C1 P1]. rewrite (IH m1 m'); [assumption|apply (access_inv junk pin pout val out Hs i m); assumption|assumption|assumption].
Qed.

Lemma count_flat N l i : (In i l -> N <= count_occ Nat.eq_dec (flat_map (fun j => repeat j N) l) i)%nat.
Proof.
  induction l as [|j l IH]; [contradiction|]. cbn [flat_map]. rewrite count_occ_app. intros [->|H].
  - rewrite (count_occ_repeat_eq Nat.eq_dec) by reflexivity. lia.
  - specialize (IH H). lia.
Qed.
Lemma fresh_begin i : (i < length out)%nat -> fresh (begin_loop out) i.
Proof.
  intros L. unfold fresh. cbn [begin_loop m_at]. destruct (nth_error (repeat (Reading []) (length out)) i) eqn:E; [|apply nth_error_None in E; rewrite repeat_length in E; lia].
  apply nth_error_In in E. apply repeat_spec in E. congruence.
Qed.

(** iterations that do not overlap count exactly *)
Lemma sequence_counts order N : Permutation order (seq 0 (length out)) -> (2 * full + 5 <= N)%nat ->
  exists m, interleave (flat_map (fun i => repeat i N) order) (begin_loop out) = Ok m /\ joined m /\ m_count m = length hs.
Proof using All.
  intros P HN. assert (Nd : NoDup order) by (apply (Permutation_NoDup (Permutation_sym P)); apply seq_NoDup).
  assert (Hin : forall i, In i order <-> (i < length out)%nat) by (intros i; split; [intros Hi; apply (Permutation_in _ P) in Hi; apply in_seq in Hi; lia|intros Hi; apply (Permutation_in _ (Permutation_sym P)); apply in_seq; lia]).
  destruct (in_sequence N order HN (begin_loop out) Nd (fun i => proj1 (Hin i)) (minv_begin junk pin pout val out) (fun i Hi => fresh_begin i (proj1 (Hin i) Hi))) as (m & E & I & _ & F & C).
  exists m. split; [assumption|]. split.
  - apply Forall_forall. intros ph Hp. apply In_nth_error in Hp. destruct Hp as [i Ei]. destruct I as (_ & La & _). pose proof (nth_lt _ _ _ Ei) as Li. rewrite La in Li. rewrite (F i (proj2 (Hin i) Li)) in Ei. congruence.
  - rewrite C. cbn [begin_loop m_count Nat.add]. apply Permutation_length. apply NoDup_Permutation; [apply NoDup_filter; assumption|apply Hh|]. intros i. rewrite filter_In. unfold is_hid. destruct (in_dec Nat.eq_dec i hs) as [Hi|Hn].
    + split; [intros _; assumption|]. intros _. split; [|reflexivity]. apply Hin. apply hid_lt. apply hid_iff. assumption.
    + split; [intros [_ Hc]; discriminate|contradiction].
Qed.
(** every smaller count but zero happens *)
Lemma every_count c : (1 <= c <= length hs)%nat -> exists sched m, interleave sched (begin_loop out) = Ok m /\ joined m /\ m_count m = c.
Proof using All.
  intros Hc. set (h1 := firstn (c - 1) hs). set (h2 := skipn (c - 1) hs). assert (Eh : hs = h1 ++ h2) by (symmetry; apply firstn_skipn). pose proof (proj1 Hh) as Nd. rewrite Eh in Nd.
  destruct (nodup_split _ _ Nd) as (N1 & N2 & Dj).
  assert (In1 : forall i, In i h1 -> hid i) by (intros i Hi; apply hid_iff; rewrite Eh; apply in_or_app; left; assumption). assert (In2 : forall i, In i h2 -> hid i) by (intros i Hi; apply hid_iff; rewrite Eh; apply in_or_app; right; assumption).
  set (N := (2 * full + 5)%nat).
  destruct (in_sequence N h1 (le_n _) (begin_loop out) N1 (fun i Hi => hid_lt i (In1 i Hi)) (minv_begin junk pin pout val out) (fun i Hi => fresh_begin i (hid_lt i (In1 i Hi)))) as (m1 & E1 & I1 & O1 & F1 & C1).
  assert (C1' : m_count m1 = (c - 1)%nat).
  { rewrite C1. cbn [begin_loop m_count Nat.add]. replace (filter is_hid h1) with h1; [unfold h1; rewrite firstn_length; lia|].
    clear -Eh. assert (Hin : forall i, In i h1 -> In i hs) by (intros i Hi; rewrite Eh; apply in_or_app; left; assumption). clear Eh. revert Hin. generalize h1. intros l. induction l as [|a l IH]; intros Hin; [reflexivity|]. cbn [filter]. unfold is_hid at 1. destruct (in_dec Nat.eq_dec a hs) as [_|n]; [|exfalso; apply n; apply Hin; left; reflexivity]. f_equal. apply IH. intros i Hi. apply Hin. right. assumption. }
  destruct (all_load h2 m1 N2 In2 I1) as (m2 & E2 & I2 & O2 & F2 & C2).
  { intros i Hi. unfold fresh. rewrite O1 by (intros H1; apply (Dj i); assumption). apply fresh_begin. apply hid_lt. apply In2. assumption. }
  rewrite C1' in F2, C2.
  destruct (all_store (c - 1) h2 m2 N2 I2 F2) as (m3 & E3 & I3 & O3 & F3 & C3).
  { intros E. exfalso. assert (L : length h2 = (length hs - (c - 1))%nat) by apply skipn_length. rewrite E in L. cbn in L. lia. }
  set (s4 := flat_map (fun i => repeat i N) (seq 0 (length out))).
  destruct (interleave_safe junk pin pout val Rin Rout Hval out Hs out' Seq s4 m3 I3) as [m4 E4].
  exists (flat_map (fun i => repeat i N) h1 ++ flat_map (fun i => repeat i (full + 3)) h2 ++ h2 ++ s4), m4. split; [|split].
  - rewrite !interleave_app. rewrite E1. cbn [bind]. rewrite interleave_app, E2. cbn [bind]. rewrite interleave_app, E3. cbn [bind]. assumption.
  - apply (fair_joins junk pin pout val out Hs s4 m3 m4 I3); [|assumption]. intros i Li. apply Nat.le_trans with N; [|apply count_flat; apply in_seq; lia].
    pose proof (interleave_rank junk pin pout val out Hs _ _ _ i (minv_begin junk pin pout val out) E1) as Q1. pose proof (interleave_rank junk pin pout val out Hs _ _ _ i I1 E2) as Q2. pose proof (interleave_rank junk pin pout val out Hs _ _ _ i I2 E3) as Q3.
    pose proof (rank_begin pout out i) as Q0. unfold N. lia.
  - rewrite (interleave_past s4 m3 m4); [lia|assumption| |assumption]. intros j Hj. apply hid_iff in Hj. rewrite Eh in Hj. apply in_app_or in Hj. destruct Hj as [Hj|Hj]; [|apply F3; assumption].
    exists Finished. split; [|exact I]. rewrite O3 by (apply Dj; assumption). rewrite O2 by (apply Dj; assumption). apply F1. assumption.
Qed.
End Par.

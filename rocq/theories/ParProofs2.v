(** Proofs for C120: schedules. *)
From Coq Require Import Reals List Lia Lra Permutation.
From Verif Require Import Base ParamsModel ParamsProofs GeoModel GeoSpec GeoProofs GeoApi CommonModel TextModel TextProofs NlMoreModel FuncModel MetricsModel MetricsProofs FitModel FitProofs ConvModel ConvSpec ConvProofs ConvProofs2 ConvProofs3 ParModel ParSpec ParProofs.
Open Scope R_scope.

Section Par.
Variable junk : R.
Variable pin pout : parameters.
Variable val : list R -> outcome (list R).
Hypothesis Rin : regular pin.
Hypothesis Rout : regular pout.
Hypothesis Hval : forall w y, val w = Ok y -> length y = dimY pin.

Local Notation look := (look junk pin pout val).
Local Notation access := (access junk pin pout val).
Local Notation interleave := (interleave junk pin pout val).
Local Notation final := (final junk pin pout val).
Local Notation minv := (minv junk pin pout val).
Local Notation moved := (moved junk pin pout val).

Variable out : list (list R).
Hypothesis Hs : Forall (sample_of pout) out.

Lemma sample_at i x : nth_error out i = Some x -> sample_of pout x.
Proof using Hs. intros H. rewrite Forall_forall in Hs. apply Hs. apply nth_error_In in H. assumption. Qed.
Lemma access_inv i m m' : minv out m -> access i m = Ok m' -> minv out m'.
Proof using Hs.
  intros Hi H. destruct (nth_error out i) as [x|] eqn:Ex.
  - apply (moved_inv junk pin pout val out i m x); [assumption|assumption|]. apply (access_moves junk pin pout val out); assumption.
  - rewrite (access_none junk pin pout val out m i Hi Ex) in H. apply Ok_inj in H. subst. assumption.
Qed.
Lemma interleave_inv sched : forall m m', minv out m -> interleave sched m = Ok m' -> minv out m'.
Proof using Hs.
  induction sched as [|i sched IH]; intros m m' Hi H; cbn [ParModel.interleave] in H; [apply Ok_inj in H; subst; assumption|].
  destruct (access i m) as [m1| | |] eqn:E; cbn [bind] in H; try discriminate. apply (IH m1); [|assumption]. apply (access_inv i m); assumption.
Qed.
Lemma interleave_app s1 : forall s2 m, interleave (s1 ++ s2) m = do m1 <- interleave s1 m; interleave s2 m1.
Proof. induction s1 as [|i s1 IH]; intros s2 m; cbn; [reflexivity|]. destruct (access i m); cbn [bind]; try reflexivity. apply IH. Qed.

(** ** No schedule fails *)
Section Safe.
Variable out' : list (list R).
Hypothesis Seq : pointwise (interpolated pin pout val) out out'.
Lemma final_at i x : nth_error out i = Some x -> exists o, nth_error out' i = Some o /\ final x = Ok o.
Proof using All.
  intros Hx. destruct Seq as [L P]. destruct (nth_error out' i) as [o|] eqn:Eo; [|apply nth_error_None in Eo; apply nth_lt in Hx; lia].
  exists o. split; [reflexivity|]. apply (final_iff junk pin pout val Rin Rout Hval); [apply (sample_at i); assumption|]. apply (P i); assumption.
Qed.
Lemma access_safe i m : minv out m -> exists m', access i m = Ok m'.
Proof using All.
  intros Hi. destruct (nth_error out i) as [x|] eqn:Ex; [|exists m; apply (access_none junk pin pout val out); assumption].
  destruct (final_at i x Ex) as (o & _ & F). apply (access_total junk pin pout val out m i x o); assumption.
Qed.
Lemma interleave_safe sched : forall m, minv out m -> exists m', interleave sched m = Ok m'.
Proof using All.
  induction sched as [|i sched IH]; intros m Hi; cbn; [eauto|]. destruct (access_safe i m Hi) as [m1 E]. rewrite E. cbn [bind]. apply IH. apply (access_inv i m); assumption.
Qed.
End Safe.

(** ** The end *)
Lemma joined_at m i ph : joined m -> nth_error (m_at m) i = Some ph -> ph = Finished.
Proof. intros J H. unfold joined in J. rewrite Forall_forall in J. apply J. apply nth_error_In in H. assumption. Qed.
Lemma joined_rows m : minv out m -> joined m -> pointwise (interpolated pin pout val) out (m_rows m).
Proof using All.
  intros (Lr & La & I & _) J. split; [congruence|]. intros i x y Hx Hy. destruct (nth_error (m_at m) i) as [ph|] eqn:Ep; [|apply nth_error_None in Ep; apply nth_lt in Hx; lia].
  pose proof (I i x y ph Hx Hy Ep) as P. rewrite (joined_at m i ph J Ep) in P. cbn in P. apply (final_iff junk pin pout val Rin Rout Hval) in P; [assumption|apply (sample_at i); assumption].
Qed.
Lemma joined_count m hs : minv out m -> joined m -> hidden_ones pout out hs -> (m_count m <= length hs)%nat /\ (hs <> [] -> 1 <= m_count m)%nat.
Proof using All.
  intros Hi J (Nd & Hh). pose proof Hi as (Lr & La & I & l & S1 & S2 & S3 & S4 & S5).
  assert (E : forall i, In i l <-> In i hs).
  { intros i. rewrite S2, Hh. split.
    - intros (x & ph & Hx & Hl & _). exists x. split; [assumption|]. apply (look_hidden junk pin pout val Rout x None); [assumption|reflexivity].
    - intros (x & Hx & Hb). destruct (nth_error (m_at m) i) as [ph|] eqn:Ep; [|apply nth_error_None in Ep; apply nth_lt in Hx; lia]. pose proof (joined_at m i ph J Ep) as ->. exists x, Finished.
      destruct (nth_error (m_rows m) i) as [row|] eqn:Er; [|apply nth_error_None in Er; apply nth_lt in Hx; lia]. pose proof (I i x row _ Hx Er Ep) as F. cbn in F. unfold ParProofs.final in F.
      destruct (look x) as [v| | |] eqn:El; cbn [bind] in F; try discriminate. rewrite (proj2 (look_hidden junk pin pout val Rout x v El) Hb) in *. repeat split; assumption. }
  split.
  - apply Nat.le_trans with (length l); [assumption|]. apply NoDup_incl_length; [assumption|]. intros i Hl. apply E. assumption.
  - intros N. apply S4. intros ->. destruct hs as [|h hs]; [contradiction|]. apply (E h). left. reflexivity.
Qed.

(** ** How long it takes *)
Definition full : nat := dimX pout + dimY pout.
Definition rank (ph : phase) : nat :=
  match ph with
  | Reading acc => (full - length acc) + full + 5
  | Looking _ => full + 4
  | Counting _ => full + 3
  | Counted _ _ => full + 2
  | Writing _ k => (full - k) + 1
  | Finished => 0
  end.
Definition rank_at (m : machine) (i : nat) : nat := match nth_error (m_at m) i with Some ph => rank ph | None => 0 end.
Lemma moved_rank i m x0 m' : minv out m -> nth_error out i = Some x0 -> moved i m x0 m' -> (rank_at m' i <= rank_at m i - 1)%nat.
Proof using Hs.
  intros (Lr & La & I & _) Hx H. pose proof (nth_lt _ _ _ Hx) as Li. assert (Lia' : (i < length (m_at m))%nat) by lia. pose proof (sample_at i x0 Hx) as Sx. unfold sample_of in Sx. fold full in Sx.
  assert (Er : exists row, nth_error (m_rows m) i = Some row). { destruct (nth_error (m_rows m) i) eqn:Er; [eauto|]. apply nth_error_None in Er. lia. } destruct Er as [row Er].
  unfold rank_at. destruct H as [acc v Hp0 Hv|Hp0|o Hp0 Hf Hl Lo|Hp0 Hl|Hp0 Hl|c o Hp0 Hl Hf Lo|o k v Hp0 Hf Lo Hv|o k Hp0 Hf Lo Hro Hk|Hp0]; cbn [go m_at]; try rewrite put_same by assumption; rewrite Hp0; cbn [rank]; try lia.
  - rewrite app_length. cbn [length]. apply nth_lt in Hv. lia.
  - pose proof (nth_lt _ _ _ Hv). lia.
Qed.
Lemma access_rank i m m' j : minv out m -> access i m = Ok m' -> (rank_at m' j <= rank_at m j - (if Nat.eq_dec i j then 1 else 0))%nat.
Proof using Hs.
  intros Hi H. destruct (nth_error out i) as [x|] eqn:Ex.
  - pose proof (access_moves junk pin pout val out m i x Hs Hi Ex m' H) as Mv. destruct (Nat.eq_dec i j) as [<-|N]; [apply (moved_rank i m x); assumption|].
    pose proof Hi as (Lr & La & _). pose proof (nth_lt _ _ _ Ex). destruct (moved_others junk pin pout val i m x m' j) as [_ O2]; [lia|lia|assumption|congruence|]. unfold rank_at. rewrite O2. lia.
  - rewrite (access_none junk pin pout val out m i Hi Ex) in H. apply Ok_inj in H. subst m'. destruct (Nat.eq_dec i j) as [<-|N]; [|lia]. unfold rank_at.
    destruct (nth_error (m_at m) i) eqn:E; [|lia]. destruct Hi as (_ & La & _). apply nth_lt in E. apply nth_error_None in Ex. lia.
Qed.
Lemma interleave_rank sched : forall m m' j, minv out m -> interleave sched m = Ok m' -> (rank_at m' j <= rank_at m j - count_occ Nat.eq_dec sched j)%nat.
Proof using Hs.
  induction sched as [|i sched IH]; intros m m' j Hi H; cbn [ParModel.interleave count_occ] in H |- *; [apply Ok_inj in H; subst; lia|].
  destruct (access i m) as [m1| | |] eqn:E; cbn [bind] in H; try discriminate. pose proof (access_rank i m m1 j Hi E) as A. pose proof (IH m1 m' j (access_inv i m m1 Hi E) H) as B. destruct (Nat.eq_dec i j); lia.
Qed.
Lemma rank_begin i : (rank_at (begin_loop out) i <= 2 * full + 5)%nat.
Proof. unfold rank_at. destruct (nth_error _ i) as [ph|] eqn:E; [|lia]. cbn in E. apply nth_error_In in E. apply repeat_spec in E. subst ph. cbn. lia. Qed.
Lemma rank_joined m : (forall i, (i < length (m_at m))%nat -> rank_at m i = 0%nat) -> joined m.
Proof.
  intros H. apply Forall_forall. intros ph Hp. apply In_nth_error in Hp. destruct Hp as [i E]. pose proof (H i (nth_lt _ _ _ E)) as Z. unfold rank_at in Z. rewrite E in Z. destruct ph; cbn in Z; try lia. reflexivity.
Qed.
Lemma fair_joins sched m m' : minv out m -> (forall i, (i < length out)%nat -> (rank_at m i <= count_occ Nat.eq_dec sched i)%nat) -> interleave sched m = Ok m' -> joined m'.
Proof using Hs.
  intros Hi Hf H. apply rank_joined. intros i Li. pose proof (interleave_inv sched m m' Hi H) as (_ & La & _). pose proof (interleave_rank sched m m' i Hi H) as A. specialize (Hf i). lia.
Qed.

(** ** At every moment each entry is the old one or the new one *)
Lemma moment m i x row o : minv out m -> nth_error out i = Some x -> nth_error (m_rows m) i = Some row -> final x = Ok o ->
  length row = length x /\ exists k, row = firstn k o ++ skipn k x.
Proof using Hs.
  intros (Lr & La & I & _) Hx Hr Hf. destruct (nth_error (m_at m) i) as [ph|] eqn:Ep; [|apply nth_error_None in Ep; apply nth_lt in Hx; lia]. pose proof (I i x row ph Hx Hr Ep) as P.
  destruct ph as [acc|x'|x'|x' c|o' k|]; cbn [phase_inv] in P.
  1-4: destruct P as (-> & _); split; [reflexivity|]; exists 0%nat; reflexivity.
  - destruct P as (F & L & _ & ->). rewrite F in Hf. apply Ok_inj in Hf. subst o'. rewrite mix_length by assumption. split; [congruence|]. exists k. reflexivity.
  - rewrite P in Hf. apply Ok_inj in Hf. subst row. assert (L : length o = length x) by (unfold ParProofs.final in P; destruct (look x) as [v| | |]; cbn [bind] in P; try discriminate; apply (write_over_length pin pout x _ o (sample_at i x Hx) P)).
    split; [assumption|]. exists (length x). rewrite firstn_all2, skipn_all2 by lia. rewrite app_nil_r. reflexivity.
Qed.
End Par.

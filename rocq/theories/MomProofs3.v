From Coq Require Import Reals List Lra.
From Verif Require Import Base CommonModel TextModel ConvModel MomModel MomSpec ConvProofs MomProofs MomProofs2.
From Verif Require NlGrad.
Open Scope R_scope.

Lemma volume_overflow lo : forall hi ns dt nb, length hi = length lo -> length ns = length lo -> Forall (fun n => 0 < n)%nat ns -> (0 < nb <= 2147483647)%Z ->
  (2147483647 < nb * positions (domain lo hi ns))%Z -> volume (length lo) lo hi (List.map Z.of_nat ns) dt nb = UB.
Proof.
  unfold positions. induction lo as [|a lo IH]; intros [|b hi] [|n ns] dt nb H1 H2 Hp Hnb Hmax; cbn [length] in H1, H2; try discriminate; [cbn in Hmax; lia|].
  injection H1 as H1. injection H2 as H2. inversion_clear Hp. cbn [domain List.map count fold_right] in Hmax. set (P := fold_right Nat.mul 1%nat (List.map count (domain lo hi ns))) in *.
  cbn [volume length List.map]. destruct (Rlt_dec a b) as [Lt|Ge].
  - destruct (NlGrad.rltb_dec 0 (b - a)) as [_|X]; [|exfalso; lra]. destruct (int_ok (nb * Z.of_nat n)) eqn:B; [|reflexivity].
    unfold int_ok in B. apply andb_true_iff in B. destruct B as [_ B]. apply Z.leb_le in B. rewrite IH; try assumption; [reflexivity|nia|]. fold P. lia.
  - destruct (NlGrad.rltb_dec 0 (b - a)) as [X|_]; [exfalso; lra|]. rewrite IH; try assumption; [reflexivity|]. fold P. lia.
Qed.

Lemma too_many nX nY lo hi rows f m ns dx dy val samples dims : samplable nX nY lo hi rows f m ns -> wanted nX samples dims ns dx dy -> (2147483647 < positions (domain lo hi ns))%Z ->
  data2moments (Interpolant nX nY lo hi rows val) samples dims = UB.
Proof.
  intros [Hf Hlo Hhi Hr0 Hr Hm Hn] Hw Hmax. destruct (wanted_ok _ _ _ _ _ _ Hw) as (Ln & Es & Ed). cbn [data2moments]. rewrite Es, Ed. cbn [bind].
  destruct (get_min_ok nX nY rows Hr0 Hr) as (dmin & Em & _). rewrite Em. cbn [bind]. rewrite <- Hlo at 1. rewrite volume_overflow; [reflexivity|congruence|congruence|assumption|lia|lia].
Qed.

Lemma channels_outside nX dmin dx dy dt x y k acc : acc <> [] -> (length x <= dx \/ length x <= dy)%nat -> channels_step nX dmin (Z.of_nat dx) (Z.of_nat dy) dt x y k acc = Abort.
Proof.
  intros Ha H. destruct acc as [|a acc]; [contradiction|]. cbn [channels_step]. unfold nth_checked. destruct (nth_error y k); [|reflexivity]. cbn [bind]. destruct (nth_error dmin (nX + k)); [|reflexivity]. cbn [bind].
  assert (A : forall d, (length x <= d)%nat -> at_index x (Z.of_nat d) = Abort).
  { intros d Hd. unfold at_index. destruct (Z.ltb_spec (Z.of_nat d) 0); [reflexivity|]. rewrite Nat2Z.id. unfold nth_checked. destruct (nth_error x d) eqn:E; [|reflexivity]. assert (d < length x)%nat by (apply nth_error_Some; congruence). lia. }
  destruct H as [H|H]; [rewrite (A dx H); reflexivity|]. destruct (at_index x (Z.of_nat dx)) eqn:E; cbn [bind]; try (rewrite (A dy H); reflexivity); unfold at_index, nth_checked in E.
  - destruct (Z.ltb _ _); [discriminate|]. destruct (nth_error x _); discriminate.
  - reflexivity.
  - destruct (Z.ltb _ _); [discriminate|]. destruct (nth_error x _); discriminate.
Qed.
Lemma outside nX nY lo hi rows f m ns dx dy val samples dims : samplable nX nY lo hi rows f m ns -> wanted nX samples dims ns dx dy -> (positions (domain lo hi ns) <= 2147483647)%Z ->
  (forall x, length x = nX -> val x = Ok (f x)) -> (0 < nY)%nat -> (nX <= dx \/ nX <= dy)%nat -> data2moments (Interpolant nX nY lo hi rows val) samples dims = Abort.
Proof.
  intros [Hf Hlo Hhi Hr0 Hr Hm Hn] Hw Hmax Hval HY Ho. destruct (wanted_ok _ _ _ _ _ _ Hw) as (Ln & Es & Ed). cbn [data2moments]. rewrite Es, Ed. cbn [bind fst snd].
  destruct (get_min_ok nX nY rows Hr0 Hr) as (dmin & Em & _). rewrite Em. cbn [bind].
  destruct (volume_ok lo hi ns 1 1%Z ltac:(congruence) ltac:(congruence) Hn ltac:(lia)) as (vol & Ev & Vv). { rewrite Z.mul_1_l. exact Hmax. }
  rewrite Hlo in Ev. rewrite Ev. cbn [bind]. rewrite Z.mul_1_l, Nat2Z.id.
  assert (Pp := mul_pos_list _ (domain_counts lo hi ns Hn)). destruct (domain_spec lo hi ns ltac:(congruence) ltac:(congruence)) as (_ & _ & D3).
  destruct (fold_right Nat.mul 1%nat (counts (domain lo hi ns))) as [|P]; [lia|]. cbn [integrate]. set (x := position _ _ _ _).
  assert (Ld : forall l g, length (digits g l) = length l) by (induction l; intros; cbn; [reflexivity|f_equal; auto]).
  assert (Lx : length x = nX) by (subst x; rewrite position_length; rewrite ?Ld; unfold counts; rewrite ?List.map_length; congruence).
  rewrite (Hval x Lx). cbn [bind]. rewrite channels_outside; [reflexivity| |lia]. destruct nY; [lia|discriminate].
Qed.

(** all of channel [c] at its least value *)
Lemma moment_zero axes w dx dy : (forall x, length x = length axes -> w x = 0) -> raw_moment axes w dx dy 0 0 = 0 /\ forall a b, moment axes w dx dy a b = None.
Proof.
  intros H. assert (E : raw_moment axes w dx dy 0 0 = 0).
  { unfold raw_moment. rewrite (grid_ext axes _ (fun x => 0 * 0)) by (intros x Hx; rewrite (H x Hx); ring). rewrite grid_scale. ring. }
  split; [assumption|]. intros a b. unfold moment. rewrite E. destruct (Req_EM_T 0 0); [reflexivity|contradiction].
Qed.
Lemma moment_ext axes v w dx dy a b : (forall x, length x = length axes -> v x = w x) -> moment axes v dx dy a b = moment axes w dx dy a b /\ raw_moment axes v dx dy a b = raw_moment axes w dx dy a b.
Proof.
  intros H. assert (E : forall p q, raw_moment axes v dx dy p q = raw_moment axes w dx dy p q) by (intros; unfold raw_moment; f_equal; apply grid_ext; intros x Hx; rewrite (H x Hx); reflexivity).
  split; [unfold moment; rewrite !E; reflexivity|apply E].
Qed.

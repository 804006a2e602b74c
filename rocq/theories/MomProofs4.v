From Coq Require Import Reals List Lra.
From Verif Require Import Base CommonModel TextModel ConvModel MomModel MomSpec ConvProofs MomProofs MomProofs2 MomProofs3.
Open Scope R_scope.

Lemma raw_sym axes w dx dy a b : raw_moment axes w dx dy a b = raw_moment axes w dy dx b a.
Proof. unfold raw_moment. f_equal. apply grid_ext. intros. ring. Qed.
Lemma moment_sym axes w dx dy a b : moment axes w dx dy a b = moment axes w dy dx b a.
Proof. unfold moment. rewrite !(raw_sym axes w dx dy). reflexivity. Qed.

Lemma reported_line axes fs dx dy c a b v : In (a, b) exponents -> reported (List.map (line axes fs dx dy) exponents) c a b v ->
  exists w, nth_error fs c = Some w /\ ((a, b) = (0, 0)%nat /\ v = raw_moment axes w dx dy 0 0 \/ (a, b) <> (0, 0)%nat /\ moment axes w dx dy a b = Some v).
Proof.
  intros Ie (l & Il & El). apply in_map_iff in Il. destruct Il as ([p q] & E & Ip). unfold line in E. cbn [fst snd] in E. injection E as E1 E2.
  assert (Epq : (p, q) = (a, b)).
  { clear - Ie Ip E1. cbn in Ie, Ip. repeat (destruct Ie as [Ie|Ie]; [injection Ie as <- <-; repeat (destruct Ip as [Ip|Ip]; [injection Ip as <- <-; try reflexivity; cbn in E1; discriminate|]); contradiction|]). contradiction. }
  injection Epq as -> ->. subst l. rewrite nth_error_map in El. destruct (nth_error fs c) as [w|] eqn:Ew; [|discriminate]. cbn in El. exists w. split; [reflexivity|].
  destruct a as [|a]; [destruct b as [|b]|]; injection El as El; [left|right|right]; (split; [congruence|auto]).
Qed.
Lemma reported_intro axes fs dx dy c a b w v : In (a, b) exponents -> nth_error fs c = Some w -> ((a, b) = (0, 0)%nat /\ v = raw_moment axes w dx dy 0 0 \/ (a, b) <> (0, 0)%nat /\ moment axes w dx dy a b = Some v) ->
  reported (List.map (line axes fs dx dy) exponents) c a b v.
Proof.
  intros Ie Ew H. eexists. split; [apply in_map_iff; exists (a, b); split; [unfold line; reflexivity|assumption]|]. rewrite nth_error_map, Ew. cbn.
  destruct a as [|a]; [destruct b as [|b]|]; destruct H as [[E H]|[E H]]; congruence.
Qed.

Lemma domain_axis lo : forall hi ns k, length hi = length lo -> length ns = length lo -> (k < length lo)%nat ->
  low (nth k (domain lo hi ns) (mkAxis 0 0 0)) = nth k lo 0 /\ high (nth k (domain lo hi ns) (mkAxis 0 0 0)) = nth k hi 0 /\ count (nth k (domain lo hi ns) (mkAxis 0 0 0)) = if Rlt_dec (nth k lo 0) (nth k hi 0) then nth k ns 0%nat else 1%nat.
Proof. induction lo as [|a lo IH]; intros [|b hi] [|n ns] [|k] H1 H2 Hk; cbn in *; try discriminate; try lia; [auto|]. apply IH; lia. Qed.
Lemma domain_positive lo hi ns : Forall (fun n => 0 < n)%nat ns -> Forall (fun a => 0 < count a)%nat (domain lo hi ns).
Proof. intros H. assert (D := domain_counts lo hi ns H). apply (proj1 (Forall_map count (fun n => 0 < n)%nat _)). exact D. Qed.

Section Bounds.
Variable nX nY : nat.
Variable lo hi : list R.
Variable rows : list (list R).
Variable f : list R -> list R.
Variable m : nat -> R.
Variable ns : list nat.
Hypothesis Hs : samplable nX nY lo hi rows f m ns.
Variable val : list R -> outcome (list R).
Hypothesis Hval : forall x, length x = nX -> val x = Ok (f x).
Variable samples dims : option (list Z).
Variable dx dy : nat.
Hypothesis Hw : wanted nX samples dims ns dx dy.
Hypothesis Hdx : (dx < nX)%nat.
Hypothesis Hdy : (dy < nX)%nat.
Hypothesis Hmax : (positions (domain lo hi ns) <= 2147483647)%Z.
Variable lines : list (str * list (option R)).
Hypothesis Hrun : data2moments (Interpolant nX nY lo hi rows val) samples dims = Ok (0%Z, Some lines).

Lemma lines_are : lines = List.map (line (domain lo hi ns) (List.map (above_least f m) (seq 0 nY)) dx dy) exponents.
Proof. destruct Hs. rewrite (moments_ok nX nY lo hi rows f ns dx dy m) in Hrun; auto. congruence. Qed.
Lemma channel_reported c a b v : (c < nY)%nat -> In (a, b) exponents ->
  (reported lines c a b v <-> (a, b) = (0, 0)%nat /\ v = raw_moment (domain lo hi ns) (above_least f m c) dx dy 0 0 \/ (a, b) <> (0, 0)%nat /\ moment (domain lo hi ns) (above_least f m c) dx dy a b = Some v).
Proof.
  intros Hc Ie. rewrite lines_are. assert (En : nth_error (List.map (above_least f m) (seq 0 nY)) c = Some (above_least f m c)).
  { rewrite nth_error_map, (nth_error_nth' _ 0%nat) by (rewrite seq_length; assumption). rewrite seq_nth by assumption. reflexivity. }
  split; intros H; [|apply (reported_intro _ _ _ _ _ _ _ _ _ Ie En H)]. destruct (reported_line _ _ _ _ _ _ _ _ Ie H) as (w & Ew & P). rewrite En in Ew. injection Ew as <-. exact P.
Qed.
Lemma lens : length hi = length lo /\ length ns = length lo /\ length lo = nX.
Proof. destruct Hs. destruct (wanted_ok _ _ _ _ _ _ Hw) as (L & _). repeat split; congruence. Qed.

Section Positive.
Variable c : nat.
Hypothesis Hc : (c < nY)%nat.
Hypothesis Habove : forall x, on_grid (domain lo hi ns) x -> m c <= nth c (f x) 0.
Let weight : forall x, on_grid (domain lo hi ns) x -> 0 <= above_least f m c x.
Proof. intros x Hx. unfold above_least. specialize (Habove x Hx). lra. Qed.
Let dpos : Forall (fun a => 0 < count a)%nat (domain lo hi ns).
Proof. destruct Hs. apply domain_positive. assumption. Qed.
Let rep a b v (H : reported lines c a b v) (Ie : In (a, b) exponents) := proj1 (channel_reported c a b v Hc Ie) H.

Lemma total_nonneg v : reported lines c 0 0 v -> 0 <= v.
Proof. intros H. destruct (rep _ _ _ H ltac:(cbn; tauto)) as [[_ ->]|[N _]]; [|congruence]. apply raw_zero; assumption. Qed.
Lemma mean_in v (a b : nat) : (a, b) = (1, 0)%nat \/ (a, b) = (0, 1)%nat -> let k := match a with 0%nat => dy | _ => dx end in reported lines c a b v -> nth k lo 0 <= nth k hi 0 -> nth k lo 0 <= v <= nth k hi 0.
Proof.
  destruct lens as (L1 & L2 & L3). intros [E|E] k H Hlh; injection E as -> ->; cbn in k; subst k.
  - destruct (rep _ _ _ H ltac:(cbn; tauto)) as [[? _]|[_ E]]; [discriminate|]. destruct (domain_axis lo hi ns dx L1 L2 ltac:(lia)) as (D1 & D2 & _).
    rewrite <- D1, <- D2 in *. apply (mean_range (domain lo hi ns) (above_least f m c) dx dy dpos weight v); try assumption. destruct (domain_spec lo hi ns L1 L2) as (_ & _ & ->). lia.
  - destruct (rep _ _ _ H ltac:(cbn; tauto)) as [[? _]|[_ E]]; [discriminate|]. destruct (domain_axis lo hi ns dy L1 L2 ltac:(lia)) as (D1 & D2 & _). rewrite moment_sym in E.
    rewrite <- D1, <- D2 in *. apply (mean_range (domain lo hi ns) (above_least f m c) dy dx dpos weight v); try assumption. destruct (domain_spec lo hi ns L1 L2) as (_ & _ & ->). lia.
Qed.
Lemma variances v1 v2 : (reported lines c 1 0 v1 -> reported lines c 2 0 v2 -> v1 * v1 <= v2) /\ (reported lines c 0 1 v1 -> reported lines c 0 2 v2 -> v1 * v1 <= v2).
Proof.
  split; intros A B; destruct (rep _ _ _ A ltac:(cbn; tauto)) as [[? _]|[_ E1]]; try discriminate; destruct (rep _ _ _ B ltac:(cbn; tauto)) as [[? _]|[_ E2]]; try discriminate.
  - apply (variance_bound (domain lo hi ns) (above_least f m c) dx dy dpos weight); assumption.
  - rewrite moment_sym in E1, E2. apply (variance_bound (domain lo hi ns) (above_least f m c) dy dx dpos weight); assumption.
Qed.
Lemma correlation v20 v11 v02 : reported lines c 2 0 v20 -> reported lines c 1 1 v11 -> reported lines c 0 2 v02 -> v11 * v11 <= v20 * v02.
Proof.
  intros A B C. destruct (rep _ _ _ A ltac:(cbn; tauto)) as [[? _]|[_ E1]]; try discriminate; destruct (rep _ _ _ B ltac:(cbn; tauto)) as [[? _]|[_ E2]]; try discriminate; destruct (rep _ _ _ C ltac:(cbn; tauto)) as [[? _]|[_ E3]]; try discriminate.
  apply (covariance_bound (domain lo hi ns) (above_least f m c) dx dy dpos weight); assumption.
Qed.
End Positive.

Lemma uniform_mean c h : (c < nY)%nat -> h <> 0 -> (forall x, length x = nX -> nth c (f x) 0 = m c + h) -> nth dx lo 0 < nth dx hi 0 ->
  reported lines c 1 0 (nth dx lo 0 + (nth dx hi 0 - nth dx lo 0) * ((INR (nth dx ns 0%nat) - 1) / (2 * INR (nth dx ns 0%nat)))).
Proof.
  intros Hc Hh Hu Hlt. destruct lens as (L1 & L2 & L3). apply (channel_reported c 1 0 _ Hc ltac:(cbn; tauto)). right. split; [discriminate|].
  assert (dpos : Forall (fun a => 0 < count a)%nat (domain lo hi ns)) by (destruct Hs; apply domain_positive; assumption).
  destruct (domain_spec lo hi ns L1 L2) as (_ & _ & D3).
  destruct (moment_ext (domain lo hi ns) (above_least f m c) (fun _ => h) dx dy 1 0) as [-> _]. { intros x Hx. unfold above_least. rewrite Hu by congruence. ring. }
  destruct (uniform (domain lo hi ns) h dx dy dpos ltac:(lia) Hh) as [_ E]. rewrite E. destruct (domain_axis lo hi ns dx L1 L2 ltac:(lia)) as (D1 & D2 & Dc). rewrite D1, D2, Dc. destruct (Rlt_dec (nth dx lo 0) (nth dx hi 0)); [reflexivity|contradiction].
Qed.
Lemma uniform_total c h : (c < nY)%nat -> h <> 0 -> (forall x, length x = nX -> nth c (f x) 0 = m c + h) -> (forall k, (k < nX)%nat -> nth k lo 0 < nth k hi 0) ->
  reported lines c 0 0 (h * product (List.map (fun k => nth k hi 0 - nth k lo 0) (seq 0 nX))).
Proof.
  intros Hc Hh Hu Hlt. destruct lens as (L1 & L2 & L3). apply (channel_reported c 0 0 _ Hc ltac:(cbn; tauto)). left. split; [reflexivity|].
  assert (dpos : Forall (fun a => 0 < count a)%nat (domain lo hi ns)) by (destruct Hs; apply domain_positive; assumption).
  destruct (domain_spec lo hi ns L1 L2) as (_ & _ & D3).
  destruct (moment_ext (domain lo hi ns) (above_least f m c) (fun _ => h) dx dy 0 0) as [_ ->]. { intros x Hx. unfold above_least. rewrite Hu by congruence. ring. }
  destruct (uniform (domain lo hi ns) h dx dy dpos ltac:(lia) Hh) as [E _]. rewrite E. f_equal. f_equal.
  apply nth_ext with (d := 0) (d' := 0); [rewrite !List.map_length, seq_length; congruence|]. intros k Hk. rewrite List.map_length, seq_length in Hk. rewrite nth_map_seq by assumption.
  set (F := fun a : axis => _). rewrite nth_indep with (l := List.map F _) (d' := F (mkAxis 0 0 0)) by (rewrite List.map_length; lia). rewrite (map_nth F). subst F. cbn beta. destruct (domain_axis lo hi ns k L1 L2 ltac:(lia)) as (D1 & D2 & _). rewrite D1, D2. destruct (Rlt_dec _ _) as [_|N]; [reflexivity|]. exfalso. apply N, Hlt. assumption.
Qed.
End Bounds.

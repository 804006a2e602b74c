(** C81-C82: data2moments. *)
From Coq Require Import Reals List Lra.
From Verif Require Import Base CommonModel TextModel ConvModel MomModel MomSpec ConvProofs MomProofs MomProofs2 MomProofs3 MomProofs4.
Open Scope R_scope.

(** ** C81: what is written *)
(** ten lines: the total, then the moments relative to it, each the sum over all
    positions of a regular grid *)
Theorem C81_moments : forall nX nY lo hi rows f m ns val samples dims dx dy,
  samplable nX nY lo hi rows f m ns -> (forall x, length x = nX -> val x = Ok (f x)) -> wanted nX samples dims ns dx dy -> (dx < nX)%nat -> (dy < nX)%nat -> (positions (domain lo hi ns) <= 2147483647)%Z ->
  data2moments (Interpolant nX nY lo hi rows val) samples dims =
    Ok (0%Z, Some (List.map (line (domain lo hi ns) (List.map (above_least f m) (seq 0 nY)) dx dy) exponents)).
Proof. intros * [] Hv Hw Hx Hy Hm. apply moments_ok; auto. Qed.
Print Assumptions C81_moments.

(** coordinates the data do not have end the program, in particular the default
    ones for data with one coordinate *)
Theorem C81_coordinates_refuted : forall nX nY lo hi rows f m ns val samples dims dx dy,
  samplable nX nY lo hi rows f m ns -> (forall x, length x = nX -> val x = Ok (f x)) -> wanted nX samples dims ns dx dy -> (positions (domain lo hi ns) <= 2147483647)%Z -> (0 < nY)%nat -> (nX <= dx \/ nX <= dy)%nat ->
  data2moments (Interpolant nX nY lo hi rows val) samples dims = Abort.
Proof. intros * Hs Hv Hw Hm HY Ho. eapply outside; eauto. Qed.
Print Assumptions C81_coordinates_refuted.
(** more positions than an int holds are undefined, in particular the default 100
    per coordinate for data with five coordinates or more *)
Theorem C81_overflow_refuted : forall nX nY lo hi rows f m ns val samples dims dx dy,
  samplable nX nY lo hi rows f m ns -> wanted nX samples dims ns dx dy -> (2147483647 < positions (domain lo hi ns))%Z ->
  data2moments (Interpolant nX nY lo hi rows val) samples dims = UB.
Proof. intros. eapply too_many; eauto. Qed.
Print Assumptions C81_overflow_refuted.
(** a channel that is constant has total 0 and no other moment *)
Theorem C81_constant_refuted : forall nX nY lo hi rows f m ns val samples dims dx dy lines c,
  samplable nX nY lo hi rows f m ns -> (forall x, length x = nX -> val x = Ok (f x)) -> wanted nX samples dims ns dx dy -> (dx < nX)%nat -> (dy < nX)%nat -> (positions (domain lo hi ns) <= 2147483647)%Z ->
  data2moments (Interpolant nX nY lo hi rows val) samples dims = Ok (0%Z, Some lines) -> (c < nY)%nat -> (forall x, length x = nX -> nth c (f x) 0 = m c) ->
  reported lines c 0 0 0 /\ forall a b v, In (a, b) exponents -> (a, b) <> (0, 0)%nat -> ~ reported lines c a b v.
Proof.
  intros * Hs Hv Hw Hx Hy Hm Hrun Hc Hf. destruct (lens nX nY lo hi rows f m ns Hs samples dims dx dy Hw) as (L1 & L2 & L3). destruct (domain_spec lo hi ns L1 L2) as (_ & _ & D3).
  destruct (moment_zero (domain lo hi ns) (above_least f m c) dx dy) as [Z N]. { intros x Lx. unfold above_least. rewrite Hf by congruence. ring. }
  split; [apply (channel_reported _ _ _ _ _ _ _ _ Hs _ Hv _ _ _ _ Hw Hx Hy Hm _ Hrun); [assumption|cbn; tauto|left; split; [reflexivity|congruence]]|].
  intros a b v Ie Ne Hr. apply (channel_reported _ _ _ _ _ _ _ _ Hs _ Hv _ _ _ _ Hw Hx Hy Hm _ Hrun) in Hr; [|assumption|assumption]. destruct Hr as [[E _]|[_ E]]; [contradiction|]. rewrite N in E. discriminate.
Qed.
Print Assumptions C81_constant_refuted.
(** plain lists of samples are refused before the output is opened; without an
    object the output is left empty *)
Example C81_refused : forall samples dims, data2moments Segments samples dims = Ok (1%Z, None) /\ data2moments Nothing samples dims = Ok (1%Z, Some []).
Proof. split; reflexivity. Qed.

(** ** C82: the reported numbers are moments of a distribution *)
Section C82.
Variable nX nY : nat.
Variable lo hi : list R.
Variable rows : list (list R).
Variable f : list R -> list R.
Variable m : nat -> R.
Variable ns : list nat.
Variable val : list R -> outcome (list R).
Variable samples dims : option (list Z).
Variable dx dy : nat.
Variable lines : list (str * list (option R)).
(** [lines] is what the program wrote *)
Definition ran : Prop :=
  samplable nX nY lo hi rows f m ns /\ (forall x, length x = nX -> val x = Ok (f x)) /\ wanted nX samples dims ns dx dy /\ (dx < nX)%nat /\ (dy < nX)%nat /\ (positions (domain lo hi ns) <= 2147483647)%Z /\
  data2moments (Interpolant nX nY lo hi rows val) samples dims = Ok (0%Z, Some lines).
End C82.

(** when the interpolant is nowhere below the least sample *)
Theorem C82_distribution : forall nX nY lo hi rows f m ns val samples dims dx dy lines, ran nX nY lo hi rows f m ns val samples dims dx dy lines ->
  forall c, (c < nY)%nat -> (forall x, on_grid (domain lo hi ns) x -> m c <= nth c (f x) 0) ->
  (forall v, reported lines c 0 0 v -> 0 <= v) /\
  (forall v, reported lines c 1 0 v -> nth dx lo 0 <= nth dx hi 0 -> nth dx lo 0 <= v <= nth dx hi 0) /\
  (forall v, reported lines c 0 1 v -> nth dy lo 0 <= nth dy hi 0 -> nth dy lo 0 <= v <= nth dy hi 0) /\
  (forall v vv, reported lines c 1 0 v -> reported lines c 2 0 vv -> v * v <= vv) /\
  (forall v vv, reported lines c 0 1 v -> reported lines c 0 2 vv -> v * v <= vv) /\
  (forall xx xy yy, reported lines c 2 0 xx -> reported lines c 1 1 xy -> reported lines c 0 2 yy -> xy * xy <= xx * yy).
Proof.
  intros * (Hs & Hv & Hw & Hx & Hy & Hm & Hrun) c Hc Ha.
  split; [intros v; apply (total_nonneg _ _ _ _ _ _ _ _ Hs _ Hv _ _ _ _ Hw Hx Hy Hm _ Hrun c Hc Ha)|].
  split; [intros v; apply (mean_in _ _ _ _ _ _ _ _ Hs _ Hv _ _ _ _ Hw Hx Hy Hm _ Hrun c Hc Ha v 1 0); auto|].
  split; [intros v; apply (mean_in _ _ _ _ _ _ _ _ Hs _ Hv _ _ _ _ Hw Hx Hy Hm _ Hrun c Hc Ha v 0 1); auto|].
  split; [intros v vv; apply (variances _ _ _ _ _ _ _ _ Hs _ Hv _ _ _ _ Hw Hx Hy Hm _ Hrun c Hc Ha)|].
  split; [intros v vv; apply (variances _ _ _ _ _ _ _ _ Hs _ Hv _ _ _ _ Hw Hx Hy Hm _ Hrun c Hc Ha)|].
  intros xx xy yy; apply (correlation _ _ _ _ _ _ _ _ Hs _ Hv _ _ _ _ Hw Hx Hy Hm _ Hrun c Hc Ha).
Qed.
Print Assumptions C82_distribution.

(** scaling and shifting the values scales the total and changes nothing else *)
Theorem C82_scale_invariant : forall nX nY lo hi rows f m ns val samples dims dx dy lines rows' f' m' val' lines' k s,
  ran nX nY lo hi rows f m ns val samples dims dx dy lines -> ran nX nY lo hi rows' f' m' ns val' samples dims dx dy lines' -> 0 < k ->
  (forall c x, (c < nY)%nat -> length x = nX -> nth c (f' x) 0 = k * nth c (f x) 0 + s c) ->
  length rows' = length rows -> (forall i c, (i < length rows)%nat -> (c < nY)%nat -> nth (nX + c) (nth i rows' []) 0 = k * nth (nX + c) (nth i rows []) 0 + s c) ->
  forall c a b v, (c < nY)%nat -> In (a, b) exponents -> reported lines c a b v -> reported lines' c a b (match (a, b) with (0, 0)%nat => k * v | _ => v end).
Proof.
  intros * (Hs & Hv & Hw & Hx & Hy & Hm & Hrun) (Hs' & Hv' & Hw' & Hx' & Hy' & Hm' & Hrun') Hk Hf Hl Hr c a b v Hc Ie H.
  apply (channel_reported _ _ _ _ _ _ _ _ Hs _ Hv _ _ _ _ Hw Hx Hy Hm _ Hrun c a b v Hc Ie) in H. apply (channel_reported _ _ _ _ _ _ _ _ Hs' _ Hv' _ _ _ _ Hw' Hx' Hy' Hm' _ Hrun' c a b _ Hc Ie).
  assert (Em : m' c = k * m c + s c).
  { destruct Hs as [_ _ _ _ _ HL _]. destruct Hs' as [_ _ _ _ _ HL' _]. destruct (HL c Hc) as [(r & Ir & Er) B]. destruct (HL' c Hc) as [(r' & Ir' & Er') B'].
    destruct (In_nth _ _ [] Ir) as (i & Hi & Ei). destruct (In_nth _ _ [] Ir') as (j & Hj & Ej). rewrite Hl in Hj.
    assert (B1 := B' (nth i rows' []) ltac:(apply nth_In; lia)). rewrite Hr, Ei, Er in B1 by assumption.
    assert (B2 := B (nth j rows []) ltac:(apply nth_In; lia)). rewrite <- Ej, Hr in Er' by assumption. nra. }
  destruct (lens nX nY lo hi rows f m ns Hs samples dims dx dy Hw) as (L1 & L2 & L3). destruct (domain_spec lo hi ns L1 L2) as (_ & _ & D3).
  assert (Ee : forall x, length x = length (domain lo hi ns) -> above_least f' m' c x = k * above_least f m c x) by (intros x Lx; unfold above_least; rewrite Em, Hf by congruence; ring).
  destruct H as [[E ->]|[N E]].
  - injection E as -> ->. left. split; [reflexivity|]. destruct (moment_ext (domain lo hi ns) _ _ dx dy 0 0 Ee) as [_ ->]. unfold raw_moment. rewrite <- Rmult_assoc, <- grid_scale. f_equal. apply grid_ext. intros. ring.
  - right. split; [assumption|]. destruct (moment_ext (domain lo hi ns) _ _ dx dy a b Ee) as [-> _]. rewrite moment_scale by lra. rewrite E. destruct a as [|a]; [destruct b|]; [congruence|reflexivity|reflexivity].
Qed.
Print Assumptions C82_scale_invariant.

(** for values that are everywhere the same amount above the least sample, the
    total is the volume times that amount; the mean is half a step below the
    middle of the domain *)
Theorem C82_uniform : forall nX nY lo hi rows f m ns val samples dims dx dy lines, ran nX nY lo hi rows f m ns val samples dims dx dy lines ->
  forall c h, (c < nY)%nat -> h <> 0 -> (forall x, length x = nX -> nth c (f x) 0 = m c + h) -> (forall k, (k < nX)%nat -> nth k lo 0 < nth k hi 0) ->
  reported lines c 0 0 (h * product (List.map (fun k => nth k hi 0 - nth k lo 0) (seq 0 nX))) /\
  reported lines c 1 0 ((nth dx lo 0 + nth dx hi 0) / 2 - (nth dx hi 0 - nth dx lo 0) / (2 * INR (nth dx ns 0%nat))).
Proof.
  intros * (Hs & Hv & Hw & Hx & Hy & Hm & Hrun) c h Hc Hh Hf Hlt. split; [apply (uniform_total _ _ _ _ _ _ _ _ Hs _ Hv _ _ _ _ Hw Hx Hy Hm _ Hrun c h); assumption|].
  assert (U := uniform_mean _ _ _ _ _ _ _ _ Hs _ Hv _ _ _ _ Hw Hx Hy Hm _ Hrun c h Hc Hh Hf (Hlt dx Hx)).
  assert (Nn : INR (nth dx ns 0%nat) <> 0). { destruct (lens nX nY lo hi rows f m ns Hs samples dims dx dy Hw) as (_ & L2 & L3). destruct Hs as [_ _ _ _ _ _ Hp]. rewrite Forall_forall in Hp. specialize (Hp (nth dx ns 0%nat) ltac:(apply nth_In; lia)). apply not_0_INR. lia. }
  match type of U with reported _ _ _ _ ?v => replace v with ((nth dx lo 0 + nth dx hi 0) / 2 - (nth dx hi 0 - nth dx lo 0) / (2 * INR (nth dx ns 0%nat))) in U by (field; assumption) end. exact U.
Qed.
Print Assumptions C82_uniform.

(** two coordinates, two samples, the default options *)
Definition mom_f (x : list R) : list R := [nth 0 x 0 + 2].
Example C81_case : samplable 2 1 [0; 0] [1; 1] [[0; 0; 2]; [1; 1; 3]] mom_f (fun _ => 2) [100; 100]%nat /\ wanted 2 None None [100; 100]%nat 0 1 /\ (positions (domain [0; 0]%R [1; 1]%R [100; 100]%nat) <= 2147483647)%Z.
Proof.
  split; [|split].
  - constructor; [reflexivity|reflexivity|reflexivity|discriminate|repeat constructor| |repeat constructor; lia]. intros [|c] Hc; [|lia]. split; [exists [0; 0; 2]; split; [left|]; reflexivity|]. intros r [<-|[<-|[]]]; cbn; lra.
  - split; right; auto.
  - unfold positions. cbn. destruct (Rlt_dec 0 1) as [_|N]; [|exfalso; lra]. vm_compute. discriminate.
Qed.
Example C82_case : exists lines, ran 2 1 [0; 0] [1; 1] [[0; 0; 2]; [1; 1; 3]] mom_f (fun _ => 2) [100; 100]%nat (fun x => Ok (mom_f x)) None None 0 1 lines /\ (forall x, on_grid (domain [0; 0] [1; 1] [100; 100]%nat) x -> 2 <= nth 0 (mom_f x) 0).
Proof.
  destruct C81_case as (A & B & C). eexists. split; [split; [exact A|]; split; [reflexivity|]; split; [exact B|]; split; [lia|]; split; [lia|]; split; [exact C|]; apply (C81_moments _ _ _ _ _ mom_f (fun _ => 2) [100; 100]%nat _ _ _ 0 1 A); [reflexivity|exact B|lia|lia|exact C]|].
  intros x Hx. destruct (on_grid_nth _ _ Hx 0 ltac:(cbn; lia)) as (i & Hi & E). assert (L : low (nth 0 (domain [0; 0] [1; 1] [100; 100]%nat) (mkAxis 0 0 0)) <= high (nth 0 (domain [0; 0] [1; 1] [100; 100]%nat) (mkAxis 0 0 0))) by (cbn; lra).
  destruct (tick_range _ i L Hi) as [T _]. rewrite <- E in T. cbn [domain nth low] in T. cbn. lra.
Qed.
Example C81_one_dimension : data2moments (Interpolant 1 1 [0] [1] [[0; 2]] (fun x => Ok [2])) (Some [5]%Z) None = Abort.
Proof.
  apply (C81_coordinates_refuted 1 1 [0] [1] [[0; 2]] (fun _ => [2]) (fun _ => 2) [5]%nat _ _ _ 0 1); [|reflexivity|split; [left; auto|right; auto]|unfold positions; cbn; destruct (Rlt_dec 0 1); cbn; lia|lia|lia].
  constructor; [reflexivity|reflexivity|reflexivity|discriminate|repeat constructor| |repeat constructor; lia]. intros [|c] Hc; [|lia]. split; [exists [0; 2]; split; [left|]; reflexivity|]. intros r [<-|[]]; cbn; lra.
Qed.

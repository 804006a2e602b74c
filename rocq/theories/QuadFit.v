From Coq Require Import Reals List Arith Lia Lra Permutation.
From Verif Require Import Base Num ParamsModel GeoModel ArgsModel DataModel TextModel FuncModel MonoModel MonoProofs FuncFile RatModel RatSpec RatProofs QuadModel QuadSpec QuadProofs.
Open Scope R_scope.

Lemma Forall2_nth {A B} (P : A -> B -> Prop) l : forall l', Forall2 P l l' <-> length l = length l' /\
  forall j a b, nth_error l j = Some a -> nth_error l' j = Some b -> P a b.
Proof.
  induction l as [|x l IH]; intros [|y l']; split.
  - intros _. split; [reflexivity|]. intros [|j] ? ? H; discriminate H.
  - constructor.
  - intros H; inversion H.
  - intros [H _]; discriminate H.
  - intros H; inversion H.
  - intros [H _]; discriminate H.
  - intros H. inversion H as [|? ? ? ? Hxy Hll]; subst. apply IH in Hll as [Hl Hn]. split; [cbn; lia|]. intros [|j] a b Ea Eb; cbn in *; [congruence|]. eapply Hn; eassumption.
  - intros [Hl Hn]. constructor; [apply (Hn 0%nat); reflexivity|]. apply IH. split; [cbn in Hl; lia|]. intros j a b Ea Eb. apply (Hn (S j)); assumption.
Qed.

(** the margins a vector must keep at a sample *)
Definition margins (delta : R) (r : rf1) (np nq : nat) (x : list R) (s : sample) : Prop :=
  delta * sqrt (norm2 (upper_row r np nq s)) <= dot (upper_row r np nq s) x /\
  delta * sqrt (norm2 (lower_row r np nq s)) <= dot (lower_row r np nq s) x.

Lemma fill_feasible np nq r ss : well_formed r -> length (r_p r) = np -> length (r_q r) = nq -> positions_ok (r_dim r) ss ->
  exists CI ci, fill np nq (length ss) r ss 0 1 (repeat (repeat 0 (np + nq)) (2 * length ss)) (repeat 0 (2 * length ss)) = Ok (CI, ci) /\
    Forall (fun col => length col = (np + nq)%nat) CI /\
    forall delta x, feasible CI (List.map (fun t => t * delta) ci) x <-> Forall (margins delta r np nq x) ss.
Proof.
  intros W Lp Lq HP. assert (HC : forall s, In s ss -> constraint np nq r s = Ok (upper_row r np nq s, lower_row r np nq s)).
  { intros s Hs. apply constraint_spec; try assumption. unfold positions_ok in HP. rewrite Forall_forall in HP. auto. }
  destruct (fill_spec np nq r ss (repeat (repeat 0 (np + nq)) (2 * length ss)) (repeat 0 (2 * length ss))) as (CI & ci & ks & E & LC & Lc & PM & H).
  { intros s Hs. eauto. } { apply repeat_length. } { apply repeat_length. }
  exists CI, ci. split; [exact E|].
  assert (Lks : length ks = length ss) by (rewrite (Permutation_length PM); apply seq_length).
  (* every column belongs to a sample *)
  assert (HK : forall j, (j < 2 * length ss)%nat -> exists i s k, nth_error ss i = Some s /\ nth_error ks i = Some k /\ (j = 2 * k \/ j = 2 * k + 1)%nat).
  { intros j Hj. set (k := (j / 2)%nat). pose proof (Nat.div_mod j 2 ltac:(lia)) as Dm. pose proof (Nat.mod_upper_bound j 2 ltac:(lia)). fold k in Dm.
    assert (Hk : In k ks). { apply (Permutation_in _ (Permutation_sym PM)). apply in_seq. lia. }
    apply In_nth_error in Hk as [i Hi]. assert (i < length ss)%nat by (rewrite <- Lks; apply nth_error_Some; congruence).
    destruct (nth_error ss i) as [s|] eqn:Es; [|apply nth_error_None in Es; lia]. exists i, s, k. repeat split; try assumption. lia. }
  split.
  - apply Forall_forall. intros col Hcol. apply In_nth_error in Hcol as [j Hj]. assert (j < length CI)%nat by (apply nth_error_Some; congruence).
    destruct (HK j) as (i & s & k & Es & Ek & Ej); [lia|]. destruct (H i s k Es Ek) as (cu & cl & Ec & N1 & N2 & _).
    rewrite (HC s (nth_error_In _ _ Es)) in Ec. injection Ec as <- <-. destruct Ej as [-> | ->].
    + rewrite N1 in Hj. injection Hj as <-. apply upper_row_length.
    + rewrite N2 in Hj. injection Hj as <-. apply lower_row_length.
  - intros delta x. unfold feasible. rewrite Forall2_nth, map_length. split.
    + intros [_ HF]. apply Forall_forall. intros s Hs. apply In_nth_error in Hs as [i Es]. assert (i < length ks)%nat by (rewrite Lks; apply nth_error_Some; congruence).
      destruct (nth_error ks i) as [k|] eqn:Ek; [|apply nth_error_None in Ek; lia].
      destruct (H i s k Es Ek) as (cu & cl & Ec & N1 & N2 & M1 & M2). rewrite (HC s (nth_error_In _ _ Es)) in Ec. injection Ec as <- <-.
      split.
      * assert (K := HF _ _ (- sqrt (norm2 (upper_row r np nq s)) * delta) N1). rewrite nth_error_map, M1 in K. specialize (K eq_refl). lra.
      * assert (K := HF _ _ (- sqrt (norm2 (lower_row r np nq s)) * delta) N2). rewrite nth_error_map, M2 in K. specialize (K eq_refl). lra.
    + intros HF. split; [lia|]. intros j col c Hj Hc. assert (j < length CI)%nat by (apply nth_error_Some; congruence).
      destruct (HK j) as (i & s & k & Es & Ek & Ej); [lia|]. destruct (H i s k Es Ek) as (cu & cl & Ec & N1 & N2 & M1 & M2).
      rewrite (HC s (nth_error_In _ _ Es)) in Ec. injection Ec as <- <-.
      rewrite Forall_forall in HF. destruct (HF s (nth_error_In _ _ Es)) as [U L]. destruct Ej as [-> | ->].
      * rewrite N1 in Hj. injection Hj as <-. rewrite nth_error_map, M1 in Hc. injection Hc as <-. lra.
      * rewrite N2 in Hj. injection Hj as <-. rewrite nth_error_map, M2 in Hc. injection Hc as <-. lra.
Qed.

Lemma margins_strict delta r np nq a b s : 0 < delta -> (0 < np)%nat -> length a = np -> length b = nq -> margins delta r np nq (a ++ b) s ->
  0 < num r a s - upper s * num r b s /\ 0 < lower s * num r b s - num r a s.
Proof.
  intros Hd Hn <- <- [U L]. rewrite upper_row_dot in U. rewrite lower_row_dot in L.
  pose proof (upper_row_norm r (length a) (length b) s Hn) as N1. pose proof (lower_row_norm r (length a) (length b) s Hn) as N2.
  assert (S1 : 1 <= sqrt (norm2 (upper_row r (length a) (length b) s))) by (rewrite <- sqrt_1; apply sqrt_le_1; lra).
  assert (S2 : 1 <= sqrt (norm2 (lower_row r (length a) (length b) s))) by (rewrite <- sqrt_1; apply sqrt_le_1; lra).
  split; nra.
Qed.

(** strict solutions can be scaled to keep any margins *)
Lemma margins_scale delta r np nq x ss : Forall (fun s => 0 < dot (upper_row r np nq s) x /\ 0 < dot (lower_row r np nq s) x) ss ->
  exists T, 0 < T /\ forall t, T <= t -> Forall (margins delta r np nq (List.map (fun v => t * v) x)) ss.
Proof.
  induction 1 as [|s ss [H1 H2] _ (T & HT & IH)].
  - exists 1. split; [lra|]. constructor.
  - set (A := delta * sqrt (norm2 (upper_row r np nq s)) / dot (upper_row r np nq s) x).
    set (B := delta * sqrt (norm2 (lower_row r np nq s)) / dot (lower_row r np nq s) x).
    exists (Rmax T (Rmax A B)). split; [eapply Rlt_le_trans; [exact HT|apply Rmax_l]|].
    intros t Ht. assert (T <= t /\ A <= t /\ B <= t) as (T1 & T2 & T3).
    { pose proof (Rmax_l T (Rmax A B)). pose proof (Rmax_r T (Rmax A B)). pose proof (Rmax_l A B). pose proof (Rmax_r A B). lra. }
    constructor; [|apply IH; assumption]. split; rewrite dot_scale_r.
    + replace (delta * sqrt (norm2 (upper_row r np nq s))) with (A * dot (upper_row r np nq s) x) by (unfold A; field; lra). apply Rmult_le_compat_r; lra.
    + replace (delta * sqrt (norm2 (lower_row r np nq s))) with (B * dot (lower_row r np nq s) x) by (unfold B; field; lra). apply Rmult_le_compat_r; lra.
Qed.

Section Fit1.
Variable junk : R.
Variable solver : nat -> list (list R) -> list R -> option (list R).
Hypothesis Hsound : sound solver.

Lemma fit_1d_total delta np nq r ss : well_formed r -> length (r_p r) = np -> length (r_q r) = nq -> (0 < nq)%nat -> positions_ok (r_dim r) ss ->
  exists b r', fit_1d junk solver delta np nq r ss = Ok (b, r').
Proof.
  intros W Lp Lq Hq HP. destruct (fill_feasible np nq r ss W Lp Lq HP) as (CI & ci & E & LCI & F). unfold fit_1d. rewrite E. cbn [bind fst snd].
  destruct (solver _ _ _) as [x|] eqn:Es; [|eauto]. destruct (Hsound _ _ _ _ LCI Es) as [Lx _].
  destruct (update_total junk r (firstn np x) (skipn np x) W) as [r' Er].
  - rewrite firstn_length; lia.
  - rewrite skipn_length; lia.
  - intros C. assert (L := skipn_length np x). rewrite C in L. cbn in L. lia.
  - rewrite Er. cbn [bind]. eauto.
Qed.
Lemma fit_1d_passes delta np nq r ss r' : 0 < delta -> well_formed r -> length (r_p r) = np -> length (r_q r) = nq -> (0 < np)%nat -> positions_ok (r_dim r) ss ->
  fit_1d junk solver delta np nq r ss = Ok (true, r') -> Forall (passes r') ss.
Proof.
  intros Hd W Lp Lq Hn HP. destruct (fill_feasible np nq r ss W Lp Lq HP) as (CI & ci & E & LCI & F). unfold fit_1d. rewrite E. cbn [bind fst snd].
  destruct (solver _ _ _) as [x|] eqn:Es; [|discriminate]. destruct (Hsound _ _ _ _ LCI Es) as [Lx Fx]. apply F in Fx.
  destruct (update junk r (firstn np x) (skipn np x)) as [r1| | |] eqn:Eu; try discriminate. cbn [bind]. intros E1.
  assert (r1 = r') by congruence. subst r1. clear E1.
  apply Forall_forall. intros s Hs. rewrite Forall_forall in Fx. unfold positions_ok in HP. rewrite Forall_forall in HP.
  assert (La : length (firstn np x) = np) by (rewrite firstn_length; lia). assert (Lb : length (skipn np x) = nq) by (rewrite skipn_length; lia).
  assert (M := Fx s Hs). rewrite <- (firstn_skipn np x) in M. destruct (margins_strict _ _ _ _ _ _ _ Hd Hn La Lb M) as [H1 H2].
  eapply (updated_passes junk r (firstn np x) (skipn np x)); eauto; lia.
Qed.
Lemma fit_1d_complete delta np nq r ss a b : complete solver -> 0 < delta -> well_formed r -> length (r_p r) = np -> length (r_q r) = nq -> (0 < np)%nat -> (0 < nq)%nat ->
  positions_ok (r_dim r) ss -> ss <> [] -> length a = np -> length b = nq -> Forall (interpolates (r_dim r) (r_min r) (r_max r) a b) ss ->
  exists r', fit_1d junk solver delta np nq r ss = Ok (true, r').
Proof.
  intros Hc Hd W Lp Lq Hn Hq HP Hne La Lb HI. destruct (fill_feasible np nq r ss W Lp Lq HP) as (CI & ci & E & LCI & F).
  destruct (fit_1d_total delta np nq r ss W Lp Lq Hq HP) as (b' & r' & Et). exists r'. rewrite Et. f_equal. f_equal.
  revert Et. unfold fit_1d. rewrite E. cbn [bind fst snd].
  set (y := List.map Ropp (a ++ b)).
  assert (HF : Forall (fun s => 0 < dot (upper_row r np nq s) y /\ 0 < dot (lower_row r np nq s) y) ss).
  { eapply Forall_impl; [|exact HI]. intros s (D & L & U). fold (num r a s) in *. fold (num r b s) in *.
    unfold y. rewrite <- La, <- Lb.
    assert (Hopp : forall c, dot c (List.map Ropp (a ++ b)) = - dot c (a ++ b)).
    { intros c. replace (List.map Ropp (a ++ b)) with (List.map (fun v => -1 * v) (a ++ b)) by (apply List.map_ext; intros; lra). rewrite dot_scale_r. lra. }
    rewrite !Hopp, upper_row_dot, lower_row_dot. assert (Ev : num r a s = num r a s / num r b s * num r b s) by (field; lra).
    set (v := num r a s / num r b s) in *. rewrite Ev. clearbody v. split; nra. }
  destruct (margins_scale delta r np nq y ss HF) as (T & HT & HM). specialize (HM T (Rle_refl T)). apply F in HM.
  assert (Ly : length (List.map (fun v => T * v) y) = (np + nq)%nat) by (unfold y; rewrite !map_length, app_length; lia).
  assert (Hs := Hc _ _ _ _ LCI Ly HM).
  destruct (solver _ _ _) as [x|] eqn:Es; [|congruence]. destruct (Hsound _ _ _ _ LCI Es) as [Lx Fx]. apply F in Fx.
  destruct (update junk r (firstn np x) (skipn np x)) as [r1| | |]; try discriminate. cbn [bind].
  intros E1. assert (E2 : rltb 0 (norm2 x) = b') by congruence. rewrite <- E2. apply rltb_spec. rewrite norm2_dot.
  destruct ss as [|s ss]; [congruence|]. apply Forall_inv in Fx as [U _].
  pose proof (upper_row_norm r np nq s Hn) as N1.
  assert (S1 : 1 <= sqrt (norm2 (upper_row r np nq s))) by (rewrite <- sqrt_1; apply sqrt_le_1; lra).
  destruct (Rle_lt_or_eq_dec 0 (dot x x) (dot_self_nonneg x)) as [|H0]; [assumption|]. symmetry in H0. rewrite (dot_self_zero x H0) in U. nra.
Qed.
Lemma fit_1d_no_margin delta np nq r ss : least_norm solver -> delta <= 0 -> well_formed r -> length (r_p r) = np -> length (r_q r) = nq -> (0 < nq)%nat -> positions_ok (r_dim r) ss ->
  exists r', fit_1d junk solver delta np nq r ss = Ok (false, r').
Proof.
  intros Hl Hd W Lp Lq Hq HP. destruct (fill_feasible np nq r ss W Lp Lq HP) as (CI & ci & E & LCI & F).
  destruct (fit_1d_total delta np nq r ss W Lp Lq Hq HP) as (b & r' & Et). exists r'. rewrite Et. f_equal. f_equal.
  revert Et. unfold fit_1d. rewrite E. cbn [bind fst snd].
  destruct (solver _ _ _) as [x|] eqn:Es; [|congruence].
  destruct (update junk r (firstn np x) (skipn np x)) as [r1| | |]; try discriminate. cbn [bind]. intros E1. assert (E2 : rltb 0 (norm2 x) = b) by congruence. rewrite <- E2.
  assert (F0 : feasible CI (List.map (fun t => t * delta) ci) (repeat 0 (np + nq))).
  { apply F. apply Forall_forall. intros s _. split; rewrite dot_zeros.
    - pose proof (sqrt_pos (norm2 (upper_row r np nq s))). nra.
    - pose proof (sqrt_pos (norm2 (lower_row r np nq s))). nra. }
  pose proof (Hl _ _ _ _ _ LCI Es (repeat_length 0 (np + nq)) F0) as HN. rewrite dot_zeros in HN.
  destruct (rltb 0 (norm2 x)) eqn:Er; [|reflexivity]. apply rltb_spec in Er. rewrite norm2_dot in Er. lra.
Qed.
End Fit1.

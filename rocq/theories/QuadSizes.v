From Coq Require Import Reals List Arith Lia Lra.
From Verif Require Import Base Num ParamsModel GeoModel ArgsModel DataModel TextModel FuncModel MonoModel MonoProofs FuncFile RatModel RatSpec RatProofs QuadModel QuadSpec QuadProofs QuadFit.
Open Scope R_scope.

Section Sizes.
Variable junk : R.

(** ** Channels *)
Fixpoint fits (fit1 : rf1 -> list sample -> outcome (bool * rf1)) (r0 : rf1) (channels : list (list sample)) : outcome (bool * list rf1) :=
  match channels with
  | [] => Ok (true, [])
  | ss :: t => do b <- fit1 r0 ss; if fst b then do u <- fits fit1 r0 t; Ok (fst u, snd b :: snd u) else Ok (false, [snd b])
  end.
Definition fresh (dx np nq : nat) (mn mx : list R) : rf1 := set_domain (new_rf1 junk dx np nq) (fst (inflate mn mx)) (snd (inflate mn mx)).
Lemma fresh_wf dx np nq mn mx : (0 < dx)%nat -> length mn = dx -> length mx = dx -> well_formed (fresh dx np nq mn mx) /\ r_dim (fresh dx np nq mn mx) = dx /\
  length (r_p (fresh dx np nq mn mx)) = np /\ length (r_q (fresh dx np nq mn mx)) = nq /\
  r_min (fresh dx np nq mn mx) = fst (inflate mn mx) /\ r_max (fresh dx np nq mn mx) = snd (inflate mn mx).
Proof.
  intros Hd Hm HM. pose proof (inflate_ok mn mx dx Hm HM) as D.
  destruct (new_wf junk dx np nq _ _ Hd D) as (W & A & B & C & F & G). unfold fresh. repeat split; assumption || apply W.
Qed.
Lemma resize_same r np nq : length (r_p r) = np -> length (r_q r) = nq -> resize junk r np nq = r.
Proof.
  intros <- <-. unfold resize. destruct (r_dim r =? 0)%nat; [reflexivity|]. unfold resize_coeffs. rewrite !Nat.eqb_refl. destruct r; reflexivity.
Qed.
Lemma repeat_S {A} (a : A) n : repeat a (S n) = a :: repeat a n. Proof. reflexivity. Qed.
Lemma set_channel_at dx dy mn mx np nq don c r n : set_channel (mkRf dx dy mn mx np nq (List.map Some don ++ c :: n)) (length don) r = mkRf dx dy mn mx np nq (List.map Some (don ++ [r]) ++ n).
Proof.
  unfold set_channel. cbn [f_dimX f_dimY f_min f_max f_np f_nq f_rs]. f_equal. rewrite map_app, <- app_assoc. cbn [List.map app].
  rewrite firstn_app, map_length, Nat.sub_diag. rewrite firstn_all2 by (rewrite map_length; lia). cbn [firstn]. rewrite app_nil_r. f_equal. f_equal.
  rewrite skipn_app, map_length. rewrite skipn_all2 by (rewrite map_length; lia). replace (S (length don) - length don)%nat with 1%nat by lia. reflexivity.
Qed.
Lemma fit_channels_spec fit1 dx dy mn mx np nq channels : (0 < dx)%nat -> length mn = dx -> length mx = dx -> forall don, (length don + length channels <= dy)%nat ->
  fit_channels junk fit1 np nq (length don) channels (mkRf dx dy mn mx np nq (List.map Some don ++ repeat None (dy - length don))) =
  (do u <- fits fit1 (fresh dx np nq mn mx) channels;
   Ok (fst u, mkRf dx dy mn mx np nq (List.map Some (don ++ snd u) ++ repeat None (dy - length don - length (snd u))))).
Proof.
  intros Hd Hm HM. destruct (fresh_wf dx np nq mn mx Hd Hm HM) as (_ & _ & L1 & L2 & _).
  induction channels as [|ss channels IH]; intros don HL; cbn [fit_channels fits].
  - cbn [bind fst snd]. rewrite app_nil_r. cbn [length]. rewrite Nat.sub_0_r. reflexivity.
  - cbn [length] in HL. destruct (dy - length don)%nat as [|n] eqn:En; [lia|]. rewrite repeat_S.
    unfold get at 1. cbn [f_dimX f_dimY f_min f_max f_np f_nq f_rs].
    rewrite (proj2 (Nat.ltb_lt (length don) dy)) by lia. rewrite nth_error_app2 by (rewrite map_length; lia). rewrite map_length, Nat.sub_diag. cbn [nth_error].
    rewrite Hm, HM, Nat.ltb_irrefl. cbn [orb].
    rewrite (surjective_pairing (inflate mn mx)). fold (fresh dx np nq mn mx). cbn [bind].
    rewrite set_channel_at. rewrite resize_same by assumption.
    destruct (fit1 (fresh dx np nq mn mx) ss) as [[b r']| | |]; try reflexivity. cbn [bind fst snd].
    assert (ES : forall r1, set_channel (mkRf dx dy mn mx np nq (List.map Some (don ++ [r1]) ++ repeat None n)) (length don) r' =
                 mkRf dx dy mn mx np nq (List.map Some (don ++ [r']) ++ repeat None n)).
    { intros r1. rewrite <- (set_channel_at dx dy mn mx np nq don (Some r1) r' (repeat None n)). f_equal. f_equal. rewrite map_app, <- app_assoc. reflexivity. }
    rewrite ES. destruct b.
    + specialize (IH (don ++ [r'])). rewrite app_length in IH. cbn [length] in IH. replace (length don + 1)%nat with (S (length don)) in IH by lia.
      replace (dy - S (length don))%nat with n in IH by lia. rewrite IH by lia.
      destruct (fits fit1 (fresh dx np nq mn mx) channels) as [[b2 u]| | |]; try reflexivity. cbn [bind fst snd length]. rewrite <- app_assoc. cbn [app].
      replace (dy - S (length don) - length u)%nat with (dy - length don - S (length u))%nat by lia. reflexivity.
    + cbn [bind fst snd length]. rewrite Nat.sub_succ, Nat.sub_0_r. reflexivity.
Qed.

Lemma fits_true fit1 r0 : forall channels us, fits fit1 r0 channels = Ok (true, us) -> Forall2 (fun ss r => fit1 r0 ss = Ok (true, r)) channels us.
Proof.
  induction channels as [|ss channels IH]; intros us H; cbn [fits] in H.
  - assert (us = []) by congruence. subst us. constructor.
  - destruct (fit1 r0 ss) as [[b r]| | |] eqn:E; try discriminate. cbn [bind fst snd] in H. destruct b; [|discriminate].
    destruct (fits fit1 r0 channels) as [[b2 u]| | |] eqn:E2; try discriminate. cbn [bind fst snd] in H. injection H as -> <-.
    constructor; [exact E|]. apply IH. reflexivity.
Qed.
Lemma fits_false fit1 r0 : forall channels us, fits fit1 r0 channels = Ok (false, us) -> exists ss r, In ss channels /\ fit1 r0 ss = Ok (false, r).
Proof.
  induction channels as [|ss channels IH]; intros us H; cbn [fits] in H; [discriminate|].
  destruct (fit1 r0 ss) as [[b r]| | |] eqn:E; try discriminate. cbn [bind fst snd] in H. destruct b.
  - destruct (fits fit1 r0 channels) as [[b2 u]| | |] eqn:E2; try discriminate. cbn [bind fst snd] in H. injection H as -> _.
    destruct (IH u eq_refl) as (ss' & r' & Hin & H'). exists ss', r'. split; [right; assumption|assumption].
  - exists ss, r. split; [left; reflexivity|assumption].
Qed.
Lemma fits_total fit1 r0 channels : (forall ss, In ss channels -> exists b r, fit1 r0 ss = Ok (b, r)) -> exists b us, fits fit1 r0 channels = Ok (b, us).
Proof.
  induction channels as [|ss channels IH]; intros H; cbn [fits]; [eauto|].
  destruct (H ss) as (b & r & E); [left; reflexivity|]. rewrite E. cbn [bind fst snd]. destruct b; [|eauto].
  destruct IH as (b & us & E'); [intros; apply H; right; assumption|]. rewrite E'. cbn [bind]. eauto.
Qed.

(** ** One attempt *)
Variable solver : nat -> list (list R) -> list R -> option (list R).
Definition rf_ok (f : rf) : Prop := (0 < f_dimX f)%nat /\ length (f_min f) = f_dimX f /\ length (f_max f) = f_dimX f.
Lemma attempt_spec delta channels np nq f : rf_ok f -> (length channels <= f_dimY f)%nat ->
  attempt junk solver delta channels np nq f =
  (do u <- fits (fit_1d junk solver delta np nq) (fresh (f_dimX f) np nq (f_min f) (f_max f)) channels;
   Ok (fst u, mkRf (f_dimX f) (f_dimY f) (f_min f) (f_max f) np nq (List.map Some (snd u) ++ repeat None (f_dimY f - length (snd u))))).
Proof.
  intros (Hd & Hm & HM) HL. unfold attempt, set_size.
  pose proof (fit_channels_spec (fit_1d junk solver delta np nq) (f_dimX f) (f_dimY f) (f_min f) (f_max f) np nq channels Hd Hm HM [] HL) as E.
  cbn [length List.map app] in E. rewrite Nat.sub_0_r in E. exact E.
Qed.
Lemma attempt_total delta channels np nq f : sound solver -> rf_ok f -> (length channels <= f_dimY f)%nat -> (0 < nq)%nat -> Forall (positions_ok (f_dimX f)) channels ->
  exists b f', attempt junk solver delta channels np nq f = Ok (b, f').
Proof.
  intros Hs Hf HL Hq HP. rewrite attempt_spec by assumption. destruct Hf as (Hd & Hm & HM).
  destruct (fresh_wf (f_dimX f) np nq (f_min f) (f_max f) Hd Hm HM) as (W & D & L1 & L2 & _).
  destruct (fits_total (fit_1d junk solver delta np nq) (fresh (f_dimX f) np nq (f_min f) (f_max f)) channels) as (b & us & E).
  - intros ss Hin. apply fit_1d_total; try assumption. rewrite D. rewrite Forall_forall in HP. auto.
  - rewrite E. cbn [bind]. eauto.
Qed.
Lemma attempt_true delta channels np nq f f' : sound solver -> 0 < delta -> rf_ok f -> (length channels <= f_dimY f)%nat -> (0 < np)%nat -> (0 < nq)%nat -> Forall (positions_ok (f_dimX f)) channels ->
  attempt junk solver delta channels np nq f = Ok (true, f') ->
  f_dimX f' = f_dimX f /\ f_dimY f' = f_dimY f /\ f_min f' = f_min f /\ f_max f' = f_max f /\ f_np f' = np /\ f_nq f' = nq /\
  forall j ss, nth_error channels j = Some ss -> exists r, channel_of f' j r /\ Forall (passes r) ss.
Proof.
  intros Hs Hdel Hf HL Hn Hq HP. rewrite attempt_spec by assumption. destruct Hf as (Hd & Hm & HM).
  destruct (fresh_wf (f_dimX f) np nq (f_min f) (f_max f) Hd Hm HM) as (W & D & L1 & L2 & _).
  destruct (fits _ _ _) as [[b us]| | |] eqn:E; try discriminate. cbn [bind fst snd]. intros H. injection H as -> <-.
  cbn [f_dimX f_dimY f_min f_max f_np f_nq]. do 6 (split; [reflexivity|]). intros j ss Hj.
  apply fits_true in E. apply Forall2_nth in E as [EL E]. unfold channel_of. cbn [f_rs].
  assert (Hlt : (j < length us)%nat) by (rewrite <- EL; apply nth_error_Some; congruence).
  destruct (nth_error us j) as [r|] eqn:Er; [|apply nth_error_None in Er; lia].
  exists r. split; [rewrite nth_error_app1 by (rewrite map_length; assumption); rewrite nth_error_map, Er; reflexivity|].
  eapply (fit_1d_passes junk solver Hs delta np nq (fresh (f_dimX f) np nq (f_min f) (f_max f)) ss); try eassumption.
  - rewrite D. rewrite Forall_forall in HP. apply HP. eapply nth_error_In; eassumption.
  - eapply E; eassumption.
Qed.
Lemma attempt_false delta channels np nq f f' : sound solver -> complete solver -> 0 < delta -> rf_ok f -> (length channels <= f_dimY f)%nat -> (0 < np)%nat -> (0 < nq)%nat ->
  Forall (positions_ok (f_dimX f)) channels -> Forall (fun ss => ss <> []) channels ->
  attempt junk solver delta channels np nq f = Ok (false, f') ->
  exists mn mx ss, widened (1 / 10) (f_min f) (f_max f) mn mx /\ In ss channels /\
    ~ exists a b, length a = np /\ length b = nq /\ Forall (interpolates (f_dimX f) mn mx a b) ss.
Proof.
  intros Hs Hc Hdel Hf HL Hn Hq HP HN. rewrite attempt_spec by assumption. destruct Hf as (Hd & Hm & HM).
  destruct (fresh_wf (f_dimX f) np nq (f_min f) (f_max f) Hd Hm HM) as (W & D & L1 & L2 & D1 & D2).
  destruct (fits _ _ _) as [[b us]| | |] eqn:E; try discriminate. cbn [bind fst snd]. intros H. injection H as -> _.
  apply fits_false in E as (ss & r & Hin & E). exists (fst (inflate (f_min f) (f_max f))), (snd (inflate (f_min f) (f_max f))), ss.
  split; [apply inflate_widened; congruence|]. split; [assumption|]. intros (a & b & La & Lb & HI).
  rewrite Forall_forall in HP, HN.
  destruct (fit_1d_complete junk solver Hs delta np nq (fresh (f_dimX f) np nq (f_min f) (f_max f)) ss a b Hc Hdel W L1 L2 Hn Hq) as (r' & E'); try assumption.
  - rewrite D. auto.
  - auto.
  - rewrite D, D1, D2. assumption.
  - congruence.
Qed.
Lemma attempt_keeps delta channels np nq f b f' : rf_ok f -> (length channels <= f_dimY f)%nat -> attempt junk solver delta channels np nq f = Ok (b, f') ->
  rf_ok f' /\ (length channels <= f_dimY f')%nat /\ forall np' nq', attempt junk solver delta channels np' nq' f' = attempt junk solver delta channels np' nq' f.
Proof.
  intros Hf HL. rewrite attempt_spec by assumption. destruct (fits _ _ _) as [[b1 us]| | |]; try discriminate. cbn [bind fst snd]. intros H. injection H as _ <-.
  assert (Hf' : forall us, rf_ok (mkRf (f_dimX f) (f_dimY f) (f_min f) (f_max f) np nq us)) by (intros; exact Hf).
  split; [apply Hf'|]. split; [exact HL|]. intros np' nq'. rewrite !attempt_spec by (auto || apply Hf'). reflexivity.
Qed.

(** ** The search *)
Lemma try_sizes_spec (try_ : nat -> nat -> rf -> outcome (bool * rf)) (okf : rf -> Prop) f0 z : okf f0 -> sizes_ok z ->
  (forall np nq, (0 < nq)%nat -> exists b f', try_ np nq f0 = Ok (b, f') /\ okf f' /\ forall np' nq', try_ np' nq' f' = try_ np' nq' f0) ->
  forall n k f, (k + n = last_size z)%nat -> (forall np nq, try_ np nq f = try_ np nq f0) -> forall fuel, (n < fuel)%nat ->
  exists b f', try_sizes try_ fuel (nth_np z k) (nth_nq z k) (z_max_np z) (z_max_nq z) f = Ok (Some (b, f')) /\
    if b then exists k', (k <= k' <= last_size z)%nat /\ try_ (nth_np z k') (nth_nq z k') f0 = Ok (true, f') /\
                forall i, (k <= i < k')%nat -> exists g, try_ (nth_np z i) (nth_nq z i) f0 = Ok (false, g)
    else forall i, (k <= i <= last_size z)%nat -> exists g, try_ (nth_np z i) (nth_nq z i) f0 = Ok (false, g).
Proof.
  intros H0 [Z1 Z2] Hok. induction n as [|n IH]; intros k f Hk Hf [|fuel] Hfu; try lia; cbn [try_sizes].
  - rewrite (proj2 (Nat.leb_le (nth_np z k) (z_max_np z))) by (unfold nth_np; lia). cbn [orb]. rewrite Hf.
    destruct (Hok (nth_np z k) (nth_nq z k)) as (b & f' & E & _); [unfold nth_nq; lia|]. rewrite E. cbn [bind fst snd]. destruct b.
    + exists true, f'. split; [reflexivity|]. exists k. split; [lia|]. split; [assumption|]. intros; lia.
    + replace (nth_np z k =? z_max_np z)%nat with true by (symmetry; apply Nat.eqb_eq; unfold nth_np, last_size in *; lia).
      replace (nth_nq z k =? z_max_nq z)%nat with true by (symmetry; apply Nat.eqb_eq; unfold nth_nq, last_size in *; lia). cbn [andb].
      exists false, f'. split; [reflexivity|]. intros i Hi. replace i with k by lia. eauto.
  - rewrite (proj2 (Nat.leb_le (nth_np z k) (z_max_np z))) by (unfold nth_np; lia). cbn [orb]. rewrite Hf.
    destruct (Hok (nth_np z k) (nth_nq z k)) as (b & f' & E & Hf' & Hsame); [unfold nth_nq; lia|]. rewrite E. cbn [bind fst snd]. destruct b.
    + exists true, f'. split; [reflexivity|]. exists k. split; [lia|]. split; [assumption|]. intros; lia.
    + replace ((nth_np z k =? z_max_np z) && (nth_nq z k =? z_max_nq z))%nat with false.
      2: { symmetry. apply Bool.andb_false_iff. unfold nth_np, nth_nq, last_size in *.
           destruct (Nat.eq_dec (Nat.min (z_min_np z + k) (z_max_np z)) (z_max_np z)) as [A|A]; [right|left]; apply Nat.eqb_neq; lia. }
      assert (E1 : (if (nth_np z k <? z_max_np z)%nat then S (nth_np z k) else nth_np z k) = nth_np z (S k)).
      { unfold nth_np. destruct (Nat.ltb_spec (Nat.min (z_min_np z + k) (z_max_np z)) (z_max_np z)); lia. }
      assert (E2 : (if (nth_nq z k <? z_max_nq z)%nat then S (nth_nq z k) else nth_nq z k) = nth_nq z (S k)).
      { unfold nth_nq. destruct (Nat.ltb_spec (Nat.min (z_min_nq z + k) (z_max_nq z)) (z_max_nq z)); lia. }
      rewrite E1, E2. destruct (IH (S k) f' ltac:(lia) Hsame fuel ltac:(lia)) as (b & f'' & E3 & H3). exists b, f''. split; [exact E3|]. destruct b.
      * destruct H3 as (k' & K1 & K2 & K3). exists k'. split; [lia|]. split; [assumption|]. intros i Hi. destruct (Nat.eq_dec i k) as [->|]; [eauto|]. apply K3. lia.
      * intros i Hi. destruct (Nat.eq_dec i k) as [->|]; [eauto|]. apply H3. lia.
Qed.
Lemma fit_data_spec delta z mn mx channels fuel f : sound solver -> (0 < f_dimX f)%nat -> length mn = f_dimX f -> length mx = f_dimX f -> (length channels <= f_dimY f)%nat ->
  Forall (positions_ok (f_dimX f)) channels -> sizes_ok z -> (last_size z < fuel)%nat ->
  let f0 := set_max (set_min f mn) mx in
  exists b f', fit_data junk solver delta z mn mx channels fuel f = Ok (Some (b, f')) /\
    if b then exists k, (k <= last_size z)%nat /\ attempt junk solver delta channels (nth_np z k) (nth_nq z k) f0 = Ok (true, f') /\
                forall i, (i < k)%nat -> exists g, attempt junk solver delta channels (nth_np z i) (nth_nq z i) f0 = Ok (false, g)
    else forall i, (i <= last_size z)%nat -> exists g, attempt junk solver delta channels (nth_np z i) (nth_nq z i) f0 = Ok (false, g).
Proof.
  intros Hs Hd Hm HM HL HP Hz Hfuel f0. assert (Hf0 : rf_ok f0) by (split; [exact Hd|split; assumption]).
  destruct (try_sizes_spec (attempt junk solver delta channels) rf_ok f0 z Hf0 Hz) with (n := last_size z) (k := 0%nat) (f := f0) (fuel := fuel) as (b & f' & E & H).
  - intros np nq Hq. destruct (attempt_total delta channels np nq f0 Hs Hf0 HL Hq HP) as (b & f' & E). destruct (attempt_keeps delta channels np nq f0 b f' Hf0 HL E) as (K1 & _ & K2). eauto.
  - reflexivity.
  - reflexivity.
  - exact Hfuel.
  - exists b, f'. split.
    + unfold fit_data. fold f0. rewrite <- E. f_equal; unfold nth_np, nth_nq; destruct Hz; lia.
    + destruct b.
      * destruct H as (k & K1 & K2 & K3). exists k. split; [lia|]. split; [assumption|]. intros; apply K3; lia.
      * intros; apply H; lia.
Qed.
End Sizes.

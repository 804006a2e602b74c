From Coq Require Import Reals List Arith Lia Lra.
From Verif Require Import Base Num ParamsModel GeoModel ArgsModel DataModel TextModel FuncModel MonoModel MonoProofs FuncFile RatModel RatSpec RatProofs QuadModel QuadSpec QuadProofs QuadFit QuadSizes MatModel MatSpec.
Import ListNotations.
Open Scope R_scope.

(** ** The constraints *)
Definition both_rows (r : rf1) (np nq : nat) (s : sample) : list (list R) := [upper_row r np nq s; lower_row r np nq s].
Lemma mat_rows_spec np nq r ss : well_formed r -> length (r_p r) = np -> length (r_q r) = nq -> positions_ok (r_dim r) ss ->
  mat_rows np nq r ss = Ok (flat_map (both_rows r np nq) ss).
Proof.
  intros W Lp Lq. induction 1 as [|s ss Hs HP IH]; cbn [mat_rows flat_map]; [reflexivity|].
  rewrite constraint_spec by assumption. cbn [bind]. rewrite IH. reflexivity.
Qed.
Lemma rows_width r np nq ss : Forall (fun row => length row = (np + nq)%nat) (flat_map (both_rows r np nq) ss).
Proof.
  induction ss as [|s ss IH]; cbn [flat_map both_rows app]; [constructor|].
  constructor; [apply upper_row_length|]. constructor; [apply lower_row_length|exact IH].
Qed.
Lemma rows_number r np nq ss : length (flat_map (both_rows r np nq) ss) = (2 * length ss)%nat.
Proof. induction ss as [|s ss IH]; [reflexivity|]. cbn [flat_map both_rows app length]. rewrite IH. lia. Qed.
Definition bounds (delta : R) (A : list (list R)) : list R := List.map (fun row => - sqrt (norm2 row) * delta) A.
Lemma dot_neg c : forall x, dot c (List.map Ropp x) = - dot c x.
Proof. induction c as [|u c IH]; intros [|v x]; cbn [List.map dot]; try lra. rewrite IH. lra. Qed.
Lemma satisfies_margins delta r np nq x ss :
  satisfies (flat_map (both_rows r np nq) ss) (bounds delta (flat_map (both_rows r np nq) ss)) x <-> Forall (margins delta r np nq (List.map Ropp x)) ss.
Proof.
  unfold satisfies, bounds. induction ss as [|s ss IH]; cbn [flat_map both_rows app List.map]; [split; constructor|].
  unfold margins at 1. split.
  - intros H. inversion H as [|? ? ? ? H1 H2]; subst. inversion H2 as [|? ? ? ? H3 H4]; subst.
    constructor; [|apply IH; exact H4]. unfold margins. rewrite !dot_neg. split; lra.
  - intros H. inversion H as [|? ? H1 H2]; subst. unfold margins in H1. rewrite !dot_neg in H1.
    constructor; [lra|]. constructor; [lra|]. apply IH. exact H2.
Qed.

(** ** Values *)
Lemma num_neg r a s : num r (List.map Ropp a) s = - num r a s.
Proof.
  unfold num, polynomial. generalize 0%nat. induction a as [|t a IH]; intros i; cbn [List.map polynomial_from]; [lra|]. rewrite IH. lra.
Qed.
Lemma updated_passes_neg junk r a b s r' : well_formed r -> length a = length (r_p r) -> length b = length (r_q r) -> length (position s) = r_dim r ->
  update junk r a b = Ok r' -> num r a s - upper s * num r b s < 0 -> lower s * num r b s - num r a s < 0 ->
  passes r' s.
Proof.
  intros W La Lb Hx E H1 H2. destruct b as [|b_0 b]; [discriminate E|].
  destruct (update_spec junk r a b_0 b W La Lb) as (r'' & E' & W' & D1 & D2 & D3 & G1 & G2 & V).
  assert (r'' = r') by congruence. subst r''.
  assert (HH : num r (b_0 :: b) s <> 0 /\ strictly_between (lower s) (upper s) (num r a s / num r (b_0 :: b) s)).
  { destruct (constraints_between (lower s) (upper s) (- num r a s) (- num r (b_0 :: b) s)) as [K1 K2]; [lra|lra|].
    assert (K3 : num r (b_0 :: b) s <> 0) by (intros C; apply K1; rewrite C; lra).
    split; [exact K3|]. replace (num r a s / num r (b_0 :: b) s) with (- num r a s / - num r (b_0 :: b) s) by (field; exact K3). exact K2. }
  destruct HH as [Hq HB]. unfold passes. rewrite D1, D2, D3. split.
  - destruct (Rlt_or_le (1 / 10 ^ 16) (Rabs b_0)) as [Hb|Hb].
    + assert (Hb0 : b_0 <> 0). { intros ->. rewrite Rabs_R0 in Hb. assert (0 < 1 / 10 ^ 16) by (apply Rdiv_lt_0_compat; [lra|apply pow_lt; lra]). lra. }
      destruct (G1 Hb) as [_ EQ].
      assert (EQ' : getQ r' = List.map (fun t => t / b_0) (b_0 :: b)). { rewrite EQ. cbn [List.map]. f_equal. field. assumption. }
      rewrite EQ'. unfold polynomial. rewrite poly_scale. intros C. apply Hq. unfold num, polynomial.
      assert (C' := f_equal (fun t => t * b_0) C). cbv beta in C'. unfold Rdiv in C'. rewrite Rmult_assoc, Rinv_l in C' by assumption. lra.
    + destruct (G2 Hb) as [_ ->]. exact Hq.
  - exists (num r a s / num r (b_0 :: b) s). split; [apply V; assumption|exact HB].
Qed.
Lemma solution_passes junk delta r np nq x ss r' : 0 < delta -> (0 < np)%nat -> well_formed r -> length (r_p r) = np -> length (r_q r) = nq -> positions_ok (r_dim r) ss ->
  length x = (np + nq)%nat -> satisfies (flat_map (both_rows r np nq) ss) (bounds delta (flat_map (both_rows r np nq) ss)) x ->
  update junk r (firstn np x) (firstn nq (skipn np x)) = Ok r' -> Forall (passes r') ss.
Proof.
  intros Hd Hn W Lp Lq HP Lx HS E. apply satisfies_margins in HS. apply Forall_forall. intros s Hs.
  rewrite Forall_forall in HS. unfold positions_ok in HP. rewrite Forall_forall in HP. specialize (HS s Hs).
  assert (La : length (firstn np x) = np) by (rewrite firstn_length; lia).
  assert (Lb : length (skipn np x) = nq) by (rewrite skipn_length; lia).
  rewrite (firstn_all2 (skipn np x)) in E by lia.
  rewrite <- (firstn_skipn np x), map_app in HS.
  destruct (margins_strict delta r np nq _ _ s Hd Hn ltac:(rewrite map_length; exact La) ltac:(rewrite map_length; exact Lb) HS) as [H1 H2].
  rewrite !num_neg in H1, H2.
  eapply (updated_passes_neg junk r (firstn np x) (skipn np x)); eauto; try lia; lra.
Qed.

Section Mat.
Variable junk : R.
Variable quadprog qpas : nat -> list (list R) -> list R -> option (list R * R).
Variable ratio : list (list R) -> option R.
Notation mat_1d := (mat_1d junk quadprog qpas ratio).
Notation mat_channels := (mat_channels junk quadprog qpas ratio).
Notation mat_attempt := (mat_attempt junk quadprog qpas ratio).

Definition margin (d : R) : R := if rltb d (1 / 10 ^ 6) then 1 else d.
Lemma margin_pos d : 0 < margin d.
Proof.
  unfold margin. destruct (rltb d (1 / 10 ^ 6)) eqn:E; [lra|]. assert (0 < 1 / 10 ^ 6) by (apply Rdiv_lt_0_compat; [lra|apply pow_lt; lra]).
  destruct (Rlt_or_le d (1 / 10 ^ 6)) as [H1|H1]; [|lra]. apply rltb_spec in H1. congruence.
Qed.

(** one channel, on a function of the right sizes *)
Lemma mat_1d_spec um np nq e r ss : well_formed r -> length (r_p r) = np -> length (r_q r) = nq -> (0 < np + nq)%nat -> positions_ok (r_dim r) ss -> ss <> [] ->
  let A := flat_map (both_rows r np nq) ss in
  mat_1d um np nq e r ss =
  match ratio A with
  | None => Ok (false, r, e)
  | Some d =>
      let e' := evaluate quadprog qpas um (np + nq) A (bounds (margin d) A) e in
      match e_x e', e_flag e' with
      | Some x, Some v =>
          if rltb v 0 then Ok (false, r, e')
          else if (length x <? np + nq)%nat then UB
          else do r' <- update junk r (firstn np x) (firstn nq (skipn np x)); Ok (true, r', e')
      | _, _ => Ok (false, r, e')
      end
  end.
Proof.
  intros W Lp Lq Hn HP Hne A. unfold MatModel.mat_1d. rewrite (mat_rows_spec np nq r ss) by assumption. cbn [bind]. fold A.
  assert (L : length A = (2 * length ss)%nat) by apply rows_number.
  destruct (Nat.eqb_spec (Nat.min (length A) (np + nq)) 0) as [C|_].
  { destruct ss; [congruence|]. cbn [length] in L. lia. }
  reflexivity.
Qed.
Lemma mat_1d_empty um np nq e r : mat_1d um np nq e r [] = Abort.
Proof. reflexivity. Qed.

(** ** With a reliable solver *)
Lemma mat_1d_reliable np nq e r ss : reliable quadprog -> well_formed r -> length (r_p r) = np -> length (r_q r) = nq -> (0 < np)%nat -> (0 < nq)%nat -> positions_ok (r_dim r) ss -> ss <> [] ->
  exists b r' e', mat_1d true np nq e r ss = Ok (b, r', e') /\
    (b = true -> Forall (passes r') ss) /\
    (b = false -> (forall A, ratio A <> None) -> complete_flag quadprog ->
       ~ exists a c, length a = np /\ length c = nq /\ Forall (interpolates (r_dim r) (r_min r) (r_max r) a c) ss).
Proof.
  intros HR W Lp Lq Hn Hq HP Hne. rewrite (mat_1d_spec true np nq e r ss W Lp Lq ltac:(lia) HP Hne). cbv zeta.
  set (A := flat_map (both_rows r np nq) ss). destruct (ratio A) as [d|] eqn:Er.
  2: { do 3 eexists. split; [reflexivity|]. split; [discriminate|]. intros _ H. destruct (H A Er). }
  set (B := bounds (margin d) A). destruct (HR (np + nq)%nat A B (rows_width r np nq ss)) as (x & v & E & H).
  unfold evaluate. rewrite E. cbn [e_x e_flag]. destruct (rltb v 0) eqn:Ev.
  - do 3 eexists. split; [reflexivity|]. split; [discriminate|]. intros _ _ HC (a & c & La & Lc & HI).
    apply rltb_spec in Ev.
    set (y := List.map Ropp (a ++ c)).
    assert (HF : Forall (fun s => 0 < dot (upper_row r np nq s) y /\ 0 < dot (lower_row r np nq s) y) ss).
    { eapply Forall_impl; [|exact HI]. intros s (D & L & U). fold (num r a s) in *. fold (num r c s) in *.
      unfold y. rewrite <- La, <- Lc, !dot_neg, upper_row_dot, lower_row_dot.
      assert (Eq : num r a s = num r a s / num r c s * num r c s) by (field; lra).
      set (w := num r a s / num r c s) in *. rewrite Eq. clearbody w. split; nra. }
    destruct (margins_scale (margin d) r np nq y ss HF) as (T & HT & HM). specialize (HM T (Rle_refl T)).
    apply (HC _ _ _ _ _ (List.map (fun t => T * t) (a ++ c)) (rows_width r np nq ss) E Ev).
    + rewrite map_length, app_length. lia.
    + apply satisfies_margins. unfold y in HM. rewrite map_map in HM.
      replace (List.map Ropp (List.map (fun t => T * t) (a ++ c))) with (List.map (fun t => T * - t) (a ++ c)); [exact HM|].
      rewrite map_map. apply List.map_ext. intros; lra.
  - assert (V : 0 <= v). { destruct (Rlt_or_le v 0) as [C|C]; [|exact C]. apply rltb_spec in C. congruence. }
    destruct (H V) as [Lx HS]. destruct (Nat.ltb_spec (length x) (np + nq)) as [C|_]; [lia|].
    destruct (update_total junk r (firstn np x) (firstn nq (skipn np x)) W) as [r' Eu].
    + rewrite firstn_length; lia.
    + rewrite firstn_length, skipn_length; lia.
    + intros C. assert (L := f_equal (@length R) C). rewrite firstn_length, skipn_length in L. cbn in L. lia.
    + rewrite Eu. cbn [bind]. do 3 eexists. split; [reflexivity|]. split; [|discriminate]. intros _.
      eapply (solution_passes junk (margin d) r np nq x ss); eauto using margin_pos.
Qed.

(** ** Channels *)
Fixpoint mat_fits (um : bool) (np nq : nat) (r0 : rf1) (channels : list (list sample)) (e : engine) : outcome (bool * list rf1 * engine) :=
  match channels with
  | [] => Ok (true, [], e)
  | ss :: t =>
      do b <- mat_1d um np nq e r0 ss;
      let '(ok, r, e') := b in
      if ok then do u <- mat_fits um np nq r0 t e'; let '(ok2, rs, e2) := u in Ok (ok2, r :: rs, e2)
      else Ok (false, [r], e')
  end.
Lemma mat_channels_spec um dx dy mn mx np nq channels : (0 < dx)%nat -> length mn = dx -> length mx = dx -> forall don e, (length don + length channels <= dy)%nat ->
  mat_channels um np nq (length don) channels (mkRf dx dy mn mx np nq (List.map Some don ++ repeat None (dy - length don))) e =
  (do u <- mat_fits um np nq (fresh junk dx np nq mn mx) channels e;
   let '(ok, rs, e') := u in
   Ok (ok, mkRf dx dy mn mx np nq (List.map Some (don ++ rs) ++ repeat None (dy - length don - length rs)), e')).
Proof.
  intros Hd Hm HM. destruct (fresh_wf junk dx np nq mn mx Hd Hm HM) as (_ & _ & L1 & L2 & _).
  induction channels as [|ss channels IH]; intros don e HL; cbn [MatModel.mat_channels mat_fits].
  - cbn [bind]. rewrite app_nil_r. cbn [length]. rewrite Nat.sub_0_r. reflexivity.
  - cbn [length] in HL. destruct (dy - length don)%nat as [|n] eqn:En; [lia|]. rewrite QuadSizes.repeat_S.
    unfold get at 1. cbn [f_dimX f_dimY f_min f_max f_np f_nq f_rs].
    rewrite (proj2 (Nat.ltb_lt (length don) dy)) by lia. rewrite nth_error_app2 by (rewrite map_length; lia). rewrite map_length, Nat.sub_diag. cbn [nth_error].
    rewrite Hm, HM, Nat.ltb_irrefl. cbn [orb].
    rewrite (surjective_pairing (inflate mn mx)). fold (fresh junk dx np nq mn mx). cbn [bind].
    rewrite set_channel_at. rewrite resize_same by assumption.
    destruct (mat_1d um np nq e (fresh junk dx np nq mn mx) ss) as [[[b r'] e']| | |]; try reflexivity. cbn [bind].
    assert (ES : forall r1, set_channel (mkRf dx dy mn mx np nq (List.map Some (don ++ [r1]) ++ repeat None n)) (length don) r' =
                 mkRf dx dy mn mx np nq (List.map Some (don ++ [r']) ++ repeat None n)).
    { intros r1. rewrite <- (set_channel_at dx dy mn mx np nq don (Some r1) r' (repeat None n)). f_equal. f_equal. rewrite map_app, <- app_assoc. reflexivity. }
    rewrite ES. destruct b.
    + specialize (IH (don ++ [r']) e'). rewrite app_length in IH. cbn [length] in IH. replace (length don + 1)%nat with (S (length don)) in IH by lia.
      replace (dy - S (length don))%nat with n in IH by lia. rewrite IH by lia.
      destruct (mat_fits um np nq (fresh junk dx np nq mn mx) channels e') as [[[b2 u] e2]| | |]; try reflexivity. cbn [bind length]. rewrite <- app_assoc. cbn [app].
      replace (dy - S (length don) - length u)%nat with (dy - length don - S (length u))%nat by lia. reflexivity.
    + cbn [bind length]. rewrite Nat.sub_succ, Nat.sub_0_r. reflexivity.
Qed.
Lemma mat_attempt_spec um channels np nq f e : rf_ok f -> (length channels <= f_dimY f)%nat ->
  mat_attempt um channels np nq f e =
  (do u <- mat_fits um np nq (fresh junk (f_dimX f) np nq (f_min f) (f_max f)) channels e;
   let '(ok, rs, e') := u in
   Ok (ok, mkRf (f_dimX f) (f_dimY f) (f_min f) (f_max f) np nq (List.map Some rs ++ repeat None (f_dimY f - length rs)), e')).
Proof.
  intros (Hd & Hm & HM) HL. unfold MatModel.mat_attempt, set_size.
  pose proof (mat_channels_spec um (f_dimX f) (f_dimY f) (f_min f) (f_max f) np nq channels Hd Hm HM [] e HL) as E.
  cbn [length List.map app] in E. rewrite Nat.sub_0_r in E. exact E.
Qed.
Lemma mat_fits_reliable np nq r0 : reliable quadprog -> well_formed r0 -> length (r_p r0) = np -> length (r_q r0) = nq -> (0 < np)%nat -> (0 < nq)%nat ->
  forall channels e, Forall (positions_ok (r_dim r0)) channels -> Forall (fun ss => ss <> []) channels ->
  exists b rs e', mat_fits true np nq r0 channels e = Ok (b, rs, e') /\
    (b = true -> Forall2 (fun ss r => Forall (passes r) ss) channels rs) /\
    (b = false -> (forall A, ratio A <> None) -> complete_flag quadprog ->
       exists ss, In ss channels /\ ~ exists a c, length a = np /\ length c = nq /\ Forall (interpolates (r_dim r0) (r_min r0) (r_max r0) a c) ss).
Proof.
  intros HR W Lp Lq Hn Hq. induction channels as [|ss channels IH]; intros e HP HN; cbn [mat_fits].
  - do 3 eexists. split; [reflexivity|]. split; [constructor|discriminate].
  - inversion HP; subst. inversion HN; subst. 
    destruct (mat_1d_reliable (length (r_p r0)) (length (r_q r0)) e r0 ss) as (b & r & e' & E & HT & HF); try assumption; try reflexivity.
    rewrite E. cbn [bind]. destruct b.
    + destruct (IH e') as (b2 & rs & e2 & E2 & HT2 & HF2); try assumption. rewrite E2. cbn [bind].
      do 3 eexists. split; [reflexivity|]. split.
      * intros ->. constructor; [apply HT; reflexivity|apply HT2; reflexivity].
      * intros -> H1' H2'. destruct (HF2 eq_refl H1' H2') as (s' & Hin & Hno). exists s'. split; [right; assumption|assumption].
    + do 3 eexists. split; [reflexivity|]. split; [discriminate|]. intros _ H1' H2'. exists ss. split; [left; reflexivity|apply HF; auto].
Qed.
Lemma attempt_reliable channels np nq f e : reliable quadprog -> rf_ok f -> (length channels <= f_dimY f)%nat -> (0 < np)%nat -> (0 < nq)%nat ->
  Forall (positions_ok (f_dimX f)) channels -> Forall (fun ss => ss <> []) channels ->
  exists b f' e', mat_attempt true channels np nq f e = Ok (b, f', e') /\
    f_dimX f' = f_dimX f /\ f_dimY f' = f_dimY f /\ f_min f' = f_min f /\ f_max f' = f_max f /\ f_np f' = np /\ f_nq f' = nq /\
    (b = true -> forall j ss, nth_error channels j = Some ss -> exists r, channel_of f' j r /\ Forall (passes r) ss) /\
    (b = false -> (forall A, ratio A <> None) -> complete_flag quadprog ->
       exists mn mx ss, widened (1 / 10) (f_min f) (f_max f) mn mx /\ In ss channels /\
         ~ exists a c, length a = np /\ length c = nq /\ Forall (interpolates (f_dimX f) mn mx a c) ss).
Proof.
  intros HR Hf HL Hn Hq HP HN. rewrite mat_attempt_spec by assumption. destruct Hf as (Hd & Hm & HM).
  destruct (fresh_wf junk (f_dimX f) np nq (f_min f) (f_max f) Hd Hm HM) as (W & D & L1 & L2 & D1 & D2).
  destruct (mat_fits_reliable np nq _ HR W L1 L2 Hn Hq channels e) as (b & rs & e' & E & HT & HF); [rewrite D; assumption|assumption|].
  rewrite E. cbn [bind]. do 3 eexists. split; [reflexivity|]. cbn [f_dimX f_dimY f_min f_max f_np f_nq]. do 6 (split; [reflexivity|]). split.
  - intros Eb j ss Hj. specialize (HT Eb). apply Forall2_nth in HT as [EL HT]. unfold channel_of. cbn [f_rs].
    assert (Hlt : (j < length rs)%nat) by (rewrite <- EL; apply nth_error_Some; congruence).
    destruct (nth_error rs j) as [r|] eqn:Er; [|apply nth_error_None in Er; lia].
    exists r. split; [rewrite nth_error_app1 by (rewrite map_length; assumption); rewrite nth_error_map, Er; reflexivity|].
    eapply HT; eassumption.
  - intros Eb H1 H2. destruct (HF Eb H1 H2) as (ss & Hin & Hno).
    exists (fst (inflate (f_min f) (f_max f))), (snd (inflate (f_min f) (f_max f))), ss.
    split; [apply inflate_widened; congruence|]. split; [assumption|]. rewrite D, D1, D2 in Hno. exact Hno.
Qed.
End Mat.

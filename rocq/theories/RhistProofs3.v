(** Rational functions with a history: files (C124). *)
From Coq Require Import Reals List Lia Lra Arith Ascii String.
From Verif Require Import Base Num ParamsModel GeoModel ArgsModel ArgsSpec ArgsProofs DataModel TextModel TextProofs TextRound FuncModel FuncFile FuncFileSpec FuncFileProofs
  MonoModel MonoSpec MonoProofs RatModel RatSpec RatProofs RatFile RcutProofs RhistModel RhistSpec RhistProofs RhistProofs2.
Import ListNotations.
Open Scope list_scope.
Open Scope R_scope.

Section File.
Variable junk : R.
Variable lex : str -> option (R * str).
Variable print : R -> str.
Variable rnd : R -> R.
Hypothesis Hprint : prints lex print rnd.

(** the channels of a file are loaded in order into a function that has more;
    the load then fails *)
Lemma load_channels_short dx mn mx np nq m (todo : list rf1) : (0 < dx)%nat -> rnd 1 = 1 -> length mn = dx -> length mx = dx -> Forall (channel_ok dx) todo ->
  forall done w dy, spaces w -> dy = (length done + length todo + S m)%nat ->
  exists t, channels_text print (map Some todo) = Ok t /\ exists f' s',
    load_channels junk lex (length todo + S m) (length done) (mkRf dx dy mn mx np nq (map Some done ++ repeat None (length todo + S m))) (good_stream (w ++ t)) = Ok (false, f', s').
Proof using Hprint.
  intros Hd R1 Hm HM HF. induction HF as [|s todo (Ds & Ps & Qs & Ns) HF IH]; intros done w dy Hw Hdy.
  - exists []. split; [reflexivity|]. cbn [length Nat.add]. cbn [load_channels].
    set (f := mkRf dx dy mn mx np nq (map Some done ++ repeat None (S m))).
    assert (Hi : (length done < f_dimY f)%nat) by (cbn [f f_dimY]; cbn [length] in Hdy; lia).
    assert (En : nth_error (f_rs f) (length done) = Some None).
    { cbn [f f_rs]. rewrite nth_error_app2 by (rewrite map_length; lia). rewrite map_length, Nat.sub_diag. reflexivity. }
    unfold get. rewrite (proj2 (Nat.ltb_lt _ _) Hi), En. change (f_min f) with mn. change (f_max f) with mx. change (f_dimX f) with dx.
    rewrite Hm, HM, Nat.ltb_irrefl. cbn [orb]. destruct (inflate mn mx) as [mn' mx']. cbn [bind].
    unfold load_1d at 1. rewrite app_nil_r. unfold scan_string, good_stream. cbn [good rest eofbit failbit negb andb]. rewrite skip_all by exact Hw. cbn [bind]. eexists _, _. reflexivity.
  - cbn [map channels_text length Nat.add repeat load_channels].
    set (f := mkRf dx dy mn mx np nq (map Some done ++ None :: repeat None (length todo + S m))).
    assert (Hi : (length done < f_dimY f)%nat) by (cbn [f f_dimY]; cbn [length] in Hdy; lia).
    assert (En : nth_error (f_rs f) (length done) = Some None).
    { cbn [f f_rs]. rewrite nth_error_app2 by (rewrite map_length; lia). rewrite map_length, Nat.sub_diag. reflexivity. }
    unfold get. rewrite (proj2 (Nat.ltb_lt _ _) Hi), En. change (f_min f) with mn. change (f_max f) with mx. change (f_dimX f) with dx.
    rewrite Hm, HM, Nat.ltb_irrefl. cbn [orb].
    pose proof (inflate_ok mn mx dx Hm HM) as D. destruct (inflate mn mx) as [mn' mx']. cbn [fst snd] in *.
    destruct (new_wf junk dx np nq mn' mx' Hd D) as ((_ & _ & NP & NQ) & A & _ & _ & Em & EM).
    change (f_np f) with np. change (f_nq f) with nq.
    set (r := set_domain (new_rf1 junk dx np nq) mn' mx') in *. cbn [bind].
    rewrite A in NP, NQ.
    destruct (IH (done ++ [mkRf1 dx mn' mx' (round_coeffs rnd (r_p s)) (round_coeffs rnd (r_q s))]) [nl; nl] dy eq_refl) as (t2 & E2 & f' & s' & L2).
    { rewrite app_length. cbn in *. lia. }
    destruct (load_save_1d junk lex print rnd Hprint r s w ([nl] ++ t2)) as (t1 & E1 & L1); try assumption; try (rewrite A; assumption).
    rewrite E1, E2. cbn [bind]. eexists. split; [reflexivity|]. exists f', s'.
    unfold endl. cbn [app]. cbn [app] in L1. rewrite L1. cbn [bind].
    rewrite A, Em, EM. rewrite app_length in L2. cbn [length] in L2. rewrite Nat.add_1_r in L2.
    replace (set_channel (set_channel f (length done) r) (length done) (mkRf1 dx mn' mx' (round_coeffs rnd (r_p s)) (round_coeffs rnd (r_q s))))
      with (mkRf dx dy mn mx np nq (map Some (done ++ [mkRf1 dx mn' mx' (round_coeffs rnd (r_p s)) (round_coeffs rnd (r_q s))]) ++ repeat None (length todo + S m))).
    2: { set (r' := mkRf1 dx mn' mx' _ _). unfold set_channel, f. cbn [f_dimX f_dimY f_min f_max f_np f_nq f_rs]. f_equal.
         assert (L : length done = length (map (@Some rf1) done)) by (rewrite map_length; reflexivity). rewrite L.
         assert (F1 : forall (c : option rf1) t, firstn (length (map (@Some rf1) done)) (map Some done ++ c :: t) = map Some done).
         { intros c t. rewrite firstn_app, Nat.sub_diag, firstn_O, app_nil_r. apply firstn_all. }
         assert (F2 : forall (c : option rf1) t, skipn (S (length (map (@Some rf1) done))) (map Some done ++ c :: t) = t).
         { intros c t. generalize (map (@Some rf1) done). induction l as [|y l IHl]; [reflexivity|exact IHl]. }
         rewrite !F1, !F2. rewrite map_app, <- app_assoc. reflexivity. }
    cbn [app] in L2. exact L2.
Qed.

(** the part of the file before the channels *)
Lemma load_header f t np nq post : length (f_min f) = f_dimX f -> length (f_max f) = f_dimX f -> exists w, spaces w /\
  load_rf junk lex (new_rf (f_dimX f) (f_dimY f) np nq)
    (good_stream ((endl (lit "#FUNC rational_function") ++ endl (lit "#MIN " ++ domain_text print (f_min f)) ++ endl (lit "#MAX " ++ domain_text print (f_max f)) ++ t) ++ post)) =
  load_channels junk lex (f_dimY f) 0 (mkRf (f_dimX f) (f_dimY f) (map rnd (f_min f)) (map rnd (f_max f)) np nq (repeat None (f_dimY f))) (good_stream (w ++ t ++ post)).
Proof using Hprint.
  intros Hm HM. unfold load_rf. unfold endl. rewrite <- !app_assoc. cbn [app].
  match goal with |- context[good_stream (lit "#FUNC rational_function" ++ nl :: ?u)] => set (u0 := u) end.
  change (lit "#FUNC rational_function" ++ nl :: u0) with ("#"%char :: (lit "FUNC rational_function" ++ nl :: u0)).
  assert (SN : forall n u, skip_lines (S n) (good_stream ("#"%char :: u)) = (true, good_stream ("#"%char :: u))) by (intros n u; apply (skip_newlines [] (Forall_nil _) u (S n)); cbn; lia).
  rewrite SN. cbn [negb].
  change ("#"%char :: lit "FUNC rational_function" ++ nl :: u0) with ([] ++ lit "#FUNC" ++ " "%char :: (lit "rational_function" ++ nl :: u0)).
  rewrite scan_word; [|reflexivity|discriminate|repeat constructor|reflexivity].
  change (" "%char :: lit "rational_function" ++ nl :: u0) with ([" "%char] ++ lit "rational_function" ++ nl :: u0).
  rewrite scan_word; [|reflexivity|discriminate|repeat constructor|reflexivity].
  unfold u0. match goal with |- context[nl :: lit "#MIN " ++ ?v] => change (nl :: lit "#MIN " ++ v) with ([nl] ++ lit "#MIN" ++ " "%char :: v) end.
  rewrite scan_word; [|reflexivity|discriminate|repeat constructor|reflexivity].
  change (str_eqb (lit "#FUNC") "#FUNC"%string) with true. change (str_eqb (lit "rational_function") "rational_function"%string) with true.
  change (str_eqb (lit "#MIN") "#MIN"%string) with true. cbn [negb]. cbn [new_rf f_dimX f_dimY].
  match goal with |- context[good_stream (" "%char :: domain_text print (f_min f) ++ nl :: ?v)] =>
    destruct (read_doubles_text lex print rnd Hprint (f_min f) [" "%char] nl v eq_refl eq_refl) as (wa & Wa & _ & Ea) end.
  cbn [app] in Ea. rewrite Hm in Ea. rewrite Ea. cbn [bind fst snd].
  match goal with |- context[good_stream (wa ++ nl :: lit "#MAX " ++ ?v)] =>
    replace (wa ++ nl :: lit "#MAX " ++ v) with ((wa ++ [nl]) ++ lit "#MAX" ++ " "%char :: v) by (rewrite <- app_assoc; reflexivity) end.
  rewrite scan_word; [| |discriminate|repeat constructor|reflexivity].
  2: { unfold spaces in *. rewrite forallb_app, Wa. reflexivity. }
  change (str_eqb (lit "#MAX") "#MAX"%string) with true. cbn [negb].
  match goal with |- context[good_stream (" "%char :: domain_text print (f_max f) ++ nl :: ?v)] =>
    destruct (read_doubles_text lex print rnd Hprint (f_max f) [" "%char] nl v eq_refl eq_refl) as (wb & Wb & _ & Eb) end.
  cbn [app] in Eb. rewrite HM in Eb. rewrite Eb. cbn [bind fst snd].
  exists (wb ++ [nl]). split; [unfold spaces in *; rewrite forallb_app, Wb; reflexivity|]. rewrite <- app_assoc. reflexivity.
Qed.

Fixpoint present (rs : list (option rf1)) : list rf1 :=
  match rs with [] => [] | Some r :: rs' => r :: present rs' | None :: rs' => present rs' end.
Lemma channels_text_present rs : channels_text print rs = channels_text print (map Some (present rs)).
Proof.
  induction rs as [|[r|] rs IH]; cbn [present map channels_text]; [reflexivity| |exact IH]. rewrite IH. reflexivity.
Qed.
Lemma present_length rs : (length (present rs) <= length rs)%nat.
Proof. induction rs as [|[r|] rs IH]; cbn; lia. Qed.
Lemma present_short rs : In None rs -> (length (present rs) < length rs)%nat.
Proof.
  induction rs as [|[r|] rs IH]; intros H; [destruct H| |cbn; pose proof (present_length rs); lia].
  destruct H as [E|H]; [discriminate|]. specialize (IH H). cbn. lia.
Qed.
Lemma present_in rs r : In r (present rs) -> In (Some r) rs.
Proof. induction rs as [|[r'|] rs IH]; cbn; intros H; [destruct H|destruct H as [->|H]; auto|auto]. Qed.

Variables dx dy np nq : nat.
Hypothesis Hdx : (0 < dx)%nat.
Hypothesis R1 : rnd 1 = 1.

Lemma usable_ok past f : calls_ok dx dy (np, nq) past -> represents dx dy np nq f past -> usable dy past -> Forall (channel_ok dx) (present (f_rs f)).
Proof.
  intros Hok (A & B & C & D & E & F & G) U. apply Forall_forall. intros r Hr. apply present_in in Hr. apply In_nth_error in Hr. destruct Hr as (i & Hi).
  assert (Li : (i < outputs dy past)%nat) by (rewrite <- F; apply nth_error_Some; congruence). specialize (G i Li).
  destruct (made dy i past) as [m|] eqn:Em; [|rewrite Hi in G; discriminate]. destruct G as (r' & Er & Wf & Dr & _ & _ & Nm). rewrite Hi in Er. injection Er as <-.
  destruct (U i m Li Em) as (a & b_0 & b & Eg & Hb). rewrite Eg in Nm. destruct Nm as (N1 & _). destruct (N1 Hb) as [_ Q]. destruct Wf as (_ & _ & P1 & P2).
  split; [exact Dr|]. rewrite Dr in *. split; [exact P1|]. split; [exact P2|]. eexists. exact Q.
Qed.

Theorem missing_file past f np' nq' i : calls_ok dx dy (np, nq) past -> represents dx dy np nq f past -> usable dy past -> (i < outputs dy past)%nat -> made dy i past = None ->
  exists t f' s', save_rf print f = Ok t /\ load_rf junk lex (new_rf dx (outputs dy past) np' nq') (good_stream t) = Ok (false, f', s').
Proof using Hprint Hdx R1.
  intros Hok R U Hi Em. pose proof (usable_ok past f Hok R U) as CO. destruct R as (A & B & C & D & E & F & G). destruct (last_lengths dx dy np nq past Hok) as [L1 L2].
  specialize (G i Hi). rewrite Em in G. apply nth_error_In in G. apply present_short in G.
  unfold save_rf. rewrite B, firstn_all2 by lia. rewrite channels_text_present. rewrite (firstn_all2 (f_min f)), (firstn_all2 (f_max f)) by (rewrite ?C, ?D; lia).
  assert (M : exists m, outputs dy past = (length (present (f_rs f)) + S m)%nat) by (exists (outputs dy past - S (length (present (f_rs f))))%nat; lia). destruct M as [m Em'].
  assert (T : exists t, channels_text print (map Some (present (f_rs f))) = Ok t).
  { destruct (load_channels_short dx (map rnd (f_min f)) (map rnd (f_max f)) np' nq' m (present (f_rs f)) Hdx R1) with (done := @nil rf1) (w := @nil ascii) (dy := outputs dy past) as (t & Et & _);
      try (rewrite map_length; congruence); auto; [reflexivity|eauto]. }
  destruct T as [t Et]. rewrite Et. cbn [bind]. eexists.
  destruct (load_header f t np' nq' []) as (w & W & LH); [congruence|congruence|]. rewrite !app_nil_r in LH. rewrite A, B in LH. rewrite LH.
  destruct (load_channels_short dx (map rnd (f_min f)) (map rnd (f_max f)) np' nq' m (present (f_rs f)) Hdx R1) with (done := @nil rf1) (w := w) (dy := outputs dy past) as (t' & Et' & f' & s' & L);
      try (rewrite map_length; congruence); auto. rewrite Et in Et'. apply Ok_inj in Et'. subst t'. exists f', s'. split; [reflexivity|].
  rewrite <- Em' in L. exact L.
Qed.

Lemma all_present rs : (forall i, (i < length rs)%nat -> nth_error rs i <> Some None) -> rs = map Some (present rs).
Proof.
  induction rs as [|c rs IH]; intros H; [reflexivity|]. destruct c as [r|].
  - cbn [present map]. f_equal. apply IH. intros i Hi. apply (H (S i)). cbn. lia.
  - exfalso. apply (H 0%nat); [cbn; lia|reflexivity].
Qed.

(** a function whose channels all exist, saved and loaded again: each channel
    keeps its coefficients on the bounds last set *)
Theorem reload past f np' nq' : calls_ok dx dy (np, nq) past -> represents dx dy np nq f past -> usable dy past ->
  (forall i, (i < outputs dy past)%nat -> made dy i past <> None) ->
  exists t f' s', save_rf print f = Ok t /\ load_rf junk lex (new_rf dx (outputs dy past) np' nq') (good_stream t) = Ok (true, f', s') /\
    f_dimY f' = outputs dy past /\ f_min f' = map rnd (last_min dx past) /\ f_max f' = map rnd (last_max dx past) /\ length (f_rs f') = outputs dy past /\
    forall i, (i < outputs dy past)%nat -> exists r r', nth_error (f_rs f) i = Some (Some r) /\ nth_error (f_rs f') i = Some (Some r') /\
      r_dim r' = dx /\ (r_min r', r_max r') = inflate (map rnd (last_min dx past)) (map rnd (last_max dx past)) /\
      map co_deg (r_p r') = map co_deg (r_p r) /\ map co_deg (r_q r') = map co_deg (r_q r) /\
      getP r' = map rnd (getP r) /\ getQ r' = map rnd (getQ r).
Proof using Hprint Hdx R1.
  intros Hok R U Hall. pose proof (usable_ok past f Hok R U) as CO. destruct R as (A & B & C & D & E & F & G). destruct (last_lengths dx dy np nq past Hok) as [L1 L2].
  assert (P : f_rs f = map Some (present (f_rs f))).
  { apply all_present. intros i Hi. specialize (G i ltac:(lia)). specialize (Hall i ltac:(lia)). destruct (made dy i past); [|congruence]. destruct G as (r & -> & _). discriminate. }
  assert (PL : length (present (f_rs f)) = f_dimY f) by (rewrite B, <- F; rewrite P at 2; rewrite map_length; reflexivity).
  destruct (load_save_rf junk lex print rnd Hprint f (present (f_rs f)) np' nq' [] [] R1 (Forall_nil _)) as (t & S & w' & _ & L); try lia.
  { rewrite C, A. exact L1. } { rewrite D, A. exact L2. } { exact P. } { rewrite A. exact CO. }
  rewrite app_nil_r in L. cbn [app] in L. rewrite A, B, C, D in L. exists t. eexists. eexists. split; [exact S|]. split; [exact L|]. cbn [f_dimY f_min f_max f_rs].
  split; [reflexivity|]. split; [reflexivity|]. split; [reflexivity|]. split; [rewrite map_length; lia|].
  intros i Hi. destruct (nth_error (present (f_rs f)) i) as [r|] eqn:Er; [|apply nth_error_None in Er; lia]. exists r. eexists.
  split; [rewrite P; apply map_nth_error; exact Er|]. split; [apply (map_nth_error (fun s => Some (mkRf1 _ _ _ _ _))); exact Er|]. cbn [r_dim r_min r_max r_p r_q].
  split; [reflexivity|]. split; [destruct (inflate _ _); reflexivity|]. unfold round_coeffs, getP, getQ. cbn [r_p r_q]. rewrite !map_map. cbn [co_deg co_a]. auto.
Qed.
End File.

(** Rational functions: saving and loading (C33). *)
From Coq Require Import Reals List Lia Lra.
From Verif Require Import Base Num ParamsModel GeoModel ArgsModel ArgsSpec ArgsProofs DataModel TextModel TextProofs TextRound FuncModel FuncFile FuncFileSpec FuncFileProofs MonoModel MonoSpec MonoProofs RatModel RatSpec RatProofs.
Open Scope R_scope.


Section File.
Variable junk : R.
Variable lex : str -> option (R * str).
Variable print : R -> str.
Variable rnd : R -> R.
Hypothesis Hprint : prints lex print rnd.


Lemma scan_double_text v w c r : spaces w -> is_space c = true ->
  scan_double lex (good_stream (w ++ print v ++ c :: r)) = (Some (rnd v), good_stream (c :: r)).
Proof.
  intros Hw Hc. destruct (Hprint v) as ((h & t & Ec & Hh & _) & _ & Hl).
  unfold scan_double, good_stream. cbn [good rest eofbit failbit negb andb]. rewrite skip_ws_spaces by assumption.
  assert (E : skip_ws (print v ++ c :: r) = print v ++ c :: r) by (rewrite Ec; cbn [app skip_ws]; rewrite Hh; reflexivity).
  rewrite E. pose proof (Hl c r Hc) as L. rewrite Ec in L |- *. cbn [app] in L |- *. rewrite L. reflexivity.
Qed.
Lemma scan_num_text n w c r : spaces w -> is_space c = true ->
  scan_num (good_stream (w ++ print_nat n ++ c :: r)) = (Some (Z.of_nat n), good_stream (c :: r)).
Proof.
  intros Hw Hc. unfold scan_num, good_stream. cbn [good rest eofbit failbit negb andb]. rewrite skip_ws_spaces by assumption.
  unfold print_nat. destruct (print_N_head (N.of_nat n)) as (h & t & E & Hd).
  assert (ES : skip_ws (print_N (N.of_nat n) ++ c :: r) = print_N (N.of_nat n) ++ c :: r).
  { rewrite E. cbn [app skip_ws]. rewrite digit_not_space by assumption. reflexivity. }
  rewrite ES. assert (EI : scan_int (print_N (N.of_nat n) ++ c :: r) = (Some (Z.of_N (N.of_nat n)), c :: r)).
  { apply scan_int_print_N. cbn. destruct (is_digit c) eqn:F; [|reflexivity]. apply digit_not_space in F. congruence. }
  rewrite nat_N_Z in EI. rewrite E in EI |- *. cbn [app] in EI |- *. rewrite EI. reflexivity.
Qed.
Lemma scan_word w t c r : spaces w -> t <> [] -> Forall (fun c => is_space c = false) t -> is_space c = true ->
  scan_string (good_stream (w ++ t ++ c :: r)) = (Some t, good_stream (c :: r)).
Proof. intros. apply scan_string_word; try assumption. discriminate. Qed.
Lemma print_nat_ne n : print_nat n <> [].
Proof. unfold print_nat. destruct (print_N_head (N.of_nat n)) as (h & t & -> & _). discriminate. Qed.

Lemma skip_exponents es : forall w r, spaces w ->
  exists w', spaces w' /\ skip_tokens (length es) (good_stream (w ++ flat_map (fun e => print_nat e ++ [tab]) es ++ r)) = good_stream (w' ++ r).
Proof.
  induction es as [|e es IH]; intros w r Hw; [exists w; auto|]. cbn [length skip_tokens flat_map]. rewrite <- !app_assoc. cbn [app].
  rewrite scan_word; [|assumption|apply print_nat_ne|apply digits_no_space|reflexivity]. cbn [snd].
  apply (IH [tab] r eq_refl).
Qed.
Lemma read_coeffs_text d cs : Forall (fun c => length (co_deg c) = d) cs -> forall w post, spaces w ->
  exists t, coeffs_text print d cs = Ok t /\ exists w', spaces w' /\ (cs <> [] -> w' = [nl]) /\ (cs = [] -> w' = w) /\
    read_coeffs lex (length cs) d (good_stream (w ++ t ++ post)) = Ok (map rnd (map co_a cs), good_stream (w' ++ post)).
Proof.
  induction 1 as [|c cs Hc H IH]; intros w post Hw; cbn [coeffs_text].
  - exists []. split; [reflexivity|]. exists w. split; [assumption|]. split; [congruence|]. split; [reflexivity|]. reflexivity.
  - rewrite Hc, Nat.ltb_irrefl. destruct (IH [nl] post eq_refl) as (t & Et & w' & W1 & W2 & W3 & R). rewrite Et. cbn [bind].
    eexists. split; [reflexivity|]. exists w'. split; [assumption|]. split; [|split; [discriminate|]].
    { intros _. destruct cs; [apply W3; reflexivity|apply W2; discriminate]. }
    cbn [length read_coeffs map]. rewrite <- !app_assoc. rewrite firstn_all2 by lia. rewrite <- Hc.
    unfold endl. rewrite <- !app_assoc. cbn [app].
    destruct (skip_exponents (co_deg c) w (print (co_a c) ++ nl :: t ++ post) Hw) as (w2 & Hw2 & E2). rewrite E2.
    rewrite scan_double_text by auto. rewrite Hc. cbn [app] in R. rewrite R. reflexivity.
Qed.

Lemma assign_one cs : forall v, length cs = length v -> map co_a (assign cs v 1) = v.
Proof. intros v H. rewrite assign_a by assumption. rewrite <- (map_id v) at 2. apply List.map_ext. intros. lra. Qed.
Lemma coeffs_eq (a b : list coeff) : map co_a a = map co_a b -> map co_deg a = map co_deg b -> a = b.
Proof.
  revert b. induction a as [|[x e] a IH]; intros [|[y f] b] H1 H2; try discriminate; [reflexivity|]. cbn in *. injection H1 as -> H1. injection H2 as -> H2.
  f_equal. apply IH; assumption.
Qed.
Lemma numbered_lengths d cs : (0 < d)%nat -> numbered d cs -> Forall (fun c => length (co_deg c) = d) cs.
Proof.
  intros Hd H. unfold numbered in H. revert H. generalize 0%nat as i. induction cs as [|c cs IH]; intros i H; [constructor|]. cbn in H. injection H as H1 H2.
  constructor; [rewrite H1; apply index2degree_length; assumption|]. apply (IH (S i)). assumption.
Qed.

Theorem load_save_1d r s w post : rnd 1 = 1 -> (0 < r_dim r)%nat -> r_dim s = r_dim r ->
  numbered (r_dim r) (r_p r) -> numbered (r_dim r) (r_q r) -> numbered (r_dim r) (r_p s) -> numbered (r_dim r) (r_q s) ->
  normalised s -> spaces w ->
  exists t, save_1d print s = Ok t /\ load_1d junk lex r (good_stream (w ++ t ++ post)) =
    Ok (true, mkRf1 (r_dim r) (r_min r) (r_max r) (round_coeffs rnd (r_p s)) (round_coeffs rnd (r_q s)), good_stream (nl :: post)).
Proof.
  intros R1 Hd Ed Np Nq Sp Sq (tq & Hq) Hw. unfold save_1d. rewrite Ed.
  pose proof (numbered_lengths _ _ Hd Sp) as Lp. pose proof (numbered_lengths _ _ Hd Sq) as Lq.
  destruct (read_coeffs_text (r_dim r) (r_q s) Lq [nl] post eq_refl) as (t2 & E2 & w2 & W2 & W2' & _ & RQ).
  destruct (read_coeffs_text (r_dim r) (r_p s) Lp [nl] (t2 ++ post) eq_refl) as (t1 & E1 & w1 & W1 & W1' & W1'' & RP).
  assert (w1 = [nl]) as -> by (destruct (r_p s); [apply W1''; reflexivity|apply W1'; discriminate]).
  assert (w2 = [nl]) as -> by (apply W2'; unfold getQ in Hq; destruct (r_q s); discriminate).
  rewrite E1, E2. cbn [bind]. eexists. split; [reflexivity|].
  unfold load_1d, endl. rewrite <- !app_assoc. cbn [app].
  assert (EA : forall n (z : str), lit "#NP " ++ print_nat n ++ z = lit "#NP" ++ " "%char :: print_nat n ++ z) by reflexivity.
  assert (EB : forall n (z : str), nl :: lit "#NQ " ++ print_nat n ++ z = [nl] ++ lit "#NQ" ++ " "%char :: print_nat n ++ z) by reflexivity.
  rewrite EA. rewrite scan_word; [|assumption|discriminate|repeat constructor|reflexivity].
  change (str_eqb (lit "#NP") "#NP"%string) with true. cbn [negb].
  match goal with |- context[good_stream (" "%char :: print_nat ?n ++ nl :: ?z)] =>
    change (good_stream (" "%char :: print_nat n ++ nl :: z)) with (good_stream ([" "%char] ++ print_nat n ++ nl :: z)) end.
  rewrite scan_num_text by reflexivity. rewrite EB. rewrite scan_word; [|reflexivity|discriminate|repeat constructor|reflexivity].
  match goal with |- context[good_stream (" "%char :: print_nat ?n ++ nl :: ?z)] =>
    change (good_stream (" "%char :: print_nat n ++ nl :: z)) with (good_stream ([" "%char] ++ print_nat n ++ nl :: z)) end.
  rewrite scan_num_text by reflexivity.
  change (str_eqb (lit "#NQ") "#NQ"%string) with true. cbn [negb].
  destruct (Z.ltb_spec (Z.of_nat (length (r_p s))) 0); [lia|]. destruct (Z.ltb_spec (Z.of_nat (length (r_q s))) 0); [lia|]. cbn [orb].
  rewrite !Nat2Z.id. cbn [app] in RP, RQ. rewrite RP. cbn [bind fst snd]. rewrite RQ. cbn [bind fst snd].
  destruct (resize_sizes junk r (length (r_p s)) (length (r_q s)) Hd) as [A B].
  destruct (resize_keeps junk r (length (r_p s)) (length (r_q s))) as (K1 & K2 & K3).
  assert (Mp : numbered (r_dim r) (r_p (resize junk r (length (r_p s)) (length (r_q s))))).
  { unfold resize. destruct (Nat.eqb_spec (r_dim r) 0); [lia|]. apply resize_numbered. assumption. }
  assert (Mq : numbered (r_dim r) (r_q (resize junk r (length (r_p s)) (length (r_q s))))).
  { unfold resize. destruct (Nat.eqb_spec (r_dim r) 0); [lia|]. apply resize_numbered. assumption. }
  set (r1 := resize junk r (length (r_p s)) (length (r_q s))) in *.
  unfold update. fold (getP s) (getQ s). rewrite !map_length. unfold getP, getQ. rewrite !map_length. rewrite A, B, !Nat.eqb_refl. fold (getP s) (getQ s).
  assert (EQ : map rnd (getQ s) = 1 :: map rnd tq) by (rewrite Hq; cbn; rewrite R1; reflexivity).
  rewrite EQ. assert (EL : rltb (1 / 10 ^ 16) (Rabs 1) = true).
  { apply rltb_spec. rewrite Rabs_R1. apply (Rmult_lt_reg_r (10 ^ 16)); [apply pow_lt; lra|]. unfold Rdiv. rewrite Rmult_assoc, Rinv_l by (apply pow_nonzero; lra). lra. }
  rewrite EL, <- EQ. cbn [bind]. rewrite K1, K2, K3.
  assert (LP : length (r_p r1) = length (map rnd (getP s))) by (unfold getP; rewrite !map_length; assumption).
  assert (LQ : length (r_q r1) = length (map rnd (getQ s))) by (unfold getQ; rewrite !map_length; assumption).
  replace (assign (r_p r1) (map rnd (getP s)) 1) with (round_coeffs rnd (r_p s)).
  2: { apply coeffs_eq.
       - rewrite assign_one by assumption. unfold round_coeffs, getP. rewrite !map_map. reflexivity.
       - rewrite assign_deg by assumption. unfold round_coeffs. rewrite map_map. cbn [co_deg]. unfold numbered in *. rewrite Mp, A. exact Sp. }
  replace (assign (r_q r1) (map rnd (getQ s)) 1) with (round_coeffs rnd (r_q s)).
  2: { apply coeffs_eq.
       - rewrite assign_one by assumption. unfold round_coeffs, getQ. rewrite !map_map. reflexivity.
       - rewrite assign_deg by assumption. unfold round_coeffs. rewrite map_map. cbn [co_deg]. unfold numbered in *. rewrite Mq, B. exact Sq. }
  reflexivity.
Qed.

(** ** Whole functions *)
Lemma read_doubles_text v : forall w c r, spaces w -> is_space c = true ->
  exists w', spaces w' /\ (v <> [] -> True) /\ read_doubles lex (length v) (good_stream (w ++ domain_text print v ++ c :: r)) = Ok (map rnd v, good_stream (w' ++ c :: r)).
Proof.
  unfold domain_text. induction v as [|x v IH]; intros w c r Hw Hc; cbn [length read_doubles flat_map map]; [exists w; auto|].
  rewrite <- !app_assoc. change (lit " ") with [" "%char]. cbn [app]. rewrite scan_double_text by auto.
  destruct (IH [" "%char] c r eq_refl Hc) as (w' & A & B & E). change (lit " ") with [" "%char] in E. cbn [app] in E. rewrite E. exists w'. auto.
Qed.


Lemma load_channels_text dx mn mx np nq (todo : list rf1) : (0 < dx)%nat -> rnd 1 = 1 -> length mn = dx -> length mx = dx -> Forall (channel_ok dx) todo ->
  forall done w dy post, spaces w -> dy = (length done + length todo)%nat ->
  exists t, channels_text print (map Some todo) = Ok t /\ exists w', spaces w' /\
    load_channels junk lex (length todo) (length done) (mkRf dx dy mn mx np nq (map Some done ++ repeat None (length todo))) (good_stream (w ++ t ++ post)) =
    Ok (true, mkRf dx dy mn mx np nq (map Some done ++ map (fun s => Some (mkRf1 dx (fst (inflate mn mx)) (snd (inflate mn mx)) (round_coeffs rnd (r_p s)) (round_coeffs rnd (r_q s)))) todo),
        good_stream (w' ++ post)).
Proof.
  intros Hd R1 Hm HM HF. induction HF as [|s todo (Ds & Ps & Qs & Ns) HF IH]; intros done w dy post Hw Hdy.
  - exists []. split; [reflexivity|]. exists w. split; [assumption|]. reflexivity.
  - cbn [map channels_text length repeat load_channels].
    set (f := mkRf dx dy mn mx np nq (map Some done ++ None :: repeat None (length todo))).
    assert (Hi : (length done < f_dimY f)%nat) by (cbn [f f_dimY]; cbn [length] in Hdy; lia).
    assert (En : nth_error (f_rs f) (length done) = Some None).
    { cbn [f f_rs]. rewrite nth_error_app2 by (rewrite map_length; lia). rewrite map_length, Nat.sub_diag. reflexivity. }
    unfold get. rewrite (proj2 (Nat.ltb_lt _ _) Hi), En. change (f_min f) with mn. change (f_max f) with mx. change (f_dimX f) with dx.
    rewrite Hm, HM, Nat.ltb_irrefl. cbn [orb].
    pose proof (inflate_ok mn mx dx Hm HM) as D. destruct (inflate mn mx) as [mn' mx']. cbn [fst snd] in *.
    destruct (new_wf junk dx np nq mn' mx' Hd D) as ((_ & _ & NP & NQ) & A & _ & _ & Em & EM).
    change (f_np f) with np. change (f_nq f) with nq.
    set (r := set_domain (new_rf1 junk dx np nq) mn' mx') in *. cbn [bind].
    rewrite A in NP, NQ.
    destruct (IH (done ++ [mkRf1 dx mn' mx' (round_coeffs rnd (r_p s)) (round_coeffs rnd (r_q s))]) [nl; nl] dy post eq_refl) as (t2 & E2 & w' & W' & L2).
    { rewrite app_length. cbn in *. lia. }
    destruct (load_save_1d r s w ([nl] ++ t2 ++ post)) as (t1 & E1 & L1); try assumption; try (rewrite A; assumption).
    rewrite E1, E2. cbn [bind]. eexists. split; [reflexivity|]. exists w'. split; [assumption|].
    unfold endl. cbn [app]. rewrite <- !app_assoc. cbn [app]. cbn [app] in L1. rewrite L1. cbn [bind].
    rewrite A, Em, EM. rewrite app_length in L2. cbn [length] in L2. rewrite Nat.add_1_r in L2.
    replace (set_channel (set_channel f (length done) r) (length done) (mkRf1 dx mn' mx' (round_coeffs rnd (r_p s)) (round_coeffs rnd (r_q s))))
      with (mkRf dx dy mn mx np nq (map Some (done ++ [mkRf1 dx mn' mx' (round_coeffs rnd (r_p s)) (round_coeffs rnd (r_q s))]) ++ repeat None (length todo))).
    2: { set (r' := mkRf1 dx mn' mx' _ _). unfold set_channel, f. cbn [f_dimX f_dimY f_min f_max f_np f_nq f_rs]. f_equal.
         assert (L : length done = length (map (@Some rf1) done)) by (rewrite map_length; reflexivity). rewrite L.
         assert (F1 : forall (c : option rf1) t, firstn (length (map (@Some rf1) done)) (map Some done ++ c :: t) = map Some done).
         { intros c t. rewrite firstn_app, Nat.sub_diag, firstn_O, app_nil_r. apply firstn_all. }
         assert (F2 : forall (c : option rf1) t, skipn (S (length (map (@Some rf1) done))) (map Some done ++ c :: t) = t).
         { intros c t. generalize (map (@Some rf1) done). induction l as [|y l IHl]; [reflexivity|exact IHl]. }
         rewrite !F1, !F2. rewrite map_app, <- app_assoc. reflexivity. }
    cbn [app] in L2. rewrite L2. rewrite map_app, <- app_assoc. reflexivity.
Qed.

Theorem load_save_rf f (channels : list rf1) np nq w post : rnd 1 = 1 -> newlines w ->
  (0 < f_dimX f)%nat -> length (f_min f) = f_dimX f -> length (f_max f) = f_dimX f ->
  f_rs f = map Some channels -> length channels = f_dimY f -> Forall (channel_ok (f_dimX f)) channels ->
  exists t, save_rf print f = Ok t /\ exists w', spaces w' /\
    load_rf junk lex (new_rf (f_dimX f) (f_dimY f) np nq) (good_stream (w ++ t ++ post)) =
    Ok (true, mkRf (f_dimX f) (f_dimY f) (map rnd (f_min f)) (map rnd (f_max f)) np nq
          (map (fun s => Some (mkRf1 (f_dimX f) (fst (inflate (map rnd (f_min f)) (map rnd (f_max f)))) (snd (inflate (map rnd (f_min f)) (map rnd (f_max f))))
                 (round_coeffs rnd (r_p s)) (round_coeffs rnd (r_q s)))) channels),
        good_stream (w' ++ post)).
Proof.
  intros R1 Hw Hd Hm HM Er Hl HF. unfold save_rf. rewrite Er. rewrite (firstn_all2 (n := f_dimY f)) by (rewrite map_length; lia).
  rewrite !firstn_all2 by lia.
  destruct (read_doubles_text (f_min f) [" "%char] nl (lit "#MAX " ++ domain_text print (f_max f) ++ nl :: [] ) eq_refl eq_refl) as (w1 & W1 & _ & _).
  destruct (load_channels_text (f_dimX f) (map rnd (f_min f)) (map rnd (f_max f)) np nq channels Hd R1) with (done := @nil rf1) (w := [nl]) (dy := f_dimY f) (post := post)
    as (t & Et & w' & W' & L); try (rewrite map_length; assumption); try assumption; try reflexivity.
  { cbn. lia. }
  rewrite Et. cbn [bind]. eexists. split; [reflexivity|].
  (* the final spaces depend on those before the channels *)
  assert (SP : forall w0, spaces w0 -> exists w', spaces w' /\ load_channels junk lex (length channels) 0 (mkRf (f_dimX f) (f_dimY f) (map rnd (f_min f)) (map rnd (f_max f)) np nq (repeat None (length channels))) (good_stream (w0 ++ t ++ post)) =
    Ok (true, mkRf (f_dimX f) (f_dimY f) (map rnd (f_min f)) (map rnd (f_max f)) np nq
          (map (fun s => Some (mkRf1 (f_dimX f) (fst (inflate (map rnd (f_min f)) (map rnd (f_max f)))) (snd (inflate (map rnd (f_min f)) (map rnd (f_max f))))
                 (round_coeffs rnd (r_p s)) (round_coeffs rnd (r_q s)))) channels), good_stream (w' ++ post))).
  { intros w0 H0. destruct (load_channels_text (f_dimX f) (map rnd (f_min f)) (map rnd (f_max f)) np nq channels Hd R1) with (done := @nil rf1) (w := w0) (dy := f_dimY f) (post := post)
    as (t0 & Et0 & w0' & W0' & L0); try (rewrite map_length; assumption); try assumption; try reflexivity; [cbn; lia|].
    rewrite Et in Et0. apply Ok_inj in Et0. subst t0. exists w0'. split; assumption. }
  unfold load_rf. unfold endl. rewrite <- !app_assoc. cbn [app].
  set (z := t ++ post) in *.
  match goal with |- context[w ++ lit "#FUNC rational_function" ++ nl :: ?u] => set (u0 := u) end.
  change (lit "#FUNC rational_function" ++ nl :: u0) with ("#"%char :: (lit "FUNC rational_function" ++ nl :: u0)).
  rewrite skip_newlines; [|assumption|cbn [rest good_stream]; rewrite app_length; lia]. cbn [negb].
  change ("#"%char :: lit "FUNC rational_function" ++ nl :: u0) with ([] ++ lit "#FUNC" ++ " "%char :: (lit "rational_function" ++ nl :: u0)).
  rewrite scan_word; [|reflexivity|discriminate|repeat constructor|reflexivity].
  change (" "%char :: lit "rational_function" ++ nl :: u0) with ([" "%char] ++ lit "rational_function" ++ nl :: u0).
  rewrite scan_word; [|reflexivity|discriminate|repeat constructor|reflexivity].
  unfold u0. match goal with |- context[nl :: lit "#MIN " ++ ?v] => change (nl :: lit "#MIN " ++ v) with ([nl] ++ lit "#MIN" ++ " "%char :: v) end.
  rewrite scan_word; [|reflexivity|discriminate|repeat constructor|reflexivity].
  change (str_eqb (lit "#FUNC") "#FUNC"%string) with true. change (str_eqb (lit "rational_function") "rational_function"%string) with true.
  change (str_eqb (lit "#MIN") "#MIN"%string) with true. cbn [negb]. cbn [new_rf f_dimX f_dimY].
  match goal with |- context[good_stream (" "%char :: domain_text print (f_min f) ++ nl :: ?v)] =>
    destruct (read_doubles_text (f_min f) [" "%char] nl v eq_refl eq_refl) as (wa & Wa & _ & Ea) end.
  cbn [app] in Ea. rewrite Hm in Ea. rewrite Ea. cbn [bind fst snd].
  match goal with |- context[good_stream (wa ++ nl :: lit "#MAX " ++ ?v)] =>
    replace (wa ++ nl :: lit "#MAX " ++ v) with ((wa ++ [nl]) ++ lit "#MAX" ++ " "%char :: v) by (rewrite <- app_assoc; reflexivity) end.
  rewrite scan_word; [| |discriminate|repeat constructor|reflexivity].
  2: { unfold spaces in *. rewrite forallb_app, Wa. reflexivity. }
  change (str_eqb (lit "#MAX") "#MAX"%string) with true. cbn [negb].
  match goal with |- context[good_stream (" "%char :: domain_text print (f_max f) ++ nl :: ?v)] =>
    destruct (read_doubles_text (f_max f) [" "%char] nl v eq_refl eq_refl) as (wb & Wb & _ & Eb) end.
  cbn [app] in Eb. rewrite HM in Eb. rewrite Eb. cbn [bind fst snd].
  destruct (SP (wb ++ [nl])) as (wf & Wf & Ef).
  { unfold spaces in *. rewrite forallb_app, Wb. reflexivity. }
  exists wf. split; [assumption|]. rewrite <- app_assoc in Ef. cbn [app] in Ef. rewrite Hl in Ef. exact Ef.
Qed.
End File.

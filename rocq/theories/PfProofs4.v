(** Function files of the plugins: the formats that lose something (C91) and refused files (C92). *)
From Coq Require Import Reals List ZArith Lia.
From Verif Require Import Base Num ParamsModel GeoModel ArgsModel ArgsProofs DataModel DataProofs TextModel TextProofs TextRound FuncModel FuncFile FuncFileSpec FuncFileProofs RatModel RatSpec RatFile PfModel PfSpec PfProofs PfProofs2 PfProofs3.
Open Scope R_scope.

Lemma value_const d v cs : forall ms xs, Forall2 (fun (c : cell) (x : R) => c = d -> x = v) cs xs -> Forall (in_range ms) cs -> In d cs -> value_of (writes ms cs xs) d = v.
Proof.
  induction cs as [|c cs IH]; intros ms xs H F I; [destruct I|]. inversion H as [|? x ? xs' Hx Hs]; subst. inversion F as [|? ? Fc Fs]; subst. cbn [writes].
  assert (Fs' : Forall (in_range (set_cell ms c x)) cs).
  { eapply Forall_impl; [|exact Fs]. intros e. apply shape_range. symmetry. apply set_cell_shape. }
  destruct (in_dec cell_dec d cs) as [J|J]; [apply IH; assumption|].
  destruct I as [<-|I]; [|contradiction]. rewrite value_other by assumption.
  rewrite value_set by assumption. rewrite !Nat.eqb_refl. apply Hx. reflexivity.
Qed.
Lemma Forall2_flat {A B C} (P : B -> C -> Prop) (g : A -> list B) (h : A -> list C) l : (forall x, Forall2 P (g x) (h x)) -> Forall2 P (flat_map g l) (flat_map h l).
Proof. intros H. induction l as [|x l IH]; [constructor|]. cbn. apply Forall2_app; [apply H|assumption]. Qed.
Lemma Forall2_len {A B} (P : A -> B -> Prop) l m : Forall2 P l m -> length l = length m.
Proof. induction 1; cbn; congruence. Qed.

(** where load puts the numbers of the lobes *)
Definition lobe_load (nY n : nat) : list cell := (flat_map (fun i => [(0, (n * nY + i) * 3 + 0); (0, (n * nY + i) * 3 + 1); (0, (n * nY + i) * 3 + 2); (1, i)]) (seq 0 nY))%nat.
Definition lobe_save (nY n : nat) : list cell := (flat_map (fun i => [(0, (n * nY + i) * 3 + 0); (0, (n * nY + i) * 3 + 1); (0, (n * nY + i) * 3 + 2); (1, n * nY + i)]) (seq 0 nY))%nat.

Section Broken.
Variable lex : str -> option (R * str).
Variable print : R -> str.
Variable rnd : R -> R.
Variable junk : nat -> nat -> R.
Hypothesis Hprint : prints lex print rnd.

Theorem retrobeckmann_flag f f0 text w post : pf_kind f = PRetrobeckmann -> alike f0 f -> complete f -> complete f0 -> newlines w -> psave print f = Ok text ->
  exists w', newlines w' /\ pload lex junk f0 (good_stream (w ++ text ++ post)) =
    Ok (true, mkPfun PRetrobeckmann (pf_nY f) (pf_in f0) (negb (pf_back f)) (pf_n f0) (map (map rnd) (pf_mem f)), good_stream (w' ++ post)).
Proof using Hprint.
  intros E Ha Cf C0 Hw Ht. apply saved_text in Ht as (K & r & Hr & ->). pose proof Ha as [Ek Ey].
  rewrite <- !app_assoc. rewrite <- Ek, pload_named by assumption. unfold save_tag, pload_body. rewrite Ek, E. unfold endl.
  match goal with |- context[(lit "#TYPE " ++ ?t) ++ [nl]] => set (ty := t) end.
  replace (nl :: ((lit "#TYPE " ++ ty) ++ [nl]) ++ r ++ post) with ([nl] ++ lit "#TYPE" ++ " "%char :: ty ++ nl :: r ++ post)
    by (rewrite <- !app_assoc; reflexivity).
  rewrite read_token_word; [|reflexivity|apply solid_dec; [discriminate|reflexivity]|reflexivity]. rewrite str_eqb_refl. cbn [negb].
  change (good_stream (" "%char :: ty ++ nl :: r ++ post)) with (good_stream ([" "%char] ++ ty ++ nl :: r ++ post)).
  rewrite read_token_word; [|reflexivity|unfold ty; destruct (pf_back f); apply solid_dec; (discriminate||reflexivity)|reflexivity].
  assert (EB : str_eqb ty (lit "RETRO") = negb (pf_back f)) by (unfold ty; destruct (pf_back f); reflexivity). rewrite EB.
  destruct (numbers_loaded lex print rnd Hprint f (with_back f0 (negb (pf_back f))) r post) as (w' & W1 & W2 & E2); [split; cbn; congruence|assumption|exact C0|rewrite E; discriminate|unfold loads_what_it_saves; cbn [with_back pf_kind]; rewrite Ek, E; exact I|assumption|].
  exists w'. split; [assumption|]. rewrite E2. unfold with_mem, with_back. cbn [pf_kind pf_nY pf_in pf_back pf_n pf_mem]. rewrite Ek, E, Ey. reflexivity.
Qed.

Theorem yoo_lost f f0 text w post : (forall r, lex (lit "Kr" ++ r) = None) ->
  pf_kind f = PYoo -> alike f0 f -> complete f -> complete f0 -> (0 < pf_nY f)%nat -> newlines w -> psave print f = Ok text ->
  exists s, failbit s = true /\ pload lex junk f0 (good_stream (w ++ text ++ post)) = Ok (true, with_mem f0 (set_cell (pf_mem f0) (0, 0)%nat 0), s).
Proof using.
  intros HL E Ha Cf C0 Hn Hw Ht. apply saved_text in Ht as (K & r & Hr & ->). pose proof Ha as [Ek Ey].
  rewrite <- !app_assoc. rewrite <- Ek, pload_named by assumption. unfold save_tag, pload_body. rewrite Ek, E.
  assert (RG : Forall (in_range (pf_mem f0)) (load_cells f0)).
  { rewrite same_cells by (unfold loads_what_it_saves; rewrite Ek, E; exact I). apply Forall_forall. intros c Hc. apply range_sizes; [assumption|]. apply in_saved; [congruence|assumption]. }
  assert (LC : exists cs, load_cells f0 = (0, 0)%nat :: cs).
  { unfold load_cells. rewrite Ek, E, load_rows, Ey. destruct (pf_nY f); [lia|]. cbn. eexists. reflexivity. }
  destruct LC as (cs & LC).
  assert (TX : exists x r', r = lit "Kr " ++ print x ++ nl :: r').
  { unfold save_lines in Hr. rewrite E in Hr. destruct (pf_nY f) as [|n]; [lia|]. unfold by_channel in Hr. cbn [seq flat_map map app fst snd] in Hr. cbn [lines_text] in Hr.
    destruct (cell_at (pf_mem f) (0%nat, 0%nat)) as [x| | |]; try discriminate. cbn [bind] in Hr.
    match type of Hr with bind ?e _ = _ => destruct e as [r2| | |]; try discriminate end.
    cbn [bind] in Hr. apply Ok_inj in Hr. exists x, r2. rewrite Hr. unfold endl. rewrite <- !app_assoc. reflexivity. }
  destruct TX as (x & r' & ->). unfold load_numbers. rewrite LC in *. inversion RG as [|? ? R0 R1]; subst. cbn [read_cells]. rewrite cell_at_ok by assumption. cbn [bind].
  replace (nl :: lit "#TYPE " ++ (lit "Kr " ++ print x ++ nl :: r') ++ post) with ([nl] ++ lit "#TYPE" ++ " "%char :: lit "Kr" ++ " "%char :: print x ++ nl :: r' ++ post)
    by (rewrite <- !app_assoc; reflexivity).
  rewrite scan_word; [|reflexivity|discriminate|repeat constructor|reflexivity]. cbn [snd].
  unfold scan_double, good_stream. cbn [good rest eofbit failbit negb andb].
  change (skip_ws (" "%char :: lit "Kr" ++ " "%char :: print x ++ nl :: r' ++ post)) with (lit "Kr" ++ " "%char :: print x ++ nl :: r' ++ post).
  assert (HL' := HL (" "%char :: print x ++ nl :: r' ++ post)). set (tl := " "%char :: print x ++ nl :: r' ++ post) in *.
  change (lit "Kr" ++ tl) with ("K"%char :: "r"%char :: tl) in *. cbn iota. cbv beta. rewrite HL'.
  destruct (read_cells_failed lex cs (set_cell (pf_mem f0) (0, 0)%nat 0) {| rest := "K"%char :: "r"%char :: tl; eofbit := false; failbit := true |}) as (s' & G & E2).
  { reflexivity. } { eapply Forall_impl; [|exact R1]. intros e. apply shape_range. symmetry. apply set_cell_shape. }
  assert (FB : forall cs ms s r, failbit s = true -> read_cells lex cs ms s = Ok r -> failbit (snd r) = true).
  { clear. induction cs as [|c cs IH]; intros ms s r G H; cbn [read_cells] in H; [apply Ok_inj in H; subst; assumption|].
    destruct (cell_at ms c); try discriminate. cbn [bind] in H. unfold scan_string in H. assert (GF : good s = false) by (unfold good; rewrite G; apply andb_false_r).
    rewrite GF in H. cbn [snd] in H. unfold scan_double in H. assert (G2 : good (set_fail s) = false) by (unfold good, set_fail; cbn; apply andb_false_r). rewrite G2 in H.
    eapply IH; [|exact H]. reflexivity. }
  exists s'. split; [apply (FB _ _ _ _ (eq_refl : failbit {| rest := "K"%char :: "r"%char :: tl; eofbit := false; failbit := true |} = true) E2)|]. rewrite E2. reflexivity.
Qed.

Theorem lafortune_loaded f f0 text w post n : pf_kind f = PLaf -> pf_n f = Z.of_nat (S n) -> alike f0 f -> complete f -> newlines w -> psave print f = Ok text ->
  exists w', newlines w' /\ pload lex junk f0 (good_stream (w ++ text ++ post)) =
    Ok (true, mkPfun PLaf (pf_nY f) (pf_in f0) (pf_back f0) (pf_n f)
      [map rnd (nth 0 (pf_mem f) []); map rnd (skipn (n * pf_nY f) (nth 1 (pf_mem f) [])) ++ skipn (pf_nY f) (resize_vec junk 1 (S n * pf_nY f) (nth 1 (pf_mem f0) []))], good_stream (w' ++ post)).
Proof using Hprint.
  intros E En Ha Cf Hw Ht. apply saved_text in Ht as (K & r & Hr & ->). pose proof Ha as [Ek Ey].
  rewrite <- !app_assoc. rewrite <- Ek, pload_named by assumption. unfold save_tag, pload_body. rewrite Ek, E, En, print_Z_nat. unfold endl.
  replace (nl :: ((lit "#NB_LOBES " ++ print_nat (S n)) ++ [nl]) ++ r ++ post) with ([nl] ++ lit "#NB_LOBES" ++ " "%char :: print_nat (S n) ++ nl :: r ++ post)
    by (rewrite <- !app_assoc; reflexivity).
  rewrite read_token_word; [|reflexivity|apply solid_dec; [discriminate|reflexivity]|reflexivity]. cbn [snd].
  change (good_stream (" "%char :: print_nat (S n) ++ nl :: r ++ post)) with (good_stream ([" "%char] ++ print_nat (S n) ++ nl :: r ++ post)).
  rewrite scan_num_text by reflexivity.
  destruct (set_lobes_ok junk 3 f0 (S n)) as (g & G & [A1 A2] & N & I1 & I2 & Sg). rewrite G. cbn [bind].
  assert (MG : pf_mem g = [resize_vec junk 0 (S n * pf_nY f * 3) (nth 0 (pf_mem f0) []); resize_vec junk 1 (S n * pf_nY f) (nth 1 (pf_mem f0) [])]).
  { unfold set_lobes in G. rewrite <- Ey. destruct (Z.of_nat (S n) * Z.of_nat (pf_nY f0) <? 0)%Z; [discriminate|]. apply Ok_inj in G. subst g. cbn [pf_mem]. rewrite Nat2Z.id. reflexivity. }
  set (nY := pf_nY f) in *.
  assert (LC : load_cells g = flat_map (lobe_load nY) (seq 0 (S n))).
  { unfold load_cells. rewrite A1, Ek, E, N, A2, Ey, Nat2Z.id. reflexivity. }
  assert (SV : saved_cells f = flat_map (lobe_save nY) (seq 0 (S n))).
  { unfold saved_cells. rewrite E, En, Nat2Z.id. reflexivity. }
  destruct Cf as [_ Sf]. rewrite E, En, Nat2Z.id in Sf. cbn [sizes] in Sf. fold nY in Sf.
  assert (MF : exists C Nv, pf_mem f = [C; Nv] /\ length C = (3 * (S n * nY))%nat /\ length Nv = (S n * nY)%nat).
  { destruct (pf_mem f) as [|C [|Nv [|]]]; try discriminate. cbn [map] in Sf. injection Sf as S1 S2. exists C, Nv. auto. }
  destruct MF as (C & Nv & MF & LenC & LenN).
  assert (RL : Forall (in_range (pf_mem g)) (load_cells g)).
  { rewrite LC. apply Forall_forall. intros c Hc. apply in_flat_map in Hc as (l & Hl & Hc). apply in_flat_map in Hc as (i & Hi & Hc). apply in_seq in Hl, Hi.
    assert (B : (l * nY + i < S n * nY)%nat) by nia.
    unfold in_range. rewrite MG. cbn [In] in Hc. destruct Hc as [<-|[<-|[<-|[<-|[]]]]]; cbn [fst snd nth]; rewrite resize_len; nia. }
  assert (LEN : Forall2 (fun a b : cell => fst a = 0%nat -> a = b) (load_cells g) (saved_cells f)).
  { rewrite LC, SV. apply Forall2_flat. intros l. apply Forall2_flat. intros i. repeat constructor. cbn. discriminate. }
  unfold load_numbers.
  destruct (read_lines lex print rnd Hprint (save_lines f) (pf_mem f) r (load_cells g) [] (pf_mem g) [nl] post) as (w' & W1 & W2 & E2).
  { apply labels. congruence. } { assumption. } { rewrite save_cells. apply (Forall2_len _ _ _ LEN). } { assumption. } { repeat constructor. }
  rewrite app_nil_r in E2. cbn [app] in E2. exists w'. split; [assumption|]. rewrite E2. cbn [read_cells bind fst snd]. repeat f_equal.
  unfold with_mem. rewrite A1, A2, I1, I2, N, Ek, E, Ey. f_equal.
  rewrite save_cells. rewrite MF. cbn [nth].
  set (vals := map (fun c => rnd (value_of [C; Nv] c))).
  assert (LN : length (map rnd (skipn (n * nY) Nv)) = nY) by (rewrite map_length, skipn_length, LenN; lia).
  assert (SHP : map (@length R) (writes (pf_mem g) (load_cells g) (vals (saved_cells f))) = [(S n * nY * 3)%nat; (S n * nY)%nat]).
  { rewrite writes_shape, MG. cbn [map]. rewrite !resize_len. reflexivity. }
  apply mem_ext.
  - rewrite SHP. cbn [map]. rewrite map_length, app_length, LN, skipn_length, resize_len, LenC. f_equal; [lia|]. f_equal. lia.
  - intros [m p] Hc. assert (Hc' : in_range [repeat 0 (S n * nY * 3); repeat 0 (S n * nY)] (m, p)).
    { eapply shape_range; [|exact Hc]. rewrite SHP. cbn [map]. rewrite !repeat_length. reflexivity. }
    unfold in_range in Hc'. cbn [fst snd] in Hc'. destruct m as [|[|m]]; cbn [nth] in Hc'; rewrite ?repeat_length in Hc'.
    + assert (V : value_of [map rnd C; map rnd (skipn (n * nY) Nv) ++ skipn nY (resize_vec junk 1 (S n * nY) (nth 1 (pf_mem f0) []))] (0%nat, p) = rnd (value_of [C; Nv] (0%nat, p))).
      { unfold value_of. cbn [fst snd nth]. rewrite (nth_indep _ 0 (rnd 0)) by (rewrite map_length; lia). apply map_nth. }
      rewrite V. apply value_const.
      * unfold vals. clear -LEN. induction LEN as [|a b l m H _ IH]; cbn [map]; constructor; [|exact IH]. intros ->. rewrite <- H by reflexivity. reflexivity.
      * assumption.
      * assert (J : In (0%nat, p) (saved_cells f)). { apply in_saved; [congruence|]. rewrite E, En, Nat2Z.id. cbn [fst snd sizes nth]. fold nY. lia. }
        assert (B : forall l m, Forall2 (fun a b : cell => fst a = fst b /\ (fst a = 0%nat -> a = b)) l m -> In (0%nat, p) m -> In (0%nat, p) l).
        { clear. intros l m H. induction H as [|a b l m [H1 H2] _ IH]; intros I; [destruct I|]. destruct I as [->|I]; [left; apply H2; assumption|right; apply IH; assumption]. }
        apply (B _ (saved_cells f)); [|assumption]. rewrite LC, SV. apply Forall2_flat. intros l. apply Forall2_flat. intros i.
        repeat (constructor; [split; [reflexivity|intros; try reflexivity; discriminate]|]). constructor.
    + (* exponents *)
      rewrite LC, SV, seq_S, !flat_map_app. cbn [plus flat_map]. rewrite !app_nil_r. unfold vals. rewrite map_app.
      rewrite writes_app by (rewrite map_length; apply Forall2_len with (P := fun _ _ => True); apply Forall2_flat; intros l; apply Forall2_flat; intros i; repeat constructor).
      set (ms1 := writes (pf_mem g) (flat_map (lobe_load nY) (seq 0 n)) _).
      assert (SH1 : map (@length R) ms1 = map (@length R) (pf_mem g)) by apply writes_shape.
      rewrite LC, seq_S, flat_map_app in RL. apply Forall_app in RL as [RL1 RL2]. cbn [plus flat_map] in RL2. rewrite app_nil_r in RL2.
      assert (RL2' : Forall (in_range ms1) (lobe_load nY n)).
      { eapply Forall_impl; [|exact RL2]. intros e. apply shape_range. symmetry. assumption. }
      destruct (Nat.lt_ge_cases p nY) as [Hp|Hp].
      * assert (V : value_of [map rnd C; map rnd (skipn (n * nY) Nv) ++ skipn nY (resize_vec junk 1 (S n * nY) (nth 1 (pf_mem f0) []))] (1%nat, p) = rnd (value_of [C; Nv] (1%nat, (n * nY + p)%nat))).
        { unfold value_of. cbn [fst snd nth]. rewrite app_nth1 by lia. rewrite (nth_indep _ 0 (rnd 0)) by lia. rewrite map_nth. f_equal.
          rewrite <- (firstn_skipn (n * nY) Nv) at 2. rewrite app_nth2; rewrite firstn_length_le by lia; [|lia]. f_equal. lia. }
        rewrite V. apply value_const.
        -- unfold lobe_load, lobe_save. generalize (seq 0 nY). induction l as [|i l IH]; [constructor|]. cbn [flat_map map app]. repeat (constructor; [try discriminate|]); [|exact IH].
           intros H. injection H as ->. reflexivity.
        -- assumption.
        -- unfold lobe_load. apply in_flat_map. exists p. split; [apply in_seq; lia|]. cbn. auto.
      * assert (V : value_of [map rnd C; map rnd (skipn (n * nY) Nv) ++ skipn nY (resize_vec junk 1 (S n * nY) (nth 1 (pf_mem f0) []))] (1%nat, p) = value_of (pf_mem g) (1%nat, p)).
        { rewrite MG. unfold value_of. cbn [fst snd nth]. rewrite app_nth2 by lia. rewrite LN.
          rewrite <- (firstn_skipn nY (resize_vec junk 1 (S n * nY) (nth 1 (pf_mem f0) []))) at 2. rewrite app_nth2; rewrite firstn_length_le by (rewrite resize_len; lia); [reflexivity|lia]. }
        assert (NI : forall l, ~ In (1%nat, p) (lobe_load nY l)).
        { intros l Hc1. apply in_flat_map in Hc1 as (i & Hi & Hc1). apply in_seq in Hi. cbn [In] in Hc1. destruct Hc1 as [Hc1|[Hc1|[Hc1|[Hc1|[]]]]]; try discriminate. injection Hc1. lia. }
        rewrite V. rewrite value_other; [|assumption|apply NI].
        unfold ms1. rewrite value_other; [reflexivity|assumption|]. intros Hc1. apply in_flat_map in Hc1 as (l & _ & Hc1). exact (NI l Hc1).
    + destruct m; cbn in Hc'; lia.
Qed.

(** sgd: nothing is saved, but files that list the vectors one after the other are read *)
Definition sgd_lines (label : nat -> str) (nY : nat) : list (option (str * cell)) := flat_map (fun m => map (fun i => Some (label m, (m, i))) (seq 0 nY)) (seq 0 11).
Theorem sgd_loaded f label vals r w post : pf_kind f = PSgd -> complete f -> map (@length R) vals = repeat (pf_nY f) 11 -> (forall m, label_ok (label m)) -> newlines w ->
  lines_text print (sgd_lines label (pf_nY f)) vals = Ok r ->
  exists w', newlines w' /\ pload lex junk f (good_stream (w ++ endl (lit "#FUNC nonlinear_function_sgd") ++ r ++ post)) = Ok (true, with_mem f (map (map rnd) vals), good_stream (w' ++ post)).
Proof using Hprint.
  intros E Cf Sv Hl Hw Hr.
  assert (EN : lit "#FUNC nonlinear_function_sgd" = lit "#FUNC " ++ load_name (pf_kind f)) by (rewrite E; reflexivity). rewrite EN, pload_named by assumption.
  unfold pload_body. rewrite E. unfold load_numbers.
  assert (SC : cells_of (sgd_lines label (pf_nY f)) = load_cells f).
  { unfold load_cells, sgd_lines. rewrite E, cells_flat. apply flat_map_ext'. intros m. generalize (seq 0 (pf_nY f)). induction l as [|i l IH]; [reflexivity|]. cbn. f_equal. exact IH. }
  assert (SZ : map (@length R) (pf_mem f) = map (@length R) vals) by (destruct Cf as [_ ->]; rewrite E, Sv; reflexivity).
  assert (RG : forall c, In c (load_cells f) <-> in_range vals c).
  { intros c. unfold in_range. assert (EL : length (nth (fst c) vals []) = nth (fst c) (repeat (pf_nY f) 11) 0%nat) by (rewrite <- Sv; change 0%nat with (length (@nil R)); rewrite (map_nth (@length R)); reflexivity).
    rewrite EL. unfold load_cells. rewrite E, in_flat_map. split.
    - intros (m & Hm & Hc). apply in_map_iff in Hc as (i & <- & Hi). apply in_seq in Hm, Hi. cbn [fst snd]. rewrite nth_repeat_lt by lia. lia.
    - intros H. destruct (Nat.lt_ge_cases (fst c) 11) as [B|B]; [|rewrite nth_overflow in H by (rewrite repeat_length; lia); lia]. rewrite nth_repeat_lt in H by lia.
      exists (fst c). split; [apply in_seq; lia|]. apply in_map_iff. exists (snd c). destruct c; split; [reflexivity|apply in_seq; cbn in *; lia]. }
  assert (FR : Forall (in_range (pf_mem f)) (load_cells f)).
  { apply Forall_forall. intros c Hc. apply RG in Hc. eapply shape_range; [|exact Hc]. symmetry. assumption. }
  destruct (read_lines lex print rnd Hprint (sgd_lines label (pf_nY f)) vals r (load_cells f) [] (pf_mem f) [nl] post) as (w' & W1 & W2 & E2).
  { apply Forall_forall. intros o Ho. apply in_flat_map in Ho as (m & _ & Ho). apply in_map_iff in Ho as (i & <- & _). apply Hl. }
  { assumption. } { rewrite SC. reflexivity. } { assumption. } { repeat constructor. }
  rewrite app_nil_r in E2. cbn [app] in E2. exists w'. split; [assumption|]. rewrite E2. cbn [read_cells bind fst snd]. repeat f_equal.
  rewrite SC. apply mem_ext.
  - rewrite writes_shape, map_mem_shape. assumption.
  - intros c Hc. assert (I : in_range vals c) by (eapply shape_range; [|exact Hc]; rewrite writes_shape; assumption).
    rewrite (value_written (fun c => rnd (value_of vals c))); [|assumption|apply RG; assumption]. symmetry. apply map_mem_value. assumption.
Qed.
End Broken.

(** Function files of the plugins: sums of plugins (C93), refused and truncated files (C92, C94). *)
From Coq Require Import Reals List ZArith Lia.
From Verif Require Import Base Num ParamsModel GeoModel ArgsModel ArgsProofs DataModel DataProofs TextModel TextProofs TextRound FuncModel FuncFile FuncFileSpec FuncFileProofs RatModel RatSpec RatFile PfModel PfSpec PfProofs PfProofs2 PfProofs3 PfProofs4.
Open Scope R_scope.

Lemma family_name k l : load_name k = load_name l <-> same_family k l = true.
Proof.
  assert (H : str_eqb (load_name k) (load_name l) = same_family k l) by (destruct k, l; reflexivity).
  destruct (str_eqb_spec (load_name k) (load_name l)); rewrite <- H; split; intros; try reflexivity; try discriminate; congruence.
Qed.

Section Sums.
Variable lex : str -> option (R * str).
Variable print : R -> str.
Variable rnd : R -> R.
Variable junk : nat -> nat -> R.
Hypothesis Hprint : prints lex print rnd.

Theorem other_plugin_refused f f0 text w post : same_family (pf_kind f0) (pf_kind f) = false -> newlines w -> psave print f = Ok text ->
  exists r, pload lex junk f0 (good_stream (w ++ text ++ post)) = Ok (false, f0, good_stream r).
Proof using.
  intros Hf Hw Ht. apply saved_text in Ht as (K & r & Hr & ->). rewrite <- !app_assoc.
  eexists. apply pload_other; [assumption|apply name_solid|]. intros E. symmetry in E. apply family_name in E. congruence.
Qed.
Theorem not_a_function_refused f w tag post : newlines w -> solid ("#"%char :: tag) -> "#"%char :: tag <> lit "#FUNC" ->
  pload lex junk f (good_stream (w ++ ("#"%char :: tag) ++ nl :: post)) = Ok (false, f, good_stream (nl :: post)).
Proof using.
  intros Hw Hs Hn. unfold pload. cbn [app]. rewrite skip_newlines; [|assumption|cbn [rest good_stream]; rewrite app_length; lia]. cbn [negb].
  change ("#"%char :: tag ++ nl :: post) with ([] ++ ("#"%char :: tag) ++ nl :: post). rewrite read_token_word; [|reflexivity|assumption|reflexivity].
  destruct (str_eqb_spec ("#"%char :: tag) (lit "#FUNC")); [contradiction|]. reflexivity.
Qed.
(** nothing is read from a failed stream *)
Lemma pload_failed f s : failbit s = true -> exists s', failbit s' = true /\ pload lex junk f s = Ok (false, f, s').
Proof using.
  intros H. unfold pload. cbn [skip_lines]. unfold peek. assert (G : good s = false) by (unfold good; rewrite H; apply andb_false_r). rewrite G.
  unfold getline_buf. assert (G2 : good (set_fail s) = false) by (unfold good, set_fail; cbn; apply andb_false_r). rewrite G2. cbn [negb]. eexists. split; [|reflexivity]. reflexivity.
Qed.
Lemma cload_failed fs : forall n s, failbit s = true -> exists s', failbit s' = true /\ cload_from lex junk fs n s = Ok (n, fs, s').
Proof using.
  induction fs as [|f fs IH]; intros n s H; [exists s; auto|]. cbn [cload_from]. unfold tellg. assert (G : good s = false) by (unfold good; rewrite H; apply andb_false_r). rewrite G.
  destruct (pload_failed f (set_fail s) eq_refl) as (s1 & F1 & ->). cbn [bind].
  unfold seekg. rewrite F1. destruct (IH n {| rest := rest s1; eofbit := false; failbit := true |} eq_refl) as (s2 & F2 & ->). exists s2. split; [assumption|reflexivity].
Qed.

Definition restorable (f f0 : pfun) : Prop :=
  sound_format f /\ nameable f /\ alike f0 f /\ complete f /\ (is_lafortune (pf_kind f) = false -> complete f0).
Lemma cload_from_saved fs : forall fs0 text n w post, Forall2 restorable fs fs0 -> csave print fs = Ok text -> newlines w ->
  exists w', newlines w' /\ cload_from lex junk fs0 n (good_stream (w ++ text ++ post)) = Ok ((n + length fs)%nat, map (fun p => loaded rnd (fst p) (snd p)) (combine fs fs0), good_stream (w' ++ post)).
Proof using Hprint.
  induction fs as [|f fs IH]; intros fs0 text n w post H Ht Hw; inversion H as [|? f0 ? gs (H1 & H2 & H3 & H4 & H5) Hs]; subst.
  - apply Ok_inj in Ht. subst. exists w. split; [assumption|]. cbn. rewrite Nat.add_0_r. reflexivity.
  - cbn [csave] in Ht. destruct (psave print f) as [a| | |] eqn:E; try discriminate. cbn [bind] in Ht. destruct (csave print fs) as [b| | |] eqn:F; try discriminate. cbn [bind] in Ht. apply Ok_inj in Ht. subst text.
    cbn [cload_from]. unfold tellg. cbn [good good_stream eofbit failbit negb andb]. rewrite <- app_assoc. fold (good_stream (w ++ a ++ b ++ post)).
    destruct (saved_is_loaded lex print rnd junk Hprint f f0 a w (b ++ post)) as (w1 & W1 & _ & E1); try assumption. rewrite E1. cbn [bind].
    destruct (IH gs b (S n) w1 post) as (w2 & W2 & E2); try assumption; [reflexivity|]. rewrite E2. cbn [bind combine map fst snd length].
    exists w2. split; [assumption|]. rewrite Nat.add_succ_r. reflexivity.
Qed.
Theorem sum_restored fs fs0 text w post : fs <> [] -> Forall2 restorable fs fs0 -> csave print fs = Ok text -> newlines w ->
  exists w', newlines w' /\ cload lex junk fs0 (good_stream (w ++ text ++ post)) = Ok (true, map (fun p => loaded rnd (fst p) (snd p)) (combine fs fs0), good_stream (w' ++ post)).
Proof using Hprint.
  intros Hn H Ht Hw. unfold cload. destruct (cload_from_saved fs fs0 text 0 w post H Ht Hw) as (w' & W & E). rewrite E. cbn [bind plus]. exists w'. split; [assumption|].
  destruct fs; [congruence|reflexivity].
Qed.
Theorem yoo_hides_the_rest f f0 fs fs0 text w post : (forall r, lex (lit "Kr" ++ r) = None) ->
  pf_kind f = PYoo -> alike f0 f -> complete f -> complete f0 -> (0 < pf_nY f)%nat -> newlines w -> csave print (f :: fs) = Ok text ->
  exists g0 s, cload lex junk (f0 :: fs0) (good_stream (w ++ text ++ post)) = Ok (true, g0 :: fs0, s).
Proof using.
  intros HL E Ha Cf C0 Hn Hw Ht. cbn [csave] in Ht. destruct (psave print f) as [a| | |] eqn:Ea; try discriminate. cbn [bind] in Ht. destruct (csave print fs) as [b| | |] eqn:F; try discriminate. cbn [bind] in Ht. apply Ok_inj in Ht. subst text.
  unfold cload. cbn [cload_from]. unfold tellg. cbn [good good_stream eofbit failbit negb andb]. rewrite <- app_assoc. fold (good_stream (w ++ a ++ b ++ post)).
  destruct (yoo_lost lex print junk f f0 a w (b ++ post)) as (s & S1 & S2); try assumption. rewrite S2. cbn [bind].
  destruct (cload_failed fs0 1 s S1) as (s' & _ & ->). cbn [bind]. eexists _, _. reflexivity.
Qed.

(** ** Truncated files *)
Lemma first_lines_line l r j : ~ In nl l -> first_lines (S j) (l ++ nl :: r) = l ++ nl :: first_lines j r.
Proof using.
  induction l as [|c l IH]; intros H.
  - cbn [app first_lines]. rewrite aeqb_refl. reflexivity.
  - cbn [app first_lines]. destruct (aeqb_spec c nl) as [->|]; [exfalso; apply H; left; reflexivity|]. cbn. f_equal. apply IH. intros I. apply H. right. assumption.
Qed.
Lemma first_lines_nil j : first_lines j [] = [].
Proof using. destruct j; reflexivity. Qed.
Lemma first_lines_text ls : Forall (fun o => match o with Some (l, _) => ~ In nl l | None => True end) ls -> forall ms text j, lines_text print ls ms = Ok text -> lines_text print (firstn j ls) ms = Ok (first_lines j text).
Proof using Hprint.
  induction 1 as [|o ls Ho _ IH]; intros ms text j Ht.
  - apply Ok_inj in Ht. subst. rewrite first_lines_nil. destruct j; reflexivity.
  - destruct j as [|j]; [destruct text; reflexivity|]. cbn [firstn lines_text] in *. destruct o as [[l c]|].
    + destruct (cell_at ms c) as [x| | |]; try discriminate. cbn [bind] in *. destruct (lines_text print ls ms) as [r| | |] eqn:F; try discriminate. cbn [bind] in Ht. apply Ok_inj in Ht. subst text.
      rewrite (IH ms r j) by assumption. cbn [bind]. f_equal. unfold endl. rewrite <- !app_assoc. cbn [app]. rewrite (app_assoc l (print x) (nl :: r)). rewrite first_lines_line; [rewrite <- app_assoc; reflexivity|].
      intros I. apply in_app_or in I as [I|I]; [contradiction|]. destruct (Hprint x) as (_ & N & _). contradiction.
    + destruct (lines_text print ls ms) as [r| | |] eqn:F; try discriminate. cbn [bind] in Ht. apply Ok_inj in Ht. subst text.
      rewrite (IH ms r j) by assumption. cbn [bind]. reflexivity.
Qed.
Lemma firstn_seq' j n : firstn j (seq 0 n) = seq 0 (Nat.min j n).
Proof using.
  destruct (Nat.le_ge_cases j n).
  - replace n with (j + (n - j))%nat at 1 by lia. rewrite seq_app, firstn_app, seq_length, firstn_all2 by (rewrite seq_length; lia). replace (j - j)%nat with 0%nat by lia. cbn. rewrite app_nil_r. f_equal. lia.
  - rewrite firstn_all2 by (rewrite seq_length; lia). f_equal. lia.
Qed.
Lemma rows_index M nY : rows (seq 0 M) nY = map (fun q => (q mod M, q / M)%nat) (seq 0 (nY * M)).
Proof using.
  destruct (Nat.eq_dec M 0) as [->|HM]. { rewrite Nat.mul_0_r. unfold rows. induction (seq 0 nY); [reflexivity|assumption]. }
  induction nY as [|nY IH]; [reflexivity|]. unfold rows in *. rewrite seq_S, flat_map_app, IH. cbn [plus flat_map]. rewrite app_nil_r.
  replace (S nY * M)%nat with (nY * M + M)%nat by lia. rewrite seq_app, map_app. f_equal. cbn [plus].
  assert (SS : seq (nY * M) M = map (fun k => nY * M + k)%nat (seq 0 M)).
  { clear. generalize (nY * M)%nat. intros a. replace a with (a + 0)%nat at 1 by lia. generalize 0%nat. induction M as [|M IH]; intros b; [reflexivity|]. cbn. f_equal. replace (S (a + b)) with (a + S b)%nat by lia. apply IH. }
  rewrite SS, map_map. apply map_ext_in. intros k Hk. apply in_seq in Hk.
  replace (nY * M + k)%nat with (k + nY * M)%nat by lia. rewrite Nat.mod_add, Nat.div_add, Nat.mod_small, Nat.div_small by lia. f_equal. 
Qed.
Lemma in_firstn_rows M nY j m i : (m < M)%nat -> (i < nY)%nat -> In (m, i) (firstn j (rows (seq 0 M) nY)) <-> (i * M + m < j)%nat.
Proof using.
  intros Hm Hi. rewrite rows_index, firstn_map, firstn_seq', in_map_iff. split.
  - intros (q & E & Hq). apply in_seq in Hq. injection E as E1 E2. pose proof (Nat.div_mod q M ltac:(lia)). rewrite E1, E2 in H. lia.
  - intros H. exists (i * M + m)%nat. split; [|apply in_seq; nia]. replace (i * M + m)%nat with (m + i * M)%nat by lia. rewrite Nat.mod_add, Nat.div_add, Nat.mod_small, Nat.div_small by lia. reflexivity.
Qed.
Lemma cells_firstn (cs : list (option (str * cell))) : Forall (fun o => o <> None) cs -> forall j, cells_of (firstn j (cs ++ [None])) = firstn j (cells_of cs).
Proof using.
  induction 1 as [|o cs Ho _ IH]; intros j.
  - destruct j as [|[|j]]; reflexivity.
  - destruct j as [|j]; [reflexivity|]. destruct o as [[l c]|]; [|congruence]. change (cells_of (Some (l, c) :: cs)) with (c :: cells_of cs). cbn [app firstn].
    change (cells_of (Some (l, c) :: firstn j (cs ++ [None]))) with (c :: cells_of (firstn j (cs ++ [None]))). rewrite IH. reflexivity.
Qed.
Lemma plain_lines f : plain_format (pf_kind f) = true -> exists ls M, save_lines f = ls ++ [None] /\ Forall (fun o => o <> None) ls /\ cells_of ls = rows (seq 0 M) (pf_nY f) /\ sizes (pf_kind f) (pf_nY f) (Z.to_nat (pf_n f)) = repeat (pf_nY f) M /\
  Forall (fun o => match o with Some (l, _) => ~ In nl l | None => True end) (save_lines f).
Proof using junk.
  assert (P : forall ls : list (nat * str), Forall (fun ml : nat * str => ~ In nl (snd ml)) ls ->
    Forall (fun o : option (str * cell) => o <> None /\ match o with Some (l, _) => ~ In nl l | None => True end) (map (fun q : nat * str * cell => Some (snd (fst q), snd q)) (by_channel ls (fun ml i => (fst ml, i)) (pf_nY f)))).
  { intros ls H. apply Forall_forall. intros o Ho. apply in_map_iff in Ho as (q & <- & Hq). split; [discriminate|]. unfold by_channel in Hq. apply in_flat_map in Hq as (i & _ & Hq). apply in_map_iff in Hq as (ml & <- & Hm).
    rewrite Forall_forall in H. apply H. assumption. }
  assert (Q : forall (ls : list (nat * str)) M, map fst ls = seq 0 M -> Forall (fun ml : nat * str => ~ In nl (snd ml)) ls ->
    let tl := map (fun q : nat * str * cell => Some (snd (fst q), snd q)) (by_channel ls (fun ml i => (fst ml, i)) (pf_nY f)) in
    sizes (pf_kind f) (pf_nY f) (Z.to_nat (pf_n f)) = repeat (pf_nY f) M -> save_lines f = tl ++ [None] ->
    exists ls M, save_lines f = ls ++ [None] /\ Forall (fun o => o <> None) ls /\ cells_of ls = rows (seq 0 M) (pf_nY f) /\ sizes (pf_kind f) (pf_nY f) (Z.to_nat (pf_n f)) = repeat (pf_nY f) M /\
      Forall (fun o => match o with Some (l, _) => ~ In nl l | None => True end) (save_lines f)).
  { intros ls M H1 H2 tl H3 H4. specialize (P ls H2). exists tl, M. split; [assumption|]. split; [eapply Forall_impl; [|exact P]; cbn; tauto|]. split; [unfold tl; rewrite save_rows, H1; reflexivity|]. split; [assumption|].
    rewrite H4. apply Forall_app. split; [eapply Forall_impl; [|exact P]; cbn; tauto|]. constructor; [exact I|constructor]. }
  assert (NI : forall l, forallb (fun c => negb (aeqb c nl)) l = true -> ~ In nl l).
  { intros l H I. rewrite forallb_forall in H. apply H in I. rewrite aeqb_refl in I. discriminate. }
  intros H. unfold save_lines, sizes in *. destruct (pf_kind f); try discriminate;
    (eapply Q; [| | |reflexivity]; [first [instantiate (1 := 1%nat); reflexivity|instantiate (1 := 2%nat); reflexivity|instantiate (1 := 3%nat); reflexivity]|repeat (constructor; [apply NI; reflexivity|]); constructor|reflexivity]).
Qed.

Theorem truncated f f0 text w j : plain_format (pf_kind f) = true -> alike f0 f -> complete f -> complete f0 -> newlines w -> psave print f = Ok text ->
  exists g s, pload lex junk f0 (good_stream (w ++ first_lines (S j) text)) = Ok (true, g, s) /\ alike g f0 /\
    forall m i, (m < length (pf_mem f))%nat -> (i < pf_nY f)%nat ->
      number g m i = if (i * length (pf_mem f) + m <? j)%nat then option_map rnd (number f m i) else number f0 m i.
Proof using Hprint.
  intros Hp Ha Cf C0 Hw Ht. apply saved_text in Ht as (K & r & Hr & ->). pose proof Ha as [Ek Ey].
  assert (TG : save_tag f = []) by (unfold save_tag; destruct (pf_kind f); try discriminate; reflexivity). rewrite TG. cbn [app].
  unfold endl. rewrite <- app_assoc. cbn [app].
  assert (HN : ~ In nl (lit "#FUNC " ++ load_name (pf_kind f))).
  { intros I. apply in_app_or in I as [I|I]; [vm_compute in I; repeat (destruct I as [I|I]; [discriminate|]); destruct I|]. pose proof (name_solid (pf_kind f)) as [_ SO]. rewrite Forall_forall in SO. apply SO in I. discriminate. }
  rewrite first_lines_line by assumption.
  destruct (plain_lines f Hp) as (ls & M & EL & NN & EC & SZ & NL).
  pose proof (first_lines_text (save_lines f) NL (pf_mem f) r j Hr) as Hj.
  replace (w ++ (lit "#FUNC " ++ load_name (pf_kind f)) ++ nl :: first_lines j r) with (w ++ endl (lit "#FUNC " ++ load_name (pf_kind f0)) ++ first_lines j r) by (unfold endl; rewrite Ek, <- !app_assoc; reflexivity).
  rewrite pload_named by assumption.
  assert (PB : pload_body lex junk f0 (load_name (pf_kind f0)) (good_stream (nl :: first_lines j r)) = load_numbers lex f0 (good_stream (nl :: first_lines j r))).
  { unfold pload_body. rewrite Ek. destruct (pf_kind f); try discriminate; reflexivity. }
  rewrite PB. unfold load_numbers.
  assert (LC : load_cells f0 = rows (seq 0 M) (pf_nY f)).
  { rewrite same_cells by (unfold loads_what_it_saves; rewrite Ek; destruct (pf_kind f); try discriminate; exact I). rewrite <- EC.
    assert (SC : saved_cells f0 = saved_cells f) by (unfold saved_cells; rewrite Ek, Ey; destruct (pf_kind f); try discriminate; reflexivity).
    rewrite SC, <- save_cells, EL, cells_app. cbn. apply app_nil_r. }
  assert (LM : length (pf_mem f) = M) by (destruct Cf as [_ Sf]; rewrite SZ in Sf; apply (f_equal (@length nat)) in Sf; rewrite map_length, repeat_length in Sf; assumption).
  assert (S0 : map (@length R) (pf_mem f0) = repeat (pf_nY f) M).
  { destruct C0 as [_ E0]. rewrite E0, Ek, Ey, <- SZ. unfold sizes. destruct (pf_kind f); try discriminate; reflexivity. }
  assert (SF : map (@length R) (pf_mem f) = repeat (pf_nY f) M) by (destruct Cf as [_ ->]; assumption).
  assert (RG : forall ms, map (@length R) ms = repeat (pf_nY f) M -> forall m i, (m < M)%nat -> (i < pf_nY f)%nat -> in_range ms (m, i)).
  { intros ms E m i Hm Hi. unfold in_range. cbn [fst snd]. rewrite <- (map_nth (@length R)), E. rewrite nth_repeat_lt by assumption. assumption. }
  set (cs1 := firstn j (rows (seq 0 M) (pf_nY f))). set (cs2 := skipn j (rows (seq 0 M) (pf_nY f))).
  assert (RI : forall c, In c (rows (seq 0 M) (pf_nY f)) -> in_range (pf_mem f0) c).
  { intros [m i] Hc. apply in_rows in Hc as [H1 H2]. apply in_seq in H1. apply RG; [assumption|cbn in H1; lia|assumption]. }
  assert (FR : Forall (in_range (pf_mem f0)) (rows (seq 0 M) (pf_nY f))) by (apply Forall_forall; assumption).
  assert (CJ : cells_of (firstn j (save_lines f)) = cs1) by (rewrite EL, cells_firstn by assumption; rewrite EC; reflexivity).
  pose proof FR as FR'. rewrite <- (firstn_skipn j (rows (seq 0 M) (pf_nY f))) in FR'. apply Forall_app in FR' as [FR1 FR2]. fold cs1 cs2 in FR1, FR2.
  destruct (read_lines lex print rnd Hprint (firstn j (save_lines f)) (pf_mem f) (first_lines j r) cs1 cs2 (pf_mem f0) [nl] []) as (w' & W1 & W2 & E2).
  { pose proof (labels f K) as L. rewrite <- (firstn_skipn j (save_lines f)) in L. apply Forall_app in L. apply L. }
  { assumption. } { rewrite CJ. reflexivity. } { assumption. } { repeat constructor. }
  rewrite !app_nil_r in E2. cbn [app] in E2. rewrite LC. rewrite <- (firstn_skipn j (rows (seq 0 M) (pf_nY f))). fold cs1 cs2.
  assert (E2' : read_cells lex (cs1 ++ cs2) (pf_mem f0) (good_stream (nl :: first_lines j r)) = read_cells lex cs2 (writes (pf_mem f0) cs1 (map (fun c => rnd (value_of (pf_mem f) c)) (cells_of (firstn j (save_lines f))))) (good_stream w')) by exact E2.
  rewrite E2', CJ. set (ms1 := writes (pf_mem f0) cs1 _).
  assert (SH1 : map (@length R) ms1 = map (@length R) (pf_mem f0)) by apply writes_shape.
  destruct (read_cells_dry lex cs2 ms1 w' W1) as (s' & E3).
  { eapply Forall_impl; [|exact FR2]. intros e. apply shape_range. symmetry. assumption. }
  rewrite E3. cbn [bind fst snd]. eexists _, _. split; [reflexivity|]. split; [split; reflexivity|].
  intros m i Hm Hi. rewrite LM in *.
  assert (NV : forall h ms, pf_mem h = ms -> map (@length R) ms = repeat (pf_nY f) M -> number h m i = Some (value_of ms (m, i))).
  { intros h ms E E'. pose proof (cell_at_ok ms (m, i) (RG ms E' m i Hm Hi)) as CA. unfold number. rewrite E. unfold cell_at in CA. cbn [fst snd] in CA.
    destruct (nth_error ms m) as [v|]; [|discriminate]. destruct (nth_error v i) as [x|]; [|discriminate]. apply Ok_inj in CA. subst. reflexivity. }
  rewrite (NV (with_mem f0 ms1) ms1 eq_refl), (NV f _ eq_refl SF), (NV f0 _ eq_refl S0) by (rewrite SH1; assumption).
  pose proof (in_firstn_rows M (pf_nY f) j m i Hm Hi) as IFF. fold cs1 in IFF.
  destruct (Nat.ltb_spec (i * M + m) j) as [L|L].
  - cbn [option_map]. f_equal. unfold ms1. apply (value_written (fun c => rnd (value_of (pf_mem f) c))); [assumption|]. apply IFF. assumption.
  - f_equal. unfold ms1. apply value_other; [assumption|]. intros I. apply IFF in I. lia.
Qed.
End Sums.

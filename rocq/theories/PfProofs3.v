(** Function files of the plugins: loading what was saved (C90). *)
From Coq Require Import Reals List ZArith Lia.
From Verif Require Import Base Num ParamsModel GeoModel ArgsModel ArgsProofs DataModel DataProofs TextModel TextProofs TextRound FuncModel FuncFile FuncFileSpec FuncFileProofs RatModel RatSpec RatFile PfModel PfSpec PfProofs PfProofs2.
Open Scope R_scope.

Lemma solid_dec t : t <> [] -> forallb (fun c => negb (is_space c)) t = true -> solid t.
Proof.
  intros Hn Hf. split; [assumption|]. rewrite forallb_forall in Hf. apply Forall_forall. intros c Hc. apply Hf in Hc. apply negb_true_iff in Hc. assumption.
Qed.
Lemma name_solid k : solid (load_name k).
Proof. destruct k; apply solid_dec; try discriminate; reflexivity. Qed.
Lemma names_agree k : k <> PSgd -> save_name k = load_name k.
Proof. destruct k; try congruence; reflexivity. Qed.
Lemma input_solid p : solid (get_name_in p).
Proof. destruct p; apply solid_dec; try discriminate; reflexivity. Qed.
Lemma read_token_word old w t c r : spaces w -> solid t -> is_space c = true ->
  read_token old (good_stream (w ++ t ++ c :: r)) = (t, good_stream (c :: r)).
Proof. intros Hw [H1 H2] Hc. unfold read_token. rewrite scan_word by assumption. reflexivity. Qed.
Lemma print_Z_nat n : print_Z (Z.of_nat n) = print_nat n.
Proof. destruct n; [reflexivity|]. unfold print_nat. cbn [Z.of_nat print_Z N.of_nat]. reflexivity. Qed.

Section Loading.
Variable lex : str -> option (R * str).
Variable print : R -> str.
Variable rnd : R -> R.
Variable junk : nat -> nat -> R.
Hypothesis Hprint : prints lex print rnd.

Lemma pload_named f w r : newlines w ->
  pload lex junk f (good_stream (w ++ endl (lit "#FUNC " ++ load_name (pf_kind f)) ++ r)) =
  pload_body lex junk f (load_name (pf_kind f)) (good_stream (nl :: r)).
Proof using.
  intros Hw. unfold pload, endl.
  replace (w ++ ((lit "#FUNC " ++ load_name (pf_kind f)) ++ [nl]) ++ r) with (w ++ "#"%char :: (lit "FUNC " ++ load_name (pf_kind f) ++ nl :: r))
    by (rewrite <- !app_assoc; reflexivity).
  rewrite skip_newlines; [|assumption|cbn [rest good_stream]; rewrite app_length; lia]. cbn [negb].
  change ("#"%char :: lit "FUNC " ++ load_name (pf_kind f) ++ nl :: r) with ([] ++ lit "#FUNC" ++ " "%char :: load_name (pf_kind f) ++ nl :: r).
  rewrite read_token_word; [|reflexivity|apply solid_dec; [discriminate|reflexivity]|reflexivity].
  rewrite str_eqb_refl. cbn [negb].
  change (good_stream (" "%char :: load_name (pf_kind f) ++ nl :: r)) with (good_stream ([" "%char] ++ load_name (pf_kind f) ++ nl :: r)).
  rewrite read_token_word; [|reflexivity|apply name_solid|reflexivity].
  rewrite str_eqb_refl. reflexivity.
Qed.
Lemma pload_other f w name r : newlines w -> solid name -> name <> load_name (pf_kind f) ->
  pload lex junk f (good_stream (w ++ endl (lit "#FUNC " ++ name) ++ r)) = Ok (false, f, good_stream (nl :: r)).
Proof using.
  intros Hw Hs Hn. unfold pload, endl.
  replace (w ++ ((lit "#FUNC " ++ name) ++ [nl]) ++ r) with (w ++ "#"%char :: (lit "FUNC " ++ name ++ nl :: r))
    by (rewrite <- !app_assoc; reflexivity).
  rewrite skip_newlines; [|assumption|cbn [rest good_stream]; rewrite app_length; lia]. cbn [negb].
  change ("#"%char :: lit "FUNC " ++ name ++ nl :: r) with ([] ++ lit "#FUNC" ++ " "%char :: name ++ nl :: r).
  rewrite read_token_word; [|reflexivity|apply solid_dec; [discriminate|reflexivity]|reflexivity].
  rewrite str_eqb_refl. cbn [negb].
  change (good_stream (" "%char :: name ++ nl :: r)) with (good_stream ([" "%char] ++ name ++ nl :: r)).
  rewrite read_token_word; [|reflexivity|assumption|reflexivity].
  destruct (str_eqb_spec name (load_name (pf_kind f))); [contradiction|]. reflexivity.
Qed.
Lemma saved_text f text : psave print f = Ok text -> pf_kind f <> PSgd /\ exists r, lines_text print (save_lines f) (pf_mem f) = Ok r /\ text = endl (lit "#FUNC " ++ load_name (pf_kind f)) ++ save_tag f ++ r.
Proof using.
  unfold psave. intros H. assert (K : pf_kind f <> PSgd) by (intros E; rewrite E in H; discriminate). split; [assumption|].
  rewrite <- names_agree by assumption.
  destruct (pf_kind f) eqn:E; try congruence; (destruct (lines_text print (save_lines f) (pf_mem f)) as [r| | |] eqn:F; cbn [bind] in H; try discriminate; exists r; split; [reflexivity|apply Ok_inj in H; assumption]).
Qed.
Lemma save_total f : complete f -> pf_kind f <> PSgd -> exists text, psave print f = Ok text.
Proof using.
  intros Hc K. destruct (lines_exist print (save_lines f) (pf_mem f)) as (t & E).
  { apply Forall_forall. intros c H. apply range_sizes; [assumption|]. apply in_saved; [assumption|]. rewrite <- save_cells. assumption. }
  unfold psave. rewrite E. destruct (pf_kind f); try congruence; eexists; reflexivity.
Qed.

Lemma numbers_loaded f g r post : alike g f -> complete f -> complete g -> (is_lafortune (pf_kind f) = true -> pf_n g = pf_n f) -> loads_what_it_saves g ->
  lines_text print (save_lines f) (pf_mem f) = Ok r ->
  exists w', newlines w' /\ w' <> [] /\ load_numbers lex g (good_stream (nl :: r ++ post)) = Ok (true, with_mem g (map (map rnd) (pf_mem f)), good_stream (w' ++ post)).
Proof using Hprint.
  intros [Hk Hy] Cf Cg Hn Hl Hr.
  assert (K : pf_kind f <> PSgd) by (unfold loads_what_it_saves in Hl; rewrite Hk in Hl; intros E; rewrite E in Hl; exact Hl).
  assert (SC : saved_cells g = saved_cells f).
  { unfold saved_cells. rewrite Hk, Hy. destruct (pf_kind f); try reflexivity; rewrite Hn by reflexivity; reflexivity. }
  assert (SH : map (@length R) (pf_mem g) = map (@length R) (pf_mem f)).
  { destruct Cf as [_ Ef], Cg as [_ Eg]. rewrite Ef, Eg. rewrite Hk, Hy. unfold sizes. destruct (pf_kind f); try reflexivity; rewrite Hn by reflexivity; reflexivity. }
  assert (RG : forall c, In c (saved_cells f) <-> in_range (pf_mem f) c).
  { intros c. rewrite range_sizes by assumption. apply in_saved. assumption. }
  assert (FR : Forall (in_range (pf_mem g)) (saved_cells g)).
  { rewrite SC. apply Forall_forall. intros c Hc. apply RG in Hc. eapply shape_range; [|eassumption]. symmetry. assumption. }
  unfold load_numbers. rewrite same_cells by assumption.
  destruct (read_lines lex print rnd Hprint (save_lines f) (pf_mem f) r (saved_cells g) [] (pf_mem g) [nl] post) as (w' & W1 & W2 & E).
  { apply labels. assumption. } { assumption. } { rewrite save_cells, SC. reflexivity. } { assumption. } { repeat constructor. }
  exists w'. split; [assumption|]. split; [apply W2; right; discriminate|]. rewrite app_nil_r in E. cbn [app] in E. rewrite E. cbn [read_cells bind fst snd]. repeat f_equal.
  rewrite save_cells, SC. apply mem_ext.
  - rewrite writes_shape, map_mem_shape. assumption.
  - intros c Hc. assert (I : in_range (pf_mem f) c) by (eapply shape_range; [|exact Hc]; rewrite writes_shape; assumption).
    rewrite (value_written (fun c => rnd (value_of (pf_mem f) c))); [|rewrite <- SC; assumption|apply RG; assumption].
    symmetry. apply map_mem_value. assumption.
Qed.

Lemma resize_len m n v : length (resize_vec junk m n v) = n.
Proof using. unfold resize_vec. destruct (Nat.eqb_spec (length v) n); [assumption|]. rewrite map_length, seq_length. reflexivity. Qed.
Lemma set_lobes_ok w f n : exists g, set_lobes junk w f (Z.of_nat n) = Ok g /\ alike g f /\ pf_n g = Z.of_nat n /\ pf_in g = pf_in f /\ pf_back g = pf_back f /\
  map (@length R) (pf_mem g) = [(n * pf_nY f * w)%nat; (n * pf_nY f)%nat].
Proof using.
  unfold set_lobes. destruct (Z.ltb_spec (Z.of_nat n * Z.of_nat (pf_nY f)) 0); [lia|]. eexists. split; [reflexivity|]. cbn [pf_kind pf_nY pf_n pf_in pf_back pf_mem map].
  rewrite !resize_len, Nat2Z.id. repeat split.
Qed.

Theorem saved_is_loaded f f0 text w post : sound_format f -> nameable f -> alike f0 f -> complete f ->
  (is_lafortune (pf_kind f) = false -> complete f0) -> newlines w -> psave print f = Ok text ->
  exists w', newlines w' /\ w' <> [] /\ pload lex junk f0 (good_stream (w ++ text ++ post)) = Ok (true, loaded rnd f f0, good_stream (w' ++ post)).
Proof using Hprint.
  intros Hs Hm Ha Cf C0 Hw Ht. apply saved_text in Ht as (K & r & Hr & ->). pose proof Ha as [Ek Ey].
  rewrite <- !app_assoc. rewrite <- Ek, pload_named by assumption.
  assert (PL : sound_format f -> is_lafortune (pf_kind f) = false -> pf_kind f <> PAbc -> save_tag f = [] /\ forall s, pload_body lex junk f0 (load_name (pf_kind f0)) s = load_numbers lex f0 s).
  { intros Hf Hl Hn. unfold sound_format in Hf. unfold save_tag, pload_body. rewrite Ek. destruct (pf_kind f); try discriminate; try contradiction; try congruence; split; reflexivity. }
  destruct (is_lafortune (pf_kind f)) eqn:L.
  - assert (Ez : exists n, pf_n f = Z.of_nat n) by (exists (Z.to_nat (pf_n f)); destruct Cf as [Cf _]; specialize (Cf L); lia). destruct Ez as (n & Ez).
    assert (B : exists g, alike g f0 /\ pf_n g = pf_n f /\ pf_in g = pf_in f0 /\ pf_back g = pf_back f0 /\ complete g /\
      pload_body lex junk f0 (load_name (pf_kind f0)) (good_stream (nl :: save_tag f ++ r ++ post)) = load_numbers lex g (good_stream (nl :: r ++ post))).
    { assert (ST : save_tag f = endl (lit "#NB_LOBES " ++ print_nat n)).
      { unfold save_tag. rewrite Ez, print_Z_nat. destruct (pf_kind f); try discriminate; reflexivity. }
      rewrite ST. unfold endl. replace (nl :: ((lit "#NB_LOBES " ++ print_nat n) ++ [nl]) ++ r ++ post) with ([nl] ++ lit "#NB_LOBES" ++ " "%char :: print_nat n ++ nl :: r ++ post)
        by (rewrite <- !app_assoc; reflexivity).
      unfold pload_body. rewrite Ek.
      assert (T : forall old, read_token old (good_stream ([nl] ++ lit "#NB_LOBES" ++ " "%char :: print_nat n ++ nl :: r ++ post)) = (lit "#NB_LOBES", good_stream ([" "%char] ++ print_nat n ++ nl :: r ++ post))).
      { intros old. apply read_token_word; [reflexivity|apply solid_dec; [discriminate|reflexivity]|reflexivity]. }
      destruct (pf_kind f) eqn:E; try discriminate; rewrite T; cbn [snd]; rewrite ?str_eqb_refl; cbn [negb]; rewrite scan_num_text by reflexivity.
      - destruct (set_lobes_ok 2 f0 n) as (g & G & [A1 A2] & N & I1 & I2 & Sg). rewrite G. exists g. split; [split; assumption|]. split; [congruence|]. split; [assumption|]. split; [assumption|]. split; [|reflexivity].
        split; [intros _; lia|]. rewrite Sg, A1, A2, N, Ek, Nat2Z.id. cbn [sizes]. f_equal. lia.
      - destruct (set_lobes_ok 3 f0 n) as (g & G & [A1 A2] & N & I1 & I2 & Sg). rewrite G. exists g. split; [split; assumption|]. split; [congruence|]. split; [assumption|]. split; [assumption|]. split; [|reflexivity].
        split; [intros _; lia|]. rewrite Sg, A1, A2, N, Ek, Nat2Z.id. cbn [sizes]. f_equal. lia. }
    destruct B as (g & [A1 A2] & N & I1 & I2 & Cg & ->).
    destruct (numbers_loaded f g r post) as (w' & W1 & W2 & E); [split; congruence|assumption|assumption|intros _; assumption| |assumption|].
    { unfold loads_what_it_saves. unfold sound_format in Hs. rewrite A1, Ek, N. destruct (pf_kind f); try discriminate; try exact I; assumption. }
    exists w'. split; [assumption|]. split; [assumption|]. rewrite E. unfold loaded, with_mem. rewrite L, A1, A2, N, I1, I2, Ek, Ey. repeat f_equal.
    destruct (pf_kind f); try discriminate; reflexivity.
  - specialize (C0 eq_refl). destruct (pf_kind f) eqn:E; try discriminate; try (exfalso; unfold sound_format in Hs; rewrite E in Hs; exact Hs);
    try (destruct PL as (-> & PB); [assumption|reflexivity|congruence|]; rewrite PB; cbn [app];
      destruct (numbers_loaded f f0 r post) as (w' & W1 & W2 & E2); [split; congruence|assumption|assumption|rewrite E; discriminate|unfold loads_what_it_saves; rewrite Ek; exact I|assumption|];
      exists w'; split; [assumption|]; split; [assumption|]; rewrite E2; unfold loaded, with_mem; rewrite ?E, Ek, Ey; reflexivity).
    (* abc *)
    clear PL. unfold save_tag, pload_body. rewrite E, Ek. unfold endl.
    replace (nl :: ((lit "#PARAM " ++ get_name_in (pf_in f)) ++ [nl]) ++ r ++ post) with ([nl] ++ lit "#PARAM" ++ " "%char :: get_name_in (pf_in f) ++ nl :: r ++ post)
      by (rewrite <- !app_assoc; reflexivity).
    rewrite read_token_word; [|reflexivity|apply solid_dec; [discriminate|reflexivity]|reflexivity]. rewrite str_eqb_refl. cbn [negb].
    change (good_stream (" "%char :: get_name_in (pf_in f) ++ nl :: r ++ post)) with (good_stream ([" "%char] ++ get_name_in (pf_in f) ++ nl :: r ++ post)).
    rewrite read_token_word; [|reflexivity|apply input_solid|reflexivity].
    rewrite Hm by assumption.
    destruct (numbers_loaded f (with_in f0 (pf_in f)) r post) as (w' & W1 & W2 & E2); [split; cbn; congruence|assumption|exact C0|rewrite E; discriminate|unfold loads_what_it_saves; cbn [with_in pf_kind]; rewrite Ek; exact I|assumption|].
    exists w'. split; [assumption|]. split; [assumption|]. rewrite E2. unfold loaded, with_mem, with_in. cbn [pf_kind pf_nY pf_in pf_back pf_n pf_mem]. rewrite E, Ek, Ey. reflexivity.
Qed.
End Loading.

(** Function files of trees of plugins (C112, C113). *)
From Coq Require Import Reals List ZArith Lia.
From Verif Require Import Base Num ParamsModel GeoModel GeoSpec ArgsModel ArgsSpec ArgsProofs ParamsProofs DataModel DataSpec DataProofs TextModel TextProofs TextRound FuncModel FuncFile FuncFileSpec FuncFileProofs RatModel RatSpec RatFile PfModel PfSpec PfProofs PfProofs2 PfProofs3 PfProofs4 PfProofs5 PtModel PtSpec.
Open Scope R_scope.

Fixpoint ptree_all (Q : ptree -> Prop) (Hl : forall f, Q (PLeaf f)) (Hs : forall fs, Forall Q fs -> Q (PSum fs))
  (Hp : forall f g, Q f -> Q g -> Q (PProd f g)) (t : ptree) : Q t :=
  match t with
  | PLeaf f => Hl f
  | PSum fs => Hs fs ((fix all l : Forall Q l := match l with [] => Forall_nil _ | f :: r => Forall_cons f (ptree_all Q Hl Hs Hp f) (all r) end) fs)
  | PProd f g => Hp f g (ptree_all Q Hl Hs Hp f) (ptree_all Q Hl Hs Hp g) end.

(** ** text that is skipped *)
Lemma skip_text ls r : Forall (fun l => ~ In nl l /\ (length l <= 255)%nat /\ ~ begins "#" l) ls -> forall fuel, (length ls < fuel)%nat ->
  skip_lines fuel (good_stream (flat_map endl ls ++ "#"%char :: r)) = (true, good_stream ("#"%char :: r)).
Proof.
  induction 1 as [|l ls (Hn & Hl & Hb) _ IH]; intros fuel Hf; (destruct fuel as [|fuel]; [cbn in Hf; lia|]).
  - reflexivity.
  - cbn [flat_map]. unfold endl at 1. rewrite <- !app_assoc. cbn [app].
    assert (P : exists c s, l ++ nl :: flat_map endl ls ++ "#"%char :: r = c :: s /\ aeqb c "#" = false).
    { destruct l as [|c l]; [exists nl; eexists; split; reflexivity|]. exists c. eexists. split; [reflexivity|]. destruct (aeqb c "#") eqn:E; [|reflexivity].
      exfalso. apply Hb. apply Ascii.eqb_eq in E. subst c. exists l. reflexivity. }
    destruct P as (c & s & E & Hc). cbn [skip_lines]. unfold peek. cbn [good good_stream eofbit failbit negb andb rest].
    rewrite E. cbn iota. rewrite Hc. cbn iota. rewrite <- E. unfold getline_buf. unfold good_stream. cbn [good eofbit failbit negb andb rest]. rewrite split_line_app by assumption.
    destruct (Nat.leb_spec (length l) 255); [|lia]. cbn [good eofbit failbit negb andb]. fold (good_stream (flat_map endl ls ++ "#"%char :: r)).
    destruct l; apply IH; cbn in Hf; lia.
Qed.
Lemma lines_length ls : (length ls <= length (flat_map endl ls))%nat.
Proof.
  assert (E : forall l, length (endl l) = S (length l)) by (intros l; unfold endl; rewrite app_length, Nat.add_comm; reflexivity).
  induction ls as [|l ls IH]; [reflexivity|]. cbn [flat_map length]. rewrite app_length, E. lia.
Qed.
Lemma skip_any w r : skippable w -> skip_lines (S (length (w ++ "#"%char :: r))) (good_stream (w ++ "#"%char :: r)) = (true, good_stream ("#"%char :: r)).
Proof.
  intros (ls & -> & H). apply skip_text; [exact H|]. rewrite app_length. eapply Nat.le_lt_trans; [apply lines_length|]. apply Nat.lt_succ_r, Nat.le_add_r.
Qed.
Lemma skippable_newlines w : newlines w -> skippable w.
Proof.
  intros H. exists (map (fun _ => []) w). split.
  - induction H as [|c w E _ IH]; [reflexivity|]. cbn [map flat_map]. rewrite <- IH. subst c. reflexivity.
  - apply Forall_forall. intros l Hl. apply in_map_iff in Hl as (c & <- & _). split; [intros []|]. split; [cbn; lia|]. intros (x & Hx). discriminate.
Qed.
Lemma skippable_app a b : skippable a -> skippable b -> skippable (a ++ b).
Proof. intros (la & -> & A) (lb & -> & B). exists (la ++ lb)%list. split; [rewrite flat_map_app; reflexivity|apply Forall_app; auto]. Qed.

Section Trees.
Variable lex : str -> option (R * str).
Variable print : R -> str.
Variable rnd : R -> R.
Variable junk : nat -> nat -> R.
Hypothesis Hprint : prints lex print rnd.

Lemma pload_skips f w r : skippable w -> pload lex junk f (good_stream (w ++ "#"%char :: r)) = pload lex junk f (good_stream ("#"%char :: r)).
Proof using.
  intros H. unfold pload. cbn [rest good_stream]. rewrite (skip_any w r H). pose proof (skip_any [] r (skippable_newlines [] (Forall_nil _))) as E. cbn [app] in E. unfold good_stream in E |- *. cbn [rest]. rewrite E. reflexivity.
Qed.
Lemma psave_hash f text : psave print f = Ok text -> exists r, text = "#"%char :: r.
Proof using. intros H. apply saved_text in H as (_ & r & _ & ->). eexists. reflexivity. Qed.
Lemma leaf_restored f f0 text w post : restorable_by f f0 -> skippable w -> psave print f = Ok text ->
  exists w', newlines w' /\ pload lex junk f0 (good_stream (w ++ text ++ post)) = Ok (true, loaded rnd f f0, good_stream (w' ++ post)).
Proof using Hprint.
  intros (A & B & C & D & E) Hw Ht. destruct (psave_hash f text Ht) as (r & Er).
  destruct (saved_is_loaded lex print rnd junk Hprint f f0 text [] post A B C D E (Forall_nil _) Ht) as (w' & W & _ & L). exists w'. split; [exact W|].
  cbn [app] in L. rewrite Er in L |- *. cbn [app] in *. rewrite pload_skips by assumption. exact L.
Qed.
Definition tcalls := (fix all l := match l with [] => Ok [] | f :: r => do a <- tcall print f; do b <- all r; Ok (a ++ b) end).
Lemma tcall_sum fs : tcall print (PSum fs) = tcalls fs. Proof. reflexivity. Qed.
(** the calls of a tree *)
Lemma tree_restored t : forall t0 w post, tree_for t t0 -> skippable w ->
  exists text, tcall print t = Ok text /\ exists w', newlines w' /\ tload lex junk t0 (good_stream (w ++ text ++ post)) = Ok (true, restored rnd t t0, good_stream (w' ++ post)).
Proof using Hprint.
  induction t as [f|fs IH|f g IHf IHg] using ptree_all; intros t0 w post Ht Hw.
  - destruct t0 as [f0| |]; try contradiction. cbn [tree_for] in Ht. pose proof Ht as (A & _ & _ & D & _).
    destruct (save_total print f D) as (text & E); [unfold sound_format in A; intros K; rewrite K in A; exact A|]. exists text. split; [exact E|].
    destruct (leaf_restored f f0 text w post Ht Hw E) as (w' & W & L). exists w'. split; [exact W|]. cbn [tload]. rewrite L. reflexivity.
  - destruct t0 as [|fs0|]; try contradiction. cbn [tree_for] in Ht. destruct Ht as (Hn & Ht). rewrite tcall_sum.
    assert (L : forall fs0 n w, (fix all l l0 := match l, l0 with [], [] => True | f :: r, f0 :: r0 => tree_for f f0 /\ all r r0 | _, _ => False end) fs fs0 -> skippable w ->
      exists text, tcalls fs = Ok text /\ exists w', (fs <> [] -> newlines w') /\ (fs = [] -> w' = w) /\ tload_loop (tload lex junk) fs0 n (good_stream (w ++ text ++ post)) =
        Ok ((n + length fs)%nat, (fix all l l0 := match l, l0 with f :: r, f0 :: r0 => restored rnd f f0 :: all r r0 | _, _ => [] end) fs fs0, good_stream (w' ++ post))).
    { clear Ht Hw w fs0 Hn. induction IH as [|f fs Hf _ IHfs]; intros fs0 n w Ht Hw.
      - destruct fs0 as [|f0 fs0]; [|contradiction]. exists []. split; [reflexivity|]. exists w. split; [congruence|]. split; [reflexivity|]. cbn. rewrite Nat.add_0_r. reflexivity.
      - destruct fs0 as [|f0 fs0]; [contradiction|]. destruct Ht as (H1 & H2).
        destruct (IHfs fs0 (S n) [] H2 (skippable_newlines [] (Forall_nil _))) as (b & Eb & _). destruct (Hf f0 w (b ++ post) H1 Hw) as (a & Ea & w1 & W1 & La).
        destruct (IHfs fs0 (S n) w1 H2 (skippable_newlines w1 W1)) as (b' & Eb' & w2 & W2 & W3 & Lb). rewrite Eb in Eb'. apply Ok_inj in Eb'. subst b'.
        exists (a ++ b)%list. split; [cbn [tcalls]; rewrite Ea, Eb; reflexivity|]. exists w2. split; [|split; [discriminate|]].
        + intros _. destruct fs; [rewrite (W3 eq_refl); exact W1|apply W2; discriminate].
        + cbn [tload_loop]. unfold tellg. cbn [good good_stream eofbit failbit negb andb]. rewrite <- app_assoc. fold (good_stream (w ++ a ++ b ++ post)). rewrite La. cbn [bind]. rewrite Lb. cbn [bind length].
          rewrite Nat.add_succ_r. reflexivity. }
    destruct (L fs0 0%nat w Ht Hw) as (text & Et & w' & W & _ & E). exists text. split; [exact Et|]. exists w'. split; [apply W, Hn|]. cbn [tload]. rewrite E. cbn [bind restored].
    destruct fs; [congruence|reflexivity].
  - destruct t0 as [| |f0 g0]; try contradiction. cbn [tree_for] in Ht. destruct Ht as (H1 & H2).
    destruct (IHg g0 [] post H2 (skippable_newlines [] (Forall_nil _))) as (b & Eb & _). destruct (IHf f0 w (b ++ post) H1 Hw) as (a & Ea & w1 & W1 & La).
    destruct (IHg g0 w1 post H2 (skippable_newlines w1 W1)) as (b' & Eb' & w2 & W2 & Lb). rewrite Eb in Eb'. apply Ok_inj in Eb'. subst b'.
    exists (a ++ b)%list. split; [cbn [tcall]; rewrite Ea, Eb; reflexivity|]. exists w2. split; [exact W2|]. cbn [tload]. unfold tellg at 1. cbn [good good_stream eofbit failbit negb andb].
    rewrite <- app_assoc. fold (good_stream (w ++ a ++ b ++ post)). rewrite La. cbn [bind]. unfold tellg. cbn [good good_stream eofbit failbit negb andb]. fold (good_stream (w1 ++ b ++ post)). rewrite Lb. reflexivity.
Qed.
(** the shader code of Lafortune *)
Lemma laf_skippable : skippable (flat_map endl laf_lines).
Proof using.
  exists laf_lines. split; [reflexivity|]. apply Forall_forall. intros l Hl. assert (D : negb (existsb (Ascii.eqb nl) l) && (length l <=? 255)%nat && match l with c :: _ => negb (Ascii.eqb "#" c) | [] => true end = true).
  { unfold laf_lines in Hl. repeat (destruct Hl as [<-|Hl]; [vm_compute; reflexivity|]). destruct Hl. }
  apply andb_prop in D as [D D3]. apply andb_prop in D as [D1 D2]. split; [|split].
  - intros K. apply Bool.negb_true_iff in D1. rewrite <- Bool.not_true_iff_false, existsb_exists in D1. apply D1. exists nl. split; [exact K|apply Ascii.eqb_refl].
  - apply Nat.leb_le, D2.
  - intros (x & ->). cbn in D3. discriminate.
Qed.
Lemma body_skippable t : forall t0, tree_for t t0 -> exists b, tbody t = Ok b /\ skippable b.
Proof using.
  assert (N : skippable (endl [])) by (apply skippable_newlines; repeat constructor).
  induction t as [f|fs IH|f g IHf IHg] using ptree_all; intros t0 Ht.
  - destruct t0 as [f0| |]; try contradiction. destruct Ht as (A & _). cbn [tbody]. unfold sound_format in A.
    destruct (pf_kind f); try contradiction; eexists; (split; [reflexivity|]); try apply laf_skippable; apply skippable_newlines; constructor.
  - destruct t0 as [|fs0|]; try contradiction. destruct Ht as (_ & Ht). revert fs0 Ht. induction IH as [|f fs Hf _ IH]; intros fs0 Ht.
    + eexists. split; [reflexivity|]. apply skippable_newlines. constructor.
    + destruct fs0 as [|f0 fs0]; [contradiction|]. destruct Ht as (H1 & H2). destruct (Hf f0 H1) as (a & Ea & Sa). destruct (IH fs0 H2) as (b & Eb & Sb).
      change (tbody (PSum (f :: fs))) with (do a <- tbody f; do b <- tbody (PSum fs); Ok (a ++ endl [] ++ b)). rewrite Ea, Eb. eexists. split; [reflexivity|]. auto using skippable_app.
  - destruct t0 as [| |f0 g0]; try contradiction. destruct Ht as (H1 & H2). destruct (IHf f0 H1) as (a & Ea & Sa). destruct (IHg g0 H2) as (b & Eb & Sb). cbn [tbody]. rewrite Ea, Eb. eexists. split; [reflexivity|]. auto using skippable_app.
Qed.
Theorem tree_file get_function args p t t0 : map_ok args -> writable args -> tree_for t t0 -> parse_input (get_name_in (in_param p)) = in_param p ->
  get_function args (mkParameters (dimX p) (dimY p) (in_param p) UNKNOWN_OUTPUT) = Ok t0 ->
  exists file, tsave print args p t = Ok file /\ tload_function lex junk get_function file = Ok (Some (restored rnd t t0)).
Proof using Hprint.
  intros Hm Hw Ht Hn Hg. destruct (body_skippable t t0 Ht) as (b & Eb & Sb).
  assert (N : skippable (endl [])) by (apply skippable_newlines; repeat constructor).
  destruct (tree_restored t t0 (endl [] ++ b) (endl []) Ht (skippable_app _ _ N Sb)) as (c & Ec & w' & W & L).
  unfold tsave. rewrite Eb, Ec. cbn [bind]. eexists. split; [reflexivity|]. unfold tload_function, save_header. rewrite <- !app_assoc.
  set (tail := endl [] ++ b ++ c ++ endl []).
  unfold getline. unfold endl at 1. rewrite <- app_assoc. cbn [app].
  rewrite split_line_app by (vm_compute; intros H; repeat (destruct H as [H|H]; [discriminate|]); destruct H).
  change (str_eqb (lit "#ALTA FUNC HEADER") (lit "#ALTA FUNC HEADER")) with true. cbn [negb good eofbit failbit andb rest].
  match goal with |- context[parse_header_loop (S (length ?b)) {| rest := ?b; eofbit := false; failbit := false |} []] =>
    change (parse_header_loop (S (length b)) {| rest := b; eofbit := false; failbit := false |} []) with (parse_header b) end.
  rewrite (func_header args p tail); [|assumption|intros (x & Hx); discriminate].
  set (h := [(lit "CMD", skip_ws (get_cmd args)); (lit "DIM", print_nat (dimX p) ++ lit " " ++ print_nat (dimY p)); (lit "PARAM_IN", get_name_in (in_param p))] : arguments).
  rewrite (get_pair_dim (dimX p) (dimY p) h) by reflexivity.
  change (map_find "CMD"%string h) with (Some (skip_ws (get_cmd args))). cbn iota.
  rewrite create_arguments_skip, cmd_roundtrip by assumption. cbn [bind].
  change (get_string h "PARAM_IN"%string "UNKNOWN_INPUT"%string) with (c_str (get_name_in (in_param p))). assert (EC : c_str (get_name_in (in_param p)) = get_name_in (in_param p)) by (destruct (in_param p); reflexivity). rewrite EC, Hn, !Nat2Z.id.
  change (parse_output (get_string h "PARAM_OUT"%string "UNKNOWN_OUTPUT"%string)) with UNKNOWN_OUTPUT.
  rewrite Hg. cbn [bind]. change tail with (nl :: b ++ c ++ endl []). cbn iota.
  change (endl [] ++ b) with (nl :: b) in L. cbn [app] in L. unfold good_stream in L. rewrite L. reflexivity.
Qed.

(** ** texts that hold some of the functions *)
Lemma load_end f w : newlines w -> exists s, failbit s = true /\ pload lex junk f (good_stream w) = Ok (false, f, s).
Proof using.
  intros H. unfold pload. cbn [rest good_stream]. assert (E : forall fuel, (length w < fuel)%nat -> exists s, failbit s = true /\ skip_lines fuel (good_stream w) = (false, s)).
  { induction H as [|c w Ec _ IH]; intros fuel Hf; (destruct fuel as [|fuel]; [cbn in Hf; lia|]).
    - eexists. split; [|reflexivity]. reflexivity.
    - subst c. cbn [skip_lines]. change (good_stream (nl :: w)) with (good_stream ([] ++ nl :: w)). cbn. apply IH. cbn in Hf. lia. }
  destruct (E (S (length w)) ltac:(lia)) as (s & F & S1). fold (good_stream w). rewrite S1. cbn [negb]. exists s. auto.
Qed.
Lemma load_nothing fs : forall n w, newlines w -> exists s, cload_from lex junk fs n (good_stream w) = Ok (n, fs, s).
Proof using.
  intros n w H. destruct fs as [|f fs]; [eexists; reflexivity|]. cbn [cload_from]. unfold tellg. cbn [good good_stream eofbit failbit negb andb]. fold (good_stream w).
  destruct (load_end f w H) as (s & F & ->). cbn [bind]. unfold seekg. rewrite F. destruct (cload_failed lex junk fs n {| rest := rest s; eofbit := false; failbit := true |} eq_refl) as (s' & _ & ->). eexists. reflexivity.
Qed.
Theorem some_functions fs0 fs gs : chosen rnd fs0 fs gs -> forall n text w post, csave print fs = Ok text -> newlines w -> newlines post ->
  exists s, cload_from lex junk fs0 n (good_stream (w ++ text ++ post)) = Ok ((n + length fs)%nat, gs, s).
Proof using Hprint.
  induction 1 as [fs0|f f0 fs0 fs gs (A & B & C & D & E) _ IH|f f0 fs0 fs gs Hf _ IH]; intros n text w post Ht Hw Hp.
  - apply Ok_inj in Ht. subst text. cbn [app length]. rewrite Nat.add_0_r. apply load_nothing. apply Forall_app. auto.
  - cbn [csave] in Ht. destruct (psave print f) as [a| | |] eqn:Ea; try discriminate. cbn [bind] in Ht. destruct (csave print fs) as [b| | |] eqn:Eb; try discriminate. cbn [bind] in Ht. apply Ok_inj in Ht. subst text.
    cbn [cload_from]. unfold tellg. cbn [good good_stream eofbit failbit negb andb]. rewrite <- app_assoc. fold (good_stream (w ++ a ++ b ++ post)).
    destruct (saved_is_loaded lex print rnd junk Hprint f f0 a w (b ++ post)) as (w1 & W1 & _ & E1); try assumption. rewrite E1. cbn [bind].
    destruct (IH (S n) b w1 post eq_refl W1 Hp) as (s & E2). rewrite E2. cbn [bind length]. exists s. rewrite Nat.add_succ_r. reflexivity.
  - pose proof Ht as Ht'. cbn [csave] in Ht'. destruct (psave print f) as [a| | |] eqn:Ea; try discriminate. cbn [bind] in Ht'. destruct (csave print fs) as [b| | |] eqn:Eb; try discriminate. cbn [bind] in Ht'. apply Ok_inj in Ht'. subst text.
    cbn [cload_from]. unfold tellg. cbn [good good_stream eofbit failbit negb andb]. rewrite <- app_assoc. fold (good_stream (w ++ a ++ b ++ post)).
    destruct (other_plugin_refused lex print junk f f0 a w (b ++ post) Hf Hw Ea) as (r & ->). cbn [bind]. match goal with |- context[cload_from lex junk fs0 n ?s] => change s with (good_stream (w ++ a ++ b ++ post)) end.
    destruct (IH n (a ++ b)%list w post Ht Hw Hp) as (s & E2). rewrite <- app_assoc in E2. rewrite E2. cbn [bind length]. exists s. reflexivity.
Qed.
End Trees.
Lemma sgd_body t : (exists f, In f (leaves_of t) /\ pf_kind f = PSgd) -> tbody t = Abort.
Proof.
  assert (D : forall t, (exists b, tbody t = Ok b) \/ tbody t = Abort).
  { induction t0 as [f|fs IH|f g IHf IHg] using ptree_all.
    - cbn [tbody]. destruct (pf_kind f); eauto.
    - induction IH as [|f fs Hf _ IH]; [left; eexists; reflexivity|]. change (tbody (PSum (f :: fs))) with (do a <- tbody f; do b <- tbody (PSum fs); Ok (a ++ endl [] ++ b)).
      destruct Hf as [(a & ->)| ->]; [|right; reflexivity]. cbn [bind]. destruct IH as [(b & ->)| ->]; [left; eexists; reflexivity|right; reflexivity].
    - cbn [tbody]. destruct IHf as [(a & ->)| ->]; [|right; reflexivity]. cbn [bind]. destruct IHg as [(b & ->)| ->]; [left; eexists; reflexivity|right; reflexivity]. }
  induction t as [f|fs IH|f g IHf IHg] using ptree_all; intros (h & Hin & K).
  - destruct Hin as [->|[]]. cbn [tbody]. rewrite K. reflexivity.
  - revert Hin. induction IH as [|f fs Hf _ IH]; [intros []|]. intros Hin. change (leaves_of (PSum (f :: fs))) with (leaves_of f ++ leaves_of (PSum fs))%list in Hin.
    change (tbody (PSum (f :: fs))) with (do a <- tbody f; do b <- tbody (PSum fs); Ok (a ++ endl [] ++ b)). apply in_app_or in Hin. destruct Hin as [Hin|Hin].
    + rewrite Hf by eauto. reflexivity.
    + rewrite (IH Hin). destruct (D f) as [(a & ->)| ->]; reflexivity.
  - cbn [leaves_of] in Hin. cbn [tbody]. apply in_app_or in Hin. destruct Hin as [Hin|Hin].
    + rewrite IHf by eauto. reflexivity.
    + rewrite IHg by eauto. destruct (D f) as [(a & ->)| ->]; reflexivity.
Qed.

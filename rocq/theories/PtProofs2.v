(** Function files of trees of plugins that hold some of the functions (C113). *)
From Coq Require Import Reals List ZArith Lia.
From Verif Require Import Base Num ParamsModel GeoModel GeoSpec ArgsModel ArgsSpec ArgsProofs ParamsProofs DataModel DataSpec DataProofs TextModel TextProofs TextRound FuncModel FuncFile FuncFileSpec FuncFileProofs FuncFileMore PfModel PfSpec PfProofs PfProofs2 PfProofs3 PfProofs4 PfProofs5 PtModel PtSpec PtProofs.
Open Scope R_scope.

Section Trees.
Variable lex : str -> option (R * str).
Variable print : R -> str.
Variable rnd : R -> R.
Variable junk : nat -> nat -> R.
Hypothesis Hprint : prints lex print rnd.
Variable post : str.
Hypothesis Hpost : newlines post.

(** leaves l read the functions fs, fs' are left *)
Inductive took : list pfun -> list pfun -> list pfun -> list pfun -> Prop :=
| T_nil fs : took [] fs [] fs
| T_take f f0 l fs gs fs' : restorable_by f f0 -> took l fs gs fs' -> took (f0 :: l) (f :: fs) (loaded rnd f f0 :: gs) fs'
| T_skip f f0 l fs gs fs' : same_family (pf_kind f0) (pf_kind f) = false -> took l (f :: fs) gs fs' -> took (f0 :: l) (f :: fs) (f0 :: gs) fs'
| T_none f0 l gs fs' : took l [] gs fs' -> took (f0 :: l) [] (f0 :: gs) fs'.
Lemma took_none l : took l [] l [].
Proof using. induction l; constructor; assumption. Qed.
Lemma chosen_took l fs gs : chosen rnd l fs gs -> took l fs gs [].
Proof using. induction 1; [apply took_none|apply T_take; assumption|apply T_skip; assumption]. Qed.
Lemma took_app a : forall b fs gs fs', took (a ++ b) fs gs fs' -> exists fs1 g1 g2, gs = (g1 ++ g2)%list /\ took a fs g1 fs1 /\ took b fs1 g2 fs'.
Proof using.
  induction a as [|f0 a IH]; intros b fs gs fs' H; [exists fs, [], gs; split; [reflexivity|]; split; [constructor|exact H]|].
  cbn [app] in H. inversion H as [|f x l fs2 gs2 fs3 R T|f x l fs2 gs2 fs3 R T|x l gs2 fs3 T]; subst; destruct (IH _ _ _ _ T) as (fs1 & g1 & g2 & -> & A & B).
  - exists fs1, (loaded rnd f f0 :: g1), g2. split; [reflexivity|]. split; [apply T_take; assumption|exact B].
  - exists fs1, (f0 :: g1), g2. split; [reflexivity|]. split; [apply T_skip; assumption|exact B].
  - exists fs1, (f0 :: g1), g2. split; [reflexivity|]. split; [apply T_none; assumption|exact B].
Qed.
Lemma took_le l fs gs fs' : took l fs gs fs' -> (length fs' <= length fs)%nat.
Proof using. induction 1; cbn [length] in *; lia. Qed.
Lemma took_same l fs gs fs' : took l fs gs fs' -> length fs' = length fs -> fs' = fs.
Proof using.
  induction 1 as [|f f0 l fs gs fs' R T IH|f f0 l fs gs fs' R T IH|f0 l gs fs' T IH]; intros E; auto. apply took_le in T. cbn [length] in E. lia.
Qed.

Definition at_text (fs : list pfun) (s : istream) : Prop :=
  (exists text w, csave print fs = Ok text /\ newlines w /\ s = good_stream (w ++ text ++ post)) \/ (fs = [] /\ failbit s = true).
Definition back (s s' : istream) : istream := seekg (fst (tellg s)) s'.
Lemma at_back fs s s' : at_text fs s -> at_text fs s' -> at_text fs (back s s').
Proof using.
  intros H [(t' & w' & T' & W' & ->)|[-> F]].
  - destruct H as [(t & w & T & W & ->)|[-> F]].
    + left. exists t, w. auto.
    + right. split; [reflexivity|]. unfold back, tellg. assert (G : good s = false) by (unfold good; rewrite F; apply andb_false_r). rewrite G. reflexivity.
  - right. split; [reflexivity|]. unfold back, seekg. rewrite F. reflexivity.
Qed.
Lemma at_tell fs s : at_text fs s -> at_text fs (snd (tellg s)).
Proof using.
  intros [(t & w & T & W & ->)|[-> F]].
  - left. exists t, w. auto.
  - right. split; [reflexivity|]. unfold tellg. destruct (good s); [exact F|reflexivity].
Qed.
Lemma back_tell s s' : back (snd (tellg s)) s' = back s s'.
Proof using. unfold back, tellg. destruct (good s) eqn:G; cbn [fst snd]; [rewrite G; reflexivity|]. replace (good (set_fail s)) with false; [reflexivity|]. symmetry. unfold good, set_fail. cbn. apply andb_false_r. Qed.

(** what the reader of one member does *)
Definition reads (t : ptree) : Prop := forall fs gs fs' s, took (leaves_of t) fs gs fs' -> at_text fs s ->
  exists t' s', tload lex junk t s = Ok ((length fs' <? length fs)%nat, t', s') /\ same_form t t' /\ leaves_of t' = gs /\
    at_text fs' (if (length fs' <? length fs)%nat then s' else back s s').
Lemma leaf_reads f0 : reads (PLeaf f0).
Proof using Hprint Hpost.
  intros fs gs fs' s T H. cbn [leaves_of] in T. cbn [tload].
  inversion T as [|f x l fs2 gs2 fs3 R T2|f x l fs2 gs2 fs3 R T2|x l gs2 fs3 T2]; subst; inversion T2; subst.
  - destruct H as [(text & w & Ht & W & ->)|[X _]]; [|discriminate X]. cbn [csave] in Ht. destruct (psave print f) as [a| | |] eqn:Ea; try discriminate. cbn [bind] in Ht. destruct (csave print fs') as [b| | |] eqn:Eb; try discriminate. cbn [bind] in Ht. apply Ok_inj in Ht. subst text.
    rewrite <- app_assoc. destruct R as (A & B & C & D & E). destruct (saved_is_loaded lex print rnd junk Hprint f f0 a w (b ++ post)) as (w1 & W1 & _ & E1); try assumption. rewrite E1. cbn [bind].
    replace (length fs' <? length (f :: fs'))%nat with true by (symmetry; apply Nat.ltb_lt; cbn; lia). eexists _, _. split; [reflexivity|]. split; [exact I|]. split; [reflexivity|]. left. exists b, w1. auto.
  - destruct H as [(text & w & Ht & W & ->)|[X _]]; [|discriminate X]. pose proof Ht as Ht'. cbn [csave] in Ht'. destruct (psave print f) as [a| | |] eqn:Ea; try discriminate. cbn [bind] in Ht'. destruct (csave print fs2) as [b| | |] eqn:Eb; try discriminate. cbn [bind] in Ht'. apply Ok_inj in Ht'. subst text.
    rewrite Nat.ltb_irrefl. rewrite <- app_assoc. destruct (other_plugin_refused lex print junk f f0 a w (b ++ post) R W Ea) as (r & ->). cbn [bind]. eexists _, _. split; [reflexivity|]. split; [exact I|]. split; [reflexivity|].
    left. exists (a ++ b), w. rewrite <- app_assoc. auto.
  - rewrite Nat.ltb_irrefl. assert (K : exists s', failbit s' = true /\ pload lex junk f0 s = Ok (false, f0, s')).
    { destruct H as [(text & w & Ht & W & ->)|[_ F]]; [|apply pload_failed; exact F]. apply Ok_inj in Ht. subst text. cbn [app]. apply load_end. apply Forall_app. auto. }
    destruct K as (s' & F & ->). cbn [bind]. eexists _, _. split; [reflexivity|]. split; [exact I|]. split; [reflexivity|]. right. split; [reflexivity|]. unfold back, seekg. rewrite F. reflexivity.
Qed.
Definition leaves_all := (fix all (l : list ptree) := match l with [] => [] | f :: r => (leaves_of f ++ all r)%list end).
Definition forms := (fix all l l' := match l, l' with [], [] => True | f :: r, f' :: r' => same_form f f' /\ all r r' | _, _ => False end).
Lemma loop_reads l : Forall reads l -> forall fs gs fs' s n, took (leaves_all l) fs gs fs' -> at_text fs s ->
  exists k l' s', tload_loop (tload lex junk) l n s = Ok ((n + k)%nat, l', s') /\ forms l l' /\ leaves_all l' = gs /\ at_text fs' s' /\ ((0 <? k)%nat = (length fs' <? length fs)%nat).
Proof using Hprint Hpost.
  induction 1 as [|t l Ht _ IH]; intros fs gs fs' s n T H.
  - inversion T; subst. exists 0%nat, [], s. rewrite Nat.add_0_r, (Nat.ltb_irrefl (length fs')). split; [reflexivity|]. split; [exact I|]. split; [reflexivity|]. split; [exact H|reflexivity].
  - cbn [leaves_all] in T. fold leaves_all in T. apply took_app in T. destruct T as (fs1 & g1 & g2 & -> & T1 & T2).
    cbn [tload_loop]. rewrite (surjective_pairing (tellg s)). destruct (Ht _ _ _ _ T1 (at_tell _ _ H)) as (t' & s1 & -> & F1 & L1 & A1). cbn [bind]. rewrite back_tell in A1.
    assert (LE1 := took_le _ _ _ _ T1). assert (LE2 := took_le _ _ _ _ T2). unfold back in A1.
    destruct (IH fs1 g2 fs' _ (if (length fs1 <? length fs)%nat then S n else n) T2 A1) as (k & l' & s' & E & F2 & L2 & A2 & K). rewrite E. cbn [bind].
    exists ((if (length fs1 <? length fs)%nat then 1 else 0) + k)%nat, (t' :: l'), s'. split; [|split; [|split; [|split]]].
    + destruct (length fs1 <? length fs)%nat; do 3 f_equal; lia.
    + split; assumption.
    + cbn [leaves_all]. fold leaves_all. rewrite L1, L2. reflexivity.
    + exact A2.
    + destruct (Nat.ltb_spec (length fs1) (length fs)); cbn [Nat.add].
      * symmetry. apply Nat.ltb_lt. lia.
      * rewrite K. replace (length fs1) with (length fs) by lia. reflexivity.
Qed.
Lemma tree_reads t : reads t.
Proof using Hprint Hpost.
  induction t as [f|l IH|f g IHf IHg] using ptree_all; [apply leaf_reads| |].
  - intros fs gs fs' s T H. change (leaves_of (PSum l)) with (leaves_all l) in T. cbn [tload].
    destruct (loop_reads l IH fs gs fs' s 0 T H) as (k & l' & s' & -> & F & L & A & K). cbn [bind Nat.add]. rewrite K. exists (PSum l'), s'. split; [reflexivity|]. split; [exact F|]. split; [exact L|].
    destruct (Nat.ltb_spec (length fs') (length fs)) as [Q|Q]; [exact A|]. assert (LE := took_le _ _ _ _ T). assert (ES : fs' = fs) by (apply (took_same _ _ _ _ T); lia). subst fs'. apply at_back; assumption.
  - intros fs gs fs' s T H. cbn [leaves_of] in T. apply took_app in T. destruct T as (fs1 & g1 & g2 & -> & T1 & T2). cbn [tload]. rewrite (surjective_pairing (tellg s)).
    destruct (IHf _ _ _ _ T1 (at_tell _ _ H)) as (f' & s1 & -> & F1 & L1 & A1). cbn [bind]. rewrite back_tell in A1. unfold back in A1. set (m := if (length fs1 <? length fs)%nat then s1 else seekg (fst (tellg s)) s1) in *.
    rewrite (surjective_pairing (tellg m)). destruct (IHg _ _ _ _ T2 (at_tell _ _ A1)) as (g' & s2 & -> & F2 & L2 & A2). cbn [bind]. rewrite back_tell in A2.
    assert (LE1 := took_le _ _ _ _ T1). assert (LE2 := took_le _ _ _ _ T2).
    replace ((length fs1 <? length fs)%nat || (length fs' <? length fs1)%nat)%bool with (length fs' <? length fs)%nat.
    2:{ destruct (Nat.ltb_spec (length fs') (length fs)), (Nat.ltb_spec (length fs1) (length fs)), (Nat.ltb_spec (length fs') (length fs1)); cbn; try reflexivity; lia. }
    eexists _, _. split; [reflexivity|]. split; [split; assumption|]. split; [cbn [leaves_of]; rewrite L1, L2; reflexivity|]. fold (back m s2).
    destruct (Nat.ltb_spec (length fs') (length fs)) as [Q|Q]; [exact A2|].
    assert (E1 : fs1 = fs) by (apply (took_same _ _ _ _ T1); lia). assert (E2 : fs' = fs1) by (apply (took_same _ _ _ _ T2); lia). subst fs1 fs'. apply at_back; assumption.
Qed.
Theorem tree_some t fs gs text w : chosen rnd (leaves_of t) fs gs -> csave print fs = Ok text -> newlines w ->
  exists t' s, tload lex junk t (good_stream (w ++ text ++ post)) = Ok (match fs with [] => false | _ => true end, t', s) /\ same_form t t' /\ leaves_of t' = gs.
Proof using Hprint Hpost.
  intros Hc Ht Hw. apply chosen_took in Hc. destruct (tree_reads t fs gs [] (good_stream (w ++ text ++ post)) Hc) as (t' & s' & E & F & L & _).
  - left. exists text, w. auto.
  - exists t', s'. split; [|auto]. rewrite E. destruct fs; reflexivity.
Qed.
End Trees.

Section Members.
Variable lex : str -> option (R * str).
Variable junk : nat -> nat -> R.
Lemma loop_members r fs bs gs r' : members (tload lex junk) r fs bs gs r' -> forall n,
  tload_loop (tload lex junk) fs n (good_stream r) = Ok ((n + length (filter (fun b : bool => b) bs))%nat, gs, good_stream r').
Proof.
  induction 1 as [r|r f g r1 fs bs gs r' Hl HL IH|r f g s fs bs gs r' Hl Hs HL IH]; intros n; cbn [tload_loop].
  - rewrite Nat.add_0_r. reflexivity.
  - unfold tellg. cbn [good good_stream eofbit failbit negb andb]. fold (good_stream r). rewrite Hl. cbn [bind]. rewrite IH. cbn [bind filter length]. do 3 f_equal. lia.
  - unfold tellg. cbn [good good_stream eofbit failbit negb andb rest]. fold (good_stream r). rewrite Hl. cbn [bind]. unfold seekg. rewrite Hs. fold (good_stream r). rewrite IH. reflexivity.
Qed.
Lemma sum_members fs r bs gs r' : members (tload lex junk) r fs bs gs r' -> tload lex junk (PSum fs) (good_stream r) = Ok (existsb (fun b : bool => b) bs, PSum gs, good_stream r').
Proof. intros H. cbn [tload]. rewrite (loop_members _ _ _ _ _ H). cbn [bind plus]. rewrite filter_existsb. reflexivity. Qed.
Lemma prod_members f1 f2 r b1 b2 g1 g2 r' : members (tload lex junk) r [f1; f2] [b1; b2] [g1; g2] r' -> tload lex junk (PProd f1 f2) (good_stream r) = Ok (b1 || b2, PProd g1 g2, good_stream r').
Proof.
  intros H. cbn [tload]. unfold tellg at 1. cbn [good good_stream eofbit failbit negb andb]. fold (good_stream r).
  assert (K : forall r1, members (tload lex junk) r1 [f2] [b2] [g2] r' -> exists s4, tload lex junk f2 (good_stream r1) = Ok (b2, g2, s4) /\ (if b2 then s4 else seekg (Some r1) s4) = good_stream r').
  { intros r1 H1. inversion H1 as [|? ? ? r2 ? ? ? ? Hl HL E1 E2 E3 E4|? ? ? s ? ? ? ? Hl Hs HL E1 E2 E3 E4]; subst; inversion HL; subst; eexists; (split; [exact Hl|]); [reflexivity|]. unfold seekg. rewrite Hs. reflexivity. }
  inversion H as [|? ? ? r1 ? ? ? ? Hl HL E1 E2 E3 E4|? ? ? s ? ? ? ? Hl Hs HL E1 E2 E3 E4]; subst.
  - rewrite Hl. cbn [bind]. destruct (K r1 HL) as (s4 & E & Es). unfold tellg. cbn [good good_stream eofbit failbit negb andb rest]. fold (good_stream r1). rewrite E. cbn [bind orb]. rewrite Es. reflexivity.
  - rewrite Hl. cbn [bind]. destruct (K r HL) as (s4 & E & Es). cbn [rest good_stream]. unfold seekg at 1. rewrite Hs. cbn iota. unfold tellg. cbn [good eofbit failbit negb andb rest]. fold (good_stream r).
    rewrite E. cbn [bind orb]. rewrite Es. reflexivity.
Qed.
Lemma file_body get_function args p t0 body : map_ok args -> writable args -> parse_input (get_name_in (in_param p)) = in_param p ->
  get_function args (mkParameters (dimX p) (dimY p) (in_param p) UNKNOWN_OUTPUT) = Ok t0 ->
  tload_function lex junk get_function (save_header args p ++ body) =
  (do r <- tload lex junk t0 (good_stream (nl :: body)); let '(b, g, _) := r in Ok (if b then Some g else None)).
Proof.
  intros Hm Hw Hn Hg. unfold tload_function, save_header. rewrite <- !app_assoc.
  set (tail := endl [] ++ body).
  unfold getline. unfold endl at 1. rewrite <- app_assoc. cbn [app].
  rewrite split_line_app by (vm_compute; intros H; repeat (destruct H as [H|H]; [discriminate|]); destruct H).
  change (str_eqb (lit "#ALTA FUNC HEADER") (lit "#ALTA FUNC HEADER")) with true. cbn [negb good eofbit failbit andb rest].
  match goal with |- context[parse_header_loop (S (length ?b)) {| rest := ?b; eofbit := false; failbit := false |} []] =>
    change (parse_header_loop (S (length b)) {| rest := b; eofbit := false; failbit := false |} []) with (parse_header b) end.
  rewrite (func_header args p tail); [|assumption|intros (x & Hx); discriminate].
  set (h := [(lit "CMD", skip_ws (get_cmd args)); (lit "DIM", print_nat (dimX p) ++ lit " " ++ print_nat (dimY p)); (lit "PARAM_IN", get_name_in (in_param p))] : arguments).
  rewrite (get_pair_dim (dimX p) (dimY p) h) by reflexivity.
  change (map_find "CMD"%string h) with (Some (skip_ws (get_cmd args))). cbn iota.
  rewrite create_arguments_skip, cmd_roundtrip by assumption. cbn [bind].
  change (get_string h "PARAM_IN"%string "UNKNOWN_INPUT"%string) with (c_str (get_name_in (in_param p))). assert (EC : c_str (get_name_in (in_param p)) = get_name_in (in_param p)) by (destruct (in_param p); reflexivity). rewrite EC, Hn, !Nat2Z.id.
  change (parse_output (get_string h "PARAM_OUT"%string "UNKNOWN_OUTPUT"%string)) with UNKNOWN_OUTPUT.
  rewrite Hg. reflexivity.
Qed.
Lemma file_other get_function line r : ~ In nl line -> line <> lit "#ALTA FUNC HEADER" -> tload_function lex junk get_function (line ++ nl :: r) = Ok None.
Proof.
  intros H Hne. unfold tload_function, getline. rewrite split_line_app by assumption.
  destruct (str_eqb_spec line "#ALTA FUNC HEADER"%string) as [E|_]; [contradiction|reflexivity].
Qed.
End Members.

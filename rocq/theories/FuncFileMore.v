(** Function files: what is refused (C29). *)
From Coq Require Import Reals List Lia Lra.
From Verif Require Import Base Num ParamsModel GeoModel GeoSpec ArgsModel ArgsSpec ArgsProofs ParamsProofs DataModel DataSpec DataProofs DataBinary TextModel TextProofs TextRound FuncModel FuncProofs FuncFile FuncFileSpec FuncFileProofs.
Open Scope R_scope.

Section More.
Variable lex : str -> option (R * str).

(** another kind of function *)
Lemma other_function l p w name post : newlines w -> solid name -> name <> lit "nonlinear_function" ->
  load lex (Leaf l p) (good_stream (w ++ lit "#FUNC " ++ name ++ nl :: post)) = Ok (false, Leaf l p, good_stream (nl :: post)).
Proof.
  intros Hw [Hn Hs] Hne. cbn [load]. unfold load_leaf.
  replace (w ++ lit "#FUNC " ++ name ++ nl :: post) with (w ++ "#"%char :: (lit "FUNC " ++ name ++ nl :: post)) by reflexivity.
  rewrite skip_newlines; [|assumption|cbn [rest good_stream]; rewrite app_length; lia]. cbn [negb].
  change ("#"%char :: lit "FUNC " ++ name ++ nl :: post) with ([] ++ lit "#FUNC" ++ ([" "%char] ++ name ++ nl :: post)).
  rewrite scan_string_word; [|reflexivity|discriminate|repeat constructor|reflexivity|discriminate].
  change (str_eqb (lit "#FUNC") (lit "#FUNC")) with true. cbn iota.
  rewrite scan_string_word; [|reflexivity|assumption|assumption|reflexivity|discriminate].
  destruct (str_eqb_spec name "nonlinear_function"%string) as [E|_]; [contradiction|reflexivity].
Qed.
(** another tag *)
Lemma other_tag l p w tag post : newlines w -> solid ("#"%char :: tag) -> "#"%char :: tag <> lit "#FUNC" ->
  load lex (Leaf l p) (good_stream (w ++ ("#"%char :: tag) ++ nl :: post)) = Ok (false, Leaf l p, good_stream (nl :: post)).
Proof.
  intros Hw [Hn Hs] Hne. cbn [load]. unfold load_leaf. cbn [app]. rewrite skip_newlines; [|assumption|cbn [rest good_stream]; rewrite app_length; lia]. cbn [negb].
  change ("#"%char :: tag ++ nl :: post) with ([] ++ ("#"%char :: tag) ++ nl :: post).
  rewrite scan_string_word; [|reflexivity|assumption|assumption|reflexivity|discriminate].
  destruct (str_eqb_spec ("#"%char :: tag) "#FUNC"%string) as [E|_]; [contradiction|reflexivity].
Qed.

Lemma load_loop_loads r fs bs gs r' : Loads (load lex) r (map snd fs) bs gs r' -> forall n,
  load_loop (load lex) fs n (good_stream r) = Ok ((n + length (filter (fun b : bool => b) bs))%nat, combine (map fst fs) gs, good_stream r').
Proof.
  remember (map snd fs) as ts eqn:Et. intros H. revert fs Et. induction H as [r|r f g r1 ts bs gs r' Hl HL IH|r f g s ts bs gs r' Hl Hs HL IH]; intros fs Et n.
  - destruct fs; [|discriminate]. cbn. rewrite Nat.add_0_r. reflexivity.
  - destruct fs as [|[b t] fs]; [discriminate|]. cbn [map snd] in Et. injection Et as -> Et.
    cbn [load_loop fst snd]. unfold tellg. cbn [good good_stream eofbit failbit negb andb]. fold (good_stream r). rewrite Hl. cbn [bind].
    rewrite (IH _ Et). cbn [bind]. cbn [map fst combine filter length]. do 3 f_equal. lia.
  - destruct fs as [|[b t] fs]; [discriminate|]. cbn [map snd] in Et. injection Et as -> Et.
    cbn [load_loop fst snd]. unfold tellg. cbn [good good_stream eofbit failbit negb andb rest]. fold (good_stream r). rewrite Hl. cbn [bind].
    unfold seekg. rewrite Hs. fold (good_stream r). rewrite (IH _ Et). reflexivity.
Qed.
Lemma filter_existsb bs : (0 <? length (filter (fun b : bool => b) bs))%nat = existsb (fun b : bool => b) bs.
Proof. induction bs as [|b bs IH]; [reflexivity|]. destruct b; [reflexivity|]. cbn [filter existsb orb]. exact IH. Qed.
Lemma load_compound par fs r bs gs r' : Loads (load lex) r (map snd fs) bs gs r' ->
  load lex (Compound par fs) (good_stream r) = Ok (existsb (fun b : bool => b) bs, Compound par (combine (map fst fs) gs), good_stream r').
Proof. intros H. cbn [load]. rewrite (load_loop_loads _ _ _ _ _ H). cbn [bind plus]. rewrite filter_existsb. reflexivity. Qed.
Lemma load_product par x1 x2 f1 f2 r b1 b2 g1 g2 r' : Loads (load lex) r [f1; f2] [b1; b2] [g1; g2] r' ->
  load lex (Product par x1 x2 f1 f2) (good_stream r) = Ok (b1 || b2, Product par x1 x2 g1 g2, good_stream r').
Proof.
  intros H. cbn [load]. unfold tellg at 1. cbn [good good_stream eofbit failbit negb andb]. fold (good_stream r).
  assert (K : forall r1, Loads (load lex) r1 [f2] [b2] [g2] r' -> exists s4, load lex f2 (good_stream r1) = Ok (b2, g2, s4) /\ (if b2 then s4 else seekg (Some r1) s4) = good_stream r').
  { intros r1 H1. inversion H1 as [|? ? ? r2 ? ? ? ? Hl HL E1 E2 E3 E4|? ? ? s ? ? ? ? Hl Hs HL E1 E2 E3 E4]; subst; inversion HL; subst; eexists; (split; [exact Hl|]); [reflexivity|]. unfold seekg. rewrite Hs. reflexivity. }
  inversion H as [|? ? ? r1 ? ? ? ? Hl HL E1 E2 E3 E4|? ? ? s ? ? ? ? Hl Hs HL E1 E2 E3 E4]; subst.
  - rewrite Hl. cbn [bind]. destruct (K r1 HL) as (s4 & E & Es). unfold tellg. cbn [good good_stream eofbit failbit negb andb rest]. fold (good_stream r1). rewrite E. cbn [bind orb]. rewrite Es. reflexivity.
  - rewrite Hl. cbn [bind]. destruct (K r HL) as (s4 & E & Es). cbn [rest good_stream]. unfold seekg at 1. rewrite Hs. cbn iota. unfold tellg. cbn [good eofbit failbit negb andb rest]. fold (good_stream r).
    rewrite E. cbn [bind orb]. rewrite Es. reflexivity.
Qed.

(** a file with a header *)
Lemma load_function_body get_function args p t0 body : map_ok args -> writable args ->
  parse_input (get_name_in (in_param p)) = in_param p ->
  get_function args (mkParameters (dimX p) (dimY p) (in_param p) UNKNOWN_OUTPUT) = Ok t0 ->
  load_function lex get_function (save_header args p ++ body) =
  (do r <- load lex t0 (good_stream (nl :: body)); let '(b, g, _) := r in Ok (if b then Some g else None)).
Proof.
  intros Hm Hw Hn Hg. unfold load_function, save_header. rewrite <- !app_assoc.
  set (tail := endl [] ++ body).
  unfold getline. unfold endl at 1. rewrite <- app_assoc. cbn [app].
  rewrite split_line_app by (vm_compute; intros H; repeat (destruct H as [H|H]; [discriminate|]); destruct H).
  change (str_eqb (lit "#ALTA FUNC HEADER") (lit "#ALTA FUNC HEADER")) with true. cbn [negb good eofbit failbit andb rest].
  match goal with |- context[parse_header_loop (S (length ?b)) {| rest := ?b; eofbit := false; failbit := false |} []] =>
    change (parse_header_loop (S (length b)) {| rest := b; eofbit := false; failbit := false |} []) with (parse_header b) end.
  rewrite (func_header args p tail); [|assumption|intros (x & Hx); discriminate].
  set (h := [(lit "CMD", skip_ws (get_cmd args)); (lit "DIM", print_nat (dimX p) ++ lit " " ++ print_nat (dimY p)); (lit "PARAM_IN", get_name_in (in_param p))] : arguments).
  rewrite (get_pair_dim (dimX p) (dimY p) h) by reflexivity.
  change (map_find "CMD"%string h) with (Some (skip_ws (get_cmd args))). cbn iota.
  rewrite create_arguments_skip, cmd_roundtrip by assumption. cbn [bind].
  change (get_string h "PARAM_IN"%string "UNKNOWN_INPUT"%string) with (c_str (get_name_in (in_param p))). assert (EC : c_str (get_name_in (in_param p)) = get_name_in (in_param p)) by (destruct (in_param p); reflexivity). rewrite EC, Hn, !Nat2Z.id.
  change (parse_output (get_string h "PARAM_OUT"%string "UNKNOWN_OUTPUT"%string)) with UNKNOWN_OUTPUT.
  rewrite Hg. reflexivity.
Qed.
Lemma file_without_header get_function line r : ~ In nl line -> line <> lit "#ALTA FUNC HEADER" -> load_function lex get_function (line ++ nl :: r) = Ok None.
Proof.
  intros H Hne. unfold load_function, getline. rewrite split_line_app by assumption.
  destruct (str_eqb_spec line "#ALTA FUNC HEADER"%string) as [E|_]; [contradiction|reflexivity].
Qed.
End More.

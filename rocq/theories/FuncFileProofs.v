(** Function files: saving then loading (C29). *)
From Coq Require Import Reals List Lia Lra.
From Verif Require Import Base Num ParamsModel GeoModel GeoSpec ArgsModel ArgsSpec ArgsProofs ParamsProofs DataModel DataSpec DataProofs DataBinary TextModel TextProofs TextRound FuncModel FuncProofs FuncFile FuncFileSpec.
Open Scope R_scope.

Section Round.
Variable lex : str -> option (R * str).
Variable print : R -> str.
Variable rnd : R -> R.
Hypothesis Hprint : prints lex print rnd.

Lemma skip_newlines w : newlines w -> forall r fuel, (length w < fuel)%nat ->
  skip_lines fuel (good_stream (w ++ "#"%char :: r)) = (true, good_stream ("#"%char :: r)).
Proof.
  intros H r. induction H as [|c w Ec _ IH]; intros fuel Hf; (destruct fuel as [|fuel]; [cbn in Hf; lia|]).
  - reflexivity.
  - subst c. cbn [app skip_lines]. change (skip_lines fuel (good_stream (w ++ "#"%char :: r)) = (true, good_stream ("#"%char :: r))).
    apply IH. cbn in Hf. lia.
Qed.

Lemma scan_string_word w t r : forallb is_space w = true -> t <> [] -> Forall (fun c => is_space c = false) t -> space_head r -> r <> [] ->
  scan_string (good_stream (w ++ t ++ r)) = (Some t, good_stream r).
Proof.
  intros Hw Hn Ht Hr Hr'. unfold scan_string, good_stream. cbn [good rest eofbit failbit negb andb].
  rewrite skip_ws_spaces by assumption. destruct t as [|c t]; [congruence|]. inversion Ht as [|? ? Hc Ht']; subst.
  assert (E : skip_ws ((c :: t) ++ r) = (c :: t) ++ r) by (cbn [app skip_ws]; rewrite Hc; reflexivity). rewrite E.
  pose proof (take_token_app (c :: t) r Ht Hr) as T. cbn [app] in *. rewrite T. destruct r; [congruence|reflexivity].
Qed.

Lemma digits_no_space n : Forall (fun c => is_space c = false) (print_nat n).
Proof.
  unfold print_nat. pose proof (print_N_digits (N.of_nat n)) as H. apply Forall_forall. intros c Hc. rewrite Forall_forall in H. specialize (H c Hc).
  destruct (is_space c) eqn:E; [|reflexivity]. apply digit_not_space in H. congruence.
Qed.

Lemma read_params_text p : forall i post,
  read_params lex (length p) (good_stream (nl :: params_text print i p ++ nl :: post)) = Ok (map rnd p, good_stream (nl :: nl :: post)).
Proof.
  induction p as [|v p IH]; intros i post; [reflexivity|]. cbn [length read_params params_text map].
  unfold endl. rewrite <- !app_assoc. cbn [app].
  replace (nl :: lit "param_" ++ print_nat (S i) ++ tab :: print v ++ nl :: params_text print (S i) p ++ nl :: post)
    with ([nl] ++ (lit "param_" ++ print_nat (S i)) ++ tab :: print v ++ nl :: params_text print (S i) p ++ nl :: post)
    by (cbn [app]; rewrite <- app_assoc; reflexivity).
  rewrite scan_string_word; [|reflexivity|discriminate| |reflexivity|discriminate].
  2: { apply Forall_app. split; [repeat constructor|apply digits_no_space]. }
  destruct (Hprint v) as ((c & t & Ec & Hc & _) & _ & Hl).
  unfold scan_double at 1, good_stream. cbn [good rest eofbit failbit negb andb skip_ws].
  change (is_space tab) with true. cbn iota.
  assert (E : forall r, skip_ws (print v ++ r) = print v ++ r) by (intros r; rewrite Ec; cbn [app skip_ws]; rewrite Hc; reflexivity).
  rewrite E. pose proof (Hl nl (params_text print (S i) p ++ nl :: post) eq_refl) as L. rewrite Ec in L |- *. cbn [app] in L |- *. rewrite L.
  fold (good_stream (nl :: params_text print (S i) p ++ nl :: post)). rewrite IH. reflexivity.
Qed.

Lemma load_leaf_text p w post : newlines w ->
  load_leaf lex (length p) (good_stream (w ++ leaf_text print p ++ post)) = Ok (Some (map rnd p), good_stream (nl :: nl :: post)).
Proof.
  intros Hw. unfold load_leaf, leaf_text, endl.
  rewrite <- !app_assoc. cbn [app].
  set (r := params_text print 0 p ++ nl :: post).
  replace (w ++ lit "#FUNC nonlinear_function" ++ nl :: r) with (w ++ "#"%char :: (lit "FUNC nonlinear_function" ++ nl :: r)) by reflexivity.
  rewrite skip_newlines; [|assumption|cbn [rest good_stream]; rewrite app_length; lia].
  cbn [negb].
  change ("#"%char :: lit "FUNC nonlinear_function" ++ nl :: r) with ([] ++ lit "#FUNC" ++ ([" "%char] ++ lit "nonlinear_function" ++ nl :: r)).
  rewrite scan_string_word; [|reflexivity|discriminate|repeat constructor|reflexivity|discriminate].
  change (str_eqb (lit "#FUNC") (lit "#FUNC")) with true. cbn iota.
  rewrite scan_string_word; [|reflexivity|discriminate|repeat constructor|reflexivity|discriminate].
  change (str_eqb (lit "nonlinear_function") (lit "nonlinear_function")) with true. cbn iota.
  unfold r. rewrite read_params_text. reflexivity.
Qed.

Lemma newlines2 : newlines [nl; nl]. Proof. repeat constructor. Qed.

Theorem load_saved : forall t t0 w post, same_shape t0 t -> savable t -> newlines w ->
  load lex t0 (good_stream (w ++ save_call print t ++ post)) = Ok (true, map_params (map rnd) t, good_stream (nl :: nl :: post)).
Proof.
  unfold same_shape.
  induction t as [l p|par fs IH|par x1 x2 f1 f2 IH1 IH2] using tree_ind'; intros t0 w post Hs Hv Hw.
  - destruct t0 as [l0 p0| |]; try discriminate. cbn [map_params] in Hs. injection Hs as ->.
    cbn [load save_call savable] in *. rewrite <- Hv. rewrite load_leaf_text by assumption. reflexivity.
  - destruct t0 as [|par0 gs|]; try discriminate. cbn [map_params] in Hs. injection Hs as -> Hs. cbn [load save_call].
    destruct Hv as [Hne Hv].
    assert (L : forall gs n w, map (fun f : bool * tree => (fst f, map_params (fun _ => []) (snd f))) gs =
        map (fun f : bool * tree => (fst f, map_params (fun _ => []) (snd f))) fs -> newlines w ->
      exists w', newlines w' /\ (fs <> [] -> w' = [nl; nl]) /\
      load_loop (load lex) gs n (good_stream (w ++ flat_map (fun f : bool * tree => save_call print (snd f)) fs ++ post)) =
        Ok ((n + length fs)%nat, map (fun f : bool * tree => (fst f, map_params (map rnd) (snd f))) fs, good_stream (w' ++ post))).
    { clear Hs Hw w gs Hne. induction IH as [|[b f] fs Hf _ IHfs]; intros gs n w Hs Hw.
      - destruct gs; [|discriminate]. exists w. split; [assumption|]. split; [congruence|]. cbn. rewrite Nat.add_0_r. reflexivity.
      - destruct gs as [|[b0 g] gs]; [discriminate|]. cbn [map fst snd] in Hs. injection Hs as -> Hg Hs. destruct Hv as [Hv1 Hv2]. cbn [fst snd] in *.
        cbn [load_loop flat_map fst snd]. rewrite <- app_assoc. unfold tellg. cbn [good good_stream eofbit failbit negb andb].
        fold (good_stream (w ++ save_call print f ++ flat_map (fun f : bool * tree => save_call print (snd f)) fs ++ post)).
        rewrite Hf by assumption. cbn [bind].
        destruct (IHfs Hv2 gs (S n) [nl; nl] Hs newlines2) as (w' & W1 & W2 & E). cbn [app] in E. rewrite E. cbn [bind].
        exists w'. split; [assumption|]. split; [|cbn [length map fst snd]; rewrite Nat.add_succ_r; reflexivity].
        intros _. destruct fs as [|f2 fs]; [|apply W2; discriminate].
        destruct gs; [|discriminate]. cbn in E. apply Ok_inj in E. injection E as _ E. assert (E' : w' ++ post = [nl; nl] ++ post) by (first [exact E|symmetry; exact E]). apply app_inv_tail in E'. exact E'. }
    destruct (L gs 0%nat w Hs Hw) as (w' & W1 & W2 & E). rewrite E. cbn [bind]. rewrite (W2 Hne). cbn [map_params app plus].
    destruct fs; [congruence|reflexivity].
  - destruct t0 as [| |par0 y1 y2 g1 g2]; try discriminate. cbn [map_params] in Hs. injection Hs as -> -> -> Hs1 Hs2.
    destruct Hv as [Hv1 Hv2]. cbn [load save_call]. rewrite <- app_assoc. unfold tellg at 1. cbn [good good_stream eofbit failbit negb andb].
    fold (good_stream (w ++ save_call print f1 ++ save_call print f2 ++ post)). rewrite IH1 by assumption. cbn [bind].
    unfold tellg. cbn [good good_stream eofbit failbit negb andb].
    pose proof (IH2 g2 [nl; nl] post Hs2 Hv2 newlines2) as E. cbn [app] in E. rewrite E. reflexivity.
Qed.

Lemma body_newlines t : newlines (save_body t).
Proof.
  unfold newlines. induction t as [l p|par fs IH|par x1 x2 f1 f2 IH1 IH2] using tree_ind'; cbn [save_body].
  - constructor.
  - induction IH as [|f fs Hf _ IHfs]; [constructor|]. cbn [flat_map]. rewrite <- app_assoc. apply Forall_app. split; [assumption|]. cbn. constructor; [reflexivity|assumption].
  - apply Forall_app. split; [assumption|]. constructor; [reflexivity|]. apply Forall_app. split; [assumption|repeat constructor].
Qed.

(** ** The header *)
Lemma skip_ws_idem s : skip_ws (skip_ws s) = skip_ws s.
Proof. induction s as [|c s IH]; [reflexivity|]. cbn [skip_ws]. destruct (is_space c) eqn:E; [assumption|]. cbn [skip_ws]. rewrite E. reflexivity. Qed.
Lemma skip_ws_head s : match skip_ws s with [] => True | c :: _ => is_space c = false end.
Proof. induction s as [|c s IH]; [exact I|]. cbn [skip_ws]. destruct (is_space c) eqn:E; assumption. Qed.
Lemma scan_token_shrinks s tok r : scan_token s = (tok, r) -> r <> [] -> (length r < length s)%nat.
Proof.
  intros E Hr. pose proof (scan_token_len s) as L. rewrite E in L. cbn [fst snd] in L.
  destruct tok as [|c tok]; [|cbn in L; lia]. unfold scan_token in E. pose proof (skip_ws_head s) as H.
  destruct (skip_ws s) as [|c s']; [cbn in E; congruence|]. cbn [take_token] in E. rewrite H in E. destruct (take_token s'). discriminate.
Qed.
Lemma tokenize_fuel : forall f1 f2 s, (length s < f1)%nat -> (length s < f2)%nat -> tokenize f1 s = tokenize f2 s.
Proof.
  induction f1 as [|f1 IH]; intros [|f2] s H1 H2; try lia. cbn [tokenize].
  destruct (scan_token s) as [tok r] eqn:E. destruct r as [|c r]; [reflexivity|].
  apply scan_token_shrinks in E; [|discriminate]. f_equal. apply IH; lia.
Qed.
Lemma create_arguments_skip s : create_arguments (skip_ws s) = create_arguments s.
Proof.
  unfold create_arguments. f_equal. f_equal. pose proof (skip_ws_len s) as L.
  rewrite (tokenize_fuel _ (S (length s)) (skip_ws s)) by lia.
  cbn [tokenize]. unfold scan_token. rewrite skip_ws_idem. reflexivity.
Qed.
Lemma cmd_one_line m : writable m -> Forall (fun c => c <> nl /\ c <> cr) (get_cmd m).
Proof.
  intros H.
  assert (N : forall t, word t -> Forall (fun c => c <> nl /\ c <> cr) t).
  { intros t [_ Ht]. eapply Forall_impl; [|exact Ht]. cbn. intros c [Hc _]. split; intros ->; discriminate. }
  induction H as [|[k v] m [Hk (g & Ev & Hg & _)] _ IH]; [constructor|]. cbn [fst snd] in *. subst v. cbn [get_cmd]. destruct k as [|c k]; [assumption|].
  apply Forall_app. split; [repeat constructor; discriminate|]. apply Forall_app. split; [apply N; assumption|].
  constructor; [split; discriminate|]. apply Forall_app. split; [|assumption].
  clear - Hg N. induction Hg as [|t g Ht Hg IH]; [constructor|]. cbn [join]. destruct g as [|t2 g]; [apply N; assumption|].
  apply Forall_app. split; [apply N; assumption|]. apply Forall_app. split; [repeat constructor; discriminate|assumption].
Qed.
Lemma skip_ws_sub s c : In c (skip_ws s) -> In c s.
Proof. induction s as [|d s IH]; [auto|]. cbn [skip_ws]. destruct (is_space d); [intros H; right; auto|auto]. Qed.

Lemma func_header args p r : writable args -> ~ begins "#" r ->
  parse_header (endl (lit "#CMD " ++ get_cmd args) ++
    endl (lit "#DIM " ++ print_nat (dimX p) ++ lit " " ++ print_nat (dimY p)) ++
    endl (lit "#PARAM_IN  " ++ get_name_in (in_param p)) ++ endl (lit "#ALTA HEADER END") ++ r) =
  ([(lit "CMD", skip_ws (get_cmd args)); (lit "DIM", print_nat (dimX p) ++ lit " " ++ print_nat (dimY p)); (lit "PARAM_IN", get_name_in (in_param p))],
   {| rest := r; eofbit := match r with [] => true | _ => false end; failbit := false |}).
Proof.
  intros Hw Hr. pose proof (header_lines_ok p 0 NO_CI) as Hok. pose proof (header_effects p 0 NO_CI) as He.
  unfold header_lines in Hok, He. pose proof (cmd_one_line _ Hw) as HC. rewrite Forall_forall in HC.
  set (l0 := lit "CMD " ++ get_cmd args).
  set (l1 := lit "DIM " ++ print_nat (dimX p) ++ lit " " ++ print_nat (dimY p)) in *.
  set (l2 := lit "PARAM_IN  " ++ get_name_in (in_param p)) in *.
  set (l3 := lit "ALTA HEADER END").
  pose proof (f_equal (fun l => nth 0 l LStop) He) as E1. pose proof (f_equal (fun l => nth 1 l LStop) He) as E2. cbn [map nth] in E1, E2.
  pose proof (Forall_inv Hok) as O1. pose proof (Forall_inv (Forall_inv_tail Hok)) as O2.
  assert (E0 : header_line l0 = LSet (lit "CMD") (skip_ws (get_cmd args))).
  { unfold header_line, l0. assert (ES : scan_token (lit "CMD " ++ get_cmd args) = (lit "CMD", " "%char :: get_cmd args)) by reflexivity.
    change (first_is " " (lit "CMD " ++ get_cmd args)) with false. cbn iota. rewrite ES.
    assert (ET : take_until cr (skip_ws (" "%char :: get_cmd args)) = skip_ws (get_cmd args)).
    { change (skip_ws (" "%char :: get_cmd args)) with (skip_ws (get_cmd args)).
      apply take_until_none. intros H. apply skip_ws_sub in H. destruct (HC _ H). congruence. }
    rewrite ET. reflexivity. }
  assert (O0 : ~ In nl l0 /\ header_line l0 <> LStop).
  { split; [|rewrite E0; discriminate]. unfold l0. intros H. apply in_app_iff in H as [H|H].
    - cbn in H. repeat (destruct H as [H|H]; [discriminate|]). destruct H.
    - destruct (HC _ H). congruence. }
  assert (O3 : ~ In nl l3 /\ header_line l3 <> LStop).
  { split; [|vm_compute; discriminate]. intros H. vm_compute in H. repeat (destruct H as [H|H]; [discriminate|]). destruct H. }
  transitivity (parse_header (concat (map hline [l0; l1; l2; l3]) ++ r)).
  { f_equal. cbn [map concat]. rewrite <- !app_assoc. cbn [app]. unfold hline, endl, l0, l1, l2, l3, lit. cbn [list_ascii_of_string app].
    repeat (rewrite <- app_assoc; cbn [app]). reflexivity. }
  rewrite parse_header_spec; [|exact (Forall_cons _ O0 (Forall_cons _ O1 (Forall_cons _ O2 (Forall_cons _ O3 (Forall_nil _)))))|assumption].
  f_equal. rewrite fold_effect. cbn [map]. rewrite E0, E1, E2. change (header_line l3) with LNone.
  generalize (print_nat (dimX p) ++ lit " " ++ print_nat (dimY p)) (get_name_in (in_param p)) (skip_ws (get_cmd args)).
  intros a b c. vm_compute. reflexivity.
Qed.

(** the file a function was saved to restores it *)
Theorem file_round_trip get_function args t t0 : map_ok args -> writable args -> savable t -> same_shape t0 t ->
  parse_input (get_name_in (in_param (par_of t))) = in_param (par_of t) ->
  get_function args (mkParameters (dimX (par_of t)) (dimY (par_of t)) (in_param (par_of t)) UNKNOWN_OUTPUT) = Ok t0 ->
  load_function lex get_function (save_file print args t) = Ok (Some (map_params (map rnd) t)).
Proof.
  intros Hm Hw Hv Hs Hn Hg. unfold load_function, save_file, save_header. rewrite <- !app_assoc.
  set (p := par_of t) in *.
  set (tail := endl [] ++ save_body t ++ save_call print t ++ endl []).
  unfold getline. unfold endl at 1. rewrite <- app_assoc. cbn [app].
  rewrite split_line_app by (vm_compute; intros H; repeat (destruct H as [H|H]; [discriminate|]); destruct H).
  change (str_eqb (lit "#ALTA FUNC HEADER") (lit "#ALTA FUNC HEADER")) with true. cbn [negb good eofbit failbit andb rest].
  match goal with |- context[parse_header_loop (S (length ?b)) {| rest := ?b; eofbit := false; failbit := false |} []] =>
    change (parse_header_loop (S (length b)) {| rest := b; eofbit := false; failbit := false |} []) with (parse_header b) end.
  rewrite (func_header args p tail); [|assumption|intros (x & Hx); discriminate].
  set (h := [(lit "CMD", skip_ws (get_cmd args)); (lit "DIM", print_nat (dimX p) ++ lit " " ++ print_nat (dimY p)); (lit "PARAM_IN", get_name_in (in_param p))] : arguments).
  rewrite (get_pair_dim (dimX p) (dimY p) h) by reflexivity.
  change (map_find "CMD"%string h) with (Some (skip_ws (get_cmd args))). cbn iota.
  rewrite create_arguments_skip, cmd_roundtrip by assumption. cbn [bind].
  change (get_string h "PARAM_IN"%string "UNKNOWN_INPUT"%string) with (c_str (get_name_in (in_param p))). assert (EC : c_str (get_name_in (in_param p)) = get_name_in (in_param p)) by (destruct (in_param p); reflexivity). rewrite EC, Hn, !Nat2Z.id.
  change (parse_output (get_string h "PARAM_OUT"%string "UNKNOWN_OUTPUT"%string)) with UNKNOWN_OUTPUT.
  rewrite Hg. cbn [bind]. change (tail) with (nl :: save_body t ++ save_call print t ++ endl []). cbn iota.
  change (nl :: save_body t ++ save_call print t ++ endl []) with ((nl :: save_body t) ++ save_call print t ++ endl []).
  fold (good_stream ((nl :: save_body t) ++ save_call print t ++ endl [])).
  rewrite load_saved; [reflexivity|assumption|assumption|]. constructor; [reflexivity|apply body_newlines].
Qed.
End Round.

(** a file that ends before the parameters: the vector is used uninitialised *)
Theorem missing_parameters lex l p w : newlines w -> (0 < lf_nb l)%nat ->
  load lex (Leaf l p) (good_stream (w ++ endl (lit "#FUNC nonlinear_function"))) = UB.
Proof.
  intros Hw Hn. cbn [load]. unfold load_leaf.
  change (w ++ endl (lit "#FUNC nonlinear_function")) with (w ++ "#"%char :: endl (lit "FUNC nonlinear_function")).
  rewrite skip_newlines; [|assumption|cbn [rest good_stream]; rewrite app_length; lia].
  destruct (lf_nb l) as [|n]; [lia|]. reflexivity.
Qed.

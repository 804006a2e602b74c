From Coq Require Import Reals List ZArith Lia.
From Verif Require Import Base Num ParamsModel GeoModel ArgsModel ArgsSpec ArgsProofs DataModel TextModel TextRound FuncModel FuncSpec FuncProofs FuncFile FuncFileSpec FuncFileProofs FuncFileMore PlugModel DataProofs MonoModel RatModel RatSpec RatFile ToolModel ToolFiles PyFileModel.
Import ListNotations.

Lemma header_stream : forall fuel s m m', snd (parse_header_loop fuel s m) = snd (parse_header_loop fuel s m').
Proof.
  induction fuel as [|fuel IH]; intros s m m'; [reflexivity|]. cbn [parse_header_loop].
  destruct (good s); [|reflexivity]. destruct (rest s) as [|c t]; [reflexivity|]. destruct (aeqb c "#"); [|reflexivity].
  destruct (getline t) as [line s']. destruct (header_line line); [apply IH|apply IH|reflexivity].
Qed.
Lemma split_shrinks t : forall l r, split_line t = (l, Some r) -> t = l ++ nl :: r.
Proof.
  induction t as [|c t IH]; intros l r E; cbn [split_line] in E; [discriminate|].
  destruct (aeqb_spec c nl) as [->|N]; [injection E as <- <-; reflexivity|].
  destruct (split_line t) as [l0 [r0|]]; [|discriminate]. injection E as <- <-. cbn [app]. f_equal. apply IH. reflexivity.
Qed.
Lemma split_all t : forall l, split_line t = (l, None) -> t = l.
Proof.
  induction t as [|c t IH]; intros l E; cbn [split_line] in E; [congruence|].
  destruct (aeqb_spec c nl) as [->|N]; [discriminate|]. destruct (split_line t) as [l0 [r0|]]; [discriminate|].
  injection E as <-. f_equal. apply IH. reflexivity.
Qed.
Lemma getline_length t line s : getline t = (line, s) -> (length (rest s) <= length t)%nat.
Proof.
  unfold getline. destruct (split_line t) as [l [r|]] eqn:E; intros H; injection H as <- <-; cbn [rest]; [|cbn [length]; lia].
  apply split_shrinks in E. subst t. rewrite app_length. cbn [length]. lia.
Qed.
Lemma header_fuel : forall f1 f2 s m, (length (rest s) < f1)%nat -> (length (rest s) < f2)%nat -> parse_header_loop f1 s m = parse_header_loop f2 s m.
Proof.
  induction f1 as [|f1 IH]; intros f2 s m H1 H2; [lia|]. destruct f2 as [|f2]; [lia|]. cbn [parse_header_loop].
  destruct (good s); [|reflexivity]. destruct (rest s) as [|c t]; [reflexivity|]. destruct (aeqb c "#"); [|reflexivity].
  destruct (getline t) as [line s'] eqn:G. pose proof (getline_length _ _ _ G). cbn [length] in H1, H2.
  destruct (header_line line); [apply IH; lia|apply IH; lia|reflexivity].
Qed.
Lemma header_step T r k v b : b = "#"%char :: T ++ nl :: r -> ~ In nl T -> header_line T = LSet k v ->
  parse_header_loop (S (length b)) (open_stream b) [] = parse_header_loop (length b) {| rest := r; eofbit := false; failbit := false |} (map_update k v []).
Proof.
  intros -> N E. set (fuel := length _). cbn [parse_header_loop good open_stream eofbit failbit rest negb andb].
  rewrite aeqb_refl. unfold getline. rewrite split_line_app by assumption. rewrite E. reflexivity.
Qed.
Lemma first_line file line s : getline file = (line, s) -> line = lit "#ALTA FUNC HEADER" ->
  snd (parse_header file) = snd (if good s then parse_header_loop (S (length (rest s))) s [] else ([], s)).
Proof.
  intros G ->. unfold getline in G. destruct (split_line file) as [l [r|]] eqn:E; injection G as -> <-.
  - apply split_shrinks in E. subst file. unfold parse_header. cbn [good eofbit failbit negb andb rest].
    match goal with |- _ = ?R => change (snd (parse_header_loop (S (length (lit "#ALTA FUNC HEADER" ++ nl :: r))) (open_stream (lit "#ALTA FUNC HEADER" ++ nl :: r)) []) = R) end.
    rewrite (header_step (lit "ALTA FUNC HEADER") r (lit "TYPE") (lit "HEADER") (lit "#ALTA FUNC HEADER" ++ nl :: r));
      [|reflexivity|intros H; vm_compute in H; repeat (destruct H as [H|H]; [discriminate|]); destruct H|vm_compute; reflexivity].
    rewrite (header_stream _ _ _ []). f_equal. apply header_fuel; cbn [rest length app]; [rewrite app_length; cbn [length]; lia|lia].
  - apply split_all in E. subst file. cbn [good eofbit failbit negb andb snd]. vm_compute. reflexivity.
Qed.

Section Py.
Variable junk : R.
Variable lex : str -> option (R * str).
Variable print : R -> str.
Variable rnd : R -> R.
Variable sysdir : str.
Variable env : option str.
Variable libs : str -> option (option (parameters -> fobj)).
Variable other_par : nat -> parameters.
Variable other_load : nat -> istream -> outcome (bool * nat).
Variable other_text : nat -> str * outcome unit.
Hypothesis HP : prints lex print rnd.

Lemma like_load_function file g : read_object junk lex sysdir env libs other_load file = Ok (Some g) ->
  exists a p o, get_object sysdir env libs a p = Ok (Some o) /\ py_load junk lex other_load (Some file) o = Ok g.
Proof.
  unfold read_object. destruct (getline file) as [line s] eqn:G. destruct (str_eqb_spec line "#ALTA FUNC HEADER"%string) as [E|_]; [|discriminate]. cbn [negb].
  pose proof (first_line _ _ _ G E) as F. destruct (if good s then _ else _) as [header s1]. cbn [snd] in F.
  destruct (get_pair_int header "DIM"%string) as [[zx zy]|]; [|discriminate].
  match goal with |- context[create_arguments ?x] => destruct (create_arguments x) as [a| | |]; try discriminate end. cbn [bind].
  match goal with |- context[get_object sysdir env libs a ?p] => intros H; exists a, p; destruct (get_object sysdir env libs a p) as [[o|]| | |]; try discriminate end.
  cbn [bind] in H. exists o. split; [reflexivity|]. unfold py_load. destruct (parse_header file) as [m s2]. cbn [snd] in F. subst s2.
  destruct (load_object junk lex other_load o s1) as [[b g']| | |]; try discriminate. cbn [bind] in *. destruct b; [|discriminate]. injection H as ->. reflexivity.
Qed.

Lemma load_after_header a p body o : map_ok a -> writable a ->
  py_load junk lex other_load (Some (save_header a p ++ body)) o = do r <- load_object junk lex other_load o (good_stream (nl :: body)); Ok (snd r).
Proof.
  intros Hm Hw. unfold py_load.
  assert (P : snd (parse_header (save_header a p ++ body)) = good_stream (nl :: body)).
  { unfold save_header. rewrite <- !app_assoc. set (tail := endl [] ++ body).
    assert (G : getline (endl (lit "#ALTA FUNC HEADER") ++ endl (lit "#CMD " ++ get_cmd a) ++ endl (lit "#DIM " ++ print_nat (dimX p) ++ lit " " ++ print_nat (dimY p)) ++ endl (lit "#PARAM_IN  " ++ get_name_in (in_param p)) ++ endl (lit "#ALTA HEADER END") ++ tail)
      = (lit "#ALTA FUNC HEADER", good_stream (endl (lit "#CMD " ++ get_cmd a) ++ endl (lit "#DIM " ++ print_nat (dimX p) ++ lit " " ++ print_nat (dimY p)) ++ endl (lit "#PARAM_IN  " ++ get_name_in (in_param p)) ++ endl (lit "#ALTA HEADER END") ++ tail))).
    { unfold getline. unfold endl at 1. rewrite <- app_assoc. cbn [app]. rewrite split_line_app by (vm_compute; intros H; repeat (destruct H as [H|H]; [discriminate|]); destruct H). reflexivity. }
    rewrite (first_line _ _ _ G eq_refl). cbn [good good_stream eofbit failbit negb andb rest].
    match goal with |- context[parse_header_loop (S (length ?b)) ?s []] =>
      change (parse_header_loop (S (length b)) s []) with (parse_header b) end.
    rewrite (func_header a p tail); [|assumption|intros (x & Hx); discriminate]. reflexivity. }
  destruct (parse_header (save_header a p ++ body)) as [m s]. cbn [snd] in P. subst s. reflexivity.
Qed.

Lemma saved_text t : py_save print other_par other_text (ONl t) = (save_file print [] t, Ok tt).
Proof. unfold py_save, object_text, alta_text, save_file, save_header. change (is_defined [] (lit "export")) with false. change (is_defined [] (lit "export-append")) with false. cbn [snd fst object_par app]. rewrite <- ?app_assoc. reflexivity. Qed.

Lemma load_file a t t0 : map_ok a -> writable a -> savable t -> same_shape t0 t ->
  py_load junk lex other_load (Some (save_file print a t)) (ONl t0) = Ok (ONl (map_params (map rnd) t)).
Proof.
  intros Hm Hw Hv Hs. unfold save_file. rewrite load_after_header by assumption. cbn [load_object].
  change (nl :: save_body t ++ save_call print t ++ endl []) with ((nl :: save_body t) ++ save_call print t ++ endl []).
  rewrite (load_saved lex print rnd HP t t0); [reflexivity|assumption|assumption|]. constructor; [reflexivity|apply body_newlines].
Qed.
Lemma leaf_of_other_plugin a l l' p q : map_ok a -> writable a -> savable (Leaf l p) -> lf_nb l' = lf_nb l ->
  py_load junk lex other_load (Some (save_file print a (Leaf l p))) (ONl (Leaf l' q)) = Ok (ONl (Leaf l' (map rnd p))).
Proof.
  intros Hm Hw Hv Hn. unfold save_file. rewrite load_after_header by assumption. cbn [load_object save_body save_call app].
  change (nl :: leaf_text print p ++ endl []) with ([nl] ++ leaf_text print p ++ endl []).
  cbn [load savable] in *. rewrite Hn, <- Hv. rewrite (load_leaf_text lex print rnd HP); [reflexivity|repeat constructor].
Qed.

Lemma call_start t : savable t -> exists r, save_call print t = lit "#FUNC nonlinear_function" ++ nl :: r.
Proof.
  induction t as [l p|par fs IH|par x1 x2 f1 f2 IH1 IH2] using tree_ind'; intros Hv; cbn [save_call savable] in *.
  - unfold leaf_text, endl. eexists. rewrite <- app_assoc. reflexivity.
  - destruct Hv as [Hn Hv]. destruct fs as [|f fs]; [congruence|]. cbn [fold_right] in Hv. destruct Hv as [H1 _].
    destruct (Forall_inv IH H1) as (r & E). cbn [flat_map]. rewrite E. eexists. rewrite <- app_assoc. reflexivity.
  - destruct Hv as [H1 _]. destruct (IH1 H1) as (r & E). rewrite E. eexists. rewrite <- app_assoc. reflexivity.
Qed.
Lemma rational_refuses f w r : newlines w -> exists s, load_rf junk lex f (good_stream (w ++ lit "#FUNC nonlinear_function" ++ nl :: r)) = Ok (false, f, s).
Proof.
  intros Hw. unfold load_rf.
  replace (w ++ lit "#FUNC nonlinear_function" ++ nl :: r) with (w ++ "#"%char :: (lit "FUNC nonlinear_function" ++ nl :: r)) by reflexivity.
  rewrite skip_newlines; [|assumption|cbn [rest good_stream]; rewrite app_length; lia]. cbn [negb].
  change ("#"%char :: lit "FUNC nonlinear_function" ++ nl :: r) with ([] ++ lit "#FUNC" ++ ([" "%char] ++ lit "nonlinear_function" ++ nl :: r)).
  rewrite scan_string_word; [|reflexivity|discriminate|repeat constructor|reflexivity|discriminate].
  rewrite scan_string_word; [|reflexivity|discriminate|repeat constructor|reflexivity|discriminate].
  destruct (scan_string _) as [[k|] s4]; eexists; reflexivity.
Qed.
Lemma python_file t : savable t ->
  read_object junk lex sysdir env libs other_load (save_file print [] t) = Ok None.
Proof.
  intros Hv. unfold read_object, save_file, save_header. rewrite <- !app_assoc.
  set (p := par_of t) in *.
  set (tail := endl [] ++ save_body t ++ save_call print t ++ endl []).
  unfold getline. unfold endl at 1. rewrite <- app_assoc. cbn [app].
  rewrite split_line_app by (vm_compute; intros H; repeat (destruct H as [H|H]; [discriminate|]); destruct H).
  change (str_eqb (lit "#ALTA FUNC HEADER") (lit "#ALTA FUNC HEADER")) with true. cbn [negb good eofbit failbit andb rest].
  match goal with |- context[parse_header_loop (S (length ?b)) {| rest := ?b; eofbit := false; failbit := false |} []] =>
    change (parse_header_loop (S (length b)) {| rest := b; eofbit := false; failbit := false |} []) with (parse_header b) end.
  rewrite (func_header [] p tail); [|constructor|intros (x & Hx); discriminate].
  set (h := [(lit "CMD", skip_ws (get_cmd [])); (lit "DIM", print_nat (dimX p) ++ lit " " ++ print_nat (dimY p)); (lit "PARAM_IN", get_name_in (in_param p))] : arguments).
  rewrite (get_pair_dim (dimX p) (dimY p) h) by reflexivity.
  change (map_find "CMD"%string h) with (Some (skip_ws (get_cmd []))). cbn iota.
  rewrite create_arguments_skip, cmd_roundtrip by constructor. cbn [bind].
  unfold get_object. rewrite !Nat2Z.id.
  match goal with |- context[get_function sysdir env libs [] ?q] => change (get_function sysdir env libs [] q) with (@Ok fobj (Rational q)) end. cbn [bind load_object dimX dimY].
  destruct (call_start t Hv) as (r & E). unfold tail. rewrite E.
  match goal with |- context[load_rf junk lex ?f {| rest := ?b; eofbit := _; failbit := _ |}] =>
    destruct (rational_refuses f (nl :: save_body t) (r ++ endl [])) as (s & L); [constructor; [reflexivity|apply body_newlines]|];
    assert (X : b = (nl :: save_body t) ++ lit "#FUNC nonlinear_function" ++ nl :: r ++ endl []) by (cbn [endl app]; rewrite <- !app_assoc; reflexivity);
    rewrite X end.
  match goal with |- context[load_rf junk lex _ ?s0] => change s0 with (good_stream ((nl :: save_body t) ++ lit "#FUNC nonlinear_function" ++ nl :: r ++ endl [])) end.
  rewrite L. reflexivity.
Qed.
Lemma rational_file p f channels : rnd 1 = 1%R -> parse_input (get_name_in (in_param p)) = in_param p ->
  f_dimX f = dimX p -> f_dimY f = dimY p -> (0 < f_dimX f)%nat -> length (f_min f) = f_dimX f -> length (f_max f) = f_dimX f ->
  f_rs f = map Some channels -> length channels = f_dimY f -> Forall (channel_ok (f_dimX f)) channels ->
  read_object junk lex sysdir env libs other_load (fst (py_save print other_par other_text (ORat p f))) =
  Ok (Some (ORat (mkParameters (dimX p) (dimY p) (in_param p) UNKNOWN_OUTPUT)
    (mkRf (f_dimX f) (f_dimY f) (map rnd (f_min f)) (map rnd (f_max f)) 0 0
          (map (fun s => Some (mkRf1 (f_dimX f) (fst (inflate (map rnd (f_min f)) (map rnd (f_max f)))) (snd (inflate (map rnd (f_min f)) (map rnd (f_max f))))
                 (round_coeffs rnd (r_p s)) (round_coeffs rnd (r_q s)))) channels)))).
Proof.
  intros R1 Hn Ex Ey Hd Hm HM Er Hl HF.
  destruct (load_save_rf junk lex print rnd HP f channels 0 0 [nl] (endl []) R1 ltac:(repeat constructor) Hd Hm HM Er Hl HF) as (t & S & w' & _ & L).
  unfold py_save, object_text, alta_text. rewrite S. change (is_defined [] (lit "export")) with false. change (is_defined [] (lit "export-append")) with false. cbn [snd fst object_par app].
  unfold read_object. rewrite <- !app_assoc. set (tail := endl [] ++ t ++ endl []).
  unfold getline. unfold endl at 1. rewrite <- app_assoc. cbn [app].
  rewrite split_line_app by (vm_compute; intros H; repeat (destruct H as [H|H]; [discriminate|]); destruct H).
  change (str_eqb (lit "#ALTA FUNC HEADER") (lit "#ALTA FUNC HEADER")) with true. cbn [negb good eofbit failbit andb rest].
  match goal with |- context[parse_header_loop (Datatypes.S (length ?b)) {| rest := ?b; eofbit := false; failbit := false |} []] =>
    change (parse_header_loop (Datatypes.S (length b)) {| rest := b; eofbit := false; failbit := false |} []) with (parse_header b) end.
  rewrite (func_header [] p tail); [|constructor|intros (x & Hx); discriminate].
  set (h := [(lit "CMD", skip_ws (get_cmd [])); (lit "DIM", print_nat (dimX p) ++ lit " " ++ print_nat (dimY p)); (lit "PARAM_IN", get_name_in (in_param p))] : arguments).
  rewrite (get_pair_dim (dimX p) (dimY p) h) by reflexivity.
  change (map_find "CMD"%string h) with (Some (skip_ws (get_cmd []))). cbn iota.
  rewrite create_arguments_skip, cmd_roundtrip by constructor. cbn [bind].
  change (get_string h "PARAM_IN"%string "UNKNOWN_INPUT"%string) with (c_str (get_name_in (in_param p))). assert (EC : c_str (get_name_in (in_param p)) = get_name_in (in_param p)) by (destruct (in_param p); reflexivity). rewrite EC, Hn, !Nat2Z.id.
  change (parse_output (get_string h "PARAM_OUT"%string "UNKNOWN_OUTPUT"%string)) with UNKNOWN_OUTPUT.
  unfold get_object. match goal with |- context[get_function sysdir env libs [] ?q] => change (get_function sysdir env libs [] q) with (@Ok fobj (Rational q)) end. cbn [bind load_object dimX dimY].
  change tail with ([nl] ++ t ++ endl []). cbn iota. rewrite <- Ex, <- Ey.
  match goal with |- context[load_rf junk lex _ ?s0] => change s0 with (good_stream ([nl] ++ t ++ endl [])) end.
  rewrite L. cbn [bind]. rewrite Ex, Ey. reflexivity.
Qed.
Lemma no_header t t0 w : newlines w -> w <> [] -> savable t -> same_shape t0 t ->
  read_object junk lex sysdir env libs other_load (w ++ save_call print t) = Ok None /\
  py_load junk lex other_load (Some (w ++ save_call print t)) (ONl t0) = Ok (ONl (map_params (map rnd) t)).
Proof.
  intros Hw Hn Hv Hs. destruct w as [|c w]; [congruence|]. inversion Hw as [|? ? Ec Hw']. subst c. split; [reflexivity|].
  assert (P : parse_header ((nl :: w) ++ save_call print t) = ([], good_stream ((nl :: w) ++ save_call print t))) by reflexivity.
  unfold py_load. rewrite P. cbn [load_object]. rewrite <- (app_nil_r (save_call print t)). rewrite (load_saved lex print rnd HP t t0) by assumption. reflexivity.
Qed.
Lemma refused a p l q body : map_ok a -> writable a ->
  (forall s, load_leaf lex (lf_nb l) (good_stream (nl :: body)) = Ok (None, s) ->
   py_load junk lex other_load (Some (save_header a p ++ body)) (ONl (Leaf l q)) = Ok (ONl (Leaf l q))).
Proof. intros Hm Hw s H. rewrite load_after_header by assumption. cbn [load_object load]. rewrite H. reflexivity. Qed.
End Py.

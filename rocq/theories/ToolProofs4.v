(** Function files written by the programs: proofs (C108). *)
From Coq Require Import Reals List ZArith Lia.
From Verif Require Import Base Num ParamsModel GeoModel ArgsModel ArgsSpec ArgsProofs DataModel DataProofs TextModel TextProofs TextRound FuncModel FuncProofs FuncFile FuncFileSpec FuncFileProofs FuncFileMore PlugModel MonoModel MonoSpec RatModel RatSpec RatFile ToolModel ToolSpec ToolProofs ToolProofs2 ToolProofs3 ToolFiles.

(** get_function only looks at four options *)
Definition function_keys : list str := [lit "func"; lit "fresnel"; lit "fixed-lobe"; lit "fixed-fresnel"].
Lemma same_keys sysdir env libs (a b : arguments) p : Forall (fun k => map_find k a = map_find k b) function_keys ->
  get_function sysdir env libs a p = get_function sysdir env libs b p.
Proof.
  intros H. assert (K : forall k, In k function_keys -> map_find k a = map_find k b) by (apply Forall_forall; exact H).
  assert (H1 := K (lit "func") (or_introl eq_refl)). assert (H2 := K (lit "fresnel") (or_intror (or_introl eq_refl))).
  assert (H3 := K (lit "fixed-lobe") (or_intror (or_intror (or_introl eq_refl)))). assert (H4 := K (lit "fixed-fresnel") (or_intror (or_intror (or_intror (or_introl eq_refl))))).
  unfold get_function, nesting, at_key. rewrite H1, H2. cbn [get_function_n]. unfold get_function_body, base_function, fresnel_factor, is_defined, is_vec, get_vec_str, at_key, mem in *.
  rewrite H1, H2, H3, H4. reflexivity.
Qed.

Section Files.
Variable junk : R.
Variable lex : str -> option (R * str).
Variable print : R -> str.
Variable rnd : R -> R.
Hypothesis Hprint : prints lex print rnd.
Variable sysdir : str.
Variable env : option str.
Variable libs : str -> option (option (parameters -> fobj)).
Variable other_par : nat -> parameters.
Variable other_load : nat -> istream -> outcome (bool * nat).
Variable other_text : nat -> str * outcome unit.
Notation read_object := (read_object junk lex sysdir env libs other_load).
Notation get_object := (get_object sysdir env libs).
Notation load_object := (load_object junk lex other_load).
Notation object_text := (object_text print other_par other_text).

Lemma read_header args p body : map_ok args -> writable args ->
  parse_input (get_name_in (in_param p)) = in_param p ->
  read_object (save_header args p ++ body) =
  (do o <- get_object args (mkParameters (dimX p) (dimY p) (in_param p) UNKNOWN_OUTPUT);
   match o with None => UB | Some o => do r <- load_object o (good_stream (nl :: body)); let '(b, g) := r in Ok (if b : bool then Some g else None) end).
Proof.
  intros Hm Hw Hn. unfold ToolFiles.read_object, save_header. rewrite <- !app_assoc.
  set (tail := endl [] ++ body).
  unfold getline. unfold endl at 1. rewrite <- app_assoc. cbn [app].
  rewrite split_line_app by (vm_compute; intros H; repeat (destruct H as [H|H]; [discriminate|]); destruct H).
  change (str_eqb (lit "#ALTA FUNC HEADER") (lit "#ALTA FUNC HEADER")) with true. cbn [negb good eofbit failbit andb rest].
  match goal with |- context[parse_header_loop (S (length ?b)) {| rest := ?b; eofbit := false; failbit := false |} []] =>
    change (parse_header_loop (S (length b)) {| rest := b; eofbit := false; failbit := false |} []) with (parse_header b) end.
  rewrite (func_header args p tail); [|assumption|intros (x & Hx); discriminate].
  set (h := [(lit "CMD", skip_ws (get_cmd args)); (lit "DIM", print_nat (dimX p) ++ lit " " ++ print_nat (dimY p)); (lit "PARAM_IN", get_name_in (in_param p))] : arguments).
  rewrite (get_pair_dim (dimX p) (dimY p) h) by reflexivity.
  change (map_find "CMD"%string h) with (Some (skip_ws (get_cmd args))). cbn iota.
  rewrite create_arguments_skip, cmd_roundtrip by assumption. cbn [bind].
  change (get_string h "PARAM_IN"%string "UNKNOWN_INPUT"%string) with (c_str (get_name_in (in_param p))). assert (EC : c_str (get_name_in (in_param p)) = get_name_in (in_param p)) by (destruct (in_param p); reflexivity). rewrite EC, Hn, !Nat2Z.id.
  change (parse_output (get_string h "PARAM_OUT"%string "UNKNOWN_OUTPUT"%string)) with UNKNOWN_OUTPUT. reflexivity.
Qed.

Lemma plain_text (a : arguments) p call text : ~ given a (lit "export") -> ~ given a (lit "export-append") ->
  alta_text a p call = (text, Ok tt) -> text = save_header a p ++ fst call ++ endl [] /\ snd call = Ok tt.
Proof.
  intros H1 H2. apply undefined_given in H1, H2. unfold alta_text, save_header. rewrite H1, H2. cbn [app]. destruct (snd call) as [[]| | |] eqn:E; intros K; try discriminate K.
  assert (K' := f_equal fst K). cbn [fst] in K'. subst text. auto.
Qed.

(** a nonlinear function is read back when the options of the file build its structure *)
Lemma text_tree a t t0 text : ~ given a (lit "export") -> ~ given a (lit "export-append") -> object_text (ONl t) a = (text, Ok tt) ->
  map_ok a -> writable a -> savable t -> same_shape t0 t -> parse_input (get_name_in (in_param (par_of t))) = in_param (par_of t) ->
  get_object a (mkParameters (dimX (par_of t)) (dimY (par_of t)) (in_param (par_of t)) UNKNOWN_OUTPUT) = Ok (Some (ONl t0)) ->
  read_object text = Ok (Some (ONl (map_params (map rnd) t))).
Proof.
  intros E1 E2 H Hm Hw Hv Hs Hn Hg. apply plain_text in H; [|assumption|assumption]. destruct H as [-> _]. apply undefined_given in E1. cbn [fst object_par]. rewrite E1.
  rewrite read_header by assumption. rewrite Hg. cbn [bind]. unfold ToolFiles.load_object.
  replace (nl :: (save_body t ++ save_call print t) ++ endl []) with ((nl :: save_body t) ++ save_call print t ++ endl []) by (cbn [app]; rewrite <- app_assoc; reflexivity).
  rewrite (load_saved lex print rnd Hprint t t0); [reflexivity|assumption|assumption|]. constructor; [reflexivity|apply body_newlines].
Qed.

(** a rational function *)
Lemma text_rational a p f channels text : ~ given a (lit "export") -> ~ given a (lit "export-append") -> object_text (ORat p f) a = (text, Ok tt) ->
  map_ok a -> writable a -> ~ given a (lit "func") -> parse_input (get_name_in (in_param p)) = in_param p ->
  rnd 1 = 1%R -> (0 < f_dimX f)%nat -> f_dimX f = dimX p -> f_dimY f = dimY p -> length (f_min f) = f_dimX f -> length (f_max f) = f_dimX f ->
  f_rs f = map Some channels -> length channels = f_dimY f -> Forall (channel_ok (f_dimX f)) channels ->
  let mn := map rnd (f_min f) in let mx := map rnd (f_max f) in
  read_object text = Ok (Some (ORat (mkParameters (dimX p) (dimY p) (in_param p) UNKNOWN_OUTPUT)
    (mkRf (f_dimX f) (f_dimY f) mn mx 0 0
      (map (fun s => Some (mkRf1 (f_dimX f) (fst (inflate mn mx)) (snd (inflate mn mx)) (round_coeffs rnd (r_p s)) (round_coeffs rnd (r_q s)))) channels)))).
Proof.
  intros E1 E2 H Hm Hw Hk Hn R1 Hd Ex Ey L1 L2 Er Lc HF mn mx. apply plain_text in H; [|assumption|assumption]. destruct H as [-> Es]. apply undefined_given in E1, Hk. cbn [fst object_par].
  rewrite read_header by assumption. unfold ToolFiles.get_object, get_function, get_function_n, get_function_body. cbn [get_function_n]. unfold get_function_body. rewrite Hk. cbn [negb bind dimX dimY]. unfold ToolFiles.load_object.
  destruct (load_save_rf junk lex print rnd Hprint f channels 0 0 [nl] (endl []) R1) as (t & Et & w' & W' & L); try assumption. { repeat constructor. }
  rewrite <- Ex, <- Ey. rewrite Et in *. cbn [fst]. cbn [app] in L. rewrite L. reflexivity.
Qed.

(** a nonlinear function without the option that builds it *)
Lemma call_head t : save_call print t = [] \/ exists r, save_call print t = endl (lit "#FUNC nonlinear_function") ++ r.
Proof.
  induction t as [l p|par fs IH|par x1 x2 f1 f2 IH1 IH2] using tree_ind'.
  - right. eexists. unfold save_call, leaf_text. reflexivity.
  - cbn [save_call]. induction IH as [|f fs Hf HF IHF]; [left; reflexivity|]. cbn [flat_map]. destruct Hf as [->|(r & ->)]; [exact IHF|].
    right. eexists. rewrite <- app_assoc. reflexivity.
  - cbn [save_call]. destruct IH1 as [->|(r & ->)]; [exact IH2|]. right. eexists. rewrite <- app_assoc. reflexivity.
Qed.
Lemma skip_only_newlines w : newlines w -> forall fuel, exists s, skip_lines fuel (good_stream w) = (false, s).
Proof.
  induction 1 as [|c w Hc Hw IH]; intros [|fuel]; try (eexists; reflexivity). subst c. destruct (IH fuel) as (s & E). exists s. rewrite <- E. reflexivity.
Qed.
Lemma rational_refuses f w t : newlines w -> exists s, load_rf junk lex f (good_stream (w ++ save_call print t ++ endl [])) = Ok (false, f, s).
Proof.
  intros Hw. unfold load_rf. destruct (call_head t) as [->|(r & ->)].
  - cbn [app]. assert (Hw' : newlines (w ++ endl [])) by (apply Forall_app; split; [assumption|repeat constructor]).
    destruct (skip_only_newlines _ Hw' (S (length (rest (good_stream (w ++ endl [])))))) as (s & ->). eexists. reflexivity.
  - unfold endl. rewrite <- !app_assoc. cbn [app].
    match goal with |- context[w ++ lit "#FUNC nonlinear_function" ++ nl :: ?u] => set (u0 := u) end.
    change (lit "#FUNC nonlinear_function" ++ nl :: u0) with ("#"%char :: (lit "FUNC nonlinear_function" ++ nl :: u0)).
    rewrite skip_newlines; [|assumption|cbn [rest good_stream]; rewrite app_length; lia]. cbn [negb].
    change ("#"%char :: lit "FUNC nonlinear_function" ++ nl :: u0) with ([] ++ lit "#FUNC" ++ " "%char :: (lit "nonlinear_function" ++ nl :: u0)).
    rewrite scan_word; [|reflexivity|discriminate|repeat constructor|reflexivity].
    change (" "%char :: lit "nonlinear_function" ++ nl :: u0) with ([" "%char] ++ lit "nonlinear_function" ++ nl :: u0).
    rewrite scan_word; [|reflexivity|discriminate|repeat constructor|reflexivity].
    destruct (scan_string (good_stream (nl :: u0))) as [[t3|] s3]; eexists; reflexivity.
Qed.
Lemma text_lost a t text : ~ given a (lit "export") -> ~ given a (lit "export-append") -> object_text (ONl t) a = (text, Ok tt) ->
  map_ok a -> writable a -> ~ given a (lit "func") -> parse_input (get_name_in (in_param (par_of t))) = in_param (par_of t) ->
  read_object text = Ok None.
Proof.
  intros E1 E2 H Hm Hw Hk Hn. apply plain_text in H; [|assumption|assumption]. destruct H as [-> _]. apply undefined_given in E1, Hk. cbn [fst object_par]. rewrite E1.
  rewrite read_header by assumption. unfold ToolFiles.get_object, get_function. cbn [get_function_n]. unfold get_function_body. rewrite Hk. cbn [negb bind]. unfold ToolFiles.load_object.
  replace (nl :: (save_body t ++ save_call print t) ++ endl []) with ((nl :: save_body t) ++ save_call print t ++ endl []) by (cbn [app]; rewrite <- app_assoc; reflexivity).
  edestruct rational_refuses as (s & ->); [|reflexivity]. constructor; [reflexivity|apply body_newlines].
Qed.

(** --export alta *)
Lemma text_export a f text : map_find (lit "export") a = Some (lit "alta") -> (forall i, f <> OOther i) -> object_text f a = (text, Ok tt) -> read_object text = Ok None.
Proof.
  intros E Hf H. unfold ToolFiles.object_text, alta_text in H. assert (D : is_defined a (lit "export") = true) by (unfold is_defined, mem; rewrite E; reflexivity). rewrite D in H. cbn [app] in H.
  assert (G : forall line r, ~ In nl line -> line <> lit "#ALTA FUNC HEADER" -> read_object (line ++ nl :: r) = Ok None).
  { intros line r Hn Hne. unfold ToolFiles.read_object, getline. rewrite split_line_app by assumption. destruct (str_eqb_spec line "#ALTA FUNC HEADER"%string) as [K|_]; [contradiction|reflexivity]. }
  destruct f as [p f|t|i].
  - destruct (save_rf print f) as [t| | |] eqn:S; cbn [fst snd] in H; try discriminate H. assert (K := f_equal fst H). cbn [fst] in K. subst text.
    unfold save_rf in S. destruct (channels_text print (firstn (f_dimY f) (f_rs f))) as [c| | |]; try discriminate S. cbn [bind] in S. apply Ok_inj in S. subst t.
    unfold endl at 1. rewrite <- !app_assoc. cbn [app]. apply G; [vm_compute; intros Q; repeat (destruct Q as [Q|Q]; [discriminate|]); destruct Q|discriminate].
  - cbn [fst snd] in H. assert (K := f_equal fst H). cbn [fst] in K. subst text. rewrite app_nil_r. pose proof (body_newlines t) as N. destruct (save_body t) as [|c b].
    + apply (G [] []); [intros []|discriminate].
    + inversion N; subst. apply (G [] (b ++ endl [])); [intros []|discriminate].
  - destruct (Hf i eq_refl).
Qed.

(** ** The programs *)
Context {D Ft : Type}.
Variable w : world D fun_obj Ft.
Hypothesis Hreal : real_files junk lex print sysdir env libs other_par other_load other_text w.

Lemma written_in (d : disk) name text : w_writable w name = true -> after_write w d name text name = Some text.
Proof. intros H. unfold after_write, put. rewrite H. destruct (str_eqb_spec name name); [reflexivity|contradiction]. Qed.

Definition with_errors (a : arguments) (l2 linf : str) : arguments := ArgsModel.update (ArgsModel.update a (lit "L2") l2) (lit "Linf") linf.
Lemma errors_other a l2 linf k : map_ok a -> k <> lit "L2" -> k <> lit "Linf" -> map_find k (with_errors a l2 linf) = map_find k a.
Proof.
  intros Hm H1 H2. unfold with_errors, ArgsModel.update. rewrite map_find_update by (apply map_update_ok; assumption). rewrite map_find_update by assumption.
  destruct (str_eqb_spec k (lit "Linf")); [congruence|]. destruct (str_eqb_spec k (lit "L2")); [congruence|]. reflexivity.
Qed.
Lemma update_writable k v m : word k -> writable_value v -> writable m -> writable (map_update k v m).
Proof.
  intros Hk Hv. unfold writable. induction 1 as [|[k' v'] m [H H'] HF IH]; cbn [map_update]; [constructor; [split; assumption|constructor]|].
  destruct (str_cmp k k'); repeat (constructor; try assumption).
Qed.
Lemma errors_writable a l2 linf : writable a -> writable_value l2 -> writable_value linf -> writable (with_errors a l2 linf).
Proof.
  intros H H1 H2. unfold with_errors, ArgsModel.update. apply update_writable; [|assumption|apply update_writable; [|assumption|assumption]]; (split; [discriminate|]); repeat constructor; discriminate.
Qed.
Lemma errors_ok a l2 linf : map_ok a -> map_ok (with_errors a l2 linf).
Proof. intros H. apply map_update_ok, map_update_ok, H. Qed.
Lemma errors_object a l2 linf p : map_ok a -> get_object (with_errors a l2 linf) p = get_object a p.
Proof.
  intros H. unfold ToolFiles.get_object. rewrite (same_keys sysdir env libs (with_errors a l2 linf) a p); [reflexivity|].
  repeat constructor; apply errors_other; try assumption; discriminate.
Qed.
Lemma errors_not_given a l2 linf k : map_ok a -> k <> lit "L2" -> k <> lit "Linf" -> ~ given a k -> ~ given (with_errors a l2 linf) k.
Proof. intros Hm H1 H2 H. unfold given in *. rewrite errors_other by assumption. exact H. Qed.

Lemma fit_done argv a d d' : data2brdf w argv d = (d', Ok 0%Z) -> options argv a -> ~ given a (lit "help") -> ~ given a (lit "available_params") ->
  exists x f l2 linf text, fits w d a x f /\ w_L2 w f x = Ok l2 /\ w_Linf w f x = Ok linf /\
    w_function_text w f (with_errors a (w_show w l2) (w_show w linf)) = (text, Ok tt) /\ d' = after_write w d (val a (lit "output")) text.
Proof.
  intros H O H1 H2. apply data2brdf_success in H. destruct H as (a' & O' & H). unfold options in O, O'. rewrite O in O'. apply Ok_inj in O'. subst a'.
  destruct H as [[K _]|(_ & ft & Hf & [[K _]|(_ & _ & _ & ft' & x & f & x1 & f1 & x2 & f2 & l2 & linf & text & A1 & A2 & A3 & A4 & A5 & A6 & A7 & A8 & A9 & ->)])]; try contradiction.
  exists x2, f2, l2, linf, text. split; [|auto]. exists ft, ft', x, f, x1, f1. auto 10.
Qed.

Lemma fit_then_read argv a d d' : data2brdf w argv d = (d', Ok 0%Z) -> options argv a -> ~ given a (lit "help") -> ~ given a (lit "available_params") ->
  ~ given a (lit "export") -> ~ given a (lit "export-append") -> writable a -> (forall r, writable_value (w_show w r)) -> w_writable w (val a (lit "output")) = true ->
  exists x f, fits w d a x f /\
    (forall t t0, f = ONl t -> savable t -> same_shape t0 t -> parse_input (get_name_in (in_param (par_of t))) = in_param (par_of t) ->
       get_object a (mkParameters (dimX (par_of t)) (dimY (par_of t)) (in_param (par_of t)) UNKNOWN_OUTPUT) = Ok (Some (ONl t0)) ->
       holds_function w d' (val a (lit "output")) (ONl (map_params (map rnd) t))) /\
    (forall p g channels, f = ORat p g -> ~ given a (lit "func") -> parse_input (get_name_in (in_param p)) = in_param p ->
       rnd 1 = 1%R -> (0 < f_dimX g)%nat -> f_dimX g = dimX p -> f_dimY g = dimY p -> length (f_min g) = f_dimX g -> length (f_max g) = f_dimX g ->
       f_rs g = map Some channels -> length channels = f_dimY g -> Forall (channel_ok (f_dimX g)) channels ->
       let mn := map rnd (f_min g) in let mx := map rnd (f_max g) in
       holds_function w d' (val a (lit "output")) (ORat (mkParameters (dimX p) (dimY p) (in_param p) UNKNOWN_OUTPUT)
         (mkRf (f_dimX g) (f_dimY g) mn mx 0 0
           (map (fun s => Some (mkRf1 (f_dimX g) (fst (inflate mn mx)) (snd (inflate mn mx)) (round_coeffs rnd (r_p s)) (round_coeffs rnd (r_q s)))) channels)))).
Proof.
  intros H O H1 H2 E1 E2 Hw Hs Hwr. destruct (fit_done argv a d d' H O H1 H2) as (x & f & l2 & linf & text & Hf & _ & _ & Ht & ->). pose proof (argv_map_ok _ _ O) as Hm.
  exists x, f. split; [assumption|]. destruct Hreal as (R1 & R2 & R3).
  set (b := with_errors a (w_show w l2) (w_show w linf)) in *.
  assert (B1 : ~ given b (lit "export")) by (apply errors_not_given; try assumption; discriminate).
  assert (B2 : ~ given b (lit "export-append")) by (apply errors_not_given; try assumption; discriminate).
  assert (B3 : writable b) by (apply errors_writable; auto). assert (B4 : map_ok b) by (apply errors_ok; assumption).
  rewrite R3 in Ht by (left; unfold given in B1; destruct (map_find (lit "export") b) eqn:E; [exfalso; eauto|reflexivity]).
  split.
  - intros t t0 -> Sv Ss Pn Hg. exists text. split; [apply written_in; assumption|]. rewrite R2. apply (text_tree b t t0); try assumption. unfold b. rewrite errors_object by assumption. exact Hg.
  - intros p g channels -> Nf Pn Rn G1 G2 G3 G4 G5 G6 G7 G8. cbv zeta. exists text. split; [apply written_in; assumption|]. rewrite R2. apply (text_rational b p g channels); try assumption.
    apply errors_not_given; try assumption; discriminate.
Qed.

Lemma reexport_done argv a d d' f : brdf2brdf w argv d = (d', Ok 0%Z) -> options argv a -> ~ given a (lit "help") -> holds_function w d (val a (lit "input")) f ->
  exists text, w_function_text w f a = (text, Ok tt) /\ d' = after_write w d (val a (lit "output")) text.
Proof.
  intros H O H1 (c & C1 & C2). apply brdf2brdf_success in H. destruct H as (a' & O' & H). unfold options in O, O'. rewrite O in O'. apply Ok_inj in O'. subst a'.
  destruct H as [[K _]|(_ & _ & _ & f' & text & (c' & C1' & C2') & Ht & ->)]; [contradiction|]. rewrite C1 in C1'. injection C1' as <-. rewrite C2 in C2'.
  assert (E : f' = f) by congruence. subst f'. eauto.
Qed.

Lemma reexport argv a d d' f : brdf2brdf w argv d = (d', Ok 0%Z) -> options argv a -> ~ given a (lit "help") -> holds_function w d (val a (lit "input")) f ->
  ~ given a (lit "export") -> ~ given a (lit "export-append") -> writable a -> w_writable w (val a (lit "output")) = true ->
    (forall t t0, f = ONl t -> savable t -> same_shape t0 t -> parse_input (get_name_in (in_param (par_of t))) = in_param (par_of t) ->
       get_object a (mkParameters (dimX (par_of t)) (dimY (par_of t)) (in_param (par_of t)) UNKNOWN_OUTPUT) = Ok (Some (ONl t0)) ->
       holds_function w d' (val a (lit "output")) (ONl (map_params (map rnd) t))) /\
    (forall p g channels, f = ORat p g -> ~ given a (lit "func") -> parse_input (get_name_in (in_param p)) = in_param p ->
       rnd 1 = 1%R -> (0 < f_dimX g)%nat -> f_dimX g = dimX p -> f_dimY g = dimY p -> length (f_min g) = f_dimX g -> length (f_max g) = f_dimX g ->
       f_rs g = map Some channels -> length channels = f_dimY g -> Forall (channel_ok (f_dimX g)) channels ->
       let mn := map rnd (f_min g) in let mx := map rnd (f_max g) in
       holds_function w d' (val a (lit "output")) (ORat (mkParameters (dimX p) (dimY p) (in_param p) UNKNOWN_OUTPUT)
         (mkRf (f_dimX g) (f_dimY g) mn mx 0 0
           (map (fun s => Some (mkRf1 (f_dimX g) (fst (inflate mn mx)) (snd (inflate mn mx)) (round_coeffs rnd (r_p s)) (round_coeffs rnd (r_q s)))) channels)))) /\
    (forall t, f = ONl t -> ~ given a (lit "func") -> parse_input (get_name_in (in_param (par_of t))) = in_param (par_of t) ->
       exists text, d' (val a (lit "output")) = Some text /\ w_read_function w text = Ok None).
Proof.
  intros H O H1 Hf E1 E2 Hw Hwr. destruct (reexport_done argv a d d' f H O H1 Hf) as (text & Ht & ->). pose proof (argv_map_ok _ _ O) as Hm.
  destruct Hreal as (R1 & R2 & R3). rewrite R3 in Ht by (left; unfold given in E1; destruct (map_find (lit "export") a) eqn:E; [exfalso; eauto|reflexivity]).
  split; [|split].
  - intros t t0 -> Sv Ss Pn Hg. exists text. split; [apply written_in; assumption|]. rewrite R2. apply (text_tree a t t0); assumption.
  - intros p g channels -> Nf Pn Rn G1 G2 G3 G4 G5 G6 G7 G8. cbv zeta. exists text. split; [apply written_in; assumption|]. rewrite R2. apply (text_rational a p g channels); assumption.
  - intros t -> Nf Pn. exists text. split; [apply written_in; assumption|]. rewrite R2. apply (text_lost a t); assumption.
Qed.
(** what becomes of the file with --export alta *)
Lemma reexport_alta argv a d d' f : brdf2brdf w argv d = (d', Ok 0%Z) -> options argv a -> ~ given a (lit "help") -> holds_function w d (val a (lit "input")) f ->
  map_find (lit "export") a = Some (lit "alta") -> (forall i, f <> OOther i) -> w_writable w (val a (lit "output")) = true ->
  exists text, d' (val a (lit "output")) = Some text /\ w_read_function w text = Ok None.
Proof.
  intros H O H1 Hf E Hi Hwr. destruct (reexport_done argv a d d' f H O H1 Hf) as (text & Ht & ->). destruct Hreal as (R1 & R2 & R3). rewrite R3 in Ht by (right; assumption).
  exists text. split; [apply written_in; assumption|]. rewrite R2. apply (text_export a f); assumption.
Qed.
End Files.

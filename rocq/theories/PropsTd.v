(** Property C115: text data files through the programs. *)
From Coq Require Import Reals List Lia Lra ZArith.
From Verif Require Import Base Num ParamsModel GeoModel GeoSpec ArgsModel ArgsSpec DataModel TextModel TextRound ConvModel ConvSpec ToolModel ToolSpec TdModel TdSpec TdProofs PropsConv PropsPf.
Open Scope R_scope.

(** data2data writes the samples of the input file in the new parametrization. *)
Theorem C115_data2data : forall lex stod atof flt_max print junk read_binary F Ft (value : F -> list R -> outcome (list R)) (w : world data_obj F Ft),
  real_data lex stod atof flt_max print junk read_binary value w ->
  forall argv a d content dat pout out, options argv a -> ~ given a (lit "help") -> ~ given a (lit "help-params") -> given a (lit "input") -> given a (lit "output") ->
  segment_class (val a (lit "in-data")) = true -> segment_class (val a (lit "out-data")) = true ->
  d (val a (lit "input")) = Some content -> text_file content -> load_text lex stod atof flt_max content (update a (lit "filename") (val a (lit "input"))) = Ok dat ->
  ConvModel.data2data junk (td_par dat) (val a (lit "param")) (is_defined a (lit "all-values")) (samples_of dat) = Ok (Some (pout, out)) ->
  w_writable w (val a (lit "output")) = true ->
  ToolModel.data2data w argv d = (put d (val a (lit "output")) (save_text print pout out), Ok 0%Z).
Proof. intros lex stod atof flt_max print junk read_binary F Ft value w HW argv a d content dat pout out. eapply data2data_text; eassumption. Qed.
Print Assumptions C115_data2data.

(** Without a new parametrization, data2data copies a file that the library saved, byte for byte. *)
Theorem C115_copy : forall lex stod atof flt_max print junk read_binary F Ft (value : F -> list R -> outcome (list R)) (w : world data_obj F Ft) rnd,
  real_data lex stod atof flt_max print junk read_binary value w -> prints lex print rnd -> reprints print rnd ->
  forall argv a d p l, options argv a -> ~ given a (lit "help") -> ~ given a (lit "help-params") -> given a (lit "input") -> given a (lit "output") -> no_reading_options a ->
  segment_class (val a (lit "in-data")) = true -> segment_class (val a (lit "out-data")) = true ->
  (~ given a (lit "param") \/ val a (lit "param") = get_name_in (in_param p)) ->
  regular p -> named_output (out_param p) -> ~ In (in_param p) no_rule_list -> writable_samples flt_max rnd p l ->
  (given a (lit "all-values") \/ Forall (fun r => visible (map rnd r) (in_param p)) l) ->
  d (val a (lit "input")) = Some (save_text print p l) -> w_writable w (val a (lit "output")) = true ->
  ToolModel.data2data w argv d = (put d (val a (lit "output")) (save_text print p l), Ok 0%Z).
Proof. intros lex stod atof flt_max print junk read_binary F Ft value w rnd HW HP HR argv a d p l. eapply data2data_copy; eassumption. Qed.
Print Assumptions C115_copy.

(** brdf2data writes the values of the function at the samples of the data file. *)
Theorem C115_brdf2data : forall lex stod atof flt_max print junk read_binary F Ft (value : F -> list R -> outcome (list R)) (w : world data_obj F Ft) rnd,
  real_data lex stod atof flt_max print junk read_binary value w -> prints lex print rnd ->
  forall argv a d p l f out, options argv a -> ~ given a (lit "help") -> given a (lit "input") -> given a (lit "output") -> given a (lit "data-file") -> no_reading_options a ->
  segment_class (val a (lit "data")) = true -> regular p -> named_output (out_param p) -> writable_samples flt_max rnd p l -> usable (w_fpar w f) ->
  d (val a (lit "data-file")) = Some (save_text print p l) -> holds_function w d (val a (lit "input")) f ->
  pointwise (exported (w_fpar w f) p (value f) (is_defined a (lit "export-diff"))) (map (map rnd) l) out ->
  w_writable w (val a (lit "output")) = true ->
  ToolModel.brdf2data w argv d = (put d (val a (lit "output")) (save_text print p out), Ok 0%Z).
Proof.
  intros lex stod atof flt_max print junk read_binary F Ft value w rnd HW HP argv a d p l f out O N1 G1 G2 G3 NR C1 Rp Op Hl Hu Hd Hf He Hw.
  destruct (saved_read lex stod atof flt_max print rnd HP p l (update a (lit "filename") (val a (lit "data-file"))) Rp Op Hl (no_reading_update _ _ (ArgsProofs.argv_map_ok _ _ O) NR)) as (dat & E & Ep & El).
  rewrite <- Ep. eapply brdf2data_text; try eassumption.
  - eapply saved_text; [exact HP|destruct Rp as (_ & _ & HY); lia|]. eapply Forall_impl; [|exact Hl]. intros x [Hs _]. unfold sample_of in Hs. lia.
  - rewrite Ep, El. apply C78_export; try assumption. eapply sample_rnd, writable_sample. exact Hl.
Qed.
Print Assumptions C115_brdf2data.

(** brdf2data run again on the file it wrote writes that file. *)
Theorem C115_brdf2data_again : forall lex stod atof flt_max print junk read_binary F Ft (value : F -> list R -> outcome (list R)) (w : world data_obj F Ft) rnd,
  real_data lex stod atof flt_max print junk read_binary value w -> prints lex print rnd -> (forall v, rnd (rnd v) = rnd v) ->
  forall argv a argv2 a2 d p l f out,
  options argv a -> ~ given a (lit "help") -> given a (lit "input") -> given a (lit "output") -> given a (lit "data-file") -> no_reading_options a -> ~ given a (lit "export-diff") ->
  segment_class (val a (lit "data")) = true ->
  regular p -> named_output (out_param p) -> writable_samples flt_max rnd p l -> usable (w_fpar w f) -> (in_param (w_fpar w f) = UNKNOWN_INPUT -> (dimX (w_fpar w f) <= dimX p)%nat) ->
  holds_function w d (val a (lit "input")) f -> d (val a (lit "data-file")) = Some (save_text print p l) -> w_writable w (val a (lit "output")) = true ->
  pointwise (exported (w_fpar w f) p (value f) false) (map (map rnd) l) out -> writable_samples flt_max rnd p out ->
  options argv2 a2 -> ~ given a2 (lit "help") -> given a2 (lit "input") -> given a2 (lit "output") -> given a2 (lit "data-file") -> no_reading_options a2 -> ~ given a2 (lit "export-diff") ->
  segment_class (val a2 (lit "data")) = true -> val a2 (lit "data-file") = val a (lit "output") -> w_writable w (val a2 (lit "output")) = true ->
  val a2 (lit "input") = val a (lit "input") -> val a (lit "input") <> val a (lit "output") ->
  exists d1 text, ToolModel.brdf2data w argv d = (d1, Ok 0%Z) /\ d1 (val a (lit "output")) = Some text /\
    ToolModel.brdf2data w argv2 d1 = (put d1 (val a2 (lit "output")) text, Ok 0%Z).
Proof.
  intros lex stod atof flt_max print junk read_binary F Ft value w rnd HW HP HI argv a argv2 a2 d p l f out O N1 G1 G2 G3 NR ND C1 Rp Op Hl Hu Hp Hf Hd Hw He.
  eapply brdf2data_again; try eassumption. apply C78_export; try assumption. eapply sample_rnd, writable_sample. exact Hl.
Qed.
Print Assumptions C115_brdf2data_again.

(** ** Cases: whole numbers, and the function that gives the height of the incoming direction *)
Definition par_td : parameters := mkParameters 6 1 CARTESIAN INV_STERADIAN.
Definition td_world : world data_obj unit unit :=
  mkWorld data_obj unit unit (fun _ => true) (fun _ => Ok None) (fun _ _ => Ok None)
    (fun _ n p _ => Ok (Some (DSeg p (repeat (repeat 0 (dimX p + dimY p)) n))))
    (fun _ c a => read_segment demo_lex (fun _ => Throw) (fun _ => 0) 1000 (fun _ => Throw) c a)
    (fun c => Ok (if str_eqb c (lit "height") then Some tt else None)) (fun x f _ => Ok (x, f)) (fun _ _ => Ok 0) (fun _ _ => Ok 0) (fun _ => []) (fun _ => 0) (fun _ => [])
    (fun o => match o with DSeg p _ => p | _ => par_td end) (fun o => match o with DSeg _ l => length l | _ => 0%nat end) (fun _ => par_td)
    (fun _ _ => ([], Ok tt)) (fun o => match o with DSeg p l => (save_text demo_print p l, Ok tt) | _ => ([], Ok tt) end) (fun _ => ([], Ok tt)) (fun _ => true) (fun _ => true)
    (fun f _ => Ok f) (fun _ x f _ => Ok (true, x, f))
    (fun x y all => match x, y with DSeg p l, DSeg q m => do out <- splat 0 p q all l m; Ok (DSeg q out) | _, _ => Throw end) (fun x _ => Ok x)
    (fun f o diff => match o with DSeg p l => do out <- ConvModel.brdf2data 0 par_td p (fun x => Ok [nth 2 x 0]) diff l; Ok (DSeg p out) | _ => Throw end)
    (fun _ _ _ _ => ([], Ok tt)) (fun _ _ _ => ([], Ok tt)) (fun _ _ => ([], Ok tt)) (fun _ _ => Throw) (fun _ _ => Throw).
Lemma td_real : real_data demo_lex (fun _ => Throw) (fun _ => 0) 1000 demo_print 0 (fun _ => Throw) (fun _ x => Ok [nth 2 x 0]) td_world.
Proof. repeat split. Qed.
Definition td_rows : list (list R) := [[0; 0; 1; 0; 0; 1; 25]; [3; 0; 4; 0; 3; 4; 47]].
Definition td_disk : disk := fun n => if str_eqb n (lit "in.txt") then Some (save_text demo_print par_td td_rows) else if str_eqb n (lit "f.func") then Some (lit "height") else None.
Lemma td_writable : writable_samples 1000 (fun v => IZR (Int_part v)) par_td td_rows.
Proof. repeat constructor; rewrite whole_numbers; unfold Rabs; destruct (Rcase_abs _); lra. Qed.
Lemma td_reprints : reprints demo_print (fun v => IZR (Int_part v)).
Proof. intros v. unfold demo_print. f_equal. apply eq_IZR. rewrite whole_numbers. reflexivity. Qed.
Lemma no_of (a : arguments) : Forall (fun k => map_find k a = None) reading_options -> no_reading_options a.
Proof. intros H k Hk [v Hv]. rewrite Forall_forall in H. rewrite (H k Hk) in Hv. discriminate. Qed.
Example C115_copy_case : exists d', ToolModel.data2data td_world [lit "data2data"; lit "--input"; lit "in.txt"; lit "--output"; lit "out.txt"; lit "--all-values"] td_disk = (d', Ok 0%Z) /\
  d' (lit "out.txt") = Some (save_text demo_print par_td td_rows).
Proof.
  eexists. split.
  - eapply (C115_copy demo_lex (fun _ => Throw) (fun _ => 0) 1000 demo_print 0 (fun _ => Throw) _ _ _ td_world _ td_real demo_prints td_reprints _ [(lit "all-values", []); (lit "input", lit "in.txt"); (lit "output", lit "out.txt")] td_disk par_td td_rows).
    + reflexivity.
    + intros [v Hv]. discriminate.
    + intros [v Hv]. discriminate.
    + eexists; reflexivity.
    + eexists; reflexivity.
    + apply no_of. repeat constructor.
    + reflexivity.
    + reflexivity.
    + left. intros [v Hv]. discriminate.
    + split; [|split; [reflexivity|cbn; lia]]. apply ConvProofs.named_cart.
    + reflexivity.
    + cbn. intuition discriminate.
    + exact td_writable.
    + left. eexists; reflexivity.
    + reflexivity.
    + reflexivity.
  - reflexivity.
Qed.
Definition td_a1 : arguments := [(lit "data-file", lit "in.txt"); (lit "input", lit "f.func"); (lit "output", lit "o.txt")].
Definition td_a2 : arguments := [(lit "data-file", lit "o.txt"); (lit "input", lit "f.func"); (lit "output", lit "o2.txt")].
Example C115_brdf2data_case : exists d1 d2, 
  ToolModel.brdf2data td_world [lit "brdf2data"; lit "--input"; lit "f.func"; lit "--data-file"; lit "in.txt"; lit "--output"; lit "o.txt"] td_disk = (d1, Ok 0%Z) /\
  d1 (lit "o.txt") = Some (save_text demo_print par_td [[0; 0; 1; 0; 0; 1; 1]; [3; 0; 4; 0; 3; 4; 4]]) /\
  ToolModel.brdf2data td_world [lit "brdf2data"; lit "--input"; lit "f.func"; lit "--data-file"; lit "o.txt"; lit "--output"; lit "o2.txt"] d1 = (d2, Ok 0%Z) /\ d2 (lit "o2.txt") = d1 (lit "o.txt").
Proof.
  set (out := [[0; 0; 1; 0; 0; 1; 1]; [3; 0; 4; 0; 3; 4; 4]]).
  assert (Rp : regular par_td) by (split; [apply ConvProofs.named_cart|split; [reflexivity|cbn; lia]]).
  assert (Uf : usable par_td) by (right; split; [apply ConvProofs.named_cart|reflexivity]).
  assert (Wo : writable_samples 1000 (fun v => IZR (Int_part v)) par_td out) by (repeat constructor; rewrite whole_numbers; unfold Rabs; destruct (Rcase_abs _); lra).
  assert (He : pointwise (exported par_td par_td (fun x => Ok [nth 2 x 0]) false) (map (map (fun v => IZR (Int_part v))) td_rows) out).
  { apply (C78_export 0); try assumption.
    - eapply sample_rnd, writable_sample. exact td_writable.
    - unfold td_rows. cbn [map]. rewrite !whole_numbers. reflexivity. }
  assert (H1 : ToolModel.brdf2data td_world [lit "brdf2data"; lit "--input"; lit "f.func"; lit "--data-file"; lit "in.txt"; lit "--output"; lit "o.txt"] td_disk = (put td_disk (lit "o.txt") (save_text demo_print par_td out), Ok 0%Z)).
  { eapply (C115_brdf2data demo_lex (fun _ => Throw) (fun _ => 0) 1000 demo_print 0 (fun _ => Throw) _ _ _ td_world _ td_real demo_prints _ td_a1 td_disk par_td td_rows tt out); try exact He; try exact td_writable; try reflexivity; try assumption.
    - intros [v Hv]; discriminate.
    - eexists; reflexivity.
    - eexists; reflexivity.
    - eexists; reflexivity.
    - apply no_of. repeat constructor.
    - eexists; split; reflexivity. }
  destruct (C115_brdf2data_again demo_lex (fun _ => Throw) (fun _ => 0) 1000 demo_print 0 (fun _ => Throw) _ _ _ td_world _ td_real demo_prints ltac:(intros v; apply whole_numbers)
    [lit "brdf2data"; lit "--input"; lit "f.func"; lit "--data-file"; lit "in.txt"; lit "--output"; lit "o.txt"] td_a1
    [lit "brdf2data"; lit "--input"; lit "f.func"; lit "--data-file"; lit "o.txt"; lit "--output"; lit "o2.txt"] td_a2 td_disk par_td td_rows tt out) as (d1 & text & E1 & E2 & E3);
    try exact He; try exact td_writable; try reflexivity; try assumption; try (intros [v Hv]; discriminate); try (eexists; reflexivity); try (apply no_of; repeat constructor; fail).
  - eexists; split; reflexivity.
  - discriminate.
  - rewrite H1 in E1. assert (Ed : put td_disk (lit "o.txt") (save_text demo_print par_td out) = d1) by congruence. subst d1.
    eexists _, _. split; [exact H1|]. split; [reflexivity|]. split; [exact E3|]. change (put td_disk (lit "o.txt") (save_text demo_print par_td out) (val td_a1 (lit "output"))) with (put td_disk (lit "o.txt") (save_text demo_print par_td out) (lit "o.txt")) in E2.
    rewrite E2. reflexivity.
Qed.

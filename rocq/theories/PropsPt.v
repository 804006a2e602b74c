(** Properties C112 and C113: function files of trees of plugins. *)
From Coq Require Import Reals List ZArith Lia Lra.
From Verif Require Import Base Num ParamsModel GeoModel ArgsModel ArgsSpec DataModel TextModel TextRound FuncModel FuncFile FuncFileSpec PfModel PfSpec PtModel PtSpec PtProofs PtProofs2 PropsFuncFile PropsPf.
Open Scope R_scope.

(** ** C112 *)
(** The file of any tree of sums and products of plugins, read by the function
    loader with the same options, gives the tree with every plugin restored. *)
Theorem C112_file : forall lex print rnd junk, prints lex print rnd ->
  forall get_function args p t t0, map_ok args -> writable args -> tree_for t t0 -> parse_input (get_name_in (in_param p)) = in_param p ->
  get_function args (mkParameters (dimX p) (dimY p) (in_param p) UNKNOWN_OUTPUT) = Ok t0 ->
  exists file, tsave print args p t = Ok file /\ tload_function lex junk get_function file = Ok (Some (restored rnd t t0)).
Proof. intros lex print rnd junk HP. apply tree_file. exact HP. Qed.
Print Assumptions C112_file.
(** Inside a stream: lines before the functions that do not begin with # (the
    shader code of the Lafortune function is written before them) are ignored,
    and what follows them is left to the next reader. *)
Theorem C112_in_a_stream : forall lex print rnd junk, prints lex print rnd ->
  forall t t0 w post, tree_for t t0 -> skippable w ->
  exists text, tcall print t = Ok text /\
  exists w', newlines w' /\ tload lex junk t0 (good_stream (w ++ text ++ post)) = Ok (true, restored rnd t t0, good_stream (w' ++ post)).
Proof. intros lex print rnd junk HP. apply tree_restored. exact HP. Qed.
Print Assumptions C112_in_a_stream.
(** A tree with a shifted gamma distribution anywhere cannot be saved. *)
Theorem C112_sgd_refuted : forall print args p t, (exists f, In f (leaves_of t) /\ pf_kind f = PSgd) -> tsave print args p t = Abort.
Proof. intros print args p t H. unfold tsave. rewrite (sgd_body t H). reflexivity. Qed.
Print Assumptions C112_sgd_refuted.

(** ** C113 *)
(** A sum reads a text that holds some of its functions, in order: those are
    restored, the others stay as they are.  A function goes to the first member of
    its plugin that is left.  The sum is loaded when one function is. *)
Theorem C113_some_functions : forall lex print rnd junk, prints lex print rnd ->
  forall fs0 fs gs text w post, chosen rnd fs0 fs gs -> csave print fs = Ok text -> newlines w -> newlines post ->
  exists s, cload lex junk fs0 (good_stream (w ++ text ++ post)) = Ok (match fs with [] => false | _ => true end, gs, s).
Proof.
  intros lex print rnd junk HP fs0 fs gs text w post Hc Ht Hw Hp. unfold cload. destruct (some_functions lex print rnd junk HP fs0 fs gs Hc 0 text w post Ht Hw Hp) as (s & ->).
  exists s. destruct fs; reflexivity.
Qed.
Print Assumptions C113_some_functions.

(** The same for any tree of sums and products: its plugins are tried in order,
    however they are nested. *)
Theorem C113_trees : forall lex print rnd junk, prints lex print rnd ->
  forall t fs gs text w post, chosen rnd (leaves_of t) fs gs -> csave print fs = Ok text -> newlines w -> newlines post ->
  exists t' s, tload lex junk t (good_stream (w ++ text ++ post)) = Ok (match fs with [] => false | _ => true end, t', s) /\ same_form t t' /\ leaves_of t' = gs.
Proof. intros lex print rnd junk HP t fs gs text w post Hc Ht Hw Hp. apply (tree_some lex print rnd junk HP post Hp); assumption. Qed.
Print Assumptions C113_trees.
(** Members are read one after the other; one that refuses leaves the text to the
    next.  A sum or product is loaded when one of its members is. *)
Theorem C113_members : forall lex junk,
  (forall fs r bs gs r', members (tload lex junk) r fs bs gs r' -> tload lex junk (PSum fs) (good_stream r) = Ok (existsb (fun b : bool => b) bs, PSum gs, good_stream r')) /\
  (forall f1 f2 r b1 b2 g1 g2 r', members (tload lex junk) r [f1; f2] [b1; b2] [g1; g2] r' -> tload lex junk (PProd f1 f2) (good_stream r) = Ok (b1 || b2, PProd g1 g2, good_stream r')).
Proof. intros lex junk. split; [apply sum_members|apply prod_members]. Qed.
Print Assumptions C113_members.
(** A file gives the tree that its body loads, nothing when the body is refused or
    the first line is another one. *)
Theorem C113_files : forall lex junk get_function args p t0 body, map_ok args -> writable args ->
  parse_input (get_name_in (in_param p)) = in_param p -> get_function args (mkParameters (dimX p) (dimY p) (in_param p) UNKNOWN_OUTPUT) = Ok t0 ->
  (forall g s, tload lex junk t0 (good_stream (nl :: body)) = Ok (true, g, s) -> tload_function lex junk get_function (save_header args p ++ body) = Ok (Some g)) /\
  (forall g s, tload lex junk t0 (good_stream (nl :: body)) = Ok (false, g, s) -> tload_function lex junk get_function (save_header args p ++ body) = Ok None) /\
  (forall line r, ~ In nl line -> line <> lit "#ALTA FUNC HEADER" -> tload_function lex junk get_function (line ++ nl :: r) = Ok None).
Proof.
  intros lex junk gf args p t0 body Hm Hw Hn Hg. rewrite (file_body lex junk gf args p t0 body Hm Hw Hn Hg).
  split; [intros g s ->; reflexivity|]. split; [intros g s ->; reflexivity|]. apply file_other.
Qed.
Print Assumptions C113_files.

(** ** Cases *)
Definition laf1 : pfun := mkPfun PLaf 1 CARTESIAN false 1 [[1; 2; 3]; [8]].
Definition schlick1 : pfun := mkPfun PSchlick 1 CARTESIAN false 0 [[4]].
Definition diffuse1 : pfun := mkPfun PDiffuse 1 CARTESIAN false 0 [[9]].
Definition tree1 : ptree := PSum [PProd (PLeaf laf1) (PLeaf schlick1); PSum [PLeaf diffuse1; PLeaf iso2]].
Definition tree0 : ptree := PSum [PProd (PLeaf (fresh laf1)) (PLeaf (fresh schlick1)); PSum [PLeaf (fresh diffuse1); PLeaf (fresh iso2)]].
Lemma tree1_for : tree_for tree1 tree0.
Proof.
  assert (C : forall f, (is_lafortune (pf_kind f) = true -> (0 <= pf_n f)%Z) -> map (@length R) (pf_mem f) = sizes (pf_kind f) (pf_nY f) (Z.to_nat (pf_n f)) -> complete f) by (intros f A B; split; assumption).
  cbn [tree_for tree1 tree0]. repeat split; try discriminate; try exact I; try (intros; cbn; lia); cbn; lia.
Qed.
Example C112_case : exists file, tsave demo_print file_args file_par tree1 = Ok file /\
  exists g, tload_function demo_lex (fun _ _ => 99) (fun _ _ => Ok tree0) file = Ok (Some g) /\ map pf_mem (leaves_of g) = map pf_mem (leaves_of tree1).
Proof.
  destruct (C112_file demo_lex demo_print _ (fun _ _ => 99) demo_prints (fun _ _ => Ok tree0) file_args file_par tree1 tree0) as (file & A & B).
  - repeat constructor.
  - assert (Hw : forall s, forallb (fun c => negb (is_space c) && negb (aeqb c nul)) s = true -> s <> [] -> word s).
    { intros s Hs Hn; split; [assumption|]. rewrite forallb_forall in Hs. apply Forall_forall.
      intros c Hc; specialize (Hs c Hc). apply andb_true_iff in Hs as [H1 H2].
      split; [apply negb_true_iff; assumption|intros ->; rewrite aeqb_refl in H2; discriminate]. }
    constructor; [|constructor]. split; [apply Hw; [reflexivity|discriminate]|].
    exists [lit "[lobe,"; lit "other]"]; split; [reflexivity|]. split.
    + constructor; [|constructor; [|constructor]]; (apply Hw; [reflexivity|discriminate]).
    + right; right. exists (lit "[lobe,"), [], (lit "other]"); repeat split.
      * eexists; reflexivity.
      * exists (lit "other"); reflexivity.
      * constructor; [|constructor]. split; [discriminate|].
        intros H; apply ArgsProofs.last_is_ends in H; discriminate.
  - exact tree1_for.
  - reflexivity.
  - reflexivity.
  - exists file. split; [exact A|]. eexists. split; [exact B|]. cbn [restored tree1 tree0 leaves_of map app]. unfold loaded, laf1, schlick1, diffuse1, iso2, fresh. cbn [map pf_kind pf_nY pf_in pf_back pf_n pf_mem is_lafortune].
    rewrite !whole_numbers. reflexivity.
Qed.
(** The text of a Fresnel term and of a diffuse one in a sum of three. *)
Example C113_case : exists text, csave demo_print [schlick1; diffuse1] = Ok text /\
  exists s, cload demo_lex (fun _ _ => 99) [fresh schlick1; fresh blinn2; fresh diffuse1; fresh schlick1] (good_stream text) =
    Ok (true, [mkPfun PSchlick 1 CARTESIAN true 0 [[4]]; fresh blinn2; mkPfun PDiffuse 1 CARTESIAN true 0 [[9]]; fresh schlick1], s).
Proof.
  assert (T : exists t, csave demo_print [schlick1; diffuse1] = Ok t) by (eexists; reflexivity). destruct T as (t & T). exists t. split; [exact T|].
  destruct (C113_some_functions demo_lex demo_print _ (fun _ _ => 99) demo_prints [fresh schlick1; fresh blinn2; fresh diffuse1; fresh schlick1] [schlick1; diffuse1]
    [loaded (fun v => IZR (Int_part v)) schlick1 (fresh schlick1); fresh blinn2; loaded (fun v => IZR (Int_part v)) diffuse1 (fresh diffuse1); fresh schlick1] t [] []) as (s & E);
    [|exact T|constructor|constructor|].
  - apply CH_take; [repeat split; discriminate || exact I|]. apply CH_skip; [reflexivity|]. apply CH_take; [repeat split; discriminate || exact I|]. apply CH_end.
  - exists s. cbn [app] in E. rewrite app_nil_r in E. rewrite E. unfold loaded, schlick1, diffuse1, blinn2, fresh. cbn [map pf_kind pf_nY pf_in pf_back pf_n pf_mem is_lafortune]. rewrite !whole_numbers. reflexivity.
Qed.
(** The same text in a product whose second factor is a sum. *)
Example C113_trees_case : exists text, csave demo_print [schlick1; diffuse1] = Ok text /\
  exists t' s, tload demo_lex (fun _ _ => 99) (PProd (PLeaf (fresh schlick1)) (PSum [PLeaf (fresh blinn2); PProd (PLeaf (fresh diffuse1)) (PLeaf (fresh schlick1))])) (good_stream text) = Ok (true, t', s) /\
    leaves_of t' = [mkPfun PSchlick 1 CARTESIAN true 0 [[4]]; fresh blinn2; mkPfun PDiffuse 1 CARTESIAN true 0 [[9]]; fresh schlick1].
Proof.
  assert (T : exists t, csave demo_print [schlick1; diffuse1] = Ok t) by (eexists; reflexivity). destruct T as (t & T). exists t. split; [exact T|].
  destruct (C113_trees demo_lex demo_print _ (fun _ _ => 99) demo_prints (PProd (PLeaf (fresh schlick1)) (PSum [PLeaf (fresh blinn2); PProd (PLeaf (fresh diffuse1)) (PLeaf (fresh schlick1))])) [schlick1; diffuse1]
    [loaded (fun v => IZR (Int_part v)) schlick1 (fresh schlick1); fresh blinn2; loaded (fun v => IZR (Int_part v)) diffuse1 (fresh diffuse1); fresh schlick1] t [] []) as (t' & s & E & _ & L);
    [|exact T|constructor|constructor|].
  - cbn [leaves_of app]. apply CH_take; [repeat split; discriminate || exact I|]. apply CH_skip; [reflexivity|]. apply CH_take; [repeat split; discriminate || exact I|]. apply CH_end.
  - exists t', s. cbn [app] in E. rewrite app_nil_r in E. split; [exact E|]. rewrite L. unfold loaded, schlick1, diffuse1, blinn2, fresh. cbn [map pf_kind pf_nY pf_in pf_back pf_n pf_mem is_lafortune]. rewrite !whole_numbers. reflexivity.
Qed.

(** Property C101: the starting point of a fit (--bootstrap). *)
From Coq Require Import Reals List Lia Lra.
From Verif Require Import Base Num ParamsModel GeoModel ArgsModel ArgsSpec ArgsProofs DataModel TextModel TextRound FuncModel FuncSpec FuncProofs FuncFile FuncFileSpec FuncFileProofs FuncFileMore BootModel BootSpec BootProofs BootProofs2 BootProofs3 BootProofs4.
Open Scope R_scope.

(** The result depends on the function, its options and the file only; structure,
    parametrization and number of parameters do not change. *)
Theorem C101_deterministic : forall lex atof files obeys start t a args r1 r2,
  boots lex atof files obeys start t a args r1 -> boots lex atof files obeys start t a args r2 -> r1 = r2.
Proof. exact boots_unique. Qed.
Print Assumptions C101_deterministic.
Theorem C101_structure : forall lex atof files obeys start, starts_sized start -> forall t a args t',
  boots lex atof files obeys start t a args (Ok t') -> par_of t' = par_of t /\ nb t' = nb t /\ (tree_ok t -> tree_ok t').
Proof. exact boots_kept. Qed.
Print Assumptions C101_structure.

(** --bootstrap [v1, v2, ...]: the free parameters are the numbers given, in order, and
    zero beyond; for a sum or a product, and for a single function whose plugin
    looks at the option. *)
Theorem C101_vector : forall lex atof files obeys start, starts_sized start -> forall junk t a args es t',
  tree_ok t -> vector_option args es -> (composite_tree t \/ exists l p, t = Leaf l p /\ obeys l = true) ->
  boots lex atof files obeys start t a args (Ok t') -> exists p, get_parameters junk t' = Ok p /\ length p = nb t /\
    forall i, (i < nb t)%nat -> nth i p 0 = if (i <? length es)%nat then atof (c_str (nth i es [])) else 0.
Proof. exact boots_vector. Qed.
Print Assumptions C101_vector.
(** the call returns: the functions of a sum that have no parameter start on their own, and
    that may fail; all the others cannot *)
Theorem C101_vector_returns : forall lex atof files obeys start t a args es, tree_ok t -> vector_option args es ->
  (match t with Compound _ fs => Forall (fun f : bool * tree => nb (snd f) <> 0%nat) fs | Product _ _ _ _ _ => True | Leaf l _ => obeys l = true end) ->
  exists t', boots lex atof files obeys start t a args (Ok t').
Proof. exact boots_vector_returns. Qed.
Print Assumptions C101_vector_returns.
(** the functions that are fixed keep the parameters they had: they are not started either *)
Theorem C101_vector_fixed_refuted : forall lex atof files obeys start args es a, vector_option args es ->
  (forall par fs t' i f, boots lex atof files obeys start (Compound par fs) a args (Ok t') -> nth_error fs i = Some (true, f) -> nb f <> 0%nat ->
     exists gs, t' = Compound par gs /\ nth_error gs i = Some (true, f)) /\
  (forall par x2 f1 f2 t', boots lex atof files obeys start (Product par true x2 f1 f2) a args (Ok t') -> exists g2, t' = Product par true x2 f1 g2) /\
  (forall par x1 f1 f2 t', boots lex atof files obeys start (Product par x1 true f1 f2) a args (Ok t') -> exists g1, t' = Product par x1 true g1 f2).
Proof. exact boots_vector_fixed. Qed.
Print Assumptions C101_vector_fixed_refuted.

(** Without the option: each function of a sum starts with the options given to it, the
    two factors of a product start with the options of the product. *)
Theorem C101_each : forall lex atof files obeys start args a par, no_option args ->
  (forall fs gs, length gs = length fs ->
     (forall j x f, nth_error fs j = Some (x, f) -> exists g, nth_error gs j = Some (x, g) /\
        boots lex atof files obeys start f (snd (achild (achildren a) j)) (fst (achild (achildren a) j)) (Ok g)) ->
     boots lex atof files obeys start (Compound par fs) a args (Ok (Compound par gs))) /\
  (forall x1 x2 f1 f2 g1 g2, boots lex atof files obeys start f1 (afirst a) args (Ok g1) -> boots lex atof files obeys start f2 (asecond a) args (Ok g2) ->
     boots lex atof files obeys start (Product par x1 x2 f1 f2) a args (Ok (Product par x1 x2 g1 g2))).
Proof. intros. split; intros; [apply boots_each_sum|apply boots_each_product]; assumption. Qed.
Print Assumptions C101_each.

(** --bootstrap file: a sum or a product starts from the parameters of the function saved
    in the file, free or fixed, as printed. *)
Theorem C101_file_restores : forall lex atof files obeys start print rnd, prints lex print rnd ->
  forall t t0 a args name args0, composite_tree t -> same_shape t0 t -> savable t -> writable args0 ->
  file_option args name -> files (c_str name) = Some (save_file print args0 t) ->
  boots lex atof files obeys start t0 a args (Ok (map_params (map rnd) t)).
Proof. exact boots_saved. Qed.
Print Assumptions C101_file_restores.
(** In general each function is set by the text where the previous one stopped, or starts
    as on its own when the text does not suit it. *)
Theorem C101_file : forall lex atof files obeys start a args name c body par,
  file_option args name -> files (c_str name) = Some c -> after_header c body ->
  let starts := fun t a args g => boots lex atof files obeys start t a args (Ok g) in
  (forall fs gs, Fills lex starts (achildren a) args 0 body fs gs ->
     boots lex atof files obeys start (Compound par fs) a args (Ok (Compound par gs))) /\
  (forall x1 x2 f1 f2 g1 g2 r1 r2, Fills1 lex starts body f1 (afirst a) args g1 r1 -> Fills1 lex starts r1 f2 (asecond a) args g2 r2 ->
     boots lex atof files obeys start (Product par x1 x2 f1 f2) a args (Ok (Product par x1 x2 g1 g2))).
Proof. intros. split; intros; [eapply boots_file_sum|eapply boots_file_product]; eassumption. Qed.
Print Assumptions C101_file.
(** a function that the text does not suit is left exactly as it was by the attempt *)
Theorem C101_failed_load : forall lex t s g s', load lex t s = Ok (false, g, s') -> g = t.
Proof. exact load_false. Qed.
Print Assumptions C101_failed_load.
(** A file without the line that ends a header: the call never returns. *)
Theorem C101_file_never_returns : forall lex atof files obeys start t a args name c, composite_tree t -> file_option args name ->
  files (c_str name) = Some c -> ~ has_line (lit "#ALTA HEADER END") c -> never_boots lex atof files obeys start t a args.
Proof. exact never_file. Qed.
Print Assumptions C101_file_never_returns.
(** A file that cannot be opened: a sum or a product is left as it was, without an error
    for the caller; a single function ends the process. *)
Theorem C101_missing_file : forall lex atof files obeys start t a args name, file_option args name -> files (c_str name) = None ->
  (composite_tree t -> boots lex atof files obeys start t a args (Ok t)) /\
  (forall l p, t = Leaf l p -> obeys l = true -> boots lex atof files obeys start t a args Abort).
Proof. exact missing_file. Qed.
Print Assumptions C101_missing_file.

(** A single function takes its parameters from a text without a header, and ignores a
    saved file: its parameters stay what they were before. *)
Theorem C101_single_text : forall lex atof files obeys start print rnd, prints lex print rnd ->
  forall l p q a args name w post, obeys l = true -> file_option args name -> newlines w -> length q = lf_nb l ->
  files (c_str name) = Some (w ++ leaf_text print q ++ post) -> boots lex atof files obeys start (Leaf l p) a args (Ok (Leaf l (map rnd q))).
Proof.
  intros lex atof files obeys start print rnd Hp l p q a args name w post Hl Ho Hw Hq Hf.
  apply (single_file lex atof files obeys start l p a args name _ _ Hl Ho Hf (Some (map rnd q)) (eq_trans (f_equal (fun n => load_leaf lex n _) (eq_sym Hq)) (load_leaf_text _ _ _ Hp q w post Hw))).
Qed.
Print Assumptions C101_single_text.
Theorem C101_single_file_refuted : forall lex atof files obeys start print l p a args name args0 t, obeys l = true -> file_option args name ->
  files (c_str name) = Some (save_file print args0 t) -> boots lex atof files obeys start (Leaf l p) a args (Ok (Leaf l p)).
Proof. intros lex atof files obeys start print l p a args name args0 t Hl Ho Hf. apply (single_headed lex atof files obeys start l p a args name args0 (par_of t) _ Hl Ho Hf). Qed.
Print Assumptions C101_single_file_refuted.
(** Hence a factor of a product that the saved file does not hold is not started: it keeps
    the parameters it had, whatever they were. *)
Theorem C101_product_factor_refuted : forall lex atof files obeys start par x1 x2 f1 g1 l p r1 s a args name args0 p0 body,
  writable args0 -> file_option args name -> obeys l = true -> files (c_str name) = Some (save_header args0 p0 ++ body) ->
  load lex f1 (good_stream (nl :: body)) = Ok (true, g1, good_stream r1) ->
  load lex (Leaf l p) (good_stream r1) = Ok (false, Leaf l p, s) -> failbit s = false ->
  boots lex atof files obeys start (Product par x1 x2 f1 (Leaf l p)) a args (Ok (Product par x1 x2 g1 (Leaf l p))).
Proof.
  intros lex atof files obeys start par x1 x2 f1 g1 l p r1 s a args name args0 p0 body Hw Ho Hl Hf H1 H2 Hs.
  eapply boots_file_product; [exact Ho|exact Hf|apply header_after, Hw|apply Fills_file, H1|].
  eapply Fills_start; [exact H2|exact Hs|]. apply (single_headed lex atof files obeys start l p (asecond a) args name args0 p0 body Hl Ho Hf).
Qed.
Print Assumptions C101_product_factor_refuted.
(** A plugin that does not look at the option starts as if it were not given. *)
Theorem C101_ignored : forall lex atof files obeys start l p a args, obeys l = false ->
  boots lex atof files obeys start (Leaf l p) a args (Ok (Leaf l (start l p args))).
Proof. exact ignored. Qed.
Print Assumptions C101_ignored.

(** ** Cases *)
Definition boot_par : parameters := mkParameters 2 1 RUSIN_TH_TD RGB_COLOR.
Definition boot_leaf : leaf_fn := mkLeaf boot_par 2 (fun p _ => [nth 0 p 0]) (fun p _ => [1; 0]) [0; 0] [1; 1].
Lemma boot_leaf_ok p : length p = 2%nat -> leaf_ok boot_leaf p.
Proof. intros H. split; [exact H|]. repeat split; reflexivity. Qed.
Definition demo_start (l : leaf_fn) (p : list R) (args : arguments) : list R := repeat 1 (lf_nb l).
Lemma demo_starts : starts_sized demo_start.
Proof. intros l p args _. apply repeat_length. Qed.
Definition demo_atof (s : str) : R := match s with c :: _ => if aeqb c "7" then 7 else 5 | [] => 0 end.
Definition boot_sum (u v : list R) : tree := Compound boot_par [(false, Leaf boot_leaf u); (true, Leaf boot_leaf v)].

(** a sum with a fixed function: the free one gets the vector, the other is kept *)
Example C101_case_vector : forall lex files obeys (u v x y : R),
  let args := [(key, lit "[7]")] in
  exists gs, boots lex demo_atof files obeys demo_start (boot_sum [u; v] [x; y]) ANone args (Ok (Compound boot_par gs)) /\
    get_parameters 9 (Compound boot_par gs) = Ok [7; 0] /\ nth_error gs 1 = Some (true, Leaf boot_leaf [x; y]).
Proof.
  intros lex files obeys u v x y args.
  assert (Hv : vector_option args [lit "7"]). { split; [reflexivity|]. split; [discriminate|]. repeat constructor. intros [H|[]]; discriminate. }
  assert (Ht : tree_ok (boot_sum [u; v] [x; y])) by (cbn; repeat split; reflexivity).
  destruct (C101_vector_returns lex demo_atof files obeys demo_start (boot_sum [u; v] [x; y]) ANone args [lit "7"] Ht Hv) as (t' & B); [repeat constructor; discriminate|].
  destruct (proj1 (C101_vector_fixed_refuted lex demo_atof files obeys demo_start args [lit "7"] ANone Hv) _ _ _ 1%nat _ B eq_refl) as (gs & -> & E); [discriminate|].
  exists gs. split; [exact B|]. split; [|exact E].
  destruct (C101_vector lex demo_atof files obeys demo_start demo_starts 9 _ _ _ [lit "7"] _ Ht Hv (or_introl I) B) as (p & -> & L & P).
  cbn in L. destruct p as [|p0 [|p1 [|]]]; try discriminate. pose proof (P 0%nat ltac:(cbn; lia)) as P0. pose proof (P 1%nat ltac:(cbn; lia)) as P1. cbn in P0, P1. rewrite P0, P1. reflexivity.
Qed.
(** a saved sum restores both functions; alone, the same plugin keeps what it had *)
Example C101_case_file : forall atof obeys files (t0 := boot_sum [0; 0] [0; 0]), obeys boot_leaf = true ->
  files (lit "f") = Some (save_file demo_print [] (boot_sum [1; 2] [3; 4])) ->
  boots demo_lex atof files obeys demo_start t0 ANone [(key, lit "f")] (Ok (boot_sum [1; 2] [3; 4])) /\
  boots demo_lex atof files obeys demo_start (Leaf boot_leaf [8; 9]) ANone [(key, lit "f")] (Ok (Leaf boot_leaf [8; 9])).
Proof.
  intros atof obeys files t0 Ho Hf. assert (Hn : file_option [(key, lit "f")] (lit "f")) by (split; [reflexivity|split; [reflexivity|discriminate]]). split.
  - pose proof (C101_file_restores demo_lex atof files obeys demo_start demo_print _ demo_prints (boot_sum [1; 2] [3; 4]) t0 ANone [(key, lit "f")] (lit "f") [] I eq_refl) as H.
    assert (E : forall z, Int_part (IZR z) = z). { intros z. unfold Int_part. rewrite <- (up_tech (IZR z) z); [lia|lra|]. rewrite plus_IZR. lra. }
    cbn [map_params boot_sum map fst snd] in H. rewrite !E in H. apply H; [repeat split; discriminate|constructor|exact Hn|exact Hf].
  - apply (C101_single_file_refuted demo_lex atof files obeys demo_start demo_print boot_leaf [8; 9] ANone _ _ [] (boot_sum [1; 2] [3; 4]) Ho Hn Hf).
Qed.
(** a file whose lines end with CR LF has no such line *)
Example C101_case_crlf : forall lex atof obeys start, never_boots lex atof (fun _ => Some (lit "#ALTA HEADER END" ++ [cr; nl])) obeys start (boot_sum [1; 2] [3; 4]) ANone [(key, lit "f")].
Proof.
  intros. eapply (C101_file_never_returns lex atof _ obeys start _ _ _ (lit "f")); [exact I|split; [reflexivity|split; [reflexivity|discriminate]]|reflexivity|].
  intros (pre & post & E & Hpre & Hpost).
  assert (L : (length pre + length post = 2)%nat). { apply (f_equal (@length ascii)) in E. rewrite !app_length in E. cbn in E. lia. }
  destruct pre as [|c1 [|c2 [|]]]; cbn [length] in L; [| | |lia].
  - cbn [app] in E. destruct Hpost as [->|(q & ->)]; [discriminate|]. vm_compute in E. discriminate.
  - exfalso. cbn in E. discriminate E.
  - cbn in E. discriminate E.
Qed.
(** without the option every function starts on its own *)
Example C101_case_each : forall lex atof files, boots lex atof files (fun _ => false) demo_start (boot_sum [8; 8] [9; 9]) ANone [] (Ok (boot_sum [1; 1] [1; 1])).
Proof.
  intros. apply (proj1 (C101_each lex atof files _ demo_start [] ANone boot_par eq_refl)); [reflexivity|].
  intros [|[|j]] x f E; cbn in E; [| |destruct j; discriminate]; injection E as <- <-; eexists; (split; [reflexivity|apply C101_ignored; reflexivity]).
Qed.
(** a product whose second factor is of another kind in the file *)
Example C101_case_factor : forall atof (files : str -> option str),
  files (lit "f") = Some (save_header [] boot_par ++ leaf_text demo_print [1; 2] ++ lit "#FUNC rational_function" ++ nl :: []) ->
  boots demo_lex atof files (fun _ => true) demo_start (Product boot_par false false (Leaf boot_leaf [0; 0]) (Leaf boot_leaf [8; 9])) ANone [(key, lit "f")]
    (Ok (Product boot_par false false (Leaf boot_leaf [IZR (Int_part 1); IZR (Int_part 2)]) (Leaf boot_leaf [8; 9]))).
Proof.
  intros atof files Hf. eapply (C101_product_factor_refuted demo_lex atof files (fun _ => true) demo_start boot_par false false); [constructor|split; [reflexivity|split; [reflexivity|discriminate]]|reflexivity|exact Hf| | |].
  - pose proof (load_saved demo_lex demo_print _ demo_prints (Leaf boot_leaf [1; 2]) (Leaf boot_leaf [0; 0]) [nl] (lit "#FUNC rational_function" ++ nl :: []) eq_refl eq_refl (Forall_cons _ eq_refl (Forall_nil _))) as E. exact E.
  - apply (other_function demo_lex boot_leaf [8; 9] [nl; nl] (lit "rational_function") []); [exact newlines2|split; [discriminate|repeat constructor]|discriminate].
  - reflexivity.
Qed.

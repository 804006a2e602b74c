(** Property C29. *)
From Coq Require Import Reals List Lia Lra.
From Verif Require Import Base Num ParamsModel GeoModel ArgsModel ArgsSpec ArgsProofs DataModel TextModel TextRound FuncModel FuncFile FuncFileSpec FuncFileProofs FuncFileMore.
Open Scope R_scope.

(** The text a function writes for itself, wherever it stands in a file (after
    any number of empty lines, before anything), sets every parameter of a
    function of the same structure, free or fixed, to the number printed,
    and leaves the stream after it. *)
Theorem C29_saved_parameters_are_loaded : forall lex print rnd, prints lex print rnd ->
  forall t t0 w post, same_shape t0 t -> savable t -> newlines w ->
  load lex t0 (good_stream (w ++ save_call print t ++ post)) = Ok (true, map_params (map rnd) t, good_stream (nl :: nl :: post)).
Proof. exact load_saved. Qed.
Print Assumptions C29_saved_parameters_are_loaded.

(** A whole file: loading what was saved asks for the function the saved
    command line describes, with the saved dimensions and input
    parametrization (the output parametrization is not written), and then
    restores its parameters. *)
Theorem C29_file_round_trip : forall lex print rnd, prints lex print rnd ->
  forall get_function args t t0, map_ok args -> writable args -> savable t -> same_shape t0 t ->
  parse_input (get_name_in (in_param (par_of t))) = in_param (par_of t) ->
  get_function args (mkParameters (dimX (par_of t)) (dimY (par_of t)) (in_param (par_of t)) UNKNOWN_OUTPUT) = Ok t0 ->
  load_function lex get_function (save_file print args t) = Ok (Some (map_params (map rnd) t)).
Proof. exact file_round_trip. Qed.
Print Assumptions C29_file_round_trip.

(** A truncated file is not refused: parameters the file does not hold are
    read from memory that was never written. *)
Theorem C29_missing_parameters_refuted : forall lex l p w, newlines w -> (0 < lf_nb l)%nat ->
  load lex (Leaf l p) (good_stream (w ++ endl (lit "#FUNC nonlinear_function"))) = UB.
Proof. exact missing_parameters. Qed.
Print Assumptions C29_missing_parameters_refuted.

(** A text that describes another kind of function, or something else, is refused
    and changes nothing. *)
Theorem C29_other_functions_are_refused : forall lex l p w post, newlines w ->
  (forall name, solid name -> name <> lit "nonlinear_function" ->
     load lex (Leaf l p) (good_stream (w ++ lit "#FUNC " ++ name ++ nl :: post)) = Ok (false, Leaf l p, good_stream (nl :: post))) /\
  (forall tag, solid ("#"%char :: tag) -> "#"%char :: tag <> lit "#FUNC" ->
     load lex (Leaf l p) (good_stream (w ++ ("#"%char :: tag) ++ nl :: post)) = Ok (false, Leaf l p, good_stream (nl :: post))).
Proof. intros lex l p w post Hw. split; intros; [apply other_function|apply other_tag]; assumption. Qed.
Print Assumptions C29_other_functions_are_refused.

(** Sums and products: every function is tried in order; one that cannot be loaded
    leaves the text to the next ones; the whole is loaded when at least one is. *)
Theorem C29_partial_loads : forall lex par,
  (forall fs r bs gs r', Loads (load lex) r (map snd fs) bs gs r' ->
     load lex (Compound par fs) (good_stream r) = Ok (existsb (fun b : bool => b) bs, Compound par (combine (map fst fs) gs), good_stream r')) /\
  (forall x1 x2 f1 f2 r b1 b2 g1 g2 r', Loads (load lex) r [f1; f2] [b1; b2] [g1; g2] r' ->
     load lex (Product par x1 x2 f1 f2) (good_stream r) = Ok (b1 || b2, Product par x1 x2 g1 g2, good_stream r')).
Proof. intros lex par. split; intros; [apply load_compound|apply load_product]; assumption. Qed.
Print Assumptions C29_partial_loads.

(** A file gives the function that its body loads, and nothing when the body is
    refused; a file with another first line gives nothing. *)
Theorem C29_whole_files : forall lex get_function args p t0 body, map_ok args -> writable args ->
  parse_input (get_name_in (in_param p)) = in_param p ->
  get_function args (mkParameters (dimX p) (dimY p) (in_param p) UNKNOWN_OUTPUT) = Ok t0 ->
  (forall g s, load lex t0 (good_stream (nl :: body)) = Ok (true, g, s) -> load_function lex get_function (save_header args p ++ body) = Ok (Some g)) /\
  (forall g s, load lex t0 (good_stream (nl :: body)) = Ok (false, g, s) -> load_function lex get_function (save_header args p ++ body) = Ok None) /\
  (forall line r, ~ In nl line -> line <> lit "#ALTA FUNC HEADER" -> load_function lex get_function (line ++ nl :: r) = Ok None).
Proof.
  intros lex gf args p t0 body Hm Hw Hn Hg. rewrite (load_function_body lex gf args p t0 body Hm Hw Hn Hg).
  split; [intros g s ->; reflexivity|]. split; [intros g s ->; reflexivity|]. apply file_without_header.
Qed.
Print Assumptions C29_whole_files.

(** A compound of a product and a fixed leaf, with a command line. *)
Definition file_par := mkParameters 2 1 STARK_2D UNKNOWN_OUTPUT.
Definition file_leaf := mkLeaf file_par 2 (fun p _ => [nth 0 p 0]) (fun _ _ => [1; 0]) [0; 0] [9; 9].
Definition file_tree (a b c d e f : R) := Compound file_par
  [(false, Product file_par false true (Leaf file_leaf [a; b]) (Leaf file_leaf [c; d])); (true, Leaf file_leaf [e; f])].
Definition file_args : arguments := [(lit "func", lit "[lobe, other]")].
Example C29_case :
  let gf := fun (a : arguments) (p : parameters) => Ok (file_tree 0 0 0 0 0 0) in
  load_function demo_lex gf (save_file demo_print file_args (file_tree 1 2 3 4 (-5) 66)) = Ok (Some (file_tree 1 2 3 4 (-5) 66)).
Proof.
  intros gf. rewrite (C29_file_round_trip demo_lex demo_print _ demo_prints gf file_args (file_tree 1 2 3 4 (-5) 66) (file_tree 0 0 0 0 0 0)).
  - assert (E : forall z, Int_part (IZR z) = z).
    { intros z. unfold Int_part. rewrite <- (up_tech (IZR z) z); [lia|lra|]. rewrite plus_IZR. lra. }
    cbn [map_params file_tree map fst snd]. rewrite !E. reflexivity.
  - repeat constructor.
  - assert (Hw : forall s, forallb (fun c => negb (is_space c) && negb (aeqb c nul)) s = true -> s <> [] -> word s).
    { intros s Hs Hn; split; [assumption|]. rewrite forallb_forall in Hs. apply Forall_forall.
      intros c Hc; specialize (Hs c Hc). apply andb_true_iff in Hs as [H1 H2].
      split; [apply negb_true_iff; assumption|intros ->; rewrite aeqb_refl in H2; discriminate]. }
    constructor; [|constructor]. split; [apply Hw; [reflexivity|discriminate]|].
    exists [lit "[lobe,"; lit "other]"]; split; [reflexivity|]. split.
    + constructor; [|constructor; [|constructor]]; (apply Hw; [reflexivity|discriminate]).
    + right; right. exists (lit "[lobe,"), [], (lit "other]"); repeat split.
      * eexists; reflexivity.
      * exists (lit "other"); reflexivity.
      * constructor; [|constructor]. split; [discriminate|].
        intros H; apply last_is_ends in H; discriminate.
  - cbn. repeat split; discriminate.
  - reflexivity.
  - reflexivity.
  - reflexivity.
Qed.

(** A sum whose first function is of another kind: the second one is loaded from
    the same text. *)
Definition leaf0 := mkLeaf file_par 0 (fun p _ => [0]) (fun _ _ => []) [] [].
Example C29_second_of_two : forall lex post, exists g r, load lex (Compound file_par [(false, Leaf file_leaf []); (false, Leaf leaf0 [])]) (good_stream (lit "#FUNC rational_function" ++ nl :: post)) = Ok (false, g, good_stream r).
Proof.
  intros lex post.
  pose proof (proj1 (C29_other_functions_are_refused lex file_leaf [] [] post ltac:(constructor)) (lit "rational_function")) as H1.
  pose proof (proj1 (C29_other_functions_are_refused lex leaf0 [] [] post ltac:(constructor)) (lit "rational_function")) as H2.
  assert (S : solid (lit "rational_function")) by (split; [discriminate|repeat constructor]).
  eexists _, _. rewrite (proj1 (C29_partial_loads lex file_par) [(false, Leaf file_leaf []); (false, Leaf leaf0 [])] (lit "#FUNC rational_function" ++ nl :: post) [false; false] [Leaf file_leaf []; Leaf leaf0 []] (lit "#FUNC rational_function" ++ nl :: post)); [reflexivity|].
  eapply Loads_no; [apply H1; [assumption|discriminate]|reflexivity|]. eapply Loads_no; [apply H2; [assumption|discriminate]|reflexivity|]. constructor.
Qed.

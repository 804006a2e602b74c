(** Property C130: function files in Python. *)
From Coq Require Import Reals List ZArith Lia.
From Verif Require Import Base Num ParamsModel GeoModel ArgsModel ArgsSpec DataModel TextModel TextRound FuncModel FuncFile FuncFileSpec PropsFuncFile PlugModel MonoModel RatModel RatSpec ToolModel ToolFiles PyFileModel PyFileProofs.
Import ListNotations.

(** Wherever load_function(name) gives a function, that is what f.load(name) makes of
    the function f that the header of the file describes. *)
Theorem C130_load_function : forall junk lex sysdir env libs other_load file g,
  py_load_function junk lex sysdir env libs other_load file = Ok (Some g) ->
  exists a p f, get_object sysdir env libs a p = Ok (Some f) /\ py_load junk lex other_load file f = Ok g.
Proof. intros junk lex sysdir env libs ol [file|] g H; [exact (like_load_function junk lex sysdir env libs ol file g H)|discriminate]. Qed.
Print Assumptions C130_load_function.

(** But f.load(name) ignores what the header says: two files that differ in the
    command line, dimensions and parametrization only are the same to it. *)
Theorem C130_header_ignored : forall junk lex other_load a a' p p' body f, map_ok a -> writable a -> map_ok a' -> writable a' ->
  py_load junk lex other_load (Some (save_header a p ++ body)) f = py_load junk lex other_load (Some (save_header a' p' ++ body)) f.
Proof. intros. rewrite !load_after_header by assumption. reflexivity. Qed.
Print Assumptions C130_header_ignored.

(** What f.save(name) writes restores the numbers of f in any function of the same
    structure, so also in f itself after f.set. *)
Theorem C130_save_then_load : forall junk lex print rnd other_par other_load other_text, prints lex print rnd ->
  forall t t0, savable t -> same_shape t0 t ->
  exists text, py_save print other_par other_text (ONl t) = (text, Ok tt) /\
    py_load junk lex other_load (Some text) (ONl t0) = Ok (ONl (map_params (map rnd) t)).
Proof.
  intros junk lex print rnd op ol ot HP t t0 Hv Hs. exists (save_file print [] t). split; [apply saved_text|].
  apply load_file; try assumption; constructor.
Qed.
Print Assumptions C130_save_then_load.

(** Nor does it look at the plugin: any function of the base class with as many
    parameters takes the numbers of the file. *)
Theorem C130_other_plugin_refuted : forall junk lex print rnd other_load, prints lex print rnd ->
  forall a l l' p q, map_ok a -> writable a -> savable (Leaf l p) -> lf_nb l' = lf_nb l ->
  py_load junk lex other_load (Some (save_file print a (Leaf l p))) (ONl (Leaf l' q)) = Ok (ONl (Leaf l' (map rnd p))).
Proof. intros. apply leaf_of_other_plugin; assumption. Qed.
Print Assumptions C130_other_plugin_refuted.

(** Nor at the first line of the file: what load_function refuses is loaded. *)
Theorem C130_no_header_refuted : forall junk lex print rnd sysdir env libs other_load, prints lex print rnd ->
  forall t t0 w, newlines w -> w <> [] -> savable t -> same_shape t0 t ->
  py_load_function junk lex sysdir env libs other_load (Some (w ++ save_call print t)) = Ok None /\
  py_load junk lex other_load (Some (w ++ save_call print t)) (ONl t0) = Ok (ONl (map_params (map rnd) t)).
Proof. intros. apply no_header; assumption. Qed.
Print Assumptions C130_no_header_refuted.

(** A load that fails is silent: a file that cannot be opened, or whose text is for
    another kind of function or none, leaves f as it was and raises nothing;
    load_function of a file that cannot be opened gives None. *)
Theorem C130_silent : forall junk lex other_load,
  (forall f, py_load junk lex other_load None f = Ok f) /\
  (forall sysdir env libs, py_load_function junk lex sysdir env libs other_load None = Ok None) /\
  (forall a p l q name post, map_ok a -> writable a -> solid name -> name <> lit "nonlinear_function" ->
     py_load junk lex other_load (Some (save_header a p ++ lit "#FUNC " ++ name ++ nl :: post)) (ONl (Leaf l q)) = Ok (ONl (Leaf l q))) /\
  (forall a p l q tag post, map_ok a -> writable a -> solid ("#"%char :: tag) -> "#"%char :: tag <> lit "#FUNC" ->
     py_load junk lex other_load (Some (save_header a p ++ ("#"%char :: tag) ++ nl :: post)) (ONl (Leaf l q)) = Ok (ONl (Leaf l q))).
Proof.
  intros junk lex ol. split; [reflexivity|]. split; [reflexivity|]. split.
  - intros a p l q name post Hm Hw Hs Hn. rewrite load_after_header by assumption.
    pose proof (proj1 (C29_other_functions_are_refused lex l q [nl] post ltac:(repeat constructor)) name Hs Hn) as H.
    cbn [load_object]. change (nl :: lit "#FUNC " ++ name ++ nl :: post) with ([nl] ++ lit "#FUNC " ++ name ++ nl :: post). rewrite H. reflexivity.
  - intros a p l q tag post Hm Hw Hs Hn. rewrite load_after_header by assumption.
    pose proof (proj2 (C29_other_functions_are_refused lex l q [nl] post ltac:(repeat constructor)) tag Hs Hn) as H.
    cbn [load_object]. change (nl :: ("#"%char :: tag) ++ nl :: post) with ([nl] ++ ("#"%char :: tag) ++ nl :: post). rewrite H. reflexivity.
Qed.
Print Assumptions C130_silent.

(** f.save has no command line to write: load_function of the file of a nonlinear
    function gives None (a rational function is made, and refuses the text). The call
    with arguments, which could name the function, always raises a TypeError. *)
Theorem C130_load_function_refuted : forall junk lex print rnd sysdir env libs other_par other_load other_text, prints lex print rnd ->
  (forall t, savable t -> exists text, py_save print other_par other_text (ONl t) = (text, Ok tt) /\
     py_load_function junk lex sysdir env libs other_load (Some text) = Ok None) /\
  (forall f a, py_save_with_args f a = Throw).
Proof.
  intros junk lex print rnd sysdir env libs op ol ot HP. split; [|reflexivity]. intros t Hv. exists (save_file print [] t).
  split; [apply saved_text|]. apply python_file. exact Hv.
Qed.
Print Assumptions C130_load_function_refuted.

(** For a rational function it works: coefficients and bounds come back as printed;
    the output parametrization is forgotten. *)
Theorem C130_rational : forall junk lex print rnd sysdir env libs other_par other_load other_text, prints lex print rnd ->
  forall p f channels, rnd 1%R = 1%R -> parse_input (get_name_in (in_param p)) = in_param p ->
  f_dimX f = dimX p -> f_dimY f = dimY p -> (0 < f_dimX f)%nat -> length (f_min f) = f_dimX f -> length (f_max f) = f_dimX f ->
  f_rs f = map Some channels -> length channels = f_dimY f -> Forall (channel_ok (f_dimX f)) channels ->
  exists text g, py_save print other_par other_text (ORat p f) = (text, Ok tt) /\
    py_load_function junk lex sysdir env libs other_load (Some text) = Ok (Some (ORat (mkParameters (dimX p) (dimY p) (in_param p) UNKNOWN_OUTPUT) g)) /\
    f_min g = map rnd (f_min f) /\ f_max g = map rnd (f_max f) /\
    Forall2 (fun c d => exists c', d = Some c' /\ r_p c' = round_coeffs rnd (r_p c) /\ r_q c' = round_coeffs rnd (r_q c)) channels (f_rs g).
Proof.
  intros junk lex print rnd sysdir env libs op ol ot HP p f channels R1 Hn Ex Ey Hd Hm HM Er Hl HF.
  pose proof (rational_file junk lex print rnd sysdir env libs op ol ot HP p f channels R1 Hn Ex Ey Hd Hm HM Er Hl HF) as H.
  assert (S : snd (py_save print op ot (ORat p f)) = Ok tt).
  { destruct (RatFile.load_save_rf junk lex print rnd HP f channels 0 0 [] [] R1 (Forall_nil _) Hd Hm HM Er Hl HF) as (t & S & _).
    unfold py_save, object_text, alta_text. rewrite S. reflexivity. }
  destruct (py_save print op ot (ORat p f)) as [text e]. cbn [fst snd] in *. subst e. eexists. eexists.
  split; [reflexivity|]. split; [exact H|]. split; [reflexivity|]. split; [reflexivity|]. cbn [f_rs].
  clear. induction channels as [|c cs IH]; cbn [map]; constructor; [|exact IH]. eexists. split; [reflexivity|]. split; reflexivity.
Qed.
Print Assumptions C130_rational.

(** The functions of C29: saved from Python, changed, and loaded again. *)
Example C130_case : exists text, py_save demo_print (fun _ => file_par) (fun _ => ([], Ok tt)) (ONl (file_tree 1 2 3 4 (-5) 66)) = (text, Ok tt) /\
  py_load 0%R demo_lex (fun _ _ => Throw) (Some text) (ONl (file_tree 0 0 0 0 0 0)) = Ok (ONl (file_tree 1 2 3 4 (-5) 66)) /\
  py_load_function 0%R demo_lex [] None (fun _ => None) (fun _ _ => Throw) (Some text) = Ok None.
Proof.
  set (t := file_tree 1 2 3 4 (-5) 66).
  assert (Hv : savable t) by (cbn; repeat split; discriminate).
  destruct (C130_save_then_load 0%R demo_lex demo_print _ (fun _ => file_par) (fun _ _ => Throw) (fun _ => ([], Ok tt)) demo_prints t (file_tree 0 0 0 0 0 0) Hv eq_refl) as (text & S & L).
  exists text. split; [exact S|]. split.
  - rewrite L. assert (E : forall z, Int_part (IZR z) = z).
    { intros z. unfold Int_part. rewrite <- (up_tech (IZR z) z); [lia|apply Rle_refl|]. rewrite plus_IZR. rewrite <- (Rplus_0_r (IZR z)) at 1. apply Rplus_lt_compat_l. exact Rlt_0_1. }
    unfold t. cbn [map_params file_tree map fst snd]. rewrite !E. reflexivity.
  - destruct (proj1 (C130_load_function_refuted 0%R demo_lex demo_print _ [] None (fun _ => None) (fun _ => file_par) (fun _ _ => Throw) (fun _ => ([], Ok tt)) demo_prints) t Hv) as (text' & S' & L').
    rewrite S in S'. injection S' as <-. exact L'.
Qed.

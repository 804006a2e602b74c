(** Proofs for C101: files. *)
From Coq Require Import Reals List Lia.
From Verif Require Import Base Num ParamsModel GeoModel ArgsModel ArgsSpec ArgsProofs DataModel DataProofs TextModel TextRound FuncModel FuncSpec FuncProofs FuncFile FuncFileSpec FuncFileProofs BootModel BootSpec BootProofs.
Open Scope R_scope.
Notation the_end := (lit "#ALTA HEADER END").

(** ** Headers *)
Lemma skip_one n line l r : ~ In nl l -> l <> the_end -> skip_header (S n) line (good_stream (l ++ nl :: r)) = skip_header n l (good_stream r).
Proof.
  intros Hn He. cbn [skip_header]. change (good (good_stream (l ++ nl :: r))) with true. cbn iota. cbn [rest good_stream].
  unfold getline. rewrite split_line_app by exact Hn. destruct (str_eqb_spec l "#ALTA HEADER END"%string) as [E|_]; [contradiction|]. reflexivity.
Qed.
Lemma end_no_nl : ~ In nl the_end.
Proof. intros H. vm_compute in H. repeat (destruct H as [H|H]; [discriminate|]). destruct H. Qed.
Lemma skip_after c body : after_header c body -> exists d, forall n, (d <= n)%nat -> skip_header n [] (good_stream c) = Some (good_stream body).
Proof.
  intros (ls & -> & H). exists (S (length ls)). generalize (@nil ascii) as line.
  induction H as [|l ls (Hn & He) _ IH]; intros line [|n] Hd; cbn [length] in Hd; try lia.
  - cbn [List.map concat app]. unfold endl at 1. rewrite <- app_assoc. cbn [app skip_header]. change (good (good_stream (the_end ++ nl :: body))) with true. cbn iota. cbn [rest good_stream].
    unfold getline. rewrite split_line_app by exact end_no_nl. rewrite str_eqb_refl. reflexivity.
  - cbn [List.map concat]. unfold endl at 1. rewrite <- !app_assoc. cbn [app]. rewrite skip_one by assumption. apply IH. lia.
Qed.
Lemma skip_bad : forall n line s, good s = false -> line <> the_end -> skip_header n line s = None.
Proof.
  induction n as [|n IH]; intros line s Hs Hl; [reflexivity|]. cbn [skip_header]. rewrite Hs. destruct (str_eqb_spec line "#ALTA HEADER END"%string) as [E|_]; [contradiction|].
  apply IH; [|exact Hl]. unfold good, set_fail. cbn. apply andb_false_r.
Qed.
Lemma skip_never : forall n line c, line <> the_end -> ~ has_line the_end c -> skip_header n line (good_stream c) = None.
Proof.
  induction n as [|n IH]; intros line c Hl Hc; [reflexivity|]. cbn [skip_header]. change (good (good_stream c)) with true. cbn iota. cbn [rest good_stream]. unfold getline.
  pose proof (split_line_inv c) as Hs. destruct (split_line c) as [l [r|]]; destruct Hs as [-> Hn].
  - destruct (str_eqb_spec l "#ALTA HEADER END"%string) as [E|Ne].
    + exfalso. apply Hc. exists [], (nl :: r). split; [rewrite E; reflexivity|]. split; [left; reflexivity|right; eauto].
    + apply (IH l r); [exact Ne|]. intros (pre & post & -> & Hpre & Hpost). apply Hc.
      exists (l ++ nl :: pre), post. split; [rewrite <- app_assoc; reflexivity|]. split; [|exact Hpost]. right.
      destruct Hpre as [->|(q & ->)]; [exists l; reflexivity|exists (l ++ nl :: q); rewrite <- app_assoc; reflexivity].
  - destruct (str_eqb_spec l "#ALTA HEADER END"%string) as [E|Ne].
    + exfalso. apply Hc. exists [], []. split; [rewrite E, app_nil_r; reflexivity|]. auto.
    + destruct l; apply skip_bad; solve [reflexivity|exact Ne].
Qed.
Lemma header_after args p body : writable args -> after_header (save_header args p ++ body) (nl :: body).
Proof.
  intros Hw. pose proof (cmd_one_line _ Hw) as HC. rewrite Forall_forall in HC.
  exists [lit "#ALTA FUNC HEADER"; lit "#CMD " ++ get_cmd args; lit "#DIM " ++ print_nat (dimX p) ++ lit " " ++ print_nat (dimY p); lit "#PARAM_IN  " ++ get_name_in (in_param p)].
  split; [unfold save_header; cbn [List.map concat]; rewrite <- !app_assoc; reflexivity|].
  assert (Hd : forall k, ~ In nl (print_nat k)) by (exact no_nl_nat).
  repeat constructor; try discriminate.
  - intros H; vm_compute in H; repeat (destruct H as [H|H]; [discriminate|]); destruct H.
  - intros H. apply in_app_iff in H as [H|H]; [vm_compute in H; repeat (destruct H as [H|H]; [discriminate|]); destruct H|]. destruct (HC _ H). congruence.
  - intros H. apply in_app_iff in H as [H|H]; [vm_compute in H; repeat (destruct H as [H|H]; [discriminate|]); destruct H|].
    apply in_app_iff in H as [H|H]; [apply (Hd _ H)|]. apply in_app_iff in H as [H|H]; [vm_compute in H; destruct H as [H|[]]; discriminate|apply (Hd _ H)].
  - intros H. apply in_app_iff in H as [H|H]; [vm_compute in H; repeat (destruct H as [H|H]; [discriminate|]); destruct H|].
    destruct (in_param p); vm_compute in H; repeat (destruct H as [H|H]; [discriminate|]); destruct H.
Qed.

(** ** A load that fails changes nothing *)
Lemma load_false lex : forall t s g s', load lex t s = Ok (false, g, s') -> g = t.
Proof.
  induction t as [l p|par fs IH|par x1 x2 f1 f2 IH1 IH2] using tree_ind'; intros s g s' H; cbn [load] in H.
  - destruct (load_leaf lex (lf_nb l) s) as [[[q|] s1]| | |] eqn:E; cbn [bind] in H; try discriminate. injection H as <- _. reflexivity.
  - destruct (load_loop (load lex) fs 0 s) as [[[n gs] s1]| | |] eqn:E; cbn [bind] in H; try discriminate. apply Ok_inj in H. injection H as Hn -> _.
    assert (L : forall fs0 k s n gs s1, Forall (fun f : bool * tree => forall s g s', load lex (snd f) s = Ok (false, g, s') -> g = snd f) fs0 ->
        load_loop (load lex) fs0 k s = Ok (n, gs, s1) -> (k <= n)%nat /\ (n = 0%nat -> gs = fs0)).
    { clear. induction fs0 as [|f fs0 IHf]; intros k s n gs s1 Hf E; cbn [load_loop] in E; [apply Ok_inj in E; injection E as -> -> _; auto|].
      destruct (tellg s) as [pos s0]. destruct (load lex (snd f) s0) as [[[b g] s2]| | |] eqn:E1; cbn [bind] in E; try discriminate.
      destruct (load_loop (load lex) fs0 _ _) as [[[n' gs'] s3]| | |] eqn:E2; cbn [bind] in E; try discriminate. apply Ok_inj in E. injection E as -> -> _.
      destruct (IHf _ _ _ _ _ (Forall_inv_tail Hf) E2) as (A & B). split; [destruct b; lia|]. intros ->. rewrite (B eq_refl). destruct b; [lia|].
      rewrite (Forall_inv Hf _ _ _ E1). destruct f; reflexivity. }
    destruct (L _ _ _ _ _ _ IH E) as (_ & B). symmetry in Hn. apply Nat.ltb_ge in Hn. rewrite B by lia. reflexivity.
  - destruct (tellg s) as [pos s0]. destruct (load lex f1 s0) as [[[b1 g1] s1]| | |] eqn:E1; cbn [bind] in H; try discriminate.
    destruct (tellg _) as [pos2 s2]. destruct (load lex f2 s2) as [[[b2 g2] s3]| | |] eqn:E2; cbn [bind] in H; try discriminate. apply Ok_inj in H. injection H as Hb -> _.
    destruct b1, b2; try discriminate. rewrite (IH1 _ _ _ E1), (IH2 _ _ _ E2). reflexivity.
Qed.

Section Files.
Variable lex : str -> option (R * str).
Variable atof : str -> R.
Variable files : str -> option str.
Variable obeys : leaf_fn -> bool.
Variable start : leaf_fn -> list R -> arguments -> list R.
Notation boot := (boot lex atof files obeys start).
Notation boots := (boots lex atof files obeys start).
Notation starts := (fun t a args g => boots t a args (Ok g)).

Lemma file_is args name : file_option args name -> is_vec args key = false /\ is_defined args key = true /\ at_key args key = name.
Proof. intros (H & F & N). unfold is_vec, is_defined, at_key. rewrite H. auto. Qed.
Lemma open_is name c : files (c_str name) = Some c -> open_file files name = Some (good_stream c).
Proof. intros H. unfold open_file. rewrite H. reflexivity. Qed.

Lemma fills1_run r f a args g r' : Fills1 lex starts r f a args g r' ->
  exists d, forall n, (d <= n)%nat -> try_load lex (fun u => boot n u a args) (Some r) f (good_stream r) = Some (Ok (g, good_stream r')).
Proof.
  intros [g0 r0 E|g0 s E Hs (d & Hd)].
  - exists 0%nat. intros n _. unfold try_load. rewrite E. reflexivity.
  - exists d. intros n Hn. unfold try_load. rewrite E. cbn [then_]. rewrite (boot_below lex atof files obeys start d n Hn _ _ _ _ Hd). cbn [then_]. unfold seekg. rewrite Hs. reflexivity.
Qed.
Lemma fills_run al args i r fs gs : Fills lex starts al args i r fs gs ->
  exists d, forall n, (d <= n)%nat -> file_loop lex (boot n) al args i fs (good_stream r) = Some (Ok gs).
Proof.
  induction 1 as [i r|i r x f g r' fs gs Hp H1 _ (d & IH)|i r x par x1 x2 f1 f2 g1 g2 r1 r2 fs gs H1 H2 _ (d & IH)].
  - exists 0%nat. reflexivity.
  - destruct (fills1_run _ _ _ _ _ _ H1) as (e & He). exists (Nat.max d e). intros n Hn. cbn [file_loop fst snd]. unfold tellg. change (good (good_stream r)) with true. cbn iota.
    change (rest (good_stream r)) with r. destruct f; try contradiction; rewrite He by lia; cbn [then_ fst snd]; rewrite IH by lia; reflexivity.
  - destruct (fills1_run _ _ _ _ _ _ H1) as (e1 & He1). destruct (fills1_run _ _ _ _ _ _ H2) as (e2 & He2). exists (Nat.max d (Nat.max e1 e2)). intros n Hn.
    cbn [file_loop fst snd]. unfold tellg at 1. change (good (good_stream r)) with true. cbn iota. unfold tellg at 1. change (good (good_stream r)) with true. cbn iota. change (rest (good_stream r)) with r.
    rewrite He1 by lia. cbn [then_ fst snd]. unfold tellg at 1. change (good (good_stream r1)) with true. cbn iota. change (rest (good_stream r1)) with r1.
    rewrite He2 by lia. cbn [then_ fst snd]. rewrite IH by lia. reflexivity.
Qed.
Lemma boots_file_sum par fs gs a args name c body : file_option args name -> files (c_str name) = Some c -> after_header c body ->
  Fills lex starts (achildren a) args 0 body fs gs -> boots (Compound par fs) a args (Ok (Compound par gs)).
Proof.
  intros Ho Hf Hh H. destruct (file_is _ _ Ho) as (V1 & V2 & V3). destruct (skip_after _ _ Hh) as (d & Hd). destruct (fills_run _ _ _ _ _ _ H) as (e & He).
  exists (S (Nat.max d e)). cbn [BootModel.boot]. rewrite V2, V1, V3, (open_is _ _ Hf), Hd by lia. rewrite He by lia. reflexivity.
Qed.
Lemma boots_file_product par x1 x2 f1 f2 g1 g2 r1 r2 a args name c body : file_option args name -> files (c_str name) = Some c -> after_header c body ->
  Fills1 lex starts body f1 (afirst a) args g1 r1 -> Fills1 lex starts r1 f2 (asecond a) args g2 r2 ->
  boots (Product par x1 x2 f1 f2) a args (Ok (Product par x1 x2 g1 g2)).
Proof.
  intros Ho Hf Hh H1 H2. destruct (file_is _ _ Ho) as (V1 & V2 & V3). destruct (skip_after _ _ Hh) as (d & Hd).
  destruct (fills1_run _ _ _ _ _ _ H1) as (e1 & He1).
  assert (H2' : exists e2, forall n, (e2 <= n)%nat -> exists s, try_load lex (fun u => boot n u (asecond a) args) (Some body) f2 (good_stream r1) = Some (Ok (g2, s))).
  { destruct H2 as [g0 r0 E|g0 s E Hs (k & Hk)].
    - exists 0%nat. intros n _. eexists. unfold try_load. rewrite E. reflexivity.
    - exists k. intros n Hn. eexists. unfold try_load. rewrite E. cbn [then_]. rewrite (boot_below lex atof files obeys start k n Hn _ _ _ _ Hk). reflexivity. }
  destruct H2' as (e2 & He2). exists (S (Nat.max d (Nat.max e1 e2))). cbn [BootModel.boot]. rewrite V2, V1, V3, (open_is _ _ Hf), Hd by lia.
  unfold tellg. change (good (good_stream body)) with true. cbn iota. change (rest (good_stream body)) with body.
  rewrite He1 by lia. cbn [then_ fst snd]. destruct (He2 (Nat.max d (Nat.max e1 e2))) as (s & Es); [lia|]. rewrite Es. reflexivity.
Qed.
Lemma never_file t a args name c : composite_tree t -> file_option args name -> files (c_str name) = Some c -> ~ has_line the_end c ->
  never_boots lex atof files obeys start t a args.
Proof.
  intros Ht Ho Hf Hc [|d]; [reflexivity|]. destruct (file_is _ _ Ho) as (V1 & V2 & V3).
  destruct t as [l p|par fs|par x1 x2 f1 f2]; [destruct Ht|..]; cbn [BootModel.boot]; rewrite V2, V1, V3, (open_is _ _ Hf); rewrite skip_never; try reflexivity; solve [discriminate|exact Hc].
Qed.
Lemma missing_file t a args name : file_option args name -> files (c_str name) = None ->
  (composite_tree t -> boots t a args (Ok t)) /\
  (forall l p, t = Leaf l p -> obeys l = true -> boots t a args Abort).
Proof.
  intros Ho Hf. destruct (file_is _ _ Ho) as (V1 & V2 & V3). split.
  - intros Ht. exists 1%nat. unfold open_file. destruct t as [l p|par fs|par x1 x2 f1 f2]; [destruct Ht|..]; cbn [BootModel.boot]; unfold open_file; rewrite V2, V1, V3, Hf; reflexivity.
  - intros l p -> Hl. exists 1%nat. cbn [BootModel.boot]. unfold leaf_bootstrap, base_bootstrap, open_file. rewrite Hl, V1, V2, V3, Hf.
    destruct Ho as (_ & _ & N). destruct name; [congruence|]. reflexivity.
Qed.
(** a leaf, alone *)
Lemma single_file l p a args name c s : obeys l = true -> file_option args name -> files (c_str name) = Some c ->
  (forall q, load_leaf lex (lf_nb l) (good_stream c) = Ok (q, s) -> boots (Leaf l p) a args (Ok (Leaf l (match q with Some q => q | None => p end)))).
Proof.
  intros Hl Ho Hf q E. destruct (file_is _ _ Ho) as (V1 & V2 & V3). exists 1%nat. cbn [BootModel.boot]. unfold leaf_bootstrap, base_bootstrap.
  rewrite Hl, V1, V2, V3, (open_is _ _ Hf). destruct Ho as (_ & _ & N). destruct name; [congruence|]. cbn [andb negb]. rewrite E. reflexivity.
Qed.
Lemma headed_not_loaded n args p body : load_leaf lex n (good_stream (save_header args p ++ body)) = Ok (None, good_stream (lit " FUNC HEADER" ++ skipn 17 (save_header args p) ++ body)).
Proof. reflexivity. Qed.
Lemma single_headed l p a args name args0 p0 body : obeys l = true -> file_option args name -> files (c_str name) = Some (save_header args0 p0 ++ body) ->
  boots (Leaf l p) a args (Ok (Leaf l p)).
Proof. intros Hl Ho Hf. apply (single_file l p a args name _ _ Hl Ho Hf None (headed_not_loaded _ _ _ _)). Qed.
Lemma ignored l p a args : obeys l = false -> boots (Leaf l p) a args (Ok (Leaf l (start l p args))).
Proof. intros Hl. exists 1%nat. cbn [BootModel.boot]. unfold leaf_bootstrap. rewrite Hl. reflexivity. Qed.

(** ** What was saved *)
Variable print : R -> str.
Variable rnd : R -> R.
Hypothesis Hp : prints lex print rnd.
Lemma saved_fills post al args : forall fs fs0 i w, List.map (fun f : bool * tree => (fst f, map_params (fun _ => []) (snd f))) fs0 = List.map (fun f : bool * tree => (fst f, map_params (fun _ => []) (snd f))) fs ->
  fold_right (fun (f : bool * tree) P => savable (snd f) /\ P) True fs -> newlines w ->
  Fills lex starts al args i (w ++ flat_map (fun f : bool * tree => save_call print (snd f)) fs ++ post) fs0 (List.map (fun f : bool * tree => (fst f, map_params (map rnd) (snd f))) fs).
Proof.
  induction fs as [|[x f] fs IH]; intros fs0 i w Hs Hv Hw; (destruct fs0 as [|[x0 f0] fs0]; try discriminate); [constructor|].
  cbn [List.map fst snd] in Hs. injection Hs as -> Hf Hs. destruct Hv as (Hv1 & Hv2). cbn [snd] in Hv1. cbn [List.map fst snd flat_map]. rewrite <- app_assoc.
  destruct f as [l p|par gs|par x1 x2 f1 f2].
  1,2: eapply Fills_one; [destruct f0; try discriminate; exact I|apply Fills_file, (load_saved _ _ _ Hp); [exact Hf|exact Hv1|exact Hw]|apply (IH fs0 (S i) [nl; nl] Hs Hv2 newlines2)].
  destruct f0 as [| |par0 y1 y2 h1 h2]; try discriminate. cbn [map_params] in Hf. injection Hf as -> -> -> Hf1 Hf2. destruct Hv1 as (Hv3 & Hv4).
  cbn [map_params save_call]. rewrite <- app_assoc.
  eapply Fills_product; [apply Fills_file, (load_saved _ _ _ Hp); [exact Hf1|exact Hv3|exact Hw]|apply Fills_file, (load_saved _ _ _ Hp f2 h2 [nl; nl]); [exact Hf2|exact Hv4|exact newlines2]|apply (IH fs0 (S i) [nl; nl] Hs Hv2 newlines2)].
Qed.
Lemma boots_saved t t0 a args name args0 : composite_tree t -> same_shape t0 t -> savable t -> writable args0 ->
  file_option args name -> files (c_str name) = Some (save_file print args0 t) -> boots t0 a args (Ok (map_params (map rnd) t)).
Proof.
  intros Ht Hs Hv Hw Ho Hf. unfold save_file in Hf.
  pose proof (header_after args0 (par_of t) (save_body t ++ save_call print t ++ endl []) Hw) as Hh. unfold same_shape in Hs.
  change (nl :: save_body t ++ save_call print t ++ endl []) with ((nl :: save_body t) ++ save_call print t ++ endl []) in Hh.
  assert (Hn : newlines (nl :: save_body t)) by (constructor; [reflexivity|apply body_newlines]).
  destruct t as [l p|par fs|par x1 x2 f1 f2]; [destruct Ht|..].
  - destruct t0 as [|par0 fs0|]; try discriminate. cbn [map_params] in Hs. injection Hs as -> Hs. destruct Hv as (_ & Hv).
    cbn [map_params]. eapply boots_file_sum; [exact Ho|exact Hf|exact Hh|]. cbn [save_call]. apply saved_fills; assumption.
  - destruct t0 as [| |par0 y1 y2 h1 h2]; try discriminate. cbn [map_params] in Hs. injection Hs as -> -> -> Hs1 Hs2. destruct Hv as (Hv1 & Hv2).
    cbn [map_params]. cbn [save_call] in Hh, Hf. rewrite <- (app_assoc (save_call print f1)) in Hh, Hf.
    eapply boots_file_product; [exact Ho|exact Hf|exact Hh| |].
    + apply Fills_file, (load_saved _ _ _ Hp); assumption.
    + apply Fills_file, (load_saved _ _ _ Hp f2 h2 [nl; nl]); [exact Hs2|exact Hv2|exact newlines2].
Qed.
End Files.

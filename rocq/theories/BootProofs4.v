(** Proofs for C101: no option; what a vector leaves alone; when the call returns. *)
From Coq Require Import Reals List Lia.
From Verif Require Import Base Num ParamsModel GeoModel ArgsModel ArgsSpec ArgsProofs DataModel TextModel TextRound FuncModel FuncSpec FuncProofs FuncFile FuncFileSpec FuncFileProofs BootModel BootSpec BootProofs BootProofs2 BootProofs3.
Open Scope R_scope.

Section More.
Variable lex : str -> option (R * str).
Variable atof : str -> R.
Variable files : str -> option str.
Variable obeys : leaf_fn -> bool.
Variable start : leaf_fn -> list R -> arguments -> list R.
Notation boot := (boot lex atof files obeys start).
Notation boots := (boots lex atof files obeys start).

Lemma none_is args : no_option args -> is_vec args key = false /\ is_defined args key = false.
Proof. intros H. unfold is_vec, is_defined. rewrite H. auto. Qed.
Lemma each_run al : forall fs gs i, length gs = length fs ->
  (forall j x f, nth_error fs j = Some (x, f) -> exists g, nth_error gs j = Some (x, g) /\ boots f (snd (achild al (i + j))) (fst (achild al (i + j))) (Ok g)) ->
  exists d, forall n, (d <= n)%nat -> boot_loop (boot n) false al i fs = Some (Ok gs).
Proof.
  induction fs as [|[x f] fs IH]; intros gs i Hl H.
  - exists 0%nat. intros n _. destruct gs; [reflexivity|discriminate].
  - destruct gs as [|[y g] gs]; [discriminate|]. injection Hl as Hl. destruct (H 0%nat x f eq_refl) as (g0 & E & e & He). injection E as -> ->. rewrite Nat.add_0_r in He.
    destruct (IH gs (S i) Hl) as (d & Hd).
    { intros j y h Ej. destruct (H (S j) y h Ej) as (g1 & E1 & B1). exists g1. split; [exact E1|]. rewrite Nat.add_succ_r in B1. exact B1. }
    exists (Nat.max d e). intros n Hn. cbn [boot_loop fst snd andb]. rewrite (boot_below lex atof files obeys start e n ltac:(lia) _ _ _ _ He). cbn [then_]. rewrite Hd by lia. reflexivity.
Qed.
Lemma boots_each_sum par fs gs a args : no_option args -> length gs = length fs ->
  (forall j x f, nth_error fs j = Some (x, f) -> exists g, nth_error gs j = Some (x, g) /\ boots f (snd (achild (achildren a) j)) (fst (achild (achildren a) j)) (Ok g)) ->
  boots (Compound par fs) a args (Ok (Compound par gs)).
Proof.
  intros Hn Hl H. destruct (none_is _ Hn) as (V1 & V2). destruct (each_run (achildren a) fs gs 0 Hl H) as (d & Hd). exists (S d). cbn [BootModel.boot]. rewrite V2, Hd by lia. reflexivity.
Qed.
Lemma boots_each_product par x1 x2 f1 f2 g1 g2 a args : no_option args -> boots f1 (afirst a) args (Ok g1) -> boots f2 (asecond a) args (Ok g2) ->
  boots (Product par x1 x2 f1 f2) a args (Ok (Product par x1 x2 g1 g2)).
Proof.
  intros Hn (d1 & H1) (d2 & H2). destruct (none_is _ Hn) as (V1 & V2). exists (S (Nat.max d1 d2)). cbn [BootModel.boot]. rewrite V2.
  rewrite (boot_below lex atof files obeys start d1 (Nat.max d1 d2) ltac:(lia) _ _ _ _ H1). cbn [then_]. rewrite (boot_below lex atof files obeys start d2 (Nat.max d1 d2) ltac:(lia) _ _ _ _ H2). reflexivity.
Qed.

(** ** A vector: when the call returns *)
Lemma zero_none b al : forall fs i, Forall (fun f : bool * tree => nb (snd f) <> 0%nat) fs -> boot_loop b true al i fs = Some (Ok fs).
Proof.
  induction fs as [|[x f] fs IH]; intros i H; [reflexivity|]. cbn [boot_loop fst snd]. pose proof (Forall_inv H) as H0. cbn [snd] in H0. apply Nat.eqb_neq in H0. rewrite H0. cbn [negb andb then_].
  rewrite IH by apply (Forall_inv_tail H). reflexivity.
Qed.
Lemma set_loop_nb v : forall fs gs c, set_loop set_parameters v fs c = Ok gs -> Forall (fun f : bool * tree => nb (snd f) <> 0%nat) fs -> Forall (fun f : bool * tree => nb (snd f) <> 0%nat) gs.
Proof.
  induction fs as [|f fs IH]; intros gs c El Hz; cbn [set_loop] in El; [apply Ok_inj in El; subst; constructor|].
  destruct ((0 <? nb (snd f))%nat && negb (fst f))%bool.
  - destruct (slice _ c (nb (snd f))) as [q| | |] eqn:Eq; cbn [bind] in El; try discriminate.
    destruct (set_parameters (snd f) q) as [g| | |] eqn:Eg; cbn [bind] in El; try discriminate.
    destruct (set_loop set_parameters _ fs _) as [gs'| | |] eqn:E2; cbn [bind] in El; try discriminate. apply Ok_inj in El. subst gs.
    constructor; [|apply (IH _ _ E2 (Forall_inv_tail Hz))]. cbn [snd]. pose proof (set_kept _ _ _ Eg (slice_length _ _ _ _ Eq)) as (_ & K & _). rewrite K. apply (Forall_inv Hz).
  - destruct (set_loop set_parameters _ fs c) as [gs'| | |] eqn:E2; cbn [bind] in El; try discriminate. apply Ok_inj in El. subst gs.
    constructor; [apply (Forall_inv Hz)|apply (IH _ _ E2 (Forall_inv_tail Hz))].
Qed.
Lemma boots_vector_returns t a args es : tree_ok t -> vector_option args es ->
  (match t with Compound _ fs => Forall (fun f : bool * tree => nb (snd f) <> 0%nat) fs | Product _ _ _ _ _ => True | Leaf l _ => obeys l = true end) ->
  exists t', boots t a args (Ok t').
Proof.
  intros Ht Hv Hz. destruct (vector_is args es Hv) as (V1 & V2). destruct t as [l p|par fs|par x1 x2 f1 f2].
  - eexists. exists 1%nat. cbn [BootModel.boot]. unfold leaf_bootstrap, base_bootstrap. rewrite Hz, V1, V2. reflexivity.
  - destruct (set_spec (Compound par fs) (get_vec_num atof args key (nb (Compound par fs)) 0) Ht) as (u & E & (S1 & S2 & S3) & F & C); [apply get_vec_num_length|].
    pose proof (set_kept _ _ _ E (get_vec_num_length _ _ _ _ _)) as _.
    inversion C as [|? ? gs Hgs E1 E2|]; subst. exists (Compound par gs). exists 1%nat. cbn [BootModel.boot]. rewrite V2, V1, E. cbn [then_].
    rewrite zero_none; [reflexivity|]. cbn [set_parameters] in E. destruct (set_loop set_parameters _ fs 0) as [hs| | |] eqn:El; cbn [bind] in E; try discriminate. apply Ok_inj in E. injection E as E. subst hs.
    apply (set_loop_nb _ _ _ _ El Hz).
  - destruct (set_spec (Product par x1 x2 f1 f2) (get_vec_num atof args key (nb (Product par x1 x2 f1 f2)) 0) Ht) as (u & E & _); [apply get_vec_num_length|].
    exists u, 1%nat. cbn [BootModel.boot]. rewrite V2, V1, E. reflexivity.
Qed.
(** ** A vector: the fixed functions *)
Lemma set_loop_fixed set p : forall fs c gs i f, set_loop set p fs c = Ok gs -> nth_error fs i = Some (true, f) -> nth_error gs i = Some (true, f).
Proof.
  induction fs as [|[x h] fs IH]; intros c gs i f E Hi; [destruct i; discriminate|]. cbn [set_loop fst snd] in E.
  destruct ((0 <? nb h)%nat && negb x)%bool eqn:Ex.
  - destruct (slice _ c (nb h)) as [q| | |]; cbn [bind] in E; try discriminate. destruct (set h q) as [g| | |]; cbn [bind] in E; try discriminate.
    destruct (set_loop set p fs _) as [gs'| | |] eqn:E2; cbn [bind] in E; try discriminate. apply Ok_inj in E. subst gs.
    destruct i as [|i]; [|apply (IH _ _ _ _ E2 Hi)]. cbn in Hi. injection Hi as -> ->. rewrite andb_false_r in Ex. discriminate.
  - destruct (set_loop set p fs c) as [gs'| | |] eqn:E2; cbn [bind] in E; try discriminate. apply Ok_inj in E. subst gs. destruct i as [|i]; [exact Hi|apply (IH _ _ _ _ E2 Hi)].
Qed.
Lemma zero_keeps b al : forall fs i gs j x f, boot_loop b true al i fs = Some (Ok gs) -> nth_error fs j = Some (x, f) -> nb f <> 0%nat -> nth_error gs j = Some (x, f).
Proof.
  induction fs as [|[y h] fs IH]; intros i gs j x f H Hj Hn; cbn [boot_loop fst snd] in H; [destruct j; discriminate|].
  apply then_some in H as [(g & E & H)|[(_ & H)|[(_ & H)|(_ & H)]]]; [|discriminate H..].
  apply then_some in H as [(gs' & E2 & H)|[(_ & H)|[(_ & H)|(_ & H)]]]; [|discriminate H..]. injection H as <-.
  destruct j as [|j]; [|apply (IH _ _ _ _ _ E2 Hj Hn)]. cbn in Hj. injection Hj as -> ->. apply Nat.eqb_neq in Hn. rewrite Hn in E. injection E as <-. reflexivity.
Qed.
Lemma boots_vector_fixed args es a : vector_option args es ->
  (forall par fs t' i f, boots (Compound par fs) a args (Ok t') -> nth_error fs i = Some (true, f) -> nb f <> 0%nat ->
     exists gs, t' = Compound par gs /\ nth_error gs i = Some (true, f)) /\
  (forall par x2 f1 f2 t', boots (Product par true x2 f1 f2) a args (Ok t') -> exists g2, t' = Product par true x2 f1 g2) /\
  (forall par x1 f1 f2 t', boots (Product par x1 true f1 f2) a args (Ok t') -> exists g1, t' = Product par x1 true g1 f2).
Proof.
  intros Hv. destruct (vector_is args es Hv) as (V1 & V2). split; [|split].
  - intros par fs t' i f ([|d] & H) Hi Hn; [discriminate|]. cbn [BootModel.boot] in H. rewrite V2, V1 in H.
    apply then_some in H as [(u & E & H)|[(_ & H)|[(_ & H)|(_ & H)]]]; [|discriminate H..]. apply some_inj in E. cbn [set_parameters] in E.
    destruct (set_loop set_parameters _ fs 0) as [hs| | |] eqn:El; cbn [bind] in E; try discriminate. apply Ok_inj in E. subst u.
    apply then_some in H as [(gs & E & H)|[(_ & H)|[(_ & H)|(_ & H)]]]; [|discriminate H..]. injection H as <-. exists gs. split; [reflexivity|].
    apply (zero_keeps _ _ _ _ _ _ _ _ E); [|exact Hn]. apply (set_loop_fixed _ _ _ _ _ _ _ El Hi).
  - intros par x2 f1 f2 t' ([|d] & H); [discriminate|]. cbn [BootModel.boot] in H. rewrite V2, V1 in H. apply some_inj in H. cbn [set_parameters bind] in H.
    match type of H with (do g2 <- ?e; _) = _ => destruct e as [g2| | |]; cbn [bind] in H; try discriminate end. apply Ok_inj in H. subst t'. eauto.
  - intros par x1 f1 f2 t' ([|d] & H); [discriminate|]. cbn [BootModel.boot] in H. rewrite V2, V1 in H. apply some_inj in H. cbn [set_parameters bind] in H.
    match type of H with (do g2 <- ?e; _) = _ => destruct e as [g2| | |]; cbn [bind] in H; try discriminate end. apply Ok_inj in H. subst t'. eauto.
Qed.
End More.

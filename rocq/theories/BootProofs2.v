(** Proofs for C101: bootstrap keeps structure and sizes; the option as a vector. *)
From Coq Require Import Reals List Lia.
From Verif Require Import Base Num ParamsModel GeoModel ArgsModel ArgsSpec ArgsProofs DataModel TextModel TextRound FuncModel FuncSpec FuncProofs FuncFile FuncFileSpec FuncFileProofs BootModel BootSpec BootProofs.
Open Scope R_scope.

Section Kept.
Variable lex : str -> option (R * str).
Variable atof : str -> R.
Variable files : str -> option str.
Variable obeys : leaf_fn -> bool.
Variable start : leaf_fn -> list R -> arguments -> list R.
Hypothesis Hstart : starts_sized start.
Notation boot := (boot lex atof files obeys start).
Notation boots := (boots lex atof files obeys start).

Lemma some_inj {A} (x y : A) : Some x = Some y -> x = y. Proof. congruence. Qed.

Lemma try_load_kept b pos t s g s' : (forall u v, b u = Some (Ok v) -> kept u v) -> try_load lex b pos t s = Some (Ok (g, s')) -> kept t g.
Proof.
  intros Hb H. unfold try_load in H. apply then_some in H as [([[c u] s1] & E & H)|[(_ & H)|[(_ & H)|(_ & H)]]]; [|discriminate H..].
  apply some_inj in E. apply load_kept in E. destruct c; [injection H as <- _; exact E|].
  apply then_some in H as [(v & E2 & H)|[(_ & H)|[(_ & H)|(_ & H)]]]; [|discriminate H..]. injection H as <- _. apply (kept_trans _ _ _ E), Hb, E2.
Qed.
Lemma boot_loop_kept b zero al : (forall t a args g, b t a args = Some (Ok g) -> kept t g) ->
  forall fs i gs, boot_loop b zero al i fs = Some (Ok gs) -> kepts fs gs.
Proof.
  intros Hb. induction fs as [|f fs IH]; intros i gs H; cbn [boot_loop] in H; [injection H as <-; constructor|].
  apply then_some in H as [(g & E & H)|[(_ & H)|[(_ & H)|(_ & H)]]]; [|discriminate H..].
  apply then_some in H as [(gs' & E2 & H)|[(_ & H)|[(_ & H)|(_ & H)]]]; [|discriminate H..]. injection H as <-.
  constructor; [|apply (IH _ _ E2)]. cbn [fst snd]. split; [reflexivity|].
  destruct (zero && negb (nb (snd f) =? 0)%nat)%bool; [injection E as <-; apply kept_refl|apply (Hb _ _ _ _ E)].
Qed.
Lemma file_loop_kept b al args : (forall t a args g, b t a args = Some (Ok g) -> kept t g) ->
  forall fs i s gs, file_loop lex b al args i fs s = Some (Ok gs) -> kepts fs gs.
Proof.
  intros Hb. induction fs as [|f fs IH]; intros i s gs H; cbn [file_loop] in H; [injection H as <-; constructor|].
  destruct (tellg s) as [pos s0]. apply then_some in H as [([g s1] & E & H)|[(_ & H)|[(_ & H)|(_ & H)]]]; [|discriminate H..].
  apply then_some in H as [(gs' & E2 & H)|[(_ & H)|[(_ & H)|(_ & H)]]]; [|discriminate H..]. injection H as <-.
  constructor; [|apply (IH _ _ _ E2)]. cbn [fst snd]. split; [reflexivity|].
  destruct (snd f) as [l p|par gs|par x1 x2 f1 f2]; [apply (try_load_kept _ _ _ _ _ _ (fun u v => Hb _ _ _ v) E)..|].
  destruct (tellg s0) as [pos1 s2]. apply then_some in E as [([g1 s3] & E1 & E)|[(_ & E)|[(_ & E)|(_ & E)]]]; [|discriminate E..]. cbn [fst snd] in E.
  destruct (tellg s3) as [pos2 s4]. apply then_some in E as [([g2 s5] & E3 & E)|[(_ & E)|[(_ & E)|(_ & E)]]]; [|discriminate E..]. injection E as <- _. cbn [fst].
  apply kept_product; [apply (try_load_kept _ _ _ _ _ _ (fun u v => Hb _ _ _ v) E1)|apply (try_load_kept _ _ _ _ _ _ (fun u v => Hb _ _ _ v) E3)].
Qed.
(** setParameters keeps structure and sizes whatever the vector's size *)
Lemma slice_length p n : forall off q, slice p off n = Ok q -> length q = n.
Proof.
  induction n as [|n IH]; intros off q H; cbn [slice] in H; [injection H as <-; reflexivity|].
  destruct (rd p off); cbn [bind] in H; try discriminate. destruct (slice p (S off) n) eqn:E; cbn [bind] in H; try discriminate. injection H as <-. cbn. f_equal. apply (IH _ _ E).
Qed.
Lemma set_kept : forall t p t', set_parameters t p = Ok t' -> length p = nb t -> kept t t'.
Proof.
  induction t as [l p0|par fs IH|par x1 x2 f1 f2 IH1 IH2] using tree_ind'; intros p t' H Hp; cbn [set_parameters] in H.
  - injection H as <-. split; [reflexivity|]. split; [reflexivity|]. cbn [tree_ok]. intros (A & B). split; [exact Hp|exact B].
  - destruct (set_loop set_parameters p fs 0) as [gs| | |] eqn:E; cbn [bind] in H; try discriminate. injection H as <-. apply kept_compound.
    clear Hp. revert E. generalize 0%nat as c. revert gs. induction IH as [|f fs Hf _ IHfs]; intros gs c E; cbn [set_loop] in E; [injection E as <-; constructor|].
    destruct ((0 <? nb (snd f))%nat && negb (fst f))%bool.
    + destruct (slice p c (nb (snd f))) as [q| | |] eqn:Eq; cbn [bind] in E; try discriminate.
      destruct (set_parameters (snd f) q) as [g| | |] eqn:Eg; cbn [bind] in E; try discriminate.
      destruct (set_loop set_parameters p fs _) as [gs'| | |] eqn:E2; cbn [bind] in E; try discriminate. injection E as <-.
      constructor; [|apply (IHfs _ _ E2)]. cbn [fst snd]. split; [reflexivity|]. apply (Hf q); [exact Eg|apply (slice_length _ _ _ _ Eq)].
    + destruct (set_loop set_parameters p fs c) as [gs'| | |] eqn:E2; cbn [bind] in E; try discriminate. injection E as <-.
      constructor; [split; [reflexivity|apply kept_refl]|apply (IHfs _ _ E2)].
  - set (n1 := (if x1 then 0%nat else nb f1)) in *.
    destruct (if x1 then Ok f1 else do q <- slice p 0 n1; set_parameters f1 q) as [g1| | |] eqn:E1; cbn [bind] in H; try discriminate.
    destruct (if x2 then Ok f2 else do q <- slice p n1 (nb f2); set_parameters f2 q) as [g2| | |] eqn:E2; cbn [bind] in H; try discriminate. injection H as <-.
    apply kept_product.
    + destruct x1; [injection E1 as <-; apply kept_refl|]. destruct (slice p 0 n1) as [q| | |] eqn:Eq; cbn [bind] in E1; try discriminate. apply (IH1 q); [exact E1|apply (slice_length _ _ _ _ Eq)].
    + destruct x2; [injection E2 as <-; apply kept_refl|]. destruct (slice p n1 (nb f2)) as [q| | |] eqn:Eq; cbn [bind] in E2; try discriminate. apply (IH2 q); [exact E2|apply (slice_length _ _ _ _ Eq)].
Qed.
Lemma boot_kept : forall fuel t a args t', boot fuel t a args = Some (Ok t') -> kept t t'.
Proof.
  induction fuel as [|d IH]; intros t a args t' H; [discriminate|]. cbn [BootModel.boot] in H. destruct t as [l p|par fs|par x1 x2 f1 f2].
  - destruct (leaf_bootstrap lex atof files obeys start l p args) as [q| | |] eqn:E; cbn [bind] in H; try discriminate. injection H as <-. apply (leaf_boot_kept _ _ _ _ _ Hstart _ _ _ _ E).
  - destruct (is_defined args key).
    + destruct (is_vec args key).
      * apply then_some in H as [(u & E & H)|[(_ & H)|[(_ & H)|(_ & H)]]]; [|discriminate H..]. apply some_inj in E. apply set_kept in E; [|apply get_vec_num_length].
        destruct u as [| par' fs' |]; [injection H as <-; exact E| |injection H as <-; exact E].
        apply then_some in H as [(gs & E2 & H)|[(_ & H)|[(_ & H)|(_ & H)]]]; [|discriminate H..]. injection H as <-. apply (kept_trans _ _ _ E), kept_compound, (boot_loop_kept _ _ _ IH _ _ _ E2).
      * destruct (open_file files (at_key args key)) as [s|]; [|injection H as <-; apply kept_refl].
        destruct (skip_header d [] s) as [s'|]; [|discriminate].
        apply then_some in H as [(gs & E2 & H)|[(_ & H)|[(_ & H)|(_ & H)]]]; [|discriminate H..]. injection H as <-. apply kept_compound, (file_loop_kept _ _ _ IH _ _ _ _ E2).
    + apply then_some in H as [(gs & E2 & H)|[(_ & H)|[(_ & H)|(_ & H)]]]; [|discriminate H..]. injection H as <-. apply kept_compound, (boot_loop_kept _ _ _ IH _ _ _ E2).
  - destruct (is_defined args key).
    + destruct (is_vec args key).
      * apply some_inj in H. apply set_kept in H; [exact H|apply get_vec_num_length].
      * destruct (open_file files (at_key args key)) as [s|]; [|injection H as <-; apply kept_refl].
        destruct (skip_header d [] s) as [s'|]; [|discriminate]. destruct (tellg s') as [pos s1].
        apply then_some in H as [([g1 s3] & E1 & H)|[(_ & H)|[(_ & H)|(_ & H)]]]; [|discriminate H..]. cbn [fst snd] in H.
        apply then_some in H as [([g2 s5] & E3 & H)|[(_ & H)|[(_ & H)|(_ & H)]]]; [|discriminate H..]. injection H as <-. cbn [fst].
        apply kept_product; [apply (try_load_kept _ _ _ _ _ _ (fun u v => IH _ _ _ v) E1)|apply (try_load_kept _ _ _ _ _ _ (fun u v => IH _ _ _ v) E3)].
    + apply then_some in H as [(g1 & E1 & H)|[(_ & H)|[(_ & H)|(_ & H)]]]; [|discriminate H..].
      apply then_some in H as [(g2 & E2 & H)|[(_ & H)|[(_ & H)|(_ & H)]]]; [|discriminate H..]. injection H as <-. apply kept_product; eapply IH; eassumption.
Qed.
Lemma boots_kept t a args t' : boots t a args (Ok t') -> par_of t' = par_of t /\ nb t' = nb t /\ (tree_ok t -> tree_ok t').
Proof. intros (n & H). apply (boot_kept _ _ _ _ _ H). Qed.

(** ** The option is a vector *)
Lemma zero_flat b al par : (forall t a args g, b t a args = Some (Ok g) -> kept t g) -> forall fs i gs, ok_fs par fs ->
  boot_loop b true al i fs = Some (Ok gs) -> flat_fs cur gs = flat_fs cur fs.
Proof.
  intros Hb. induction fs as [|f fs IH]; intros i gs Hok H; cbn [boot_loop] in H; [injection H as <-; reflexivity|].
  apply then_some in H as [(g & E & H)|[(_ & H)|[(_ & H)|(_ & H)]]]; [|discriminate H..].
  apply then_some in H as [(gs' & E2 & H)|[(_ & H)|[(_ & H)|(_ & H)]]]; [|discriminate H..]. injection H as <-. destruct Hok as ((K1 & K2) & K3).
  unfold flat_fs in *. cbn [flat_map fst snd]. rewrite (IH _ _ K3 E2). f_equal. destruct (fst f); [reflexivity|].
  cbn [andb] in E. destruct (Nat.eqb_spec (nb (snd f)) 0) as [E0|N0]; cbn [negb] in E; [|injection E as <-; reflexivity].
  destruct (Hb _ _ _ _ E) as (_ & B & C). specialize (C K1). pose proof (flat_length cur sel_cur g C) as L1. pose proof (flat_length cur sel_cur (snd f) K1) as L2.
  rewrite B, E0 in L1. rewrite E0 in L2. destruct (flat cur g), (flat cur (snd f)); try discriminate. reflexivity.
Qed.
Lemma vector_is args es : vector_option args es -> is_vec args key = true /\ is_defined args key = true.
Proof. intros (H & _). unfold is_vec, is_defined. rewrite H. split; reflexivity. Qed.
Lemma boots_vector junk t a args es t' : tree_ok t -> vector_option args es -> (composite_tree t \/ exists l p, t = Leaf l p /\ obeys l = true) ->
  boots t a args (Ok t') -> exists p, get_parameters junk t' = Ok p /\ length p = nb t /\
    forall i, (i < nb t)%nat -> nth i p 0 = if (i <? length es)%nat then atof (c_str (nth i es [])) else 0.
Proof.
  intros Ht Hv Hc ([|d] & H); [discriminate|]. pose proof (boot_kept _ _ _ _ _ H) as (_ & _ & Hk). specialize (Hk Ht).
  destruct (vector_is args es Hv) as (V1 & V2). exists (get_vec_num atof args key (nb t) 0).
  split; [|split; [apply get_vec_num_length|intros i Hi; apply get_vec_num_bracket; [apply Hv..|exact Hi]]].
  unfold get_parameters. change (fun (_ : leaf_fn) (p0 : list R) => p0) with cur. rewrite gather_spec by (try exact sel_cur; exact Hk). f_equal.
  cbn [BootModel.boot] in H. destruct t as [l p|par fs|par x1 x2 f1 f2].
  - destruct Hc as [[]|(l' & p' & E & Ho)]. injection E as <- <-. unfold leaf_bootstrap, base_bootstrap in H. rewrite Ho, V1, V2 in H. injection H as <-. reflexivity.
  - rewrite V2, V1 in H. destruct (set_spec (Compound par fs) (get_vec_num atof args key (nb (Compound par fs)) 0) Ht) as (u & E & (S1 & S2 & S3) & F & C); [apply get_vec_num_length|].
    rewrite E in H. cbn [then_] in H. inversion C as [|? ? gs Hgs E1 E2|]; subst. cbn [then_] in H.
    apply then_some in H as [(hs & E2 & H)|[(_ & H)|[(_ & H)|(_ & H)]]]; [|discriminate H..]. injection H as <-.
    rewrite <- F. apply (zero_flat (boot d) (achildren a) par (fun t a args g => boot_kept d t a args g) gs 0); [exact S3|exact E2].
  - rewrite V2, V1 in H. apply some_inj in H. destruct (set_spec (Product par x1 x2 f1 f2) (get_vec_num atof args key (nb (Product par x1 x2 f1 f2)) 0) Ht) as (u & E & (S1 & S2 & S3) & F & C); [apply get_vec_num_length|].
    rewrite E in H. injection H as ->. exact F.
Qed.
End Kept.

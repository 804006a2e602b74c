(** Proofs for C101: determinism, headers, what is kept. *)
From Coq Require Import Reals List Lia.
From Verif Require Import Base Num ParamsModel GeoModel ArgsModel ArgsSpec ArgsProofs DataModel TextModel TextRound FuncModel FuncSpec FuncProofs FuncFile FuncFileSpec FuncFileProofs BootModel BootSpec.
Open Scope R_scope.

Section Mono.
Variable lex : str -> option (R * str).
Variable atof : str -> R.
Variable files : str -> option str.
Variable obeys : leaf_fn -> bool.
Variable start : leaf_fn -> list R -> arguments -> list R.
Notation boot := (boot lex atof files obeys start).

Lemma then_some {A B} (o : option (outcome A)) (k : A -> option (outcome B)) r : then_ o k = Some r ->
  (exists a, o = Some (Ok a) /\ k a = Some r) \/ (o = Some Throw /\ r = Throw) \/ (o = Some Abort /\ r = Abort) \/ (o = Some UB /\ r = UB).
Proof. destruct o as [[a| | |]|]; cbn [then_]; intros H; try discriminate; [left; eauto|..]; injection H as <-; auto 6. Qed.
Definition below {A} (x y : option A) : Prop := forall r, x = Some r -> y = Some r.
Lemma below_refl {A} (x : option A) : below x x. Proof. intros r H; exact H. Qed.
Lemma then_below {A B} (o1 o2 : option (outcome A)) (k1 k2 : A -> option (outcome B)) :
  below o1 o2 -> (forall a, below (k1 a) (k2 a)) -> below (then_ o1 k1) (then_ o2 k2).
Proof.
  intros H K r E. apply then_some in E as [(a & E1 & E2)|[(E1 & ->)|[(E1 & ->)|(E1 & ->)]]]; rewrite (H _ E1); cbn [then_]; [apply K, E2|reflexivity..].
Qed.
Lemma skip_header_below : forall n m line s, (n <= m)%nat -> below (skip_header n line s) (skip_header m line s).
Proof.
  induction n as [|n IH]; intros m line s Hm r E; [discriminate|]. destruct m as [|m]; [lia|]. cbn [skip_header] in *.
  destruct (if good s then getline (rest s) else (line, set_fail s)) as [l' s']. destruct (str_eqb l' _); [exact E|]. apply (IH m); [lia|exact E].
Qed.
Lemma try_load_below b1 b2 pos t s : (forall g, below (b1 g) (b2 g)) -> below (try_load lex b1 pos t s) (try_load lex b2 pos t s).
Proof.
  intros H. unfold try_load. apply then_below; [apply below_refl|]. intros [[b g] s']. destruct b; [apply below_refl|]. apply then_below; [apply H|]. intros h. apply below_refl.
Qed.
Lemma boot_loop_below b1 b2 zero al : (forall t a args, below (b1 t a args) (b2 t a args)) -> forall fs i, below (boot_loop b1 zero al i fs) (boot_loop b2 zero al i fs).
Proof.
  intros H. induction fs as [|f fs IH]; intros i; [apply below_refl|]. cbn [boot_loop]. apply then_below.
  - destruct (zero && negb (nb (snd f) =? 0)%nat)%bool; [apply below_refl|apply H].
  - intros g. apply then_below; [apply IH|]. intros; apply below_refl.
Qed.
Lemma file_loop_below b1 b2 al args : (forall t a args, below (b1 t a args) (b2 t a args)) -> forall fs i s, below (file_loop lex b1 al args i fs s) (file_loop lex b2 al args i fs s).
Proof.
  intros H. induction fs as [|f fs IH]; intros i s; [apply below_refl|]. cbn [file_loop]. destruct (tellg s) as [pos s0]. apply then_below.
  - destruct (snd f); try (apply try_load_below; intros; apply H). destruct (tellg s0) as [pos1 s1]. apply then_below; [apply try_load_below; intros; apply H|].
    intros r1. destruct (tellg (snd r1)) as [pos2 s2]. apply then_below; [apply try_load_below; intros; apply H|]. intros; apply below_refl.
  - intros r. apply then_below; [apply IH|]. intros; apply below_refl.
Qed.
Lemma boot_below : forall n m, (n <= m)%nat -> forall t a args, below (boot n t a args) (boot m t a args).
Proof.
  induction n as [|n IH]; intros m Hm t a args; [intros r E; discriminate|]. destruct m as [|m]; [lia|].
  assert (IH' : forall t a args, below (boot n t a args) (boot m t a args)) by (apply IH; lia). cbn [BootModel.boot].
  destruct t as [l p|par fs|par x1 x2 f1 f2]; [apply below_refl| |].
  - destruct (is_defined args key).
    + destruct (is_vec args key).
      * apply then_below; [apply below_refl|]. intros t'. destruct t'; try apply below_refl. apply then_below; [apply boot_loop_below, IH'|]. intros; apply below_refl.
      * destruct (open_file files (at_key args key)); [|apply below_refl]. intros r E. destruct (skip_header n [] i) as [s'|] eqn:Es; [|discriminate].
        rewrite (skip_header_below n m [] i ltac:(lia) _ Es). revert E. apply then_below; [apply file_loop_below, IH'|]. intros; apply below_refl.
    + apply then_below; [apply boot_loop_below, IH'|]. intros; apply below_refl.
  - destruct (is_defined args key).
    + destruct (is_vec args key); [apply below_refl|]. destruct (open_file files (at_key args key)); [|apply below_refl].
      intros r E. destruct (skip_header n [] i) as [s'|] eqn:Es; [|discriminate].
      rewrite (skip_header_below n m [] i ltac:(lia) _ Es). destruct (tellg s') as [pos s1]. revert E. apply then_below; [apply try_load_below; intros; apply IH'|].
      intros r1. apply then_below; [apply try_load_below; intros; apply IH'|]. intros; apply below_refl.
    + apply then_below; [apply IH'|]. intros g1. apply then_below; [apply IH'|]. intros; apply below_refl.
Qed.
Lemma boots_unique t a args r1 r2 : boots lex atof files obeys start t a args r1 -> boots lex atof files obeys start t a args r2 -> r1 = r2.
Proof.
  intros (n & E1) (m & E2). destruct (Nat.le_ge_cases n m) as [H|H].
  - rewrite (boot_below n m H _ _ _ _ E1) in E2. congruence.
  - rewrite (boot_below m n H _ _ _ _ E2) in E1. congruence.
Qed.

(** ** What is kept: shapes and sizes *)
Definition kept (t t' : tree) : Prop := par_of t' = par_of t /\ nb t' = nb t /\ (tree_ok t -> tree_ok t').
Lemma kept_refl t : kept t t. Proof. split; [|split]; auto. Qed.
Lemma kept_trans t u v : kept t u -> kept u v -> kept t v.
Proof. intros (A & B & C) (D & E & F). split; [congruence|]. split; [congruence|auto]. Qed.
Definition kepts (fs gs : list (bool * tree)) : Prop := Forall2 (fun f g => fst g = fst f /\ kept (snd f) (snd g)) fs gs.
Lemma kept_leaf l p q : length q = length p -> kept (Leaf l p) (Leaf l q).
Proof. intros H. split; [reflexivity|]. split; [reflexivity|]. cbn [tree_ok]. intros (A & B & C & D). split; [congruence|auto]. Qed.
Lemma kept_compound par fs gs : kepts fs gs -> kept (Compound par fs) (Compound par gs).
Proof.
  intros H. split; [reflexivity|]. assert (nb (Compound par gs) = nb (Compound par fs) /\ (ok_fs par fs -> ok_fs par gs)).
  { cbn [nb]. induction H as [|f g fs gs (A & B & C & D) _ (E & F)]; [auto|]. cbn [fold_right ok_fs]. rewrite A, C, E. split; [reflexivity|].
    intros ((P & Q) & Rs). split; [split; [apply D, P|congruence]|apply F, Rs]. }
  exact H0.
Qed.
Lemma kept_product par x1 x2 f1 f2 g1 g2 : kept f1 g1 -> kept f2 g2 -> kept (Product par x1 x2 f1 f2) (Product par x1 x2 g1 g2).
Proof.
  intros (A & B & C) (D & E & F). split; [reflexivity|]. cbn [nb tree_ok]. rewrite A, B, D, E. split; [reflexivity|]. intros (P & Q & U & V). auto.
Qed.

Lemma read_params_length n : forall s q s', read_params lex n s = Ok (q, s') -> length q = n.
Proof.
  induction n as [|n IH]; intros s q s' H; cbn [read_params] in H; [injection H as <- _; reflexivity|].
  destruct (scan_string s) as [t s1]. destruct (scan_double lex s1) as [[v|] s2]; [|discriminate].
  destruct (read_params lex n s2) as [[q' s3]| | |] eqn:E; cbn [bind] in H; try discriminate. injection H as <- _. cbn [fst length]. rewrite (IH _ _ _ E). reflexivity.
Qed.
Lemma load_leaf_length n s q s' : load_leaf lex n s = Ok (Some q, s') -> length q = n.
Proof.
  unfold load_leaf. destruct (skip_lines _ s) as [found s1]. destruct found; cbn [negb]; [|discriminate].
  destruct (scan_string s1) as [[t1|] s2]; [|discriminate]. destruct (str_eqb t1 _); [|discriminate]. destruct (scan_string s2) as [[t2|] s3]; [|discriminate].
  destruct (str_eqb t2 _); [|discriminate]. destruct (read_params lex n s3) as [[q' s4]| | |] eqn:E; cbn [bind]; intros H; try discriminate.
  injection H as <- _. apply (read_params_length _ _ _ _ E).
Qed.
(** a load changes the parameters of leaves only; one that fails changes nothing *)
Lemma load_keeps : forall t s b g s', load lex t s = Ok (b, g, s') -> (tree_ok t -> tree_ok g) /\ par_of g = par_of t /\ nb g = nb t.
Proof.
  induction t as [l p|par fs IH|par x1 x2 f1 f2 IH1 IH2] using tree_ind'; intros s b g s' H; cbn [load] in H.
  - destruct (load_leaf lex (lf_nb l) s) as [[[q|] s1]| | |] eqn:E; cbn [bind] in H; try discriminate; injection H as <- <- <-; [|auto].
    split; [|auto]. cbn [tree_ok]. intros (A & B). split; [apply (load_leaf_length _ _ _ _ E)|exact B].
  - destruct (load_loop (load lex) fs 0 s) as [[[n gs] s1]| | |] eqn:E; cbn [bind] in H; try discriminate. injection H as <- <- <-.
    assert (K : kepts fs gs).
    { revert E. generalize 0%nat as k. revert n gs s s1. induction IH as [|f fs Hf _ IHfs]; intros n gs s s1 k E; cbn [load_loop] in E; [injection E as <- <- <-; constructor|].
      destruct (tellg s) as [pos s0]. destruct (load lex (snd f) s0) as [[[b g] s2]| | |] eqn:E1; cbn [bind] in E; try discriminate.
      destruct (load_loop (load lex) fs _ _) as [[[n' gs'] s3]| | |] eqn:E2; cbn [bind] in E; try discriminate. injection E as <- <- <-.
      constructor; [|apply (IHfs _ _ _ _ _ E2)]. destruct (Hf _ _ _ _ E1) as (A & B & C). cbn [fst snd]. split; [reflexivity|]. split; [exact B|split; [exact C|exact A]]. }
    destruct (kept_compound par fs gs K) as (A & B & C). auto.
  - destruct (tellg s) as [pos s0]. destruct (load lex f1 s0) as [[[b1 g1] s1]| | |] eqn:E1; cbn [bind] in H; try discriminate.
    destruct (tellg _) as [pos2 s2]. destruct (load lex f2 s2) as [[[b2 g2] s3]| | |] eqn:E2; cbn [bind] in H; try discriminate. injection H as <- <- <-.
    destruct (IH1 _ _ _ _ E1) as (A1 & B1 & C1). destruct (IH2 _ _ _ _ E2) as (A2 & B2 & C2).
    destruct (kept_product par x1 x2 f1 f2 g1 g2) as (A & B & C); [split; auto|split; auto|auto].
Qed.
Lemma load_kept t s b g s' : load lex t s = Ok (b, g, s') -> kept t g.
Proof. intros H. destruct (load_keeps _ _ _ _ _ H) as (A & B & C). split; auto. Qed.

Hypothesis Hstart : starts_sized start.
Lemma leaf_boot_kept l p args q : leaf_bootstrap lex atof files obeys start l p args = Ok q -> kept (Leaf l p) (Leaf l q).
Proof.
  unfold leaf_bootstrap, base_bootstrap. intros H. split; [reflexivity|]. split; [reflexivity|]. cbn [tree_ok]. intros (A & B). split; [|exact B].
  destruct (obeys l && is_defined args key)%bool; [|injection H as <-; apply Hstart, A].
  destruct (is_vec args key); [injection H as <-; apply get_vec_num_length|].
  destruct (is_defined args key && _)%bool; [|injection H as <-; exact A].
  destruct (open_file files (at_key args key)) as [s|]; [|discriminate].
  destruct (load_leaf lex (lf_nb l) s) as [[[q'|] s1]| | |] eqn:E; cbn [bind fst] in H; try discriminate; injection H as <-; [apply (load_leaf_length _ _ _ _ E)|exact A].
Qed.
End Mono.

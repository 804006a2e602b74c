(** Shared function objects (C95): reading, histories, values. *)
From Coq Require Import Reals List Lia Bool.
From Verif Require Import Base ParamsModel GeoModel CommonModel FuncModel FuncSpec FuncProofs PyModel PySpec PyProofs.
Open Scope R_scope.

(** ** Reading: only the sizes of the leaves matter *)
Fixpoint tree_sized (t : tree) : Prop :=
  match t with
  | Leaf l p => length p = lf_nb l
  | Compound _ fs => fold_right (fun (f : bool * tree) P => tree_sized (snd f) /\ P) True fs
  | Product _ _ _ f1 f2 => tree_sized f1 /\ tree_sized f2
  end.
Lemma flat_len t : tree_sized t -> length (flat cur t) = nb t.
Proof.
  induction t as [l p|par fs IH|par x1 x2 f1 f2 IH1 IH2] using tree_ind'; intros Ht.
  - exact Ht.
  - cbn [flat nb]. cbn [tree_sized] in Ht. induction IH as [|f fs Hf _ IHfs]; [reflexivity|]. destruct Ht as [H1 H2]. cbn [flat_map fold_right]. rewrite app_length, IHfs by assumption.
    destruct (fst f); [reflexivity|]. rewrite Hf by assumption. reflexivity.
  - destruct Ht as [H1 H2]. cbn [flat nb]. rewrite app_length. destruct x1, x2; cbn [length]; rewrite ?IH1, ?IH2 by assumption; reflexivity.
Qed.
Section Junk.
Variable junk : R.
Lemma gather_cur t : tree_sized t -> gather junk cur t = Ok (flat cur t).
Proof.
  induction t as [l p|par fs IH|par x1 x2 f1 f2 IH1 IH2] using tree_ind'; intros Ht; [reflexivity| |].
  - cbn [gather]. change (repeat junk _) with ([] ++ repeat junk (nb_fs fs)). change 0%nat with (length (@nil R)).
    assert (G : forall pre mid, length mid = nb_fs fs -> gather_loop (gather junk cur) fs (length pre) (pre ++ mid) = Ok (pre ++ flat_fs cur fs)).
    { cbn [tree_sized] in Ht. induction IH as [|[x f] fs Hf _ IHfs]; intros pre mid Hm.
      - destruct mid; [reflexivity|discriminate].
      - destruct Ht as [H1 H3]. cbn [fst snd] in *. cbn [gather_loop flat_fs flat_map fst snd]. cbn [nb_fs fold_right fst snd] in Hm. fold (nb_fs fs) in Hm.
        pose proof (flat_len f H1) as Lf. destruct x; cbn [negb andb].
        + rewrite andb_false_r. cbn [app]. apply IHfs; assumption.
        + rewrite andb_true_r. destruct (Nat.ltb_spec 0 (nb f)) as [Hn|Hn].
          * rewrite Hf by assumption. cbn [bind]. rewrite <- (firstn_skipn (nb f) mid).
            rewrite blit_spec; [|rewrite firstn_length; lia|assumption]. cbn [bind].
            specialize (IHfs H3 (pre ++ flat cur f) (skipn (nb f) mid)). rewrite app_length, Lf in IHfs. rewrite <- app_assoc in IHfs. rewrite IHfs by (rewrite skipn_length; lia).
            rewrite <- app_assoc. reflexivity.
          * assert (flat cur f = []) as E by (destruct (flat cur f); [reflexivity|simpl in Lf; lia]). rewrite E. cbn [app]. apply IHfs; [assumption|lia]. }
    rewrite G; [reflexivity|]. apply repeat_length.
  - destruct Ht as [H1 H2]. specialize (IH1 H1). specialize (IH2 H2). pose proof (flat_len f1 H1) as L1. pose proof (flat_len f2 H2) as L2.
    cbn [gather flat nb]. destruct x1, x2; cbn [bind app plus].
    + reflexivity.
    + rewrite IH2. cbn [bind]. pose proof (blit_spec [] (repeat junk (nb f2)) [] (flat cur f2) (nb f2) (repeat_length _ _) L2) as B. rewrite !app_nil_r in B. cbn [app length] in B. exact B.
    + rewrite IH1. cbn [bind]. rewrite Nat.add_0_r. pose proof (blit_spec [] (repeat junk (nb f1)) [] (flat cur f1) (nb f1) (repeat_length _ _) L1) as B. rewrite !app_nil_r in *. cbn [app length] in B. rewrite B. reflexivity.
    + rewrite IH1. cbn [bind]. rewrite repeat_app. pose proof (blit_spec [] (repeat junk (nb f1)) (repeat junk (nb f2)) (flat cur f1) (nb f1) (repeat_length _ _) L1) as B.
      cbn [app length] in B. rewrite B. cbn [bind app]. rewrite IH2. cbn [bind].
      pose proof (blit_spec (flat cur f1) (repeat junk (nb f2)) [] (flat cur f2) (nb f2) (repeat_length _ _) L2) as B2. rewrite !app_nil_r, L1 in B2. exact B2.
Qed.
End Junk.

Lemma expand_flat cs s : sized cs s -> forall a t, expand cs s a = Some t -> tree_sized t /\ flat cur t = flat_map s (leaves cs a) /\ nb t = hnb cs a.
Proof.
  induction cs as [|c cs IH]; intros Hs a t Ht; [discriminate|].
  assert (Hst : sized cs s) by (intros b l El; apply Hs; apply cell_at_tail; assumption). specialize (IH Hst).
  cbn [expand leaves hnb] in *. destruct (Nat.eqb_spec a (length cs)) as [->|E]; [|apply IH; assumption].
  destruct c as [l|par fs|par x1 x2 b1 b2|par val]; [| | |discriminate].
  - injection Ht as <-. cbn [tree_sized flat nb flat_map]. rewrite app_nil_r. split; [apply Hs; apply cell_at_new|]. split; reflexivity.
  - clear Hs. destruct (all_some _) as [ts|] eqn:Es; [|discriminate]. injection Ht as <-.
    revert ts Es. induction fs as [|[x b] fs IHf]; intros ts Es; cbn [map all_some fst snd] in Es.
    + injection Es as <-. repeat split.
    + destruct (expand cs s b) as [u|] eqn:Eu; [|discriminate]. destruct (all_some _) as [us|] eqn:Eus; [|discriminate]. injection Es as <-.
      destruct (IH b u Eu) as (S1 & F1 & N1). destruct (IHf us eq_refl) as (S2 & F2 & N2). cbn [tree_sized flat nb] in S2, F2, N2.
      split; [cbn [tree_sized fold_right snd]; split; assumption|]. split.
      * cbn [flat flat_map fst snd]. rewrite F2, flat_map_app. destruct x; [reflexivity|]. rewrite F1. reflexivity.
      * cbn [nb fold_right fst snd]. rewrite N2. destruct x; [reflexivity|]. rewrite N1. reflexivity.
  - destruct (expand cs s b1) as [t1|] eqn:E1; [|discriminate]. destruct (expand cs s b2) as [t2|] eqn:E2; [|discriminate]. injection Ht as <-.
    destruct (IH _ _ E1) as (S1 & F1 & N1). destruct (IH _ _ E2) as (S2 & F2 & N2). split; [split; assumption|]. cbn [flat nb]. rewrite flat_map_app. split.
    + destruct x1, x2; cbn [app flat_map]; rewrite ?F1, ?F2; reflexivity.
    + rewrite N1, N2. reflexivity.
Qed.

(** ** Histories *)
(** leaves are well behaved, and objects point to older nonlinear functions *)
Definition refs (c : cell) : list loc := match c with CCompound _ fs => map snd fs | CProduct _ _ _ a b => [a; b] | _ => [] end.
Record good (st : state) : Prop := mkGood {
  good_leaf : forall b l, cell_at (cells st) b = Some (CLeaf l) -> leaf_ok l (store st b);
  good_refs : forall a c, cell_at (cells st) a = Some c -> forall b, In b (refs c) -> (b < a)%nat /\ nonlin (cells st) b = true }.
Lemma good_sized st : good st -> sized (cells st) (store st).
Proof. intros H b l E. apply (good_leaf _ H b l E). Qed.
Lemma size_agrees st : agrees (cells st) (size_of st).
Proof. intros b l E. unfold size_of. rewrite E. reflexivity. Qed.
Lemma nonlin_tail c cs b : nonlin cs b = true -> nonlin (c :: cs) b = true.
Proof. intros H. pose proof (nonlin_lt _ _ H). cbn [nonlin]. destruct (Nat.eqb_spec b (length cs)); [lia|assumption]. Qed.
Lemma as_tree_nonlin st f : has_parameters st f <-> exists a, f = Some a /\ nonlin (cells st) a = true.
Proof.
  unfold has_parameters. destruct f as [a|]; cbn [as_tree].
  - split; [intros H; exists a; split; [reflexivity|]; apply (nonlin_expand _ (store st)); exact H|]. intros (b & Eb & H). injection Eb as <-. apply nonlin_expand. exact H.
  - split; [intros (t & H); discriminate|intros (a & H & _); discriminate].
Qed.

Lemma cell_at_cons c cs b d : cell_at (c :: cs) b = Some d -> (b = length cs /\ d = c) \/ (cell_at cs b = Some d).
Proof. cbn [cell_at]. destruct (Nat.eqb_spec b (length cs)); [intros H; injection H as ->; left; split; [assumption|reflexivity]|right; assumption]. Qed.
Lemma good_push st c s : good st -> (forall b, (b < length (cells st))%nat -> s b = store st b) ->
  (forall l, c = CLeaf l -> leaf_ok l (s (length (cells st)))) -> (forall b, In b (refs c) -> nonlin (cells st) b = true) -> good (mkState (c :: cells st) s).
Proof.
  intros [Gl Gr] Hs Hl Hr. constructor; cbn [cells store].
  - intros b l E. destruct (cell_at_cons _ _ _ _ E) as [[-> Ec]|Ec]; [apply Hl; congruence|]. rewrite Hs by (eapply cell_at_lt; eassumption). apply Gl. assumption.
  - intros a d E b Hb. destruct (cell_at_cons _ _ _ _ E) as [[-> ->]|Ec].
    + specialize (Hr b Hb). split; [apply nonlin_lt; assumption|apply nonlin_tail; assumption].
    + destruct (Gr a d Ec b Hb) as [H1 H2]. split; [assumption|apply nonlin_tail; assumption].
Qed.

Lemma set_inv st f v st' : py_set st f v = Ok st' -> cells st' = cells st.
Proof.
  unfold py_set. destruct f as [a|]; [|intros H; apply Ok_inj in H; subst; reflexivity]. destruct (as_tree st (Some a)); [|intros H; apply Ok_inj in H; subst; reflexivity].
  destruct (Nat.eqb _ _); [|intros H; apply Ok_inj in H; subst; reflexivity]. destruct (hset _ _ _ _) as [s| | |]; try discriminate. intros H. cbn [bind] in H. apply Ok_inj in H. subst. reflexivity.
Qed.
(** the effect of f.set(v) *)
Lemma set_total st f v : good st -> has_parameters st f -> length v = total_size (size_of st) (parts st f) ->
  exists st', py_set st f v = Ok st' /\ cells st' = cells st /\ forall b, store st' b = write (size_of st) (parts st f) v (store st) b.
Proof.
  intros G Hp Hv. apply as_tree_nonlin in Hp. destruct Hp as (a & -> & Hn). pose proof (size_agrees st) as Ha. cbn [parts] in *.
  destruct (proj1 (nonlin_expand (cells st) (store st) a) Hn) as (t & Et).
  assert (Hl : length v = hnb (cells st) a) by (rewrite Hv; symmetry; apply hnb_leaves; assumption).
  destruct (hset_write (cells st) (size_of st) a v (store st) Ha Hn Hl (good_sized _ G)) as (s & E & P).
  exists (mkState (cells st) s). unfold py_set. cbn [as_tree]. rewrite Et, <- Hl, Nat.eqb_refl, E. cbn [bind]. split; [reflexivity|]. split; [reflexivity|exact P].
Qed.
Lemma set_other_size st f v : good st -> length v <> total_size (size_of st) (parts st f) -> py_set st f v = Ok st.
Proof.
  intros G Hv. unfold py_set. destruct f as [a|]; [|reflexivity]. destruct (as_tree st (Some a)); [|reflexivity]. cbn [parts] in Hv.
  rewrite <- (hnb_leaves _ _ a (size_agrees st)) in Hv. destruct (Nat.eqb_spec (hnb (cells st) a) (length v)); [congruence|reflexivity].
Qed.
Lemma leaf_ok_len l p q : leaf_ok l p -> length q = lf_nb l -> leaf_ok l q.
Proof. intros (A & B & C & D) H. repeat split; try assumption; apply D; assumption. Qed.
Lemma good_set st f v st' : good st -> py_set st f v = Ok st' -> good st'.
Proof.
  intros G H. destruct (Nat.eq_dec (length v) (total_size (size_of st) (parts st f))) as [Hv|Hv].
  - destruct (as_tree st f) as [t|] eqn:Et.
    + destruct (set_total st f v G (ex_intro _ t Et) Hv) as (st2 & E & Ec & Es). rewrite E in H. apply Ok_inj in H. subst st2. destruct G as [Gl Gr]. constructor; rewrite Ec; [|exact Gr].
      intros b l El. apply (leaf_ok_len l (store st b)); [apply Gl; assumption|]. rewrite Es.
      apply (write_sized (cells st) (size_of st) (parts st f) (size_agrees st) v (store st) (good_sized st (mkGood st Gl Gr))); [lia|assumption].
    + assert (E : py_set st f v = Ok st) by (unfold py_set; destruct f; [rewrite Et|]; reflexivity). rewrite E in H. apply Ok_inj in H. subst. assumption.
  - rewrite (set_other_size st f v G Hv) in H. apply Ok_inj in H. subst. assumption.
Qed.
Lemma good_step st st' : good st -> step st st' -> good st'.
Proof.
  intros G [l p Hl|par val|f g st2 h H|f g st2 h H|f v st2 H].
  - apply good_push; [assumption| | |intros b []]; cbn [fst].
    + intros b Hb. apply put_other. lia.
    + intros l' El. injection El as <-. rewrite put_same. assumption.
  - apply good_push; [assumption|reflexivity|discriminate|intros b []].
  - unfold py_add in H. destruct f as [a|], g as [b|]; try (apply Ok_inj in H; injection H as -> ->; assumption). cbn [as_tree] in H.
    destruct (expand (cells st) (store st) a) as [t1|] eqn:E1; [|apply Ok_inj in H; injection H as -> ->; assumption].
    destruct (expand (cells st) (store st) b) as [t2|] eqn:E2; [|apply Ok_inj in H; injection H as -> ->; assumption].
    destruct (compound_parameters _) as [par| | |]; try discriminate. cbn [bind] in H. apply Ok_inj in H. injection H as -> ->.
    apply good_push; [assumption|reflexivity|discriminate|]. intros d [<-|[<-|[]]]; apply (nonlin_expand _ (store st)); eexists; eassumption.
  - unfold py_mult in H. destruct f as [a|], g as [b|]; try (apply Ok_inj in H; injection H as -> ->; assumption). cbn [as_tree] in H.
    destruct (expand (cells st) (store st) a) as [t1|] eqn:E1; [|apply Ok_inj in H; injection H as -> ->; assumption].
    destruct (expand (cells st) (store st) b) as [t2|] eqn:E2; [|apply Ok_inj in H; injection H as -> ->; assumption].
    apply Ok_inj in H. injection H as -> ->. apply good_push; [assumption|reflexivity|discriminate|]. intros d [<-|[<-|[]]]; apply (nonlin_expand _ (store st)); eexists; eassumption.
  - eapply good_set; eassumption.
Qed.
Lemma good_reachable st : reachable st -> good st.
Proof. intros H. induction H as [|st1 st2 _ IH Hs]; [constructor; intros; discriminate|]. eapply good_step; eassumption. Qed.

(** objects never change what they point to *)
Lemma step_cells st st' : step st st' -> forall a c, cell_at (cells st) a = Some c -> cell_at (cells st') a = Some c.
Proof.
  intros [l p Hl|par val|f g st2 h H|f g st2 h H|f v st2 H] a c E.
  - apply cell_at_tail. assumption.
  - apply cell_at_tail. assumption.
  - unfold py_add in H. destruct f as [a1|], g as [b1|]; try (apply Ok_inj in H; injection H as -> ->; assumption).
    destruct (as_tree st (Some a1)) as [t1|]; [|apply Ok_inj in H; injection H as -> ->; assumption]. destruct (as_tree st (Some b1)) as [t2|]; [|apply Ok_inj in H; injection H as -> ->; assumption].
    destruct (compound_parameters _) as [par| | |]; try discriminate. cbn [bind] in H. apply Ok_inj in H. injection H as -> ->. apply cell_at_tail. assumption.
  - unfold py_mult in H. destruct f as [a1|], g as [b1|]; try (apply Ok_inj in H; injection H as -> ->; assumption).
    destruct (as_tree st (Some a1)) as [t1|]; [|apply Ok_inj in H; injection H as -> ->; assumption]. destruct (as_tree st (Some b1)) as [t2|]; [|apply Ok_inj in H; injection H as -> ->; assumption].
    apply Ok_inj in H. injection H as -> ->. apply cell_at_tail. assumption.
  - rewrite (set_inv _ _ _ _ H). assumption.
Qed.
Lemma steps_cells st st' : steps st st' -> forall a c, cell_at (cells st) a = Some c -> cell_at (cells st') a = Some c.
Proof. intros H. induction H as [|st1 st2 _ IH Hs]; intros a c E; [assumption|]. eapply step_cells; [eassumption|]. apply IH. assumption. Qed.
Lemma good_steps st st' : good st -> steps st st' -> good st'.
Proof. intros G H. induction H as [|st1 st2 _ IH Hs]; [assumption|]. eapply good_step; eassumption. Qed.

Lemma expand_tail c cs s b : (b < length cs)%nat -> expand (c :: cs) s b = expand cs s b.
Proof. intros H. cbn [expand]. destruct (Nat.eqb_spec b (length cs)); [lia|reflexivity]. Qed.
Lemma expand_compound cs s : forall a par b1 b2, cell_at cs a = Some (CCompound par [(false, b1); (false, b2)]) -> (b1 < a)%nat -> (b2 < a)%nat ->
  expand cs s a = match expand cs s b1, expand cs s b2 with Some t1, Some t2 => Some (Compound par [(false, t1); (false, t2)]) | _, _ => None end.
Proof.
  induction cs as [|c cs IH]; intros a par b1 b2 H L1 L2; [discriminate|]. pose proof (cell_at_lt _ _ _ H) as La. cbn [length] in La. rewrite (expand_tail c cs s b1), (expand_tail c cs s b2) by lia.
  destruct (cell_at_cons _ _ _ _ H) as [[-> <-]|E].
  - cbn [expand]. rewrite Nat.eqb_refl. cbn [map all_some fst snd]. destruct (expand cs s b1); [|reflexivity]. destruct (expand cs s b2); reflexivity.
  - pose proof (cell_at_lt _ _ _ E). rewrite (expand_tail c cs s a) by assumption. apply IH; assumption.
Qed.
Lemma expand_product cs s : forall a par x1 x2 b1 b2, cell_at cs a = Some (CProduct par x1 x2 b1 b2) -> (b1 < a)%nat -> (b2 < a)%nat ->
  expand cs s a = match expand cs s b1, expand cs s b2 with Some t1, Some t2 => Some (Product par x1 x2 t1 t2) | _, _ => None end.
Proof.
  induction cs as [|c cs IH]; intros a par x1 x2 b1 b2 H L1 L2; [discriminate|]. pose proof (cell_at_lt _ _ _ H) as La. cbn [length] in La. rewrite (expand_tail c cs s b1), (expand_tail c cs s b2) by lia.
  destruct (cell_at_cons _ _ _ _ H) as [[-> <-]|E].
  - cbn [expand]. rewrite Nat.eqb_refl. reflexivity.
  - pose proof (cell_at_lt _ _ _ E). rewrite (expand_tail c cs s a) by assumption. apply IH; assumption.
Qed.
Lemma value_nonlin junk st f x t : as_tree st f = Some t -> py_value junk st f x = value junk t x.
Proof. unfold as_tree, py_value. destruct f as [a|]; [|discriminate]. intros ->. reflexivity. Qed.
Lemma get_spec junk st f : good st -> has_parameters st f -> py_get junk st f = Ok (flat_map (store st) (parts st f)).
Proof.
  intros G (t & Et). unfold py_get. rewrite Et. unfold get_parameters. change (fun _ p0 => p0) with cur. destruct f as [a|]; [|discriminate]. cbn [as_tree] in Et. cbn [parts].
  destruct (expand_flat _ _ (good_sized _ G) _ _ Et) as (S1 & F1 & _). rewrite gather_cur by assumption. rewrite F1. reflexivity.
Qed.

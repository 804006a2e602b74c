(** Shared function objects (C95): what f.set(v) leaves, sums and products. *)
From Coq Require Import Reals List Lia Bool.
From Verif Require Import Base ParamsModel GeoModel CommonModel FuncModel FuncSpec FuncProofs FuncJac FuncParam PyModel PySpec PyProofs PyProofs2.
Open Scope R_scope.

Lemma last_occurrence (b : loc) ls : In b ls -> exists pre post, ls = pre ++ b :: post /\ ~ In b post.
Proof.
  induction ls as [|d ls IH]; intros H; [destruct H|]. destruct (in_dec Nat.eq_dec b ls) as [Hi|Hi].
  - destruct (IH Hi) as (pre & post & -> & Hp). exists (d :: pre), post. split; [reflexivity|assumption].
  - destruct H as [->|H]; [|contradiction]. exists [], ls. split; [reflexivity|assumption].
Qed.
Lemma block_cons sz d pre b w v : length w = sz d -> block sz (d :: pre) b (w ++ v) = block sz pre b v.
Proof. intros H. unfold block. cbn [total_size]. f_equal. rewrite skipn_app, (skipn_all2 w) by lia. cbn [app]. f_equal. lia. Qed.
Lemma blocks_flat sz (s : loc -> list R) ls : forall v, length v = total_size sz ls -> (forall b, In b ls -> length (s b) = sz b) ->
  (flat_map s ls = v <-> forall pre b post, ls = pre ++ b :: post -> s b = block sz pre b v).
Proof.
  induction ls as [|d ls IH]; intros v Hv Hl.
  - destruct v; [|discriminate]. split; [|reflexivity]. intros _ pre b post H. destruct pre; discriminate.
  - cbn [total_size] in Hv. pose proof (Hl d (or_introl eq_refl)) as Ld. set (w := firstn (sz d) v). set (r := skipn (sz d) v).
    assert (Ew : v = w ++ r) by (symmetry; apply firstn_skipn).
    assert (Lw : length w = sz d) by (unfold w; rewrite firstn_length; lia). assert (Lr : length r = total_size sz ls) by (unfold r; rewrite skipn_length; lia).
    specialize (IH r Lr (fun b Hb => Hl b (or_intror Hb))). cbn [flat_map]. rewrite Ew. clearbody w r. clear Hv. subst v. split.
    + intros H. assert (H1 : s d = w /\ flat_map s ls = r).
      { split; [apply (f_equal (firstn (sz d))) in H|apply (f_equal (skipn (sz d))) in H].
        - rewrite !firstn_app, <- Ld, firstn_all, Nat.sub_diag in H. rewrite Ld, <- Lw, firstn_all, Nat.sub_diag in H. cbn [firstn] in H. rewrite !app_nil_r in H. exact H.
        - rewrite !skipn_app, <- Ld, skipn_all, Nat.sub_diag in H. rewrite Ld, <- Lw, skipn_all, Nat.sub_diag in H. cbn [skipn app] in H. exact H. }
      destruct H1 as [H1 H2]. intros pre b post E. destruct pre as [|e pre]; cbn [app] in E; injection E as <- E.
      * unfold block. cbn [total_size skipn]. rewrite firstn_app, <- Lw, firstn_all, Nat.sub_diag. cbn [firstn]. rewrite app_nil_r. exact H1.
      * rewrite block_cons by assumption. apply (proj1 IH H2 pre b post E).
    + intros H. rewrite (H [] d ls eq_refl). unfold block at 1. cbn [total_size skipn]. rewrite firstn_app, <- Lw, firstn_all, Nat.sub_diag. cbn [firstn]. rewrite app_nil_r. f_equal. apply IH. intros pre b post E. rewrite (H (d :: pre) b post) by (cbn [app]; rewrite E; reflexivity). rewrite block_cons by assumption. reflexivity.
Qed.

Lemma set_effect st f v : good st -> has_parameters st f -> length v = total_size (size_of st) (parts st f) ->
  exists st', py_set st f v = Ok st' /\ cells st' = cells st /\ (forall b, ~ In b (parts st f) -> store st' b = store st b) /\
    (forall pre b post, parts st f = pre ++ b :: post -> ~ In b post -> store st' b = block (size_of st) pre b v).
Proof.
  intros G Hp Hv. destruct (set_total st f v G Hp Hv) as (st' & E & Ec & Es). exists st'. split; [assumption|]. split; [assumption|]. split.
  - intros b Hb. rewrite Es. apply write_out. assumption.
  - intros pre b post Ep Hb. rewrite Es, Ep. apply write_last. assumption.
Qed.
Lemma parts_cells st st' f : cells st' = cells st -> parts st' f = parts st f.
Proof. intros H. unfold parts. rewrite H. reflexivity. Qed.
Lemma size_cells st st' : cells st' = cells st -> forall b, size_of st' b = size_of st b.
Proof. intros H b. unfold size_of. rewrite H. reflexivity. Qed.
Lemma has_cells st st' f : cells st' = cells st -> has_parameters st f -> has_parameters st' f.
Proof. intros H Hp. apply as_tree_nonlin in Hp. apply as_tree_nonlin. rewrite H. assumption. Qed.
Lemma parts_sized st f b : good st -> In b (parts st f) -> length (store st b) = size_of st b.
Proof.
  intros G Hb. destruct f as [a|]; [|destruct Hb]. destruct (leaves_cell _ _ _ Hb) as (l & El). unfold size_of. rewrite El. apply (good_sized _ G). assumption.
Qed.
Lemma set_get_iff junk st f v st' : good st -> has_parameters st f -> length v = total_size (size_of st) (parts st f) -> py_set st f v = Ok st' ->
  (py_get junk st' f = Ok v <-> consistent (size_of st) (parts st f) v).
Proof.
  intros G Hp Hv Hs. pose proof (good_set _ _ _ _ G Hs) as G'. destruct (set_effect st f v G Hp Hv) as (st2 & E & Ec & _ & Hl). rewrite E in Hs. apply Ok_inj in Hs. subst st2.
  rewrite (get_spec junk st' f G' (has_cells _ _ _ Ec Hp)). rewrite (parts_cells _ _ _ Ec).
  assert (K : Ok (flat_map (store st') (parts st f)) = Ok v <-> flat_map (store st') (parts st f) = v) by (split; [intros H; apply Ok_inj in H; congruence|congruence]).
  rewrite K. rewrite (blocks_flat (size_of st)); [|assumption|].
  - split.
    + intros H b pre post pre' post' E1 E2. rewrite <- (H _ _ _ E1). apply (H _ _ _ E2).
    + intros H pre b post E1. destruct (last_occurrence b (parts st f)) as (pre' & post' & E2 & Hn); [rewrite E1; apply in_elt|]. rewrite (Hl _ _ _ E2 Hn). apply (H b pre' post' pre post); assumption.
  - intros b Hb. rewrite (parts_sized st' f b G') by (rewrite (parts_cells _ _ _ Ec); assumption). apply size_cells. assumption.
Qed.
Lemma nodup_consistent sz ls v : NoDup ls -> consistent sz ls v.
Proof.
  intros Hn b pre post pre' post' E1 E2. subst ls. assert (pre = pre') as ->; [|reflexivity]. revert pre' E2. induction pre as [|d pre IH]; intros pre' E2.
  - destruct pre' as [|e pre']; [reflexivity|]. cbn [app] in E2. injection E2 as <- E2. inversion_clear Hn as [|? ? H _]. exfalso. apply H. rewrite E2. apply in_elt.
  - destruct pre' as [|e pre']; cbn [app] in E2; injection E2 as E3 E2.
    + subst d. inversion_clear Hn as [|? ? H _]. exfalso. apply H. apply in_elt.
    + f_equal; [assumption|]. inversion_clear Hn. apply IH; assumption.
Qed.

(** ** Sums and products over a history *)
Lemma add_inv st f g st' c : py_add st f g = Ok (st', Some c) -> exists a b t1 t2 par, f = Some a /\ g = Some b /\ as_tree st f = Some t1 /\ as_tree st g = Some t2 /\
  compound_parameters [par_of t1; par_of t2] = Ok par /\ c = length (cells st) /\ st' = mkState (CCompound par [(false, a); (false, b)] :: cells st) (store st).
Proof.
  unfold py_add. destruct f as [a|]; [|intros H; apply Ok_inj in H; discriminate]. destruct g as [b|]; [|intros H; apply Ok_inj in H; discriminate].
  destruct (as_tree st (Some a)) as [t1|] eqn:E1; [|intros H; apply Ok_inj in H; discriminate]. destruct (as_tree st (Some b)) as [t2|] eqn:E2; [|intros H; apply Ok_inj in H; discriminate].
  destruct (compound_parameters _) as [par| | |] eqn:Ep; try discriminate. cbn [bind]. intros H. apply Ok_inj in H. injection H as -> ->.
  exists a, b, t1, t2, par. repeat split; assumption.
Qed.
Lemma mult_inv st f g st' c : py_mult st f g = Ok (st', Some c) -> exists a b t1 t2, f = Some a /\ g = Some b /\ as_tree st f = Some t1 /\ as_tree st g = Some t2 /\
  c = length (cells st) /\ st' = mkState (CProduct (product_parameters (par_of t1) (par_of t2)) false false a b :: cells st) (store st).
Proof.
  unfold py_mult. destruct f as [a|]; [|intros H; apply Ok_inj in H; discriminate]. destruct g as [b|]; [|intros H; apply Ok_inj in H; discriminate].
  destruct (as_tree st (Some a)) as [t1|] eqn:E1; [|intros H; apply Ok_inj in H; discriminate]. destruct (as_tree st (Some b)) as [t2|] eqn:E2; [|intros H; apply Ok_inj in H; discriminate].
  intros H. apply Ok_inj in H. injection H as -> ->. exists a, b, t1, t2. repeat split; assumption.
Qed.

Lemma sum_cell st f g st1 c st2 : good st -> py_add st f g = Ok (st1, Some c) -> steps st1 st2 ->
  exists a b t1 t2 par, f = Some a /\ g = Some b /\ as_tree st2 f = Some t1 /\ as_tree st2 g = Some t2 /\ as_tree st2 (Some c) = Some (Compound par [(false, t1); (false, t2)]) /\
  cell_at (cells st2) c = Some (CCompound par [(false, a); (false, b)]) /\ (a < c)%nat /\ (b < c)%nat.
Proof.
  intros G Ha Hs. pose proof (good_step _ _ G (step_add _ _ _ _ _ Ha)) as G1. pose proof (good_steps _ _ G1 Hs) as G2.
  destruct (add_inv _ _ _ _ _ Ha) as (a & b & t1 & t2 & par & -> & -> & E1 & E2 & Ep & Ec & Est).
  assert (C1 : cell_at (cells st1) c = Some (CCompound par [(false, a); (false, b)])) by (rewrite Est, Ec; apply cell_at_new).
  pose proof (steps_cells _ _ Hs _ _ C1) as C2. destruct (good_refs _ G2 _ _ C2 a) as [L1 N1]; [left; reflexivity|]. destruct (good_refs _ G2 _ _ C2 b) as [L2 N2]; [right; left; reflexivity|].
  destruct (proj1 (nonlin_expand _ (store st2) a) N1) as (u1 & U1). destruct (proj1 (nonlin_expand _ (store st2) b) N2) as (u2 & U2).
  exists a, b, u1, u2, par. repeat (split; [reflexivity|]). split; [exact U1|]. split; [exact U2|]. split; [|split; [assumption|split; assumption]].
  cbn [as_tree]. rewrite (expand_compound _ _ _ _ _ _ C2 L1 L2), U1, U2. reflexivity.
Qed.
Lemma product_cell st f g st1 c st2 : good st -> py_mult st f g = Ok (st1, Some c) -> steps st1 st2 ->
  exists a b t1 t2 par, f = Some a /\ g = Some b /\ as_tree st2 f = Some t1 /\ as_tree st2 g = Some t2 /\ as_tree st2 (Some c) = Some (Product par false false t1 t2) /\
  cell_at (cells st2) c = Some (CProduct par false false a b) /\ (a < c)%nat /\ (b < c)%nat.
Proof.
  intros G Ha Hs. pose proof (good_step _ _ G (step_mult _ _ _ _ _ Ha)) as G1. pose proof (good_steps _ _ G1 Hs) as G2.
  destruct (mult_inv _ _ _ _ _ Ha) as (a & b & t1 & t2 & -> & -> & E1 & E2 & Ec & Est). set (par := product_parameters (par_of t1) (par_of t2)) in *.
  assert (C1 : cell_at (cells st1) c = Some (CProduct par false false a b)) by (rewrite Est, Ec; apply cell_at_new).
  pose proof (steps_cells _ _ Hs _ _ C1) as C2. destruct (good_refs _ G2 _ _ C2 a) as [L1 N1]; [left; reflexivity|]. destruct (good_refs _ G2 _ _ C2 b) as [L2 N2]; [right; left; reflexivity|].
  destruct (proj1 (nonlin_expand _ (store st2) a) N1) as (u1 & U1). destruct (proj1 (nonlin_expand _ (store st2) b) N2) as (u2 & U2).
  exists a, b, u1, u2, par. repeat (split; [reflexivity|]). split; [exact U1|]. split; [exact U2|]. split; [|split; [assumption|split; assumption]].
  cbn [as_tree]. rewrite (expand_product _ _ _ _ _ _ _ _ C2 L1 L2), U1, U2. reflexivity.
Qed.
Lemma leaves_tail c cs b : (b < length cs)%nat -> leaves (c :: cs) b = leaves cs b.
Proof. intros H. cbn [leaves]. destruct (Nat.eqb_spec b (length cs)); [lia|reflexivity]. Qed.
Lemma leaves_compound cs : forall a par b1 b2, cell_at cs a = Some (CCompound par [(false, b1); (false, b2)]) -> (b1 < a)%nat -> (b2 < a)%nat -> leaves cs a = leaves cs b1 ++ leaves cs b2.
Proof.
  induction cs as [|c cs IH]; intros a par b1 b2 H L1 L2; [discriminate|]. pose proof (cell_at_lt _ _ _ H) as La. cbn [length] in La. rewrite (leaves_tail c cs b1), (leaves_tail c cs b2) by lia.
  destruct (cell_at_cons _ _ _ _ H) as [[-> <-]|E].
  - cbn [leaves]. rewrite Nat.eqb_refl. cbn [flat_map fst snd]. rewrite app_nil_r. reflexivity.
  - pose proof (cell_at_lt _ _ _ E). rewrite (leaves_tail c cs a) by assumption. eapply IH; eassumption.
Qed.
Lemma leaves_product cs : forall a par b1 b2, cell_at cs a = Some (CProduct par false false b1 b2) -> (b1 < a)%nat -> (b2 < a)%nat -> leaves cs a = leaves cs b1 ++ leaves cs b2.
Proof.
  induction cs as [|c cs IH]; intros a par b1 b2 H L1 L2; [discriminate|]. pose proof (cell_at_lt _ _ _ H) as La. cbn [length] in La. rewrite (leaves_tail c cs b1), (leaves_tail c cs b2) by lia.
  destruct (cell_at_cons _ _ _ _ H) as [[-> <-]|E].
  - cbn [leaves]. rewrite Nat.eqb_refl. reflexivity.
  - pose proof (cell_at_lt _ _ _ E). rewrite (leaves_tail c cs a) by assumption. eapply IH; eassumption.
Qed.

Lemma nth_vadd a : forall b y, length a = length b -> nth y (vadd a b) 0 = nth y a 0 + nth y b 0.
Proof. induction a as [|x a IH]; intros [|z b] y H; try discriminate; [destruct y; cbn; ring|]. cbn [vadd]. destruct y; cbn [nth]; [reflexivity|]. apply IH. cbn in H. lia. Qed.
Lemma vadd_len a : forall b, length (vadd a b) = Nat.min (length a) (length b).
Proof. induction a as [|x a IH]; intros [|z b]; try reflexivity. cbn [vadd length]. rewrite IH. reflexivity. Qed.
Lemma sum_value junk par t1 t2 x v : value junk (Compound par [(false, t1); (false, t2)]) x = Ok v ->
  exists x1 x2 v1 v2, child_point junk x (in_param par) (par_of t1) = Ok x1 /\ child_point junk x (in_param par) (par_of t2) = Ok x2 /\
    value junk t1 x1 = Ok v1 /\ value junk t2 x2 = Ok v2 /\ length v1 = length v /\ length v2 = length v /\ forall y, nth y v 0 = nth y v1 0 + nth y v2 0.
Proof.
  cbn [value value_loop snd]. destruct (child_point junk x (in_param par) (par_of t1)) as [x1| | |]; try discriminate. cbn [bind]. destruct (value junk t1 x1) as [v1| | |] eqn:V1; try discriminate. cbn [bind].
  unfold add_checked at 1. destruct (Nat.eqb_spec (length (repeat 0 (dimY par))) (length v1)) as [L1|]; [|discriminate]. cbn [bind].
  destruct (child_point junk x (in_param par) (par_of t2)) as [x2| | |]; try discriminate. cbn [bind]. destruct (value junk t2 x2) as [v2| | |] eqn:V2; try discriminate. cbn [bind].
  unfold add_checked. destruct (Nat.eqb_spec (length (vadd (repeat 0 (dimY par)) v1)) (length v2)) as [L2|]; [|discriminate]. cbn [bind]. intros H. apply Ok_inj in H. subst v.
  exists x1, x2, v1, v2. repeat (split; [reflexivity || assumption|]). rewrite repeat_length in L1. rewrite vadd_len, repeat_length in L2.
  split; [rewrite !vadd_len, repeat_length; lia|]. split; [rewrite !vadd_len, repeat_length; lia|]. intros y. rewrite !nth_vadd by (rewrite ?vadd_len, ?repeat_length; lia). rewrite nth_repeat. ring.
Qed.

(** Properties C26, C27, C28 and C59: trees of functions. *)
From Coq Require Import Reals List Lia Lra.
From Verif Require Import Base ParamsModel GeoModel CommonModel CommonProofs FuncModel FuncSpec FuncProofs FuncJac FuncParam.
Open Scope R_scope.

(** C26. What is read are the free parameters from left to right, and the
    bounds are laid out in the same order. *)
Theorem C26_parameters_are_the_free_slots : forall junk t, tree_ok t ->
  get_parameters junk t = Ok (map slot_value (slots t)) /\
  get_parameters_min junk t = Ok (map slot_min (slots t)) /\
  get_parameters_max junk t = Ok (map slot_max (slots t)) /\
  nb t = length (slots t).
Proof.
  intros junk t Ht. unfold get_parameters, get_parameters_min, get_parameters_max.
  rewrite !gather_spec by (auto using sel_cur, sel_min, sel_max).
  rewrite (slots_flat (fun _ p => p) slot_value), (slots_flat (fun l _ => lf_min l) slot_min), (slots_flat (fun l _ => lf_max l) slot_max)
    by (auto using sel_cur, sel_min, sel_max).
  repeat split. rewrite <- (map_length slot_value), (slots_flat cur slot_value) by (auto using sel_cur). symmetry. apply flat_length; auto using sel_cur.
Qed.
Print Assumptions C26_parameters_are_the_free_slots.

(** Reading back what was set; only free leaves change. *)
Theorem C26_set_then_get : forall junk t p, tree_ok t -> length p = nb t ->
  exists t', set_parameters t p = Ok t' /\ get_parameters junk t' = Ok p /\ nb t' = nb t /\ free_change t t'.
Proof. exact set_get. Qed.
Print Assumptions C26_set_then_get.

Theorem C26_get_then_set : forall junk t p, tree_ok t -> get_parameters junk t = Ok p -> set_parameters t p = Ok t.
Proof.
  intros junk t p Ht H. unfold get_parameters in H. change (fun _ p0 => p0) with cur in H.
  rewrite gather_spec in H by (auto using sel_cur). apply Ok_inj in H. subst p. apply set_same. assumption.
Qed.
Print Assumptions C26_get_then_set.

(** A vector that is too short is refused by every composite. *)
Theorem C26_short_vector_is_refused : forall t p, tree_ok t -> composite t -> (length p < nb t)%nat -> set_parameters t p = Abort.
Proof. exact set_short. Qed.
Print Assumptions C26_short_vector_is_refused.

(** C27. If every leaf's Jacobian holds the partial derivatives of its value at
    the points where the tree evaluates it, the tree's Jacobian holds the
    partial derivatives of the tree's value: entry (y, i) is the derivative of
    output y when parameter i alone is varied. *)
Theorem C27_jacobian_is_the_derivative : forall junk t x v p, tree_ok t -> leaves_gradient junk t x ->
  value junk t x = Ok v -> get_parameters junk t = Ok p ->
  exists j, jacobian junk t x = Ok j /\ length j = (dimY (par_of t) * nb t)%nat /\
  forall y i, (y < dimY (par_of t))%nat -> (i < nb t)%nat ->
  derivable_pt_lim (fun s => component (do t' <- set_parameters t (upd p i s); value junk t' x) y)
                   (nth i p 0) (nth (y * nb t + i) j 0).
Proof.
  intros junk t x v p Ht Hl Hv Hp. unfold get_parameters in Hp. change (fun _ p0 => p0) with cur in Hp.
  rewrite gather_spec in Hp by (auto using sel_cur). apply Ok_inj in Hp. subst p.
  exact (tree_gradient junk t x Ht Hl (value_evaluable _ _ _ _ Hv)).
Qed.
Print Assumptions C27_jacobian_is_the_derivative.

(** A product whose second function has one output has a value (it is
    broadcast) but asking for its Jacobian ends the process. *)
Theorem C27_broadcast_product_refuted : forall junk par x2 f1 f2 x p1 p2 v1 v2 w j1 j2,
  child_point junk x (in_param par) (par_of f1) = Ok p1 -> child_point junk x (in_param par) (par_of f2) = Ok p2 ->
  value junk f1 p1 = Ok v1 -> value junk f2 p2 = Ok v2 -> jacobian junk f1 p1 = Ok j1 -> jacobian junk f2 p2 = Ok j2 ->
  (2 <= dimY par)%nat -> length v1 = dimY par -> v2 = [w] -> (0 < nb f1)%nat ->
  value junk (Product par false x2 f1 f2) x = Ok (map (fun a => a * w) v1) /\
  jacobian junk (Product par false x2 f1 f2) x = Abort.
Proof.
  intros junk par x2 f1 f2 x p1 p2 v1 v2 w j1 j2 E1 E2 V1 V2 J1 J2 Hd Hl -> Hn. split.
  - cbn [value]. rewrite E1. cbn [bind]. rewrite V1. cbn [bind]. rewrite E2. cbn [bind]. rewrite V2. cbn [bind].
    apply product_scalar_right. lia.
  - eapply broadcast_jacobian; try eassumption. reflexivity.
Qed.
Print Assumptions C27_broadcast_product_refuted.

(** C28. The first known input parametrization decides; functions placed after
    it must all agree with it, or the result is CARTESIAN with six inputs. *)
Theorem C28_common_parametrization : forall f l, in_param f <> UNKNOWN_INPUT -> out_param f <> UNKNOWN_OUTPUT ->
  Forall (fun g => in_param g = in_param f /\ out_param g = out_param f) l -> compound_parameters (f :: l) = Ok f.
Proof. exact common_parametrization. Qed.
Print Assumptions C28_common_parametrization.

Theorem C28_input_parametrization : forall u g k r, Forall (fun h => in_param h = UNKNOWN_INPUT) u -> in_param g <> UNKNOWN_INPUT ->
  compound_parameters (u ++ g :: k) = Ok r ->
  (Forall (fun h => in_param h = in_param g) k -> in_param r = in_param g /\ dimX r = dimX (hd g (u ++ g :: k))) /\
  (Exists (fun h => in_param h <> in_param g) k -> in_param r = CARTESIAN /\ dimX r = 6%nat).
Proof. exact compound_input. Qed.
Print Assumptions C28_input_parametrization.

Theorem C28_incompatible_outputs_are_refused : forall u g k, Forall (fun h => out_param h = UNKNOWN_OUTPUT) u -> out_param g <> UNKNOWN_OUTPUT ->
  (Forall (fun h => out_param h = out_param g) k -> exists r, compound_parameters (u ++ g :: k) = Ok r /\ out_param r = out_param g /\ dimY r = dimY (hd g (u ++ g :: k))) /\
  (Exists (fun h => out_param h <> out_param g) k -> compound_parameters (u ++ g :: k) = Abort).
Proof. exact compound_output. Qed.
Print Assumptions C28_incompatible_outputs_are_refused.

Theorem C28_empty_compound_is_refused : compound_parameters [] = Abort.
Proof. reflexivity. Qed.

Theorem C28_product : forall p q,
  (in_param p = in_param q -> product_parameters p q = p) /\
  (in_param p <> in_param q -> product_parameters p q = mkParameters 6 (dimY p) CARTESIAN (out_param p)).
Proof.
  intros p q. unfold product_parameters. split; intros H.
  - rewrite H, input_eqb_refl. reflexivity.
  - rewrite input_neq by assumption. reflexivity.
Qed.
Print Assumptions C28_product.

(** Order matters: an unknown parametrization is neutral before a known one and
    not after it. *)
Theorem C28_unknown_is_neutral_refuted : forall f g, in_param f = UNKNOWN_INPUT -> in_param g <> UNKNOWN_INPUT -> in_param g <> CARTESIAN ->
  out_param f = out_param g -> out_param g <> UNKNOWN_OUTPUT ->
  (exists r, compound_parameters [f; g] = Ok r /\ in_param r = in_param g) /\
  (exists r, compound_parameters [g; f] = Ok r /\ in_param r = CARTESIAN /\ dimX r = 6%nat).
Proof.
  intros f g Hf Hg Hc Ho Hk.
  assert (A : exists r, compound_parameters ([] ++ f :: [g]) = Ok r /\ out_param r = out_param f /\ dimY r = dimY f)
    by (apply compound_output; [constructor|congruence|repeat constructor; congruence]).
  assert (B : exists r, compound_parameters ([] ++ g :: [f]) = Ok r /\ out_param r = out_param g /\ dimY r = dimY g)
    by (apply compound_output; [constructor|congruence|repeat constructor; congruence]).
  destruct A as (r & Er & _). destruct B as (s & Es & _). cbn [app] in *. split.
  - exists r. split; [assumption|]. apply (compound_input [f] g [] r); [repeat constructor; assumption|assumption|exact Er|constructor].
  - exists s. split; [assumption|]. apply (compound_input [] g [f] s); [constructor|assumption|exact Es|]. left. congruence.
Qed.
Print Assumptions C28_unknown_is_neutral_refuted.

(** C59. A compound adds, and a product multiplies, the values its functions
    take at the point converted to their own parametrization. *)
Theorem C59_compound_value_is_the_sum : forall junk par fs x v, tree_ok (Compound par fs) -> value junk (Compound par fs) x = Ok v ->
  length v = dimY par /\
  forall y, nth y v 0 = sum_list (map (fun f : bool * tree => component (do x' <- child_point junk x (in_param par) (par_of (snd f)); value junk (snd f) x') y) fs).
Proof. exact compound_value. Qed.
Print Assumptions C59_compound_value_is_the_sum.

Theorem C59_product_value_is_the_product : forall junk par x1 x2 f1 f2 x v, tree_ok (Product par x1 x2 f1 f2) ->
  value junk (Product par x1 x2 f1 f2) x = Ok v ->
  exists p1 p2 v1 v2, child_point junk x (in_param par) (par_of f1) = Ok p1 /\ child_point junk x (in_param par) (par_of f2) = Ok p2 /\
    value junk f1 p1 = Ok v1 /\ value junk f2 p2 = Ok v2 /\ length v = dimY par /\
    forall y, (y < dimY par)%nat -> nth y v 0 = nth y v1 0 * nth y v2 0.
Proof.
  intros junk par x1 x2 f1 f2 x v (H1 & H2 & H3 & H4) Hv.
  destruct (value_evaluable _ _ _ _ Hv) as [(p1 & E1 & V1) (p2 & E2 & V2)].
  destruct (value_spec junk f1 p1 H1 V1) as (v1 & W1 & L1). destruct (value_spec junk f2 p2 H2 V2) as (v2 & W2 & L2).
  exists p1, p2, v1, v2. cbn [value] in Hv. rewrite E1 in Hv. cbn [bind] in Hv. rewrite W1 in Hv. cbn [bind] in Hv. rewrite E2 in Hv. cbn [bind] in Hv. rewrite W2 in Hv. cbn [bind] in Hv.
  repeat (split; [assumption|]). split.
  - destruct (product_ok v1 v2 (dimY par)) as (w & Ew & Lw); [congruence|congruence|]. rewrite Ew in Hv. apply Ok_inj in Hv. congruence.
  - intros y Hy. destruct (product_component v1 v2 (dimY par) y) as (w & Ew & Lw & Nw); [congruence|congruence|assumption|].
    rewrite Ew in Hv. apply Ok_inj in Hv. congruence.
Qed.
Print Assumptions C59_product_value_is_the_product.

(** If the composite and a sub-function both have the parametrization
    UNKNOWN_INPUT, no coordinate is copied: the sub-function is evaluated on
    memory that was never written, whatever the point. *)
Theorem C59_unknown_input_refuted : forall junk x child p, in_param child = UNKNOWN_INPUT ->
  child_point junk x UNKNOWN_INPUT child = Ok p -> forall i, p i = junk.
Proof. intros junk x child p H E i. rewrite (unknown_point junk x child H p E). reflexivity. Qed.
Print Assumptions C59_unknown_input_refuted.

(** ** A tree meeting the hypotheses: (a + b x) * c, plus a fixed and a free
    constant; five leaf parameters, four of them free. *)
Definition demo_par := mkParameters 1 1 COS_TH INV_STERADIAN.
Definition demo_affine := mkLeaf demo_par 2 (fun p x => [nth 0 p 0 + nth 1 p 0 * x 0%nat]) (fun _ x => [1; x 0%nat]) [-10; -10] [10; 10].
Definition demo_const := mkLeaf demo_par 1 (fun p _ => [nth 0 p 0]) (fun _ _ => [1]) [0] [5].
Definition demo_tree := Compound demo_par
  [(false, Product demo_par false false (Leaf demo_affine [1; 2]) (Leaf demo_const [3])); (true, Leaf demo_const [4]); (false, Leaf demo_const [5])].
Example demo_made : make_compound
  [(false, make_product (Leaf demo_affine [1; 2]) (Leaf demo_const [3]) false false); (true, Leaf demo_const [4]); (false, Leaf demo_const [5])] = Ok demo_tree.
Proof. reflexivity. Qed.
Example demo_ok : tree_ok demo_tree.
Proof. cbn. unfold leaf_ok. repeat split. Qed.
Example C26_case : get_parameters 77 demo_tree = Ok [1; 2; 3; 5] /\ get_parameters_max 77 demo_tree = Ok [10; 10; 5; 5] /\
  set_parameters demo_tree [6; 7; 8; 9] = Ok (Compound demo_par
  [(false, Product demo_par false false (Leaf demo_affine [6; 7]) (Leaf demo_const [8])); (true, Leaf demo_const [4]); (false, Leaf demo_const [9])]).
Proof. repeat split; reflexivity. Qed.
Lemma demo_affine_gradient p q x : leaf_gradient demo_affine [p; q] x.
Proof.
  intros y i Hy Hi. cbn [demo_affine lf_par demo_par dimY lf_nb] in *. assert (y = 0)%nat as -> by lia.
  destruct i as [|[|]]; [| |lia]; cbn [demo_affine lf_value lf_jac lf_nb nth upd Nat.mul Nat.add].
  - apply (derivable_ext (fun s => s + q * x 0%nat)); [reflexivity|]. replace 1 with (1 + 0) by lra.
    apply (derivable_pt_lim_plus id (fun _ => q * x 0%nat)); [apply derivable_pt_lim_id|apply derivable_pt_lim_const].
  - apply (derivable_ext (fun s => p + id s * x 0%nat)); [reflexivity|]. apply (derivable_shift (fun s => id s * x 0%nat)).
    pose proof (derivable_mult_r id q 1 (x 0%nat) (derivable_pt_lim_id q)) as H. rewrite Rmult_1_l in H. exact H.
Qed.
Lemma demo_const_gradient p x : leaf_gradient demo_const [p] x.
Proof.
  intros y i Hy Hi. cbn [demo_const lf_par demo_par dimY lf_nb] in *. assert (y = 0)%nat as -> by lia. assert (i = 0)%nat as -> by lia.
  cbn [demo_const lf_value lf_jac lf_nb nth upd Nat.mul Nat.add]. apply (derivable_ext id); [reflexivity|]. apply derivable_pt_lim_id.
Qed.
Example C27_case : leaves_gradient 77 demo_tree (fun _ => 1 / 2) /\
  jacobian 77 demo_tree (fun _ => 1 / 2) = Ok [1 * 3; 1 / 2 * 3; 1 * (1 + 2 * (1 / 2)); 1] /\
  value 77 demo_tree (fun _ => 1 / 2) = Ok [0 + 3 * (1 + 2 * (1 / 2)) + 4 + 5].
Proof.
  split; [|split; reflexivity]. cbn [leaves_gradient demo_tree fold_right snd].
  repeat split; intros; cbn [leaves_gradient]; try split; intros; cbn [leaves_gradient]; auto using demo_affine_gradient, demo_const_gradient.
Qed.
Example C28_case : compound_parameters [mkParameters 2 3 UNKNOWN_INPUT RGB_COLOR; mkParameters 1 3 COS_TH RGB_COLOR; mkParameters 2 3 COS_TH_TD RGB_COLOR]
    = Ok (mkParameters 6 3 CARTESIAN RGB_COLOR) /\
  compound_parameters [mkParameters 1 3 COS_TH RGB_COLOR; mkParameters 1 3 COS_TH INV_STERADIAN] = Abort.
Proof. split; reflexivity. Qed.
Example C27_broadcast_case :
  let f1 := Leaf (mkLeaf (mkParameters 1 2 COS_TH RGB_COLOR) 1 (fun p _ => [nth 0 p 0; 0]) (fun _ _ => [1; 0]) [0] [1]) [3] in
  let t := make_product f1 (Leaf demo_const [5]) false false in
  value 0 t (fun _ => 1) = Ok [3 * 5; 0 * 5] /\ jacobian 0 t (fun _ => 1) = Abort.
Proof. split; reflexivity. Qed.

(** Sums and products of symmetric functions. *)
From Coq Require Import Reals List Lia Lra FunctionalExtensionality.
From Verif Require Import Base ParamsModel GeoModel TextModel FuncModel FuncSpec CommonModel NlModel NlSpec NlProofs NlGrad RecSpec RecProofs.
Open Scope R_scope.

Lemma convert_copy junk x q out : convert (copy 6 x (fun _ => junk)) CARTESIAN q out = convert x CARTESIAN q out.
Proof.
  unfold convert. destruct q; try reflexivity. cbn [input_eqb]. f_equal. apply functional_extensionality. intros i.
  change (Z.to_nat (dimension_in CARTESIAN)) with 6%nat. unfold copy. destruct (i <? 6)%nat; reflexivity.
Qed.
Lemma child_seen junk x par t : in_param par = CARTESIAN ->
  (do y <- child_point junk (copy 6 x (fun _ => junk)) (in_param par) (par_of t); FuncModel.value junk t y) =
  if (dimX (par_of t) <? Z.to_nat (dimension_in (in_param (par_of t))))%nat then UB else tree_seen junk t x.
Proof. intros H. unfold child_point, tree_seen. rewrite H, convert_copy. destruct (_ <? _)%nat; reflexivity. Qed.
Lemma bind_assoc {A B C} (o : outcome A) (f : A -> outcome B) (g : B -> outcome C) : bind o (fun a => bind (f a) g) = bind (bind o f) g.
Proof. destruct o; reflexivity. Qed.

Lemma even_tree_ok junk x t : even_tree junk x t -> tree_seen junk t (swap x) = tree_seen junk t x.
Proof.
  induction 1 as [t H|l p H|par fs H _ IH|par a b f g H _ IHf _ IHg].
  - unfold tree_seen. rewrite convert_swap by exact H. reflexivity.
  - exact H.
  - assert (R : forall y, tree_seen junk (Compound par fs) y = value_loop junk (FuncModel.value junk) par (copy 6 y (fun _ => junk)) fs (repeat 0 (dimY par))).
    { intros y. unfold tree_seen. cbn [par_of]. rewrite H. reflexivity. }
    rewrite !R. clear R. generalize (repeat 0 (dimY par)) as res. induction fs as [|f fs IHl]; intros res; [reflexivity|].
    cbn [value_loop]. rewrite !(bind_assoc (child_point _ _ _ _)), !child_seen by exact H. rewrite (IH f (or_introl eq_refl)).
    destruct (_ <? _)%nat; [reflexivity|]. destruct (tree_seen junk (snd f) x) as [v| | |]; try reflexivity. cbn [bind].
    destruct (add_checked res v); try reflexivity. cbn [bind]. apply IHl. intros f' Hf. apply IH. right. exact Hf.
  - assert (R : forall y, tree_seen junk (Product par a b f g) y =
      (do v1 <- (if (dimX (par_of f) <? Z.to_nat (dimension_in (in_param (par_of f))))%nat then UB else tree_seen junk f y);
       do v2 <- (if (dimX (par_of g) <? Z.to_nat (dimension_in (in_param (par_of g))))%nat then UB else tree_seen junk g y); product Rmult v1 v2)).
    { intros y. rewrite <- !(child_seen junk y par) by exact H. unfold tree_seen. cbn [par_of]. rewrite H.
      change (convert y CARTESIAN CARTESIAN (fun _ => junk)) with (Ok (copy 6 y (fun _ => junk))). cbn [bind FuncModel.value]. rewrite H.
      destruct (child_point junk _ CARTESIAN (par_of f)) as [z| | |]; try reflexivity. cbn [bind]. destruct (FuncModel.value junk f z) as [v| | |]; try reflexivity. cbn [bind]. apply bind_assoc. }
    rewrite !R, IHf, IHg. reflexivity.
Qed.

Lemma plugin_leaf_even junk jp x F ip pa mn mx p : In (F, ip) (reciprocal jp) -> in_param pa = ip -> even_tree junk x (Leaf (leaf_of junk F pa mn mx) p).
Proof.
  intros HF Hi. destruct (match ip with CARTESIAN => true | _ => false end) eqn:C.
  - assert (ip = CARTESIAN) by (destruct ip; try discriminate; reflexivity). clear C. apply EvenLeaf. unfold tree_seen. cbn [par_of leaf_of lf_par]. rewrite Hi, H.
    cbn [FuncModel.value lf_value leaf_of]. pose proof (reciprocal_ok junk jp (dimY pa) p x F CARTESIAN) as R. rewrite H in HF. specialize (R HF). unfold seen in R.
    change (convert (swap x) CARTESIAN CARTESIAN (fun _ => junk)) with (Ok (copy 6 (swap x) (fun _ => junk))) in *.
    change (convert x CARTESIAN CARTESIAN (fun _ => junk)) with (Ok (copy 6 x (fun _ => junk))) in *. cbn [bind] in *. rewrite R. reflexivity.
  - apply EvenCoord. cbn [par_of leaf_of lf_par]. rewrite Hi. unfold reciprocal in HF. cbn [map app] in HF.
    repeat (destruct HF as [E|HF]; [injection E as _ <-; solve [exact I|discriminate C]|]). destruct HF.
Qed.

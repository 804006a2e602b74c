(** Proofs for the shader export: the value of the function object. *)
From Coq Require Import Reals List Lia Lra.
From Verif Require Import Base ParamsModel GeoModel TextModel CommonModel RatProofs NlModel NlSpec NlProofs NlGrad NlMoreModel NlMoreSpec FuncModel
  Glsl GlslModel GlslSpec GlslValueSpec GlslProgram GlslCheck GlslEval GlslRun GlslValue.
Open Scope R_scope.

Section Object.
Variable junk : R.
Variable nY : nat.
Variable x : mem.
Hypothesis Hx : directions x.

Definition par_cos : parameters := mkParameters 1 nY COS_TH RGB_COLOR.
Definition par_car : parameters := mkParameters 6 nY CARTESIAN RGB_COLOR.
Definition good (p : parameters) : Prop := p = par_cos \/ p = par_car.
(** values of a function in parametrization [p] from one in [q] *)
Definition below (p q : parameters) : Prop := p = par_cos -> q = par_cos.
Lemma child_rep p q m : good p -> good q -> below p q -> rep (in_param p) x m ->
  exists m', child_point junk m (in_param p) q = Ok m' /\ rep (in_param q) x m'.
Proof using Hx.
  intros Gp Gq B Hm. destruct Hx as (_ & _ & Hh). destruct Gp as [-> | ->].
  - rewrite (B eq_refl). eexists. split; [reflexivity|]. exact Hm.
  - destruct Gq as [-> | ->].
    + pose proof (agree_half x m Hm Hh) as Hm'. eexists. split.
      * unfold child_point. cbn -[convert]. unfold convert. cbn -[from_cartesian]. rewrite from_cartesian_ok by exact Hm'. unfold from_cartesian_writes. rewrite (half_vector_ok m (proj1 Hm')). reflexivity.
      * cbn. agree_ Hm. reflexivity.
    + eexists. split; [reflexivity|]. intros i Hi. rewrite (agree_copy m _ i Hi). apply Hm, Hi.
Qed.
Lemma pars_differ : par_cos <> par_car. Proof. intros E. apply (f_equal in_param) in E. discriminate E. Qed.
Lemma loop_good l : Forall good l -> forall r, good r -> exists p, compound_parameters_loop r l = Ok p /\ good p /\ below p r /\ forall q, In q l -> below p q.
Proof.
  induction 1 as [|f l Hf Hl IH]; intros r Hr.
  - exists r. split; [reflexivity|]. split; [exact Hr|]. split; [intros H; exact H|]. intros q [].
  - cbn [compound_parameters_loop]. destruct Hr as [-> | ->].
    + destruct Hf as [-> | ->]; cbn -[compound_parameters_loop].
      * destruct (IH par_cos (or_introl eq_refl)) as (p & E & G & B & Q). exists p. split; [exact E|]. split; [exact G|]. split; [exact B|]. intros q [<-|Hq]; auto.
      * destruct (IH par_car (or_intror eq_refl)) as (p & E & G & B & Q). exists p. split; [exact E|]. split; [exact G|].
        assert (N : p <> par_cos) by (intros N; apply pars_differ; symmetry; exact (B N)). split; [intros N'; contradiction|]. intros q _ N'. contradiction.
    + destruct (IH par_car (or_intror eq_refl)) as (p & E & G & B & Q).
      assert (N : p <> par_cos) by (intros N; apply pars_differ; symmetry; exact (B N)).
      exists p. destruct Hf as [-> | ->]; cbn -[compound_parameters_loop]; (split; [exact E|]; split; [exact G|]; split; [intros N'; contradiction|intros q _ N'; contradiction]).
Qed.

Definition value_ok (t : tree) (f : nat -> R) : Prop := good (par_of t) /\
  forall m, rep (in_param (par_of t)) x m -> exists v, value junk t m = Ok v /\ length v = nY /\ forall y, (y < nY)%nat -> nth y v 0 = f y.
Fixpoint tree_val (f : xfun) (y : nat) : R :=
  match f with
  | XLeaf k p => leaf_sum nY PI k x p y
  | XProd f g => tree_val f y * tree_val g y
  | _ => 0 end.
Lemma product_values a b : length a = nY -> length b = nY -> exists v, product Rmult a b = Ok v /\ length v = nY /\ forall y, (y < nY)%nat -> nth y v 0 = nth y a 0 * nth y b 0.
Proof.
  assert (C : forall a b y, length a = length b -> nth y (cwise Rmult a b) 0 = nth y a 0 * nth y b 0 /\ length (cwise Rmult a b) = length a).
  { clear. induction a as [|u a IH]; intros [|v b] y H; try discriminate; [cbn; destruct y; split; ring || reflexivity|].
    cbn [cwise]. split; [|cbn; f_equal; apply (IH b 0%nat); cbn in H; lia]. destruct y as [|y]; [reflexivity|]. cbn. apply IH. cbn in H. lia. }
  intros A B. assert (AB : length a = length b) by congruence.
  destruct a as [|u [|u' a]].
  - destruct b; [|discriminate]. exists []. cbn in *. repeat split; auto. intros y Hy. destruct y; ring.
  - destruct b as [|v [|v' b]]; try discriminate. exists [v * u]. cbn in *. repeat split; auto. intros y Hy. destruct y as [|y]; [ring|lia].
  - destruct b as [|v [|v' b]]; try discriminate. eexists. cbn [product]. rewrite AB, Nat.eqb_refl. split; [reflexivity|].
    split; [rewrite (proj2 (C _ _ 0%nat AB)); exact A|]. intros y _. apply (C _ _ y AB).
Qed.
Lemma term_object f : factor f \/ term f -> Forall faithful (kinds f) -> defined x nY f -> exists t, object_of junk nY f = Ok t /\ value_ok t (tree_val f).
Proof using Hx.
  induction f as [k p| |fs|f IHf g IHg]; intros Hf Hk Hd; try (destruct Hf; contradiction).
  - assert (Fk : faithful k) by (inversion Hk; assumption). exists (Leaf (plugin_leaf junk nY k) p). split; [reflexivity|]. split.
    + unfold good. destruct k; try contradiction; cbn; auto.
    + intros m Hm. cbn [par_of plugin_leaf lf_par in_param] in Hm. destruct (leaf_value junk nY k p x m Fk Hx Hd Hm) as (v & E & Hl & Hv).
      exists v. cbn [value plugin_leaf lf_value]. rewrite E. auto.
  - assert (Hff : factor (XProd f g)) by (destruct Hf; assumption). destruct Hff as [F1 F2]. destruct Hd as [D1 D2]. cbn [kinds] in Hk. apply Forall_app in Hk. destruct Hk as [K1 K2].
    destruct (IHf (or_introl F1) K1 D1) as (t & Et & Gt & Vt). destruct (IHg (or_introl F2) K2 D2) as (u & Eu & Gu & Vu).
    exists (make_product t u false false). cbn [object_of]. rewrite Et, Eu. split; [reflexivity|]. unfold make_product. cbn [value_ok par_of].
    assert (P : good (product_parameters (par_of t) (par_of u)) /\ below (product_parameters (par_of t) (par_of u)) (par_of t) /\ below (product_parameters (par_of t) (par_of u)) (par_of u)).
    { destruct Gt as [-> | ->], Gu as [-> | ->]; cbn; unfold below, good; repeat split; auto; intros E; exfalso; apply pars_differ; rewrite <- E; reflexivity. }
    destruct P as (Gp & Bt & Bu). split; [exact Gp|]. intros m Hm. cbn [par_of] in Hm. cbn [value].
    destruct (child_rep _ _ m Gp Gt Bt Hm) as (m1 & E1 & R1). destruct (child_rep _ _ m Gp Gu Bu Hm) as (m2 & E2 & R2).
    destruct (Vt m1 R1) as (v1 & V1 & L1 & W1). destruct (Vu m2 R2) as (v2 & V2 & L2 & W2). rewrite E1. cbn [bind]. rewrite V1. cbn [bind]. rewrite E2. cbn [bind]. rewrite V2. cbn [bind].
    destruct (product_values v1 v2 L1 L2) as (v & E & L & W). exists v. split; [exact E|]. split; [exact L|]. intros y Hy. rewrite (W y Hy), (W1 y Hy), (W2 y Hy). reflexivity.
Qed.
Definition objects := fix all l := match l with [] => Ok [] | f :: t => do a <- object_of junk nY f; do b <- all t; Ok ((false, a) :: b) end.
Lemma terms_objects fs : Forall term fs -> Forall (fun f => Forall faithful (kinds f)) fs -> Forall (defined x nY) fs ->
  exists ts, objects fs = Ok ts /\ Forall2 (fun f t => value_ok (snd t) (tree_val f)) fs ts.
Proof using Hx.
  induction fs as [|f fs IH]; intros Ht Hk Hd; [exists []; split; [reflexivity|constructor]|].
  inversion Ht; subst. inversion Hk; subst. inversion Hd; subst. destruct (term_object f) as (t & E & V); auto. destruct IH as (ts & Es & Vs); auto.
  exists ((false, t) :: ts). cbn [objects]. rewrite E. cbn [bind]. fold objects. rewrite Es. split; [reflexivity|]. constructor; auto.
Qed.
Lemma vadd_nth a b y : length a = length b -> nth y (vadd a b) 0 = nth y a 0 + nth y b 0 /\ length (vadd a b) = length a.
Proof.
  revert b y. induction a as [|u a IH]; intros [|v b] y H; try discriminate; [cbn; destruct y; split; ring || reflexivity|].
  cbn [vadd]. split; [|cbn; f_equal; apply (IH b 0%nat); cbn in H; lia]. destruct y as [|y]; [reflexivity|]. cbn. apply IH. cbn in H. lia.
Qed.
Lemma sum_values p fs ts m : good p -> (forall q, In q (map (fun f => par_of (snd f)) ts) -> below p q) -> rep (in_param p) x m ->
  Forall2 (fun f t => value_ok (snd t) (tree_val f)) fs ts -> forall res, length res = nY ->
  exists v, value_loop junk (value junk) p m ts res = Ok v /\ length v = nY /\ forall y, (y < nY)%nat -> nth y v 0 = nth y res 0 + rsum (map (fun f => tree_val f y) fs).
Proof using Hx.
  intros Gp B Hm F. induction F as [|f t fs ts (Gt & Vt) F IH]; intros res Hr.
  - exists res. cbn. repeat split; auto. intros; ring.
  - cbn [value_loop]. destruct (child_rep p (par_of (snd t)) m Gp Gt ltac:(apply B; left; reflexivity) Hm) as (m1 & E1 & R1). destruct (Vt m1 R1) as (v1 & V1 & L1 & W1).
    rewrite E1. cbn [bind]. rewrite V1. cbn [bind]. unfold add_checked. rewrite Hr, L1, Nat.eqb_refl. cbn [bind].
    destruct (IH ltac:(intros q Hq; apply B; right; exact Hq) (vadd res v1)) as (v & E & L & W); [rewrite (proj2 (vadd_nth res v1 0 ltac:(congruence))); exact Hr|].
    exists v. split; [exact E|]. split; [exact L|]. intros y Hy. rewrite (W y Hy). rewrite (proj1 (vadd_nth res v1 y ltac:(congruence))), (W1 y Hy). cbn [map rsum]. ring.
Qed.
Lemma object_sum fs : fs <> [] -> Forall term fs -> Forall (fun f => Forall faithful (kinds f)) fs -> Forall (defined x nY) fs ->
  exists v, object_value junk nY (XSum fs) x = Ok v /\ length v = nY /\ forall y, (y < nY)%nat -> nth y v 0 = rsum (map (fun f => tree_val f y) fs).
Proof using Hx.
  intros Hn Ht Hk Hd. destruct (terms_objects fs Ht Hk Hd) as (ts & E & F). unfold object_value. cbn [object_of]. fold objects. rewrite E. cbn [bind].
  assert (G : Forall good (map (fun f : bool * tree => par_of (snd f)) ts)).
  { clear -F. induction F as [|f t fs ts (G & _) F IH]; constructor; auto. }
  destruct fs as [|f fs]; [congruence|]. inversion F as [|? t ? ts' H1 H2]; subst. clear Hn.
  unfold make_compound. cbn [map compound_parameters]. cbn [map] in G.
  destruct (loop_good _ G (par_of (snd t)) (Forall_inv G)) as (p & Ep & Gp & _ & B). rewrite Ep. cbn [bind par_of].
  destruct (child_rep par_car p x (or_intror eq_refl) Gp) as (m & Em & Rm).
  { intros C. exfalso. apply pars_differ. symmetry. exact C. }
  { intros i Hi. reflexivity. }
  assert (Em' : convert x CARTESIAN (in_param p) (fun _ => junk) = Ok m).
  { destruct Gp as [-> | ->]; exact Em. }
  rewrite Em'. cbn [bind value].
  destruct (sum_values p (f :: fs) (t :: ts') m Gp B Rm F (repeat 0 (dimY p))) as (v & Ev & L & W); [rewrite repeat_length; destruct Gp as [-> | ->]; reflexivity|].
  exists v. split; [exact Ev|]. split; [exact L|]. intros y Hy. rewrite (W y Hy), nth_repeat. apply Rplus_0_l.
Qed.
End Object.

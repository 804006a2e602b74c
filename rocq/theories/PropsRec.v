(** C122, C123: the two directions can be exchanged, and the values stay in range. *)
From Coq Require Import Reals List Lia Lra.
From Verif Require Import Base ParamsModel GeoModel TextModel FuncModel FuncSpec CommonModel NlModel NlSpec NlProofs NlGrad NlGrad2 NlGrad5 NlMoreModel NlMoreSpec NlMoreProofs NlSgd NlLobes2 LafModel LafSpec
  GlslValueSpec GlslValue RecSpec RecProofs RecProofs2 RecProofs3 RecProofs4 RecProofs5 PropsNl3.
Open Scope R_scope.

(** ** C122: reciprocity *)
(** Coordinates that do not tell the directions apart. *)
Theorem C122_coordinates : forall q x out, even_handed q \/ even_handed_unit q /\ 0 < hlen x /\ same_length x ->
  convert (swap x) CARTESIAN q out = convert x CARTESIAN q out.
Proof. intros q x out [H|(H & Hl & Hs)]; [apply convert_swap, H|apply convert_swap_unit; assumption]. Qed.
Print Assumptions C122_coordinates.
(** Plugins: the same outcome for every pair of vectors and every parameter vector. *)
Theorem C122_plugins : forall junk jp F ip nY p x, In (F, ip) (reciprocal jp) -> seen junk F ip nY p (swap x) = seen junk F ip nY p x.
Proof. intros junk jp F ip nY p x H. apply (reciprocal_ok junk jp nY p x F ip H). Qed.
Print Assumptions C122_plugins.
(** Fresnel factors, for vectors of the same length *)
Theorem C122_fresnel : forall junk F nY p x, 0 < hlen x -> same_length x -> In F reciprocal_unit ->
  seen junk F CARTESIAN nY p (swap x) = seen junk F CARTESIAN nY p x.
Proof. intros junk F nY p x Hl Hs. apply (schlick_swap junk nY p x Hl Hs). Qed.
Print Assumptions C122_fresnel.
(** the factor of the retro lobes and the mirror Gaussians, for unit directions *)
Theorem C122_mirrored : forall junk F nY p x, directions x ->
  F = spherical_gaussian Mirror \/ F = spherical_gaussian Retro \/ F = retro_schlick /\ / 10 ^ 10 < back_len x ->
  seen junk F CARTESIAN nY p (swap x) = seen junk F CARTESIAN nY p x.
Proof.
  intros junk F nY p x D [->|[->|[-> H]]]; [apply mirror_swap; auto|apply mirror_swap; auto|apply retro_schlick_swap; assumption].
Qed.
Print Assumptions C122_mirrored.
(** both kinds of Lafortune lobes, whatever the object holds *)
Theorem C122_lafortune : forall junk nY s t x,
  laf_value junk nY s (swap x) = laf_value junk nY s x /\ avalue junk nY t (swap x) = avalue junk nY t x.
Proof. intros. split; [apply laf_value_swap|apply avalue_swap]. Qed.
Print Assumptions C122_lafortune.
(** SGD, unless exactly one of the directions is below the surface *)
Theorem C122_sgd : forall junk nY p x, length p = (11 * nY)%nat -> 0 < hlen x -> same_length x -> (x 2%nat < 0 <-> x 5%nat < 0) ->
  sgd_value_at junk nY p (swap x) = sgd_value_at junk nY p x.
Proof. exact sgd_swap. Qed.
Print Assumptions C122_sgd.
(** Sums and products of symmetric functions, nested in any way *)
Theorem C122_trees : forall junk x t, even_tree junk x t -> tree_seen junk t (swap x) = tree_seen junk t x.
Proof. exact even_tree_ok. Qed.
Print Assumptions C122_trees.
Theorem C122_plugin_in_a_tree : forall junk jp x F ip pa mn mx p, In (F, ip) (reciprocal jp) -> in_param pa = ip ->
  even_tree junk x (Leaf (leaf_of junk F pa mn mx) p).
Proof. exact plugin_leaf_even. Qed.
Print Assumptions C122_plugin_in_a_tree.

(** SGD looks at the first direction only when it asks whether the light is below *)
Theorem C122_sgd_refuted : forall junk x, x 2%nat < 0 <= x 5%nat -> exists p,
  sgd_value_at junk 1 p x = Ok [0] /\ sgd_value_at junk 1 p (swap x) = Ok [one_pi] /\ 0 <> one_pi.
Proof.
  intros junk x [H2 H5]. exists [0; 0; 0; 0; 0; 0; 0; 0; 1; 0; 1].
  assert (V : forall y, sgd_value_at junk 1 [0; 0; 0; 0; 0; 0; 0; 0; 1; 0; 1] y = Ok [one_pi * (if Rlt_dec (y 2%nat) 0 then 0 else 1)]).
  { intros y. destruct (sgd_value_ok junk 1 [0; 0; 0; 0; 0; 0; 0; 0; 1; 0; 1] y eq_refl) as (v & E & L & N). rewrite E. destruct v as [|a [|]]; try discriminate.
    specialize (N 0%nat ltac:(lia)). cbn [nth Nat.mul Nat.add] in N. do 2 f_equal. rewrite N.
    assert (Z : sgd_lobe junk y (sgd_channel 1 [0; 0; 0; 0; 0; 0; 0; 0; 1; 0; 1] 0) = 0) by (unfold sgd_lobe, sgd_channel; cbn [map seq nth Nat.mul Nat.add]; ring).
    rewrite Z. ring. }
  rewrite !V. change (swap x 2%nat) with (x 5%nat). destruct (Rlt_dec (x 2%nat) 0); [|lra]. destruct (Rlt_dec (x 5%nat) 0); [lra|].
  rewrite Rmult_0_r, Rmult_1_r. split; [reflexivity|]. split; [reflexivity|]. unfold one_pi. lra.
Qed.
Print Assumptions C122_sgd_refuted.
(** Smith's term depends on the second direction only (and on whether the first one
    is the normal). *)
Theorem C122_smith_refuted : forall junk,
  (forall nY p x x', x 2%nat <> 1 -> x' 2%nat <> 1 -> (forall i, (3 <= i < 6)%nat -> x i = x' i) -> value_at junk smith nY p x = value_at junk smith nY p x') /\
  exists x, directions x /\ 0 < x 2%nat /\ 0 < x 5%nat /\
    component (seen junk smith CARTESIAN 1 [10] x) 0 <> component (seen junk smith CARTESIAN 1 [10] (swap x)) 0.
Proof.
  intros junk. split.
  - intros nY p x x' H H' E. eapply value_geo2; [reflexivity|reflexivity|]. intros c. cbn [f_val smith]. unfold p0, p1. cbn [nth]. rewrite (E 3%nat), (E 4%nat), (E 5%nat) by lia.
    destruct (Req_EM_T (x 2%nat) 1); [contradiction|]. destruct (Req_EM_T (x' 2%nat) 1); [contradiction|]. reflexivity.
  - exists across. split; [|split; [unfold across; cbn; lra|split; [unfold across; cbn; lra|]]].
    + split; [unfold GlslValueSpec.unit3, across; cbn; lra|]. split; [unfold GlslValueSpec.unit3, across; cbn; lra|].
      split; [unfold hlen, hsum, across; cbn; apply sqrt_lt_R0; lra|unfold hsum, across; cbn; lra].
    + assert (C : forall y, seen junk smith CARTESIAN 1 [10] y = value_at junk smith 1 [10] y) by (intros y; rewrite seen_cartesian; apply value_geo; reflexivity).
      rewrite !C. apply smith_across.
Qed.
Print Assumptions C122_smith_refuted.
(** Retro Beckmann without the back parametrization: dark one way, bright the other *)
Theorem C122_retrobeckmann_refuted : forall junk, exists x, directions x /\ 0 < x 2%nat /\ 0 < x 5%nat /\
  forall ks a, 0 < ks -> 0 < a ->
    component (seen junk (retrobeckmann false) CARTESIAN 1 [ks; a] x) 0 = 0 /\ 0 < component (seen junk (retrobeckmann false) CARTESIAN 1 [ks; a] (swap x)) 0.
Proof.
  intros junk. exists (fun i => nth i [0; 3 / 5; 4 / 5; 0; - (4 / 5); 3 / 5] 0). set (x := fun i => nth i [0; 3 / 5; 4 / 5; 0; - (4 / 5); 3 / 5] 0).
  split; [|split; [unfold x; cbn; lra|split; [unfold x; cbn; lra|]]].
  { split; [unfold GlslValueSpec.unit3, x; cbn; lra|]. split; [unfold GlslValueSpec.unit3, x; cbn; lra|].
    split; [unfold hlen, hsum, x; cbn; apply sqrt_lt_R0; lra|unfold hsum, x; cbn; lra]. }
  intros ks a Hk Ha. rewrite !seen_cartesian.
  assert (C : forall y, value_at junk (retrobeckmann false) 1 [ks; a] (copy 6 y (fun _ => junk)) = value_at junk (retrobeckmann false) 1 [ks; a] y) by (intros y; apply value_geo; reflexivity).
  rewrite !C.
  assert (D1 : retro_dot x = 0) by (unfold retro_dot, x; cbn; apply Rmax_right; lra).
  assert (D2 : retro_dot (swap x) = 21 / 25) by (unfold retro_dot, swap, x; cbn; rewrite Rmax_left; lra).
  split.
  - destruct (value_is_of junk (retrobeckmann false) 1 [ks; a] x [retro_dot x] (fun _ => 0) eq_refl eq_refl eq_refl) as (v & E & _ & N).
    + intros y Hy. cbn [f_val retrobeckmann]. unfold p0 at 1. cbn [nth]. rewrite D1, rltb_no by lra. reflexivity.
    + rewrite E. cbn [component]. apply N. lia.
  - destruct (retro_value junk 1 [ks; a] (swap x) eq_refl) as (v & E & _ & N); [rewrite D2; lra|]. rewrite E. cbn [component]. rewrite N by lia. rewrite D2.
    unfold par. cbn [f_k beckmann Nat.mul Nat.add nth]. unfold beckmann_formula. pose proof PI_RGT_0.
    apply Rmult_lt_0_compat; [|apply exp_pos]. apply Rdiv_lt_0_compat; [exact Hk|]. apply Rmult_lt_0_compat; [|apply pow_lt; lra]. apply Rmult_lt_0_compat; nra.
Qed.
Print Assumptions C122_retrobeckmann_refuted.

(** ** C123: ranges *)
(** No lobe is negative. *)
Theorem C123_lobes : forall junk jp F nY p x v, 0 <= jp -> In F (lobe_plugins jp) -> length p = (f_k F * nY)%nat -> proper F nY p ->
  value_at junk F nY p x = Ok v -> length v = nY /\ forall y, (y < nY)%nat -> 0 <= nth y v 0.
Proof. exact lobe_nonneg. Qed.
Print Assumptions C123_lobes.
Theorem C123_lafortune : forall junk nY L p x i, length p = (3 * L * nY)%nat -> (i < nY)%nat -> 0 <= component (laf_value_at junk nY L p x) i.
Proof.
  intros junk nY L p x i Hp Hi. destruct (laf_value_at_ok junk nY L p x Hp) as (v & E & _ & N). rewrite E. cbn [component]. rewrite N by exact Hi.
  clear. induction L; cbn [sum_to]; [lra|]. assert (0 <= laf_lobe nY p x L i) by (unfold laf_lobe; destruct (Rlt_dec _ _); [left; apply exp_pos|lra]). lra.
Qed.
Print Assumptions C123_lafortune.
(** Blinn and ABC do not exceed their amplitude, and reach it when the half vector is
    the normal. *)
Theorem C123_peaks : forall junk nY p x y, (y < nY)%nat -> x 0%nat <= 1 ->
  (length p = (2 * nY)%nat -> proper blinn nY p ->
     let v := component (value_at junk blinn nY p x) y in v <= par blinn p y 0 /\ (x 0%nat = 1 -> v = par blinn p y 0)) /\
  (length p = (3 * nY)%nat -> proper abc nY p ->
     let v := component (value_at junk abc nY p x) y in v <= par abc p y 0 /\ (x 0%nat = 1 -> v = par abc p y 0)).
Proof.
  intros junk nY p x y Hy Hx. split; intros Hp Pr; cbv zeta.
  - destruct (blinn_value junk nY p x Hp) as (v & E & _ & N). rewrite E. cbn [component]. rewrite N by exact Hy. destruct (Pr y Hy) as [A B].
    specialize (B 1%nat ltac:(cbn; lia)). destruct (Rlt_dec 0 (x 0%nat)) as [P|P].
    + split; [pose proof (rpower_le_1 (x 0%nat) (par blinn p y 1) ltac:(lra) ltac:(lra)); nra|].
      intros ->. unfold Rpower. rewrite ln_1, Rmult_0_r, exp_0. ring.
    + split; [exact A|lra].
  - destruct (Pr y Hy) as [A B]. pose proof (B 1%nat ltac:(cbn; lia)) as B1. pose proof (B 2%nat ltac:(cbn; lia)) as B2. destruct (Rlt_le_dec (x 0%nat) 0) as [P|P].
    + destruct (abc_outside junk nY p x Hp (or_introl P)) as (v & E & _ & N). rewrite E. cbn [component]. rewrite N by exact Hy. split; [exact A|lra].
    + destruct (abc_value junk nY p x Hp (conj P Hx)) as (v & E & _ & N). rewrite E. cbn [component]. rewrite N by exact Hy.
      pose proof (rpower_ge_1 (1 + par abc p y 1 * (1 - x 0%nat)) (par abc p y 2) ltac:(nra) ltac:(lra)) as Q. split.
      * apply (Rmult_le_reg_r (Rpower (1 + par abc p y 1 * (1 - x 0%nat)) (par abc p y 2))); [lra|]. unfold Rdiv. rewrite Rmult_assoc, Rinv_l by lra. nra.
      * intros E1. rewrite E1. replace (1 + par abc p y 1 * (1 - 1)) with 1 by ring. unfold Rpower. rewrite ln_1, Rmult_0_r, exp_0. field.
Qed.
Print Assumptions C123_peaks.
(** The Fresnel factor of the retro lobes lies between R0 and 1 (Schlick's: C53). *)
Theorem C123_retro_fresnel : forall junk nY p x y, length p = nY -> directions x -> / 10 ^ 10 < back_len x -> (y < nY)%nat -> nth y p 0 <= 1 ->
  nth y p 0 <= component (value_at junk retro_schlick nY p x) y <= 1.
Proof. exact retro_schlick_range. Qed.
Print Assumptions C123_retro_fresnel.
(** Smith's term is a fraction of the light when the second direction is above the
    surface and not the normal (Schlick's term: C68), ... *)
Theorem C123_smith : forall junk nY p x y, length p = nY -> (y < nY)%nat -> 0 < nth y p 0 -> x 2%nat <> 1 -> 0 < x 3%nat * x 3%nat + x 4%nat * x 4%nat -> 0 < x 5%nat ->
  0 < component (value_at junk smith nY p x) y < 1.
Proof. exact smith_range. Qed.
Print Assumptions C123_smith.
(** ... and never strictly between when it is below *)
Theorem C123_smith_below_refuted : forall junk nY p x y, length p = nY -> (y < nY)%nat -> 0 < nth y p 0 -> x 2%nat <> 1 -> 0 < x 3%nat * x 3%nat + x 4%nat * x 4%nat -> x 5%nat < 0 ->
  let v := component (value_at junk smith nY p x) y in v = 0 \/ v < 0 \/ 1 < v.
Proof. exact smith_outside. Qed.
Print Assumptions C123_smith_below_refuted.
(** Walter's term is positive where both directions are above the surface, and exceeds
    1 by less than three thousandths. *)
Lemma walter_pair : forall junk nY p x y, length p = nY -> (y < nY)%nat -> 0 < nth y p 0 ->
  GlslValueSpec.unit3 (x 0%nat) (x 1%nat) (x 2%nat) -> GlslValueSpec.unit3 (x 3%nat) (x 4%nat) (x 5%nat) -> 1 / 1000000 <= hlen x -> 0 < x 2%nat < 1 -> 0 < x 5%nat < 1 ->
  let a z := 1 / (nth y p 0 * (sqrt (1 - z ^ 2) / z)) in
  component (value_at junk walter_smith nY p x) y = shadow_term (a (x 2%nat)) * shadow_term (a (x 5%nat)) /\ 0 < a (x 2%nat) /\ 0 < a (x 5%nat).
Proof.
  intros junk nY p x y Hp Hy Hw A B L H2 H5 a.
  destruct (C68_walter_value junk nY p x Hp A B L ltac:(lra) ltac:(lra)) as (v & E & _ & N). rewrite E. cbn [component]. rewrite N by exact Hy.
  destruct (Rlt_dec 0 (x 2%nat)); [|lra]. destruct (Rlt_dec 0 (x 5%nat)); [|lra]. rewrite <- !walter_factor_is. split; [reflexivity|].
  assert (T : forall z, 0 < z < 1 -> 0 < a z).
  { intros z Hz. unfold a. apply Rdiv_lt_0_compat; [lra|]. apply Rmult_lt_0_compat; [exact Hw|]. apply Rdiv_lt_0_compat; [|lra]. apply sqrt_lt_R0. cbn [pow]. nra. }
  split; apply T; assumption.
Qed.
Theorem C123_walter : forall junk nY p x y, length p = nY -> (y < nY)%nat -> 0 < nth y p 0 ->
  GlslValueSpec.unit3 (x 0%nat) (x 1%nat) (x 2%nat) -> GlslValueSpec.unit3 (x 3%nat) (x 4%nat) (x 5%nat) -> 1 / 1000000 <= hlen x -> 0 < x 2%nat < 1 -> 0 < x 5%nat < 1 ->
  0 < component (value_at junk walter_smith nY p x) y < 1003 / 1000.
Proof.
  intros junk nY p x y Hp Hy Hw A B L H2 H5. destruct (walter_pair junk nY p x y Hp Hy Hw A B L H2 H5) as (E & P2 & P5). rewrite E.
  destruct (walter_term _ P2) as [[Q1 Q2] _]. destruct (walter_term _ P5) as [[R1 R2] _]. split; [nra|].
  apply Rle_lt_trans with (10014 / 10000 * (10014 / 10000)); [apply Rmult_le_compat; lra|lra].
Qed.
Print Assumptions C123_walter.
(** it does exceed 1, for mirror directions exactly when the argument of the rational
    approximation is below 8/5 and between the roots of a quadratic *)
Theorem C123_walter_refuted : forall junk nY p x y, length p = nY -> (y < nY)%nat -> 0 < nth y p 0 ->
  GlslValueSpec.unit3 (x 0%nat) (x 1%nat) (x 2%nat) -> GlslValueSpec.unit3 (x 3%nat) (x 4%nat) (x 5%nat) -> 1 / 1000000 <= hlen x -> 0 < x 2%nat < 1 -> x 5%nat = x 2%nat ->
  let a := 1 / (nth y p 0 * (sqrt (1 - x 2%nat ^ 2) / x 2%nat)) in
  1 < component (value_at junk walter_smith nY p x) y <-> a < 8 / 5 /\ 396 * a ^ 2 + 1000 < 1268 * a.
Proof.
  intros junk nY p x y Hp Hy Hw A B L H2 H5 a. destruct (walter_pair junk nY p x y Hp Hy Hw A B L H2 ltac:(rewrite H5; exact H2)) as (E & P2 & _). rewrite E, H5. fold a. fold a in P2.
  destruct (walter_term a P2) as [[Q1 Q2] Q3]. rewrite <- Q3. set (s := shadow_term a) in *. split; intros H; [|nra]. destruct (Rlt_le_dec 1 s); [assumption|nra].
Qed.
Print Assumptions C123_walter_refuted.

(** ** Cases *)
Example C122_case : directions tilted /\ same_length tilted /\ / 10 ^ 10 < back_len tilted /\ swap tilted 0%nat <> tilted 1%nat.
Proof.
  destruct tilted_directions as (D & _). split; [exact D|]. split; [unfold same_length, tilted; cbn; lra|]. split.
  - apply Rlt_le_trans with 1; [lra|]. apply Rle_trans with (sqrt 1); [rewrite sqrt_1; lra|]. unfold back_len, tilted. cbn [nth]. apply sqrt_le_1_alt. lra.
  - unfold swap, tilted. cbn. lra.
Qed.
(** a Blinn lobe times a Fresnel factor plus a Ward lobe: a tree that is symmetric *)
Definition pa (q : input) (d : nat) : parameters := mkParameters d 1 q INV_STERADIAN.
Example C122_tree_case : forall junk x, 0 < hlen x -> same_length x ->
  even_tree junk x (Compound (pa CARTESIAN 6)
    [(false, Product (pa CARTESIAN 6) false false (Leaf (leaf_of junk blinn (pa COS_TH 1) [] []) [2; 5]) (Leaf (leaf_of junk (schlick CARTESIAN) (pa CARTESIAN 6) [] []) [1 / 2]));
     (false, Leaf (leaf_of junk ward (pa CARTESIAN 6) [] []) [1; 1 / 2; 1 / 3])]).
Proof.
  intros junk x Hl Hs. apply EvenSum; [reflexivity|]. intros f [<-|[<-|[]]]; cbn [snd].
  - apply EvenProduct; [reflexivity|apply EvenCoord; exact I|]. apply EvenLeaf. unfold tree_seen. cbn [par_of leaf_of lf_par in_param pa].
    pose proof (C122_fresnel junk (schlick CARTESIAN) 1 [1 / 2] x Hl Hs (or_introl eq_refl)) as R. unfold seen in R.
    change (convert (swap x) CARTESIAN CARTESIAN (fun _ => junk)) with (Ok (copy 6 (swap x) (fun _ => junk))) in *.
    change (convert x CARTESIAN CARTESIAN (fun _ => junk)) with (Ok (copy 6 x (fun _ => junk))) in *. change (dimY (pa CARTESIAN 6)) with 1%nat in *. cbn [bind FuncModel.value lf_value leaf_of] in *. change (dimY (pa CARTESIAN 6)) with 1%nat. rewrite R. reflexivity.
  - apply (C122_plugin_in_a_tree junk 0 x ward CARTESIAN); [unfold reciprocal; cbn; tauto|reflexivity].
Qed.
(** parameters inside the hypotheses; the excess of Walter's term *)
Example C123_case : proper ward 1 [1; 1 / 2; 1 / 3] /\ proper blinn 2 [0; 5; 1; 7] /\ 1 < shadow_term (3 / 2).
Proof.
  split; [|split].
  - intros y Hy. assert (y = 0%nat) by lia. subst y. split; [unfold par; cbn; lra|]. intros l Hl. cbn in Hl. assert (l = 1 \/ l = 2)%nat as [->| ->] by lia; unfold par; cbn; lra.
  - intros y Hy. assert (y = 0 \/ y = 1)%nat as [->| ->] by lia; (split; [unfold par; cbn; lra|]); intros l Hl; cbn in Hl; assert (l = 1)%nat as -> by lia; unfold par; cbn; lra.
  - apply (walter_term (3 / 2)); [lra|]. cbn [pow]. lra.
Qed.

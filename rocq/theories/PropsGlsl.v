(** Properties C86 to C89: shaders exported for function objects. *)
From Coq Require Import Reals List Lia Lra.
From Verif Require Import Base ParamsModel GeoModel NlModel NlSpec NlMoreModel NlMoreSpec FuncModel
  Glsl GlslModel GlslSpec GlslValueSpec GlslProgram GlslCheck GlslSame GlslReject GlslWrong.
Open Scope R_scope.
Open Scope string_scope.

(** ** C86 *)
(** The shader of a sum of products of plugins (a plugin without known defect of
    its own, several lobes only outside of products) is written and parsed; it
    compiles exactly when the function has one or three channels and no function
    is defined twice. *)
Theorem C86_compiles : forall print shown nY fs, prints print shown -> (0 < nY)%nat -> fs <> [] -> Forall term fs ->
  exists text prog, save_shader print nY (XSum fs) = Ok text /\ program text = Some prog /\
    (compiles prog = true <-> (nY = 1 \/ nY = 3)%nat /\ NoDup (flat_map defines (kinds (XSum fs)))).
Proof.
  intros print shown nY fs Hp HY Hn Ht. destruct (shader_parses print shown Hp nY HY fs Hn Ht) as (text & A & B).
  exists text, (shader_program print nY fs). split; [exact A|]. split; [exact B|]. apply (shader_compiles print shown Hp nY fs Hn Ht).
Qed.
Print Assumptions C86_compiles.
(** The explorer file is the same shader between its two markers. *)
Theorem C86_explorer : forall print nY f,
  save_explorer print nY f = match save_shader print nY f with
    | Ok text => Ok ("analytic" ++ endl ++ endl ++ "::begin shader" ++ endl ++ text ++ "::end shader" ++ endl) | e => e end.
Proof.
  intros print nY f. unfold save_explorer, save_shader. destruct (save_body print f) as [b| | |]; try reflexivity. cbn [bind].
  destruct (save_call print nY f) as [c| | |]; try reflexivity. cbn [bind]. rewrite !GlslLex.app_assoc_s. reflexivity.
Qed.
Print Assumptions C86_explorer.

(** ** C87 *)
(** For the faithful plugins, evaluating BRDF in the shader gives the value of the
    function object with the printed parameters. *)
Theorem C87_same_value : forall print shown nY junk x f, prints print shown -> shown PI <> 0 -> (nY = 1 \/ nY = 3)%nat -> directions x ->
  exportable f -> Forall faithful (kinds f) -> defined x nY (printed shown f) ->
  exists text prog v, save_shader print nY f = Ok text /\ program text = Some prog /\ compiles prog = true /\
    object_value junk nY (printed shown f) x = Ok v /\ length v = nY /\ run prog "BRDF" (frame_vals x) = Some (colour nY v).
Proof. intros print shown nY junk x f Hp Hpi HnY Hx. apply shader_same; assumption. Qed.
Print Assumptions C87_same_value.

(** ** C88 *)
(** The export stops without a file exactly when Smith's shadowing or a rational
    function occurs. *)
Theorem C88_aborts : forall print nY f,
  (save_shader print nY f = Abort <-> In KSmith (kinds f) \/ has_rational f) /\
  ((exists text, save_shader print nY f = Ok text) <-> ~ (In KSmith (kinds f) \/ has_rational f)).
Proof.
  intros print nY f. split; [apply shader_aborts|]. split.
  - intros (text & E) H. apply (shader_aborts print nY) in H. congruence.
  - intros H. apply shader_written; tauto.
Qed.
Print Assumptions C88_aborts.
(** Wherever they occur, the masking of Schlick and that of Walter give a text that
    is not a program. *)
Theorem C88_masking_rejected : forall print shown nY f text, prints print shown -> In KMasking (kinds f) \/ In KWalter (kinds f) ->
  save_shader print nY f = Ok text -> program text = None.
Proof. intros print shown nY f text Hp [H|H]; [eapply masking_rejected|eapply walter_rejected]; eassumption. Qed.
Print Assumptions C88_masking_rejected.
(** The retro-reflective lobe of Yoo gives a text that does not compile. *)
Theorem C88_yoo_rejected : forall print shown nY f text prog, prints print shown -> In KYoo (kinds f) ->
  save_shader print nY f = Ok text -> program text = Some prog -> compiles prog = false.
Proof. intros print shown nY f text prog Hp. eapply yoo_rejected; eassumption. Qed.
Print Assumptions C88_yoo_rejected.
(** A function without any compound has no semicolon after its value: the text
    is not a program. *)
Theorem C88_alone_rejected : forall print shown nY f text, prints print shown -> no_compound f ->
  save_shader print nY f = Ok text -> program text = None.
Proof. intros print shown nY f text Hp. eapply no_compound_rejected; eassumption. Qed.
Print Assumptions C88_alone_rejected.
(** A non-empty compound as a factor of a product puts semicolons between
    parentheses: the text is not a program. *)
Theorem C88_compound_factor_rejected : forall print shown nY f text, prints print shown -> compound_in_product f ->
  save_shader print nY f = Ok text -> program text = None.
Proof. intros print shown nY f text Hp. eapply compound_in_product_rejected; eassumption. Qed.
Print Assumptions C88_compound_factor_rejected.

(** ** C89 *)
(** The shader of the retro-reflective Blinn lobe leaves out its scale. *)
Theorem C89_retroblinn : forall print shown nY junk x p, prints print shown -> shown PI <> 0 -> (nY = 1 \/ nY = 3)%nat -> directions x ->
  length p = (2 * nY)%nat -> 0 < back_len x -> 0 < back_cos x ->
  shader_and_object print shown junk nY KRetroblinn p x (fun y => Rpower (back_cos x) (shown_par shown 2 p y 1))
    (fun y => shown_par shown 2 p y 0 * Rpower (back_cos x) (shown_par shown 2 p y 1)).
Proof. intros print shown nY junk x p Hp Hpi HnY Hx. apply retroblinn_wrong; assumption. Qed.
Print Assumptions C89_retroblinn.
(** The shader of the ABC lobe uses the cosine with the half vector where the
    function object uses one minus this cosine. *)
Theorem C89_abc : forall print shown nY junk x p, prints print shown -> shown PI <> 0 -> (nY = 1 \/ nY = 3)%nat -> directions x ->
  length p = (3 * nY)%nat -> (forall y, (y < nY)%nat -> 0 < 1 + shown_par shown 3 p y 1 * halfway x 2) ->
  shader_and_object print shown junk nY KAbc p x
    (fun y => shown_par shown 3 p y 0 / Rpower (1 + shown_par shown 3 p y 1 * halfway x 2) (shown_par shown 3 p y 2))
    (fun y => shown_par shown 3 p y 0 / Rpower (1 + shown_par shown 3 p y 1 * (1 - halfway x 2)) (shown_par shown 3 p y 2)).
Proof. intros print shown nY junk x p Hp Hpi HnY Hx. apply abc_wrong; assumption. Qed.
Print Assumptions C89_abc.
(** The shader of the Gaussian lobe of type retro has its maximum where L is V,
    the function object where L is the mirror direction of V. *)
Theorem C89_gaussian_retro : forall print shown nY junk x p, prints print shown -> shown PI <> 0 -> (nY = 1 \/ nY = 3)%nat -> directions x ->
  length p = (2 * nY)%nat ->
  shader_and_object print shown junk nY (KGauss Retro) p x
    (fun y => shown_par shown 2 p y 0 * exp (shown_par shown 2 p y 1 * (lv_cos x - 1)))
    (fun y => shown_par shown 2 p y 0 * exp (shown_par shown 2 p y 1 * (mirror_cos x - 1))).
Proof. intros print shown nY junk x p Hp Hpi HnY Hx. apply gauss_retro_wrong; assumption. Qed.
Print Assumptions C89_gaussian_retro.
(** The shader of the retro-reflective Beckmann lobe divides by the product of the
    cosines of L and V, the function object by the fourth power of the cosine of
    their back vector. *)
Theorem C89_retrobeckmann : forall print shown nY junk x p, prints print shown -> shown PI <> 0 -> (nY = 1 \/ nY = 3)%nat -> directions x ->
  length p = (2 * nY)%nat -> / 10 ^ 10 < back_len x -> 0 < back_cos x -> x 5%nat <> 0 -> x 2%nat <> 0 -> (forall y, (y < nY)%nat -> shown_par shown 2 p y 1 <> 0) ->
  let ks y := shown_par shown 2 p y 0 in let a y := shown_par shown 2 p y 1 in
  let e y := exp ((back_cos x ^ 2 - 1) / (a y ^ 2 * back_cos x ^ 2)) in
  shader_and_object print shown junk nY KRetrobeckmann p x
    (fun y => ks y / (4 * shown PI * a y ^ 2 * (x 5%nat * x 2%nat)) * e y) (fun y => ks y / (4 * PI * a y ^ 2 * back_cos x ^ 4) * e y).
Proof. intros print shown nY junk x p Hp Hpi HnY Hx. apply retrobeckmann_wrong; assumption. Qed.
Print Assumptions C89_retrobeckmann.

(** ** Concrete cases *)
(** A stream that prints the integer part. *)
Fixpoint digits (fuel n : nat) : list nat :=
  match fuel with O => [n mod 10]%nat | S k => if (n <? 10)%nat then [n] else (digits k (n / 10) ++ [n mod 10])%list end.
Lemma digits_ok fuel : forall n, (n <= fuel)%nat -> digits fuel n <> [] /\ Forall (fun d => d < 10)%nat (digits fuel n) /\ digit_value (digits fuel n) = Z.of_nat n.
Proof.
  induction fuel as [|k IH]; intros n Hn.
  - assert (n = 0)%nat as -> by lia. cbn. split; [discriminate|]. split; [constructor; [lia|constructor]|reflexivity].
  - cbn [digits]. destruct (Nat.ltb_spec n 10).
    + split; [discriminate|]. split; [constructor; [exact H|constructor]|]. unfold digit_value. cbn [fold_left]. lia.
    + destruct (IH (n / 10)%nat) as (A & B & C). { assert (n / 10 < n)%nat by (apply Nat.div_lt; lia). lia. }
      split; [intros E; apply app_eq_nil in E; destruct E; discriminate|]. split.
      * apply Forall_app. split; [exact B|]. constructor; [apply Nat.mod_upper_bound; lia|constructor].
      * unfold digit_value in *. rewrite fold_left_app, C. cbn [fold_left]. pose proof (Nat.div_mod n 10 ltac:(lia)). lia.
Qed.
Definition integer_numeral (r : R) : numeral :=
  let z := Int_part r in mkNumeral (z <? 0)%Z (digits (Z.abs_nat z) (Z.abs_nat z)) None None.
Definition print_int (r : R) : string := numeral_text (integer_numeral r).
Definition shown_int (r : R) : R := IZR (Int_part r).
Lemma prints_int : prints print_int shown_int.
Proof.
  intros r. exists (integer_numeral r). unfold integer_numeral, shown_int. set (z := Int_part r). destruct (digits_ok (Z.abs_nat z) (Z.abs_nat z) ltac:(lia)) as (A & B & C). split; [|split].
  - split; [exact A|]. split; [exact B|]. split; [discriminate|discriminate].
  - reflexivity.
  - unfold numeral_value. cbn [n_neg n_int n_frac n_exp length]. rewrite app_nil_r, C. cbn [Z.of_nat Z.sub Z.opp Z.add powerRZ]. rewrite Rmult_1_r.
    destruct (Z.ltb_spec z 0); rewrite Zabs2Nat.id_abs; [rewrite Z.abs_neq by lia; rewrite opp_IZR; ring|rewrite Z.abs_eq by lia; ring].
Qed.
Lemma int_part_Z z : Int_part (IZR z) = z.
Proof. destruct (base_Int_part (IZR z)) as [A B]. apply le_IZR in A. rewrite <- minus_IZR in B. apply (lt_IZR (-1)) in B. lia. Qed.
Lemma shown_Z z : shown_int (IZR z) = IZR z.
Proof. unfold shown_int. rewrite int_part_Z. reflexivity. Qed.
Lemma shown_pi : shown_int PI <> 0.
Proof. unfold shown_int. destruct (base_Int_part PI) as [_ H]. pose proof PI2_3_2. intros E. lra. Qed.
Example print_int_42 : print_int (-42) = "-42".
Proof. unfold print_int, integer_numeral. rewrite (int_part_Z (-42)). reflexivity. Qed.

(** Directions V = (0,0,1) and L = (3/5,0,4/5). *)
Definition x0 : mem := fun i => match i with 2%nat => 1 | 3%nat => 3 / 5 | 5%nat => 4 / 5 | _ => 0 end.
Lemma x0_len : hlen x0 = sqrt (18 / 5).
Proof. unfold hlen, hsum. cbn. f_equal. lra. Qed.
Lemma x0_half : has_half x0.
Proof. split; [rewrite x0_len; apply sqrt_lt_R0; lra|unfold hsum; cbn; lra]. Qed.
Lemma x0_directions : directions x0.
Proof. split; [|split]; [unfold unit3; cbn; lra|unfold unit3; cbn; lra|exact x0_half]. Qed.
Lemma x0_cos : 0 < halfway x0 2.
Proof. unfold halfway. apply Rdiv_lt_0_compat; [unfold hsum; cbn; lra|apply x0_half]. Qed.

(** 2 * blinn(exponent 4) * fresnel(1) + 3 * diffuse, three channels *)
Definition f0 : xfun := XSum [XProd (XLeaf KBlinn [2; 4; 2; 5; 2; 6]) (XLeaf KSchlick [1; 1; 1]); XLeaf KDiffuse [3; 3; 3]].
Example f0_terms : Forall term [XProd (XLeaf KBlinn [2; 4; 2; 5; 2; 6]) (XLeaf KSchlick [1; 1; 1]); XLeaf KDiffuse [3; 3; 3]].
Proof. repeat constructor. Qed.
Example f0_exportable : exportable f0.
Proof. eexists. split; [reflexivity|]. split; [discriminate|]. split; [apply f0_terms|]. cbn. repeat constructor; cbn; intuition discriminate. Qed.
Example f0_defined : Forall faithful (kinds f0) /\ defined x0 3 (printed shown_int f0).
Proof. split; [repeat constructor|]. cbn. repeat split. left. exact x0_cos. Qed.
Example f0_same : exists text prog v, save_shader print_int 3 f0 = Ok text /\ program text = Some prog /\ compiles prog = true /\
  object_value 0 3 (printed shown_int f0) x0 = Ok v /\ length v = 3%nat /\ run prog "BRDF" (frame_vals x0) = Some (colour 3 v).
Proof. destruct f0_defined as [Hf Hd]. apply C87_same_value; auto using prints_int, shown_pi, x0_directions, f0_exportable. Qed.
(** Two Blinn lobes do not compile. *)
Example twice : exists text prog, save_shader print_int 1 (XSum [XLeaf KBlinn [2; 4]; XLeaf KBlinn [3; 5]]) = Ok text /\ program text = Some prog /\ compiles prog = false.
Proof.
  destruct (C86_compiles print_int shown_int 1 [XLeaf KBlinn [2; 4]; XLeaf KBlinn [3; 5]] prints_int ltac:(lia) ltac:(discriminate) ltac:(repeat constructor)) as (t & p & A & B & C).
  exists t, p. split; [exact A|]. split; [exact B|]. destruct (compiles p); [|reflexivity]. exfalso. destruct (proj1 C eq_refl) as [_ N]. inversion N as [|? ? N' _]. apply N'. left. reflexivity.
Qed.
(** The masking of Schlick in a product in a sum, alone, and a compound in a product. *)
Example masked : exists text, save_shader print_int 1 (XSum [XProd (XLeaf KBlinn [2; 4]) (XLeaf KMasking [1])]) = Ok text /\ program text = None.
Proof.
  destruct (proj2 (proj2 (C88_aborts print_int 1 (XSum [XProd (XLeaf KBlinn [2; 4]) (XLeaf KMasking [1])])))) as (t & E); [cbn; intuition discriminate|].
  exists t. split; [exact E|]. eapply C88_masking_rejected; [exact prints_int| |exact E]. left. cbn. auto.
Qed.
Example alone : exists text, save_shader print_int 1 (XLeaf KBlinn [2; 4]) = Ok text /\ program text = None.
Proof.
  destruct (proj2 (proj2 (C88_aborts print_int 1 (XLeaf KBlinn [2; 4])))) as (t & E); [cbn; intuition discriminate|].
  exists t. split; [exact E|]. eapply C88_alone_rejected; [exact prints_int| |exact E]. exact I.
Qed.
Example in_product : exists text, save_shader print_int 1 (XProd (XSum [XLeaf KBlinn [2; 4]; XLeaf KDiffuse [1]]) (XLeaf KSchlick [1])) = Ok text /\ program text = None.
Proof.
  destruct (proj2 (proj2 (C88_aborts print_int 1 (XProd (XSum [XLeaf KBlinn [2; 4]; XLeaf KDiffuse [1]]) (XLeaf KSchlick [1]))))) as (t & E); [cbn; intuition discriminate|].
  exists t. split; [exact E|]. eapply C88_compound_factor_rejected; [exact prints_int| |exact E]. left. exact I.
Qed.
(** The shader of the retro-reflective lobes with scale 2 gives another colour than the function object. *)
Lemma x0_back_len : back_len x0 = sqrt (18 / 5).
Proof. unfold back_len. cbn. f_equal. lra. Qed.
Lemma x0_back_cos : 0 < back_cos x0.
Proof. unfold back_cos. rewrite x0_back_len. apply Rdiv_lt_0_compat; [cbn; lra|apply sqrt_lt_R0; lra]. Qed.
Theorem C89_same_value_refuted : exists print shown nY junk x k p, prints print shown /\ shown PI <> 0 /\ directions x /\ Forall sound [k] /\
  exists w v, shader_and_object print shown junk nY k p x w v /\ w 0%nat <> v 0%nat.
Proof.
  exists print_int, shown_int, 1%nat, 0, x0, KRetroblinn, [2; 1]. split; [exact prints_int|]. split; [exact shown_pi|]. split; [exact x0_directions|]. split; [repeat constructor|].
  eexists. eexists. split; [apply C89_retroblinn; auto using prints_int, shown_pi, x0_directions, x0_back_cos; rewrite x0_back_len; apply sqrt_lt_R0; lra|].
  cbv beta. unfold shown_par. cbn [nth Nat.mul Nat.add]. rewrite !(shown_Z 2), !(shown_Z 1). rewrite Rpower_1 by exact x0_back_cos. pose proof x0_back_cos. lra.
Qed.
Print Assumptions C89_same_value_refuted.
Example abc_case : exists w v, shader_and_object print_int shown_int 0 1 KAbc [2; 3; 1] x0 w v.
Proof.
  eexists. eexists. apply C89_abc; auto using prints_int, shown_pi, x0_directions. intros y Hy. assert (y = 0%nat) as -> by lia.
  unfold shown_par. cbn [nth Nat.mul Nat.add]. rewrite (shown_Z 3). pose proof x0_cos. lra.
Qed.
Example retro_case : exists w v, shader_and_object print_int shown_int 0 1 (KGauss Retro) [2; 3] x0 w v.
Proof. eexists. eexists. apply C89_gaussian_retro; auto using prints_int, shown_pi, x0_directions. Qed.
Example retrobeckmann_case : exists w v, shader_and_object print_int shown_int 0 1 KRetrobeckmann [2; 3] x0 w v.
Proof.
  eexists. eexists. apply C89_retrobeckmann; auto using prints_int, shown_pi, x0_directions, x0_back_cos; try (cbn; lra).
  - rewrite x0_back_len. apply Rlt_le_trans with 1; [|rewrite <- sqrt_1 at 1; apply sqrt_le_1_alt; lra]. rewrite <- Rinv_1. apply Rinv_lt_contravar; [rewrite Rmult_1_l; apply pow_lt; lra|]. apply Rlt_pow_R1; [lra|lia].
  - intros y Hy. assert (y = 0%nat) as -> by lia. unfold shown_par. cbn [nth Nat.mul Nat.add]. rewrite (shown_Z 3). lra.
Qed.

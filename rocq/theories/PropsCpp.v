(** Properties C109 to C111: rational functions and other functions exported to
    C++ and to Matlab. *)
From Coq Require Import Reals List Lia Lra.
From Verif Require Import Base NlModel NlMoreModel Glsl GlslModel GlslSpec RatModel Cpp CppModel CppSpec CppLex CppValue CppReject CppMatlab PropsGlsl.
Open Scope R_scope.
Open Scope string_scope.

(** ** C109 *)
(** A rational function with one channel and at least one coefficient above and
    below the line is written as C++ with declared names, and brdf(x) is the
    quotient of the two polynomials with the coefficients as printed. *)
Theorem C109_text : forall print shown m f d r, prints print shown -> m <> FMatlab -> one_channel f d r -> rf1_wf d r -> r_p r <> [] -> r_q r <> [] ->
  exists text, export print 1 m (ERational f) = Ok text /\ well_formed text /\
    forall x, length x = d -> polynomial shown (r_q r) x <> 0 -> brdf text x = Some [Some (polynomial shown (r_p r) x / polynomial shown (r_q r) x)].
Proof.
  intros print shown m f d r Hp Hm Hf Hr Np Nq. destruct (one_text print shown Hp f d r Hf Hr m Hm) as (c & E & L). eexists. split; [exact E|]. split.
  - eexists. eexists. split; [apply (one_body print shown Hp r Np Nq); exact L|eapply one_names; eassumption].
  - intros x Hx Hq. eapply one_value; eassumption.
Qed.
Print Assumptions C109_text.
(** That is the value of the function object not at x but at the point of the
    domain with coordinates x once the domain is seen as [-1, 1]. *)
Theorem C109_value : forall print shown m f d r, prints print shown -> m <> FMatlab -> one_channel f d r -> rf1_wf d r -> r_p r <> [] -> r_q r <> [] ->
  Forall2 (fun a b => a <> b) (r_min r) (r_max r) ->
  exists text, export print 1 m (ERational f) = Ok text /\
    forall x, length x = d -> polynomial shown (r_q r) x <> 0 ->
      exists v, value_rf (with_channel f (shown_rf1 shown r)) (stretch (r_min r) (r_max r) x) = Ok [v] /\ brdf text x = Some [Some v].
Proof.
  intros print shown m f d r Hp Hm Hf Hr Np Nq Hn. destruct (C109_text print shown m f d r Hp Hm Hf Hr Np Nq) as (text & E & _ & V). exists text. split; [exact E|].
  intros x Hx Hq. eexists. split; [|apply V; assumption]. unfold value_rf, with_channel. destruct Hf as (_ & Hy & _). cbn [f_dimY f_rs]. rewrite Hy. cbn [firstn value_channels].
  rewrite (value_stretch shown d r x Hr Hx Hn). reflexivity.
Qed.
Print Assumptions C109_value.
(** So the two agree on the domain [-1, 1]^d. *)
Theorem C109_unit_domain : forall print shown m f d r, prints print shown -> m <> FMatlab -> one_channel f d r -> rf1_wf d r -> r_p r <> [] -> r_q r <> [] ->
  r_min r = repeat (-1) d -> r_max r = repeat 1 d ->
  exists text, export print 1 m (ERational f) = Ok text /\
    forall x, length x = d -> polynomial shown (r_q r) x <> 0 ->
      exists v, value_rf (with_channel f (shown_rf1 shown r)) x = Ok [v] /\ brdf text x = Some [Some v].
Proof.
  intros print shown m f d r Hp Hm Hf Hr Np Nq Hlo Hhi. destruct (C109_value print shown m f d r Hp Hm Hf Hr Np Nq) as (text & E & V).
  - rewrite Hlo, Hhi. clear. induction d as [|d IH]; cbn [repeat]; constructor; [lra|exact IH].
  - exists text. split; [exact E|]. intros x Hx Hq. destruct (V x Hx Hq) as (v & A & B). exists v. split; [|exact B]. rewrite Hlo, Hhi, <- Hx, stretch_unit in A. exact A.
Qed.
Print Assumptions C109_unit_domain.

(** The function 3 x0 + x1^2 over 1 on a domain. *)
Definition poly0 (lo hi : R) : rf1 := mkRf1 2 [lo; lo] [hi; hi] [mkCoeff 3 [1; 0]%nat; mkCoeff 1 [0; 2]%nat] [mkCoeff 1 [0; 0]%nat].
Definition rat0 (lo hi : R) : rf := mkRf 2 1 [lo; lo] [hi; hi] 2 1 [Some (poly0 lo hi)].
Lemma rat0_wf lo hi : one_channel (rat0 lo hi) 2 (poly0 lo hi) /\ rf1_wf 2 (poly0 lo hi).
Proof. split; [repeat split|]. repeat split; repeat constructor. Qed.
(** On another domain the exported program computes something else. *)
Theorem C109_same_value_refuted : exists print shown f d r x text v w, prints print shown /\ one_channel f d r /\ rf1_wf d r /\ r_p r <> [] /\ r_q r <> [] /\
  shown_rf1 shown r = r /\ export print 1 FCpp (ERational f) = Ok text /\ value_rf f x = Ok [v] /\ brdf text x = Some [Some w] /\ v <> w.
Proof.
  destruct (rat0_wf 0 1) as (A & B).
  destruct (C109_text print_int shown_int FCpp (rat0 0 1) 2 (poly0 0 1) prints_int ltac:(discriminate) A B ltac:(discriminate) ltac:(discriminate)) as (text & E & _ & V).
  assert (S0 : shown_rf1 shown_int (poly0 0 1) = poly0 0 1). { unfold shown_rf1, poly0, shown_coeff. cbn [map r_p r_q r_dim r_min r_max co_a co_deg]. rewrite !shown_Z. reflexivity. }
  exists print_int, shown_int, (rat0 0 1), 2%nat, (poly0 0 1), [0; 0], text, (-2), 0.
  split; [exact prints_int|]. split; [exact A|]. split; [exact B|]. split; [discriminate|]. split; [discriminate|]. split; [exact S0|]. split; [exact E|]. split; [|split].
  - assert (H : stretch [0; 0] [1; 1] [-1; -1] = [0; 0]) by (cbn [stretch]; repeat f_equal; lra).
    unfold value_rf. cbn [rat0 f_dimY f_rs firstn value_channels]. rewrite <- S0, <- H.
    change [0; 0] with (r_min (poly0 0 1)). change [1; 1] with (r_max (poly0 0 1)).
    rewrite (value_stretch shown_int 2 (poly0 0 1) [-1; -1] B eq_refl) by (cbn; repeat constructor; lra). cbn [bind]. repeat f_equal.
    cbn [poly0 r_p r_q polynomial monomial co_a co_deg]. rewrite !shown_Z. field.
  - rewrite V; [|reflexivity|]; cbn [poly0 r_p r_q polynomial monomial co_a co_deg]; rewrite !shown_Z; [repeat f_equal; field|lra].
  - lra.
Qed.
Print Assumptions C109_same_value_refuted.
(** The hypotheses of C109_unit_domain are met. *)
Example rat0_unit : exists text, export print_int 1 FCpp (ERational (rat0 (-1) 1)) = Ok text /\ brdf text [2; 3] = Some [Some 15].
Proof.
  destruct (rat0_wf (-1) 1) as (A & B).
  destruct (C109_text print_int shown_int FCpp (rat0 (-1) 1) 2 (poly0 (-1) 1) prints_int ltac:(discriminate) A B ltac:(discriminate) ltac:(discriminate)) as (text & E & _ & V).
  exists text. split; [exact E|]. rewrite V; [|reflexivity|]; cbn [poly0 r_p r_q polynomial monomial co_a co_deg]; rewrite !shown_Z; [repeat f_equal; field|lra].
Qed.

(** ** C110 *)
(** Nothing else compiles: not with a plugin anywhere (the Lafortune function
    without lobes, which writes nothing, apart), not with two channels in all, not
    with a channel that has no coefficient above or below the line. *)
Theorem C110_rejected : forall print shown nY m f text, prints print shown -> (0 < nY)%nat -> m <> FMatlab -> Forall (fun r => rf1_wf (r_dim r) r) (rationals f) ->
  export print nY m f = Ok text ->
  (exists k, In k (plugins f) /\ ~ silent k) \/ (2 <= length (rationals f))%nat \/ (exists r, In r (rationals f) /\ (r_p r = [] \/ r_q r = [])) ->
  ~ well_formed text.
Proof.
  intros print shown nY m f text Hp HY Hm Hr. apply (tree_bad print shown Hp nY HY m f text Hm).
  eapply Forall_impl; [|exact Hr]. intros r (_ & A & B & _). split; assumption.
Qed.
Print Assumptions C110_rejected.
(** The export never says so: it writes its file for every function whose
    coefficients have an exponent per input, in every format. *)
Theorem C110_written : forall print nY m f, Forall (fun r => rf1_wf (r_dim r) r) (rationals f) -> exists text, export print nY m f = Ok text.
Proof.
  intros print nY m f Hr. apply export_written. eapply Forall_impl; [|exact Hr]. intros r (_ & A & B & _). split; assumption.
Qed.
Print Assumptions C110_written.
(** In particular a colour: the shortest example with three channels, and a plugin. *)
Definition rat3 : rf := mkRf 2 3 [-1; -1] [1; 1] 2 1 [Some (poly0 (-1) 1); Some (poly0 (-1) 1); Some (poly0 (-1) 1)].
Example colour_rejected : exists text, export print_int 3 FCpp (ERational rat3) = Ok text /\ ~ well_formed text.
Proof.
  eexists. split; [reflexivity|]. eapply (C110_rejected _ _ 3 FCpp (ERational rat3) _ prints_int); [lia|discriminate| |reflexivity|right; left; cbn; lia].
  repeat constructor.
Qed.
Example plugin_rejected : exists text, export print_int 1 FCpp (ELeaf KDiffuse [1]) = Ok text /\ ~ well_formed text.
Proof.
  eexists. split; [reflexivity|]. eapply (C110_rejected _ _ 1 FCpp (ELeaf KDiffuse [1]) _ prints_int); [lia|discriminate|constructor|reflexivity|].
  left. exists KDiffuse. split; [left; reflexivity|auto].
Qed.

(** ** C111 *)
(** Every Matlab export opens a brace and never closes it. *)
Theorem C111_brace : forall print shown nY f text, prints print shown -> export print nY FMatlab f = Ok text -> braces text = 1%Z.
Proof. intros print shown nY f text Hp. apply (braces_matlab print shown Hp). Qed.
Print Assumptions C111_brace.
Example matlab_case : exists text, export print_int 3 FMatlab (ESum [ERational rat3; ELeaf (KLaf 2) (repeat 1 27)]) = Ok text /\ braces text = 1%Z.
Proof. eexists. split; [reflexivity|]. eapply (C111_brace _ _ 3 (ESum [ERational rat3; ELeaf (KLaf 2) (repeat 1 27)])); [exact prints_int|reflexivity]. Qed.

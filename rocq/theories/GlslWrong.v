(** Proofs for the shader export: plugins whose shader code differs from the plugin. *)
From Coq Require Import Reals List Lia Lra.
From Verif Require Import Base ParamsModel GeoModel GeoUnit TextModel CommonModel RatProofs NlModel NlSpec NlProofs NlGrad NlGrad2 NlGrad3 NlGrad4 NlMoreModel NlMoreSpec NlLobes NlLobes2 FuncModel
  Glsl GlslModel GlslSpec GlslValueSpec GlslParse GlslBody GlslProgram GlslCheck GlslEval GlslRun GlslValue GlslTree GlslSame.
Open Scope R_scope.
Open Scope string_scope.

Section Wrong.
Variables (print : R -> string) (shown : R -> R).
Hypothesis Hprint : prints print shown.
Hypothesis Hpi : shown PI <> 0.
Variable nY : nat.
Hypothesis HnY : nY = 1%nat \/ nY = 3%nat.
Variable junk : R.
Variable x : mem.
Hypothesis Hx : directions x.

(** the shader side *)
Lemma wrong_shader k p w : sound k -> atomic k -> NoDup (defines k) -> lobe_count k = 1%nat -> (forall y, lobe_par nY k y p = p) ->
  (forall y, (y < nY)%nat -> lobe_fine k x (fun l => shown_par shown (call_vecs k) p y l) /\ lobe (shown PI) k x (fun l => shown_par shown (call_vecs k) p y l) = w y) ->
  exists text prog, save_shader print nY (XSum [XLeaf k p]) = Ok text /\ program text = Some prog /\ compiles prog = true /\
    run prog "BRDF" (frame_vals x) = Some (colour nY (map w (seq 0 nY))).
Proof using Hprint HnY Hpi.
  intros Hs Ha Hd Hc Hl Hf. assert (HY : (0 < nY)%nat) by (destruct HnY; lia).
  assert (Ht : Forall term [XLeaf k p]) by (constructor; [exact Hs|constructor]).
  assert (Hnd : NoDup (flat_map defines (kinds (XSum [XLeaf k p])))) by (cbn [kinds app flat_map]; rewrite app_nil_r; exact Hd).
  destruct (shader_parses print shown Hprint nY HY [XLeaf k p] ltac:(discriminate) Ht) as (text & Et & Ep).
  exists text, (shader_program print nY [XLeaf k p]). split; [exact Et|]. split; [exact Ep|].
  split; [apply (shader_compiles print shown Hprint nY [XLeaf k p]); auto; discriminate|].
  assert (C : forall y, (y < 3)%nat -> (ch nY y < nY)%nat) by (intros y Hy; unfold ch; destruct HnY as [-> | ->]; cbn; lia).
  rewrite (shader_run print shown Hprint Hpi nY HnY x [XLeaf k p]); auto; [|discriminate|].
  - f_equal. unfold colour, vvv. cbn [map rsum term_val]. rewrite Hc. cbn [seq map rsum].
    assert (Q : forall y, (y < 3)%nat -> leaf_lobe shown nY x k p 0 y + 0 + 0 = nth (if (nY =? 1)%nat then 0%nat else y) (map w (seq 0 nY)) 0).
    { intros y Hy. change (if (nY =? 1)%nat then 0%nat else y) with (ch nY y). rewrite (map_nth_len w) by (apply C, Hy). rewrite <- (proj2 (Hf _ (C y Hy))).
      unfold leaf_lobe. rewrite Hl. rewrite !Rplus_0_r. reflexivity. }
    rewrite !Q by lia. reflexivity.
  - constructor; [|constructor]. intros i y Hi Hy. rewrite Hl. apply (proj1 (Hf _ (C y Hy))).
Qed.
(** the function object *)
Lemma wrong_object k p m m' v : In (plugin_input k) [COS_TH; COS_TK; CARTESIAN] -> convert x CARTESIAN (plugin_input k) (fun _ => junk) = Ok m ->
  convert m (plugin_input k) (plugin_input k) (fun _ => junk) = Ok m' ->
  plugin_value junk nY k p m' = Ok (map v (seq 0 nY)) ->
  object_value junk nY (XSum [XLeaf k p]) x = Ok (map v (seq 0 nY)).
Proof.
  intros Hi Hm Hm' Hv. unfold object_value. cbn [object_of bind].
  assert (E : make_compound [(false, Leaf (plugin_leaf junk nY k) p)] = Ok (Compound (lf_par (plugin_leaf junk nY k)) [(false, Leaf (plugin_leaf junk nY k) p)])).
  { unfold make_compound. cbn [map compound_parameters snd par_of]. cbn [compound_parameters_loop plugin_leaf lf_par in_param out_param]. revert Hi. generalize (plugin_input k). intros i [<-|[<-|[<-|[]]]]; reflexivity. }
  rewrite E. cbn [bind par_of plugin_leaf lf_par in_param]. rewrite Hm. cbn [bind value value_loop snd par_of lf_par plugin_leaf in_param lf_value].
  unfold child_point. cbn [dimX in_param]. rewrite Nat.ltb_irrefl, Hm'. cbn [bind]. rewrite Hv. cbn [dimY]. unfold add_checked. rewrite repeat_length, map_length, seq_length, Nat.eqb_refl. cbn [bind].
  f_equal. assert (L : forall l : list R, vadd (repeat 0 (length l)) l = l).
  { induction l as [|a l IH]; [reflexivity|]. cbn [length repeat vadd]. rewrite IH, Rplus_0_l. reflexivity. }
  rewrite <- (L (map v (seq 0 nY))) at 2. rewrite map_length, seq_length. reflexivity.
Qed.
Lemma shown_nth p i : (i < length p)%nat -> nth i (map shown p) 0 = shown (nth i p 0).
Proof. intros H. rewrite (nth_indep (map shown p) 0 (shown 0)) by (rewrite map_length; exact H). apply (map_nth shown). Qed.
Lemma wrong_value F m g v p : f_sizes F nY = nY -> length p = (f_k F * nY)%nat -> f_geo F m = Ok g ->
  (forall y, (y < nY)%nat -> f_val F g (channel (f_k F) p y) = v y) -> value_at junk F nY p m = Ok (map v (seq 0 nY)).
Proof.
  intros A B C D. rewrite (value_at_ok junk F nY p A B m g C). f_equal. apply map_ext_in. intros y Hy. apply in_seq in Hy. apply D. lia.
Qed.
Lemma half_le_1 : halfway x 2 <= 1.
Proof using Hx.
  destruct Hx as (_ & _ & (Hl & Hz)). unfold halfway, Rdiv. apply (Rmult_le_reg_r (hlen x)); [exact Hl|]. rewrite Rmult_assoc, Rinv_l, Rmult_1_r, Rmult_1_l by lra.
  unfold hlen. rewrite <- (sqrt_square (hsum x 2)) at 1 by exact Hz. apply sqrt_le_1_alt.
  pose proof (Rle_0_sqr (hsum x 0)). pose proof (Rle_0_sqr (hsum x 1)). unfold Rsqr in *. lra.
Qed.
Lemma half_ge_0 : 0 <= halfway x 2.
Proof using Hx.
  destruct Hx as (_ & _ & (Hl & Hz)). unfold halfway. apply Rmult_le_pos; [exact Hz|]. left. apply Rinv_0_lt_compat, Hl.
Qed.

Lemma retroblinn_wrong p : length p = (2 * nY)%nat -> 0 < back_len x -> 0 < back_cos x ->
  shader_and_object print shown junk nY KRetroblinn p x (fun y => Rpower (back_cos x) (shown_par shown 2 p y 1))
    (fun y => shown_par shown 2 p y 0 * Rpower (back_cos x) (shown_par shown 2 p y 1)).
Proof using Hprint Hpi HnY Hx.
  intros Hp Hb Hc. unfold shader_and_object.
  destruct (wrong_shader KRetroblinn p (fun y => Rpower (back_cos x) (shown_par shown 2 p y 1))) as (text & prog & A & B & C & D); try reflexivity; try exact I.
  { repeat constructor; intros []. }
  { intros y Hy. split; [split; [exact Hb|left; exact Hc]|]. unfold lobe, pw. cbn [call_vecs]. destruct (Rlt_dec 0 (back_cos x)); [reflexivity|contradiction]. }
  exists text, prog. split; [exact A|]. split; [exact B|]. split; [exact C|]. split; [exact D|].
  destruct Hx as (_ & _ & Hh).
  eapply (wrong_object KRetroblinn (map shown p)); [right; left; reflexivity| |reflexivity|].
  { cbn [plugin_input]. unfold convert. cbn -[from_cartesian]. rewrite from_cartesian_ok by exact Hh. unfold from_cartesian_writes. destruct (half_vector x) as [[? ?] ?]. reflexivity. }
  cbn [plugin_value]. eapply wrong_value; [reflexivity|rewrite map_length; exact Hp|reflexivity|].
  intros y Hy. cbn [retroblinn f_k f_val]. rewrite channel2. cbn [p0 p1 nth].
  match goal with |- context [rltb 0 ?e] => replace e with (back_cos x) end.
  - assert (E : rltb 0 (back_cos x) = true) by (apply rltb_spec; exact Hc). rewrite E. unfold shown_par. rewrite !shown_nth by (rewrite Hp; lia). reflexivity.
  - cbn -[sqrt Rdiv]. change (Pos.to_nat 1) with 1%nat. cbn -[sqrt Rdiv]. unfold back_cos, back_len. rewrite (Rplus_comm (x 2%nat)).
    match goal with |- _ / sqrt ?e = _ / sqrt ?f => replace e with f by ring end. reflexivity.
Qed.
Lemma abc_wrong p : length p = (3 * nY)%nat -> (forall y, (y < nY)%nat -> 0 < 1 + shown_par shown 3 p y 1 * halfway x 2) ->
  shader_and_object print shown junk nY KAbc p x (fun y => shown_par shown 3 p y 0 / Rpower (1 + shown_par shown 3 p y 1 * halfway x 2) (shown_par shown 3 p y 2))
    (fun y => shown_par shown 3 p y 0 / Rpower (1 + shown_par shown 3 p y 1 * (1 - halfway x 2)) (shown_par shown 3 p y 2)).
Proof using Hprint Hpi HnY Hx.
  intros Hp Hb. pose proof half_le_1 as H1. pose proof half_ge_0 as H0. unfold shader_and_object. destruct Hx as (_ & _ & Hh).
  destruct (wrong_shader KAbc p (fun y => shown_par shown 3 p y 0 / Rpower (1 + shown_par shown 3 p y 1 * halfway x 2) (shown_par shown 3 p y 2))) as (text & prog & A & B & C & D); try reflexivity; try exact I.
  { repeat constructor; intros []. }
  { intros y Hy. split; [split; [exact Hh|apply Hb, Hy]|]. reflexivity. }
  exists text, prog. split; [exact A|]. split; [exact B|]. split; [exact C|]. split; [exact D|].
  eapply (wrong_object KAbc (map shown p)); [left; reflexivity| |reflexivity|].
  { cbn [plugin_input]. unfold convert. cbn -[from_cartesian]. rewrite from_cartesian_ok by exact Hh. unfold from_cartesian_writes. rewrite (half_vector_ok x (proj1 Hh)). reflexivity. }
  cbn [plugin_value]. eapply wrong_value; [reflexivity|rewrite map_length; exact Hp|reflexivity|].
  intros y Hy. cbn [abc f_k f_val]. rewrite channel3. cbn [p0 p1 p2 nth].
  match goal with |- context [1 - ?e] => change e with (halfway x 2) end.
  assert (E : rleb 0 (1 - halfway x 2) = true) by (apply TextProofs.rleb_spec; lra). assert (E' : rleb (1 - halfway x 2) 1 = true) by (apply TextProofs.rleb_spec; lra). rewrite E, E'. cbn [andb].
  unfold shown_par. rewrite !shown_nth by (rewrite Hp; lia). reflexivity.
Qed.
Lemma gauss_retro_wrong p : length p = (2 * nY)%nat ->
  shader_and_object print shown junk nY (KGauss Retro) p x (fun y => shown_par shown 2 p y 0 * exp (shown_par shown 2 p y 1 * (lv_cos x - 1)))
    (fun y => shown_par shown 2 p y 0 * exp (shown_par shown 2 p y 1 * (mirror_cos x - 1))).
Proof using Hprint Hpi HnY Hx.
  intros Hp. unfold shader_and_object.
  destruct (wrong_shader (KGauss Retro) p (fun y => shown_par shown 2 p y 0 * exp (shown_par shown 2 p y 1 * (lv_cos x - 1)))) as (text & prog & A & B & C & D); try reflexivity; try exact I.
  { repeat constructor; intros []. }
  { intros y Hy. split; [exact I|]. reflexivity. }
  exists text, prog. split; [exact A|]. split; [exact B|]. split; [exact C|]. split; [exact D|].
  eapply (wrong_object (KGauss Retro) (map shown p)); [right; right; left; reflexivity|reflexivity|reflexivity|].
  cbn [plugin_value plugin_input]. match goal with |- value_at _ _ _ _ ?m = _ => set (m9 := m) end.
  assert (Ag : agree x m9). { intros i Hi. destruct i as [|[|[|[|[|[|i]]]]]]; try lia; reflexivity. }
  eapply wrong_value; [reflexivity|rewrite map_length; exact Hp| |].
  { cbn [spherical_gaussian f_geo]. rewrite (mirror_dot Retro m9 ltac:(auto) (agree_directions x m9 Ag Hx)). reflexivity. }
  intros y Hy. cbn [spherical_gaussian f_k f_val]. rewrite channel2. cbn [p0 p1 nth]. unfold shown_par. rewrite !shown_nth by (rewrite Hp; lia). agree_ Ag. reflexivity.
Qed.
Lemma retrobeckmann_wrong p : length p = (2 * nY)%nat -> / 10 ^ 10 < back_len x -> 0 < back_cos x -> x 5%nat <> 0 -> x 2%nat <> 0 -> (forall y, (y < nY)%nat -> shown_par shown 2 p y 1 <> 0) ->
  let ks y := shown_par shown 2 p y 0 in let a y := shown_par shown 2 p y 1 in
  let e y := exp ((back_cos x ^ 2 - 1) / (a y ^ 2 * back_cos x ^ 2)) in
  shader_and_object print shown junk nY KRetrobeckmann p x
    (fun y => ks y / (4 * shown PI * a y ^ 2 * (x 5%nat * x 2%nat)) * e y) (fun y => ks y / (4 * PI * a y ^ 2 * back_cos x ^ 4) * e y).
Proof using Hprint Hpi HnY Hx.
  intros Hp Hb Hc Hl Hv Ha ks a e. unfold shader_and_object. assert (T : 0 < / 10 ^ 10) by (apply Rinv_0_lt_compat, pow_lt; lra).
  destruct (wrong_shader KRetrobeckmann p (fun y => ks y / (4 * shown PI * a y ^ 2 * (x 5%nat * x 2%nat)) * e y)) as (text & prog & A & B & C & D); try reflexivity; try exact I.
  { repeat constructor; intros []. }
  { intros y Hy. split; [repeat split; auto; try lra; try (apply Rgt_not_eq, Hc)|]. unfold lobe. cbn [call_vecs]. unfold e, ks, a.
    replace (4 * shown PI * shown_par shown 2 p y 1 * shown_par shown 2 p y 1 * x 5%nat * x 2%nat) with (4 * shown PI * shown_par shown 2 p y 1 ^ 2 * (x 5%nat * x 2%nat)) by ring.
    replace (shown_par shown 2 p y 1 * shown_par shown 2 p y 1 * back_cos x * back_cos x) with (shown_par shown 2 p y 1 ^ 2 * back_cos x ^ 2) by ring.
    replace (back_cos x * back_cos x) with (back_cos x ^ 2) by ring. reflexivity. }
  exists text, prog. split; [exact A|]. split; [exact B|]. split; [exact C|]. split; [exact D|]. destruct Hx as (_ & _ & Hh).
  eapply (wrong_object KRetrobeckmann (map shown p)); [right; right; left; reflexivity|reflexivity|reflexivity|].
  cbn [plugin_value plugin_input]. match goal with |- value_at _ _ _ _ ?m = _ => set (m9 := m) end.
  assert (Ag : agree x m9). { intros i Hi. destruct i as [|[|[|[|[|[|i]]]]]]; try lia; reflexivity. }
  assert (E : exists h, convert m9 CARTESIAN SCHLICK_VK (fun _ => 0) = Ok h /\ h 2%nat = back_cos x).
  { assert (Hm' : has_half m9) by exact (agree_half x m9 Ag Hh). assert (Hbm : / 10 ^ 10 < back_len m9) by (revert Hb; agree_ Ag; auto). eexists. split.
    - unfold convert. cbn -[from_cartesian m9]. rewrite from_cartesian_ok by exact Hm'. unfold from_cartesian_writes. destruct (half_vector m9) as [[? ?] ?]. cbv zeta. fold (back_len m9).
      destruct (Rlt_dec (/ 10 ^ 10) (back_len m9)); [|contradiction]. reflexivity.
    - cbn -[m9 back_len]. unfold back_cos. agree_ Ag. reflexivity. }
  destruct E as (h & E & E2).
  eapply wrong_value; [reflexivity|rewrite map_length; exact Hp| |].
  { cbn [retrobeckmann f_geo]. rewrite E. cbn [bind]. rewrite E2. reflexivity. }
  intros y Hy. cbn [retrobeckmann f_k f_val]. rewrite channel2. cbn [p0 nth]. assert (Ec : rltb 0 (back_cos x) = true) by (apply rltb_spec; exact Hc). rewrite Ec.
  unfold beckmann_value. cbn [p0 p1 nth]. cbv zeta. rewrite !shown_nth by (rewrite Hp; lia). unfold e, ks, a, shown_par.
  set (s0 := shown (nth (y * 2 + 0) p 0)). set (s1 := shown (nth (y * 2 + 1) p 0)). set (d := back_cos x).
  replace (d * d) with (d ^ 2) by ring. replace (s1 * s1) with (s1 ^ 2) by ring. replace (4 * PI * s1 ^ 2 * d ^ 2 * d ^ 2) with (4 * PI * s1 ^ 2 * d ^ 4) by ring. reflexivity.
Qed.
End Wrong.

(** Proofs for the shader export: the shader computes what the function object computes. *)
From Coq Require Import Reals List Lia Lra.
From Verif Require Import Base ParamsModel GeoModel TextModel CommonModel RatProofs NlModel NlSpec NlProofs NlGrad NlMoreModel NlMoreSpec FuncModel
  Glsl GlslModel GlslSpec GlslValueSpec GlslParse GlslBody GlslProgram GlslCheck GlslEval GlslRun GlslValue GlslTree.
Open Scope R_scope.
Open Scope string_scope.

Section Same.
Variables (print : R -> string) (shown : R -> R).
Hypothesis Hprint : prints print shown.
Hypothesis Hpi : shown PI <> 0.
Variable nY : nat.
Hypothesis HnY : nY = 1%nat \/ nY = 3%nat.
Variable junk : R.
Variable x : mem.
Hypothesis Hx : directions x.

Lemma printed_nth k p i : (i < length p)%nat -> nth i (printed_pars shown k p) 0 = printed_par shown k i (nth i p 0).
Proof. intros H. unfold printed_pars. apply (map_nth_len (fun i => printed_par shown k i (nth i p 0))), H. Qed.
Lemma printed_length k p : length (printed_pars shown k p) = length p.
Proof. unfold printed_pars. rewrite map_length, seq_length. reflexivity. Qed.
Lemma ch_lt y : (y < 3)%nat -> (ch nY y < nY)%nat.
Proof using HnY. intros H. unfold ch. destruct HnY as [-> | ->]; cbn; lia. Qed.
(** the parameter of lobe i *)
Lemma chan_printed k p i y l : faithful k -> length p = (per_channel k * nY)%nat -> (i < lobe_count k)%nat -> (y < nY)%nat -> (l < call_vecs k)%nat ->
  chan_par nY k (printed_pars shown k p) i y l = printed_par shown k (y * call_vecs k + l) (nth (y * call_vecs k + l) (lobe_par nY k i p) 0).
Proof.
  intros Hk Hp Hi Hy Hl. unfold chan_par.
  destruct k as [| | | | | | | | |t|a| |n|n| | | | ]; try contradiction; cbn [call_vecs lobe_par per_channel lobe_count] in *; try (rewrite printed_nth by lia; reflexivity).
  assert (y * 3 + l < 3 * nY)%nat by lia. unfold lobe_pars. rewrite !firstn_skipn_nth by lia.
  assert (i * (3 * nY) + (y * 3 + l) < length p)%nat by (rewrite Hp; nia). rewrite printed_nth by assumption. reflexivity.
Qed.
Lemma lobe_ext pi k c d : faithful k -> (forall l, (l < call_vecs k)%nat -> c l = d l) -> lobe pi k x c = lobe pi k x d.
Proof.
  intros Hk H. destruct k as [| | | | | | | | |t|a| |n|n| | | | ]; try contradiction; cbn [call_vecs] in H; unfold lobe; rewrite ?(H 0%nat), ?(H 1%nat), ?(H 2%nat) by lia; reflexivity.
Qed.
Lemma leaf_same k p y : faithful k -> plugin_defined x nY k (printed_pars shown k p) -> (y < 3)%nat ->
  leaf_sum nY PI k x (printed_pars shown k p) (ch nY y) = rsum (map (fun i => leaf_lobe shown nY x k p i y) (seq 0 (lobe_count k))).
Proof using HnY Hpi.
  intros Hk (Hp & Hd) Hy. rewrite printed_length in Hp. unfold leaf_sum. f_equal. apply map_ext_in. intros i Hi. apply in_seq in Hi. pose proof (ch_lt y Hy) as Hc. unfold leaf_lobe.
  destruct (match k with KWard => true | _ => false end) eqn:W.
  - destruct k; try discriminate. cbn [lobe_count] in Hi.
    assert (E : forall l, (l < 3)%nat -> chan_par nY KWard (printed_pars shown KWard p) i (ch nY y) l = printed_par shown KWard (ch nY y * 3 + l) (nth (ch nY y * 3 + l) p 0)).
    { intros l Hl. apply (chan_printed KWard p i (ch nY y) l); auto. cbn. lia. }
    cbn [lobe call_vecs]. unfold par_y. cbn [lobe_par]. rewrite (E 0%nat), (E 1%nat), (E 2%nat) by lia. unfold printed_par.
    replace ((ch nY y * 3 + 0) mod 3)%nat with 0%nat by (rewrite Nat.add_comm, Nat.mod_add by lia; reflexivity).
    replace ((ch nY y * 3 + 1) mod 3)%nat with 1%nat by (rewrite Nat.add_comm, Nat.mod_add by lia; reflexivity).
    replace ((ch nY y * 3 + 2) mod 3)%nat with 2%nat by (rewrite Nat.add_comm, Nat.mod_add by lia; reflexivity). cbn [Nat.eqb].
    destruct (Rlt_dec 0 (x 5%nat * x 2%nat)); [|reflexivity]. f_equal. unfold Rdiv. rewrite !Rinv_mult.
    assert (P : PI * / PI = 1) by (apply Rinv_r, PI_neq0).
    match goal with |- _ = ?r => transitivity (PI * / PI * r); [ring|rewrite P; ring] end.
  - transitivity (lobe (shown PI) k x (chan_par nY k (printed_pars shown k p) i (ch nY y))); [destruct k; try discriminate; try contradiction; reflexivity|]. apply lobe_ext; [exact Hk|]. intros l Hl. rewrite chan_printed by (auto; lia). unfold par_y. destruct k; try discriminate; try contradiction; reflexivity.
Qed.
Lemma leaf_fine k p : faithful k -> plugin_defined x nY k (printed_pars shown k p) ->
  forall i y, (i < lobe_count k)%nat -> (y < 3)%nat -> lobe_fine k x (par_y shown nY (call_vecs k) (lobe_par nY k i p) y).
Proof using HnY Hx.
  intros Hk (Hp & Hd) i y Hi Hy. rewrite printed_length in Hp. pose proof (ch_lt y Hy) as Hc. destruct Hx as (_ & _ & Hh).
  assert (E : forall l, (l < call_vecs k)%nat -> (match k with KWard => l <> 0%nat | _ => True end) ->
    par_y shown nY (call_vecs k) (lobe_par nY k i p) y l = chan_par nY k (printed_pars shown k p) i (ch nY y) l).
  { intros l Hl Hw. rewrite chan_printed by auto. unfold par_y. destruct k; try contradiction; try reflexivity. cbn [printed_par call_vecs].
    cbn [call_vecs] in Hl. replace ((ch nY y * 3 + l) mod 3)%nat with l by (rewrite Nat.add_comm, Nat.mod_add, Nat.mod_small by lia; reflexivity).
    destruct (Nat.eqb_spec l 0); [contradiction|reflexivity]. }
  assert (T : 0 < / 10 ^ 10) by (apply Rinv_0_lt_compat, pow_lt; lra).
  destruct k as [| | | | | | | | |[| | |]|a| |n|n| | | | ]; try contradiction; cbn [lobe_fine call_vecs per_channel] in *; auto; try lra.
  - rewrite E by (auto; lia). unfold chan_par. cbn [call_vecs lobe_par]. destruct Hd as [Hd|Hd]; auto.
  - rewrite !E by (auto; lia). unfold chan_par. cbn [call_vecs lobe_par]. split; [exact Hh|]. apply Hd, Hc.
  - rewrite !E by (auto; lia). specialize (Hd i (ch nY y) Hi Hc). revert Hd.
    assert (P : forall q l, (l < 3)%nat -> chan_par nY (KLafIso n) q i (ch nY y) l = laf_par nY q i (ch nY y) l).
    { intros q l Hl. unfold chan_par, laf_par. cbn [call_vecs lobe_par]. unfold lobe_pars. rewrite firstn_skipn_nth by lia. f_equal. lia. }
    rewrite !P by lia. unfold laf_dot, lobe_dot3. intros [D|D]; [left|right; exact D]. eapply Rlt_le_trans; [exact D|]. right. ring.
Qed.
Lemma term_same f : factor f \/ term f -> Forall faithful (kinds f) -> defined x nY (printed shown f) ->
  term_fine shown nY x f /\ forall y, (y < 3)%nat -> tree_val nY x (printed shown f) (ch nY y) = term_val shown nY x f y.
Proof using HnY Hpi Hx.
  induction f as [k p| |fs|f IHf g IHg]; intros Hf Hk Hd; try (destruct Hf; contradiction).
  - assert (Fk : faithful k) by (inversion Hk; assumption). split.
    + cbn [term_fine]. apply leaf_fine; assumption.
    + intros y Hy. cbn [printed tree_val term_val]. apply leaf_same; assumption.
  - assert (Hff : factor (XProd f g)) by (destruct Hf; assumption). destruct Hff as [F1 F2]. destruct Hd as [D1 D2]. cbn [kinds] in Hk. apply Forall_app in Hk. destruct Hk as [K1 K2].
    destruct (IHf (or_introl F1) K1 D1) as (A & B). destruct (IHg (or_introl F2) K2 D2) as (C & D).
    split; [split; assumption|]. intros y Hy. cbn [printed tree_val term_val]. rewrite B, D by exact Hy. reflexivity.
Qed.
Lemma term_printed f : (factor f -> factor (printed shown f)) /\ (term f -> term (printed shown f)).
Proof using shown.
  clear -shown.
  induction f as [k p| |fs|f (IHf & _) g (IHg & _)]; cbn; [tauto|tauto|tauto|]. tauto.
Qed.
Lemma kinds_printed f : factor f \/ term f -> kinds (printed shown f) = kinds f.
Proof using shown.
  clear -shown.
  induction f as [k p| |fs|f IHf g IHg]; intros Hf; try (destruct Hf; contradiction); [reflexivity|].
  assert (Hff : factor (XProd f g)) by (destruct Hf; assumption). destruct Hff as [F1 F2]. cbn [printed kinds]. rewrite IHf, IHg by auto. reflexivity.
Qed.
Lemma printed_sum fs : printed shown (XSum fs) = XSum (map (printed shown) fs).
Proof. reflexivity. Qed.
Lemma defined_sum fs : defined x nY (XSum fs) -> Forall (defined x nY) fs.
Proof. induction fs as [|f fs IH]; intros H; constructor; [apply H|]. apply IH, H. Qed.
Lemma kinds_sum fs : kinds (XSum fs) = flat_map kinds fs.
Proof. reflexivity. Qed.

Lemma shader_same f : exportable f -> Forall faithful (kinds f) -> defined x nY (printed shown f) ->
  exists text prog v, save_shader print nY f = Ok text /\ program text = Some prog /\ compiles prog = true /\
    object_value junk nY (printed shown f) x = Ok v /\ length v = nY /\ run prog "BRDF" (frame_vals x) = Some (colour nY v).
Proof using Hprint HnY Hpi Hx.
  intros (fs & -> & Hn & Ht & Hnd) Hk Hd.
  assert (HY : (0 < nY)%nat) by (destruct HnY; lia).
  destruct (shader_parses print shown Hprint nY HY fs Hn Ht) as (text & Et & Ep).
  rewrite kinds_sum in Hk.
  assert (Hk' : Forall (fun f => Forall faithful (kinds f)) fs).
  { clear -Hk. induction fs as [|f fs IH]; [constructor|]. cbn [flat_map] in Hk. apply Forall_app in Hk. constructor; [apply Hk|apply IH, Hk]. }
  rewrite printed_sum in Hd. apply defined_sum in Hd.
  assert (Ht' : Forall term (map (printed shown) fs)).
  { clear -Ht nY. induction Ht as [|f fs H _ IH]; [constructor|]. cbn [map]. constructor; [apply term_printed, H|exact IH]. }
  assert (Hk2 : Forall (fun f => Forall faithful (kinds f)) (map (printed shown) fs)).
  { clear -Ht Hk' nY. induction Ht as [|f fs H _ IH]; [constructor|]. inversion Hk'; subst. cbn [map]. constructor; [rewrite kinds_printed by auto; assumption|apply IH; assumption]. }
  assert (Hn' : map (printed shown) fs <> []) by (destruct fs; [congruence|discriminate]).
  destruct (object_sum junk nY x Hx (map (printed shown) fs) Hn' Ht' Hk2 Hd) as (v & Ev & L & W).
  assert (S1 : Forall (term_fine shown nY x) fs /\ forall f, In f fs -> forall y, (y < 3)%nat -> tree_val nY x (printed shown f) (ch nY y) = term_val shown nY x f y).
  { clear -Ht Hk' Hd HnY Hpi Hx. induction Ht as [|f fs H _ IH]; [split; [constructor|intros f []]|]. inversion Hk'; subst. inversion Hd; subst.
    destruct (term_same f) as (A & B); auto. destruct IH as (C & D); auto. split; [constructor; assumption|]. intros g [<-|Hg]; auto. }
  destruct S1 as (Hfine & Hsame).
  exists text, (shader_program print nY fs), v. split; [exact Et|]. split; [exact Ep|]. split; [apply (shader_compiles print shown Hprint nY fs Hn Ht); auto|].
  rewrite printed_sum. split; [exact Ev|]. split; [exact L|].
  rewrite (shader_run print shown Hprint Hpi nY HnY x fs Hn Ht Hnd Hfine). f_equal. unfold colour, vvv.
  assert (Q : forall y, (y < 3)%nat -> rsum (map (fun f => term_val shown nY x f y) fs) = nth (if (nY =? 1)%nat then 0%nat else y) v 0).
  { intros y Hy. change (if (nY =? 1)%nat then 0%nat else y) with (ch nY y). rewrite (W _ (ch_lt y Hy)), map_map. f_equal. apply map_ext_in. intros f Hf. symmetry. apply Hsame; assumption. }
  rewrite !Q by lia. reflexivity.
Qed.
End Same.

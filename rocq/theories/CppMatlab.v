(** Proofs for the Matlab export: its braces. *)
From Coq Require Import Reals List Lia.
From Verif Require Import Base Num TextModel DataModel NlModel NlMoreModel Glsl GlslModel GlslSpec RatModel CppModel CppSpec CppLex CppReject.
Open Scope string_scope.

Lemma braces_app a b : (braces (a ++ b) = braces a + braces b)%Z.
Proof. induction a as [|c a IH]; [reflexivity|]. cbn [append braces]. rewrite IH. lia. Qed.
Lemma braces_digits ds : Forall (fun d => d < 10)%nat ds -> braces (digit_text ds) = 0%Z.
Proof. induction 1 as [|d ds Hd _ IH]; [reflexivity|]. cbn [digit_text braces]. rewrite IH. do 10 (destruct d as [|d]; [reflexivity|]). lia. Qed.
Lemma braces_nat n : braces (nat_text n) = 0%Z.
Proof.
  assert (U : forall u, braces (string_of_list_ascii (uint_str u)) = 0%Z) by (intros u; induction u; cbn; auto). apply U.
Qed.
Section Num.
Variables (print : R -> string) (shown : R -> R).
Hypothesis Hprint : prints print shown.
Variable nY : nat.
Lemma braces_print r : braces (print r) = 0%Z.
Proof using Hprint.
  destruct (Hprint r) as (n & (_ & Hi & Hf & He) & -> & _). unfold numeral_text. rewrite !braces_app, (braces_digits _ Hi).
  destruct (n_frac n) as [f|] eqn:Ef, (n_exp n) as [[g e]|] eqn:Ee; rewrite ?braces_app, ?(braces_digits f (Hf f eq_refl)), ?(braces_digits e (proj2 (He g e eq_refl)));
    destruct (n_neg n); try destruct g; reflexivity.
Qed.
Lemma braces_vec v : braces (vec_text print v) = 0%Z.
Proof using Hprint.
  induction v as [|a v IH]; [reflexivity|]. destruct v as [|b v]; [apply braces_print|].
  change (vec_text print (a :: b :: v)) with (print a ++ ", " ++ vec_text print (b :: v)). rewrite !braces_app, braces_print, IH. reflexivity.
Qed.
Lemma braces_vecs vs : braces (vecs_text print vs) = 0%Z.
Proof using Hprint. induction vs as [|v vs IH]; [reflexivity|]. cbn [vecs_text]. rewrite !braces_app, braces_vec, IH. reflexivity. Qed.
Lemma braces_call f vs : braces f = 0%Z -> braces (call_text print f vs) = 0%Z.
Proof using Hprint. intros H. unfold call_text. rewrite !braces_app, braces_vecs, H. reflexivity. Qed.
Lemma braces_lobes k n p : braces (lobes_text print nY k n p) = 0%Z.
Proof using Hprint.
  unfold lobes_text. generalize (seq 0 n). intros l. induction l as [|i l IH]; [reflexivity|]. cbn [map] in *. destruct l as [|j l]; [apply braces_call; reflexivity|].
  cbn [map] in *. match goal with |- braces (String.concat _ (?a :: ?b :: ?t)) = _ => change (String.concat " + " (a :: b :: t)) with (a ++ " + " ++ String.concat " + " (b :: t)) end.
  rewrite !braces_app, IH, braces_call by reflexivity. reflexivity.
Qed.
Lemma braces_leaf k p : braces (leaf_call print nY k p) = 0%Z.
Proof using Hprint.
  destruct k; try (apply braces_call; reflexivity); try (apply braces_lobes); cbn [leaf_call]; rewrite !braces_app, braces_vec; reflexivity.
Qed.
Lemma braces_terms den dim cs : forall i t, matlab_terms print den i dim cs = Ok t -> braces t = 0%Z.
Proof using Hprint.
  induction cs as [|c cs IH]; intros i t H; [injection H as <-; reflexivity|]. cbn [matlab_terms] in H. destruct (length (co_deg c) <? dim)%nat; [discriminate|].
  destruct (matlab_terms print den (S i) dim cs) as [u| | |] eqn:E; try discriminate. cbn [bind] in H. apply Ok_inj in H. subst t.
  assert (F : forall degs k, braces (matlab_factors k degs) = 0%Z).
  { induction degs as [|d t IHd]; intros k; [reflexivity|]. cbn [matlab_factors]. rewrite !braces_app, !braces_nat, IHd. destruct k as [|[|k]]; reflexivity. }
  rewrite !braces_app, braces_print, F, (IH (S i) u E). destruct den, cs; rewrite ?braces_app, ?braces_nat; reflexivity.
Qed.
Lemma braces_channels rs : forall t, channels print FMatlab rs = Ok t -> braces t = 0%Z.
Proof using Hprint.
  induction rs as [|[r|] rs IH]; intros t H; [injection H as <-; reflexivity| |apply IH, H]. cbn [channels] in H. unfold matlab_1d in H.
  destruct (matlab_terms print false 0 (r_dim r) (r_p r)) as [a| | |] eqn:Ea; try discriminate. destruct (matlab_terms print true 0 (r_dim r) (r_q r)) as [b| | |] eqn:Eb; try discriminate. cbn [bind] in H.
  destruct (channels print FMatlab rs) as [u| | |]; try discriminate. cbn [bind] in H. apply Ok_inj in H. subst t.
  rewrite !braces_app, (braces_terms _ _ _ _ a Ea), (braces_terms _ _ _ _ b Eb), (IH u eq_refl). reflexivity.
Qed.
Lemma braces_tree f : forall c, export_call print nY FMatlab f = Ok c -> braces c = 0%Z.
Proof using Hprint.
  induction f as [k p|r|fs IH|f g IHf IHg] using efun_all; intros c H.
  - injection H as <-. apply braces_leaf.
  - apply braces_channels in H. exact H.
  - revert c H. rewrite export_sum. generalize true. induction IH as [|f fs Hf _ IH]; intros first c H; [injection H as <-; reflexivity|].
    cbn [esum_text] in H. destruct (export_call print nY FMatlab f) as [a| | |]; try discriminate. cbn [bind] in H. destruct (esum_text print nY FMatlab false fs) as [d| | |] eqn:E; try discriminate. cbn [bind] in H.
    apply Ok_inj in H. subst c. rewrite !braces_app, (Hf a eq_refl), (IH false d E). destruct first; reflexivity.
  - cbn [export_call] in H. destruct (export_call print nY FMatlab f) as [a| | |]; try discriminate. destruct (export_call print nY FMatlab g) as [b| | |]; try discriminate. cbn [bind joins] in H.
    apply Ok_inj in H. subst c. rewrite !braces_app, (IHf a eq_refl), (IHg b eq_refl). reflexivity.
Qed.
Lemma braces_body f : forall b, export_body print f = Ok b -> braces b = 0%Z.
Proof.
  induction f as [k p|r|fs IH|f g IHf IHg] using efun_all; intros b H.
  - destruct k; cbn [export_body leaf_body] in H; apply Ok_inj in H; subst b; reflexivity.
  - apply Ok_inj in H. subst b. reflexivity.
  - revert b H. induction IH as [|f fs Hf _ IH]; intros b H; [apply Ok_inj in H; subst b; reflexivity|].
    change (export_body print (ESum (f :: fs))) with (do a <- export_body print f; do b <- export_body print (ESum fs); Ok (a ++ endl ++ b)) in H.
    destruct (export_body print f) as [a| | |]; try discriminate. destruct (export_body print (ESum fs)) as [c| | |]; try discriminate. cbn [bind] in H. apply Ok_inj in H. subst b.
    rewrite !braces_app, (Hf a eq_refl), (IH c eq_refl). reflexivity.
  - cbn [export_body] in *. destruct (export_body print f) as [a| | |]; try discriminate. destruct (export_body print g) as [c| | |]; try discriminate. cbn [bind] in H. apply Ok_inj in H. subst b.
    rewrite !braces_app, (IHf a eq_refl), (IHg c eq_refl). reflexivity.
Qed.
Lemma braces_matlab f text : export print nY FMatlab f = Ok text -> braces text = 1%Z.
Proof using Hprint.
  unfold export. destruct (export_body print f) as [b| | |] eqn:Eb; try discriminate. destruct (export_call print nY FMatlab f) as [c| | |] eqn:Ec; try discriminate. cbn [bind].
  intros H. apply Ok_inj in H. subst text. unfold line. rewrite !braces_app, (braces_body f b Eb), (braces_tree f c Ec), braces_nat. reflexivity.
Qed.
End Num.

(** ** the export is always written *)
Lemma cpp_terms_ok print dim cs : Forall (fun c => length (co_deg c) = dim) cs -> exists t, cpp_terms print dim cs = Ok t.
Proof. induction 1 as [|c cs H _ (t & IH)]; [eexists; reflexivity|]. cbn [cpp_terms]. rewrite H, Nat.ltb_irrefl, IH. eexists. reflexivity. Qed.
Lemma matlab_terms_ok print den dim cs : Forall (fun c => length (co_deg c) = dim) cs -> forall i, exists t, matlab_terms print den i dim cs = Ok t.
Proof. induction 1 as [|c cs H _ IH]; intros i; [eexists; reflexivity|]. cbn [matlab_terms]. destruct (IH (S i)) as (t & E). rewrite H, Nat.ltb_irrefl, E. eexists. reflexivity. Qed.
Lemma channels_ok print m rs : Forall rf1_ok (made rs) -> exists t, channels print m rs = Ok t.
Proof.
  induction rs as [|[r|] rs IH]; intros H; [eexists; reflexivity| |apply IH, H]. change (made (Some r :: rs)) with (r :: made rs) in H. inversion H as [|? ? (A & B) Hrs]; subst.
  destruct (IH Hrs) as (t & E). cbn [channels]. rewrite E. unfold cpp_1d, matlab_1d. destruct (cpp_terms_ok print _ _ A) as (a & Ea). destruct (cpp_terms_ok print _ _ B) as (b & Eb).
  destruct (matlab_terms_ok print false _ _ A 0) as (c & Ec). destruct (matlab_terms_ok print true _ _ B 0) as (d & Ed). rewrite Ea, Eb, Ec, Ed. destruct m; eexists; reflexivity.
Qed.
Lemma call_ok print nY m f : Forall rf1_ok (rationals f) -> exists t, export_call print nY m f = Ok t.
Proof.
  induction f as [k p|r|fs IH|f g IHf IHg] using efun_all; intros H.
  - eexists. reflexivity.
  - apply channels_ok, H.
  - rewrite export_sum. generalize true. induction IH as [|f fs Hf _ IH]; intros first; [eexists; reflexivity|]. rewrite rationals_cons, Forall_app in H. destruct H as (A & B).
    destruct (Hf A) as (a & Ea). destruct (IH B false) as (b & Eb). cbn [esum_text]. rewrite Ea. cbn [bind]. rewrite Eb. eexists. reflexivity.
  - cbn [rationals] in H. rewrite Forall_app in H. destruct H as (A & B). destruct (IHf A) as (a & Ea). destruct (IHg B) as (b & Eb). cbn [export_call]. rewrite Ea, Eb. eexists. reflexivity.
Qed.
Lemma body_ok print f : exists b, export_body print f = Ok b.
Proof.
  induction f as [k p|r|fs IH|f g (a & Ea) (b & Eb)] using efun_all; try (eexists; reflexivity).
  - destruct k; eexists; reflexivity.
  - induction IH as [|f fs (a & Ea) _ (b & Eb)]; [eexists; reflexivity|].
    change (export_body print (ESum (f :: fs))) with (do a <- export_body print f; do b <- export_body print (ESum fs); Ok (a ++ endl ++ b)). rewrite Ea, Eb. eexists. reflexivity.
  - cbn [export_body]. rewrite Ea, Eb. eexists. reflexivity.
Qed.
Lemma export_written print nY m f : Forall rf1_ok (rationals f) -> exists text, export print nY m f = Ok text.
Proof. intros H. unfold export. destruct (body_ok print f) as (b & ->). destruct (call_ok print nY m f H) as (c & ->). destruct m; eexists; reflexivity. Qed.

(** Proofs for the shader export: the program as a whole. *)
From Coq Require Import Reals List Lia Lra.
From Verif Require Import Base NlModel NlMoreModel Glsl GlslModel GlslSpec GlslLex GlslParse GlslBody.
Open Scope R_scope.
Open Scope string_scope.

(** the name and the number of vectors of a call *)
Definition call_name (k : kind) : string :=
  match k with
  | KBlinn => "blinn" | KRetroblinn => "retroblinn" | KAbc => "abc" | KBeckmann => "beckmann" | KRetrobeckmann => "retrobeckmann"
  | KWard => "ward" | KSchlick => "schlick_fresnel" | KNormSchlick => "normalized_schlick_fresnel" | KRetroSchlick => "retro_schlick_fresnel"
  | KGauss _ | KGaussMoment _ => "spherical_gaussian" | KDiffuse => "vec3" | KLafIso _ | KLaf _ => "lafortune"
  | KMasking => "masking_schlick" | KSmith => "shadowing_smith" | KWalter => "walter_smith" | KYoo => "retroyoo" end.
Definition call_vecs (k : kind) : nat :=
  match k with
  | KAbc | KWard | KLafIso _ => 3 | KLaf _ => 4 | KBlinn | KRetroblinn | KBeckmann | KRetrobeckmann | KGauss _ | KGaussMoment _ | KYoo => 2 | _ => 1 end.

Section Num.
Variables (print : R -> string) (shown : R -> R).
Hypothesis Hprint : prints print shown.
Variable nY : nat.
Hypothesis HnY : (0 < nY)%nat.
Notation num := (num_ast print).

Lemma member_nonempty k l p : member nY k l p <> [].
Proof using HnY. unfold member. destruct nY; [lia|]. discriminate. Qed.
Lemma members_nonempty k p : Forall (fun v => v <> []) (members_of nY k p).
Proof using HnY. unfold members_of. apply Forall_forall. intros v H. apply in_map_iff in H. destruct H as (l & <- & _). apply member_nonempty. Qed.

(** a call with one lobe's parameters *)
Definition single_ast (k : kind) (p : list R) : expr :=
  match k with KDiffuse => vec_ast print (member nY 1 0 p) | _ => call_ast print (call_name k) (members_of nY (call_vecs k) p) end.
Definition lobe_count (k : kind) : nat := match k with KLafIso n | KLaf n => n | _ => 1 end.
Definition lobe_par (k : kind) (i : nat) (p : list R) : list R := match k with KLafIso _ | KLaf _ => lobe_pars nY (call_vecs k) i p | _ => p end.
Definition lobe_asts (k : kind) (p : list R) : list expr := map (fun i => single_ast k (lobe_par k i p)) (seq 0 (lobe_count k)).
Definition sum_ast (es : list expr) : expr := match es with [] => EVar "" | e :: t => fold_left (EBin BAdd) t e end.
Fixpoint term_ast (f : xfun) : expr :=
  match f with
  | XLeaf k p => sum_ast (lobe_asts k p)
  | XProd f g => EBin BMul (term_ast f) (term_ast g)
  | _ => EVar "" end.

Lemma call_operand k p : sound k -> k <> KDiffuse -> operand (call_text print (call_name k) (members_of nY (call_vecs k) p)) (call_ast print (call_name k) (members_of nY (call_vecs k) p)).
Proof using Hprint HnY.
  intros Hs Hd. pose proof (members_nonempty (call_vecs k) p) as Hm. revert Hm. unfold members_of. 
  destruct k; try (contradiction || congruence); cbn [call_name call_vecs seq map]; intros Hm; apply (operand_call print shown Hprint); try assumption;
    try reflexivity; intros ts; reflexivity.
Qed.
Lemma single_operand k p : sound k -> atomic k -> operand (leaf_call print nY k p) (single_ast k (lobe_par k 0 p)).
Proof using Hprint HnY.
  intros Hs Ha. destruct k as [| | | | | | | | |t|a| |n|n| | | | ]; try contradiction;
    try (match goal with |- operand _ (single_ast ?k _) => exact (call_operand k p I ltac:(discriminate)) end).
  - apply (operand_vec print shown Hprint). apply member_nonempty.
  - cbn in Ha. subst n. cbn [leaf_call lobes_text seq map String.concat]. apply (call_operand (KLafIso 1) (lobe_pars nY 3 0 p) Hs ltac:(discriminate)).
  - cbn in Ha. subst n. cbn [leaf_call lobes_text seq map String.concat]. apply (call_operand (KLaf 1) (lobe_pars nY 4 0 p) Hs ltac:(discriminate)).
Qed.
Lemma factor_operand f : factor f -> exists text, save_call print nY f = Ok text /\ operand text (term_ast f).
Proof using Hprint HnY.
  induction f as [k p| | |f IHf g IHg]; intros H; try contradiction.
  - destruct H as [Hs Ha]. exists (leaf_call print nY k p). split; [reflexivity|].
    cbn [term_ast]. unfold lobe_asts. replace (lobe_count k) with 1%nat; [apply single_operand; assumption|].
    destruct k; try reflexivity; symmetry; exact Ha.
  - destruct H as [Hf Hg]. destruct (IHf Hf) as (a & Ea & Oa). destruct (IHg Hg) as (b & Eb & Ob).
    cbn [save_call term_ast]. rewrite Ea, Eb. eexists. split; [reflexivity|]. apply operand_product; assumption.
Qed.

(** a term and the semicolon after it *)
Definition ended (text : string) (e : expr) : Prop := forall fs b c q, end_expr e c fs b = Some q ->
  feeds (text ++ ";" ++ endl) (mkP fs b (MExpect [] c)) q.
Lemma semi_toks : forall ts, lex_from (ts, CNone) (";" ++ endl) = Some ((P Semi :: ts)%list, CNone).
Proof. reflexivity. Qed.
Lemma operand_ended text e : operand text e -> ended text e.
Proof.
  intros H fs b c q Hq. eapply feeds_app; [apply H|]. exists [P Semi]. split; [intros ts; reflexivity|]. cbn. rewrite Hq. reflexivity.
Qed.
Lemma lobes_ended (l : list (string * expr)) : Forall (fun x => operand (fst x) (snd x)) l -> forall acc fs b c q,
  l <> [] -> end_expr (fold_left (EBin BAdd) (map snd l) acc) c fs b = Some q ->
  feeds (String.concat " + " (map fst l) ++ ";" ++ endl) (mkP fs b (MExpect [FBin BAdd acc] c)) q.
Proof.
  induction 1 as [|[s e] l Ho _ IH]; intros acc fs b c q Hn Hq; [congruence|]. cbn [fst snd] in Ho. destruct l as [|y l].
  - eapply feeds_app; [apply Ho|]. exists [P Semi]. split; [intros ts; reflexivity|]. cbn [map fold_left snd] in Hq.
    cbn [steps]. change (step (mkP fs b (MHave e [FBin BAdd acc] c)) (P Semi)) with (end_expr (EBin BAdd acc e) c fs b). rewrite Hq. reflexivity.
  - change (String.concat " + " (map fst ((s, e) :: y :: l))) with (s ++ " + " ++ String.concat " + " (map fst (y :: l))). rewrite !app_assoc_s.
    eapply feeds_app; [apply Ho|].
    apply (feeds_app " + " _ _ (mkP fs b (MExpect [FBin BAdd (EBin BAdd acc e)] c))); [apply feeds_const; [intros ts; reflexivity|reflexivity]|].
    apply IH; [discriminate|exact Hq].
Qed.
Lemma sum_ended (l : list (string * expr)) : Forall (fun x => operand (fst x) (snd x)) l -> l <> [] ->
  ended (String.concat " + " (map fst l)) (sum_ast (map snd l)).
Proof.
  intros H Hn. destruct H as [|[s e] l Ho Hl]; [congruence|]. cbn [fst snd] in Ho. destruct l as [|y l]; [apply operand_ended, Ho|].
  intros fs b c q Hq.
  change (String.concat " + " (map fst ((s, e) :: y :: l))) with (s ++ " + " ++ String.concat " + " (map fst (y :: l))). rewrite !app_assoc_s.
  eapply feeds_app; [apply Ho|].
  apply (feeds_app " + " _ _ (mkP fs b (MExpect [FBin BAdd e] c))); [apply feeds_const; [intros ts; reflexivity|reflexivity]|].
  apply lobes_ended; [assumption|discriminate|exact Hq].
Qed.
Lemma lobes_text_ended k n p : k = KLafIso n \/ k = KLaf n -> (0 < n)%nat -> ended (lobes_text print nY (call_vecs k) n p) (sum_ast (lobe_asts k p)).
Proof using Hprint HnY.
  intros Hk Hn. set (l := map (fun i => (call_text print "lafortune" (members_of nY (call_vecs k) (lobe_pars nY (call_vecs k) i p)), single_ast k (lobe_par k i p))) (seq 0 n)).
  replace (lobes_text print nY (call_vecs k) n p) with (String.concat " + " (map fst l)) by (subst l; unfold lobes_text; rewrite map_map; reflexivity).
  replace (lobe_asts k p) with (map snd l) by (subst l; unfold lobe_asts; rewrite map_map; destruct Hk as [-> | ->]; reflexivity).
  apply sum_ended.
  - subst l. apply Forall_forall. intros x Hx. apply in_map_iff in Hx. destruct Hx as (i & <- & _). cbn [fst snd].
    destruct Hk as [-> | ->]; [apply (call_operand (KLafIso n) (lobe_pars nY 3 i p) Hn ltac:(discriminate))|apply (call_operand (KLaf n) (lobe_pars nY 4 i p) Hn ltac:(discriminate))].
  - subst l. destruct n; [lia|]. discriminate.
Qed.
Lemma term_ended f : term f -> exists text, save_call print nY f = Ok text /\ ended text (term_ast f).
Proof using Hprint HnY.
  intros H. destruct f as [k p| | |f g]; try contradiction.
  - exists (leaf_call print nY k p). split; [reflexivity|]. cbn [term_ast]. cbn [term] in H.
    destruct k as [| | | | | | | | |t|a| |n|n| | | | ]; try contradiction;
    try (apply operand_ended; unfold lobe_asts; cbn [lobe_count seq map sum_ast fold_left]; apply single_operand; exact I).
    + apply (lobes_text_ended (KLafIso n) n); [auto|exact H].
    + apply (lobes_text_ended (KLaf n) n); [auto|exact H].
  - destruct (factor_operand (XProd f g) H) as (t & E & O). exists t. split; [assumption|apply operand_ended, O].
Qed.

(** ** bodies *)
Lemma reads_endl_l s u : reads s u -> reads (endl ++ s) u.
Proof. intros H. apply (reads_app endl s [] u reads_endl H). Qed.
Lemma reads_endl_r s u : reads s u -> reads (s ++ endl) u.
Proof. intros H. rewrite <- (app_nil_r u). apply (reads_app s endl u [] H reads_endl). Qed.
Lemma leaf_body_ok k : sound k -> exists text, leaf_body print k = Ok text /\ reads text (body_funs print k).
Proof using Hprint.
  intros H. destruct (leaf_body print k) as [t| | |] eqn:E; [|destruct k as [| | | | | | | | |[]| | | | | | | | ]; try discriminate E; contradiction..].
  exists t. split; [reflexivity|]. apply (leaf_reads print shown Hprint); auto.
Qed.
Lemma factor_body f : factor f \/ term f -> exists text, save_body print f = Ok text /\ reads text (flat_map (body_funs print) (kinds f)).
Proof using Hprint.
  induction f as [k p| | |f IHf g IHg]; intros H; try (destruct H; contradiction).
  - cbn [kinds flat_map save_body]. rewrite app_nil_r. apply leaf_body_ok. destruct H as [[H _]|H]; assumption.
  - assert (H' : factor (XProd f g)) by (destruct H; assumption). destruct H' as [Hf Hg].
    destruct (IHf (or_introl Hf)) as (a & Ea & Ra). destruct (IHg (or_introl Hg)) as (b & Eb & Rb).
    cbn [save_body kinds]. rewrite Ea, Eb. eexists. split; [reflexivity|]. rewrite flat_map_app.
    apply reads_app; [assumption|]. apply reads_endl_l, reads_endl_r. assumption.
Qed.
Lemma sum_body fs : Forall term fs -> exists text, save_body print (XSum fs) = Ok text /\ reads text (flat_map (body_funs print) (kinds (XSum fs))).
Proof using Hprint.
  intros H. cbn [save_body kinds]. induction H as [|f fs Hf _ IH].
  - exists "". split; [reflexivity|]. intros g. apply feeds_nil.
  - destruct (factor_body f (or_intror Hf)) as (a & Ea & Ra). destruct IH as (b & Eb & Rb). rewrite Ea, Eb. eexists. split; [reflexivity|].
    rewrite flat_map_app. apply reads_app; [assumption|]. apply reads_endl_l. assumption.
Qed.

(** ** the function BRDF *)
Definition brdf_body (es : list expr) : list stmt :=
  match es with [] => [] | e :: t => (decl "res" e :: map (SAdd (EVar "res")) t ++ [SReturn (EVar "res")])%list end.
Definition brdf_fun (es : list expr) : fundef := mkFun TVec3 "BRDF" lvnxy (brdf_body es).
Lemma sum_rest fs : Forall term fs -> exists text,
  (fix all (first : bool) l := match l with [] => Ok "" | f :: t =>
      do a <- save_call print nY f; do b <- all false t; Ok ((if first : bool then "" else tb ++ "res += ") ++ a ++ ";" ++ endl ++ b) end) false fs = Ok text /\
  forall fd t f ps ss, feeds text (mkP fd [BFun t f ps ss] MStmt) (mkP fd [BFun t f ps (rev (map (SAdd (EVar "res")) (map term_ast fs)) ++ ss)%list] MStmt).
Proof using Hprint HnY.
  induction 1 as [|f fs Hf _ IH].
  - exists "". split; [reflexivity|]. intros. apply feeds_nil.
  - destruct (term_ended f Hf) as (a & Ea & Oa). destruct IH as (b & Eb & Ob). rewrite Ea, Eb. eexists. split; [reflexivity|].
    intros fd t g ps ss. rewrite !app_assoc_s.
    apply (feeds_app tb _ _ (mkP fd [BFun t g ps ss] MStmt)); [apply feeds_const; [intros ts; reflexivity|reflexivity]|].
    apply (feeds_app "res += " _ _ (mkP fd [BFun t g ps ss] (MExpect [] (XAdd (EVar "res"))))); [apply feeds_const; [intros ts; reflexivity|reflexivity]|].
    rewrite <- !app_assoc_s. rewrite (app_assoc_s a).
    eapply feeds_app; [apply (Oa fd [BFun t g ps ss] (XAdd (EVar "res"))); reflexivity|].
    cbn [map rev]. rewrite <- app_assoc. apply Ob.
Qed.
Definition shader_program (fs : list xfun) : list fundef :=
  (flat_map (body_funs print) (kinds (XSum fs)) ++ [brdf_fun (map term_ast fs)])%list.
Lemma shader_parses fs : fs <> [] -> Forall term fs -> exists text, save_shader print nY (XSum fs) = Ok text /\ program text = Some (shader_program fs).
Proof using Hprint HnY.
  intros Hn Hf. destruct (sum_body fs Hf) as (b & Eb & Rb). unfold save_shader. rewrite Eb. cbn [bind].
  destruct Hf as [|f fs Hf Hr]; [congruence|]. destruct (term_ended f Hf) as (a & Ea & Oa). destruct (sum_rest fs Hr) as (r & Er & Or).
  cbn [save_call]. rewrite Ea, Er. cbn [bind]. eexists. split; [reflexivity|].
  unfold shader_program. set (funs := flat_map (body_funs print) (kinds (XSum (f :: fs)))) in *. clearbody funs.
  rewrite <- (rev_involutive (funs ++ _)). apply feeds_program. rewrite rev_app_distr. cbn [rev app].
  eapply feeds_app; [apply Rb|]. rewrite app_nil_r.
  set (ps := lvnxy). generalize (rev funs). intros rf.
  do 5 (rewrite <- app_assoc_s).
  match goal with |- feeds (?h ++ _) _ _ => apply (feeds_app h _ _ (mkP rf [BFun TVec3 "BRDF" ps []] (MExpect [] (XInit TVec3 "res")))) end.
  { apply feeds_const; [intros ts; vm_compute; reflexivity|]. vm_compute. reflexivity. }
  match goal with |- feeds ((?e ++ a ++ ";" ++ endl ++ r) ++ ?z) _ _ => replace ((e ++ a ++ ";" ++ endl ++ r) ++ z) with ((a ++ ";" ++ endl) ++ r ++ z)
    by (change e with ""; cbn [append]; repeat rewrite app_assoc_s; reflexivity) end.
  eapply feeds_app; [apply (Oa rf [BFun TVec3 "BRDF" ps []] (XInit TVec3 "res")); reflexivity|].
  eapply feeds_app; [apply Or|].
  apply feeds_const; [intros ts; vm_compute; reflexivity|].
  change (toks_of (line "return res;" ++ "}" ++ endl ++ endl)) with [Id "return"; Id "res"; P Semi; P RBrace].
  cbn. unfold brdf_fun, brdf_body. cbn [map]. do 4 f_equal. rewrite rev_app_distr, rev_involutive. reflexivity.
Qed.
End Num.

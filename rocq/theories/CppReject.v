(** Proofs for the C++ and Matlab exports: texts that are no programs. *)
From Coq Require Import Reals List Lia.
From Verif Require Import Base Num TextModel DataModel NlModel NlMoreModel Glsl GlslModel GlslSpec GlslLex GlslParse GlslProgram GlslReject RatModel Cpp CppModel CppSpec CppLex CppValue CppNames.
Open Scope string_scope.

Fixpoint efun_all (Q : efun -> Prop) (Hl : forall k p, Q (ELeaf k p)) (Hr : forall f, Q (ERational f)) (Hs : forall fs, Forall Q fs -> Q (ESum fs))
  (Hp : forall f g, Q f -> Q g -> Q (EProd f g)) (f : efun) : Q f :=
  match f with
  | ELeaf k p => Hl k p | ERational f => Hr f
  | ESum fs => Hs fs ((fix all l : Forall Q l := match l with [] => Forall_nil _ | f :: t => Forall_cons f (efun_all Q Hl Hr Hs Hp f) (all t) end) fs)
  | EProd f g => Hp f g (efun_all Q Hl Hr Hs Hp f) (efun_all Q Hl Hr Hs Hp g) end.
Lemma plugins_cons f fs : plugins (ESum (f :: fs)) = (plugins f ++ plugins (ESum fs))%list. Proof. reflexivity. Qed.
Lemma rationals_cons f fs : rationals (ESum (f :: fs)) = (rationals f ++ rationals (ESum fs))%list. Proof. reflexivity. Qed.

Definition nd : string := "vec3 (not declared)".
Definition calm (t : tok) : bool := plain_tok t && match t with P LBrace => false | _ => true end.
(** tokens that leave the reader free: the names [L] and [vec3] are not declared *)
Definition tidy (ts : list tok) : Prop :=
  guarded "L" true ts /\ guarded nd true ts /\ leaves true ts = true /\ ~ In (P LBrace) ts /\ ~ In (P Dot) ts.
Lemma tidy_nil : tidy []. Proof. repeat split; auto. Qed.
Lemma tidy_app a b : tidy a -> tidy b -> tidy (a ++ b)%list.
Proof.
  intros (A1 & A2 & A3 & A4 & A5) (B1 & B2 & B3 & B4 & B5). unfold tidy. rewrite !guarded_app, leaves_app, A3, !in_app_iff. tauto.
Qed.
Lemma calm_tidy ts : forallb calm ts = true -> tidy ts.
Proof.
  induction ts as [|t ts IH]; intros H; [apply tidy_nil|]. cbn [forallb] in H. apply andb_prop in H. destruct H as (H1 & H2). apply IH in H2. destruct H2 as (A1 & A2 & A3 & A4 & A5).
  unfold calm in H1. apply andb_prop in H1. destruct H1 as (P1 & P2). unfold tidy. cbn [guarded leaves In]. rewrite P1.
  assert (t <> P LBrace /\ t <> P Dot) as (N1 & N2) by (split; intros ->; discriminate). repeat split; auto; intros [E|E]; congruence || contradiction.
Qed.
Lemma calm_app a b : forallb calm (a ++ b)%list = forallb calm a && forallb calm b.
Proof. apply forallb_app. Qed.

Section Num.
Variables (print : R -> string) (shown : R -> R).
Hypothesis Hprint : prints print shown.
Variable nY : nat.
Hypothesis HnY : (0 < nY)%nat.

Lemma calm_num r : forallb calm (map cpp_tok (num_toks print r)) = true.
Proof using Hprint. destruct (num_toks_cases print shown Hprint r) as [(m & e & -> & _)|(m & e & -> & _)]; reflexivity. Qed.
Lemma calm_vec v : forallb calm (map cpp_tok (vec_toks print v)) = true.
Proof using Hprint HnY.
  induction v as [|a v IH]; [reflexivity|]. destruct v as [|b v]; [apply calm_num|]. change (vec_toks print (a :: b :: v)) with (num_toks print a ++ (P Comma :: vec_toks print (b :: v)))%list.
  rewrite map_app, calm_app, calm_num. exact IH.
Qed.
Lemma calm_vecs vs : forallb calm (map cpp_tok (vecs_toks print vs)) = true.
Proof using Hprint HnY. induction vs as [|v vs IH]; [reflexivity|]. cbn [vecs_toks app map forallb]. rewrite map_app, calm_app, calm_vec. exact IH. Qed.
Lemma calm_terms cs : forallb calm (terms_toks print cs) = true.
Proof using Hprint HnY.
  assert (F : forall degs k, forallb calm (factor_toks k degs) = true). { induction degs as [|d t IH]; intros k; [reflexivity|]. cbn [factor_toks forallb]. rewrite IH. reflexivity. }
  assert (T : forall c, forallb calm (term_toks print c) = true). { intros c. unfold term_toks. rewrite calm_app, F, <- (cpp_num print shown Hprint), calm_num. reflexivity. }
  induction cs as [|c t IH]; [reflexivity|]. destruct t as [|c2 t]; [apply T|].
  change (terms_toks print (c :: c2 :: t)) with (term_toks print c ++ P Plus :: terms_toks print (c2 :: t))%list. rewrite calm_app, T. exact IH.
Qed.
(** ** a plugin *)
Definition names_leaf (k : kind) : string := match k with KDiffuse => nd | _ => "L" end.
Definition call_good (f : string) : Prop := lexes (f ++ open_text) (Id f :: toks_of open_text) /\ calm (cpp_tok (Id f)) = true.
Lemma call_leaf f vs : vs <> [] -> Forall (fun v => v <> []) vs -> call_good f ->
  exists u, lexes (call_text print f vs) u /\ forallb calm (map cpp_tok u) = true /\ In (Id "L") (map cpp_tok u).
Proof using Hprint HnY.
  intros Hne Hv (Hf & Hc). destruct vs as [|v vs]; [congruence|]. inversion Hv as [|? ? Hv1 Hv2]; subst.
  assert (E : call_text print f (v :: vs) = (f ++ open_text) ++ (vec_text print v ++ String ")" (vecs_text print vs))).
  { unfold call_text, open_text. rewrite app_assoc_s. reflexivity. }
  rewrite E. exists ((Id f :: toks_of open_text) ++ (vec_toks print v ++ P RPar :: vecs_toks print vs))%list. split; [|split].
  - apply lexes_app; [assumption|]. apply (lexes_vec print shown Hprint); [assumption|exact ends_rpar|].
    apply (lexes_app ")" _ [P RPar]); [intros ts; reflexivity|apply (lexes_vecs print shown Hprint); assumption].
  - rewrite !map_app, !calm_app, calm_vec. cbn [map forallb]. rewrite Hc, calm_vecs. reflexivity.
  - rewrite map_app. apply in_or_app. left. right. vm_compute. auto.
Qed.
Lemma members_some k p : (0 < k)%nat -> members_of nY k p <> [].
Proof. intros H. destruct k; [lia|discriminate]. Qed.
Lemma lobes_leaf k n p : (0 < k)%nat -> (0 < n)%nat -> exists u, lexes (lobes_text print nY k n p) u /\ forallb calm (map cpp_tok u) = true /\ In (Id "L") (map cpp_tok u).
Proof using Hprint HnY.
  intros Hk Hn. unfold lobes_text. assert (Hs : seq 0 n <> []) by (destruct n; [lia|discriminate]). revert Hs. generalize (seq 0 n). intros l. induction l as [|i l IH]; intros Hs; [congruence|].
  assert (C : call_good "lafortune") by (split; [intros ts; reflexivity|reflexivity]).
  cbn [map]. destruct l as [|j l].
  - cbn [map String.concat]. apply call_leaf; [apply members_some, Hk|apply members_nonempty, HnY|exact C].
  - destruct (IH ltac:(discriminate)) as (u & A & B & D). cbn [map] in A |- *.
    match goal with |- context[String.concat _ (?a :: ?b :: ?t)] => change (String.concat " + " (a :: b :: t)) with (a ++ " + " ++ String.concat " + " (b :: t)) end.
    destruct (call_leaf "lafortune" (members_of nY k (lobe_pars nY k i p)) (members_some k _ Hk) (members_nonempty nY HnY k _) C) as (v & E & F & G).
    exists (v ++ [P Plus] ++ u)%list. split; [|rewrite !map_app, !calm_app, F, B; split; [reflexivity|apply in_or_app; auto]].
    apply lexes_app; [exact E|]. apply lexes_app; [intros ts; reflexivity|exact A].
Qed.
Lemma leaf_lexes k p : k <> KMasking -> exists u, lexes (leaf_call print nY k p) u /\ forallb calm (map cpp_tok u) = true /\
  (~ silent k -> (forall n, k <> KLaf n) -> In (Id (names_leaf k)) (map cpp_tok u)).
Proof using Hprint HnY.
  intros Hm.
  assert (C : forall f l q, (0 < l)%nat -> call_good f -> exists u, lexes (call_text print f (members_of nY l q)) u /\ forallb calm (map cpp_tok u) = true /\ In (Id "L") (map cpp_tok u)).
  { intros f l q Hl. apply call_leaf; [apply members_some, Hl|apply members_nonempty, HnY]. }
  assert (E : forall t z, (exists u, lexes t u /\ forallb calm (map cpp_tok u) = true /\ In (Id z) (map cpp_tok u)) ->
     exists u, lexes t u /\ forallb calm (map cpp_tok u) = true /\ (~ silent k -> (forall n, k <> KLaf n) -> In (Id z) (map cpp_tok u))).
  { intros t z (u & A & B & D). exists u. auto. }
  destruct k; try congruence; cbn [leaf_call names_leaf]; try (apply E, C; [lia|]; split; [intros ts; reflexivity|reflexivity]).
  - apply E. exists ([Id "vec3"; P LPar] ++ (vec_toks print (member nY 1 0 p) ++ [P RPar]))%list. split; [|split].
    + apply lexes_app; [intros ts; reflexivity|]. apply (lexes_vec print shown Hprint); [apply member_nonempty, HnY|exact ends_rpar|intros ts; reflexivity].
    + cbn [app map forallb]. rewrite map_app, calm_app, calm_vec. reflexivity.
    + left. reflexivity.
  - destruct n as [|n]; [|apply E, lobes_leaf; lia]. exists []. split; [intros ts; reflexivity|]. split; [reflexivity|]. intros K. cbn in K. congruence.
  - destruct n as [|n]; [|apply E, lobes_leaf; lia]. exists []. split; [intros ts; reflexivity|]. split; [reflexivity|]. intros _ K. exfalso. eapply K. reflexivity.
  - apply E. exists (toks_of "walter_smith(L, V, N, X, Y, vec3(" ++ (vec_toks print (member nY 1 0 p) ++ [P RPar; P RPar]))%list. split; [|split].
    + change ("walter_smith(L, V, N, X, Y, vec3(" ++ vec_text print (member nY 1 0 p) ++ ") ) ") with ("walter_smith(L, V, N, X, Y, vec3(" ++ (vec_text print (member nY 1 0 p) ++ String ")" " ) ")).
      apply lexes_app; [intros ts; reflexivity|]. apply (lexes_vec print shown Hprint); [apply member_nonempty, HnY|exact ends_rpar|intros ts; reflexivity].
    + rewrite !map_app, !calm_app, calm_vec. reflexivity.
    + rewrite map_app. apply in_or_app. left. vm_compute. auto.
Qed.

(** ** trees *)
(** what is known of the tokens of a tree *)
Definition reads_as (f : efun) (u : list tok) : Prop :=
  tidy u /\
  (forall k, In k (plugins f) -> ~ silent k -> (forall n, k <> KLaf n) -> In (Id "L") u \/ In (Id nd) u) /\
  (forall s ss q, shape s ss -> not_dot (p_mode s) -> steps s u = Some q ->
     exists ss', shape q ss' /\ not_dot (p_mode q) /\ (mode_decl "num" (p_mode s) + decls "num" ss + length (rationals f) <= mode_decl "num" (p_mode q) + decls "num" ss')%nat) /\
  ((exists r, In r (rationals f) /\ (r_p r = [] \/ r_q r = [])) -> forall s, steps s u = None).
Lemma steps_none a b : (forall s, steps s a = None) -> forall s, steps s (a ++ b)%list = None.
Proof. intros H s. rewrite steps_app, H. reflexivity. Qed.
Lemma steps_none_r a b : (forall s, steps s b = None) -> forall s, steps s (a ++ b)%list = None.
Proof. intros H s. rewrite steps_app. destruct (steps s a); [apply H|reflexivity]. Qed.
(** two trees in a row with constant text around them *)
Lemma decl_const u : tidy u -> forall s ss q, shape s ss -> not_dot (p_mode s) -> steps s u = Some q ->
  exists ss', shape q ss' /\ not_dot (p_mode q) /\ (mode_decl "num" (p_mode s) + decls "num" ss + 0 <= mode_decl "num" (p_mode q) + decls "num" ss')%nat.
Proof.
  intros (_ & _ & _ & A & B) s ss q Hs Hd H. destruct (steps_shape "num" u s ss q A Hs H) as (ss' & S & L). exists ss'. split; [exact S|]. split; [|lia]. apply (steps_not_dot u s ss q A B Hs Hd H).
Qed.
Lemma decl_app n m a b :
  (forall s ss q, shape s ss -> not_dot (p_mode s) -> steps s a = Some q -> exists ss', shape q ss' /\ not_dot (p_mode q) /\ (mode_decl "num" (p_mode s) + decls "num" ss + n <= mode_decl "num" (p_mode q) + decls "num" ss')%nat) ->
  (forall s ss q, shape s ss -> not_dot (p_mode s) -> steps s b = Some q -> exists ss', shape q ss' /\ not_dot (p_mode q) /\ (mode_decl "num" (p_mode s) + decls "num" ss + m <= mode_decl "num" (p_mode q) + decls "num" ss')%nat) ->
  (forall s ss q, shape s ss -> not_dot (p_mode s) -> steps s (a ++ b)%list = Some q -> exists ss', shape q ss' /\ not_dot (p_mode q) /\ (mode_decl "num" (p_mode s) + decls "num" ss + (n + m) <= mode_decl "num" (p_mode q) + decls "num" ss')%nat).
Proof.
  intros A B s ss q Hs Hd H. rewrite steps_app in H. destruct (steps s a) as [s1|] eqn:E; [|discriminate]. destruct (A s ss s1 Hs Hd E) as (ss1 & S1 & D1 & L1).
  destruct (B s1 ss1 q S1 D1 H) as (ss2 & S2 & D2 & L2). exists ss2. split; [exact S2|]. split; [exact D2|lia].
Qed.
Lemma reads_join f g h a u v w z : tidy a -> tidy w -> tidy z -> reads_as f u -> reads_as g v ->
  (plugins h = plugins f ++ plugins g)%list -> (rationals h = rationals f ++ rationals g)%list -> reads_as h (a ++ u ++ w ++ v ++ z)%list.
Proof.
  intros Ha Hw Hz (U1 & U2 & U3 & U4) (V1 & V2 & V3 & V4) Hp Hr. split; [repeat apply tidy_app; assumption|]. rewrite Hp, Hr. split; [|split].
  - intros k Hk Hs Hl. rewrite !in_app_iff. apply in_app_or in Hk. destruct Hk as [Hk|Hk]; [destruct (U2 k Hk Hs Hl)|destruct (V2 k Hk Hs Hl)]; tauto.
  - rewrite app_length. replace (length (rationals f) + length (rationals g))%nat with (0 + (length (rationals f) + (0 + (length (rationals g) + 0))))%nat by lia.
    apply decl_app; [apply decl_const, Ha|]. apply decl_app; [exact U3|]. apply decl_app; [apply decl_const, Hw|]. apply decl_app; [exact V3|apply decl_const, Hz].
  - intros (r & Hin & Hn). apply in_app_or in Hin. apply steps_none_r. destruct Hin as [Hin|Hin].
    + apply steps_none, U4. eauto.
    + apply steps_none_r, steps_none_r, steps_none, V4. eauto.
Qed.
Lemma reads_empty f : plugins f = [] -> rationals f = [] -> forall u, tidy u -> reads_as f u.
Proof. intros A B u H. split; [exact H|]. rewrite A, B. split; [intros k []|]. split; [apply decl_const, H|intros (r & [] & _)]. Qed.
(** a rational function *)
Definition rs_toks (rs : list rf1) : list tok := flat_map (fun r => map cpp_tok (channel_toks print r)) rs.
Lemma channel_reads r : tidy (map cpp_tok (channel_toks print r)) /\
  (forall s ss q, shape s ss -> not_dot (p_mode s) -> steps s (map cpp_tok (channel_toks print r)) = Some q ->
     exists ss', shape q ss' /\ not_dot (p_mode q) /\ (mode_decl "num" (p_mode s) + decls "num" ss + 1 <= mode_decl "num" (p_mode q) + decls "num" ss')%nat) /\
  (r_p r = [] \/ r_q r = [] -> forall s, steps s (map cpp_tok (channel_toks print r)) = None).
Proof using Hprint HnY.
  assert (E : map cpp_tok (channel_toks print r) = ([Id "float"; Id "num"; P Eq] ++ (terms_toks print (r_p r) ++ [P Semi; Id "float"; Id "den"; P Eq] ++ terms_toks print (r_q r) ++ P Semi :: toks_of "res[0] = num / den;"))%list).
  { unfold channel_toks. rewrite !map_app. cbn [map]. rewrite !map_app, !(cpp_terms_toks print shown Hprint). reflexivity. }
  assert (T1 : tidy [Id "float"; Id "num"; P Eq]) by (split; [|split; [|split; [|split]]]; cbn; intuition discriminate).
  assert (T2 : tidy [P Semi; Id "float"; Id "den"; P Eq]) by (split; [|split; [|split; [|split]]]; cbn; intuition discriminate).
  assert (T3 : tidy (P Semi :: toks_of "res[0] = num / den;")) by (apply calm_tidy; reflexivity).
  assert (T4 : forall cs, tidy (terms_toks print cs)) by (intros cs; apply calm_tidy, calm_terms).
  rewrite E. split; [|split].
  - repeat apply tidy_app; auto.
  - intros s ss q Hs Hd H. rewrite steps_app in H. destruct (steps s [Id "float"; Id "num"; P Eq]) as [s1|] eqn:E1; [|discriminate].
    destruct (steps_decl "num" s ss s1 Hs Hd eq_refl E1) as (ss1 & S1 & L1).
    assert (D1 : not_dot (p_mode s1)) by (apply (steps_not_dot [Id "float"; Id "num"; P Eq] s ss s1); auto; apply T1).
    destruct (decl_const _ (tidy_app _ _ (T4 (r_p r)) (tidy_app _ _ T2 (tidy_app _ _ (T4 (r_q r)) T3))) s1 ss1 q S1 D1 H) as (ss2 & S2 & D2 & L2).
    exists ss2. split; [exact S2|]. split; [exact D2|lia].
  - intros [Hn|Hn] s; rewrite Hn; cbn [terms_toks app].
    + change (Id "float" :: Id "num" :: P Eq :: P Semi :: ?x) with ([Id "float"; Id "num"] ++ ([P Eq; P Semi] ++ x))%list. apply steps_none_r. intros s'. apply steps_none, eq_semi.
    + change (Id "float" :: Id "num" :: P Eq :: ?x) with ([Id "float"; Id "num"; P Eq] ++ x)%list. apply steps_none_r. intros s'. apply steps_none_r. intros s2.
      change (P Semi :: Id "float" :: Id "den" :: P Eq :: P Semi :: ?x) with ([P Semi; Id "float"; Id "den"] ++ ([P Eq; P Semi] ++ x))%list. apply steps_none_r. intros s3. apply steps_none, eq_semi.
Qed.
Lemma rs_lexes m rs : m <> FMatlab -> Forall rf1_ok (made rs) -> exists text u, channels print m rs = Ok text /\ lexes text u /\ map cpp_tok u = rs_toks (made rs).
Proof using Hprint HnY.
  intros Hm. induction rs as [|[r|] rs IH]; intros H; cbn [made flat_map app] in H.
  - exists "", []. split; [reflexivity|]. split; [apply lexes_nil|reflexivity].
  - change (flat_map (fun o => match o with Some r => [r] | None => [] end) rs) with (made rs) in H. inversion H as [|? ? Hr Hrs]; subst. destruct (IH Hrs) as (t & u & E & L & M). destruct (lexes_channel print shown Hprint r Hr) as (c & Ec & Lc).
    cbn [channels]. exists (c ++ endl ++ t), (channel_toks print r ++ [] ++ u)%list. split; [|split].
    + rewrite E. destruct m; [| |congruence]; rewrite Ec; reflexivity.
    + apply lexes_app; [exact Lc|]. apply lexes_app; [intros ts; reflexivity|exact L].
    + cbn [app]. rewrite map_app, M. reflexivity.
  - destruct (IH H) as (t & u & E & L & M). exists t, u. auto.
Qed.
Lemma rs_reads f : reads_as (ERational f) (rs_toks (rationals (ERational f))).
Proof using Hprint HnY.
  cbn [rationals]. set (l := made (firstn (f_dimY f) (f_rs f))). assert (G : forall l, tidy (rs_toks l) /\
     (forall s ss q, shape s ss -> not_dot (p_mode s) -> steps s (rs_toks l) = Some q -> exists ss', shape q ss' /\ not_dot (p_mode q) /\ (mode_decl "num" (p_mode s) + decls "num" ss + length l <= mode_decl "num" (p_mode q) + decls "num" ss')%nat) /\
     ((exists r, In r l /\ (r_p r = [] \/ r_q r = [])) -> forall s, steps s (rs_toks l) = None)).
  { clear l. induction l as [|r l (A & B & C)]; [split; [apply tidy_nil|]; split; [apply decl_const, tidy_nil|intros (r & [] & _)]|].
    destruct (channel_reads r) as (D & E & F). cbn [rs_toks flat_map length]. split; [apply tidy_app; assumption|]. split; [apply (decl_app 1 (length l)); assumption|].
    intros (r' & [<-|Hin] & Hn); [apply steps_none, F, Hn|apply steps_none_r, C; eauto]. }
  destruct (G l) as (A & B & C). split; [exact A|]. split; [intros k []|]. split; [exact B|exact C].
Qed.
Definition esum_text (m : format) := fix all (first : bool) (l : list efun) := match l with [] => Ok "" | f :: t =>
  do a <- export_call print nY m f; do b <- all false t;
  Ok ((if first || negb (joins m) then "" else tb ++ "res += ") ++ a ++ (if joins m then ";" ++ endl else "") ++ b) end.
Lemma export_sum m fs : export_call print nY m (ESum fs) = esum_text m true fs. Proof. reflexivity. Qed.
Lemma tree_reads m f : m <> FMatlab -> ~ In KMasking (plugins f) -> Forall rf1_ok (rationals f) ->
  exists text u, export_call print nY m f = Ok text /\ lexes text u /\ reads_as f (map cpp_tok u).
Proof using Hprint HnY.
  intros Hm. induction f as [k p|r|fs IH|f g IHf IHg] using efun_all; intros Hk Hr.
  - destruct (leaf_lexes k p) as (u & A & B & C); [intros ->; apply Hk; left; reflexivity|]. exists (leaf_call print nY k p), u. split; [reflexivity|]. split; [exact A|].
    apply calm_tidy in B. split; [exact B|]. split; [|split; [apply decl_const, B|intros (r & [] & _)]].
    intros k' [<-|[]] Hs Hl. specialize (C Hs Hl). destruct k; auto.
  - destruct (rs_lexes m (firstn (f_dimY r) (f_rs r)) Hm Hr) as (t & u & A & B & C). exists t, u. split; [exact A|]. split; [exact B|]. rewrite C. apply rs_reads.
  - rewrite export_sum. generalize true. induction IH as [|f fs Hf _ IH]; intros first.
    + exists "", []. split; [reflexivity|]. split; [apply lexes_nil|]. apply reads_empty; [reflexivity|reflexivity|apply tidy_nil].
    + rewrite plugins_cons, in_app_iff in Hk. rewrite rationals_cons, Forall_app in Hr.
      destruct Hf as (ta & ua & Ea & La & Ra); [tauto|tauto|]. destruct (IH ltac:(tauto) ltac:(tauto) false) as (tt' & ut & Et & Lt & Rt).
      cbn [esum_text]. rewrite Ea. cbn [bind]. rewrite Et. cbn [bind].
      exists ((if first || negb (joins m) then "" else tb ++ "res += ") ++ ta ++ (if joins m then ";" ++ endl else "") ++ tt'),
        ((if first || negb (joins m) then [] else [Id "res"; P PlusEq]) ++ ua ++ (if joins m then [P Semi] else []) ++ ut ++ [])%list.
      split; [reflexivity|]. split.
      * apply lexes_app; [destruct (first || negb (joins m)); intros ts; reflexivity|]. apply lexes_app; [exact La|]. apply lexes_app; [destruct (joins m); intros ts; reflexivity|]. rewrite app_nil_r. exact Lt.
      * rewrite !map_app. apply (reads_join f (ESum fs)); auto; try apply calm_tidy.
        -- destruct (first || negb (joins m)); reflexivity.
        -- destruct (joins m); reflexivity.
        -- reflexivity.
  - cbn [plugins rationals] in Hk, Hr. rewrite in_app_iff in Hk. rewrite Forall_app in Hr. destruct IHf as (ta & ua & Ea & La & Ra); [tauto|tauto|]. destruct IHg as (tg & ug & Eg & Lg & Rg); [tauto|tauto|].
    cbn [export_call]. rewrite Ea. cbn [bind]. rewrite Eg. cbn [bind].
    exists (if joins m then "(" ++ ta ++ " * " ++ tg ++ ")" ++ endl else ta ++ tg), ((if joins m then [P LPar] else []) ++ ua ++ (if joins m then [P Star] else []) ++ ug ++ (if joins m then [P RPar] else []))%list.
    split; [reflexivity|]. split.
    + destruct (joins m).
      * apply lexes_app; [intros ts; reflexivity|]. apply lexes_app; [exact La|]. apply lexes_app; [intros ts; reflexivity|]. apply lexes_app; [exact Lg|]. intros ts; reflexivity.
      * cbn [app]. rewrite app_nil_r. apply lexes_app; assumption.
    + rewrite !map_app. apply (reads_join f g); auto; try (apply calm_tidy; destruct (joins m); reflexivity).
Qed.

(** ** the text before the preamble *)
Fixpoint blank (s : string) : bool := match s with "" => true | String c t => is_space c && blank t end.
Lemma skip_blank a b : blank a = true -> skip_blanks (a ++ b) = skip_blanks b.
Proof. induction a as [|c a IH]; intros H; [reflexivity|]. cbn [blank] in H. apply andb_prop in H. destruct H as (A & B). cbn [append skip_blanks]. rewrite A. apply IH, B. Qed.
Lemma blank_app a b : blank (a ++ b) = blank a && blank b.
Proof. induction a as [|c a IH]; [reflexivity|]. cbn [append blank]. rewrite IH. destruct (is_space c); reflexivity. Qed.
Definition is_laf (k : kind) : bool := match k with KLaf _ => true | _ => false end.
Definition starts_v (s : string) : Prop := exists w t, s = w ++ String "v" t /\ blank w = true.
Lemma starts_l a b : starts_v a -> starts_v (a ++ b).
Proof. intros (w & t & -> & H). exists w, (t ++ b). rewrite app_assoc_s. auto. Qed.
Lemma starts_r a b : blank a = true -> starts_v b -> starts_v (a ++ b).
Proof. intros Ha (w & t & -> & H). exists (a ++ w), t. rewrite app_assoc_s, blank_app, Ha. auto. Qed.
Lemma body_start f b : export_body print f = Ok b -> if existsb is_laf (plugins f) then starts_v b else blank b = true.
Proof.
  revert b. induction f as [k p|r|fs IH|f g IHf IHg] using efun_all; intros b H.
  - destruct k; cbn [export_body leaf_body plugins existsb is_laf orb] in *; try (injection H as <-; reflexivity).
    apply Ok_inj in H. subst b. exists "". eexists. split; [reflexivity|reflexivity].
  - injection H as <-. reflexivity.
  - revert b H. induction IH as [|f fs Hf _ IH]; intros b H; [injection H as <-; reflexivity|]. rewrite plugins_cons, existsb_app.
    change (export_body print (ESum (f :: fs))) with (do a <- export_body print f; do b <- export_body print (ESum fs); Ok (a ++ endl ++ b)) in H.
    destruct (export_body print f) as [a| | |]; try discriminate. destruct (export_body print (ESum fs)) as [c| | |]; try discriminate. cbn [bind] in H. apply Ok_inj in H. subst b.
    specialize (Hf a eq_refl). specialize (IH c eq_refl). destruct (existsb is_laf (plugins f)); cbn [orb]; [apply starts_l, Hf|].
    destruct (existsb is_laf (plugins (ESum fs))); [apply starts_r; [exact Hf|apply starts_r; [reflexivity|exact IH]]|]. rewrite !blank_app, Hf, IH. reflexivity.
  - cbn [export_body plugins] in *. rewrite existsb_app. destruct (export_body print f) as [a| | |]; try discriminate. destruct (export_body print g) as [c| | |]; try discriminate. cbn [bind] in H. apply Ok_inj in H. subst b.
    specialize (IHf a eq_refl). specialize (IHg c eq_refl). destruct (existsb is_laf (plugins f)); cbn [orb]; [apply starts_l, IHf|].
    destruct (existsb is_laf (plugins g)); [apply starts_r; [exact IHf|apply starts_r; [reflexivity|apply starts_l, IHg]]|]. rewrite !blank_app, IHf, IHg. reflexivity.
Qed.
Lemma cpp_body_blank b t : blank b = true -> cpp_body (b ++ t) = cpp_body t.
Proof. intros H. unfold cpp_body. rewrite skip_blank by exact H. reflexivity. Qed.
Lemma cpp_body_v t : starts_v t -> cpp_body t = None.
Proof. intros (w & s & -> & H). unfold cpp_body. rewrite skip_blank by exact H. reflexivity. Qed.
Lemma export_text m f text : m <> FMatlab -> export print nY m f = Ok text ->
  exists b c, export_body print f = Ok b /\ export_call print nY m f = Ok c /\ text = b ++ frame_text nY c.
Proof.
  intros Hm H. unfold export in H. destruct (export_body print f) as [b| | |]; try discriminate. destruct (export_call print nY m f) as [c| | |]; try discriminate. cbn [bind] in H.
  exists b, c. split; [reflexivity|]. split; [reflexivity|]. destruct m; try congruence; injection H as <-; reflexivity.
Qed.

(** ** parentheses *)
Lemma cpp_balance ts : tbalance (map cpp_tok ts) = tbalance ts.
Proof.
  induction ts as [|t ts IH]; [reflexivity|]. cbn [map tbalance]. rewrite IH. f_equal. destruct t as [x| |]; try reflexivity. cbn [cpp_tok].
  destruct (String.eqb x "double"); [reflexivity|]. destruct (String.eqb x "vec"); [reflexivity|]. destruct (String.eqb x "vec3"); reflexivity.
Qed.
Lemma digits_str_balance u : balance (string_of_list_ascii (uint_str u)) = 0%Z.
Proof. induction u; cbn; auto. Qed.
Lemma nat_balance n : balance (nat_text n) = 0%Z. Proof. apply digits_str_balance. Qed.
Lemma body_balanced c n body : cpp_body (frame_text nY c) = Some (n, body) -> balance c = 0%Z.
Proof.
  unfold cpp_body. rewrite frame_rest. set (rest := line ("vec res(" ++ nat_text nY ++ ");") ++ c ++ line "return res;" ++ "}" ++ endl ++ endl).
  assert (B : balance rest = balance c). { unfold rest, line. rewrite !balance_app, nat_balance. 
    change (balance tb) with 0%Z. change (balance "vec res(") with 1%Z. change (balance ");") with (-1)%Z. change (balance endl) with 0%Z. change (balance "return res;") with 0%Z. change (balance "}") with 0%Z. lia. }
  destruct (tokens rest) as [ts|] eqn:T; [|discriminate]. apply tokens_balance in T. rewrite B in T.
  destruct ts as [|[v| |] [|[w| |] [|[| |p1] [|[|m [|e|e]|] [|[| |p2] [|[| |p3] ts]]]]]]; try discriminate; try (destruct p1; discriminate).
  all: try (destruct p1; try discriminate; destruct p2; discriminate).
  destruct p1; try discriminate. destruct p2; try discriminate. destruct p3; try discriminate.
  destruct (String.eqb v "vec" && String.eqb w "res"); [|discriminate].
  destruct (steps _ (map cpp_tok ts)) as [[[|f [|]] [|] m9]|] eqn:E; try discriminate; destruct m9; try discriminate; intros _.
  apply steps_depth in E. rewrite cpp_balance in E. cbn [p_mode depth] in E. cbn [tbalance par_tok] in T. lia.
Qed.
Lemma terms_balance dim cs : forall t, cpp_terms print dim cs = Ok t -> balance t = 0%Z.
Proof using Hprint HnY.
  induction cs as [|c cs IH]; intros t H; [injection H as <-; reflexivity|]. cbn [cpp_terms] in H. destruct (length (co_deg c) <? dim)%nat; [discriminate|].
  destruct (cpp_terms print dim cs) as [u| | |]; try discriminate. cbn [bind] in H. apply Ok_inj in H. subst t.
  assert (F : forall degs k, balance (cpp_factors k degs) = 0%Z).
  { induction degs as [|d t IHd]; intros k; [reflexivity|]. cbn [cpp_factors]. rewrite !balance_app, !nat_balance, IHd. reflexivity. }
  rewrite !balance_app, (print_balance print shown Hprint), F, (IH u eq_refl). destruct cs; reflexivity.
Qed.
Lemma channels_balance m rs : m <> FMatlab -> forall t, channels print m rs = Ok t -> balance t = 0%Z.
Proof using Hprint HnY.
  intros Hm. induction rs as [|[r|] rs IH]; intros t H; [injection H as <-; reflexivity| |apply IH, H]. cbn [channels] in H.
  assert (E : (match m with FMatlab => matlab_1d print r | _ => cpp_1d print r end) = cpp_1d print r) by (destruct m; congruence). rewrite E in H. unfold cpp_1d in H.
  destruct (cpp_terms print (r_dim r) (r_p r)) as [a| | |] eqn:Ea; try discriminate. destruct (cpp_terms print (r_dim r) (r_q r)) as [b| | |] eqn:Eb; try discriminate. cbn [bind] in H.
  destruct (channels print m rs) as [u| | |]; try discriminate. cbn [bind] in H. apply Ok_inj in H. subst t. unfold line.
  rewrite !balance_app, (terms_balance _ _ a Ea), (terms_balance _ _ b Eb), (IH u eq_refl). reflexivity.
Qed.
Lemma call_masks m f : m <> FMatlab -> forall c, export_call print nY m f = Ok c -> balance c = (- masks (plugins f))%Z.
Proof using Hprint HnY.
  intros Hm. induction f as [k p|r|fs IH|f g IHf IHg] using efun_all; intros c H.
  - injection H as <-. apply (leaf_call_balance print shown Hprint).
  - cbn [plugins]. apply (channels_balance m _ Hm) in H. rewrite H. reflexivity.
  - revert c H. rewrite export_sum. generalize true. induction IH as [|f fs Hf _ IH]; intros first c H; [injection H as <-; reflexivity|].
    cbn [esum_text] in H. destruct (export_call print nY m f) as [a| | |]; try discriminate. cbn [bind] in H. destruct (esum_text m false fs) as [d| | |] eqn:E; try discriminate. cbn [bind] in H.
    apply Ok_inj in H. subst c. rewrite plugins_cons, masks_app, !balance_app, (Hf a eq_refl), (IH false d E).
    destruct (first || negb (joins m)), (joins m); rewrite ?balance_app; change (balance tb) with 0%Z; change (balance "res += ") with 0%Z; change (balance ";") with 0%Z; change (balance endl) with 0%Z; change (balance "") with 0%Z; lia.
  - cbn [export_call] in H. destruct (export_call print nY m f) as [a| | |]; try discriminate. destruct (export_call print nY m g) as [b| | |]; try discriminate. cbn [bind] in H.
    apply Ok_inj in H. subst c. cbn [plugins]. rewrite masks_app. specialize (IHf a eq_refl). specialize (IHg b eq_refl).
    destruct (joins m); rewrite !balance_app, IHf, IHg; change (balance "(") with 1%Z; change (balance " * ") with 0%Z; change (balance ")") with (-1)%Z; change (balance endl) with 0%Z; lia.
Qed.

(** ** trees that are no programs *)
Lemma final_shape f ss : shape (mkP [f] [] MTop) ss -> ss = rev (fn_body f).
Proof. intros H. inversion H; subst; reflexivity. Qed.
Lemma decls_rev z l : decls z (rev l) = decls z l.
Proof. unfold decls. rewrite map_rev. induction (map (is_decl z) l) as [|a t IH]; [reflexivity|]. cbn [rev]. rewrite list_sum_app, IH. unfold list_sum. cbn [fold_right]. lia. Qed.
Lemma start_shape : shape start []. Proof. constructor. exact I. Qed.
Lemma tree_bad m f text : m <> FMatlab -> Forall rf1_ok (rationals f) -> export print nY m f = Ok text ->
  (exists k, In k (plugins f) /\ ~ silent k) \/ (2 <= length (rationals f))%nat \/ (exists r, In r (rationals f) /\ (r_p r = [] \/ r_q r = [])) ->
  ~ well_formed text.
Proof using Hprint HnY.
  intros Hm Hr He Hbad (n & body & Hb & Hn). destruct (export_text m f text Hm He) as (b & c & Eb & Ec & ->). apply body_start in Eb.
  destruct (existsb is_laf (plugins f)) eqn:Laf; [rewrite (cpp_body_v _ (starts_l _ _ Eb)) in Hb; discriminate|]. rewrite cpp_body_blank in Hb by exact Eb.
  assert (NM : ~ In KMasking (plugins f)).
  { intros K. pose proof (body_balanced _ _ _ Hb) as B. rewrite (call_masks m f Hm c Ec) in B. apply in_split in K. destruct K as (u & v & K). rewrite K, masks_app in B. unfold masks in B. cbn [filter length] in B. lia. }
  destruct (tree_reads m f Hm NM Hr) as (t & u & Et & Lt & Rt). rewrite Et in Ec. apply Ok_inj in Ec. subst t. rewrite (cpp_body_frame nY c u Lt) in Hb.
  destruct Rt as (R1 & R2 & R3 & R4).
  destruct (steps start (map cpp_tok u ++ last_toks)%list) as [[[|fn [|]] [|] m9]|] eqn:E; try discriminate; destruct m9; try discriminate. injection Hb as <- <-.
  destruct Hbad as [(k & Hk & Hs)|[Hl|He']].
  - assert (Nl : forall n, k <> KLaf n). { intros n ->. rewrite <- Bool.not_true_iff_false, existsb_exists in Laf. apply Laf. exists (KLaf n). auto. }
    assert (L : tidy last_toks) by (apply calm_tidy; reflexivity). pose proof (tidy_app _ _ R1 L) as (G1 & G2 & _).
    assert (Z : forall z, type_of_name z = None -> keyword z = false -> guarded z true (map cpp_tok u ++ last_toks)%list -> ~ In z ["brdf"; "x"; "res"; "pow"] -> In (Id z) (map cpp_tok u) -> False).
    { intros z T K G N I0. destruct (steps_names z T K _ true start [] _ G (fun _ => I) start_shape E) as (ss & S & M & D). apply final_shape in S. subst ss.
      cbn [p_mode mode_decl decls map list_sum fold_right start] in D. rewrite decls_rev in D. destruct M as [[]|(s & H1 & H2)]; [right; apply in_or_app; left; exact I0|].
      apply in_rev in H1. apply (names_uses z (fn_body fn) _ Hn N) with (s := s); [cbn in D; lia|exact H1|exact H2]. }
    destruct (R2 k Hk Hs Nl) as [I0|I0]; [apply (Z "L")|apply (Z nd)]; try assumption; try reflexivity; cbn; intuition discriminate.
  - assert (L : tidy last_toks) by (apply calm_tidy; reflexivity).
    destruct (decl_app _ _ _ _ R3 (decl_const _ L) start [] _ start_shape I E) as (ss & S & _ & D). apply final_shape in S. subst ss. cbn [p_mode mode_decl start] in D. rewrite decls_rev in D.
    pose proof (proj1 (names_once "num" _ _ Hn)). cbn in D. lia.
  - rewrite (steps_none _ last_toks (R4 He')) in E. discriminate.
Qed.
End Num.

(** Proofs for the C++ export: tokens and syntax of the text of a rational function. *)
From Coq Require Import Reals List Lia Lra Decimal DecimalN.
From Verif Require Import Base Num DataModel NlModel NlMoreModel Glsl GlslModel GlslSpec GlslLex GlslParse RatModel Cpp CppModel.
Open Scope R_scope.
Open Scope string_scope.

(** ** integers *)
Fixpoint uint_acc (m : Z) (u : uint) : Z :=
  match u with
  | Nil => m
  | D0 t => uint_acc (10 * m + 0) t | D1 t => uint_acc (10 * m + 1) t | D2 t => uint_acc (10 * m + 2) t | D3 t => uint_acc (10 * m + 3) t
  | D4 t => uint_acc (10 * m + 4) t | D5 t => uint_acc (10 * m + 5) t | D6 t => uint_acc (10 * m + 6) t | D7 t => uint_acc (10 * m + 7) t
  | D8 t => uint_acc (10 * m + 8) t | D9 t => uint_acc (10 * m + 9) t end.
Lemma uint_acc_pos u : forall p, uint_acc (Zpos p) u = Zpos (Pos.of_uint_acc u p).
Proof. induction u as [|u IH|u IH|u IH|u IH|u IH|u IH|u IH|u IH|u IH|u IH]; intros p; cbn [uint_acc Pos.of_uint_acc]; [reflexivity|..]; rewrite <- IH; f_equal; lia. Qed.
Lemma uint_acc_0 u : uint_acc 0 u = Z.of_N (N.of_uint u).
Proof.
  unfold N.of_uint. induction u as [|u IH|u IH|u IH|u IH|u IH|u IH|u IH|u IH|u IH|u IH]; cbn [uint_acc Pos.of_uint]; [reflexivity|exact IH|..];
  apply uint_acc_pos.
Qed.
Lemma lex_uint u : forall ts m, lex_from (ts, CNum (NInt m)) (string_of_list_ascii (uint_str u)) = Some (ts, CNum (NInt (uint_acc m u))).
Proof.
  induction u as [|u IH|u IH|u IH|u IH|u IH|u IH|u IH|u IH|u IH|u IH]; intros ts m; cbn [uint_str string_of_list_ascii lex_from uint_acc]; [reflexivity|..];
  match goal with |- match lex_char ?s ?c with _ => _ end = Some (_, CNum (NInt (uint_acc ?z _))) =>
    replace (lex_char s c) with (Some (ts, CNum (NInt z))); [apply IH|reflexivity] end.
Qed.
Lemma lex_nat n ts : lex_from (ts, CNone) (nat_text n) = Some (ts, CNum (NInt (Z.of_nat n))).
Proof.
  unfold nat_text, print_nat, print_N.
  assert (E : uint_acc 0 (N.to_uint (N.of_nat n)) = Z.of_nat n). { rewrite uint_acc_0, Unsigned.of_to. apply nat_N_Z. }
  rewrite <- E. pose proof (N_to_uint_nonnil (N.of_nat n)) as Hn.
  destruct (N.to_uint (N.of_nat n)) as [|u|u|u|u|u|u|u|u|u|u]; [congruence|..]; cbn [uint_str string_of_list_ascii lex_from uint_acc];
  match goal with |- match lex_char ?s ?c with _ => _ end = Some (_, CNum (NInt (uint_acc ?z _))) =>
    replace (lex_char s c) with (Some (ts, CNum (NInt z))); [apply lex_uint|reflexivity] end.
Qed.
Lemma ends_rbrack : ends "]". Proof. split; [intros []; reflexivity|reflexivity]. Qed.
Lemma lexes_nat n c s t : ends c -> lexes (String c s) t -> lexes (nat_text n ++ String c s) (Glsl.Num (Z.of_nat n) 0 :: t).
Proof.
  intros Hc Hs ts. rewrite lex_app, lex_nat. specialize (Hs (Glsl.Num (Z.of_nat n) 0 :: ts)). cbn [lex_from] in Hs |- *.
  assert (Q : lex_char (ts, CNum (NInt (Z.of_nat n))) c = lex_char (Glsl.Num (Z.of_nat n) 0 :: ts, CNone) c).
  { unfold lex_char. cbn [fst snd]. rewrite (proj1 Hc), (proj2 Hc). reflexivity. }
  rewrite Q, Hs. cbn [rev]. rewrite <- app_assoc. reflexivity.
Qed.
Lemma lexes_const s : lexes s (toks_of s) -> forall b u, lexes b u -> lexes (s ++ b) (toks_of s ++ u)%list.
Proof. intros H b u. apply lexes_app, H. Qed.

(** ** terms *)
Fixpoint factor_toks (k : nat) (degs : list nat) : list tok :=
  match degs with
  | [] => []
  | d :: t => (P Star :: Id "pow" :: P LPar :: Id "x" :: P LBrack :: Glsl.Num (Z.of_nat k) 0 :: P RBrack :: P Comma :: Glsl.Num (Z.of_nat d) 0 :: P RPar :: factor_toks (S k) t)%list
  end.
Lemma lexes_factors degs : forall k s u, lexes s u -> lexes (cpp_factors k degs ++ s) (factor_toks k degs ++ u)%list.
Proof.
  induction degs as [|d t IH]; intros k s u Hs; [exact Hs|]. cbn [cpp_factors factor_toks].
  rewrite !app_assoc_s. change (factor_toks k (d :: t)) with ([P Star; Id "pow"; P LPar; Id "x"; P LBrack] ++ (Glsl.Num (Z.of_nat k) 0 :: P RBrack :: P Comma :: Glsl.Num (Z.of_nat d) 0 :: P RPar :: factor_toks (S k) t))%list.
  cbn [app]. apply (lexes_app "*pow(x[" _ [P Star; Id "pow"; P LPar; Id "x"; P LBrack]); [intros ts; reflexivity|].
  change ("], " ++ (nat_text d ++ (")" ++ (cpp_factors (S k) t ++ s)))) with (String "]" (", " ++ (nat_text d ++ (")" ++ (cpp_factors (S k) t ++ s))))).
  apply lexes_nat; [exact ends_rbrack|].
  change (String "]" (", " ++ (nat_text d ++ (")" ++ (cpp_factors (S k) t ++ s))))) with ("], " ++ (nat_text d ++ String ")" (cpp_factors (S k) t ++ s))).
  apply (lexes_app "], " _ [P RBrack; P Comma]); [intros ts; reflexivity|].
  apply lexes_nat; [exact ends_rpar|].
  change (String ")" (cpp_factors (S k) t ++ s)) with (")" ++ (cpp_factors (S k) t ++ s)).
  apply (lexes_app ")" _ [P RPar]); [intros ts; reflexivity|]. apply IH, Hs.
Qed.
Section Terms.
Variables (print : R -> string) (shown : R -> R).
Hypothesis Hprint : prints print shown.
Notation num := (num_ast print).
Definition term_toks (c : coeff) : list tok := (num_toks print (co_a c) ++ factor_toks 0 (co_deg c))%list.
Fixpoint terms_toks (cs : list coeff) : list tok :=
  match cs with [] => [] | [c] => term_toks c | c :: t => (term_toks c ++ P Plus :: terms_toks t)%list end.
Lemma lexes_term c s u ch : ends ch -> lexes (String ch s) u -> lexes (print (co_a c) ++ (cpp_factors 0 (co_deg c) ++ String ch s)) (term_toks c ++ u)%list.
Proof.
  intros Hc Hs. unfold term_toks. rewrite <- app_assoc. destruct (co_deg c) as [|d t] eqn:E.
  - cbn [cpp_factors factor_toks app append]. apply (lexes_num print shown Hprint); assumption.
  - assert (H : lexes (cpp_factors 0 (d :: t) ++ String ch s) (factor_toks 0 (d :: t) ++ u)%list) by (apply lexes_factors, Hs).
    change (cpp_factors 0 (d :: t) ++ String ch s) with (String "*" (("pow(x[" ++ nat_text 0 ++ "], " ++ nat_text d ++ ")" ++ cpp_factors 1 t) ++ String ch s)) in *.
    apply (lexes_num print shown Hprint); [exact ends_star|exact H].
Qed.
(** the terms, with the text [s] after them *)
Lemma lexes_terms dim cs : Forall (fun c => length (co_deg c) = dim) cs ->
  exists text, cpp_terms print dim cs = Ok text /\ forall s u ch, ends ch -> lexes (String ch s) u -> lexes (text ++ String ch s) (terms_toks cs ++ u)%list.
Proof.
  induction cs as [|c t IH]; intros Hd; [exists ""; split; [reflexivity|]; intros s u ch _ Hs; exact Hs|]. inversion Hd as [|? ? Hc Ht]; subst. cbn [cpp_terms]. rewrite Nat.ltb_irrefl, firstn_all.
  destruct t as [|c2 t].
  - cbn [cpp_terms terms_toks]. eexists. split; [reflexivity|]. intros s u ch He Hs. rewrite !app_assoc_s. cbn [append]. apply lexes_term; assumption.
  - destruct (IH Ht) as (text & -> & H). eexists. split; [reflexivity|]. intros s u ch He Hs.
    change (terms_toks (c :: c2 :: t)) with (term_toks c ++ P Plus :: terms_toks (c2 :: t))%list. rewrite !app_assoc_s, <- app_assoc.
    change (" + " ++ (text ++ String ch s)) with (String " " ("+ " ++ (text ++ String ch s))). apply lexes_term; [exact ends_space|].
    change (String " " ("+ " ++ (text ++ String ch s))) with (" + " ++ (text ++ String ch s)).
    apply (lexes_app " + " _ [P Plus]); [intros ts; reflexivity|]. apply H; assumption.
Qed.

(** ** their syntax *)
Definition pow_ast (k d : nat) : expr := ECall "pow" [EIndex (EVar "x") (ENum (Z.of_nat k) 0); ENum (Z.of_nat d) 0].
Fixpoint factors_ast (e : expr) (k : nat) (degs : list nat) : expr :=
  match degs with [] => e | d :: t => factors_ast (EBin BMul e (pow_ast k d)) (S k) t end.
Definition term_ast (c : coeff) : expr := factors_ast (num (co_a c)) 0 (co_deg c).
Definition sum_frame (fr : list frame) : Prop := fr = [] \/ exists a, fr = [FBin BAdd a].
Lemma reduce_sum e fr : sum_frame fr -> reduce 3 e fr = (e, fr).
Proof. intros [-> | (a & ->)]; reflexivity. Qed.
Lemma step_product fs b a e fr c p : sum_frame fr -> p = Plus \/ p = Semi \/ p = Star ->
  step (mkP fs b (MHave e (FBin BMul a :: fr) c)) (P p) = step (mkP fs b (MHave (EBin BMul a e) fr c)) (P p).
Proof. intros [-> | (x & ->)] [->|[->| ->]]; reflexivity. Qed.
Lemma steps_factors fs b fr c p ts : sum_frame fr -> p = Plus \/ p = Semi -> forall degs k e,
  steps (mkP fs b (MHave e fr c)) (factor_toks k degs ++ P p :: ts)%list = steps (mkP fs b (MHave (factors_ast e k degs) fr c)) (P p :: ts).
Proof.
  intros Hf Hp. induction degs as [|d t IH]; intros k e; [reflexivity|]. cbn [factor_toks app factors_ast]. rewrite <- IH.
  assert (E : step (mkP fs b (MHave e fr c)) (P Star) = Some (mkP fs b (MExpect (FBin BMul e :: fr) c))).
  { destruct Hf as [-> | (a & ->)]; reflexivity. }
  cbn [steps]. rewrite E.
  transitivity (steps (mkP fs b (MHave (pow_ast k d) (FBin BMul e :: fr) c)) (factor_toks (S k) t ++ P p :: ts)%list); [reflexivity|].
  destruct t as [|d2 t]; cbn [factor_toks app steps].
  - rewrite step_product by tauto. reflexivity.
  - rewrite step_product by tauto. reflexivity.
Qed.
Lemma cpp_num r : map cpp_tok (num_toks print r) = num_toks print r.
Proof. destruct (num_toks_cases print shown Hprint r) as [(m & e & -> & _)|(m & e & -> & _)]; reflexivity. Qed.
Lemma cpp_factors_toks degs : forall k, map cpp_tok (factor_toks k degs) = factor_toks k degs.
Proof. induction degs as [|d t IH]; intros k; [reflexivity|]. cbn [factor_toks map]. rewrite IH. reflexivity. Qed.
Lemma cpp_term c : map cpp_tok (term_toks c) = term_toks c.
Proof. unfold term_toks. rewrite map_app, cpp_num, cpp_factors_toks. reflexivity. Qed.
Lemma cpp_terms_toks cs : map cpp_tok (terms_toks cs) = terms_toks cs.
Proof.
  induction cs as [|c t IH]; [reflexivity|]. destruct t as [|c2 t]; [apply cpp_term|].
  change (terms_toks (c :: c2 :: t)) with (term_toks c ++ P Plus :: terms_toks (c2 :: t))%list. rewrite map_app, cpp_term. cbn [map]. rewrite IH. reflexivity.
Qed.
Lemma steps_term fs b fr c p ts co : sum_frame fr -> p = Plus \/ p = Semi ->
  steps (mkP fs b (MExpect fr c)) (term_toks co ++ P p :: ts)%list = steps (mkP fs b (MHave (term_ast co) fr c)) (P p :: ts).
Proof.
  intros Hf Hp. unfold term_toks, term_ast. rewrite <- app_assoc. destruct (co_deg co) as [|d t].
  - cbn [factor_toks app factors_ast]. apply (steps_num print shown Hprint). destruct Hp as [-> | ->]; reflexivity.
  - cbn [factor_toks app]. rewrite (steps_num print shown Hprint) by reflexivity. rewrite <- (steps_factors fs b fr c p ts Hf Hp (d :: t) 0%nat). reflexivity.
Qed.
Definition poly_ast (cs : list coeff) : expr := match cs with [] => EVar "" | c :: t => fold_left (fun e c => EBin BAdd e (term_ast c)) t (term_ast c) end.
Lemma steps_more fs b c ts cs : forall e, cs <> [] ->
  steps (mkP fs b (MExpect [FBin BAdd e] c)) (terms_toks cs ++ P Semi :: ts)%list =
  steps (mkP fs b (MHave (fold_left (fun e c => EBin BAdd e (term_ast c)) cs e) [] c)) (P Semi :: ts).
Proof.
  induction cs as [|co t IH]; intros e Hn; [congruence|]. destruct t as [|c2 t].
  - cbn [terms_toks]. rewrite steps_term by (try (right; eexists; reflexivity); auto). cbn [fold_left]. reflexivity.
  - change (terms_toks (co :: c2 :: t)) with (term_toks co ++ P Plus :: terms_toks (c2 :: t))%list. rewrite <- app_assoc. cbn [app].
    rewrite steps_term by (try (right; eexists; reflexivity); auto).
    change (steps (mkP fs b (MHave (term_ast co) [FBin BAdd e] c)) (P Plus :: (terms_toks (c2 :: t) ++ P Semi :: ts)%list))
      with (steps (mkP fs b (MExpect [FBin BAdd (EBin BAdd e (term_ast co))] c)) (terms_toks (c2 :: t) ++ P Semi :: ts)%list).
    rewrite IH by discriminate. reflexivity.
Qed.
Lemma steps_terms fs b c ts cs : cs <> [] ->
  steps (mkP fs b (MExpect [] c)) (terms_toks cs ++ P Semi :: ts)%list = steps (mkP fs b (MHave (poly_ast cs) [] c)) (P Semi :: ts).
Proof.
  intros Hn. destruct cs as [|co t]; [congruence|]. destruct t as [|c2 t].
  - cbn [terms_toks poly_ast fold_left]. apply steps_term; [left; reflexivity|auto].
  - change (terms_toks (co :: c2 :: t)) with (term_toks co ++ P Plus :: terms_toks (c2 :: t))%list. rewrite <- app_assoc. cbn [app].
    rewrite steps_term by (try (left; reflexivity); auto).
    change (steps (mkP fs b (MHave (term_ast co) [] c)) (P Plus :: (terms_toks (c2 :: t) ++ P Semi :: ts)%list))
      with (steps (mkP fs b (MExpect [FBin BAdd (term_ast co)] c)) (terms_toks (c2 :: t) ++ P Semi :: ts)%list).
    rewrite steps_more by discriminate. reflexivity.
Qed.

(** ** one channel *)
Definition rf1_ok (r : rf1) : Prop := Forall (fun c => length (co_deg c) = r_dim r) (r_p r) /\ Forall (fun c => length (co_deg c) = r_dim r) (r_q r).
Definition channel_toks (r : rf1) : list tok :=
  (toks_of "double num =" ++ terms_toks (r_p r) ++ P Semi :: toks_of "double den =" ++ terms_toks (r_q r) ++ P Semi :: toks_of "res[0] = num / den;")%list.
Lemma lexes_channel r : rf1_ok r -> exists text, cpp_1d print r = Ok text /\ lexes text (channel_toks r).
Proof.
  intros (Hp & Hq). destruct (lexes_terms _ _ Hp) as (tp & Ep & Lp). destruct (lexes_terms _ _ Hq) as (tq & Eq & Lq).
  unfold cpp_1d. rewrite Ep. cbn [bind]. rewrite Eq. eexists. split; [reflexivity|]. unfold line, channel_toks. rewrite !app_assoc_s.
  rewrite <- (app_assoc_s tb "double num = "). apply (lexes_app (tb ++ "double num = ") _ (toks_of "double num =")); [intros ts; reflexivity|].
  change (";" ++ ?x) with (String ";" x). apply Lp; [exact ends_semi|].
  match goal with |- lexes (String ";" (endl ++ (tb ++ ("double den = " ++ ?x)))) _ => change (String ";" (endl ++ (tb ++ ("double den = " ++ x)))) with ((";" ++ endl ++ tb ++ "double den = ") ++ x) end.
  apply (lexes_app (";" ++ endl ++ tb ++ "double den = ") _ (P Semi :: toks_of "double den =")); [intros ts; reflexivity|].
  change (";" ++ ?x) with (String ";" x). apply Lq; [exact ends_semi|]. intros ts. reflexivity.
Qed.
Definition channel_stmts (r : rf1) : list stmt :=
  [SDecl TFloat "num" (Some (poly_ast (r_p r))); SDecl TFloat "den" (Some (poly_ast (r_q r)));
   SAssign (EIndex (EVar "res") (ENum 0 0)) (EBin BDiv (EVar "num") (EVar "den"))].
Lemma steps_channel fs t f ps ss bl ts r : r_p r <> [] -> r_q r <> [] ->
  steps (mkP fs (BFun t f ps ss :: bl) MStmt) (map cpp_tok (channel_toks r) ++ ts)%list = steps (mkP fs (BFun t f ps (rev (channel_stmts r) ++ ss) :: bl)%list MStmt) ts.
Proof.
  intros Np Nq. unfold channel_toks. rewrite !map_app. cbn [map]. rewrite !map_app, !cpp_terms_toks. cbn [map]. rewrite <- !app_assoc.
  change (map cpp_tok (toks_of "double num =")) with [Id "float"; Id "num"; P Eq]. change (map cpp_tok (toks_of "double den =")) with [Id "float"; Id "den"; P Eq].
  cbn [app]. rewrite <- !app_assoc.
  match goal with |- steps _ (Id "float" :: Id "num" :: P Eq :: ?l) = _ =>
    transitivity (steps (mkP fs (BFun t f ps ss :: bl) (MExpect [] (XInit TFloat "num"))) l); [reflexivity|] end.
  cbn [app]. rewrite steps_terms by assumption.
  match goal with |- steps _ (P Semi :: Id "float" :: Id "den" :: P Eq :: ?l) = _ =>
    transitivity (steps (mkP fs (BFun t f ps (SDecl TFloat "num" (Some (poly_ast (r_p r))) :: ss) :: bl) (MExpect [] (XInit TFloat "den"))) l); [reflexivity|] end.
  cbn [app]. rewrite steps_terms by assumption. reflexivity.
Qed.
End Terms.

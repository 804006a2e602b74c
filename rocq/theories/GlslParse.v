(** Proofs for the shader export: the text parses, and as what. *)
From Coq Require Import Reals List Lia Lra.
From Verif Require Import Base NlModel NlMoreModel Glsl GlslModel GlslSpec GlslLex.
Open Scope R_scope.
Open Scope string_scope.

Lemma steps_app a : forall s b, steps s (a ++ b)%list = match steps s a with Some s' => steps s' b | None => None end.
Proof. induction a as [|t a IH]; intros s b; [reflexivity|]. cbn. destruct (step s t); [apply IH|reflexivity]. Qed.

(** reading [text] takes the parser from one state to another *)
Definition feeds (text : string) (p q : pst) : Prop := exists ts, lexes text ts /\ steps p ts = Some q.
Lemma feeds_nil p : feeds "" p p.
Proof. exists []. split; [apply lexes_nil|reflexivity]. Qed.
Lemma feeds_app a b p q r : feeds a p q -> feeds b q r -> feeds (a ++ b) p r.
Proof. intros (t & A & B) (u & C & D). exists (t ++ u)%list. split; [apply lexes_app; assumption|]. rewrite steps_app, B. assumption. Qed.
Lemma feeds_program text fs : feeds text (mkP [] [] MTop) (mkP fs [] MTop) -> program text = Some (rev fs).
Proof. intros (t & A & B). unfold program, parse. rewrite (lexes_tokens _ _ A), B. reflexivity. Qed.

(** constant text *)
Definition toks_of (s : string) : list tok := match tokens s with Some t => t | None => [] end.
Lemma feeds_const s p q : lexes s (toks_of s) -> steps p (toks_of s) = Some q -> feeds s p q.
Proof. intros A B. exists (toks_of s). auto. Qed.

(** ** texts on which the parser gives up *)
Lemma lex_char_grows st c st' : lex_char st c = Some st' -> exists u, fst st' = (u ++ fst st)%list.
Proof.
  destruct st as [ts cu]. assert (S : forall ts c st', lex_start ts c = Some st' -> exists u, fst st' = (u ++ ts)%list).
  { clear. intros ts c st'. unfold lex_start. destruct (digit c); [intros [= <-]; exists []; reflexivity|].
    destruct (letter c); [intros [= <-]; exists []; reflexivity|]. destruct (is_space c); [intros [= <-]; exists []; reflexivity|].
    destruct (single c) as [p|]; [|discriminate]. destruct (extends p); intros [= <-]; [exists []|exists [P p]]; reflexivity. }
  unfold lex_char. cbn [fst snd]. destruct cu as [|x|n|p].
  - apply S.
  - destruct (digit c); [intros [= <-]; exists []; reflexivity|]. destruct (letter c); [intros [= <-]; exists []; reflexivity|].
    intros H. apply S in H. destruct H as [u ->]. exists (u ++ [Id x])%list. rewrite <- app_assoc. reflexivity.
  - destruct (num_next n c); [intros [= <-]; exists []; reflexivity|]. destruct (letter c); [discriminate|]. destruct (num_end n) as [t|]; [|discriminate].
    intros H. apply S in H. destruct H as [u ->]. exists (u ++ [t])%list. rewrite <- app_assoc. reflexivity.
  - assert (Q : lex_start (P p :: ts) c = Some st' -> exists u, fst st' = (u ++ ts)%list).
    { intros H. apply S in H. destruct H as [u ->]. exists (u ++ [P p])%list. rewrite <- app_assoc. reflexivity. }
    destruct (Nat.eq_dec (nat_of_ascii c) 61) as [E|E].
    + rewrite E. destruct (extends p) as [q|]; [intros [= <-]; exists [P q]; reflexivity|exact Q].
    + intros H. apply Q. rewrite <- H. clear - E. set (n := nat_of_ascii c) in *. clearbody n.
      do 61 (destruct n as [|n]; [reflexivity|]). destruct n as [|n]; [lia|reflexivity].
Qed.
Lemma lex_grows s : forall st st', lex_from st s = Some st' -> exists u, fst st' = (u ++ fst st)%list.
Proof.
  induction s as [|c s IH]; intros st st' H; [injection H as <-; exists []; reflexivity|]. cbn in H. destruct (lex_char st c) as [st1|] eqn:E; [|discriminate].
  destruct (IH _ _ H) as [u ->]. destruct (lex_char_grows _ _ _ E) as [v ->]. exists (u ++ v)%list. rewrite app_assoc. reflexivity.
Qed.
Definition rejects (text : string) (p : pst) : Prop := exists ts, lexes text ts /\ steps p ts = None.
Lemma rejects_app a b p q : feeds a p q -> rejects b q -> rejects (a ++ b) p.
Proof. intros (t & A & B) (u & C & D). exists (t ++ u)%list. split; [apply lexes_app; assumption|]. rewrite steps_app, B. assumption. Qed.
Lemma rejects_const s p : lexes s (toks_of s) -> steps p (toks_of s) = None -> rejects s p.
Proof. intros A B. exists (toks_of s). auto. Qed.
Lemma rejects_program a b : rejects a (mkP [] [] MTop) -> program (a ++ b) = None.
Proof.
  intros (t & A & B). unfold program, tokens. rewrite app_assoc_s, lex_app, A, app_nil_r.
  destruct (lex_from (rev t, CNone) (b ++ " ")) as [[ts [| | |]]|] eqn:E; try reflexivity.
  apply lex_grows in E. destruct E as [u E]. cbn [fst] in E. subst ts. unfold parse. rewrite rev_app_distr, rev_involutive, steps_app, B. reflexivity.
Qed.

(** ** numbers *)
(** after a number only these may follow *)
Definition closing (p : punct) : bool := match p with Dot | LBrack | LPar | Eq | PlusEq | LBrace | RBrace => false | _ => true end.
Section Num.
Variables (print : R -> string) (shown : R -> R).
Hypothesis Hprint : prints print shown.
Notation num := (num_ast print).
Lemma step_sign fs b m e fr c p : closing p = true ->
  step (mkP fs b (MHave (ENum m e) (FNeg :: fr) c)) (P p) = step (mkP fs b (MHave (ENeg (ENum m e)) fr c)) (P p).
Proof. intros H. destruct p; try discriminate H; cbn; try reflexivity; destruct fr as [|[] fr]; destruct c; reflexivity. Qed.
Lemma steps_num fs b fr c r p ts : closing p = true ->
  steps (mkP fs b (MExpect fr c)) (num_toks print r ++ P p :: ts)%list = steps (mkP fs b (MHave (num r) fr c)) (P p :: ts).
Proof.
  intros H. destruct (num_toks_cases print shown Hprint r) as [(m & e & -> & -> & _)|(m & e & -> & -> & _)]; [reflexivity|].
  cbn [app]. change (steps (mkP fs b (MExpect fr c)) (P Minus :: Num m e :: P p :: ts)) with (steps (mkP fs b (MHave (ENum m e) (FNeg :: fr) c)) (P p :: ts)).
  cbn [steps]. rewrite (step_sign fs b m e fr c p H). reflexivity.
Qed.
Lemma feeds_num r ch s fs b fr c p ts q : ends ch -> lexes (String ch s) (P p :: ts) -> closing p = true ->
  steps (mkP fs b (MHave (num r) fr c)) (P p :: ts) = Some q -> feeds (print r ++ String ch s) (mkP fs b (MExpect fr c)) q.
Proof.
  intros A B C D. exists (num_toks print r ++ P p :: ts)%list. split; [apply (lexes_num print shown Hprint); assumption|]. rewrite steps_num by assumption. assumption.
Qed.
(** the numbers of a vector, up to its closing parenthesis *)
Lemma steps_vec fs b fr c f v : v <> [] -> forall args ts,
  steps (mkP fs b (MExpect (FCall f args :: fr) c)) (vec_toks print v ++ P RPar :: ts)%list = steps (mkP fs b (MHave (ECall f (args ++ map num v)%list) fr c)) ts.
Proof.
  intros Hv. induction v as [|a v IH]; [congruence|]. intros args ts. destruct v as [|d v].
  - cbn [vec_toks map]. rewrite steps_num by reflexivity.
    destruct (num_toks_cases print shown Hprint a) as [(m & e & _ & -> & _)|(m & e & _ & -> & _)]; reflexivity.
  - change (vec_toks print (a :: d :: v)) with (num_toks print a ++ (P Comma :: vec_toks print (d :: v)))%list. rewrite <- app_assoc. cbn [app].
    rewrite steps_num by reflexivity.
    transitivity (steps (mkP fs b (MExpect (FCall f (args ++ [num a])%list :: fr) c)) (vec_toks print (d :: v) ++ P RPar :: ts)%list).
    { destruct (num_toks_cases print shown Hprint a) as [(m & e & _ & -> & _)|(m & e & _ & -> & _)]; reflexivity. }
    rewrite IH by discriminate. rewrite <- app_assoc. reflexivity.
Qed.
Definition vec_ast (v : list R) : expr := ECall "vec3" (map num v).
Lemma steps_vecs fs b fr c f vs : Forall (fun v => v <> []) vs -> forall args e ts,
  steps (mkP fs b (MHave e (FCall f args :: fr) c)) (vecs_toks print vs ++ ts)%list =
  steps (mkP fs b (MHave (ECall f (args ++ e :: map vec_ast vs)%list) fr c)) ts.
Proof.
  induction 1 as [|v vs Hv _ IH]; intros args e ts.
  - cbn [vecs_toks app map]. reflexivity.
  - cbn [vecs_toks]. rewrite <- !app_assoc. cbn [app].
    transitivity (steps (mkP fs b (MExpect (FCall "vec3" [] :: FCall f (args ++ [e])%list :: fr) c)) (vec_toks print v ++ P RPar :: vecs_toks print vs ++ ts)%list).
    { reflexivity. }
    rewrite steps_vec by assumption. cbn [app]. rewrite IH. rewrite <- app_assoc. reflexivity.
Qed.
Definition frame_args : list expr := [EVar "L"; EVar "V"; EVar "N"; EVar "X"; EVar "Y"].
Definition call_ast (f : string) (vs : list (list R)) : expr := ECall f (frame_args ++ map vec_ast vs)%list.
(** the call of a plugin's function *)
Definition operand (text : string) (e : expr) : Prop := forall fs b fr c, feeds text (mkP fs b (MExpect fr c)) (mkP fs b (MHave e fr c)).
Definition open_text : string := "(L, V, N, X, Y, vec3(".
Lemma operand_call f v vs : lexes (f ++ open_text) (Id f :: toks_of open_text) -> keyword f = false ->
  Forall (fun v => v <> []) (v :: vs) -> operand (call_text print f (v :: vs)) (call_ast f (v :: vs)).
Proof.
  intros Hf Hk Hvs fs b fr c. inversion Hvs as [|? ? Hv Hr]; subst.
  assert (E : call_text print f (v :: vs) = (f ++ open_text) ++ (vec_text print v ++ String ")" (vecs_text print vs))).
  { unfold call_text, open_text. rewrite app_assoc_s. reflexivity. }
  rewrite E. exists ((Id f :: toks_of open_text) ++ (vec_toks print v ++ P RPar :: vecs_toks print vs))%list. split.
  - apply lexes_app; [assumption|]. apply (lexes_vec print shown Hprint); [assumption|exact ends_rpar|].
    apply (lexes_app ")" _ [P RPar]); [intros ts; reflexivity|apply (lexes_vecs print shown Hprint); assumption].
  - cbn [app steps]. change (step (mkP fs b (MExpect fr c)) (Id f)) with (if keyword f then None else Some (mkP fs b (MHave (EVar f) fr c))). rewrite Hk.
    transitivity (steps (mkP fs b (MExpect (FCall "vec3" [] :: FCall f frame_args :: fr) c)) (vec_toks print v ++ P RPar :: vecs_toks print vs)%list).
    { reflexivity. }
    rewrite steps_vec by assumption. cbn [app]. rewrite <- (app_nil_r (vecs_toks print vs)), steps_vecs by assumption. reflexivity.
Qed.
Lemma operand_vec v : v <> [] -> operand ("vec3(" ++ vec_text print v ++ ")") (vec_ast v).
Proof.
  intros Hv fs b fr c. exists ([Id "vec3"; P LPar] ++ (vec_toks print v ++ [P RPar]))%list. split.
  - apply lexes_app; [intros ts; reflexivity|]. apply (lexes_vec print shown Hprint); [assumption|exact ends_rpar|intros ts; reflexivity].
  - cbn [app]. transitivity (steps (mkP fs b (MExpect (FCall "vec3" [] :: fr) c)) (vec_toks print v ++ [P RPar])%list); [reflexivity|].
    rewrite steps_vec by assumption. reflexivity.
Qed.
(** a product *)
Lemma operand_product a b u v : operand a u -> operand b v ->
  operand ("(" ++ a ++ " * " ++ b ++ ")" ++ endl) (EBin BMul u v).
Proof.
  intros A B fs bl fr c.
  apply (feeds_app "(" _ _ (mkP fs bl (MExpect (FPar :: fr) c))); [apply feeds_const; [intros ts; reflexivity|reflexivity]|].
  apply (feeds_app a _ _ (mkP fs bl (MHave u (FPar :: fr) c))); [apply A|].
  apply (feeds_app " * " _ _ (mkP fs bl (MExpect (FBin BMul u :: FPar :: fr) c))); [apply feeds_const; [intros ts; reflexivity|reflexivity]|].
  apply (feeds_app b _ _ (mkP fs bl (MHave v (FBin BMul u :: FPar :: fr) c))); [apply B|].
  apply feeds_const; [intros ts; reflexivity|reflexivity].
Qed.
End Num.

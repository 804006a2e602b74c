(** Proofs for the shader export: the text has the expected tokens. *)
From Coq Require Import Reals List Lia Lra.
From Verif Require Import Base NlModel NlMoreModel Glsl GlslModel GlslSpec.
Open Scope R_scope.
Open Scope string_scope.

Lemma app_assoc_s a b c : (a ++ b) ++ c = a ++ (b ++ c).
Proof. induction a as [|x a IH]; [reflexivity|]. cbn. rewrite IH. reflexivity. Qed.
Lemma app_nil_s a : a ++ "" = a.
Proof. induction a as [|x a IH]; [reflexivity|]. cbn. rewrite IH. reflexivity. Qed.
Lemma lex_app a : forall st b, lex_from st (a ++ b) = match lex_from st a with Some st' => lex_from st' b | None => None end.
Proof. induction a as [|c a IH]; intros st b; [reflexivity|]. cbn. destruct (lex_char st c); [apply IH|reflexivity]. Qed.

Definition lexes (s : string) (t : list tok) : Prop := forall ts, lex_from (ts, CNone) s = Some ((rev t ++ ts)%list, CNone).
Lemma lexes_nil : lexes "" [].
Proof. intros ts. reflexivity. Qed.
Lemma lexes_app a b t u : lexes a t -> lexes b u -> lexes (a ++ b) (t ++ u)%list.
Proof. intros A B ts. rewrite lex_app, A, B, rev_app_distr, app_assoc. reflexivity. Qed.
Lemma lexes_tokens s t : lexes s t -> tokens s = Some t.
Proof. intros H. unfold tokens. rewrite lex_app, H, app_nil_r. change (lex_from (rev t, CNone) " ") with (Some (rev t, CNone)). cbv iota. rewrite rev_involutive. reflexivity. Qed.

(** ** numbers *)
Lemma nat_of_digit d : (d < 10)%nat -> nat_of_ascii (ascii_of_nat (48 + d)) = (48 + d)%nat.
Proof. intros H. apply nat_ascii_embedding. lia. Qed.
Lemma digit_of d : (d < 10)%nat -> digit (ascii_of_nat (48 + d)) = Some (Z.of_nat d).
Proof.
  intros H. unfold digit. rewrite (nat_of_digit d H). destruct (Nat.leb_spec 48 (48 + d)); [|lia]. destruct (Nat.leb_spec (48 + d) 57); [|lia].
  cbn [andb]. f_equal. f_equal. lia.
Qed.
Lemma lex_int ds : Forall (fun d => d < 10)%nat ds -> forall ts m,
  lex_from (ts, CNum (NInt m)) (digit_text ds) = Some (ts, CNum (NInt (fold_left (fun m d => 10 * m + Z.of_nat d)%Z ds m))).
Proof.
  induction 1 as [|d ds Hd _ IH]; intros ts m; [reflexivity|]. cbn [digit_text lex_from]. unfold lex_char. cbn [fst snd]. unfold num_next. rewrite (digit_of d Hd).
  rewrite IH. reflexivity.
Qed.
Lemma lex_frac ds : Forall (fun d => d < 10)%nat ds -> forall ts m k,
  lex_from (ts, CNum (NFrac m k)) (digit_text ds) = Some (ts, CNum (NFrac (fold_left (fun m d => 10 * m + Z.of_nat d)%Z ds m) (k + Z.of_nat (length ds)))).
Proof.
  induction 1 as [|d ds Hd _ IH]; intros ts m k; [cbn; rewrite Z.add_0_r; reflexivity|]. cbn [digit_text lex_from]. unfold lex_char. cbn [fst snd]. unfold num_next. rewrite (digit_of d Hd).
  rewrite IH. cbn [fold_left length]. do 4 f_equal. lia.
Qed.
Lemma lex_expo ds : Forall (fun d => d < 10)%nat ds -> forall ts m k g e,
  lex_from (ts, CNum (NExpD m k g e)) (digit_text ds) = Some (ts, CNum (NExpD m k g (fold_left (fun m d => 10 * m + Z.of_nat d)%Z ds e))).
Proof.
  induction 1 as [|d ds Hd _ IH]; intros ts m k g e; [reflexivity|]. cbn [digit_text lex_from]. unfold lex_char. cbn [fst snd]. unfold num_next. rewrite (digit_of d Hd).
  rewrite IH. reflexivity.
Qed.
(** after a number, the state is one of these *)
Definition signed (neg : bool) (ts : list tok) : list tok := if neg then P Minus :: ts else ts.
Lemma lex_numeral n : numeral_ok n -> exists m e,
  numeral_value n = (if n_neg n then - literal m e else literal m e) /\
  forall ts, exists st, lex_from (ts, CNone) (numeral_text n) = Some (signed (n_neg n) ts, CNum st) /\ num_end st = Some (Num m e).
Proof.
  intros (H0 & Hi & Hf & He). unfold numeral_text, numeral_value.
  set (f := match n_frac n with Some f => f | None => [] end).
  set (x := match n_exp n with Some (g, e) => (if g then - digit_value e else digit_value e)%Z | None => 0%Z end).
  exists (digit_value (n_int n ++ f)), (x - Z.of_nat (length f))%Z. split.
  { unfold literal. destruct (n_neg n); ring. }
  intros ts. destruct (n_int n) as [|d ds] eqn:Ei; [congruence|]. inversion Hi as [|? ? Hd Hds]; subst.
  (* sign and integer part *)
  assert (A : lex_from (ts, CNone) ((if n_neg n then "-" else "") ++ digit_text (d :: ds)) = Some (signed (n_neg n) ts, CNum (NInt (digit_value (d :: ds))))).
  { assert (B : forall ts, lex_from (ts, CNone) (digit_text (d :: ds)) = Some (ts, CNum (NInt (digit_value (d :: ds))))).
    { intros us. cbn [digit_text lex_from]. unfold lex_char. cbn [fst snd]. unfold lex_start. rewrite (digit_of d Hd). rewrite (lex_int ds Hds). reflexivity. }
    destruct (n_neg n); [|apply B]. rewrite lex_app. cbn [lex_from]. change (lex_char (ts, CNone) "-") with (Some (P Minus :: ts, CNone)). apply B. }
  rewrite <- app_assoc_s, lex_app, A.
  (* fraction *)
  assert (B : exists st, lex_from (signed (n_neg n) ts, CNum (NInt (digit_value (d :: ds)))) (match n_frac n with Some f => "." ++ digit_text f | None => "" end) = Some (signed (n_neg n) ts, CNum st) /\
     ((n_frac n = None /\ st = NInt (digit_value ((d :: ds) ++ f))) \/ (st = NFrac (digit_value ((d :: ds) ++ f)) (Z.of_nat (length f))))).
  { subst f. destruct (n_frac n) as [f|].
    - rewrite lex_app. cbn [lex_from]. change (lex_char (signed (n_neg n) ts, CNum (NInt (digit_value (d :: ds)))) ".") with (Some (signed (n_neg n) ts, CNum (NFrac (digit_value (d :: ds)) 0))).
      cbv iota. rewrite (lex_frac f (Hf f eq_refl)). eexists. split; [reflexivity|]. right. rewrite Z.add_0_l. unfold digit_value. rewrite fold_left_app. reflexivity.
    - eexists. split; [reflexivity|]. left. rewrite app_nil_r. split; reflexivity. }
  destruct B as (st & B & C). rewrite lex_app, B. subst x. destruct (n_exp n) as [[g e]|].
  - destruct (He g e eq_refl) as (He0 & He1). destruct e as [|c cs]; [congruence|]. inversion He1 as [|? ? Hc Hcs]; subst.
    rewrite lex_app. cbn [lex_from].
    assert (S1 : exists m k, st = NInt m /\ k = 0%Z \/ st = NFrac m k). { destruct C as [(_ & ->)| ->]; eauto. }
    assert (D : exists k, lex_char (signed (n_neg n) ts, CNum st) "e" = Some (signed (n_neg n) ts, CNum (NExp (digit_value ((d :: ds) ++ f)) k)) /\ k = Z.of_nat (length f)).
    { destruct C as [(Q & ->)| ->]; [exists 0%Z|exists (Z.of_nat (length f))]; split; try reflexivity. subst f. rewrite Q. reflexivity. }
    destruct D as (k & -> & ->). rewrite lex_app. cbn [lex_from].
    assert (E : lex_from (signed (n_neg n) ts, CNum (NExp (digit_value ((d :: ds) ++ f)) (Z.of_nat (length f)))) (if g then "-" else "+") =
       Some (signed (n_neg n) ts, CNum (NExpS (digit_value ((d :: ds) ++ f)) (Z.of_nat (length f)) g))) by (destruct g; reflexivity).
    rewrite E. cbn [digit_text lex_from]. unfold lex_char at 1. cbn [fst snd]. unfold num_next. rewrite (digit_of c Hc).
    rewrite (lex_expo cs Hcs). eexists. split; [reflexivity|]. cbn [num_end]. unfold digit_value at 2 3. cbn [fold_left]. reflexivity.
  - cbn [lex_from]. eexists. split; [reflexivity|]. destruct C as [(Q & ->)| ->]; cbn [num_end]; [|reflexivity].
    subst f. rewrite Q. reflexivity.
Qed.
(** a character that ends a number *)
Definition ends (c : ascii) : Prop := (forall n, num_next n c = None) /\ letter c = false.
Lemma ends_comma : ends ",". Proof. split; [intros []; reflexivity|reflexivity]. Qed.
Lemma ends_rpar : ends ")". Proof. split; [intros []; reflexivity|reflexivity]. Qed.
Lemma ends_space : ends " ". Proof. split; [intros []; reflexivity|reflexivity]. Qed.
Lemma ends_star : ends "*". Proof. split; [intros []; reflexivity|reflexivity]. Qed.
Lemma ends_semi : ends ";". Proof. split; [intros []; reflexivity|reflexivity]. Qed.

Section Num.
Variables (print : R -> string) (shown : R -> R).
Hypothesis Hprint : prints print shown.
Definition num_toks (r : R) : list tok := match tokens (print r) with Some t => t | None => [] end.
Definition num_ast (r : R) : expr :=
  match num_toks r with [Num m e] => ENum m e | [P Minus; Num m e] => ENeg (ENum m e) | _ => EVar "" end.
Lemma number_spec r : exists (neg : bool) m e, shown r = (if neg then - literal m e else literal m e) /\
  num_toks r = (if neg then [P Minus; Num m e] else [Num m e])%list /\
  forall ts, exists st, lex_from (ts, CNone) (print r) = Some (signed neg ts, CNum st) /\ num_end st = Some (Num m e).
Proof.
  destruct (Hprint r) as (n & Hn & Hp & Hs). destruct (lex_numeral n Hn) as (m & e & Hv & Hl). exists (n_neg n), m, e.
  rewrite Hs, Hp. split; [assumption|]. split; [|assumption].
  unfold num_toks, tokens. rewrite Hp, lex_app. destruct (Hl []) as (st & -> & He). cbn [lex_from]. unfold lex_char. cbn [fst snd].
  rewrite (proj1 ends_space). change (letter " ") with false. cbv iota. rewrite He.
  change (lex_start (Num m e :: signed (n_neg n) []) " ") with (Some (Num m e :: signed (n_neg n) [], CNone)). cbv iota. destruct (n_neg n); reflexivity.
Qed.
Lemma num_toks_cases r : (exists m e, num_toks r = [Num m e] /\ num_ast r = ENum m e /\ shown r = literal m e) \/
  (exists m e, num_toks r = [P Minus; Num m e] /\ num_ast r = ENeg (ENum m e) /\ shown r = - literal m e).
Proof.
  destruct (number_spec r) as ([|] & m & e & Hs & Ht & _); [right|left]; exists m, e; unfold num_ast; rewrite Ht; auto.
Qed.
(** a number followed by a text starting with a separator *)
Lemma lexes_num r c s t : ends c -> lexes (String c s) t -> lexes (print r ++ String c s) (num_toks r ++ t)%list.
Proof.
  intros Hc Hs ts. destruct (number_spec r) as (neg & m & e & _ & Ht & Hl). destruct (Hl ts) as (st & E & En). rewrite lex_app, E.
  specialize (Hs (Num m e :: signed neg ts)). cbn [lex_from] in Hs |- *.
  assert (Q : lex_char (signed neg ts, CNum st) c = lex_char (Num m e :: signed neg ts, CNone) c).
  { unfold lex_char. cbn [fst snd]. rewrite (proj1 Hc), (proj2 Hc), En. reflexivity. }
  rewrite Q, Hs. rewrite rev_app_distr, Ht. destruct neg; cbn; rewrite <- !app_assoc; reflexivity.
Qed.
Fixpoint vec_toks (v : list R) : list tok :=
  match v with [] => [] | [a] => num_toks a | a :: t => (num_toks a ++ P Comma :: vec_toks t)%list end.
Lemma lexes_vec v c s t : v <> [] -> ends c -> lexes (String c s) t -> lexes (vec_text print v ++ String c s) (vec_toks v ++ t)%list.
Proof.
  intros Hv Hc Hs. induction v as [|a v IH]; [congruence|]. destruct v as [|b v].
  - apply lexes_num; assumption.
  - change (vec_text print (a :: b :: v)) with (print a ++ String "," (" " ++ vec_text print (b :: v))).
    change (vec_toks (a :: b :: v)) with (num_toks a ++ (P Comma :: vec_toks (b :: v)))%list.
    rewrite app_assoc_s, <- app_assoc. apply lexes_num; [exact ends_comma|].
    change (String "," (" " ++ vec_text print (b :: v)) ++ String c s) with (", " ++ (vec_text print (b :: v) ++ String c s)).
    apply (lexes_app ", " _ [P Comma]); [intros ts; reflexivity|]. apply IH. discriminate.
Qed.
Fixpoint vecs_toks (vs : list (list R)) : list tok :=
  match vs with [] => [P RPar] | v :: t => ([P Comma; Id "vec3"; P LPar] ++ vec_toks v ++ P RPar :: vecs_toks t)%list end.
Lemma lexes_vecs vs : Forall (fun v => v <> []) vs -> lexes (vecs_text print vs) (vecs_toks vs).
Proof.
  induction 1 as [|v vs Hv _ IH]; [intros ts; reflexivity|]. cbn [vecs_text vecs_toks].
  apply (lexes_app ", vec3(" _ [P Comma; Id "vec3"; P LPar]); [intros ts; reflexivity|].
  change (")" ++ vecs_text print vs) with (String ")" (vecs_text print vs)).
  apply (lexes_vec v ")" (vecs_text print vs) (P RPar :: vecs_toks vs)); [assumption|exact ends_rpar|].
  apply (lexes_app ")" _ [P RPar]); [intros ts; reflexivity|assumption].
Qed.
End Num.

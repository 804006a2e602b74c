(** Proofs for the C++ export of a rational function with one channel. *)
From Coq Require Import Reals List Lia Lra.
From Verif Require Import Base Num DataModel FuncModel MonoModel NlModel NlMoreModel Glsl GlslModel GlslSpec GlslLex GlslParse RatModel Cpp CppModel CppSpec CppLex.
Open Scope R_scope.
Open Scope string_scope.

Lemma int_part_Z n : Int_part (IZR n) = n.
Proof. unfold Int_part. pose proof (archimed (IZR n)) as [A B]. assert (E : up (IZR n) = (n + 1)%Z); [|lia].
  assert (C : (n < up (IZR n))%Z) by (apply lt_IZR; lra). assert (D : (up (IZR n) - n <= 1)%Z) by (apply le_IZR; rewrite minus_IZR; lra). lia. Qed.
Lemma literal_nat d : literal (Z.of_nat d) 0 = INR d.
Proof. unfold literal. cbn. rewrite <- INR_IZR_INZ. ring. Qed.
Lemma pow_nat a d : cpp_pow a (literal (Z.of_nat d) 0) = Some (a ^ d).
Proof.
  rewrite literal_nat, INR_IZR_INZ. unfold cpp_pow. rewrite int_part_Z. destruct (Req_EM_T (IZR (Z.of_nat d)) (IZR (Z.of_nat d))) as [_|H]; [|congruence].
  destruct (Z.leb_spec 0 (Z.of_nat d)) as [_|H]; [|lia]. rewrite Nat2Z.id. reflexivity.
Qed.
Section Value.
Variables (print : R -> string) (shown : R -> R).
Hypothesis Hprint : prints print shown.
Notation num := (num_ast print).
Lemma eval_num g r : eval g (num r) = Some (shown r).
Proof. destruct (num_toks_cases print shown Hprint r) as [(m & e & _ & -> & ->)|(m & e & _ & -> & ->)]; reflexivity. Qed.
Lemma entry_x x k a : nth_error x k = Some a -> entry (map Some x) (Z.of_nat k) = Some a.
Proof. intros H. unfold entry. destruct (Z.ltb_spec (Z.of_nat k) 0) as [H0|_]; [lia|]. rewrite Nat2Z.id, (map_nth_error _ _ _ H). reflexivity. Qed.
Lemma eval_pow g k d a : nth_error (arg g) k = Some a -> eval g (pow_ast k d) = Some (a ^ d).
Proof. intros H. unfold pow_ast. cbn [eval String.eqb Ascii.eqb Bool.eqb]. rewrite (entry_x _ _ _ H). cbn [lift2]. apply pow_nat. Qed.
Lemma eval_factors g : forall degs k y e v, eval g e = Some v -> skipn k (arg g) = y -> length y = length degs ->
  eval g (factors_ast e k degs) = Some (v * monomial y degs).
Proof.
  induction degs as [|d t IH]; intros k y e v He Hy Hl; destruct y as [|a y]; try discriminate Hl.
  - cbn. rewrite He, Rmult_1_r. reflexivity.
  - cbn [factors_ast monomial].
    assert (N : nth_error (arg g) k = Some a).
    { rewrite <- (firstn_skipn k (arg g)), Hy. assert (Lk : length (firstn k (arg g)) = k).
      { rewrite firstn_length_le; [reflexivity|]. destruct (Nat.le_gt_cases k (length (arg g))) as [|C]; [assumption|]. rewrite skipn_all2 in Hy by lia. discriminate. }
      rewrite nth_error_app2 by lia. rewrite Lk, Nat.sub_diag. reflexivity. }
    assert (Y : skipn (S k) (arg g) = y).
    { clear - Hy. revert k Hy. induction (arg g) as [|b l IHl]; intros k Hy; [rewrite skipn_nil in Hy; discriminate|]. destruct k as [|k]; cbn in Hy |- *; [congruence|]. apply IHl, Hy. }
    rewrite (IH (S k) y (EBin BMul e (pow_ast k d)) (v * a ^ d)); [f_equal; ring| |exact Y|cbn in Hl; lia].
    cbn [eval]. rewrite He, (eval_pow g k d a N). reflexivity.
Qed.
Lemma eval_term g c : length (co_deg c) = length (arg g) -> eval g (term_ast print c) = Some (shown (co_a c) * monomial (arg g) (co_deg c)).
Proof. intros H. unfold term_ast. apply eval_factors; [apply eval_num|reflexivity|congruence]. Qed.
Lemma eval_sum g cs : Forall (fun c => length (co_deg c) = length (arg g)) cs -> forall e v, eval g e = Some v ->
  eval g (fold_left (fun e c => EBin BAdd e (term_ast print c)) cs e) = Some (v + polynomial shown cs (arg g)).
Proof.
  induction 1 as [|c cs Hc _ IH]; intros e v He; cbn [fold_left polynomial]; [rewrite He, Rplus_0_r; reflexivity|].
  rewrite (IH _ (v + shown (co_a c) * monomial (arg g) (co_deg c))); [f_equal; ring|]. cbn [eval]. rewrite He, (eval_term g c Hc). reflexivity.
Qed.
Lemma eval_poly g cs : cs <> [] -> Forall (fun c => length (co_deg c) = length (arg g)) cs -> eval g (poly_ast print cs) = Some (polynomial shown cs (arg g)).
Proof.
  intros Hn H. destruct H as [|c cs Hc H]; [congruence|]. cbn [poly_ast]. rewrite (eval_sum g cs H _ (shown (co_a c) * monomial (arg g) (co_deg c))); [reflexivity|apply eval_term, Hc].
Qed.

(** ** names *)
Definition all_uses := fix all (l : list expr) := match l with [] => [] | a :: r => (uses a ++ all r)%list end.
Lemma uses_num r : uses (num r) = [].
Proof. destruct (num_toks_cases print shown Hprint r) as [(m & e & _ & -> & _)|(m & e & _ & -> & _)]; reflexivity. Qed.
Lemma uses_factors degs : forall k e z, In z (uses (factors_ast e k degs)) -> In z (uses e) \/ z = "pow" \/ z = "x".
Proof.
  induction degs as [|d t IH]; intros k e z H; [auto|]. cbn [factors_ast] in H. apply IH in H. destruct H as [H|H]; [|auto].
  cbn in H. apply in_app_or in H. destruct H as [H|[H|[H|[]]]]; auto.
Qed.
Lemma uses_poly cs z : cs <> [] -> In z (uses (poly_ast print cs)) -> z = "pow" \/ z = "x".
Proof.
  assert (T : forall c z, In z (uses (term_ast print c)) -> z = "pow" \/ z = "x").
  { intros c y H. unfold term_ast in H. apply uses_factors in H. rewrite uses_num in H. destruct H as [[]|H]; exact H. }
  assert (S : forall cs e, (forall z, In z (uses e) -> z = "pow" \/ z = "x") -> forall z, In z (uses (fold_left (fun e c => EBin BAdd e (term_ast print c)) cs e)) -> z = "pow" \/ z = "x").
  { clear cs z. induction cs as [|c cs IH]; intros e He z H; [apply He, H|]. cbn [fold_left] in H. apply IH in H; [exact H|].
    intros y Hy. cbn [uses] in Hy. apply in_app_or in Hy. destruct Hy as [Hy|Hy]; [apply He, Hy|eapply T, Hy]. }
  intros Hn H. destruct cs as [|c cs]; [congruence|]. cbn [poly_ast] in H. eapply S; [|exact H]. intros y. apply T.
Qed.
Lemma known_poly scope cs : cs <> [] -> In "pow" scope -> In "x" scope -> known scope (poly_ast print cs) = true.
Proof.
  intros Hn Hp Hx. unfold known. apply forallb_forall. intros z Hz. apply existsb_exists. exists z. split; [|apply String.eqb_refl].
  destruct (uses_poly cs z Hn Hz) as [-> | ->]; assumption.
Qed.

(** ** the file *)
Lemma after_app p s : after p (p ++ s) = Some s.
Proof. induction p as [|c p IH]; [reflexivity|]. cbn. rewrite Ascii.eqb_refl. apply IH. Qed.
Definition frame_text (nY : nat) (c : string) : string :=
  "#include <Eigen/Core>" ++ endl ++ "typedef Eigen::VectorXd vec;" ++ endl ++ endl ++ "vec brdf(const vec& x)" ++ endl ++ "{" ++ endl ++
  line ("vec res(" ++ nat_text nY ++ ");") ++ c ++ line "return res;" ++ "}" ++ endl ++ endl.
Lemma frame_rest nY c : after preamble (skip_blanks (frame_text nY c)) = Some (line ("vec res(" ++ nat_text nY ++ ");") ++ c ++ line "return res;" ++ "}" ++ endl ++ endl).
Proof.
  unfold frame_text. set (rest := line ("vec res(" ++ nat_text nY ++ ");") ++ c ++ line "return res;" ++ "}" ++ endl ++ endl).
  change ("#include <Eigen/Core>" ++ endl ++ "typedef Eigen::VectorXd vec;" ++ endl ++ endl ++ "vec brdf(const vec& x)" ++ endl ++ "{" ++ endl ++ rest) with (preamble ++ rest).
  change (skip_blanks (preamble ++ rest)) with (preamble ++ rest). apply after_app.
Qed.
Lemma tokens_frame nY c u : lexes c u -> tokens (line ("vec res(" ++ nat_text nY ++ ");") ++ c ++ line "return res;" ++ "}" ++ endl ++ endl) =
  Some (Id "vec" :: Id "res" :: P LPar :: Glsl.Num (Z.of_nat nY) 0 :: P RPar :: P Semi :: u ++ [Id "return"; Id "res"; P Semi; P RBrace])%list.
Proof.
  intros Hc. apply lexes_tokens. unfold line. rewrite !app_assoc_s.
  apply (lexes_app (tb ++ "vec res(") _ [Id "vec"; Id "res"; P LPar]); [intros ts; reflexivity|].
  match goal with |- lexes (nat_text nY ++ (");" ++ ?x)) _ => change (");" ++ x) with (String ")" (";" ++ x)) end.
  apply lexes_nat; [exact ends_rpar|].
  match goal with |- lexes (String ")" (";" ++ (endl ++ ?x))) _ => change (String ")" (";" ++ (endl ++ x))) with ((");" ++ endl) ++ x) end.
  apply (lexes_app (");" ++ endl) _ [P RPar; P Semi]); [intros ts; reflexivity|].
  apply lexes_app; [exact Hc|]. intros ts. reflexivity.
Qed.
Definition start : pst := mkP [] [BFun TVec3 "brdf" [(TVec3, "x")] []] MStmt.
Definition last_toks : list tok := [Id "return"; Id "res"; P Semi; P RBrace].
Lemma cpp_body_frame nY c u : lexes c u -> cpp_body (frame_text nY c) =
  match steps start (map cpp_tok u ++ last_toks)%list with Some (mkP [f] [] MTop) => Some (Z.of_nat nY, fn_body f) | _ => None end.
Proof.
  intros H. unfold cpp_body. rewrite frame_rest, (tokens_frame nY c u H). change (String.eqb "vec" "vec" && String.eqb "res" "res") with true. cbv iota.
  rewrite map_app. reflexivity.
Qed.

Variables (f : rf) (d : nat) (r : rf1).
Hypothesis Hf : one_channel f d r.
Hypothesis Hr : rf1_wf d r.
Hypothesis Np : r_p r <> [].
Hypothesis Nq : r_q r <> [].
Lemma ok_of_wf : rf1_ok r.
Proof. destruct Hr as (<- & A & B & _). split; assumption. Qed.
Definition file_stmts : list stmt := (channel_stmts print r ++ [SReturn (EVar "res")])%list.
Lemma one_text m : m <> FMatlab -> exists c, export print 1 m (ERational f) = Ok (frame_text 1 (c ++ endl ++ "")) /\ lexes c (channel_toks print r).
Proof.
  intros Hm. destruct (lexes_channel print shown Hprint r ok_of_wf) as (c & E & L). exists c. split; [|exact L].
  destruct Hf as (_ & Hy & Hs). unfold export. cbn [export_body bind export_call]. rewrite Hy, Hs. cbn [firstn channels]. destruct m; [| |congruence]; rewrite E; reflexivity.
Qed.
Lemma one_body c : lexes c (channel_toks print r) -> cpp_body (frame_text 1 (c ++ endl ++ "")) = Some (1%Z, file_stmts).
Proof.
  intros L. rewrite (cpp_body_frame 1 _ (channel_toks print r)).
  - unfold start. rewrite (steps_channel print shown Hprint) by assumption. reflexivity.
  - rewrite <- (app_nil_r (channel_toks print r)). apply lexes_app; [exact L|]. intros ts. reflexivity.
Qed.
Lemma one_names : names_ok ["brdf"; "x"; "res"; "pow"] file_stmts = true.
Proof.
  unfold file_stmts, channel_stmts. cbn [app names_ok]. rewrite !known_poly; try assumption; try (cbn; auto 10; fail).
Qed.
Lemma one_value c x : lexes c (channel_toks print r) -> length x = d -> polynomial shown (r_q r) x <> 0 ->
  brdf (frame_text 1 (c ++ endl ++ "")) x = Some [Some (polynomial shown (r_p r) x / polynomial shown (r_q r) x)].
Proof.
  intros L Hx Hq. unfold brdf. rewrite one_body by assumption. cbn [Z.ltb Z.compare].
  destruct Hr as (_ & A & B & _). rewrite <- Hx in A, B. unfold file_stmts, channel_stmts. cbn [app exec].
  rewrite (eval_poly (mkEnv [] x (repeat None (Z.to_nat 1))) _ Np A). cbn [doubles arg result].
  set (g1 := mkEnv _ x (repeat None (Z.to_nat 1))). rewrite (eval_poly g1 _ Nq B). cbn [doubles arg result g1].
  cbn [String.eqb Ascii.eqb Bool.eqb andb Z.leb Z.compare eval find fst snd doubles lift2 arith].
  destruct (Req_EM_T (polynomial shown (r_q r) x) 0) as [E|_]; [contradiction|]. reflexivity.
Qed.
End Value.

(** ** the value of the function *)
Lemma stretch_length lo hi x : length lo = length x -> length hi = length x -> length (stretch lo hi x) = length x.
Proof. revert hi x. induction lo as [|a lo IH]; intros [|b hi] [|t x]; cbn; intros A B; try discriminate; [reflexivity|]. rewrite IH; congruence. Qed.
Lemma stretch_nth lo : forall hi x k a b t, nth_error lo k = Some a -> nth_error hi k = Some b -> nth_error x k = Some t ->
  nth_error (stretch lo hi x) k = Some (a + (t + 1) / 2 * (b - a)).
Proof.
  induction lo as [|a0 lo IH]; intros [|b0 hi] [|t0 x] [|k] a b t; cbn; intros A B C; try discriminate; [congruence|]. apply IH; assumption.
Qed.
Lemma basis_stretch lo hi x : Forall2 (fun a b => a <> b) lo hi -> length lo = length x -> forall n k deg acc,
  (k + n = length x)%nat -> length deg = length x ->
  basis_loop n k lo hi (stretch lo hi x) deg acc = Ok (acc * monomial (skipn k x) (skipn k deg)).
Proof.
  intros Hd Hl. assert (Hh : length hi = length x). { rewrite <- Hl. clear - Hd. induction Hd; cbn; congruence. }
  induction n as [|n IH]; intros k deg acc Hk Hg.
  - cbn [basis_loop]. rewrite !skipn_all2 by lia. cbn. rewrite Rmult_1_r. reflexivity.
  - cbn [basis_loop].
    assert (G : forall (A : Type) (l : list A), length l = length x -> exists a, nth_error l k = Some a).
    { intros A l El. destruct (nth_error l k) as [a|] eqn:E; [eauto|]. apply nth_error_None in E. lia. }
    destruct (G _ x eq_refl) as (t & Ex). destruct (G _ lo Hl) as (a & Ea). destruct (G _ hi Hh) as (b & Eb). destruct (G _ deg Hg) as (e & Ee).
    assert (Hab : a <> b). { clear - Hd Ea Eb. revert k Ea Eb. induction Hd as [|u v lo hi Huv _ IH]; intros [|k] Ea Eb; cbn in *; try discriminate; [congruence|eapply IH; eassumption]. }
    unfold rd. rewrite (stretch_nth _ _ _ _ _ _ _ Ea Eb Ex), Ea, Eb, Ee. cbn [bind]. cbv beta iota.
    rewrite IH by (try lia; assumption). f_equal.
    assert (S : forall (A : Type) (l : list A) y, nth_error l k = Some y -> skipn k l = y :: skipn (S k) l).
    { clear. intros A l y. revert k. induction l as [|z l IHl]; intros [|k] H; cbn in *; try discriminate; [congruence|apply IHl, H]. }
    rewrite (S _ x t Ex), (S _ deg e Ee). cbn [monomial]. replace (2 * ((a + (t + 1) / 2 * (b - a) - a) / (b - a) - 5 / 10)) with t by (field; lra). ring.
Qed.
Lemma combination_stretch shown r x : r_dim r = length x -> length (r_min r) = length x -> Forall2 (fun a b => a <> b) (r_min r) (r_max r) ->
  forall cs acc, Forall (fun c => length (co_deg c) = length x) cs ->
  combination (shown_rf1 shown r) (stretch (r_min r) (r_max r) x) (map (shown_coeff shown) cs) acc = Ok (acc + polynomial shown cs x).
Proof.
  intros Hd Hl Hn cs acc H. revert acc. induction H as [|c cs Hc _ IH]; intros acc; cbn [map combination polynomial]; [rewrite Rplus_0_r; reflexivity|].
  unfold basis. cbn [shown_rf1 shown_coeff r_dim r_min r_max co_deg co_a].
  rewrite (basis_stretch (r_min r) (r_max r) x Hn Hl (r_dim r) 0 (co_deg c) 1) by (try lia; assumption). cbn [bind skipn]. rewrite IH. f_equal. ring.
Qed.
Lemma value_stretch shown d r x : rf1_wf d r -> length x = d -> Forall2 (fun a b => a <> b) (r_min r) (r_max r) ->
  value1 (shown_rf1 shown r) (stretch (r_min r) (r_max r) x) = Ok (polynomial shown (r_p r) x / polynomial shown (r_q r) x).
Proof.
  intros (Hd & A & B & C & D) Hx Hn. rewrite <- Hx in *. unfold value1. cbn [shown_rf1 r_p r_q]. 
  rewrite !combination_stretch by assumption. cbn [bind]. rewrite !Rplus_0_l. reflexivity.
Qed.
Lemma stretch_unit x : stretch (repeat (-1) (length x)) (repeat 1 (length x)) x = x.
Proof. induction x as [|t x IH]; [reflexivity|]. cbn [length repeat stretch]. rewrite IH. f_equal. lra. Qed.

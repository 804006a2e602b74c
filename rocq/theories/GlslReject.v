(** Proofs for the shader export: texts that are not shaders. *)
From Coq Require Import Reals List Lia Lra.
From Verif Require Import Base TextModel NlModel NlMoreModel Glsl GlslModel GlslSpec GlslLex GlslParse GlslBody GlslProgram GlslCheck.
Open Scope R_scope.
Open Scope string_scope.

(** ** parentheses *)
Definition par_char (c : ascii) : Z := match nat_of_ascii c with 40%nat => 1 | 41%nat => -1 | _ => 0 end.
Fixpoint balance (s : string) : Z := match s with "" => 0 | String c t => par_char c + balance t end.
Definition par_tok (t : tok) : Z := match t with P LPar => 1 | P RPar => -1 | _ => 0 end.
Fixpoint tbalance (ts : list tok) : Z := match ts with [] => 0 | t :: r => par_tok t + tbalance r end.
Lemma balance_app a b : (balance (a ++ b) = balance a + balance b)%Z.
Proof. induction a as [|c a IH]; [reflexivity|]. cbn [append balance]. rewrite IH. lia. Qed.
Lemma tbalance_app a b : (tbalance (a ++ b)%list = tbalance a + tbalance b)%Z.
Proof. induction a as [|c a IH]; [reflexivity|]. cbn [app tbalance]. rewrite IH. lia. Qed.
Lemma tbalance_rev a : tbalance (rev a) = tbalance a.
Proof. induction a as [|c a IH]; [reflexivity|]. cbn [rev tbalance]. rewrite tbalance_app, IH. cbn. lia. Qed.
(** the operator that is pending is no parenthesis *)
Definition plain (cu : cur) : Prop := match cu with COp p => extends p <> None | _ => True end.
Ltac all_chars c := destruct c as [[|] [|] [|] [|] [|] [|] [|] [|]].
Lemma char_cases c : (par_char c = 0 \/ single c = Some LPar /\ par_char c = 1 \/ single c = Some RPar /\ par_char c = -1)%Z.
Proof. all_chars c; cbv; auto. Qed.
Lemma char_single c : (par_char c = 0)%Z -> single c <> Some LPar /\ single c <> Some RPar.
Proof. all_chars c; cbv; intros H; try discriminate H; split; discriminate. Qed.
Lemma par_class c : (par_char c <> 0)%Z -> digit c = None /\ letter c = false /\ is_space c = false /\ (forall n, num_next n c = None) /\ nat_of_ascii c <> 61%nat.
Proof.
  intros H. assert (E : c = "("%char \/ c = ")"%char).
  { revert H. all_chars c; cbv; intros H; auto; exfalso; apply H; reflexivity. }
  destruct E as [-> | ->]; (split; [reflexivity|]; split; [reflexivity|]; split; [reflexivity|]; split; [intros []; reflexivity|vm_compute; lia]).
Qed.
Lemma start_balance ts c st : lex_start ts c = Some st -> (tbalance (fst st) = tbalance ts + par_char c)%Z /\ plain (snd st).
Proof.
  intros H. destruct (char_cases c) as [E|E].
  - rewrite E, Z.add_0_r. unfold lex_start in H. destruct (digit c); [injection H as <-; split; [reflexivity|exact I]|].
    destruct (letter c); [injection H as <-; split; [reflexivity|exact I]|]. destruct (is_space c); [injection H as <-; split; [reflexivity|exact I]|].
    destruct (single c) as [p|] eqn:S; [|discriminate]. destruct (extends p) eqn:X; injection H as <-; cbn [fst snd]; [split; [reflexivity|cbn; congruence]|].
    split; [|exact I]. cbn [tbalance]. replace (par_tok (P p)) with 0%Z; [reflexivity|].
    destruct (char_single c E) as [A B]. destruct p; try reflexivity; congruence.
  - assert (N : (par_char c <> 0)%Z) by (destruct E as [(_ & ->)|(_ & ->)]; discriminate). destruct (par_class c N) as (A & B & C & _). unfold lex_start in H. rewrite A, B, C in H.
    destruct E as [(S & E)|(S & E)]; rewrite S in H; cbn [extends] in H; injection H as <-; rewrite E; cbn [fst snd tbalance par_tok plain]; split; try exact I; lia.
Qed.
Lemma num_end_par n t : num_end n = Some t -> par_tok t = 0%Z.
Proof. destruct n; cbn; intros [= <-]; reflexivity. Qed.
Lemma char_balance ts cu c st : plain cu -> lex_char (ts, cu) c = Some st -> (tbalance (fst st) = tbalance ts + par_char c)%Z /\ plain (snd st).
Proof.
  intros Hp H. unfold lex_char in H. cbn [fst snd] in H. destruct cu as [|x|n|p].
  - apply start_balance, H.
  - assert (Z0 : digit c <> None \/ letter c = true -> par_char c = 0%Z).
    { intros Q. destruct (Z.eq_dec (par_char c) 0) as [|N]; [assumption|]. destruct (par_class c N) as (A & B & _). rewrite A, B in Q. destruct Q; congruence. }
    destruct (digit c) eqn:D; [injection H as <-; rewrite Z0 by (left; discriminate); cbn; split; [lia|exact I]|].
    destruct (letter c) eqn:Le; [injection H as <-; rewrite Z0 by auto; cbn; split; [lia|exact I]|]. apply start_balance in H. cbn [tbalance par_tok] in H. exact H.
  - destruct (num_next n c) as [n'|] eqn:Nx.
    + injection H as <-. cbn [fst snd]. destruct (Z.eq_dec (par_char c) 0) as [->|N]; [split; [lia|exact I]|]. destruct (par_class c N) as (_ & _ & _ & A & _). rewrite A in Nx. discriminate.
    + destruct (letter c); [discriminate|]. destruct (num_end n) as [t|] eqn:Ne; [|discriminate]. apply start_balance in H. cbn [tbalance] in H. rewrite (num_end_par n t Ne) in H. exact H.
  - cbn [plain] in Hp. assert (Q : lex_start (P p :: ts) c = Some st -> (tbalance (fst st) = tbalance ts + par_char c)%Z /\ plain (snd st)).
    { intros S. apply start_balance in S. cbn [tbalance] in S. replace (par_tok (P p)) with 0%Z in S by (destruct p; try reflexivity; cbn in Hp; congruence). exact S. }
    destruct (Nat.eq_dec (nat_of_ascii c) 61) as [E|E].
    + rewrite E in H. destruct (extends p) as [q|] eqn:X; [|congruence]. injection H as <-. cbn [fst snd tbalance].
      destruct (Z.eq_dec (par_char c) 0) as [->|N]; [|destruct (par_class c N) as (_ & _ & _ & _ & A); contradiction].
      replace (par_tok (P q)) with 0%Z by (destruct p; cbn in X; try discriminate; injection X as <-; reflexivity). split; [lia|exact I].
    + apply Q. rewrite <- H. clear - E. set (n := nat_of_ascii c) in *. clearbody n.
      do 61 (destruct n as [|n]; [reflexivity|]). destruct n as [|n]; [lia|reflexivity].
Qed.
Lemma lex_balance s : forall ts cu st, plain cu -> lex_from (ts, cu) s = Some st -> (tbalance (fst st) = tbalance ts + balance s)%Z.
Proof.
  induction s as [|c s IH]; intros ts cu st Hp H; cbn [lex_from] in H; [injection H as <-; cbn [fst balance]; rewrite Z.add_0_r; reflexivity|].
  destruct (lex_char (ts, cu) c) as [[ts' cu']|] eqn:E; [|discriminate]. apply char_balance in E; [|exact Hp]. destruct E as (A & B). cbn [fst snd] in A, B.
  rewrite (IH _ _ _ B H), A. cbn [balance]. lia.
Qed.
Lemma tokens_balance s ts : tokens s = Some ts -> tbalance ts = balance s.
Proof.
  unfold tokens. intros H. destruct (lex_from ([], CNone) (s ++ " ")) as [[us [| | |]]|] eqn:E; try discriminate. injection H as <-. rewrite tbalance_rev.
  apply lex_balance in E; [|exact I]. cbn [fst tbalance] in E. rewrite E, balance_app. change (balance " ") with 0%Z. lia.
Qed.

(** ** open parentheses of the parser *)
Fixpoint opens (fr : list frame) : Z := match fr with [] => 0 | FPar :: t | FCall _ _ :: t => 1 + opens t | _ :: t => opens t end.
Definition copens (c : ctx) : Z := match c with XIf => 1 | _ => 0 end.
Definition depth (m : mode) : Z :=
  match m with
  | MParam _ _ _ | MParamType _ _ _ _ | MParamName _ _ _ => 1
  | MExpect fr c | MHave _ fr c | MDot _ fr c => opens fr + copens c
  | _ => 0 end.
Lemma reduce_opens k fr : forall e, opens (snd (reduce k e fr)) = opens fr.
Proof. induction fr as [|f fr IH]; intros e; [reflexivity|]. destruct f; cbn [reduce]; try reflexivity; [destruct (k <=? prec o)%nat; [rewrite IH|]; reflexivity|rewrite IH; reflexivity]. Qed.
Lemma push_depth s fs b q : push_stmt s fs b = Some q -> depth (p_mode q) = 0%Z.
Proof. unfold push_stmt. destruct (add_stmt s b); [|discriminate]. intros [= <-]. reflexivity. Qed.
Lemma close_depth fs b q : close_block fs b = Some q -> depth (p_mode q) = 0%Z.
Proof. destruct b as [|[] b]; cbn; try discriminate; [destruct b; [|discriminate]; intros [= <-]; reflexivity|intros [= <-]; reflexivity|apply push_depth]. Qed.
Lemma stmt_depth fs b t q : stmt_step fs b t = Some q -> (depth (p_mode q) = par_tok t)%Z.
Proof.
  unfold stmt_step. destruct t as [x| |p]; [| discriminate |].
  - destruct (String.eqb x "return"); [intros [= <-]; reflexivity|]. destruct (String.eqb x "if"); [intros [= <-]; reflexivity|]. destruct (String.eqb x "const"); [intros [= <-]; reflexivity|].
    destruct (type_of_name x); [intros [= <-]; reflexivity|]. destruct (keyword x); [discriminate|]. intros [= <-]. reflexivity.
  - destruct p; try discriminate; [apply close_depth|apply push_depth].
Qed.
Lemma end_depth e c fs b q : end_expr e c fs b = Some q -> depth (p_mode q) = 0%Z /\ copens c = 0%Z.
Proof. destruct c; cbn [end_expr copens]; try discriminate; intros H; split; try reflexivity; apply push_depth in H; exact H. Qed.
Lemma have_depth fs b e fr c p q : have_step fs b e fr c p = Some q -> (depth (p_mode q) = opens fr + copens c + par_tok (P p))%Z.
Proof.
  unfold have_step.
  assert (G : forall o, (let '(e', fr') := reduce (prec o) e fr in Some (mkP fs b (MExpect (FBin o e' :: fr') c))) = Some q -> (depth (p_mode q) = opens fr + copens c + 0)%Z).
  { intros o. pose proof (reduce_opens (prec o) fr e) as H0. destruct (reduce (prec o) e fr) as [e' fr']. cbn [snd] in H0. intros [= <-]. cbn [p_mode depth opens]. lia. }
  pose proof (reduce_opens 0 fr e) as H0. destruct p; cbn [op_of par_tok]; try (apply G); try discriminate.
  - destruct e; try discriminate. intros [= <-]. cbn [p_mode depth opens]. lia.
  - destruct (reduce 0 e fr) as [e' [|[] fr']]; cbn [snd opens] in H0; try discriminate; [destruct c; try discriminate| |]; intros [= <-]; cbn [p_mode depth copens]; lia.
  - intros [= <-]. cbn [p_mode depth opens]. lia.
  - destruct (reduce 0 e fr) as [e' [|[] fr']]; cbn [snd opens] in H0; try discriminate. intros [= <-]. cbn [p_mode depth copens]. lia.
  - destruct (reduce 0 e fr) as [e' [|]]; cbn [snd opens] in H0; try discriminate. intros H. apply end_depth in H. destruct H as [-> ->]. lia.
  - destruct (reduce 0 e fr) as [e' [|[] fr']]; cbn [snd opens] in H0; try discriminate. intros [= <-]. cbn [p_mode depth opens copens]. lia.
  - intros [= <-]. cbn [p_mode depth opens]. lia.
  - destruct fr; [|discriminate]. destruct c; try discriminate. intros [= <-]. reflexivity.
  - destruct fr; [|discriminate]. destruct c; try discriminate. intros [= <-]. reflexivity.
Qed.
Lemma step_depth s t q : step s t = Some q -> (depth (p_mode q) = depth (p_mode s) + par_tok t)%Z.
Proof.
  destruct s as [fs b m]. unfold step. cbn [p_funs p_blocks p_mode].
  assert (G : forall c th, match add_stmt (SIf c th []) b with Some b' => stmt_step fs b' t | None => None end = Some q -> (depth (p_mode q) = 0 + par_tok t)%Z).
  { intros c th. destruct (add_stmt (SIf c th []) b) as [b'|]; [|discriminate]. intros H. apply stmt_depth in H. lia. }
  destruct m; cbn [depth].
  all: try (intros H; apply stmt_depth in H; lia).
  all: destruct t as [y|m9 e9|p9]; try discriminate.
  all: try (destruct (type_of_name y); [intros [= <-]; cbn; lia|discriminate]).
  all: try (destruct (keyword y); [discriminate|intros [= <-]; cbn [p_mode depth par_tok opens]; lia]).
  all: try (destruct p9; try discriminate; intros [= <-]; cbn [p_mode depth par_tok opens copens]; lia).
  all: try (intros [= <-]; cbn [p_mode depth par_tok opens copens]; lia).
  all: try (apply G).
  - destruct p9; try discriminate; [intros H; apply push_depth in H; cbn; lia|intros [= <-]; reflexivity].
  - apply have_depth.
  - destruct (String.eqb y "else"); [intros [= <-]; reflexivity|apply G].
Qed.
Lemma steps_depth ts : forall s q, steps s ts = Some q -> (depth (p_mode q) = depth (p_mode s) + tbalance ts)%Z.
Proof.
  induction ts as [|t ts IH]; intros s q H; cbn [steps] in H; [injection H as <-; cbn; lia|].
  destruct (step s t) as [s'|] eqn:E; [|discriminate]. apply step_depth in E. rewrite (IH _ _ H), E. cbn [tbalance]. lia.
Qed.
(** A program has as many opening as closing parentheses. *)
Lemma program_balance text fs : program text = Some fs -> balance text = 0%Z.
Proof.
  unfold program, parse. destruct (tokens text) as [ts|] eqn:T; [|discriminate]. rewrite <- (tokens_balance _ _ T).
  destruct (steps (mkP [] [] MTop) ts) as [[fs' [|] m]|] eqn:E; try discriminate; destruct m; try discriminate; intros _.
  apply steps_depth in E. cbn [p_mode depth] in E. lia.
Qed.

(** ** induction over function objects *)
Fixpoint xfun_all (Q : xfun -> Prop) (Hl : forall k p, Q (XLeaf k p)) (Hr : Q XRational) (Hs : forall fs, Forall Q fs -> Q (XSum fs))
  (Hp : forall f g, Q f -> Q g -> Q (XProd f g)) (f : xfun) : Q f :=
  match f with
  | XLeaf k p => Hl k p | XRational => Hr
  | XSum fs => Hs fs ((fix all l : Forall Q l := match l with [] => Forall_nil _ | f :: t => Forall_cons f (xfun_all Q Hl Hr Hs Hp f) (all t) end) fs)
  | XProd f g => Hp f g (xfun_all Q Hl Hr Hs Hp f) (xfun_all Q Hl Hr Hs Hp g) end.
Lemma kinds_cons f fs : kinds (XSum (f :: fs)) = (kinds f ++ kinds (XSum fs))%list.
Proof. reflexivity. Qed.

Section Num.
Variables (print : R -> string) (shown : R -> R).
Hypothesis Hprint : prints print shown.
Variable nY : nat.
Fixpoint calls (first : bool) (l : list xfun) : outcome string := match l with [] => Ok "" | f :: t =>
  do a <- save_call print nY f; do b <- calls false t; Ok ((if first then "" else tb ++ "res += ") ++ a ++ ";" ++ endl ++ b) end.
Lemma save_calls fs : save_call print nY (XSum fs) = calls true fs.
Proof. reflexivity. Qed.
Lemma save_body_cons f fs : save_body print (XSum (f :: fs)) = (do a <- save_body print f; do b <- save_body print (XSum fs); Ok (a ++ endl ++ b)).
Proof. reflexivity. Qed.
(** ** the text of the masking term has one parenthesis too few *)
Lemma digits_balance ds : Forall (fun d => d < 10)%nat ds -> balance (digit_text ds) = 0%Z.
Proof. induction 1 as [|d ds Hd _ IH]; [reflexivity|]. cbn [digit_text balance]. rewrite IH. do 10 (destruct d as [|d]; [reflexivity|]). lia. Qed.
Lemma print_balance r : balance (print r) = 0%Z.
Proof using Hprint.
  destruct (Hprint r) as (n & (_ & Hi & Hf & He) & -> & _). unfold numeral_text. rewrite !balance_app, (digits_balance _ Hi).
  destruct (n_frac n) as [f|] eqn:Ef, (n_exp n) as [[g e]|] eqn:Ee; rewrite ?balance_app, ?(digits_balance f (Hf f eq_refl)), ?(digits_balance e (proj2 (He g e eq_refl)));
    destruct (n_neg n); try destruct g; reflexivity.
Qed.
Lemma vec_balance v : balance (vec_text print v) = 0%Z.
Proof using Hprint.
  induction v as [|a v IH]; [reflexivity|]. destruct v as [|b v]; [apply print_balance|].
  change (vec_text print (a :: b :: v)) with (print a ++ ", " ++ vec_text print (b :: v)). rewrite !balance_app, print_balance, IH. reflexivity.
Qed.
Lemma vecs_balance vs : balance (vecs_text print vs) = (-1)%Z.
Proof using Hprint. induction vs as [|v vs IH]; [reflexivity|]. cbn [vecs_text]. rewrite !balance_app, vec_balance, IH. reflexivity. Qed.
Lemma call_balance f vs : balance f = 0%Z -> balance (call_text print f vs) = 0%Z.
Proof using Hprint. intros H. unfold call_text. rewrite !balance_app, vecs_balance, H. reflexivity. Qed.
Lemma lobes_balance k n p : balance (lobes_text print nY k n p) = 0%Z.
Proof using Hprint.
  unfold lobes_text. generalize (seq 0 n). intros l. induction l as [|i l IH]; [reflexivity|]. cbn [map] in *. destruct l as [|j l]; [apply call_balance; reflexivity|].
  cbn [map] in *. match goal with |- balance (String.concat _ (?a :: ?b :: ?t)) = _ => change (String.concat " + " (a :: b :: t)) with (a ++ " + " ++ String.concat " + " (b :: t)) end.
  rewrite !balance_app, IH, call_balance by reflexivity. reflexivity.
Qed.
Definition masks (ks : list kind) : Z := Z.of_nat (length (filter (fun k => match k with KMasking => true | _ => false end) ks)).
Lemma masks_app a b : (masks (a ++ b) = masks a + masks b)%Z.
Proof. unfold masks. rewrite filter_app, app_length. lia. Qed.
Lemma leaf_call_balance k p : balance (leaf_call print nY k p) = (- masks [k])%Z.
Proof using Hprint.
  destruct k; try (apply call_balance; reflexivity); try (apply lobes_balance); cbn [leaf_call]; rewrite !balance_app, vec_balance; reflexivity.
Qed.
Lemma leaf_body_balance k b : leaf_body print k = Ok b -> balance b = 0%Z.
Proof using Hprint.
  intros E. destruct k as [| | | | | | | | |[| | |] |a| |n|n| | | | ]; cbn [leaf_body] in E; try discriminate E; apply Ok_inj in E; subst b;
    unfold gauss_body, head, line, component_text; repeat rewrite balance_app; rewrite ?print_balance; vm_compute; reflexivity.
Qed.
Lemma body_balance f : forall b, save_body print f = Ok b -> balance b = 0%Z.
Proof using Hprint.
  induction f as [k p| |fs IH|f g IHf IHg] using xfun_all; intros b H.
  - apply (leaf_body_balance k), H.
  - injection H as <-. reflexivity.
  - revert b H. induction IH as [|f fs Hf _ IH]; intros b H; [injection H as <-; reflexivity|]. rewrite save_body_cons in H.
    destruct (save_body print f) as [a| | |]; try discriminate. destruct (save_body print (XSum fs)) as [c| | |]; try discriminate. cbn [bind] in H.
    apply Ok_inj in H. subst b. rewrite !balance_app, (Hf a eq_refl), (IH c eq_refl). reflexivity.
  - cbn [save_body] in H. destruct (save_body print f) as [a| | |]; try discriminate. destruct (save_body print g) as [c| | |]; try discriminate. cbn [bind] in H.
    apply Ok_inj in H. subst b. rewrite !balance_app, (IHf a eq_refl), (IHg c eq_refl). reflexivity.
Qed.
Lemma call_sum_balance f : forall c, save_call print nY f = Ok c -> balance c = (- masks (kinds f))%Z.
Proof using Hprint.
  induction f as [k p| |fs IH|f g IHf IHg] using xfun_all; intros c H.
  - injection H as <-. apply leaf_call_balance.
  - discriminate.
  - revert c H. rewrite save_calls. generalize true. induction IH as [|f fs Hf _ IH]; intros first c H; [injection H as <-; reflexivity|].
    cbn [calls] in H. destruct (save_call print nY f) as [a| | |]; try discriminate. destruct (calls false fs) as [d| | |] eqn:E; try discriminate. cbn [bind] in H.
    apply Ok_inj in H. subst c. rewrite kinds_cons, masks_app, !balance_app, (Hf a eq_refl), (IH false d E).
    replace (balance (if first then "" else tb ++ "res += ")) with 0%Z by (destruct first; reflexivity). change (balance ";") with 0%Z. change (balance endl) with 0%Z. lia.
  - cbn [save_call] in H. destruct (save_call print nY f) as [a| | |]; try discriminate. destruct (save_call print nY g) as [b| | |]; try discriminate. cbn [bind] in H.
    apply Ok_inj in H. subst c. cbn [kinds]. rewrite masks_app, !balance_app, (IHf a eq_refl), (IHg b eq_refl).
    change (balance "(") with 1%Z. change (balance " * ") with 0%Z. change (balance ")") with (-1)%Z. change (balance endl) with 0%Z. lia.
Qed.
Lemma masking_rejected f text : In KMasking (kinds f) -> save_shader print nY f = Ok text -> program text = None.
Proof using Hprint.
  intros Hk H. unfold save_shader in H. destruct (save_body print f) as [b| | |] eqn:Eb; try discriminate. destruct (save_call print nY f) as [c| | |] eqn:Ec; try discriminate.
  cbn [bind] in H. apply Ok_inj in H. destruct (program text) as [prog|] eqn:E; [exfalso|reflexivity]. apply program_balance in E. subst text.
  rewrite !balance_app, (body_balance f b Eb), (call_sum_balance f c Ec) in E.
  change (balance "vec3 BRDF(vec3 L, vec3 V, vec3 N, vec3 X, vec3 Y)") with 0%Z in E. change (balance endl) with 0%Z in E. change (balance "{") with 0%Z in E.
  change (balance tb) with 0%Z in E. change (balance "vec3 res = ") with 0%Z in E. change (balance (line "return res;")) with 0%Z in E. change (balance "}") with 0%Z in E.
  assert (0 < masks (kinds f))%Z; [|lia]. apply in_split in Hk. destruct Hk as (u & v & ->). rewrite masks_app.
  unfold masks. cbn [filter length]. lia.
Qed.

(** ** the helper of the Walter masking term declares a variable with a parenthesis *)
Definition bad (b : string) : Prop := forall fs, exists pre post, b = pre ++ post /\ rejects pre (mkP fs [] MTop).
Lemma bad_app_l a b : bad a -> bad (a ++ b).
Proof. intros H fs. destruct (H fs) as (u & v & -> & R0). exists u, (v ++ b). split; [apply app_assoc_s|assumption]. Qed.
Lemma bad_app_r a b u : reads a u -> bad b -> bad (a ++ b).
Proof. intros A H fs. destruct (H (rev u ++ fs)%list) as (v & w & -> & R0). exists (a ++ v), w. split; [rewrite app_assoc_s; reflexivity|]. eapply rejects_app; [apply A|exact R0]. Qed.
Lemma walter_bad b : leaf_body print KWalter = Ok b -> bad b.
Proof.
  intros E fs. cbn [leaf_body] in E. apply Ok_inj in E. subst b. eexists _, "". split; [symmetry; apply app_nil_s|].
  apply rejects_const; [intros ts; vm_compute; reflexivity|vm_compute; reflexivity].
Qed.
Lemma leaf_kinds k : leaf_body print k <> Abort -> k <> KWalter -> forall b, leaf_body print k = Ok b -> reads b (body_funs print k).
Proof using Hprint.
  intros H1 H2 b E. destruct k as [| | | | | | | | |t|a| |n|n| | | | ]; try (apply (leaf_reads print shown Hprint); [cbn; tauto|exact E]); try congruence.
  - apply (leaf_reads print shown Hprint (KLafIso 1)); [left; cbn; lia|exact E].
  - apply (leaf_reads print shown Hprint (KLaf 1)); [left; cbn; lia|exact E].
Qed.
Lemma body_reads f : forall b, save_body print f = Ok b -> (~ In KWalter (kinds f) /\ reads b (flat_map (body_funs print) (kinds f))) \/ bad b.
Proof using Hprint.
  induction f as [k p| |fs IH|f g IHf IHg] using xfun_all; intros b H.
  - cbn [save_body kinds flat_map] in *. rewrite app_nil_r. destruct (leaf_body print k) eqn:E; try discriminate. injection H as ->.
    assert (D : k = KWalter \/ k <> KWalter) by (destruct k; (left; reflexivity) || (right; discriminate)). destruct D as [->|D]; [right; apply walter_bad, E|left].
    split; [intros [Q|[]]; congruence|]. apply leaf_kinds; try assumption. rewrite E. discriminate.
  - injection H as <-. left. split; [intros []|intros g; apply feeds_nil].
  - revert b H. induction IH as [|f fs Hf _ IH]; intros b H; [injection H as <-; left; split; [intros []|intros g; apply feeds_nil]|].
    rewrite save_body_cons in H. destruct (save_body print f) as [a| | |]; try discriminate. destruct (save_body print (XSum fs)) as [c| | |]; try discriminate. cbn [bind] in H.
    apply Ok_inj in H. subst b. rewrite kinds_cons, flat_map_app. destruct (Hf a eq_refl) as [[A1 A2]|A]; [|right; apply bad_app_l, A].
    destruct (IH c eq_refl) as [[B1 B2]|B]; [left|right; eapply bad_app_r; [exact A2|eapply bad_app_r; [apply reads_endl|exact B]]].
    split; [rewrite in_app_iff; tauto|]. apply reads_app; [assumption|apply reads_endl_l; assumption].
  - cbn [save_body kinds] in *. destruct (save_body print f) as [a| | |]; try discriminate. destruct (save_body print g) as [c| | |]; try discriminate. cbn [bind] in H.
    apply Ok_inj in H. subst b. rewrite flat_map_app. destruct (IHf a eq_refl) as [[A1 A2]|A]; [|right; apply bad_app_l, A].
    destruct (IHg c eq_refl) as [[B1 B2]|B]; [left|right; eapply bad_app_r; [exact A2|eapply bad_app_r; [apply reads_endl|apply bad_app_l; exact B]]].
    split; [rewrite in_app_iff; tauto|]. apply reads_app; [assumption|apply reads_endl_l, reads_endl_r; assumption].
Qed.
Lemma bad_program b rest : bad b -> program (b ++ rest) = None.
Proof. intros H. destruct (H []) as (u & v & -> & R0). rewrite app_assoc_s. apply rejects_program. exact R0. Qed.
Definition brdf_text (c : string) : string :=
  "vec3 BRDF(vec3 L, vec3 V, vec3 N, vec3 X, vec3 Y)" ++ endl ++ "{" ++ endl ++ tb ++ "vec3 res = " ++ c ++ line "return res;" ++ "}" ++ endl ++ endl.
Lemma shader_text f text : save_shader print nY f = Ok text -> exists b c, save_body print f = Ok b /\ save_call print nY f = Ok c /\ text = b ++ brdf_text c.
Proof.
  unfold save_shader. destruct (save_body print f) as [b| | |]; try discriminate. destruct (save_call print nY f) as [c| | |]; try discriminate.
  cbn [bind]. intros H. apply Ok_inj in H. exists b, c. auto.
Qed.
Lemma walter_rejected f text : In KWalter (kinds f) -> save_shader print nY f = Ok text -> program text = None.
Proof using Hprint.
  intros Hk H. destruct (shader_text f text H) as (b & c & Eb & _ & ->). destruct (body_reads f b Eb) as [[N _]|B]; [contradiction|]. apply bad_program, B.
Qed.

(** ** a body that uses names it does not declare *)
Lemma steps_funs_step s t q : step s t = Some q -> exists u, p_funs q = (u ++ p_funs s)%list.
Proof.
  destruct s as [fs b m]. unfold step. cbn [p_funs p_blocks p_mode].
  assert (Pu : forall st fs b q, push_stmt st fs b = Some q -> p_funs q = fs).
  { clear. intros st fs b q. unfold push_stmt. destruct (add_stmt st b); [|discriminate]. intros [= <-]. reflexivity. }
  assert (Cl : forall fs b q, close_block fs b = Some q -> exists u, p_funs q = (u ++ fs)%list).
  { clear - Pu. intros fs b q. destruct b as [|[] b]; cbn [close_block]; try discriminate; [destruct b; [|discriminate]; intros [= <-]; eexists [_]; reflexivity|intros [= <-]; exists []; reflexivity|].
    intros H. apply Pu in H. exists []. assumption. }
  assert (St : forall fs b t q, stmt_step fs b t = Some q -> exists u, p_funs q = (u ++ fs)%list).
  { clear - Pu Cl. intros fs b t q. unfold stmt_step. destruct t as [x| |p]; [| discriminate |].
    - destruct (String.eqb x "return"); [intros [= <-]; exists []; reflexivity|]. destruct (String.eqb x "if"); [intros [= <-]; exists []; reflexivity|].
      destruct (String.eqb x "const"); [intros [= <-]; exists []; reflexivity|]. destruct (type_of_name x); [intros [= <-]; exists []; reflexivity|].
      destruct (keyword x); [discriminate|]. intros [= <-]. exists []. reflexivity.
    - destruct p; try discriminate; [apply Cl|]. intros H. apply Pu in H. exists []. assumption. }
  assert (En : forall e c fs b q, end_expr e c fs b = Some q -> p_funs q = fs).
  { clear - Pu. intros e c fs b q. destruct c; cbn [end_expr]; try discriminate; apply Pu. }
  assert (G : forall c th, match add_stmt (SIf c th []) b with Some b' => stmt_step fs b' t | None => None end = Some q -> exists u, p_funs q = (u ++ fs)%list).
  { intros c th. destruct (add_stmt (SIf c th []) b) as [b'|]; [|discriminate]. apply St. }
  destruct m; try (apply St).
  all: destruct t as [y|m9 e9|p9]; try discriminate.
  all: try (destruct (type_of_name y); [intros [= <-]; exists []; reflexivity|discriminate]).
  all: try (destruct (keyword y); [discriminate|intros [= <-]; exists []; reflexivity]).
  all: try (destruct p9; try discriminate; intros [= <-]; exists []; reflexivity).
  all: try (intros [= <-]; exists []; reflexivity).
  all: try (apply G).
  - destruct p9; try discriminate; [intros H; apply Pu in H; exists []; assumption|intros [= <-]; exists []; reflexivity].
  - unfold have_step.
    assert (Q : forall o, (let '(e', fr') := reduce (prec o) e fr in Some (mkP fs b (MExpect (FBin o e' :: fr') c))) = Some q -> exists u, p_funs q = (u ++ fs)%list).
    { intros o. destruct (reduce (prec o) e fr) as [e' fr']. intros [= <-]. exists []. reflexivity. }
    destruct p9; cbn [op_of]; try (apply Q); try discriminate.
    + destruct e; try discriminate. intros [= <-]. exists []. reflexivity.
    + destruct (reduce 0 e fr) as [e' [|[] fr']]; try discriminate; [destruct c; try discriminate| |]; intros [= <-]; exists []; reflexivity.
    + intros [= <-]. exists []. reflexivity.
    + destruct (reduce 0 e fr) as [e' [|[] fr']]; try discriminate. intros [= <-]. exists []. reflexivity.
    + destruct (reduce 0 e fr) as [e' [|]]; try discriminate. intros H. apply En in H. exists []. assumption.
    + destruct (reduce 0 e fr) as [e' [|[] fr']]; try discriminate. intros [= <-]. exists []. reflexivity.
    + intros [= <-]. exists []. reflexivity.
    + destruct fr; [|discriminate]. destruct c; try discriminate. intros [= <-]. exists []. reflexivity.
    + destruct fr; [|discriminate]. destruct c; try discriminate. intros [= <-]. exists []. reflexivity.
  - destruct (String.eqb y "else"); [intros [= <-]; exists []; reflexivity|apply G].
Qed.
Lemma steps_funs ts : forall s q, steps s ts = Some q -> exists u, p_funs q = (u ++ p_funs s)%list.
Proof.
  induction ts as [|t ts IH]; intros s q H; cbn [steps] in H; [injection H as <-; exists []; reflexivity|].
  destruct (step s t) as [s'|] eqn:E; [|discriminate]. apply steps_funs_step in E. destruct E as [u E]. destruct (IH _ _ H) as [v ->]. rewrite E. exists (v ++ u)%list. rewrite app_assoc. reflexivity.
Qed.
Lemma program_prefix a b u prog : reads a u -> program (a ++ b) = Some prog -> exists v, prog = (u ++ v)%list.
Proof.
  intros H E. destruct (H []) as (t & A & B). rewrite app_nil_r in B. unfold program, tokens in E. rewrite app_assoc_s, lex_app, A, app_nil_r in E.
  destruct (lex_from (rev t, CNone) (b ++ " ")) as [[ts [| | |]]|] eqn:L; try discriminate.
  apply lex_grows in L. destruct L as [w L]. cbn [fst] in L. subst ts. unfold parse in E. rewrite rev_app_distr, rev_involutive, steps_app, B in E.
  destruct (steps (mkP (rev u) [] MTop) (rev w)) as [[fs bl m]|] eqn:S0; try discriminate. destruct bl; [|discriminate]. destruct m; try discriminate. injection E as <-.
  apply steps_funs in S0. destruct S0 as [v S0]. cbn [p_funs] in S0. subst fs. exists (rev v). rewrite rev_app_distr, rev_involutive. reflexivity.
Qed.
Lemma yoo_unchecked sg f : In f (body_funs print KYoo) -> check_fun sg f = false.
Proof.
  cbn [body_funs In]. intros [<-|[]]. unfold check_fun. apply andb_false_iff. right. unfold fun_. cbn [fn_body fn_params fn_type check_block check_stmt]. unfold has_type.
  reflexivity.
Qed.
Lemma check_in sg fs f : In f fs -> (forall sg, check_fun sg f = false) -> check_from sg fs = false.
Proof.
  intros H Hf. revert sg. induction fs as [|g fs IH]; intros sg; [destruct H|]. cbn [check_from]. destruct H as [->|H]; [rewrite Hf; reflexivity|].
  rewrite (IH H). apply andb_false_r.
Qed.
Lemma yoo_rejected f text prog : In KYoo (kinds f) -> save_shader print nY f = Ok text -> program text = Some prog -> compiles prog = false.
Proof using Hprint.
  intros Hk H Hp. destruct (shader_text f text H) as (b & c & Eb & _ & ->). destruct (body_reads f b Eb) as [[_ R0]|B]; [|rewrite bad_program in Hp by exact B; discriminate].
  destruct (program_prefix _ _ _ _ R0 Hp) as [v ->]. unfold compiles. rewrite check_from_app. apply andb_false_iff. left.
  eapply check_in with (f := hd (brdf_fun []) (body_funs print KYoo)); [|intros sg; apply yoo_unchecked; left; reflexivity].
  apply in_flat_map. exists KYoo. split; [exact Hk|left; reflexivity].
Qed.

(** ** no text *)
Lemma body_outcome f : (In KSmith (kinds f) /\ save_body print f = Abort) \/ (~ In KSmith (kinds f) /\ exists b, save_body print f = Ok b).
Proof.
  induction f as [k p| |fs IH|f g IHf IHg] using xfun_all.
  - cbn [kinds save_body]. destruct k as [| | | | | | | | |[]| | | | | | | | ]; try (right; split; [intros [H|[]]; discriminate H|eexists; reflexivity]).
    left. split; [left|]; reflexivity.
  - right. split; [intros []|eexists; reflexivity].
  - induction IH as [|f fs Hf _ IH]; [right; split; [intros []|eexists; reflexivity]|]. rewrite kinds_cons, save_body_cons, in_app_iff.
    destruct Hf as [[A ->]|[A [b ->]]]; [left; split; [auto|reflexivity]|]. destruct IH as [[B ->]|[B [c ->]]]; [left; split; [auto|reflexivity]|].
    right. split; [tauto|eexists; reflexivity].
  - cbn [kinds save_body]. rewrite in_app_iff. destruct IHf as [[A ->]|[A [b ->]]]; [left; split; [auto|reflexivity]|].
    destruct IHg as [[B ->]|[B [c ->]]]; [left; split; [auto|reflexivity]|]. right. split; [tauto|eexists; reflexivity].
Qed.
Lemma has_rational_cons f fs : has_rational (XSum (f :: fs)) <-> has_rational f \/ has_rational (XSum fs).
Proof. reflexivity. Qed.
Lemma call_outcome f : (has_rational f /\ save_call print nY f = Abort) \/ (~ has_rational f /\ exists c, save_call print nY f = Ok c).
Proof.
  induction f as [k p| |fs IH|f g IHf IHg] using xfun_all.
  - right. split; [intros []|eexists; reflexivity].
  - left. split; [exact I|reflexivity].
  - rewrite save_calls. generalize true. induction IH as [|f fs Hf _ IH]; intros first; [right; split; [intros []|eexists; reflexivity]|]. rewrite has_rational_cons. cbn [calls].
    destruct Hf as [[A ->]|[A [b ->]]]; [left; split; [auto|reflexivity]|]. destruct (IH false) as [[B ->]|[B [c ->]]]; [left; split; [auto|reflexivity]|].
    right. split; [tauto|eexists; reflexivity].
  - cbn [has_rational save_call]. destruct IHf as [[A ->]|[A [b ->]]]; [left; split; [auto|reflexivity]|].
    destruct IHg as [[B ->]|[B [c ->]]]; [left; split; [auto|reflexivity]|]. right. split; [tauto|eexists; reflexivity].
Qed.
Lemma shader_aborts f : save_shader print nY f = Abort <-> In KSmith (kinds f) \/ has_rational f.
Proof.
  unfold save_shader. destruct (body_outcome f) as [[A ->]|[A [b ->]]]; [split; [auto|reflexivity]|]. cbn [bind].
  destruct (call_outcome f) as [[B ->]|[B [c ->]]]; [split; [auto|reflexivity]|]. cbn [bind]. split; [discriminate|tauto].
Qed.
Lemma shader_written f : ~ In KSmith (kinds f) -> ~ has_rational f -> exists text, save_shader print nY f = Ok text.
Proof.
  intros A B. unfold save_shader. destruct (body_outcome f) as [[? _]|[_ [b ->]]]; [contradiction|]. destruct (call_outcome f) as [[? _]|[_ [c ->]]]; [contradiction|].
  eexists. reflexivity.
Qed.

(** ** semicolons *)
Fixpoint semis (s : string) : nat := match s with "" => 0 | String c t => (if Ascii.eqb c ";" then 1 else 0) + semis t end.
Lemma semis_app a b : semis (a ++ b) = (semis a + semis b)%nat.
Proof. induction a as [|c a IH]; [reflexivity|]. cbn [append semis]. rewrite IH. lia. Qed.
Lemma digits_semis ds : Forall (fun d => d < 10)%nat ds -> semis (digit_text ds) = 0%nat.
Proof. induction 1 as [|d ds Hd _ IH]; [reflexivity|]. cbn [digit_text semis]. rewrite IH. do 10 (destruct d as [|d]; [reflexivity|]). lia. Qed.
Lemma print_semis r : semis (print r) = 0%nat.
Proof using Hprint.
  destruct (Hprint r) as (n & (_ & Hi & Hf & He) & -> & _). unfold numeral_text. rewrite !semis_app, (digits_semis _ Hi).
  destruct (n_frac n) as [f|] eqn:Ef, (n_exp n) as [[g e]|] eqn:Ee; rewrite ?semis_app, ?(digits_semis f (Hf f eq_refl)), ?(digits_semis e (proj2 (He g e eq_refl)));
    destruct (n_neg n); try destruct g; reflexivity.
Qed.
Lemma vec_semis v : semis (vec_text print v) = 0%nat.
Proof using Hprint.
  induction v as [|a v IH]; [reflexivity|]. destruct v as [|b v]; [apply print_semis|].
  change (vec_text print (a :: b :: v)) with (print a ++ ", " ++ vec_text print (b :: v)). rewrite !semis_app, print_semis, IH. reflexivity.
Qed.
Lemma vecs_semis vs : semis (vecs_text print vs) = 0%nat.
Proof using Hprint. induction vs as [|v vs IH]; [reflexivity|]. cbn [vecs_text]. rewrite !semis_app, vec_semis, IH. reflexivity. Qed.
Lemma call_semis f vs : semis f = 0%nat -> semis (call_text print f vs) = 0%nat.
Proof using Hprint. intros H. unfold call_text. rewrite !semis_app, vecs_semis, H. reflexivity. Qed.
Lemma lobes_semis k n p : semis (lobes_text print nY k n p) = 0%nat.
Proof using Hprint.
  unfold lobes_text. generalize (seq 0 n). intros l. induction l as [|i l IH]; [reflexivity|]. cbn [map] in *. destruct l as [|j l]; [apply call_semis; reflexivity|].
  cbn [map] in *. match goal with |- semis (String.concat _ (?a :: ?b :: ?t)) = _ => change (String.concat " + " (a :: b :: t)) with (a ++ " + " ++ String.concat " + " (b :: t)) end.
  rewrite !semis_app, IH, call_semis by reflexivity. reflexivity.
Qed.
Lemma leaf_call_semis k p : semis (leaf_call print nY k p) = 0%nat.
Proof using Hprint.
  destruct k; try (apply call_semis; reflexivity); try (apply lobes_semis); cbn [leaf_call]; rewrite !semis_app, vec_semis; reflexivity.
Qed.
Lemma no_compound_semis f : forall c, no_compound f -> save_call print nY f = Ok c -> semis c = 0%nat.
Proof using Hprint.
  induction f as [k p| |fs IH|f g IHf IHg] using xfun_all; intros c Hn H; try contradiction; try discriminate.
  - injection H as <-. apply leaf_call_semis.
  - destruct Hn as [Hf Hg]. cbn [save_call] in H. destruct (save_call print nY f) as [a| | |]; try discriminate. destruct (save_call print nY g) as [b| | |]; try discriminate.
    cbn [bind] in H. apply Ok_inj in H. subst c. rewrite !semis_app, (IHf a Hf eq_refl), (IHg b Hg eq_refl). reflexivity.
Qed.
(** the tokens of a text without semicolons *)
Definition calm (cu : cur) : Prop := match cu with COp p => extends p <> None | _ => True end.
Lemma semi_single c : single c = Some Semi -> Ascii.eqb c ";" = true.
Proof. all_chars c; cbv; intros H; try discriminate H; reflexivity. Qed.
Lemma start_calm ts c st : Ascii.eqb c ";" = false -> lex_start ts c = Some st -> exists u, fst st = (u ++ ts)%list /\ ~ In (P Semi) u /\ calm (snd st).
Proof.
  intros N H. unfold lex_start in H. destruct (digit c); [injection H as <-; exists []; repeat split; intros []|].
  destruct (letter c); [injection H as <-; exists []; repeat split; intros []|]. destruct (is_space c); [injection H as <-; exists []; repeat split; intros []|].
  destruct (single c) as [p|] eqn:E; [|discriminate]. destruct (extends p) eqn:X; injection H as <-.
  - exists []. cbn. split; [reflexivity|]. split; [intros []|]. congruence.
  - exists [P p]. split; [reflexivity|]. split; [|exact I]. intros [[= ->]|[]]. rewrite (semi_single c E) in N. discriminate.
Qed.
Lemma char_calm ts cu c st : Ascii.eqb c ";" = false -> calm cu -> lex_char (ts, cu) c = Some st -> exists u, fst st = (u ++ ts)%list /\ ~ In (P Semi) u /\ calm (snd st).
Proof.
  intros N Hp H. unfold lex_char in H. cbn [fst snd] in H.
  assert (One : forall t, t <> P Semi -> lex_start (t :: ts) c = Some st -> exists u, fst st = (u ++ ts)%list /\ ~ In (P Semi) u /\ calm (snd st)).
  { intros t Ht S0. apply start_calm in S0; [|exact N]. destruct S0 as (u & E & A & B). exists (u ++ [t])%list. rewrite <- app_assoc. split; [exact E|]. split; [|exact B].
    rewrite in_app_iff. intros [Q|[Q|[]]]; [contradiction|]. congruence. }
  destruct cu as [|x|n|p].
  - apply (start_calm ts c st N H).
  - destruct (digit c); [injection H as <-; exists []; repeat split; intros []|]. destruct (letter c); [injection H as <-; exists []; repeat split; intros []|].
    apply (One (Id x)); [discriminate|exact H].
  - destruct (num_next n c); [injection H as <-; exists []; repeat split; intros []|]. destruct (letter c); [discriminate|]. destruct (num_end n) as [t|] eqn:E; [|discriminate].
    apply (One t); [|exact H]. destruct n; cbn in E; try discriminate E; injection E as <-; discriminate.
  - cbn [calm] in Hp. assert (Np : P p <> P Semi) by (intros [= ->]; apply Hp; reflexivity).
    destruct (Nat.eq_dec (nat_of_ascii c) 61) as [E|E].
    + rewrite E in H. destruct (extends p) as [q|] eqn:X; [|congruence]. injection H as <-. exists [P q]. split; [reflexivity|]. split; [|exact I].
      intros [[= ->]|[]]. destruct p; discriminate X.
    + apply (One (P p) Np). rewrite <- H. clear - E. set (n := nat_of_ascii c) in *. clearbody n.
      do 61 (destruct n as [|n]; [reflexivity|]). destruct n as [|n]; [lia|reflexivity].
Qed.
Lemma lex_calm s : forall ts cu st, semis s = 0%nat -> calm cu -> lex_from (ts, cu) s = Some st -> exists u, fst st = (u ++ ts)%list /\ ~ In (P Semi) u /\ calm (snd st).
Proof.
  induction s as [|c s IH]; intros ts cu st N Hp H; cbn [lex_from] in H; [injection H as <-; exists []; repeat split; [intros []|exact Hp]|].
  cbn [semis] in N. destruct (Ascii.eqb c ";") eqn:E; [discriminate N|]. destruct (lex_char (ts, cu) c) as [[ts' cu']|] eqn:L; [|discriminate].
  apply char_calm in L; try assumption. destruct L as (u & E1 & A & B). cbn [fst snd] in E1, B. subst ts'. destruct (IH _ _ _ N B H) as (v & E2 & C & D).
  exists (v ++ u)%list. rewrite <- app_assoc. split; [exact E2|]. split; [|exact D]. rewrite in_app_iff. tauto.
Qed.
(** an initialiser lasts until a semicolon *)
Definition initialising (m : mode) : Prop := match m with MExpect _ (XInit _ _) | MHave _ _ (XInit _ _) | MDot _ _ (XInit _ _) => True | _ => False end.
Lemma step_init s t q : t <> P Semi -> initialising (p_mode s) -> step s t = Some q -> initialising (p_mode q).
Proof.
  destruct s as [fs b m]. intros Ht Hm. unfold step. cbn [p_funs p_blocks p_mode] in *. destruct m as [| | | | | | | | | | |fr c|e fr c|e fr c| | | | ]; try contradiction; destruct c as [ty9 x9| | | | | ]; try contradiction.
  - destruct t as [x|m e|p]; [destruct (keyword x); [discriminate|]|..]; try (intros [= <-]; exact I). destruct p; try discriminate; intros [= <-]; exact I.
  - destruct t as [x|m e0|p]; try discriminate. unfold have_step.
    assert (Q : forall o, (let '(e', fr') := reduce (prec o) e fr in Some (mkP fs b (MExpect (FBin o e' :: fr') (XInit ty9 x9)))) = Some q -> initialising (p_mode q)).
    { intros o. destruct (reduce (prec o) e fr) as [e' fr']. intros [= <-]. exact I. }
    destruct p; cbn [op_of]; try (apply Q); try discriminate; try congruence.
    + destruct e; try discriminate. intros [= <-]. exact I.
    + destruct (reduce 0 e fr) as [e' [|[] fr']]; try discriminate; intros [= <-]; exact I.
    + intros [= <-]. exact I.
    + destruct (reduce 0 e fr) as [e' [|[] fr']]; try discriminate; intros [= <-]; exact I.
    + destruct (reduce 0 e fr) as [e' [|[] fr']]; try discriminate; intros [= <-]; exact I.
    + intros [= <-]. exact I.
    + destruct fr; discriminate.
    + destruct fr; discriminate.
  - destruct t as [y|m e0|p]; try discriminate. intros [= <-]. exact I.
Qed.
Lemma steps_init ts : forall s q, ~ In (P Semi) ts -> initialising (p_mode s) -> steps s ts = Some q -> initialising (p_mode q).
Proof.
  induction ts as [|t ts IH]; intros s q N Hm H; cbn [steps] in H; [injection H as <-; exact Hm|]. destruct (step s t) as [s'|] eqn:E; [|discriminate].
  apply (IH s' q); [intros Q; apply N; right; exact Q| |exact H]. apply (step_init s t); [intros ->; apply N; left; reflexivity|exact Hm|exact E].
Qed.
Definition head_text : string := "vec3 BRDF(vec3 L, vec3 V, vec3 N, vec3 X, vec3 Y)" ++ endl ++ "{" ++ endl ++ tb ++ "vec3 res = ".
Lemma last_tokens ts : lex_from (ts, CNone) ("return res;" ++ endl ++ "}" ++ endl ++ endl ++ " ") = Some ((rev [Id "return"; Id "res"; P Semi; P RBrace] ++ ts)%list, CNone).
Proof. vm_compute. reflexivity. Qed.
Lemma no_semicolon b u c : reads b u -> semis c = 0%nat -> program (b ++ brdf_text c) = None.
Proof.
  intros Hb Hc. unfold brdf_text.
  replace (b ++ _) with ((b ++ head_text) ++ (c ++ tb) ++ "return res;" ++ endl ++ "}" ++ endl ++ endl) by (unfold head_text, line; repeat rewrite app_assoc_s; reflexivity).
  assert (F : feeds (b ++ head_text) (mkP [] [] MTop) (mkP (rev u) [BFun TVec3 "BRDF" lvnxy []] (MExpect [] (XInit TVec3 "res")))).
  { eapply feeds_app; [apply Hb|]. rewrite app_nil_r. apply feeds_const; [intros ts; vm_compute; reflexivity|vm_compute; reflexivity]. }
  set (pre := b ++ head_text) in *. set (s1 := mkP (rev u) [BFun TVec3 "BRDF" lvnxy []] (MExpect [] (XInit TVec3 "res"))) in *. destruct F as (t & A & B). unfold program, tokens. rewrite !app_assoc_s. rewrite lex_app, A, app_nil_r.
  set (rest := "return res;" ++ _). rewrite <- (app_assoc_s c tb). rewrite lex_app.
  destruct (lex_from (rev t, CNone) (c ++ tb)) as [[ts cu]|] eqn:L; [|reflexivity].
  assert (Hs : semis (c ++ tb) = 0%nat) by (rewrite semis_app, Hc; reflexivity).
  destruct (lex_calm (c ++ tb) (rev t) CNone _ Hs I L) as (w & E & N & _). cbn [fst] in E. subst ts.
  assert (Hcu : cu = CNone).
  { rewrite lex_app in L. destruct (lex_from (rev t, CNone) c) as [[ts cu0]|]; [|discriminate]. cbn [lex_from tb] in L. destruct (lex_char (ts, cu0) tab) as [st|] eqn:Lc; [|discriminate].
    injection L as ->. revert Lc. unfold lex_char. cbn [fst snd]. assert (Sp : forall ts, lex_start ts tab = Some (ts, CNone)) by reflexivity.
    destruct cu0 as [|x|n|p]; [rewrite Sp; congruence|change (digit tab) with (@None Z); change (letter tab) with false; cbv iota; rewrite Sp; congruence| |].
    - change (letter tab) with false. destruct (num_next n tab) eqn:X; [destruct n; discriminate X|]. destruct (num_end n); [rewrite Sp; congruence|discriminate].
    - change (nat_of_ascii tab) with 9%nat. cbv iota. rewrite Sp. congruence. }
  subst cu. subst rest. rewrite last_tokens. cbv iota.
  unfold parse. rewrite !rev_app_distr, !rev_involutive, <- app_assoc, steps_app, B, steps_app.
  destruct (steps s1 (rev w)) as [s2|] eqn:S0; [|reflexivity].
  apply steps_init in S0; [|rewrite <- in_rev; exact N|exact I].
  destruct s2 as [fs bl m]. cbn [p_mode] in S0. destruct m as [| | | | | | | | | | |fr cc|e fr cc|e fr cc| | | | ]; try contradiction; destruct cc; try contradiction; reflexivity.
Qed.
Lemma no_compound_rejected f text : no_compound f -> save_shader print nY f = Ok text -> program text = None.
Proof using Hprint.
  intros Hn H. destruct (shader_text f text H) as (b & c & Eb & Ec & ->). destruct (body_reads f b Eb) as [[_ R0]|B]; [|apply bad_program, B].
  apply (no_semicolon b _ c R0). apply (no_compound_semis f c Hn Ec).
Qed.

(** ** no semicolon inside parentheses *)
Lemma step_semi s q : step s (P Semi) = Some q -> depth (p_mode s) = 0%Z /\ depth (p_mode q) = 0%Z.
Proof.
  intros H. pose proof (step_depth _ _ _ H) as D. cbn [par_tok] in D. enough (depth (p_mode s) = 0%Z) by lia.
  destruct s as [fs b m]. unfold step in H. cbn [p_funs p_blocks p_mode] in *. destruct m; try discriminate; try reflexivity.
  cbn [have_step] in H. pose proof (reduce_opens 0 fr e) as H0. destruct (reduce 0 e fr) as [e' [|]]; [|discriminate]. cbn [snd opens] in H0. apply end_depth in H. cbn [depth]. lia.
Qed.
Lemma semi_lex ts cu st : lex_char (ts, cu) ";" = Some st -> exists u, st = (P Semi :: u ++ ts, CNone)%list /\ (plain cu -> tbalance u = 0%Z).
Proof.
  unfold lex_char. cbn [fst snd]. assert (Sp : forall ts, lex_start ts ";" = Some (P Semi :: ts, CNone)) by reflexivity. destruct cu as [|x|n|p].
  - rewrite Sp. intros [= <-]. exists []. split; reflexivity.
  - change (digit ";") with (@None Z). change (letter ";") with false. cbv iota. rewrite Sp. intros [= <-]. exists [Id x]. split; reflexivity.
  - change (letter ";") with false. destruct (num_next n ";") eqn:X; [destruct n; discriminate X|]. destruct (num_end n) as [t|] eqn:E; [|discriminate]. rewrite Sp. intros [= <-].
    exists [t]. split; [reflexivity|]. intros _. cbn [tbalance]. rewrite (num_end_par n t E). reflexivity.
  - change (nat_of_ascii ";") with 59%nat. cbv iota. rewrite Sp. intros [= <-]. exists [P p]. split; [reflexivity|]. cbn [plain]. intros Hp. destruct p; try reflexivity; cbn in Hp; congruence.
Qed.
Lemma plain_lex s : forall ts cu st, plain cu -> lex_from (ts, cu) s = Some st -> plain (snd st).
Proof.
  induction s as [|c s IH]; intros ts cu st Hp H; cbn [lex_from] in H; [injection H as <-; exact Hp|]. destruct (lex_char (ts, cu) c) as [[ts' cu']|] eqn:E; [|discriminate].
  apply char_balance in E; [|exact Hp]. apply (IH ts' cu' st); [apply E|exact H].
Qed.
Lemma semi_depth a b prog : program (a ++ ";" ++ b) = Some prog -> balance a = 0%Z.
Proof.
  unfold program, tokens. rewrite !app_assoc_s, lex_app. intros H. destruct (lex_from ([], CNone) a) as [[ts cu]|] eqn:La; [|discriminate].
  pose proof (lex_balance a [] CNone _ I La) as Ba. pose proof (plain_lex a [] CNone _ I La) as Pa. cbn [fst snd tbalance] in Ba, Pa.
  change (";" ++ b ++ " ") with (String ";" (b ++ " ")) in H. cbn [lex_from] in H. destruct (lex_char (ts, cu) ";") as [st|] eqn:Ls; [|discriminate].
  apply semi_lex in Ls. destruct Ls as (u & -> & Bu). specialize (Bu Pa).
  destruct (lex_from (P Semi :: u ++ ts, CNone)%list (b ++ " ")) as [[us [| | |]]|] eqn:Lb; try discriminate.
  apply lex_grows in Lb. destruct Lb as [w Lb]. cbn [fst] in Lb. subst us. unfold parse in H. rewrite rev_app_distr in H. cbn [rev] in H. rewrite <- app_assoc in H. cbn [app] in H. rewrite steps_app in H.
  destruct (steps (mkP [] [] MTop) (rev (u ++ ts))) as [s1|] eqn:S1; [|discriminate]. apply steps_depth in S1. cbn [p_mode depth] in S1. rewrite tbalance_rev, tbalance_app in S1.
  cbn [steps] in H. destruct (step s1 (P Semi)) as [s2|] eqn:S2; [|discriminate]. apply step_semi in S2. lia.
Qed.
Lemma masks_none ks : ~ In KMasking ks -> masks ks = 0%Z.
Proof. induction ks as [|k ks IH]; intros H; [reflexivity|]. change (k :: ks) with ([k] ++ ks)%list. rewrite masks_app, IH by (intros Q; apply H; right; exact Q). destruct k; try reflexivity. exfalso. apply H. left. reflexivity. Qed.
Lemma has_compound_cons f fs : has_compound (XSum (f :: fs)).
Proof. exact I. Qed.
Lemma compound_semi f : forall c, has_compound f -> ~ In KMasking (kinds f) -> save_call print nY f = Ok c -> exists a b, c = a ++ ";" ++ b /\ (0 <= balance a)%Z.
Proof using Hprint.
  induction f as [k p| |fs IH|f g IHf IHg] using xfun_all; intros c Hs Hk H; try contradiction.
  - destruct fs as [|f fs]; [contradiction|]. rewrite save_calls in H. cbn [calls] in H. destruct (save_call print nY f) as [a| | |] eqn:E; try discriminate.
    destruct (calls false fs) as [d| | |]; try discriminate. cbn [bind] in H. apply Ok_inj in H. subst c. exists a, (endl ++ d). split; [cbn [append]; reflexivity|].
    rewrite (call_sum_balance f a E), masks_none; [lia|]. intros Q. apply Hk. rewrite kinds_cons, in_app_iff. auto.
  - cbn [kinds] in Hk. rewrite in_app_iff in Hk. cbn [save_call] in H. destruct (save_call print nY f) as [a| | |] eqn:E; try discriminate. destruct (save_call print nY g) as [b| | |] eqn:E'; try discriminate.
    cbn [bind] in H. apply Ok_inj in H. subst c. destruct Hs as [Hs|Hs].
    + destruct (IHf a Hs ltac:(tauto) eq_refl) as (u & v & -> & B). exists ("(" ++ u), (v ++ " * " ++ b ++ ")" ++ endl). split; [rewrite !app_assoc_s; reflexivity|]. rewrite balance_app. change (balance "(") with 1%Z. lia.
    + destruct (IHg b Hs ltac:(tauto) eq_refl) as (u & v & -> & B). exists ("(" ++ a ++ " * " ++ u), (v ++ ")" ++ endl). split; [rewrite !app_assoc_s; reflexivity|].
      rewrite !balance_app, (call_sum_balance f a E), masks_none by tauto. change (balance "(") with 1%Z. change (balance " * ") with 0%Z. lia.
Qed.
Lemma compound_in_product_semi f : forall c, compound_in_product f -> ~ In KMasking (kinds f) -> save_call print nY f = Ok c -> exists a b, c = a ++ ";" ++ b /\ (0 < balance a)%Z.
Proof using Hprint.
  induction f as [k p| |fs IH|f g IHf IHg] using xfun_all; intros c Hs Hk H; try contradiction.
  - rewrite save_calls in H. assert (G : forall first c, calls first fs = Ok c -> exists a b, c = a ++ ";" ++ b /\ (0 < balance a)%Z); [|exact (G _ _ H)].
    clear c H. induction IH as [|f fs Hf _ IH]; intros first c H; [contradiction|]. rewrite kinds_cons, in_app_iff in Hk. cbn [calls] in H. destruct (save_call print nY f) as [a| | |] eqn:E; try discriminate.
    destruct (calls false fs) as [d| | |] eqn:E'; try discriminate. cbn [bind] in H. apply Ok_inj in H. subst c.
    assert (B0 : balance (if first then "" else tb ++ "res += ") = 0%Z) by (destruct first; reflexivity).
    destruct Hs as [Hs|Hs].
    + destruct (Hf a Hs ltac:(tauto) eq_refl) as (u & v & -> & B). exists ((if first then "" else tb ++ "res += ") ++ u), (v ++ ";" ++ endl ++ d). split; [rewrite !app_assoc_s; reflexivity|]. rewrite balance_app, B0. lia.
    + destruct (IH Hs ltac:(tauto) false d E') as (u & v & -> & B).
      exists ((if first then "" else tb ++ "res += ") ++ a ++ ";" ++ endl ++ u), v. split; [rewrite !app_assoc_s; reflexivity|].
      rewrite !balance_app, B0, (call_sum_balance f a E), masks_none by tauto. change (balance ";") with 0%Z. change (balance endl) with 0%Z. lia.
  - cbn [kinds] in Hk. rewrite in_app_iff in Hk. cbn [save_call] in H. destruct (save_call print nY f) as [a| | |] eqn:E; try discriminate. destruct (save_call print nY g) as [b| | |] eqn:E'; try discriminate.
    cbn [bind] in H. apply Ok_inj in H. subst c. destruct Hs as [Hs|Hs].
    + destruct (compound_semi f a Hs ltac:(tauto) E) as (u & v & -> & B). exists ("(" ++ u), (v ++ " * " ++ b ++ ")" ++ endl). split; [rewrite !app_assoc_s; reflexivity|]. rewrite balance_app. change (balance "(") with 1%Z. lia.
    + destruct (compound_semi g b Hs ltac:(tauto) E') as (u & v & -> & B). exists ("(" ++ a ++ " * " ++ u), (v ++ ")" ++ endl). split; [rewrite !app_assoc_s; reflexivity|].
      rewrite !balance_app, (call_sum_balance f a E), masks_none by tauto. change (balance "(") with 1%Z. change (balance " * ") with 0%Z. lia.
Qed.
Lemma compound_in_product_rejected f text : compound_in_product f -> save_shader print nY f = Ok text -> program text = None.
Proof using Hprint.
  intros Hf H. assert (D : In KMasking (kinds f) \/ ~ In KMasking (kinds f)).
  { generalize (kinds f). intros ks. induction ks as [|k ks IH]; [right; intros []|]. destruct IH as [IH|IH]; [left; right; exact IH|].
    destruct k; try (right; intros [Q|Q]; [discriminate Q|contradiction]). left. left. reflexivity. }
  destruct D as [D|D]; [apply (masking_rejected f); assumption|]. destruct (shader_text f text H) as (b & c & Eb & Ec & ->).
  destruct (compound_in_product_semi f c Hf D Ec) as (u & v & -> & B). destruct (program (b ++ brdf_text (u ++ ";" ++ v))) as [prog|] eqn:E; [exfalso|reflexivity].
  unfold brdf_text in E.
  replace (b ++ _) with ((b ++ head_text ++ u) ++ ";" ++ (v ++ line "return res;" ++ "}" ++ endl ++ endl)) in E by (unfold head_text; repeat rewrite app_assoc_s; reflexivity).
  apply semi_depth in E. rewrite !balance_app, (body_balance f b Eb) in E. change (balance head_text) with 0%Z in E. lia.
Qed.
End Num.

(** Proofs for the C++ export: names used and declared while the text is read. *)
From Coq Require Import Reals List Lia.
From Verif Require Import Base NlModel NlMoreModel Glsl GlslModel GlslSpec GlslLex GlslParse RatModel Cpp CppModel CppSpec.
Open Scope string_scope.

Definition stmt_uses (s : stmt) : list string :=
  match s with
  | SDecl _ _ (Some e) => uses e | SDecl _ _ None => [] | SAssign l e | SAdd l e => uses l ++ uses e
  | SExpr e | SReturn e | SIf e _ _ => uses e | SEmpty => [] end%list.
Fixpoint frames_use (fr : list frame) : list string :=
  match fr with
  | [] => []
  | FBin _ a :: t | FIndex a :: t => uses a ++ frames_use t
  | FNeg :: t | FPar :: t => frames_use t
  | FCall f args :: t => f :: flat_map uses args ++ frames_use t end%list.
Definition ctx_use (c : ctx) : list string := match c with XAssign l | XAdd l => uses l | _ => [] end.
Definition mode_use (m : mode) : list string :=
  match m with
  | MExpect fr c => frames_use fr ++ ctx_use c
  | MHave e fr c | MDot e fr c => uses e ++ frames_use fr ++ ctx_use c
  | MThen c => uses c
  | _ => [] end%list.
Definition outer (m : mode) : Prop :=
  match m with MTop | MTopType _ | MTopName _ _ | MParam _ _ _ | MParamType _ _ _ _ | MParamName _ _ _ | MBody _ _ _ => True | _ => False end.
Definition inner (m : mode) : Prop :=
  match m with MStmt | MConst | MDecl _ | MDeclName _ _ | MExpect _ _ | MHave _ _ _ | MDot _ _ _ | MIf | MThen _ => True | _ => False end.
(** one function, being read or read; no block inside it *)
Inductive shape : pst -> list stmt -> Prop :=
| sh_in t f ps ss m : inner m -> shape (mkP [] [BFun t f ps ss] m) ss
| sh_out t f ps body m : outer m -> shape (mkP [mkFun t f ps body] [] m) (rev body).
Definition mentions (z : string) (m : mode) (ss : list stmt) : Prop := In z (mode_use m) \/ exists s, In s ss /\ In z (stmt_uses s).
Definition is_decl (z : string) (s : stmt) : nat := match s with SDecl _ x _ => if String.eqb x z then 1 else 0 | _ => 0 end.
Definition decls (z : string) (ss : list stmt) : nat := list_sum (map (is_decl z) ss).
Definition ctx_decl (z : string) (c : ctx) : nat := match c with XInit _ x => if String.eqb x z then 1 else 0 | _ => 0 end.
Definition mode_decl (z : string) (m : mode) : nat :=
  match m with MDeclName _ x => if String.eqb x z then 1 else 0 | MExpect _ c | MHave _ _ c | MDot _ _ c => ctx_decl z c | _ => 0 end.
Definition at_decl (m : mode) (t : tok) (z : string) : nat := match m, t with MDecl _, Id x => if String.eqb x z then 1 else 0 | _, _ => 0 end.

Lemma uses_call f args : uses (ECall f args) = (f :: flat_map uses args)%list.
Proof. cbn [uses]. f_equal. Qed.
Lemma reduce_use z k fr : forall e, In z (uses (fst (reduce k e fr)) ++ frames_use (snd (reduce k e fr)))%list <-> In z (uses e ++ frames_use fr)%list.
Proof.
  induction fr as [|f fr IH]; intros e; [reflexivity|]. destruct f; cbn [reduce]; try reflexivity.
  - destruct (k <=? prec o)%nat; [|reflexivity]. rewrite IH. cbn [uses frames_use]. rewrite !in_app_iff. tauto.
  - rewrite IH. cbn [uses frames_use]. reflexivity.
Qed.
Section Name.
Variable z : string.
(** what a step does to the names *)
Definition goes (m : mode) (ss : list stmt) (t : tok) (q : pst) : Prop :=
  exists ss', shape q ss' /\ (mentions z m ss -> mentions z (p_mode q) ss') /\
  (mode_decl z (p_mode q) + decls z ss' = mode_decl z m + decls z ss + at_decl m t z)%nat.
Lemma mentions_in m ss m' ss' : (In z (mode_use m) -> In z (mode_use m') \/ exists s, In s ss' /\ In z (stmt_uses s)) -> (forall s, In s ss -> In s ss') -> mentions z m ss -> mentions z m' ss'.
Proof. intros A B [H|(s & H & K)]; [apply A in H; destruct H as [H|(s & H & K)]; [left|right; exists s]; auto|right; exists s; auto]. Qed.
Lemma goes_mode t0 f ps ss m m' t : inner m' -> (In z (mode_use m) -> In z (mode_use m')) -> mode_decl z m' = (mode_decl z m + at_decl m t z)%nat ->
  goes m ss t (mkP [] [BFun t0 f ps ss] m').
Proof. intros A B C. exists ss. split; [constructor; exact A|]. split; [apply mentions_in; auto|cbn [p_mode]; lia]. Qed.
Lemma goes_stmt t0 f ps ss m t s q : push_stmt s [] [BFun t0 f ps ss] = Some q -> (In z (mode_use m) -> In z (stmt_uses s)) -> is_decl z s = mode_decl z m -> at_decl m t z = 0%nat ->
  goes m ss t q.
Proof.
  cbn. intros [= <-] A B C. exists (s :: ss). split; [constructor; exact I|]. split.
  - apply mentions_in; [intros H; right; exists s; split; [left; reflexivity|apply A, H]|intros s' H; right; exact H].
  - cbn [p_mode mode_decl decls map list_sum fold_right]. unfold decls, list_sum. cbn [map fold_right]. lia.
Qed.
Lemma end_goes t0 f ps ss m e c q t : end_expr e c [] [BFun t0 f ps ss] = Some q -> (In z (mode_use m) -> In z (uses e ++ ctx_use c)%list) -> mode_decl z m = ctx_decl z c -> at_decl m t z = 0%nat ->
  goes m ss t q.
Proof.
  intros H A B C. destruct c; cbn [end_expr] in H; try discriminate; (eapply goes_stmt; [exact H| | |exact C]); cbn [stmt_uses is_decl ctx_use ctx_decl] in *; rewrite ?app_nil_r in A;
  try (rewrite ?in_app_iff in *; tauto); try congruence; symmetry; assumption.
Qed.
Ltac use := cbn [mode_use frames_use ctx_use uses stmt_uses]; rewrite ?uses_call, ?in_app_iff; cbn [In]; rewrite ?in_app_iff; tauto.
Lemma have_goes t0 f ps ss e fr c p q : have_step [] [BFun t0 f ps ss] e fr c p = Some q -> goes (MHave e fr c) ss (P p) q.
Proof.
  unfold have_step.
  assert (G : forall o, (let '(e', fr') := reduce (prec o) e fr in Some (mkP [] [BFun t0 f ps ss] (MExpect (FBin o e' :: fr') c))) = Some q -> goes (MHave e fr c) ss (P p) q).
  { intros o. pose proof (reduce_use z (prec o) fr e) as H0. destruct (reduce (prec o) e fr) as [e' fr']. cbn [fst snd] in H0. intros [= <-].
    apply goes_mode; [exact I| |cbn; lia]. cbn [mode_use frames_use]. rewrite !in_app_iff in *. tauto. }
  pose proof (reduce_use z 0 fr e) as H0. destruct p; cbn [op_of]; try (apply G); try discriminate.
  - destruct e; try discriminate. intros [= <-]. apply goes_mode; [exact I| |cbn; lia]. use.
  - destruct (reduce 0 e fr) as [e' [|[] fr']]; cbn [fst snd frames_use] in H0; try discriminate.
    + destruct c; try discriminate. intros [= <-]. apply goes_mode; [exact I| |reflexivity]. cbn [mode_use ctx_use]. rewrite !app_nil_r in *. tauto.
    + intros [= <-]. apply goes_mode; [exact I| |cbn; lia]. cbn [mode_use]. rewrite !in_app_iff in *. tauto.
    + intros [= <-]. apply goes_mode; [exact I| |cbn; lia]. cbn [mode_use]. rewrite uses_call, flat_map_app. cbn [flat_map]. rewrite app_nil_r. cbn [In app] in *.
      repeat (rewrite ?in_app_iff in *; cbn [In] in * ). tauto.
  - intros [= <-]. apply goes_mode; [exact I| |cbn; lia]. use.
  - destruct (reduce 0 e fr) as [e' [|[] fr']]; cbn [fst snd frames_use] in H0; try discriminate.
    intros [= <-]. apply goes_mode; [exact I| |cbn; lia]. cbn [mode_use uses]. rewrite !in_app_iff in *. tauto.
  - destruct (reduce 0 e fr) as [e' [|]] eqn:R; cbn [fst snd frames_use] in H0; try discriminate. intros H. apply (end_goes _ _ _ _ (MHave e fr c)) with (t := P Semi) in H; auto.
    cbn [mode_use]. rewrite !in_app_iff in *. cbn [In] in H0. tauto.
  - destruct (reduce 0 e fr) as [e' [|[] fr']]; cbn [fst snd frames_use] in H0; try discriminate.
    intros [= <-]. apply goes_mode; [exact I| |cbn; lia]. cbn [mode_use frames_use]. rewrite flat_map_app. cbn [flat_map]. rewrite app_nil_r. cbn [In app] in *.
    repeat (rewrite ?in_app_iff in *; cbn [In] in * ). tauto.
  - intros [= <-]. apply goes_mode; [exact I| |cbn; lia]. use.
  - destruct fr; [|discriminate]. destruct c; try discriminate. intros [= <-]. apply goes_mode; [exact I| |cbn; lia]. cbn [mode_use frames_use ctx_use app]. rewrite !app_nil_r. tauto.
  - destruct fr; [|discriminate]. destruct c; try discriminate. intros [= <-]. apply goes_mode; [exact I| |cbn; lia]. cbn [mode_use frames_use ctx_use app]. rewrite !app_nil_r. tauto.
Qed.
Lemma outer_goes m' q body m t t0 f ps : q = mkP [mkFun t0 f ps body] [] m' -> outer m' -> outer m -> goes m (rev body) t q.
Proof.
  intros -> A B. exists (rev body). split; [constructor; exact A|]. split.
  - apply mentions_in; [|auto]. destruct m; try contradiction; intros [].
  - destruct m; try contradiction; destruct m'; try contradiction; cbn; lia.
Qed.
Lemma step_goes s ss t q : shape s ss -> t <> P LBrace -> step s t = Some q -> goes (p_mode s) ss t q.
Proof.
  intros Hs Ht H. destruct Hs as [t0 f ps ss m Hm|t0 f ps body m Hm].
  - destruct m; try contradiction; cbn [step p_funs p_blocks p_mode] in H.
    + unfold stmt_step in H. destruct t as [x| |p]; [|discriminate|].
      * repeat match type of H with (if ?b then _ else _) = _ => destruct b; [injection H as <-; apply goes_mode; [exact I|cbn; tauto|reflexivity]|] end.
        destruct (type_of_name x); [injection H as <-; apply goes_mode; [exact I|cbn; tauto|reflexivity]|]. destruct (keyword x); [discriminate|].
        injection H as <-. apply goes_mode; [exact I|cbn; tauto|reflexivity].
      * destruct p; try discriminate.
        -- injection H as <-. cbn [p_mode]. exists (rev (rev ss)). split; [constructor; exact I|]. rewrite rev_involutive. split; [|cbn; lia].
           intros [[]|K]. right. exact K.
        -- eapply goes_stmt; [exact H|cbn; tauto|reflexivity|reflexivity].
    + destruct t as [x| |]; try discriminate. destruct (type_of_name x); [injection H as <-|discriminate]. apply goes_mode; [exact I|cbn; tauto|reflexivity].
    + destruct t as [x| |]; try discriminate. destruct (keyword x); [discriminate|]. injection H as <-. apply goes_mode; [exact I|cbn; tauto|reflexivity].
    + destruct t as [| |p]; try discriminate. destruct p; try discriminate; [eapply goes_stmt; [exact H|cbn; tauto|reflexivity|reflexivity]|].
      injection H as <-. apply goes_mode; [exact I|cbn; tauto|cbn; lia].
    + destruct t as [x|a b|p]; try discriminate.
      * destruct (keyword x); [discriminate|]. injection H as <-. apply goes_mode; [exact I| |cbn; lia]. cbn. tauto.
      * injection H as <-. apply goes_mode; [exact I|cbn; tauto|cbn; lia].
      * destruct p; try discriminate; injection H as <-; (apply goes_mode; [exact I|cbn; tauto|cbn; lia]).
    + destruct t as [| |p]; try discriminate. eapply have_goes, H.
    + destruct t as [x| |]; try discriminate. injection H as <-. apply goes_mode; [exact I|cbn; tauto|cbn; lia].
    + destruct t as [| |p]; try discriminate. destruct p; try discriminate. injection H as <-. apply goes_mode; [exact I|cbn; tauto|reflexivity].
    + destruct t as [| |p]; try discriminate. destruct p; try discriminate. congruence.
  - destruct m; try contradiction; cbn [step p_funs p_blocks p_mode] in H |- *.
    all: destruct t as [x| |p]; try discriminate H; try (destruct p; try discriminate H); try (destruct (type_of_name x); [|discriminate H]); try (destruct (keyword x); [discriminate H|]).
    all: try congruence; injection H as <-; eapply outer_goes; try reflexivity; exact I.
Qed.
End Name.

(** ** token streams *)
Definition type_tok (t : tok) : bool := match t with Id x => match type_of_name x with Some _ => true | None => false end | _ => false end.
Definition plain_tok (t : tok) : bool := negb (type_tok t) && match t with P Dot => false | _ => true end.
Definition free_mode (m : mode) : Prop := match m with MDecl _ | MDot _ _ _ | MTopType _ | MParamType _ _ _ _ => False | _ => True end.
Definition not_dot (m : mode) : Prop := match m with MDot _ _ _ => False | _ => True end.
Lemma push_mode s fs b q : push_stmt s fs b = Some q -> p_mode q = MStmt.
Proof. unfold push_stmt. destruct (add_stmt s b); [|discriminate]. intros [= <-]. reflexivity. Qed.
Lemma close_mode fs b q : close_block fs b = Some q -> free_mode (p_mode q).
Proof. destruct b as [|[] b]; cbn; try discriminate; [destruct b; [|discriminate]; intros [= <-]; exact I|intros [= <-]; exact I|]. intros H. rewrite (push_mode _ _ _ _ H). exact I. Qed.
Lemma stmt_mode fs b t q : stmt_step fs b t = Some q -> plain_tok t = true -> free_mode (p_mode q).
Proof.
  unfold stmt_step. destruct t as [x| |p]; [| discriminate |].
  - intros H Hp. unfold plain_tok, type_tok in Hp. destruct (type_of_name x); [discriminate Hp|].
    repeat match type of H with (if ?b then _ else _) = _ => destruct b; [try discriminate; injection H as <-; exact I|] end. injection H as <-. exact I.
  - destruct p; try discriminate; intros H _; [apply close_mode in H; exact H|rewrite (push_mode _ _ _ _ H); exact I].
Qed.
Lemma end_mode e c fs b q : end_expr e c fs b = Some q -> free_mode (p_mode q).
Proof. destruct c; cbn [end_expr]; try discriminate; intros H; rewrite (push_mode _ _ _ _ H); exact I. Qed.
Lemma have_mode fs b e fr c p q : have_step fs b e fr c p = Some q -> p <> Dot -> free_mode (p_mode q).
Proof.
  unfold have_step. intros H Hd.
  assert (G : forall o, (let '(e', fr') := reduce (prec o) e fr in Some (mkP fs b (MExpect (FBin o e' :: fr') c))) = Some q -> free_mode (p_mode q)).
  { intros o. destruct (reduce (prec o) e fr) as [e' fr']. intros [= <-]. exact I. }
  destruct p; cbn [op_of] in H; try (eapply G, H); try discriminate; try congruence.
  - destruct e; try discriminate. injection H as <-. exact I.
  - destruct (reduce 0 e fr) as [e' [|[] fr']]; try discriminate; [destruct c; try discriminate| |]; injection H as <-; exact I.
  - injection H as <-. exact I.
  - destruct (reduce 0 e fr) as [e' [|[] fr']]; try discriminate. injection H as <-. exact I.
  - destruct (reduce 0 e fr) as [e' [|]]; try discriminate. apply end_mode in H. exact H.
  - destruct (reduce 0 e fr) as [e' [|[] fr']]; try discriminate. injection H as <-. exact I.
  - destruct fr; [|discriminate]. destruct c; try discriminate. injection H as <-. exact I.
  - destruct fr; [|discriminate]. destruct c; try discriminate. injection H as <-. exact I.
Qed.
Lemma step_free s ss t q : shape s ss -> step s t = Some q -> plain_tok t = true -> free_mode (p_mode q).
Proof.
  intros Hs H Hp. destruct Hs as [t0 f ps ss m Hm|t0 f ps body m Hm]; destruct m; try contradiction; cbn [step p_funs p_blocks p_mode] in H.
  all: try (eapply stmt_mode; eassumption).
  all: destruct t as [y9|a9 b9|p9]; try discriminate H; try (destruct p9; try discriminate H).
  all: unfold plain_tok, type_tok in Hp; try (destruct (type_of_name y9); [discriminate Hp|try discriminate H]); try (destruct (keyword y9); [discriminate H|]).
  all: try discriminate Hp.
  all: try (apply have_mode in H; [exact H|discriminate]).
  all: try (injection H as <-; exact I).
  all: rewrite (push_mode _ _ _ _ H); exact I.
Qed.
Lemma step_not_dot s ss t q : shape s ss -> step s t = Some q -> t <> P Dot -> not_dot (p_mode q).
Proof.
  intros Hs H Hd. destruct (plain_tok t) eqn:Hp; [apply (step_free _ _ _ _ Hs H) in Hp; destruct (p_mode q); try contradiction; exact I|].
  assert (T : type_tok t = true). { unfold plain_tok in Hp. destruct (type_tok t); [reflexivity|]. destruct t as [| |p]; try discriminate. destruct p; try discriminate. congruence. }
  destruct t as [x| |]; try discriminate T. cbn [type_tok] in T. destruct (type_of_name x) as [ty|] eqn:Ty; [|discriminate].
  destruct Hs as [t0 f ps ss m Hm|t0 f ps body m Hm]; destruct m; try contradiction; cbn [step p_funs p_blocks p_mode] in H; try discriminate H.
  all: try (rewrite Ty in H; injection H as <-; exact I).
  all: try (destruct (keyword x); [discriminate H|injection H as <-; exact I]).
  - unfold stmt_step in H. rewrite Ty in H. repeat match type of H with (if ?b then _ else _) = _ => destruct b; [injection H as <-; exact I|] end. injection H as <-. exact I.
  - injection H as <-. exact I.
Qed.
(** a name that is neither a type nor a keyword, where no declaration is open *)
Lemma step_id s ss x q : shape s ss -> free_mode (p_mode s) -> type_of_name x = None -> keyword x = false -> step s (Id x) = Some q -> In x (mode_use (p_mode q)).
Proof.
  intros Hs Hf Ht Hk H. destruct Hs as [t0 f ps ss m Hm|t0 f ps body m Hm]; destruct m; try contradiction; cbn [step p_funs p_blocks p_mode] in H; try discriminate H; rewrite ?Ht, ?Hk in H; try discriminate H.
  - unfold stmt_step in H. rewrite Ht, Hk in H. unfold keyword in Hk. rewrite !Bool.orb_false_iff in Hk. destruct Hk as (((((_ & _) & Hr) & Hi) & _) & Hc). rewrite Hr, Hi, Hc in H. injection H as <-. left. reflexivity.
  - injection H as <-. left. reflexivity.
Qed.
(** the occurrences of a name are not preceded by a type or a dot *)
Fixpoint guarded (z : string) (ok : bool) (ts : list tok) : Prop :=
  match ts with [] => True | t :: r => (t = Id z -> ok = true) /\ t <> P LBrace /\ guarded z (plain_tok t) r end.
Fixpoint leaves (ok : bool) (ts : list tok) : bool := match ts with [] => ok | t :: r => leaves (plain_tok t) r end.
Lemma guarded_app z a : forall ok b, guarded z ok (a ++ b)%list <-> guarded z ok a /\ guarded z (leaves ok a) b.
Proof. induction a as [|t a IH]; intros ok b; cbn; [tauto|]. rewrite IH. tauto. Qed.
Lemma leaves_app a : forall ok b, leaves ok (a ++ b)%list = leaves (leaves ok a) b.
Proof. induction a as [|t a IH]; intros ok b; cbn; [reflexivity|]. apply IH. Qed.
Lemma steps_names z : type_of_name z = None -> keyword z = false -> forall ts ok s ss q, guarded z ok ts -> (ok = true -> free_mode (p_mode s)) -> shape s ss -> steps s ts = Some q ->
  exists ss', shape q ss' /\ (mentions z (p_mode s) ss \/ In (Id z) ts -> mentions z (p_mode q) ss') /\
  (mode_decl z (p_mode q) + decls z ss' = mode_decl z (p_mode s) + decls z ss)%nat.
Proof.
  intros Ht Hk. induction ts as [|t ts IH]; intros ok s ss q Hg Hm Hs H; cbn [steps] in H.
  - injection H as <-. exists ss. split; [exact Hs|]. split; [intros [A|[]]; exact A|reflexivity].
  - destruct Hg as (G1 & G2 & G3). destruct (step s t) as [s1|] eqn:E; [|discriminate].
    destruct (step_goes z s ss t s1 Hs G2 E) as (ss1 & S1 & M1 & D1).
    destruct (IH (plain_tok t) s1 ss1 q G3 (step_free _ _ _ _ Hs E) S1 H) as (ss' & S2 & M2 & D2).
    exists ss'. split; [exact S2|]. split.
    + intros [A|[->|A]]; apply M2; [left; apply M1, A| |right; exact A]. left. left. apply (step_id s ss z s1); auto.
    + rewrite D2, D1. assert (A0 : at_decl (p_mode s) t z = 0%nat); [|lia]. unfold at_decl. destruct (p_mode s) eqn:Em; try reflexivity. destruct t as [x| |]; try reflexivity.
      destruct (String.eqb_spec x z) as [->|]; [|reflexivity]. exfalso. specialize (G1 eq_refl). specialize (Hm G1). exact Hm.
Qed.
(** each declaration of num counts *)
Lemma steps_shape z ts : forall s ss q, ~ In (P LBrace) ts -> shape s ss -> steps s ts = Some q ->
  exists ss', shape q ss' /\ (mode_decl z (p_mode s) + decls z ss <= mode_decl z (p_mode q) + decls z ss')%nat.
Proof.
  induction ts as [|t ts IH]; intros s ss q Hl Hs H; cbn [steps] in H; [injection H as <-; eauto|].
  destruct (step s t) as [s1|] eqn:E; [|discriminate]. assert (Ht : t <> P LBrace) by (intros ->; apply Hl; left; reflexivity).
  destruct (step_goes z s ss t s1 Hs Ht E) as (ss1 & S1 & _ & D1). destruct (IH s1 ss1 q) as (ss' & S2 & D2); [intros K; apply Hl; right; exact K|exact S1|exact H|].
  exists ss'. split; [exact S2|lia].
Qed.
Lemma steps_not_dot ts : forall s ss q, ~ In (P LBrace) ts -> ~ In (P Dot) ts -> shape s ss -> not_dot (p_mode s) -> steps s ts = Some q -> not_dot (p_mode q).
Proof.
  induction ts as [|t ts IH]; intros s ss q Hl Hd Hs Hm H; cbn [steps] in H; [injection H as <-; exact Hm|].
  destruct (step s t) as [s1|] eqn:E; [|discriminate]. assert (Ht : t <> P LBrace) by (intros ->; apply Hl; left; reflexivity). assert (Ht' : t <> P Dot) by (intros ->; apply Hd; left; reflexivity).
  destruct (step_goes "" s ss t s1 Hs Ht E) as (ss1 & S1 & _). apply (IH s1 ss1 q); auto; [intros K; apply Hl; right; exact K|intros K; apply Hd; right; exact K|apply (step_not_dot _ _ _ _ Hs E Ht')].
Qed.
Lemma steps_decl x s ss q : shape s ss -> not_dot (p_mode s) -> keyword x = false -> steps s [Id "float"; Id x; P Eq] = Some q ->
  exists ss', shape q ss' /\ (mode_decl x (p_mode s) + decls x ss + 1 <= mode_decl x (p_mode q) + decls x ss')%nat.
Proof.
  intros Hs Hm Hk H. assert (Hl : ~ In (P LBrace) [Id "float"; Id x; P Eq]) by (intros [K|[K|[K|[]]]]; discriminate K).
  destruct Hs as [t0 f ps ss m Hi|t0 f ps body m Hi]; destruct m; try contradiction; cbn [steps step p_funs p_blocks p_mode] in H.
  all: change (stmt_step [] [BFun t0 f ps ss] (Id "float")) with (Some (mkP [] [BFun t0 f ps ss] (MDecl TFloat))) in H || idtac.
  all: change (keyword "float") with true in H; change (type_of_name "float") with (Some TFloat) in H; cbv iota in H; try discriminate H.
  all: cbn [step p_funs p_blocks p_mode] in H; rewrite ?Hk in H; try discriminate H; cbn [step p_funs p_blocks p_mode] in H; try discriminate H.
  all: injection H as <-; exists ss; (split; [constructor; exact I|]); cbn [p_mode mode_decl ctx_decl]; rewrite String.eqb_refl; lia.
Qed.
(** "= ;" *)
Lemma eq_semi s : steps s [P Eq; P Semi] = None.
Proof.
  cbn [steps]. destruct (step s (P Eq)) as [q|] eqn:E; [|reflexivity]. assert (M : exists fr c, p_mode q = MExpect fr c).
  { destruct s as [fs b m]. unfold step in E. cbn [p_mode p_funs p_blocks] in E. destruct m; try discriminate E.
    - cbn in E. injection E as <-. cbn. eauto.
    - unfold have_step in E. destruct fr; [|discriminate]. destruct c; try discriminate. injection E as <-. cbn. eauto.
    - destruct (add_stmt (SIf c th []) b); discriminate. }
  destruct M as (fr & c & M). unfold step. rewrite M. reflexivity.
Qed.

(** ** the statements *)
Lemma names_uses z : forall ss scope, names_ok scope ss = true -> ~ In z scope -> decls z ss = 0%nat -> forall s, In s ss -> ~ In z (stmt_uses s).
Proof.
  assert (K : forall scope e, known scope e = true -> ~ In z scope -> ~ In z (uses e)).
  { intros scope e H N U. unfold known in H. rewrite forallb_forall in H. apply H in U. apply existsb_exists in U. destruct U as (y & Hy & E). apply String.eqb_eq in E. subst y. exact (N Hy). }
  induction ss as [|s r IH]; intros scope H N D s' Hin; [destruct Hin|]. unfold decls, list_sum in D; cbn [map fold_right] in D. destruct Hin as [<-|Hs].
  - destruct s; cbn [names_ok] in H; repeat rewrite Bool.andb_true_iff in H; cbn [stmt_uses].
    + destruct H as ((_ & H) & _). destruct e; [apply (K _ _ H N)|intros []].
    + destruct H as ((A & B) & _). rewrite in_app_iff. intros [C|C]; [exact (K _ _ A N C)|exact (K _ _ B N C)].
    + destruct H as ((A & B) & _). rewrite in_app_iff. intros [C|C]; [exact (K _ _ A N C)|exact (K _ _ B N C)].
    + destruct H as (A & _). apply (K _ _ A N).
    + destruct H as (A & _). apply (K _ _ A N).
    + destruct H as (A & _). apply (K _ _ A N).
    + intros [].
  - destruct s; cbn [names_ok] in H; repeat rewrite Bool.andb_true_iff in H.
    + destruct H as (_ & H). refine (IH _ H _ _ s' Hs); [|unfold decls, list_sum; lia]. intros [->|C]; [|exact (N C)]. cbn [is_decl] in D. rewrite String.eqb_refl in D. lia.
    + apply (IH scope (proj2 H) N); [unfold decls, list_sum; lia|exact Hs].
    + apply (IH scope (proj2 H) N); [unfold decls, list_sum; lia|exact Hs].
    + apply (IH scope (proj2 H) N); [unfold decls, list_sum; lia|exact Hs].
    + apply (IH scope (proj2 H) N); [unfold decls, list_sum; lia|exact Hs].
    + apply (IH scope (proj2 H) N); [unfold decls, list_sum; lia|exact Hs].
    + apply (IH scope H N); [unfold decls, list_sum; lia|exact Hs].
Qed.
Lemma names_once z : forall ss scope, names_ok scope ss = true -> (decls z ss <= 1 /\ (In z scope -> decls z ss = 0))%nat.
Proof.
  induction ss as [|s r IH]; intros scope H; [cbn; auto|]. unfold decls, list_sum. cbn [map fold_right]. fold (list_sum (map (is_decl z) r)). fold (decls z r).
  destruct s; cbn [names_ok] in H; repeat rewrite Bool.andb_true_iff in H; cbn [is_decl]; try (apply IH, H).
  destruct H as ((A & _) & B). apply IH in B. destruct B as (B1 & B2). destruct (String.eqb_spec x z) as [->|Nx].
  - rewrite B2 by (left; reflexivity). split; [lia|]. intros K. apply Bool.negb_true_iff in A. exfalso. rewrite <- Bool.not_true_iff_false, existsb_exists in A. apply A. exists z. split; [exact K|apply String.eqb_refl].
  - split; [lia|]. intros K. cbn [Nat.add]. apply B2. right. exact K.
Qed.

(** Proofs about [ArgsModel]. *)
From Verif Require Import Base Num ArgsModel ArgsSpec.

(** ** Small string facts *)
Lemma first_is_begins c s : first_is c s = true <-> begins c s.
Proof.
  unfold begins; destruct s as [|x t]; simpl.
  - split; [discriminate|intros [? H]; discriminate].
  - destruct (aeqb_spec x c) as [->|n]; split; try congruence; eauto.
    intros [t' H]; congruence.
Qed.

Lemma last_is_ends c s : last_is c s = true <-> ends c s.
Proof.
  unfold last_is, ends. destruct (rev s) as [|x t] eqn:E.
  - apply (f_equal (@rev _)) in E; rewrite rev_involutive in E; subst; simpl.
    split; [discriminate|]. intros [t H]; destruct t; discriminate.
  - apply (f_equal (@rev _)) in E; rewrite rev_involutive in E; subst; simpl.
    destruct (aeqb_spec x c) as [->|n]; split; try congruence; eauto.
    intros [t' H]. apply app_inj_tail in H as [_ H]; congruence.
Qed.

Lemma first_is_false c s : first_is c s = false <-> ~ begins c s.
Proof. rewrite <- first_is_begins; destruct (first_is c s); split; congruence. Qed.
Lemma last_is_false c s : last_is c s = false <-> ~ ends c s.
Proof. rewrite <- last_is_ends; destruct (last_is c s); split; congruence. Qed.

Lemma starts_dashes_dd t : starts_dashes t = true <-> is_option t.
Proof.
  unfold is_option, dd. split.
  - destruct t as [|a [|b t]]; simpl; try discriminate.
    + destruct a as [[] [] [] [] [] [] [] []]; discriminate.
    + intros H; exists t.
      destruct a as [[] [] [] [] [] [] [] []]; try discriminate;
      destruct b as [[] [] [] [] [] [] [] []]; try discriminate. reflexivity.
  - intros [k ->]; reflexivity.
Qed.

Lemma starts_dashes_false t : starts_dashes t = false <-> ~ is_option t.
Proof. rewrite <- starts_dashes_dd; destruct (starts_dashes t); split; congruence. Qed.

Lemma starts_dashes_skip t : starts_dashes t = true -> t = dd (skipn 2 t).
Proof. intros H; apply starts_dashes_dd in H as [k ->]; reflexivity. Qed.

(** ** Bracket groups *)
Definition glue (g : list str) : str := concat (map (fun t => " "%char :: t) g).

Lemma join_space_cons a g : join space (a :: g) = a ++ glue g.
Proof.
  revert a; induction g as [|b g IH]; intros a.
  - unfold glue; simpl; rewrite app_nil_r; reflexivity.
  - change (join space (a :: b :: g)) with (a ++ space ++ join space (b :: g)).
    rewrite IH; unfold glue, space; simpl; reflexivity.
Qed.

Definition open_tok (t : str) : Prop := t <> [] /\ ~ ends "]" t.

(** What the gluing loop does, on a closed and on an unclosed group. *)
Lemma bracket_closed mid gn data next r :
  Forall open_tok (next :: mid) -> ends "]" gn ->
  bracket_loop data next (mid ++ gn :: r) = Ok (data ++ glue (mid ++ [gn]), r).
Proof.
  revert data next; induction mid as [|t mid IH]; intros data next Hf Hg.
  - inversion Hf as [|? ? [Hn Hne] _]; subst. simpl.
    destruct next; [congruence|]. apply last_is_false in Hne; rewrite Hne.
    unfold glue; simpl; rewrite app_nil_r.
    assert (gn <> []) by (intros ->; destruct Hg as [[] ?]; discriminate).
    destruct r as [|t r]; simpl; [reflexivity|].
    destruct gn; [congruence|]. apply last_is_ends in Hg; rewrite Hg; reflexivity.
  - inversion Hf as [|? ? [Hn Hne] Hf']; subst. cbn [app bracket_loop].
    destruct next; [congruence|]. apply last_is_false in Hne; rewrite Hne.
    rewrite IH by assumption. unfold glue; simpl. rewrite <- app_assoc; reflexivity.
Qed.

Lemma bracket_open g data next :
  Forall open_tok (removelast (next :: g)) ->
  ~ ends "]" (last (next :: g) []) ->
  bracket_loop data next g = Ok (data ++ glue g, []).
Proof.
  revert data next; induction g as [|t g IH]; intros data next Hf Hl.
  - unfold glue; simpl; rewrite app_nil_r; reflexivity.
  - change (removelast (next :: t :: g)) with (next :: removelast (t :: g)) in Hf.
    inversion Hf as [|? ? [Hn Hne] Hf']; subst. cbn [bracket_loop].
    destruct next; [congruence|]. apply last_is_false in Hne; rewrite Hne.
    rewrite IH; auto. unfold glue; simpl. rewrite <- app_assoc; reflexivity.
Qed.

(** Conversely, every successful run consumed such a group. *)
Lemma bracket_inv argv data next data' r :
  bracket_loop data next argv = Ok (data', r) -> ~ ends "]" next -> next <> [] ->
  exists g, argv = g ++ r /\ data' = data ++ glue g /\
    ((exists mid gn, g = mid ++ [gn] /\ Forall open_tok (next :: mid) /\ ends "]" gn)
     \/ (r = [] /\ Forall open_tok (removelast (next :: g)) /\ ~ ends "]" (last (next :: g) []))).
Proof.
  revert data next; induction argv as [|t argv IH]; intros data next H Hne Hn.
  - simpl in H; inversion H; subst. exists []; unfold glue; simpl; rewrite app_nil_r.
    split; [reflexivity|split; [reflexivity|]]. right; repeat split; auto.
  - cbn [bracket_loop] in H. destruct next as [|c nx]; [congruence|].
    pose proof Hne as Hne'. apply last_is_false in Hne'; rewrite Hne' in H.
    remember (c :: nx) as next.
    destruct (last_is "]" t) eqn:Et.
    + (* t closes the group *)
      assert (data' = data ++ " "%char :: t /\ r = argv) as [-> ->].
      { destruct argv; simpl in H.
        - inversion H; auto.
        - destruct t; [discriminate|]. rewrite Et in H; inversion H; auto. }
      exists [t]; unfold glue; simpl; rewrite app_nil_r.
      split; [reflexivity|split; [reflexivity|]]. left; exists [], t; simpl.
      split; [reflexivity|]. split; [|apply last_is_ends; assumption].
      constructor; [split; [assumption|]|constructor].
      assumption.
    + pose proof Et as Et'; apply last_is_false in Et'.
      destruct t as [|d t'].
      { (* empty token: only at the very end *)
        destruct argv; simpl in H; [|discriminate]. inversion H; subst.
        exists [[]]; unfold glue; simpl.
        split; [reflexivity|split; [reflexivity|]]. right; repeat split; auto.
        constructor; [split; [congruence|assumption]|constructor]. }
      remember (d :: t') as t.
      destruct (IH _ _ H Et') as (g & -> & -> & Hg); [subst; congruence|].
      exists (t :: g); unfold glue; simpl; rewrite <- app_assoc; simpl.
      split; [reflexivity|split; [reflexivity|]].
      destruct Hg as [(mid & gn & -> & Hf & He)|(-> & Hf & He)].
      * left; exists (t :: mid), gn; simpl; repeat split; auto.
        constructor; [split; assumption|assumption].
      * right; repeat split; auto.
        change (removelast (next :: t :: g)) with (next :: removelast (t :: g)).
        constructor; [split; assumption|assumption].
Qed.

(** ** The main loop against the grammar *)
Lemma not_dash_group t : begins "[" t -> ~ begins "-" t.
Proof. intros [a ->] [b H]; discriminate. Qed.

Lemma option_value_closed g r :
  closed_group g -> option_value (g ++ r) = Ok (join space g, r).
Proof.
  intros (g1 & mid & gn & -> & Hb & He & Hf). rewrite join_space_cons. cbn [app option_value].
  pose proof (not_dash_group _ Hb) as Hd; apply first_is_false in Hd; rewrite Hd.
  apply first_is_begins in Hb; rewrite Hb.
  inversion Hf as [|? ? [Hn Hne] Hm]; subst.
  pose proof Hne as Hne'; apply last_is_false in Hne'; rewrite Hne'. simpl.
  rewrite <- app_assoc; cbn [app].
  rewrite bracket_closed by assumption. reflexivity.
Qed.

Lemma removelast_snoc {A} (l : list A) x : removelast (l ++ [x]) = l.
Proof. rewrite removelast_app by discriminate; simpl; apply app_nil_r. Qed.

Lemma last_snoc {A} (l : list A) x d : last (l ++ [x]) d = x.
Proof. induction l as [|a l IH]; simpl; auto. destruct (l ++ [x]) eqn:E; auto. destruct l; discriminate. Qed.

Lemma option_value_open g :
  open_group g -> option_value g = Ok (join space g, []).
Proof.
  intros (init & gn & Hg & Hb & He & Hf).
  destruct g as [|g1 g]; [destruct init; discriminate|]. simpl in Hb.
  cbn [option_value].
  pose proof (not_dash_group _ Hb) as Hd; apply first_is_false in Hd; rewrite Hd.
  assert (~ ends "]" g1) as Hne.
  { destruct init as [|i init]; simpl in Hg; inversion Hg; subst; auto.
    inversion Hf as [|? ? [_ H] _]; assumption. }
  rewrite join_space_cons.
  apply first_is_begins in Hb; rewrite Hb. apply last_is_false in Hne; rewrite Hne. simpl.
  rewrite bracket_open.
  - reflexivity.
  - rewrite Hg, removelast_snoc; assumption.
  - rewrite Hg, last_snoc; assumption.
Qed.

Lemma option_value_plain t r : plain t -> option_value (t :: r) = Ok (t, r).
Proof.
  intros [H1 H2]. cbn [option_value].
  apply first_is_false in H1; rewrite H1.
  destruct (first_is "[" t) eqn:E1; simpl; auto.
  destruct (last_is "]" t) eqn:E2; simpl; auto.
  exfalso; apply H2. split; [apply first_is_begins|apply last_is_false]; assumption.
Qed.

Lemma segments_run argv l : segments argv l ->
  forall fuel m, List.length argv <= fuel -> map_ok m ->
  exists m', argv_loop fuel argv m = Ok m' /\ map_ok m' /\
    forall k, map_find k m' = match map_find k m with Some v => Some v | None => first_value k l end.
Proof.
  induction 1 as [|t r l Hn H IH|k|k t r l Hb H IH|k t r l Hp H IH|k g r l Hg H IH|k g Hg];
    intros fuel m Hf Hm.
  - exists m; destruct fuel; simpl; (split; [reflexivity|split; [assumption|]]);
      intros k; destruct (map_find k m); reflexivity.
  - destruct fuel as [|fuel]; [simpl in Hf; lia|]. cbn [argv_loop].
    apply starts_dashes_false in Hn; rewrite Hn. apply IH; [simpl in Hf; lia|assumption].
  - destruct fuel as [|fuel]; [simpl in Hf; lia|]. cbn [argv_loop starts_dashes dd option_value bind skipn].
    exists (map_insert k [] m). split; [destruct fuel; reflexivity|].
    split; [apply map_insert_ok; assumption|].
    intros k0; rewrite map_find_insert by assumption; reflexivity.
  - destruct fuel as [|fuel]; [simpl in Hf; lia|]. cbn [argv_loop starts_dashes dd option_value bind skipn].
    apply first_is_begins in Hb; rewrite Hb.
    destruct (IH fuel (map_insert k [] m)) as (m' & E & Ho & Hk);
      [simpl in Hf |- *; lia|apply map_insert_ok; assumption|].
    exists m'; split; [exact E|split; [assumption|]].
    intros k0; rewrite Hk, map_find_insert by assumption.
    destruct (map_find k0 m); auto. simpl; destruct (str_eqb k0 k); auto.
  - destruct fuel as [|fuel]; [simpl in Hf; lia|]. cbn [argv_loop starts_dashes dd].
    rewrite option_value_plain by assumption. cbn [bind skipn].
    destruct (IH fuel (map_insert k t m)) as (m' & E & Ho & Hk);
      [simpl in Hf |- *; lia|apply map_insert_ok; assumption|].
    exists m'; split; [exact E|split; [assumption|]].
    intros k0; rewrite Hk, map_find_insert by assumption.
    destruct (map_find k0 m); auto. simpl; destruct (str_eqb k0 k); auto.
  - destruct fuel as [|fuel]; [simpl in Hf; lia|]. cbn [argv_loop starts_dashes dd].
    rewrite option_value_closed by assumption. cbn [bind skipn].
    destruct (IH fuel (map_insert k (join space g) m)) as (m' & E & Ho & Hk);
      [simpl in Hf; rewrite app_length in Hf; lia|apply map_insert_ok; assumption|].
    exists m'; split; [exact E|split; [assumption|]].
    intros k0; rewrite Hk, map_find_insert by assumption.
    destruct (map_find k0 m); auto. simpl; destruct (str_eqb k0 k); auto.
  - destruct fuel as [|fuel]; [simpl in Hf; lia|]. cbn [argv_loop starts_dashes dd].
    rewrite option_value_open by assumption. cbn [bind skipn].
    exists (map_insert k (join space g) m). split; [destruct fuel; reflexivity|].
    split; [apply map_insert_ok; assumption|].
    intros k0; rewrite map_find_insert by assumption; reflexivity.
Qed.

Lemma run_segments fuel : forall argv m m',
  List.length argv <= fuel -> argv_loop fuel argv m = Ok m' -> exists l, segments argv l.
Proof.
  induction fuel as [|fuel IH]; intros argv m m' Hf H.
  - destruct argv; [exists []; constructor|simpl in Hf; lia].
  - destruct argv as [|t r]; [exists []; constructor|]. cbn [argv_loop] in H. simpl in Hf.
    destruct (starts_dashes t) eqn:Et.
    2: { apply starts_dashes_false in Et.
         destruct (IH r _ _ ltac:(lia) H) as [l Hl]; exists l; constructor; assumption. }
    apply starts_dashes_dd in Et as [k ->].
    replace (skipn 2 (dd k)) with k in H by reflexivity.
    destruct r as [|t r].
    { eexists; apply seg_flag_last. }
    cbn [option_value] in H.
    destruct (first_is "-" t) eqn:Ed.
    { cbn [bind] in H. destruct (IH (t :: r) _ _ ltac:(simpl in *; lia) H) as [l Hl].
      eexists; eapply seg_flag; [apply first_is_begins; eassumption|eassumption]. }
    destruct (first_is "[" t && negb (last_is "]" t)) eqn:Eb.
    2: { cbn [bind] in H. destruct (IH r _ _ ltac:(simpl in *; lia) H) as [l Hl].
         eexists; eapply seg_plain; [|eassumption]. split.
         - apply first_is_false; assumption.
         - intros [H1 H2]. apply first_is_begins in H1; apply last_is_false in H2.
           rewrite H1, H2 in Eb; discriminate. }
    apply andb_true_iff in Eb as [Eb1 Eb2]. apply negb_true_iff in Eb2.
    apply first_is_begins in Eb1; apply last_is_false in Eb2.
    destruct (bracket_loop t t r) as [[data' r']| | |] eqn:Ebr; try discriminate.
    cbn [bind] in H.
    assert (t <> []) as Hne by (destruct Eb1 as [? ->]; discriminate).
    destruct (bracket_inv _ _ _ _ _ Ebr Eb2 Hne) as (g & -> & -> & Hg).
    destruct Hg as [(mid & gn & -> & Hf1 & He)|(-> & Hf1 & He)].
    + destruct (IH r' _ _ ltac:(simpl in *; rewrite !app_length in Hf; simpl in Hf; lia) H) as [l Hl].
      eexists. change (dd k :: t :: (mid ++ [gn]) ++ r') with (dd k :: (t :: mid ++ [gn]) ++ r').
      eapply seg_group; [|eassumption].
      exists t, mid, gn; repeat split; auto.
    + rewrite app_nil_r. eexists; eapply seg_open.
      exists (removelast (t :: g)), (last (t :: g) []); repeat split; auto.
      apply app_removelast_last; discriminate.
Qed.

Lemma argv_loop_ok_or_ub fuel : forall argv m,
  (exists m', argv_loop fuel argv m = Ok m') \/ argv_loop fuel argv m = UB.
Proof.
  assert (Hb : forall argv data next,
    (exists x, bracket_loop data next argv = Ok x) \/ bracket_loop data next argv = UB).
  { induction argv as [|t argv IH]; intros data next; simpl; eauto.
    destruct next; eauto. destruct (last_is "]" (a :: next)); eauto. }
  induction fuel as [|fuel IH]; intros argv m; simpl; eauto.
  destruct argv as [|t r]; eauto. destruct (starts_dashes t); eauto.
  assert (Ho : (exists x, option_value r = Ok x) \/ option_value r = UB).
  { destruct r as [|n r]; simpl; eauto. destruct (first_is "-" n); eauto.
    destruct (first_is "[" n && negb (last_is "]" n)); eauto. }
  destruct Ho as [[[d r'] ->]| ->]; simpl; eauto.
Qed.

Lemma segments_iff_ok argv :
  (exists l, segments argv l) <-> (exists m, arguments_of_argv argv = Ok m).
Proof.
  unfold arguments_of_argv; split.
  - intros [l H]. destruct (segments_run _ _ H (List.length argv) [] (le_n _) map_ok_nil) as (m & E & _).
    eauto.
  - intros [m H]. eapply run_segments; [apply le_n|eassumption].
Qed.

Lemma argv_spec argv l : segments argv l ->
  exists m, arguments_of_argv argv = Ok m /\ map_ok m /\ forall k, map_find k m = first_value k l.
Proof.
  intros H. destruct (segments_run _ _ H (List.length argv) [] (le_n _) map_ok_nil) as (m & E & Hm & Hk).
  exists m; repeat split; auto.
Qed.

Lemma argv_ub argv : arguments_of_argv argv = UB <-> ~ exists l, segments argv l.
Proof.
  rewrite segments_iff_ok. destruct (argv_loop_ok_or_ub (List.length argv) argv []) as [[m E]|E];
    unfold arguments_of_argv; rewrite E; split; try congruence; eauto.
  intros H; exfalso; apply H; eauto.
  intros _ [m H]; discriminate.
Qed.

Lemma argv_nonempty_total argv : Forall (fun t => t <> []) argv ->
  exists l, segments argv l.
Proof.
  intros Hf. apply segments_iff_ok. unfold arguments_of_argv.
  destruct (argv_loop_ok_or_ub (List.length argv) argv []) as [H|H]; [exact H|exfalso].
  assert (Hb : forall argv data next, Forall (fun t : str => t <> []) (next :: argv) ->
    exists x r, bracket_loop data next argv = Ok (x, r) /\ Forall (fun t : str => t <> []) r).
  { clear. induction argv as [|t argv IH]; intros data next Hf; simpl; eauto.
    inversion Hf; subst. destruct next as [|c n]; [congruence|].
    destruct (last_is "]" (c :: n)); eauto. }
  revert Hf H. generalize (List.length argv) as fuel, (@nil (str * str)) as m.
  intros fuel; revert argv; induction fuel as [|fuel IH]; intros argv m Hf H; simpl in H; [discriminate|].
  destruct argv as [|t r]; [discriminate|]. inversion Hf as [|? ? Ht Hr]; subst.
  destruct (starts_dashes t) eqn:Est; [|eapply IH; eassumption].
  assert (Ho : exists x r', option_value r = Ok (x, r') /\ Forall (fun t : str => t <> []) r').
  { destruct r as [|n r]; simpl; eauto. destruct (first_is "-" n); eauto.
    destruct (first_is "[" n && negb (last_is "]" n)); eauto.
    inversion Hr; subst; eauto. }
  destruct Ho as (x & r' & Eo & Hr'). rewrite Eo in H. simpl in H. eapply IH; eassumption.
Qed.

(** ** get_vec *)
Lemma find_char_split c a b : ~ In c a -> find_char c (a ++ c :: b) = Some (a, b).
Proof.
  induction a as [|x a IH]; simpl; intros H.
  - rewrite aeqb_refl; reflexivity.
  - destruct (aeqb_spec x c) as [->|n]; [exfalso; apply H; left; reflexivity|].
    rewrite IH; auto.
Qed.

Lemma find_char_none c a : ~ In c a -> find_char c a = None.
Proof.
  induction a as [|x a IH]; simpl; intros H; auto.
  destruct (aeqb_spec x c) as [->|n]; [exfalso; apply H; left; reflexivity|].
  rewrite IH; auto.
Qed.

Definition no_comma (e : str) : Prop := ~ In ","%char e.

Lemma join_comma_cons a b l : join comma (a :: b :: l) = a ++ ","%char :: join comma (b :: l).
Proof. reflexivity. Qed.

Lemma split_join es fuel :
  es <> [] -> Forall no_comma es -> List.length es <= fuel ->
  split_loop fuel (join comma es ++ ["]"%char]) = es.
Proof.
  revert fuel; induction es as [|a es IH]; intros fuel Hne Hf Hl; [congruence|].
  inversion Hf as [|? ? Ha Hes]; subst. destruct fuel as [|fuel]; [simpl in Hl; lia|].
  cbn [split_loop]. destruct es as [|b es].
  - cbn [join]. rewrite find_char_none.
    + rewrite removelast_snoc; reflexivity.
    + rewrite in_app_iff; intros [H|[H|[]]]; [exact (Ha H)|discriminate].
  - rewrite join_comma_cons, <- app_assoc. cbn [app].
    rewrite find_char_split by exact Ha. f_equal. apply IH; auto; [discriminate|simpl in *; lia].
Qed.

Lemma join_comma_length es : List.length es <= S (List.length (join comma es)).
Proof.
  induction es as [|a es IH]; [simpl; lia|]. destruct es as [|b es]; [simpl; lia|].
  rewrite join_comma_cons, app_length; cbn [List.length] in *; lia.
Qed.

Lemma get_vec_str_bracket (a : arguments) k es : map_find k a = Some ("["%char :: join comma es ++ ["]"%char]) ->
  es <> [] -> Forall no_comma es -> get_vec_str a k = es.
Proof.
  intros H Hne Hf. unfold get_vec_str; rewrite H. apply split_join; auto.
  rewrite app_length; pose proof (join_comma_length es); simpl; lia.
Qed.

(** Every bracketed value decomposes uniquely; [get_vec] returns at least one
    element and rejoining gives back the text minus its last byte, unless the
    text ends with a comma. *)
Lemma set_nth_length {A} n (v : A) l : List.length (set_nth n v l) = List.length l.
Proof. revert n; induction l as [|x l IH]; intros [|n]; simpl; auto. Qed.

Lemma nth_set_nth {A} n i (v : A) l d :
  nth i (set_nth n v l) d = if (i =? n) && (n <? List.length l) then v else nth i l d.
Proof.
  revert n i; induction l as [|x l IH]; intros n i; simpl.
  - destruct n, i; simpl; rewrite ?andb_false_r; auto; destruct (i =? n); auto.
  - destruct n as [|n], i as [|i]; simpl; auto.
    rewrite IH; reflexivity.
Qed.

Lemma fill_loop_length {T} (atof : str -> T) fuel : forall s i res,
  List.length (fill_loop atof fuel s i res) = List.length res.
Proof.
  induction fuel as [|fuel IH]; intros s i res; simpl; auto.
  destruct (i <? List.length res); auto.
  destruct (find_char "," s) as [[a b]|]; rewrite ?IH, ?set_nth_length; reflexivity.
Qed.

Lemma get_vec_num_length {T} (atof : str -> T) a k size dflt :
  List.length (get_vec_num atof a k size dflt) = size.
Proof.
  unfold get_vec_num.
  destruct (map_find k a) as [[|c t]|]; try (rewrite ?repeat_length; reflexivity).
  destruct c as [[] [] [] [] [] [] [] []]; rewrite ?fill_loop_length, ?repeat_length; reflexivity.
Qed.

Lemma fill_loop_nth {T} (atof : str -> T) d fuel : forall s i res j,
  List.length s < fuel ->
  nth j (fill_loop atof fuel s i res) d =
  if (i <=? j) && (j <? i + List.length (split_loop fuel s)) && (j <? List.length res)
  then atof (c_str (nth (j - i) (split_loop fuel s) [])) else nth j res d.
Proof.
  induction fuel as [|fuel IH]; intros s i res j Hs; [lia|].
  cbn [fill_loop split_loop].
  destruct (find_char "," s) as [[a b]|] eqn:E.
  - assert (List.length b < fuel) as Hb.
    { clear -E Hs. revert a b E Hs. assert (G : forall a b, find_char "," s = Some (a, b) -> List.length b < List.length s).
      { induction s as [|x s IH]; simpl; intros a b E; [discriminate|].
        destruct (aeqb x ","); [inversion E; subst; lia|].
        destruct (find_char "," s) as [[a' b']|]; [|discriminate]. inversion E; subst.
        specialize (IH _ _ eq_refl); lia. }
      intros a b E Hs; specialize (G a b E); lia. }
    cbn [List.length].
    destruct (Nat.ltb_spec i (List.length res)) as [Hi|Hi].
    + rewrite IH by assumption. rewrite set_nth_length, nth_set_nth.
      destruct (Nat.eqb_spec j i) as [->|Hj].
      * rewrite Nat.sub_diag. rewrite (proj2 (Nat.leb_gt (S i) i)) by lia. cbn [andb nth].
        rewrite Nat.leb_refl.
        rewrite (proj2 (Nat.ltb_lt i (i + S (List.length (split_loop fuel b))))) by lia.
        rewrite (proj2 (Nat.ltb_lt i (List.length res))) by lia. reflexivity.
      * cbn [andb]. replace (i + S (List.length (split_loop fuel b))) with (S i + List.length (split_loop fuel b)) by lia.
        destruct (Nat.leb_spec (S i) j) as [H1|H1].
        -- rewrite (proj2 (Nat.leb_le i j)) by lia. replace (j - i) with (S (j - S i)) by lia. reflexivity.
        -- rewrite (proj2 (Nat.leb_gt i j)) by lia. reflexivity.
    + destruct (Nat.leb_spec i j), (Nat.ltb_spec j (i + S (List.length (split_loop fuel b)))),
        (Nat.ltb_spec j (List.length res)); simpl; auto; lia.
  - cbn [List.length].
    destruct (Nat.ltb_spec i (List.length res)) as [Hi|Hi].
    + rewrite nth_set_nth. rewrite (proj2 (Nat.ltb_lt i (List.length res))) by lia.
      destruct (Nat.eqb_spec j i) as [->|Hj]; simpl.
      * rewrite Nat.leb_refl, Nat.sub_diag.
        rewrite (proj2 (Nat.ltb_lt i (i + 1))) by lia.
        rewrite (proj2 (Nat.ltb_lt i (List.length res))) by lia. reflexivity.
      * destruct (Nat.leb_spec i j), (Nat.ltb_spec j (i + 1)); simpl; auto; lia.
    + destruct (Nat.leb_spec i j), (Nat.ltb_spec j (i + 1)), (Nat.ltb_spec j (List.length res)); simpl; auto; lia.
Qed.

Lemma nth_repeat_lt {A} (x d : A) n i : i < n -> nth i (repeat x n) d = x.
Proof. revert i; induction n as [|n IH]; intros [|i] H; simpl; auto; try lia. apply IH; lia. Qed.

Lemma get_vec_num_bracket {T} (atof : str -> T) (a : arguments) k size dflt es i d :
  map_find k a = Some ("["%char :: join comma es ++ ["]"%char]) -> es <> [] -> Forall no_comma es ->
  i < size ->
  nth i (get_vec_num atof a k size dflt) d =
  if i <? List.length es then atof (c_str (nth i es [])) else dflt.
Proof.
  intros H Hne Hf Hi. unfold get_vec_num; rewrite H.
  rewrite fill_loop_nth by lia. rewrite split_join; auto.
  2: { rewrite app_length; pose proof (join_comma_length es); simpl; lia. }
  rewrite repeat_length, Nat.sub_0_r. cbn [Nat.leb Nat.add].
  rewrite (proj2 (Nat.ltb_lt i size) Hi), andb_true_r. cbn [andb].
  destruct (i <? List.length es); auto. apply nth_repeat_lt; assumption.
Qed.

Lemma get_vec_num_scalar {T} (atof : str -> T) a k size dflt i d :
  is_vec a k = false -> i < size ->
  nth i (get_vec_num atof a k size dflt) d = get_num atof a k dflt.
Proof.
  unfold is_vec, get_vec_num. intros H Hi.
  destruct (map_find k a) as [[|c t]|]; try (apply nth_repeat_lt; assumption).
  simpl in H. destruct (aeqb_spec c "[") as [->|n]; [discriminate|].
  destruct c as [[] [] [] [] [] [] [] []]; try (apply nth_repeat_lt; assumption); congruence.
Qed.

(** ** Recorded command lines *)
Lemma skip_ws_spaces w s : forallb is_space w = true -> skip_ws (w ++ s) = skip_ws s.
Proof.
  induction w as [|c w IH]; simpl; auto; intros H.
  apply andb_true_iff in H as [H1 H2]; rewrite H1; auto.
Qed.

Definition space_head (s : str) : Prop :=
  match s with [] => True | c :: _ => is_space c = true end.

Lemma take_token_app t s : Forall (fun c => is_space c = false) t -> space_head s ->
  take_token (t ++ s) = (t, s).
Proof.
  induction 1 as [|c t H _ IH]; intros Hs; simpl.
  - destruct s as [|c s]; simpl in *; [reflexivity|rewrite Hs; reflexivity].
  - rewrite H, IH by assumption; reflexivity.
Qed.

Lemma scan_token_word w t s : forallb is_space w = true -> word t -> space_head s ->
  scan_token (w ++ t ++ s) = (t, s).
Proof.
  intros Hw [Hn Hf] Hs. unfold scan_token. rewrite skip_ws_spaces by assumption.
  destruct t as [|c t]; [congruence|]. inversion Hf as [|? ? [Hc _] Ht]; subst.
  replace (skip_ws ((c :: t) ++ s)) with ((c :: t) ++ s) by (simpl; rewrite Hc; reflexivity).
  apply take_token_app; auto. constructor; auto.
  eapply Forall_impl; [|exact Ht]; simpl; tauto.
Qed.

(** Tokens written for one option list. *)
Definition tokens_of (es : list (str * list str)) : list str :=
  flat_map (fun e => dd (fst e) :: snd e) es.

Definition entry (e : str * list str) : str * str := (fst e, join space (snd e)).

Definition good_entry (e : str * list str) : Prop :=
  word (fst e) /\ Forall word (snd e) /\
  (snd e = [] \/ (exists t, snd e = [t] /\ plain t) \/ closed_group (snd e)).

Lemma word_dd k : word k -> word (dd k).
Proof.
  intros [Hn Hf]; split; [discriminate|].
  repeat constructor; try assumption; unfold nul; try (vm_compute; congruence).
Qed.

Lemma writable_entries m : writable m -> exists es, m = map entry es /\ Forall good_entry es.
Proof.
  induction 1 as [|[k v] m [Hk (g & Hv & Hw & Hg)] _ (es & -> & Hes)].
  - exists []; split; constructor.
  - exists ((k, g) :: es); split; [simpl; unfold entry at 1; simpl in *; subst; reflexivity|].
    constructor; auto. repeat split; try apply Hk; auto.
Qed.

Lemma get_cmd_cons k g es : word k ->
  get_cmd (map entry ((k, g) :: es)) =
  " "%char :: dd k ++ " "%char :: join space g ++ get_cmd (map entry es).
Proof. intros [Hn _]; destruct k; [congruence|]. reflexivity. Qed.

Lemma get_cmd_space_head es : Forall good_entry es -> space_head (get_cmd (map entry es)).
Proof.
  destruct 1 as [|[k g] es [Hk _] _]; [exact I|]. rewrite get_cmd_cons by exact Hk. reflexivity.
Qed.

(** Tokenising glued words followed by [s]. *)
Lemma tokenize_glue g : forall s fuel, Forall word g -> g <> [] -> space_head s ->
  List.length (glue g ++ s) < fuel ->
  tokenize fuel (glue g ++ s) =
  g ++ match s with [] => [] | _ => tokenize (fuel - List.length g) s end.
Proof.
  induction g as [|t g IH]; intros s fuel Hw Hne Hs Hf; [congruence|].
  inversion Hw as [|? ? Ht Hg]; subst. destruct fuel as [|fuel]; [lia|].
  cbn [tokenize]. unfold glue; cbn [map concat]. fold (glue g).
  replace ((" "%char :: t) ++ glue g) with ([" "%char] ++ t ++ glue g) by reflexivity.
  rewrite <- !app_assoc. rewrite scan_token_word; auto.
  2: { destruct g; simpl; [exact Hs|reflexivity]. }
  destruct g as [|u g].
  - cbn [glue map concat app List.length]. destruct s as [|c s]; [reflexivity|].
    replace (S fuel - 1) with fuel by lia. reflexivity.
  - destruct (glue (u :: g) ++ s) eqn:E; [discriminate|]. rewrite <- E.
    rewrite IH; [|assumption|discriminate|assumption|].
    2: { change (glue (t :: u :: g)) with ((" "%char :: t) ++ glue (u :: g)) in Hf.
         rewrite <- app_assoc, app_length in Hf. cbn [List.length] in Hf. lia. }
    cbn [app List.length]. reflexivity.
Qed.

(** The token list read back, possibly with one trailing empty token. *)
Lemma glue_length g : List.length g <= List.length (glue g).
Proof. induction g as [|a g IH]; unfold glue in *; simpl; auto; rewrite app_length; lia. Qed.

Lemma tokenize_cmd es : forall w fuel, Forall good_entry es -> forallb is_space w = true ->
  List.length (w ++ get_cmd (map entry es)) < fuel ->
  exists tail, tokenize fuel (w ++ get_cmd (map entry es)) = tokens_of es ++ tail /\
    (tail = [] /\ es <> [] \/ tail = [[]] /\ (es = [] \/ exists es' k, es = es' ++ [(k, [])])).
Proof.
  induction es as [|[k g] es IH]; intros w fuel Hes Hw Hf.
  - destruct fuel as [|fuel]; [lia|]. exists [[]]. simpl. split; [|auto].
    unfold scan_token. rewrite skip_ws_spaces by assumption. reflexivity.
  - inversion Hes as [|? ? [Hk [Hg Hc]] Hes']; subst. cbn [fst snd] in *.
    rewrite get_cmd_cons by assumption. rewrite get_cmd_cons in Hf by assumption.
    destruct fuel as [|fuel]; [lia|]. cbn [tokenize tokens_of flat_map fst snd].
    replace (w ++ " "%char :: dd k ++ " "%char :: join space g ++ get_cmd (map entry es))
      with ((w ++ [" "%char]) ++ dd k ++ " "%char :: join space g ++ get_cmd (map entry es))
      by (rewrite <- app_assoc; reflexivity).
    rewrite scan_token_word; [|rewrite forallb_app, Hw; reflexivity|apply word_dd; assumption|reflexivity].
    replace (flat_map (fun e => dd (fst e) :: snd e) es) with (tokens_of es) by reflexivity.
    assert (Hlen : List.length (" "%char :: join space g ++ get_cmd (map entry es)) < fuel).
    { repeat (rewrite app_length in Hf || cbn [List.length dd app] in Hf).
      cbn [List.length]; rewrite app_length; lia. }
    destruct g as [|t g].
    + cbn [join app] in *. 
      destruct (IH [" "%char] fuel Hes' eq_refl Hlen) as (tail & E & Ht).
      cbn [app] in E. rewrite E. exists tail; split; [reflexivity|].
      destruct Ht as [[-> Hne]|[-> [-> |(es' & k' & ->)]]].
      * left; split; [reflexivity|discriminate].
      * right; split; [reflexivity|]. right; exists [], k; reflexivity.
      * right; split; [reflexivity|]. right; exists ((k, []) :: es'), k'; reflexivity.
    + rewrite join_space_cons in *.
      replace (" "%char :: (t ++ glue g) ++ get_cmd (map entry es))
        with (glue (t :: g) ++ get_cmd (map entry es)) in * by reflexivity.
      rewrite (tokenize_glue (t :: g)); [|assumption|discriminate|apply get_cmd_space_head; assumption|assumption].
      destruct es as [|e es].
      { exists []; split; [|left; split; [reflexivity|discriminate]].
        cbn [map get_cmd tokens_of flat_map]. rewrite !app_nil_r. reflexivity. }
      destruct (IH [] (fuel - List.length (t :: g)) Hes' eq_refl) as (tail & E & Ht).
      { cbn [app]. rewrite app_length in Hlen. pose proof (glue_length (t :: g)). lia. }
      cbn [app] in E.
      assert (get_cmd (map entry (e :: es)) <> []) as Hnn.
      { destruct e as [k' g']. inversion Hes' as [|? ? [Hk' _] _]; subst.
        rewrite get_cmd_cons by exact Hk'. discriminate. }
      destruct (get_cmd (map entry (e :: es))) eqn:Eg; [congruence|].
      rewrite E. exists tail; split; [rewrite <- app_assoc; reflexivity|].
      destruct Ht as [[-> Hne]|[-> [Hx|(es' & k' & Hx)]]].
      * left; split; [reflexivity|discriminate].
      * discriminate.
      * right; split; [reflexivity|]. right; exists ((k, t :: g) :: es'), k'; rewrite Hx; reflexivity.
Qed.

Lemma segments_tokens es tail : Forall good_entry es ->
  (tail = [] \/ tail = [[]]) ->
  (tail = [[]] -> es = [] \/ exists es' k, es = es' ++ [(k, [])]) ->
  segments (tokens_of es ++ tail) (map entry es).
Proof.
  intros Hes Ht Hl. induction Hes as [|[k g] es [Hk [Hg Hc]] Hes IH].
  - simpl. destruct Ht as [-> | ->]; [constructor|].
    apply seg_skip; [intros [k E]; discriminate|constructor].
  - cbn [tokens_of flat_map map fst snd app entry]. unfold entry at 1; cbn [fst snd].
    replace (flat_map (fun e => dd (fst e) :: snd e) es) with (tokens_of es) by reflexivity.
    assert (Hl' : es <> [] -> segments (tokens_of es ++ tail) (map entry es)).
    { intros Hne. apply IH. intros E. destruct (Hl E) as [H|(es' & k' & H)]; [discriminate|].
      right. destruct es' as [|e' es']; simpl in H; inversion H; subst; [congruence|eauto]. }
    cbn [fst snd] in *.
    destruct Hc as [-> |[(t & -> & Hp)|Hc]].
    + cbn [app join]. destruct es as [|[k' g'] es].
      * cbn. destruct Ht as [-> | ->]; [apply seg_flag_last|].
        apply seg_plain; [|constructor]. split; [intros [? ?]; discriminate|intros [[? ?] _]; discriminate].
      * cbn [tokens_of flat_map fst snd app]. apply seg_flag; [eexists; reflexivity|].
        apply (Hl' ltac:(discriminate)).
    + cbn [app join]. destruct es as [|e es].
      * cbn. destruct Ht as [-> | ->].
        -- apply seg_plain; [assumption|constructor].
        -- destruct (Hl eq_refl) as [H|(es' & k' & H)]; [discriminate|].
           destruct es' as [|? [|? es']]; simpl in H; inversion H.
      * apply seg_plain; [assumption|]. apply Hl'; discriminate.
    + rewrite <- app_assoc. apply seg_group; [assumption|].
      destruct es as [|e es].
      * cbn. destruct Ht as [-> | ->]; [constructor|].
        apply seg_skip; [intros [? E]; discriminate|constructor].
      * apply Hl'; discriminate.
Qed.

Lemma c_str_word t : Forall (fun c => c <> nul) t -> c_str t = t.
Proof.
  induction 1 as [|c t H _ IH]; simpl; auto.
  destruct (aeqb_spec c nul); [contradiction|rewrite IH; reflexivity].
Qed.

Lemma map_c_str ts : Forall (fun t => Forall (fun c => c <> nul) t) ts -> map c_str ts = ts.
Proof. induction 1 as [|t ts H _ IH]; simpl; auto. rewrite c_str_word, IH; auto. Qed.

Lemma tokens_no_nul es : Forall good_entry es ->
  Forall (fun t => Forall (fun c => c <> nul) t) (tokens_of es).
Proof.
  assert (Hword : forall t, word t -> Forall (fun c => c <> nul) t).
  { intros t [_ H]; eapply Forall_impl; [|exact H]; simpl; tauto. }
  induction 1 as [|[k g] es [Hk [Hg Hc]] _ IH]; cbn [tokens_of flat_map]; [constructor|].
  cbn [app]. constructor; [apply Hword, word_dd; exact Hk|].
  apply Forall_app; split; [|exact IH].
  eapply Forall_impl; [|exact Hg]; auto.
Qed.

Lemma first_value_map_find k m : first_value k m = map_find k m.
Proof. induction m as [|[k' v] m IH]; simpl; auto. destruct (str_eqb k k'); auto. Qed.

Lemma cmd_roundtrip m : map_ok m -> writable m -> create_arguments (get_cmd m) = Ok m.
Proof.
  intros Hm Hw. destruct (writable_entries _ Hw) as (es & -> & Hes).
  unfold create_arguments.
  destruct (tokenize_cmd es [] (S (List.length (get_cmd (map entry es)))) Hes eq_refl) as (tail & E & Ht);
    [cbn [app]; lia|].
  cbn [app] in E; rewrite E.
  rewrite map_c_str.
  2: { apply Forall_app; split; [apply tokens_no_nul; assumption|].
       destruct Ht as [[-> _]|[-> _]]; repeat constructor. }
  destruct (argv_spec (tokens_of es ++ tail) (map entry es)) as (m' & Em & Hm' & Hk).
  { apply segments_tokens; auto.
    - destruct Ht as [[-> _]|[-> _]]; auto.
    - intros ->. destruct Ht as [[H _]|[_ H]]; [discriminate|exact H]. }
  rewrite Em. f_equal. apply map_ext; auto.
  intros k; rewrite Hk; apply first_value_map_find.
Qed.

(** ** Headers *)
Definition hline (l : str) : str := "#"%char :: l ++ [nl].

Lemma split_line_app l r : ~ In nl l -> split_line (l ++ nl :: r) = (l, Some r).
Proof.
  induction l as [|c l IH]; simpl; intros H; [reflexivity|].
  destruct (aeqb_spec c nl) as [->|n]; [exfalso; apply H; left; reflexivity|].
  rewrite IH; auto.
Qed.

Definition apply_effect (m : arguments) (l : str) : arguments :=
  match header_line l with LSet k v => map_update k v m | _ => m end.

Lemma parse_header_lines ls : forall r fuel m,
  Forall (fun l => ~ In nl l /\ header_line l <> LStop) ls -> ~ begins "#" r ->
  List.length (concat (map hline ls) ++ r) < fuel ->
  parse_header_loop fuel (open_stream (concat (map hline ls) ++ r)) m =
  (fold_left apply_effect ls m,
   {| rest := r; eofbit := match r with [] => true | _ => false end; failbit := false |}).
Proof.
  induction ls as [|l ls IH]; intros r fuel m Hls Hr Hf; (destruct fuel as [|fuel]; [lia|]).
  - cbn. destruct r as [|c r]; [reflexivity|].
    destruct (aeqb_spec c "#") as [->|n]; [|reflexivity].
    exfalso; apply Hr; eexists; reflexivity.
  - inversion Hls as [|? ? [Hnl Hst] Hls']; subst.
    cbn [map concat]. unfold hline at 1. rewrite <- app_assoc. cbn [app].
    cbn [parse_header_loop]. unfold open_stream; cbn [good eofbit failbit rest negb andb].
    rewrite aeqb_refl. rewrite <- app_assoc; cbn [app]. unfold getline.
    rewrite split_line_app by assumption.
    assert (List.length (concat (map hline ls) ++ r) < fuel) as Hf'.
    { cbn [map concat] in Hf. unfold hline at 1 in Hf.
      repeat (rewrite app_length in Hf || cbn [List.length app] in Hf).
      rewrite app_length; lia. }
    cbn [fold_left]. unfold apply_effect at 2.
    fold (open_stream (concat (map hline ls) ++ r)).
    destruct (header_line l) eqn:E; [apply IH; auto|apply IH; auto|congruence].
Qed.

Lemma parse_header_spec ls r :
  Forall (fun l => ~ In nl l /\ header_line l <> LStop) ls -> ~ begins "#" r ->
  parse_header (concat (map hline ls) ++ r) =
  (fold_left apply_effect ls [],
   {| rest := r; eofbit := match r with [] => true | _ => false end; failbit := false |}).
Proof. intros; apply parse_header_lines; auto. Qed.

(** Header items as a writer would produce them. *)
Inductive hitem := HComment (text : str) | HKey (k v : str).
Definition render_item (i : hitem) : str :=
  match i with
  | HComment t => hline (" "%char :: t)
  | HKey k v => hline (key_value_line k v)
  end.
Definition render_header (l : list hitem) : str := concat (map render_item l).
Definition item_ok (i : hitem) : Prop :=
  match i with
  | HComment t => ~ In nl t
  | HKey k v => header_key k /\ header_value v
  end.
Definition item_pairs (i : hitem) : list (str * str) :=
  match i with HComment _ => [] | HKey k v => [(k, v)] end.

Definition item_line (i : hitem) : str :=
  match i with HComment t => " "%char :: t | HKey k v => key_value_line k v end.

Lemma take_until_none c s : ~ In c s -> take_until c s = s.
Proof.
  induction s as [|x s IH]; simpl; intros H; auto.
  destruct (aeqb_spec x c) as [->|n]; [exfalso; apply H; left; reflexivity|].
  rewrite IH; auto.
Qed.

Lemma space_is_space : is_space " " = true. Proof. reflexivity. Qed.

Lemma header_line_key k v : header_key k -> header_value v ->
  header_line (key_value_line k v) = LSet k v.
Proof.
  intros (Hn & Hs & Ha) [Hv Hh]. unfold header_line, key_value_line.
  destruct k as [|c k]; [congruence|].
  pose proof (Forall_inv Hs) as Hc.
  cbn [app first_is]. destruct (aeqb_spec c " ") as [->|nc]; [cbv in Hc; discriminate|].
  unfold scan_token at 1.
  replace (skip_ws (c :: k ++ " "%char :: v)) with ((c :: k) ++ " "%char :: v).
  2: { cbn [skip_ws]; rewrite Hc; reflexivity. }
  rewrite take_token_app; [|assumption|reflexivity].
  destruct (str_eqb_spec (c :: k) (lit "ALTA")) as [E|_]; [contradiction|].
  f_equal. cbn [skip_ws]. rewrite space_is_space.
  assert (skip_ws v = v) as ->.
  { destruct v as [|d v]; [reflexivity|]. cbn [skip_ws]; simpl in Hh; rewrite Hh; reflexivity. }
  apply take_until_none. intros H. rewrite Forall_forall in Hv. destruct (Hv _ H); congruence.
Qed.

Lemma header_key_no_nl k : header_key k -> ~ In nl k.
Proof.
  intros (_ & Hs & _) H. rewrite Forall_forall in Hs. specialize (Hs _ H). discriminate.
Qed.

Lemma parse_header_items items r : Forall item_ok items -> ~ begins "#" r ->
  exists m, parse_header (render_header items ++ r) =
    (m, {| rest := r; eofbit := match r with [] => true | _ => false end; failbit := false |})
    /\ map_ok m /\ forall k, map_find k m = last_value k (flat_map item_pairs items).
Proof.
  intros Hi Hr.
  assert (render_header items = concat (map hline (map item_line items))) as ->.
  { unfold render_header; rewrite map_map. f_equal. apply map_ext_in. intros [t|k v] _; reflexivity. }
  rewrite parse_header_spec; auto.
  2: { rewrite Forall_map. eapply Forall_impl; [|exact Hi]. intros [t|k v]; simpl.
       - intros H; split; [|unfold header_line; simpl; congruence].
         intros [E|E]; [discriminate|contradiction].
       - intros [Hk Hv]; split.
         + unfold key_value_line; rewrite in_app_iff; intros [E|[E|E]].
           * eapply header_key_no_nl; eauto.
           * discriminate.
           * destruct Hv as [Hv _]. rewrite Forall_forall in Hv. destruct (Hv _ E); congruence.
         + rewrite header_line_key by assumption; discriminate. }
  eexists; split; [reflexivity|].
  assert (Hg : forall m, map_ok m ->
    map_ok (fold_left apply_effect (map item_line items) m) /\
    forall k, map_find k (fold_left apply_effect (map item_line items) m) =
      match last_value k (flat_map item_pairs items) with Some v => Some v | None => map_find k m end).
  { induction Hi as [|i items Hi1 Hi IH]; intros m Hm; [simpl; auto|].
    cbn [map fold_left flat_map].
    destruct i as [t|k0 v0].
    - replace (apply_effect m (item_line (HComment t))) with m by reflexivity.
      cbn [item_pairs app]. auto.
    - destruct Hi1 as [Hk Hv]. unfold apply_effect at 2 4. cbn [item_line].
      rewrite header_line_key by assumption.
      destruct (IH (map_update k0 v0 m)) as [H1 H2]; [apply map_update_ok; assumption|].
      split; [assumption|]. intros k. rewrite H2. cbn [item_pairs app last_value].
      destruct (last_value k (flat_map item_pairs items)); auto.
      rewrite map_find_update by assumption. destruct (str_eqb k k0); auto. }
  destruct (Hg [] map_ok_nil) as [H1 H2]. split; [assumption|].
  intros k; rewrite H2. destruct (last_value k _); reflexivity.
Qed.

(** For any byte stream at all: what was consumed is a run of '#' lines. *)
Inductive hash_lines : str -> Prop :=
| hl_nil : hash_lines []
| hl_line l s : ~ In nl l -> hash_lines s -> hash_lines (hline l ++ s)
| hl_last l : ~ In nl l -> hash_lines ("#"%char :: l).

Lemma split_line_inv s : match split_line s with
  | (l, Some r) => s = l ++ nl :: r /\ ~ In nl l
  | (l, None) => s = l /\ ~ In nl l end.
Proof.
  induction s as [|c s IH]; simpl; [auto|].
  destruct (aeqb_spec c nl) as [->|n]; [split; auto|].
  destruct (split_line s) as [l [r|]]; destruct IH as [-> H]; split; simpl; auto; intros [?|?]; auto.
Qed.

Lemma parse_header_any fuel : forall b m, List.length b < fuel ->
  let s := snd (parse_header_loop fuel (open_stream b) m) in
  exists p, b = p ++ rest s /\ hash_lines p /\
   (~ begins "#" (rest s) \/
    exists p' l, p = p' ++ hline l /\ ~ In nl l /\ header_line l = LStop).
Proof.
  induction fuel as [|fuel IH]; intros b m Hf; [lia|].
  cbn [parse_header_loop]. unfold open_stream; cbn [good eofbit failbit rest negb andb].
  destruct b as [|c t].
  { exists []; simpl. repeat split; [constructor|left; intros [? ?]; discriminate]. }
  destruct (aeqb_spec c "#") as [->|n].
  2: { exists []; simpl. repeat split; [constructor|left; intros [? H]; congruence]. }
  unfold getline. pose proof (split_line_inv t) as Hs.
  destruct (split_line t) as [l [r|]]; destruct Hs as [-> Hl].
  - assert (Hr : forall m, let s := snd (parse_header_loop fuel (open_stream r) m) in
      exists p, "#"%char :: l ++ nl :: r = p ++ rest s /\ hash_lines p /\
       (~ begins "#" (rest s) \/ exists p' l, p = p' ++ hline l /\ ~ In nl l /\ header_line l = LStop)).
    { intros m0. destruct (IH r m0) as (p & E & Hp & Ho).
      { simpl in Hf; rewrite app_length in Hf; simpl in Hf; lia. }
      cbv zeta. set (s := snd _) in *. exists (hline l ++ p). repeat split.
      - unfold hline. cbn [app]. rewrite <- !app_assoc. cbn [app]. rewrite <- E. reflexivity.
      - constructor; auto.
      - destruct Ho as [Ho|(p' & l' & -> & Hl' & Hs')]; [left; assumption|].
        right; exists (hline l ++ p'), l'. rewrite app_assoc; auto. }
    destruct (header_line l) eqn:E; [apply Hr|apply Hr|].
    exists (hline l); cbn [snd rest]. repeat split.
    + unfold hline. cbn [app]. rewrite <- app_assoc; reflexivity.
    + rewrite <- (app_nil_r (hline l)); repeat constructor; assumption.
    + right; exists [], l; auto.
  - assert (Hr : forall e f m, e || f = true ->
      parse_header_loop fuel {| rest := []; eofbit := e; failbit := f |} m = (m, {| rest := []; eofbit := e; failbit := f |})).
    { intros e f m0 He. destruct fuel; [reflexivity|]. cbn [parse_header_loop]. unfold good; simpl.
      destruct e, f; simpl in *; congruence. }
    exists ("#"%char :: l).
    destruct (header_line l); rewrite ?Hr by reflexivity; cbn [snd rest];
      rewrite app_nil_r; (repeat split; [constructor; assumption|left; intros [? ?]; discriminate]).
Qed.

Lemma parse_header_prefix b :
  let s := snd (parse_header b) in
  exists p, b = p ++ rest s /\ hash_lines p /\
   (~ begins "#" (rest s) \/
    exists p' l, p = p' ++ hline l /\ ~ In nl l /\ header_line l = LStop).
Proof. apply parse_header_any; lia. Qed.

(** ** Corollaries in API terms *)
Lemma argv_api argv l : segments argv l ->
  exists a, arguments_of_argv argv = Ok a /\
    (forall k, is_defined a k = match first_value k l with Some _ => true | None => false end) /\
    (forall k, at_key a k = match first_value k l with Some v => v | None => [] end).
Proof.
  intros H; destruct (argv_spec _ _ H) as (m & E & _ & Hk).
  exists m; split; [assumption|].
  unfold is_defined, at_key; split; intros k; rewrite Hk; destruct (first_value k l); reflexivity.
Qed.

Lemma dash_value_dropped k t r a : begins "-" t ->
  arguments_of_argv (dd k :: t :: r) = Ok a -> at_key a k = [].
Proof.
  intros Hb E.
  destruct (proj2 (segments_iff_ok (dd k :: t :: r)) (ex_intro _ a E)) as [l Hl].
  destruct (argv_api _ _ Hl) as (a' & E' & _ & Hk). rewrite E in E'; inversion E'; subst a'.
  rewrite Hk. inversion Hl as [|? ? ? Hn _|?|? ? ? ? _ _|? ? ? ? Hp _|? g ? ? Hg _|? g Hg]; subst.
  - exfalso; apply Hn; eexists; reflexivity.
  - simpl; rewrite str_eqb_refl; reflexivity.
  - destruct Hp as [Hp _]; contradiction.
  - destruct Hg as (g1 & mid & gn & -> & Hb1 & _). cbn [app] in *.
    exfalso. match goal with H : _ :: _ = _ :: _ |- _ => inversion H; subst end.
    eapply not_dash_group; eauto.
  - destruct Hg as (init & gn & Hg & Hb1 & _). simpl in Hb1. exfalso. eapply not_dash_group; eauto.
Qed.

Lemma get_update (a : arguments) k v k0 : map_ok a ->
  map_ok (update a k v) /\
  is_defined (update a k v) k0 = (str_eqb k0 k || is_defined a k0) /\
  at_key (update a k v) k0 = (if str_eqb k0 k then v else at_key a k0) /\
  (forall d, get_string (update a k v) k0 d = if str_eqb k0 k then c_str v else get_string a k0 d) /\
  (forall T (conv : str -> T) d,
     get_num conv (update a k v) k0 d = if str_eqb k0 k then conv (c_str v) else get_num conv a k0 d) /\
  (forall T (stod : str -> outcome T) d,
     get_double stod (update a k v) k0 d = if str_eqb k0 k then stod v else get_double stod a k0 d).
Proof.
  intros Hm. unfold update, is_defined, at_key, get_string, get_num, get_double.
  split; [apply map_update_ok; assumption|].
  rewrite map_find_update by assumption.
  destruct (str_eqb k0 k); simpl; repeat split.
Qed.

Lemma undefined_default (a : arguments) k : is_defined a k = false ->
  at_key a k = [] /\ is_vec a k = false /\ get_vec_str a k = [] /\
  (forall d, get_string a k d = d) /\
  (forall T (conv : str -> T) d, get_num conv a k d = d) /\
  (forall T (stod : str -> outcome T) d, get_double stod a k d = Ok d) /\
  (forall T (conv : str -> T) n d, get_vec_num conv a k n d = repeat d n).
Proof.
  unfold is_defined, at_key, is_vec, get_vec_str, get_string, get_num, get_double, get_vec_num, get_num.
  destruct (map_find k a); [discriminate|]. repeat split.
Qed.

(** Every map built by the constructor, and then updated, is a proper map. *)
Lemma argv_map_ok argv a : arguments_of_argv argv = Ok a -> map_ok a.
Proof.
  intros E. destruct (proj2 (segments_iff_ok argv) (ex_intro _ a E)) as [l Hl].
  destruct (argv_spec _ _ Hl) as (a' & E' & Hm & _). congruence.
Qed.

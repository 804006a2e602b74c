From Coq Require Import List Lia.
From Verif Require Import Base Num ArgsModel ArgsSpec ArgsProofs ParamsModel GeoModel CommonModel FuncModel PlugModel PlugSpec.
Open Scope list_scope.
Open Scope nat_scope.

(** ** Names and search path *)
Lemma library_name_spec name :
  (List.length name < 2 -> library_name name = Throw) /\
  (forall p, name = p ++ lit "so" -> library_name name = Ok name) /\
  (2 <= List.length name -> (forall p, name <> p ++ lit "so") ->
     library_name name = Ok (lit "lib" ++ name ++ lit ".so")).
Proof.
  unfold library_name; repeat split.
  - intros H; rewrite (proj2 (Nat.ltb_lt _ _)) by lia; reflexivity.
  - intros p ->. rewrite app_length; simpl (List.length (lit "so")).
    replace (List.length p + 2 <? 2) with false by (symmetry; apply Nat.ltb_ge; lia).
    replace (List.length p + 2 - 2) with (List.length p) by lia.
    rewrite skipn_app, Nat.sub_diag, skipn_all. simpl skipn.
    change ([] ++ lit "so") with (lit "so"). rewrite str_eqb_refl. reflexivity.
  - intros H1 H2. replace (List.length name <? 2) with false by (symmetry; apply Nat.ltb_ge; lia).
    destruct (str_eqb_spec (skipn (List.length name - 2) name) (lit "so")) as [E|E]; [|reflexivity].
    exfalso. apply (H2 (firstn (List.length name - 2) name)). rewrite <- E. symmetry. apply firstn_skipn.
Qed.

Lemma join_cons2 sep a b l : join sep (a :: b :: l) = a ++ sep ++ join sep (b :: l).
Proof. reflexivity. Qed.

Lemma search_join sysdir comps : forall fuel, comps <> [] -> Forall (fun c => ~ In ":"%char c) comps ->
  join colon comps <> [] -> List.length (join colon comps) < fuel ->
  search_loop sysdir fuel (join colon comps) = map (directory sysdir) comps.
Proof.
  induction comps as [|a comps IH]; intros fuel Hne Hf Hs Hlt; [congruence|].
  inversion Hf as [|? ? Ha Hc]; subst. destruct fuel as [|fuel]; [lia|].
  destruct comps as [|b comps].
  - cbn [join] in *. cbn [search_loop]. destruct a as [|c a]; [congruence|].
    rewrite find_char_none by assumption. reflexivity.
  - assert (E : forall s, s <> [] -> search_loop sysdir (S fuel) s =
        match find_char ":" s with None => [s]
        | Some (u, v) => (match u with [] => sysdir | _ => u end)
              :: match v with [] => [sysdir] | _ => search_loop sysdir fuel v end end)
      by (intros [|? ?] H0; [congruence|reflexivity]).
    rewrite E by assumption. clear E. rewrite join_cons2 in *.
    change (a ++ colon ++ join colon (b :: comps)) with (a ++ ":"%char :: join colon (b :: comps)).
    rewrite find_char_split by assumption. cbn [map]. unfold directory at 1.
    rewrite app_length in Hlt; cbn [app List.length colon] in Hlt.
    f_equal. destruct (join colon (b :: comps)) eqn:Ej.
    + destruct comps as [|b2 comps].
      * cbn [join] in Ej. subst b. reflexivity.
      * rewrite join_cons2 in Ej. exfalso. destruct b; discriminate.
    + rewrite <- Ej in *. apply IH; [discriminate|assumption|rewrite Ej; discriminate|]. simpl in *. lia.
Qed.

Lemma path_of_join sysdir comps : comps <> [] -> Forall (fun c => ~ In ":"%char c) comps ->
  plugin_search_path sysdir (Some (join colon comps)) = map (directory sysdir) comps.
Proof.
  intros Hne Hf. unfold plugin_search_path. destruct (join colon comps) eqn:E.
  - destruct comps as [|a [|b comps]]; [congruence| |].
    + cbn [join] in E; subst; reflexivity.
    + rewrite join_cons2 in E. destruct a; discriminate.
  - rewrite <- E. apply search_join; auto; congruence.
Qed.

Lemma split_exists s : exists comps, comps <> [] /\ Forall (fun c => ~ In ":"%char c) comps /\ s = join colon comps.
Proof.
  induction s as [|c s (comps & Hne & Hf & ->)].
  - exists [[]]; repeat split; [discriminate|]. constructor; [intros []|constructor].
  - destruct comps as [|a comps]; [congruence|]. inversion Hf as [|? ? Ha Hc]; subst.
    destruct (aeqb_spec c ":") as [->|n].
    + exists ([] :: a :: comps). repeat split; [discriminate|]. constructor; [intros []|assumption].
    + exists ((c :: a) :: comps). repeat split; [discriminate| |].
      * constructor; [|assumption]. intros [H|H]; [congruence|contradiction].
      * destruct comps; reflexivity.
Qed.

Lemma path_nonempty sysdir env : plugin_search_path sysdir env <> [].
Proof.
  destruct env as [s|]; [|discriminate]. destruct (split_exists s) as (comps & Hne & Hf & ->).
  rewrite path_of_join by assumption. destruct comps; [congruence|discriminate].
Qed.

(** ** Opening *)
Section Open.
Context {T : Type} (libs : str -> option (option T)).

Lemma open_loop_some dirs name lib : library_name name = Ok lib -> forall pending f,
  open_loop false libs dirs name pending = Ok (Some f) <-> first_export libs dirs lib f.
Proof.
  intros Hn. induction dirs as [|d dirs IH]; intros pending f; cbn [open_loop].
  - split; [discriminate|]. intros (pre & d & post & H & _). destruct pre; discriminate.
  - rewrite Hn; cbn [bind]. cbn [andb].
    destruct (libs (d ++ lit "/" ++ lib)) as [[g|]|] eqn:E.
    + split.
      * intros H; inversion H; subst g. exists [], d, dirs. repeat split; [exact E|intros ? ? []].
      * intros (pre & d' & post & Hd & He & Hp). destruct pre as [|x pre].
        -- inversion Hd; subst. unfold exports in He. congruence.
        -- inversion Hd; subst. exfalso. apply (Hp x g); [left; reflexivity|exact E].
    + rewrite IH. split.
      * intros (pre & d' & post & -> & He & Hp). exists (d :: pre), d', post. repeat split; auto.
        intros x g [<-|Hx] Hg; [unfold exports in Hg; congruence|]. exact (Hp x g Hx Hg).
      * intros (pre & d' & post & Hd & He & Hp). destruct pre as [|x pre]; inversion Hd; subst.
        -- unfold exports in He; congruence.
        -- exists pre, d', post. repeat split; auto. intros y g Hy. apply Hp; right; assumption.
    + rewrite IH. split.
      * intros (pre & d' & post & -> & He & Hp). exists (d :: pre), d', post. repeat split; auto.
        intros x g [<-|Hx] Hg; [unfold exports in Hg; congruence|]. exact (Hp x g Hx Hg).
      * intros (pre & d' & post & Hd & He & Hp). destruct pre as [|x pre]; inversion Hd; subst.
        -- unfold exports in He; congruence.
        -- exists pre, d', post. repeat split; auto. intros y g Hy. apply Hp; right; assumption.
Qed.

Lemma open_loop_none dirs name lib : library_name name = Ok lib -> forall pending,
  open_loop false libs dirs name pending = Ok None <-> (forall d f, In d dirs -> ~ exports libs d lib f).
Proof.
  intros Hn. induction dirs as [|d dirs IH]; intros pending; cbn [open_loop].
  - split; [intros _ ? ? []|reflexivity].
  - rewrite Hn; cbn [bind andb]. unfold exports in *.
    destruct (libs (d ++ lit "/" ++ lib)) as [[g|]|] eqn:E.
    + split; [discriminate|]. intros H; exfalso; apply (H d g); [left; reflexivity|exact E].
    + rewrite IH; split; intros H x f; [intros [<-|Hx]; [congruence|auto]|intros Hx; apply H; right; auto].
    + rewrite IH; split; intros H x f; [intros [<-|Hx]; [congruence|auto]|intros Hx; apply H; right; auto].
Qed.

Lemma open_throw sticky dirs name : dirs <> [] -> library_name name = Throw ->
  open_library sticky libs dirs name = Throw.
Proof. destruct dirs as [|d dirs]; [congruence|]. intros _ H. unfold open_library; simpl; rewrite H; reflexivity. Qed.
End Open.

(** ** Termination of get_function *)
Definition weight (ts : list str) : nat := fold_right (fun t n => S (List.length t) + n) 0 ts.
Definition cost (k v : str) : nat := List.length k + 3 + List.length v + match v with [] => 0 | _ => 1 end.
Definition costs (l : list (str * str)) : nat := fold_right (fun kv n => cost (fst kv) (snd kv) + n) 0 l.

Lemma weight_app a b : weight (a ++ b) = weight a + weight b.
Proof. induction a as [|x a IH]; simpl; [reflexivity|]. rewrite IH; lia. Qed.

Lemma join_weight g : List.length (join space g) + match join space g with [] => 0 | _ => 1 end <= weight g.
Proof.
  assert (H : forall a g, S (List.length (join space (a :: g))) <= weight (a :: g)).
  { intros a g0; revert a; induction g0 as [|b g0 IH]; intros a.
    - simpl; lia.
    - change (join space (a :: b :: g0)) with (a ++ space ++ join space (b :: g0)).
      rewrite app_length, app_length; simpl (List.length space). specialize (IH b).
      change (weight (a :: b :: g0)) with (S (List.length a) + weight (b :: g0)). lia. }
  destruct g as [|a g]; [simpl; lia|]. specialize (H a g). destruct (join space (a :: g)) eqn:E; simpl in *; lia.
Qed.

Lemma weight_cons t ts : weight (t :: ts) = S (List.length t) + weight ts.
Proof. reflexivity. Qed.
Lemma costs_cons k v l : costs ((k, v) :: l) = cost k v + costs l.
Proof. reflexivity. Qed.
Lemma segments_cost argv l : segments argv l -> costs l <= weight argv.
Proof.
  induction 1; rewrite ?costs_cons, ?weight_cons, ?weight_app in *; unfold cost, dd; simpl List.length; try lia.
  all: try solve [simpl; lia | destruct t; simpl List.length; lia].
  - pose proof (join_weight g). destruct (join space g); simpl List.length in *; lia.
  - pose proof (join_weight g). cbn [costs fold_right]. destruct (join space g); simpl List.length in *; lia.
Qed.

Definition cost_of (k : str) (l : list (str * str)) : nat :=
  match first_value k l with Some v => cost k v | None => 0 end.
Lemma cost_of_cons k j v l : cost_of k ((j, v) :: l) = if str_eqb k j then cost j v else cost_of k l.
Proof. unfold cost_of; simpl. destruct (str_eqb_spec k j) as [->|]; reflexivity. Qed.
Lemma cost_of_le k l : cost_of k l <= costs l.
Proof.
  induction l as [|[k' v] l IH]; [unfold cost_of; simpl; lia|]. rewrite cost_of_cons, costs_cons.
  destruct (str_eqb k k'); lia.
Qed.
Lemma two_costs k k' l : k <> k' -> cost_of k l + cost_of k' l <= costs l.
Proof.
  intros Hk. induction l as [|[j v] l IH]; [unfold cost_of; simpl; lia|].
  pose proof (cost_of_le k l); pose proof (cost_of_le k' l). rewrite !cost_of_cons, costs_cons.
  destruct (str_eqb_spec k j) as [->|]; destruct (str_eqb_spec k' j) as [E|]; try congruence; lia.
Qed.

Lemma skip_ws_le s : List.length (skip_ws s) <= List.length s.
Proof. induction s as [|c s IH]; simpl; [lia|]. destruct (is_space c); simpl; lia. Qed.
Lemma take_token_len s : List.length (fst (take_token s)) + List.length (snd (take_token s)) = List.length s /\
  space_head (snd (take_token s)).
Proof.
  induction s as [|c s [IH Hs]]; simpl; [split; [reflexivity|exact I]|].
  destruct (is_space c) eqn:E; simpl; [split; [reflexivity|exact E]|].
  destruct (take_token s) as [a b]; simpl in *. split; [lia|assumption].
Qed.

Lemma tokenize_weight fuel : forall s, weight (tokenize fuel s) <= List.length (skip_ws s) + 1.
Proof.
  induction fuel as [|fuel IH]; intros s; cbn [tokenize]; [simpl; lia|].
  unfold scan_token. destruct (take_token_len (skip_ws s)) as [H1 H2].
  destruct (take_token (skip_ws s)) as [tok r]; cbn [fst snd] in *.
  destruct r as [|c r].
  - cbn [weight fold_right]. simpl in H1. lia.
  - change (weight (tok :: tokenize fuel (c :: r))) with (S (List.length tok) + weight (tokenize fuel (c :: r))).
    specialize (IH (c :: r)). simpl in H2. assert (Hr : List.length (skip_ws (c :: r)) <= List.length r).
    { simpl; rewrite H2. apply skip_ws_le. }
    simpl (List.length (c :: r)) in H1. lia.
Qed.

Lemma c_str_le s : List.length (c_str s) <= List.length s.
Proof. induction s as [|c s IH]; simpl; [lia|]. destruct (aeqb c nul); simpl; lia. Qed.
Lemma c_str_weight ts : weight (map c_str ts) <= weight ts.
Proof. induction ts as [|t ts IH]; [simpl; lia|]. cbn [map]. rewrite !weight_cons. pose proof (c_str_le t). unfold str in *. lia. Qed.

Lemma create_nesting e a : create_arguments (lit "--func " ++ e) = Ok a -> nesting a <= List.length e.
Proof.
  unfold create_arguments. intros E.
  destruct (proj2 (segments_iff_ok _) (ex_intro _ a E)) as [l Hl].
  destruct (argv_api _ _ Hl) as (a' & E' & _ & Hk). rewrite E in E'; inversion E'; subst a'.
  unfold nesting. rewrite !Hk.
  pose proof (segments_cost _ _ Hl) as Hc.
  pose proof (c_str_weight (tokenize (S (List.length (lit "--func " ++ e))) (lit "--func " ++ e))) as Hw.
  pose proof (tokenize_weight (S (List.length (lit "--func " ++ e))) (lit "--func " ++ e)) as Ht.
  pose proof (skip_ws_le (lit "--func " ++ e)) as Hs.
  rewrite app_length in Hs; simpl (List.length (lit "--func ")) in Hs.
  assert (H2 : cost_of (lit "func") l + cost_of (lit "fresnel") l <= costs l) by (apply two_costs; discriminate).
  unfold cost_of, cost in H2. simpl (List.length (lit "func")) in H2. simpl (List.length (lit "fresnel")) in H2.
  destruct (first_value (lit "func") l) as [[|? v]|]; destruct (first_value (lit "fresnel") l) as [[|? v']|];
    simpl List.length in *; lia.
Qed.

Lemma find_char_len c s a b : find_char c s = Some (a, b) -> List.length a + List.length b < List.length s.
Proof.
  revert a b; induction s as [|x s IH]; intros a b; simpl; [discriminate|].
  destruct (aeqb x c); [intros H; inversion H; simpl; lia|].
  destruct (find_char c s) as [[a' b']|]; [|discriminate]. intros H; inversion H; subst.
  specialize (IH _ _ eq_refl). simpl; lia.
Qed.
Lemma removelast_len {A} (s : list A) : List.length (removelast s) <= List.length s.
Proof. induction s as [|x s IH]; simpl; [lia|]. destruct s; simpl in *; lia. Qed.
Lemma split_loop_len fuel : forall s e, In e (split_loop fuel s) -> List.length e <= List.length s.
Proof.
  induction fuel as [|fuel IH]; intros s e; simpl; [intros []|].
  destruct (find_char "," s) as [[a b]|] eqn:E.
  - apply find_char_len in E. intros [<-|H]; [lia|]. apply IH in H; lia.
  - intros [<-|[]]. apply removelast_len.
Qed.
Lemma get_vec_len a k e : In e (get_vec_str a k) -> List.length e < List.length (at_key a k).
Proof.
  unfold get_vec_str, at_key. destruct (map_find k a) as [s|]; [|intros []].
  destruct s as [|c t]; [intros []|]. destruct (aeqb_spec c "[") as [->|n].
  - intros H; apply split_loop_len in H. simpl; lia.
  - intros H. exfalso. destruct c as [[] [] [] [] [] [] [] []]; try exact H; apply n; reflexivity.
Qed.

Section GF.
Variable sysdir : str.
Variable env : option str.
Variable libs : str -> option (option (parameters -> fobj)).
Notation body := (get_function_body sysdir env libs).
Notation gfn := (get_function_n sysdir env libs).
Notation gf := (get_function sysdir env libs).
Notation openf := (open_function sysdir env libs).
Notation plugin_gives := (PlugSpec.plugin_gives sysdir env libs).
Notation fresnel_gives := (PlugSpec.fresnel_gives sysdir env libs).
Notation lobe_gives := (PlugSpec.lobe_gives sysdir env libs).

Lemma elements_ext r1 r2 par l :
  (forall e a, In e l -> create_arguments (lit "--func " ++ e) = Ok a -> r1 a par = r2 a par) ->
  elements r1 par l = elements r2 par l.
Proof.
  induction l as [|e l IH]; intros H; [reflexivity|]. cbn [elements].
  destruct (create_arguments (lit "--func " ++ e)) as [a| | |] eqn:E; try reflexivity.
  cbn [bind]. rewrite (H e a (or_introl eq_refl) E). destruct (r2 a par); try reflexivity. cbn [bind].
  fold (elements r1 par) (elements r2 par). rewrite IH; [reflexivity|].
  intros e' a' Hi; apply H; right; assumption.
Qed.

Lemma open_empty : openf [] = Throw.
Proof. apply open_throw; [apply path_nonempty|reflexivity]. Qed.

Lemma body_ext r1 r2 args par :
  (forall a, nesting a < nesting args -> r1 a par = r2 a par) ->
  body r1 args par = body r2 args par.
Proof.
  intros H. unfold get_function_body. destruct (is_defined args (lit "func")); [|reflexivity]. cbn [negb].
  assert (Hb : base_function sysdir env libs r1 args par = base_function sysdir env libs r2 args par).
  { unfold base_function. destruct (is_vec args (lit "func")); [|reflexivity].
    destruct (get_vec_str args (lit "func")) as [|e0 l0] eqn:Ev; [reflexivity|].
    rewrite (elements_ext r1 r2); [reflexivity|]. intros e a Hi Ha. apply H.
    apply create_nesting in Ha. assert (List.length e < List.length (at_key args (lit "func"))).
    { apply get_vec_len. rewrite Ev. assumption. }
    unfold nesting in *. lia. }
  rewrite Hb. destruct (base_function sysdir env libs r2 args par) as [[f|f]| | |] eqn:Eb; try reflexivity.
  cbn [bind]. unfold fresnel_factor. destruct (is_defined args (lit "fresnel")); [|reflexivity]. cbn [negb].
  destruct (as_nonlinear f); [|reflexivity].
  destruct (negb (is_vec args (lit "fresnel")) && str_eqb (at_key args (lit "fresnel")) []) eqn:Ee; [reflexivity|].
  assert (Hne : at_key args (lit "func") <> []).
  { intros E0. revert Eb. unfold base_function. destruct (is_vec args (lit "func")) eqn:Ev.
    - unfold is_vec, at_key in *. destruct (map_find (lit "func") args) as [v|]; [subst v; discriminate|discriminate].
    - rewrite E0, open_empty. discriminate. }
  destruct (create_arguments (lit "--func " ++
    (if is_vec args (lit "fresnel") then removelast (tl (at_key args (lit "fresnel"))) else at_key args (lit "fresnel"))))
    as [a| | |] eqn:Ea; try reflexivity. cbn [bind].
  rewrite (H a); [reflexivity|]. apply create_nesting in Ea. unfold nesting at 2.
  assert (List.length (if is_vec args (lit "fresnel") then removelast (tl (at_key args (lit "fresnel")))
                       else at_key args (lit "fresnel")) <= List.length (at_key args (lit "fresnel"))).
  { destruct (is_vec args (lit "fresnel")); [|lia]. pose proof (removelast_len (tl (at_key args (lit "fresnel")))).
    destruct (at_key args (lit "fresnel")); simpl in *; lia. }
  destruct (at_key args (lit "func")); [congruence|]. simpl (List.length (_ :: _)). lia.
Qed.

Lemma gfn_stable s1 s2 n1 : forall n2 args par, nesting args < n1 -> nesting args < n2 ->
  gfn s1 n1 args par = gfn s2 n2 args par.
Proof.
  induction n1 as [|n1 IH]; intros [|n2] args par H1 H2; try lia.
  cbn [get_function_n]. apply body_ext. intros a Ha. apply IH; lia.
Qed.

Lemma gf_any_fuel stuck fuel args par : nesting args < fuel -> gfn stuck fuel args par = gf args par.
Proof. intros H. apply gfn_stable; [assumption|lia]. Qed.

Lemma gf_equation args par : gf args par = body gf args par.
Proof.
  unfold get_function at 1. cbn [get_function_n]. apply body_ext.
  intros a Ha. apply gf_any_fuel. assumption.
Qed.

(** ** What the user gets *)
Lemma gf_no_func args par : is_defined args (lit "func") = false -> gf args par = Ok (Rational par).
Proof. intros H. rewrite gf_equation. unfold get_function_body. rewrite H. reflexivity. Qed.

Lemma is_vec_spec a k : is_vec a k = true <-> begins "[" (at_key a k) .
Proof.
  unfold is_vec, at_key. destruct (map_find k a) as [v|].
  - apply first_is_begins.
  - split; [discriminate|]. intros [? H]; discriminate.
Qed.

Lemma gf_missing args par : is_defined args (lit "func") = true -> ~ begins "[" (at_key args (lit "func")) ->
  openf (at_key args (lit "func")) = Ok None -> gf args par = Ok (Rational par).
Proof.
  intros Hd Hb Ho. rewrite gf_equation. unfold get_function_body, base_function. rewrite Hd. cbn [negb].
  destruct (is_vec args (lit "func")) eqn:E; [apply is_vec_spec in E; contradiction|].
  rewrite Ho. reflexivity.
Qed.

Lemma plugin_plain n : plugin_word n -> plain n.
Proof. intros (_ & H1 & H2 & _); split; [assumption|]. intros [H _]; contradiction. Qed.

(** segments of the words of a lobe *)
Lemma seg_flags (ws : list str) : segments (map dd ws) (map (fun w => (w, [])) ws).
Proof.
  induction ws as [|w ws IH]; [constructor|]. destruct ws as [|w2 ws].
  - apply seg_flag_last.
  - cbn [map] in *. apply seg_flag; [eexists; reflexivity|exact IH].
Qed.
Definition flags (l : lobe) : list str :=
  (if lb_fixed l then [lit "fixed"] else []) ++ (if lb_fixed_lobe l then [lit "fixed-lobe"] else [])
  ++ (if lb_fixed_fresnel l then [lit "fixed-fresnel"] else []).
Lemma flags_words l : flag_words (lb_fixed l) (lit "fixed") ++ flag_words (lb_fixed_lobe l) (lit "fixed-lobe")
  ++ flag_words (lb_fixed_fresnel l) (lit "fixed-fresnel") = map dd (flags l).
Proof. unfold flag_words, flags. destruct (lb_fixed l), (lb_fixed_lobe l), (lb_fixed_fresnel l); reflexivity. Qed.

Definition lobe_options (l : lobe) : list (str * str) :=
  (lit "func", lb_name l) :: match lb_fresnel l with None => [] | Some f => [(lit "fresnel", f)] end
  ++ map (fun w => (w, [])) (flags l).

Lemma lobe_segments l : lobe_wf l -> segments (lit "--func" :: lobe_words l) (lobe_options l).
Proof.
  intros [H1 H2]. unfold lobe_words, lobe_options. rewrite flags_words.
  change (lit "--func") with (dd (lit "func")). apply seg_plain; [apply plugin_plain; assumption|].
  destruct (lb_fresnel l) as [f|]; [|apply seg_flags].
  cbn [app]. apply seg_plain; [apply plugin_plain; assumption|apply seg_flags].
Qed.

Lemma lobe_words_word l : lobe_wf l -> Forall word (lobe_words l).
Proof.
  intros [H1 H2]. unfold lobe_words. rewrite flags_words. constructor; [apply H1|]. apply Forall_app; split.
  - destruct (lb_fresnel l); constructor; [|constructor; [apply H2|constructor]].
    apply word_dd. split; [discriminate|]. repeat constructor; vm_compute; congruence.
  - unfold flags. destruct (lb_fixed l), (lb_fixed_lobe l), (lb_fixed_fresnel l); cbn [map app];
      repeat constructor; try (vm_compute; congruence).
Qed.

Lemma tokenize_lead w t ts fuel : forallb is_space w = true -> w <> [] ->
  Forall word (t :: ts) -> List.length (lit "--func" ++ w ++ join space (t :: ts)) < fuel ->
  tokenize fuel (lit "--func" ++ w ++ join space (t :: ts)) = lit "--func" :: t :: ts.
Proof.
  intros Hw Hn Hf Hl. inversion Hf as [|? ? Ht Hts]; subst. rewrite join_space_cons in *.
  destruct fuel as [|[|fuel]]; [lia|rewrite app_length in Hl; simpl in Hl; lia|].
  cbn [tokenize].
  assert (Hl2 : List.length (glue ts) < fuel).
  { rewrite !app_length in Hl. change (List.length (lit "--func")) with 6 in Hl. unfold str in *. lia. }
  assert (E : scan_token (lit "--func" ++ w ++ t ++ glue ts) = (lit "--func", w ++ t ++ glue ts)).
  { apply (scan_token_word []); [reflexivity| |].
    - split; [discriminate|]. repeat constructor; vm_compute; congruence.
    - destruct w as [|c w]; [congruence|]. simpl in *. apply andb_true_iff in Hw; tauto. }
  rewrite E. destruct (w ++ t ++ glue ts) eqn:E2; [destruct w; [congruence|discriminate]|]. rewrite <- E2. clear E E2.
  rewrite scan_token_word; auto; [|destruct ts; simpl; [exact I|reflexivity]].
  destruct ts as [|u ts]; [reflexivity|].
  destruct (glue (u :: ts)) eqn:E3; [discriminate|]. rewrite <- E3 in *. f_equal. f_equal.
  rewrite <- (app_nil_r (glue (u :: ts))). rewrite tokenize_glue; [apply app_nil_r|assumption|discriminate|exact I|].
  rewrite app_nil_r. unfold str in *. lia.
Qed.

Lemma word_c_str ts : Forall word ts -> map c_str ts = ts.
Proof.
  intros H. apply map_c_str. eapply Forall_impl; [|exact H].
  intros t [_ Ht]. eapply Forall_impl; [|exact Ht]. simpl; tauto.
Qed.

Lemma create_lobe w l : forallb is_space w = true -> lobe_wf l ->
  exists a, create_arguments (lit "--func " ++ lobe_text w l) = Ok a /\
    (forall k, is_defined a k = match first_value k (lobe_options l) with Some _ => true | None => false end) /\
    (forall k, at_key a k = match first_value k (lobe_options l) with Some v => v | None => [] end).
Proof.
  intros Hw Hl. unfold create_arguments, lobe_text.
  pose proof (lobe_words_word l Hl) as Hf. pose proof (lobe_segments l Hl) as Hs.
  change (lit "--func " ++ w ++ join space (lobe_words l))
    with (lit "--func" ++ (" "%char :: w) ++ join space (lobe_words l)).
  unfold lobe_words in *. rewrite tokenize_lead; auto; [|discriminate].
  rewrite word_c_str. 2:{ constructor; [|assumption]. split; [discriminate|]. repeat constructor; vm_compute; congruence. }
  apply argv_api. exact Hs.
Qed.

Lemma create_single n : plugin_word n ->
  exists a, create_arguments (lit "--func " ++ n) = Ok a /\
    is_defined a (lit "func") = true /\ is_defined a (lit "fresnel") = false /\ at_key a (lit "func") = n.
Proof.
  intros H. destruct (create_lobe [] (mkLobe n None false false false) eq_refl) as (a & E & H1 & H2).
  { split; [assumption|exact I]. }
  exists a. unfold lobe_text, lobe_words in E; cbn in E. rewrite app_nil_r in E || idtac.
  repeat split; [exact E| | |]; [rewrite H1|rewrite H1|rewrite H2]; reflexivity.
Qed.

Lemma gf_plugin_only a par n t : is_defined a (lit "func") = true -> is_defined a (lit "fresnel") = false ->
  at_key a (lit "func") = n -> ~ begins "[" n -> plugin_gives par n t -> gf a par = Ok (Nonlinear t).
Proof.
  intros Hd Hf Hk Hb (pr & Ho & Hp). rewrite gf_equation. unfold get_function_body, base_function.
  rewrite Hd. cbn [negb]. destruct (is_vec a (lit "func")) eqn:E; [apply is_vec_spec in E; congruence|].
  rewrite Hk, Ho. cbn [bind]. unfold fresnel_factor. rewrite Hf. cbn [negb]. rewrite Hp. reflexivity.
Qed.

Lemma fresnel_factor_ok a par t fres fr :
  fresnel_gives par fres fr ->
  (is_defined a (lit "fresnel") = match fres with None => false | Some _ => true end) ->
  (forall f, fres = Some f -> at_key a (lit "fresnel") = f) ->
  fresnel_factor gf a par (Nonlinear t) =
  Ok (Nonlinear (times_fresnel t fr (is_defined a (lit "fixed-lobe")) (is_defined a (lit "fixed-fresnel")))).
Proof.
  intros Hg Hd Hk. unfold fresnel_factor. rewrite Hd. destruct fres as [f|]; destruct fr as [g|]; try contradiction.
  2: reflexivity.
  cbn [negb as_nonlinear]. destruct Hg as [Hw Hg]. rewrite (Hk f eq_refl).
  destruct (is_vec a (lit "fresnel")) eqn:Ev.
  { apply is_vec_spec in Ev. rewrite (Hk f eq_refl) in Ev. exfalso. destruct Hw as (_ & _ & Hw & _). contradiction. }
  cbn [negb andb]. destruct (str_eqb_spec f []) as [->|Hn]; [destruct Hw as [[? _] _]; congruence|].
  destruct (create_single f Hw) as (fa & Ea & H1 & H2 & H3). rewrite Ea. cbn [bind].
  rewrite (gf_plugin_only fa par f g H1 H2 H3 (proj1 (proj2 (proj2 Hw))) Hg). reflexivity.
Qed.

Lemma lobe_gives_wf par l t : lobe_gives par l t -> lobe_wf l.
Proof.
  intros (H & t1 & fr & _ & Hf & _). split; [assumption|].
  destruct (lb_fresnel l), fr; simpl in *; tauto.
Qed.

Lemma flag_defined l k : (exists b, k = lit "fixed" /\ b = lb_fixed l \/ k = lit "fixed-lobe" /\ b = lb_fixed_lobe l
   \/ k = lit "fixed-fresnel" /\ b = lb_fixed_fresnel l) ->
  match first_value k (lobe_options l) with Some _ => true | None => false end =
  if str_eqb k (lit "fixed") then lb_fixed l else if str_eqb k (lit "fixed-lobe") then lb_fixed_lobe l else lb_fixed_fresnel l.
Proof.
  intros [b [[-> _]|[[-> _]|[-> _]]]]; unfold lobe_options, flags; destruct (lb_fresnel l), (lb_fixed l), (lb_fixed_lobe l), (lb_fixed_fresnel l); reflexivity.
Qed.

Lemma gf_lobe par w l t : forallb is_space w = true -> lobe_gives par l t ->
  exists a, create_arguments (lit "--func " ++ lobe_text w l) = Ok a /\
    gf a par = Ok (Nonlinear t) /\ is_defined a (lit "fixed") = lb_fixed l.
Proof.
  intros Hw Hl. destruct (create_lobe w l Hw (lobe_gives_wf _ _ _ Hl)) as (a & Ea & Hd & Hk).
  exists a. split; [assumption|].
  destruct Hl as (Hn & t1 & fr & (pr & Ho & Hp) & Hf & ->).
  split.
  - rewrite gf_equation. unfold get_function_body, base_function.
    rewrite Hd. cbn [lobe_options first_value]. rewrite str_eqb_refl. cbn [negb].
    destruct (is_vec a (lit "func")) eqn:E.
    { apply is_vec_spec in E. rewrite Hk in E. cbn in E. exfalso. destruct Hn as (_ & _ & Hn & _). contradiction. }
    rewrite Hk. cbn [lobe_options first_value]. rewrite str_eqb_refl, Ho. cbn [bind]. rewrite Hp.
    rewrite (fresnel_factor_ok a par t1 (lb_fresnel l) fr Hf).
    + rewrite !Hd, !flag_defined; [reflexivity| |]; eexists; [right; right|right; left]; split; reflexivity.
    + rewrite Hd. unfold lobe_options, flags. destruct (lb_fresnel l), (lb_fixed l), (lb_fixed_lobe l), (lb_fixed_fresnel l); reflexivity.
    + intros f E2. rewrite Hk. unfold lobe_options. rewrite E2. reflexivity.
  - rewrite Hd, flag_defined; [reflexivity|]. eexists; left; split; reflexivity.
Qed.

Lemma elements_cons r par e l : elements r par (e :: l) =
  (do temp_args <- create_arguments (lit "--func " ++ e);
   do f <- r temp_args par; do rs <- elements r par l;
   Ok (match as_nonlinear f with Some t => Some (is_defined temp_args (lit "fixed"), t) | None => None end :: rs)).
Proof. reflexivity. Qed.
Lemma gf_elements par (items : list (str * lobe)) ts : Forall (fun i => forallb is_space (fst i) = true) items ->
  Forall2 (fun i t => lobe_gives par (snd i) t) items ts ->
  elements gf par (map (fun i => lobe_text (fst i) (snd i)) items)
  = Ok (map Some (combine (map (fun i => lb_fixed (snd i)) items) ts)).
Proof.
  intros Hs H; revert Hs; induction H as [|i t items ts Hi _ IH]; intros Hs; [reflexivity|].
  inversion Hs as [|? ? Hi1 Hs']; subst.
  cbn [map]. rewrite elements_cons. destruct (gf_lobe par (fst i) (snd i) t Hi1 Hi) as (a & Ea & Hg & Hf).
  rewrite Ea. cbn [bind]. rewrite Hg. cbn [bind]. rewrite (IH Hs'). cbn [bind as_nonlinear combine map].
  rewrite Hf. reflexivity.
Qed.

Lemma non_null_all l : non_null (map Some l) = l.
Proof. induction l as [|x l IH]; simpl; [reflexivity|]. rewrite IH; reflexivity. Qed.
Lemma make_compound_all l : l <> [] -> make_compound_ptrs (map Some l) = make_compound l.
Proof.
  destruct l as [|f l]; [congruence|]. intros _. unfold make_compound_ptrs, make_compound.
  cbn [map]. change (Some f :: map Some l) with (map Some (f :: l)). rewrite non_null_all, map_length, Nat.eqb_refl.
  cbn [compound_parameters map]. destruct (compound_parameters_loop (par_of (snd f))
    (par_of (snd f) :: map (fun g => par_of (snd g)) l)); reflexivity.
Qed.

Definition lobe_no_comma w l : Prop := ~ In ","%char (lobe_text w l).
Lemma space_no_comma w : forallb is_space w = true -> ~ In ","%char w.
Proof.
  intros H Hi. rewrite forallb_forall in H. apply H in Hi. discriminate Hi.
Qed.
Lemma lobe_text_no_comma w l : forallb is_space w = true -> lobe_wf l -> ~ In ","%char (lobe_text w l).
Proof.
  intros Hw [H1 H2] Hi. unfold lobe_text in Hi. apply in_app_or in Hi as [Hi|Hi]; [exact (space_no_comma _ Hw Hi)|].
  assert (Hg : forall ts, Forall (fun t => ~ In ","%char t) ts -> ~ In ","%char (join space ts)).
  { induction ts as [|a [|b ts] IH]; intros Hf.
    - intros [].
    - inversion Hf; assumption.
    - inversion Hf; subst. rewrite join_cons2. intros Hx. apply in_app_or in Hx as [Hx|Hx]; [contradiction|].
      destruct Hx as [Hx|Hx]; [discriminate|]. exact (IH H4 Hx). }
  revert Hi. apply Hg. unfold lobe_words. rewrite flags_words. constructor; [apply H1|]. apply Forall_app; split.
  - destruct (lb_fresnel l); constructor; [|constructor; [apply H2|constructor]].
    intros Hx; simpl in Hx. repeat (destruct Hx as [Hx|Hx]; [discriminate|]). exact Hx.
  - unfold flags. destruct (lb_fixed l), (lb_fixed_lobe l), (lb_fixed_fresnel l); cbn [map app]; repeat constructor;
      intros Hx; simpl in Hx; repeat (destruct Hx as [Hx|Hx]; [discriminate|]); exact Hx.
Qed.

Lemma gf_compound (args : arguments) par (items : list (str * lobe)) ts fres fr :
  map_find (lit "func") args
    = Some ("["%char :: join comma (map (fun i => lobe_text (fst i) (snd i)) items) ++ ["]"%char]) ->
  items <> [] ->
  Forall (fun i => forallb is_space (fst i) = true) items ->
  Forall2 (fun i t => lobe_gives par (snd i) t) items ts ->
  map_find (lit "fresnel") args = fres -> fresnel_gives par fres fr ->
  gf args par =
  (do c <- make_compound (combine (map (fun i => lb_fixed (snd i)) items) ts);
   Ok (Nonlinear (times_fresnel c fr (is_defined args (lit "fixed-lobe")) (is_defined args (lit "fixed-fresnel"))))).
Proof.
  intros Hv Hne Hs Hg Hfr Hfg. rewrite gf_equation. unfold get_function_body, base_function.
  assert (Hd : is_defined args (lit "func") = true) by (unfold is_defined; rewrite Hv; reflexivity).
  assert (Hvec : is_vec args (lit "func") = true) by (unfold is_vec; rewrite Hv; reflexivity).
  rewrite Hd, Hvec. cbn [negb]. rewrite (get_vec_str_bracket _ _ _ Hv).
  2:{ destruct items; [congruence|discriminate]. }
  2:{ clear - Hs Hg. revert Hs. induction Hg; intros Hs; constructor; inversion Hs; subst; auto.
      apply lobe_text_no_comma; [assumption|]. eapply lobe_gives_wf; eassumption. }
  destruct (map (fun i => lobe_text (fst i) (snd i)) items) as [|e es] eqn:Em.
  { destruct items; [congruence|discriminate]. }
  rewrite <- Em. rewrite (gf_elements par items ts Hs Hg). cbn [bind].
  rewrite make_compound_all.
  2:{ destruct Hg; [congruence|]. discriminate. }
  destruct (make_compound _) as [c| | |]; try reflexivity. cbn [bind].
  rewrite (fresnel_factor_ok args par c fres fr Hfg); [reflexivity| |].
  - unfold is_defined. rewrite Hfr. destruct fres; reflexivity.
  - intros f ->. unfold at_key. rewrite Hfr. reflexivity.
Qed.

Lemma gf_single (args : arguments) par n t fres fr :
  map_find (lit "func") args = Some n -> plugin_word n -> plugin_gives par n t ->
  map_find (lit "fresnel") args = fres -> fresnel_gives par fres fr ->
  gf args par = Ok (Nonlinear (times_fresnel t fr (is_defined args (lit "fixed-lobe")) (is_defined args (lit "fixed-fresnel")))).
Proof.
  intros Hv Hw (pr & Ho & Hp) Hfr Hfg. rewrite gf_equation. unfold get_function_body, base_function.
  assert (Hd : is_defined args (lit "func") = true) by (unfold is_defined; rewrite Hv; reflexivity).
  rewrite Hd. cbn [negb]. destruct (is_vec args (lit "func")) eqn:E.
  { apply is_vec_spec in E. unfold at_key in E. rewrite Hv in E. exfalso. destruct Hw as (_ & _ & Hw & _). contradiction. }
  unfold at_key at 1. rewrite Hv, Ho. cbn [bind]. rewrite Hp.
  apply (fresnel_factor_ok args par t fres fr Hfg).
  - unfold is_defined. rewrite Hfr. destruct fres; reflexivity.
  - intros f ->. unfold at_key. rewrite Hfr. reflexivity.
Qed.

(** A linear or missing plugin inside a bracketed list. *)
Lemma make_compound_null l1 l2 : make_compound_ptrs (l1 ++ None :: l2) = UB \/ make_compound_ptrs (l1 ++ None :: l2) = Abort.
Proof.
  destruct l1 as [|[f|] l1]; try (left; reflexivity).
  unfold make_compound_ptrs. cbn [app].
  assert (Hl : List.length (non_null (Some f :: l1 ++ None :: l2)) <> List.length (Some f :: l1 ++ None :: l2)).
  { enough (List.length (non_null (Some f :: l1 ++ None :: l2)) <= List.length (Some f :: l1)).
    { rewrite app_comm_cons, app_length. simpl in *. lia. }
    change (Some f :: l1 ++ None :: l2) with ((Some f :: l1) ++ None :: l2). generalize (Some f :: l1). clear.
    induction l as [|[x|] l IH]; simpl in *; lia. }
  assert (Hc : forall l p, (exists q, compound_parameters_loop p l = Ok q) \/ compound_parameters_loop p l = Abort).
  { clear. induction l as [|x l IH]; intros p; simpl; eauto.
    destruct (input_eqb (in_param p) UNKNOWN_INPUT); [|destruct (input_eqb (in_param p) (in_param x))]; cbn [out_param set_input];
    repeat match goal with |- context [output_eqb ?a ?b] => destruct (output_eqb a b) end; eauto. }
  destruct (Hc (map (fun g => par_of (snd g)) (non_null (Some f :: l1 ++ None :: l2))) (par_of (snd f))) as [[q ->]| ->]; [|right; reflexivity].
  left. cbn [bind]. rewrite (proj2 (Nat.eqb_neq _ _) Hl). reflexivity.
Qed.
Lemma gf_single_base (args : arguments) par n o :
  map_find (lit "func") args = Some n -> plugin_word n -> (exists provide, open_function sysdir env libs n = Ok (Some provide) /\ provide par = o) ->
  gf args par = fresnel_factor gf args par o.
Proof.
  intros Hv Hw (pr & Ho & Hp). rewrite gf_equation. unfold get_function_body, base_function.
  assert (Hd : is_defined args (lit "func") = true) by (unfold is_defined; rewrite Hv; reflexivity).
  rewrite Hd. cbn [negb]. destruct (is_vec args (lit "func")) eqn:E.
  { apply is_vec_spec in E. unfold at_key in E. rewrite Hv in E. exfalso. destruct Hw as (_ & _ & Hw & _). contradiction. }
  unfold at_key at 1. rewrite Hv, Ho. cbn [bind]. rewrite Hp. reflexivity.
Qed.
(** --fresnel that is empty, missing or not a nonlinear function; a bracketed one *)
Lemma gf_fresnel_cases (args : arguments) par n t f :
  map_find (lit "func") args = Some n -> plugin_word n -> plugin_gives par n t -> map_find (lit "fresnel") args = Some f ->
  (f = [] -> gf args par = Ok (Nonlinear t)) /\
  (plugin_word f -> open_function sysdir env libs f = Ok None -> gf args par = Ok (Nonlinear t)) /\
  (plugin_word f -> (exists provide, open_function sysdir env libs f = Ok (Some provide) /\ as_nonlinear (provide par) = None) -> gf args par = Ok (Nonlinear t)) /\
  (forall w l g, f = "["%char :: lobe_text w l ++ ["]"%char] -> forallb is_space w = true -> lobe_gives par l g ->
     gf args par = Ok (Nonlinear (make_product t g (is_defined args (lit "fixed-lobe")) (is_defined args (lit "fixed-fresnel"))))).
Proof.
  intros Hv Hw Hp Hf. assert (Hd : is_defined args (lit "fresnel") = true) by (unfold is_defined; rewrite Hf; reflexivity).
  assert (Hk : at_key args (lit "fresnel") = f) by (unfold at_key; rewrite Hf; reflexivity).
  rewrite (gf_single_base args par n (Nonlinear t) Hv Hw Hp). unfold fresnel_factor. rewrite Hd, Hk. cbn [negb as_nonlinear].
  assert (Hnv : forall P : Prop, ~ begins "[" f -> (is_vec args (lit "fresnel") = false -> P) -> P).
  { intros P Hn H. apply H. destruct (is_vec args (lit "fresnel")) eqn:E; [|reflexivity]. apply is_vec_spec in E. rewrite Hk in E. contradiction. }
  split; [|split; [|split]].
  - intros ->. apply Hnv; [intros [? H]; discriminate|]. intros ->. reflexivity.
  - intros Wf Ho. apply Hnv; [apply Wf|]. intros ->. cbn [negb andb]. destruct (str_eqb_spec f []) as [->|Hn]; [destruct Wf as [[? _] _]; congruence|].
    destruct (create_single f Wf) as (fa & Ea & H1 & H3 & H2). rewrite Ea. cbn [bind].
    rewrite gf_equation. unfold get_function_body, base_function. rewrite H1. cbn [negb].
    destruct (is_vec fa (lit "func")) eqn:E. { apply is_vec_spec in E. rewrite H2 in E. exfalso. destruct Wf as (_ & _ & Wf & _). contradiction. }
    rewrite H2, Ho. reflexivity.
  - intros Wf (pr & Ho & Hn0). apply Hnv; [apply Wf|]. intros ->. cbn [negb andb]. destruct (str_eqb_spec f []) as [->|Hn]; [destruct Wf as [[? _] _]; congruence|].
    destruct (create_single f Wf) as (fa & Ea & H1 & H3 & H2). rewrite Ea. cbn [bind].
    rewrite gf_equation. unfold get_function_body, base_function. rewrite H1. cbn [negb].
    destruct (is_vec fa (lit "func")) eqn:E. { apply is_vec_spec in E. rewrite H2 in E. exfalso. destruct Wf as (_ & _ & Wf & _). contradiction. }
    rewrite H2, Ho. cbn [bind]. unfold fresnel_factor. rewrite H3. cbn [negb bind]. rewrite Hn0. reflexivity.
  - intros w l g -> Hs Hl. assert (Ev : is_vec args (lit "fresnel") = true) by (apply is_vec_spec; rewrite Hk; eexists; reflexivity).
    rewrite Ev. cbn [negb andb tl]. rewrite removelast_last. destruct (gf_lobe par w l g Hs Hl) as (a & Ea & Hg & _). rewrite Ea. cbn [bind]. rewrite Hg. reflexivity.
Qed.
Lemma gf_linear_with_fresnel (args : arguments) par n o :
  map_find (lit "func") args = Some n -> plugin_word n -> (exists provide, open_function sysdir env libs n = Ok (Some provide) /\ provide par = o) -> as_nonlinear o = None ->
  gf args par = Ok o.
Proof. intros Hv Hw Hp Hn. rewrite (gf_single_base args par n o Hv Hw Hp). unfold fresnel_factor. rewrite Hn. destruct (negb _); reflexivity. Qed.
End GF.

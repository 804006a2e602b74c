(** Proofs for the shader export: which programs are accepted. *)
From Coq Require Import Reals List Lia Lra.
From Verif Require Import Base NlModel NlMoreModel Glsl GlslModel GlslSpec GlslLex GlslParse GlslBody GlslProgram.
Open Scope R_scope.
Open Scope string_scope.

(** the signature of a defined function *)
Definition sig (d : string * nat) : signature :=
  (fst d, repeat TVec3 (if String.eqb (fst d) "g_beckmann" then 3 else 5 + snd d), TVec3).
Definition all_names : list (string * nat) :=
  [("blinn", 2); ("retroblinn", 2); ("abc", 3); ("g_beckmann", 0); ("beckmann", 2); ("retrobeckmann", 2); ("ward", 3); ("schlick_fresnel", 1);
   ("normalized_schlick_fresnel", 1); ("retro_schlick_fresnel", 1); ("spherical_gaussian", 2); ("lafortune", 3); ("lafortune", 4);
   ("masking_schlick", 1); ("shadowing_smith", 1); ("walter_smith", 1); ("retroyoo", 2)]%nat.
Lemma defines_known k d : In d (defines k) -> In d all_names.
Proof. destruct k; cbn; tauto. Qed.
Lemma same_sig_known d e : In d all_names -> In e all_names -> same_sig (sig d) (sig e) = true <-> d = e.
Proof.
  intros Hd He. split; [|intros ->; unfold same_sig; rewrite String.eqb_refl; generalize (snd (fst (sig e))); intros l; induction l as [|[] l IH]; cbn in *; auto].
  assert (A : forallb (fun d => forallb (fun e => implb (same_sig (sig d) (sig e)) (String.eqb (fst d) (fst e) && Nat.eqb (snd d) (snd e))) all_names) all_names = true) by (vm_compute; reflexivity).
  rewrite forallb_forall in A. specialize (A d Hd). cbv beta in A. rewrite forallb_forall in A. specialize (A e He). intros B. rewrite B in A. cbn in A.
  apply Bool.andb_true_iff in A. destruct A as (A1 & A2). apply String.eqb_eq in A1. apply PeanoNat.Nat.eqb_eq in A2. destruct d, e. cbn in *. congruence.
Qed.

(** what the checks need of the signatures so far *)
Definition vec_sigs (sg : list signature) : Prop := Forall (fun s => snd s = TVec3) sg.
Lemma vec_sigs_map ds : vec_sigs (map sig ds).
Proof. apply Forall_forall. intros s H. apply in_map_iff in H. destruct H as (d & <- & _). reflexivity. Qed.
Lemma find_vec sg p : vec_sigs sg -> existsb p sg = true -> exists s, find p sg = Some s /\ snd s = TVec3.
Proof.
  intros H E. apply existsb_exists in E. destruct E as (s & Hs & Ps). destruct (find p sg) as [t|] eqn:F.
  - exists t. split; [reflexivity|]. apply find_some in F. unfold vec_sigs in H. rewrite Forall_forall in H. apply H. tauto.
  - apply (find_none _ _ F) in Hs. congruence.
Qed.
Lemma find_in sg f ts : vec_sigs sg -> In (f, ts, TVec3) sg -> exists s, find (fun s : signature => String.eqb (fst (fst s)) f && tys_eqb (snd (fst s)) ts) sg = Some s /\ snd s = TVec3.
Proof.
  intros H I. apply find_vec; [assumption|]. apply existsb_exists. exists (f, ts, TVec3). split; [assumption|]. cbn [fst snd]. rewrite String.eqb_refl. cbn.
  clear I. induction ts as [|[] ts IH]; cbn; auto.
Qed.
Lemma call_user sg f ts : builtin_type f ts = None -> vec_sigs sg -> In (f, ts, TVec3) sg -> call_type sg f ts = Some TVec3.
Proof. intros B H I. unfold call_type. rewrite B. destruct (find_in sg f ts H I) as (s & F & E).
  exact (eq_trans (f_equal (fun o : option signature => match o with Some s => Some (snd s) | None => None end) F) (f_equal Some E)). Qed.
Lemma nodup_left {A} (l m : list A) : NoDup (l ++ m) -> NoDup l.
Proof.
  induction l as [|a l IH]; intros H; [constructor|]. cbn in H. inversion H as [|? ? Ha Hl]; subst. constructor; [|apply IH, Hl].
  intros I. apply Ha, in_app_iff. left. exact I.
Qed.

Section Num.
Variables (print : R -> string) (shown : R -> R).
Hypothesis Hprint : prints print shown.
Variable nY : nat.
Notation num := (num_ast print).
Notation body_funs := (body_funs print).

Lemma type_num sg g r : type_expr sg g (num r) = Some TFloat.
Proof using Hprint. destruct (num_toks_cases print shown Hprint r) as [(m & e & _ & -> & _)|(m & e & _ & -> & _)]; reflexivity. Qed.
Lemma body_sigs k : sound k -> map sig_of (body_funs k) = map sig (defines k).
Proof. intros H. destruct k as [| | | | | | | | |[| | |]|a| |n|n| | | | ]; try contradiction; reflexivity. Qed.

Lemma g_beckmann_block sg : check_block sg TVec3 (fn_body g_beckmann_fun) (param_vars g_beckmann_fun) 3 = true.
Proof. vm_compute. reflexivity. Qed.
(** every body is well typed; only Beckmann's uses a function of its own *)
Lemma block_ok k f sg : sound k -> In f (body_funs k) -> (forall a, In a (removelast (body_funs k)) -> In (sig_of a) sg) -> vec_sigs sg ->
  check_block sg (fn_type f) (fn_body f) (param_vars f) (length (fn_params f)) = true.
Proof using Hprint.
  intros Hs Hf Ha Hv.
  assert (G : In (sig ("g_beckmann", 0%nat)) sg -> call_type sg "g_beckmann" [TVec3; TVec3; TVec3] = Some TVec3).
  { intros I. apply call_user; [reflexivity|assumption|exact I]. }
  destruct k as [| | | | | | | | |[| | |]|a| |n|n| | | | ]; try contradiction; cbn [In GlslBody.body_funs removelast] in Hf, Ha;
    try (lazymatch type of Hf with context [num_ast] => fail | _ => destruct Hf as [<-|[]]; vm_compute; reflexivity end).
  - destruct Hf as [<-|[<-|[]]]; [apply g_beckmann_block|].
    specialize (G (Ha _ (or_introl eq_refl))).
    destruct (num_toks_cases print shown Hprint PI) as [(m & e & _ & -> & _)|(m & e & _ & -> & _)]; vm_compute in G; vm_compute; rewrite !G; reflexivity.
  - destruct (num_toks_cases print shown Hprint PI) as [(m & e & _ & E & _)|(m & e & _ & E & _)]; rewrite E in Hf; destruct Hf as [<-|[]]; vm_compute; reflexivity.
  - destruct (num_toks_cases print shown Hprint PI) as [(m & e & _ & E & _)|(m & e & _ & E & _)]; rewrite E in Hf; destruct Hf as [<-|[]]; vm_compute; reflexivity.
  - destruct (num_toks_cases print shown Hprint PI) as [(m & e & _ & E & _)|(m & e & _ & E & _)]; rewrite E in Hf;
    destruct (num_toks_cases print shown Hprint a) as [(m' & e' & _ & E' & _)|(m' & e' & _ & E' & _)]; rewrite E' in Hf; destruct Hf as [<-|[]]; vm_compute; reflexivity.
Qed.

(** checking the functions of one plugin, then those of all *)
Lemma check_from_app sg a b : check_from sg (a ++ b)%list = check_from sg a && check_from (sg ++ map sig_of a)%list b.
Proof.
  revert sg. induction a as [|f a IH]; intros sg; cbn [app check_from map]; [rewrite app_nil_r; reflexivity|].
  rewrite IH, Bool.andb_assoc, <- app_assoc. reflexivity.
Qed.
Lemma check_bodies ks : Forall sound ks -> forall ds, (forall d, In d ds -> In d all_names) -> NoDup ds ->
  check_from (map sig ds) (flat_map body_funs ks) = true <-> NoDup (ds ++ flat_map defines ks)%list.
Proof using Hprint.
  induction 1 as [|k ks Hk _ IH]; intros ds Hd Hn.
  - cbn. rewrite app_nil_r. tauto.
  - cbn [flat_map]. rewrite check_from_app, (body_sigs k Hk), <- map_app, Bool.andb_true_iff.
    assert (A : check_from (map sig ds) (body_funs k) = true <-> NoDup (ds ++ defines k)).
    { clear IH ks.
      assert (One : forall f d ds, In f (body_funs k) -> sig_of f = sig d -> In d all_names -> (forall d, In d ds -> In d all_names) -> NoDup ds ->
         (forall a, In a (removelast (body_funs k)) -> In (sig_of a) (map sig ds)) ->
         check_fun (map sig ds) f = true <-> ~ In d ds).
      { intros f d es Hf Hs Hdd Hes Hne Hpre. unfold check_fun. rewrite (block_ok k f (map sig es) Hk Hf Hpre (vec_sigs_map es)), Bool.andb_true_r, Hs.
        rewrite Bool.negb_true_iff. destruct (existsb (same_sig (sig d)) (map sig es)) eqn:E.
        - split; [discriminate|]. intros N. apply existsb_exists in E. destruct E as (s & Is & Es). apply in_map_iff in Is. destruct Is as (e & <- & Ie).
          apply same_sig_known in Es; [subst e; contradiction|assumption|apply Hes, Ie].
        - split; [|reflexivity]. intros _ Id. assert (X : existsb (same_sig (sig d)) (map sig es) = true).
          { apply existsb_exists. exists (sig d). split; [apply in_map, Id|]. apply same_sig_known; auto. } congruence. }
      assert (NE : forall ds (d : string * nat), NoDup ds -> NoDup (ds ++ [d]) <-> ~ In d ds).
      { intros es d He. split; intros X.
        - apply NoDup_remove_2 in X. rewrite app_nil_r in X. exact X.
        - apply (NoDup_Add (a := d) (l := es)); [|split; assumption]. rewrite <- (app_nil_r es) at 1. apply Add_app. }
      assert (Simple : forall f d, body_funs k = [f] -> defines k = [d] -> check_from (map sig ds) (body_funs k) = true <-> NoDup (ds ++ defines k)).
      { intros f d Ef Ed. assert (Es : sig_of f = sig d) by (pose proof (body_sigs k Hk) as B; rewrite Ef, Ed in B; cbn in B; congruence).
        rewrite Ef, Ed. cbn [check_from]. rewrite Bool.andb_true_r, (NE ds d Hn). apply One; auto.
        - rewrite Ef. left. reflexivity.
        - apply (defines_known k). rewrite Ed. left. reflexivity.
        - intros a Ia. rewrite Ef in Ia. destruct Ia. }
      destruct k as [| | | | | | | | |[| | |]|a| |n|n| | | | ]; try contradiction; try (eapply Simple; reflexivity).
      - (* Beckmann *)
        set (d0 := ("g_beckmann", 0%nat)). set (d1 := ("beckmann", 2%nat)). change (defines KBeckmann) with ([d0] ++ [d1])%list.
        change (check_from (map sig ds) (body_funs KBeckmann)) with
          (check_fun (map sig ds) g_beckmann_fun && (check_fun (map sig ds ++ [sig d0])%list (nth 1 (body_funs KBeckmann) g_beckmann_fun) && true)).
        rewrite Bool.andb_true_r, Bool.andb_true_iff, app_assoc.
        change (map sig ds ++ [sig d0])%list with (map sig ds ++ map sig [d0])%list. rewrite <- map_app.
        assert (I0 : In d0 all_names) by (apply (defines_known KBeckmann); left; reflexivity).
        assert (I1 : In d1 all_names) by (apply (defines_known KBeckmann); right; left; reflexivity).
        assert (A : check_fun (map sig ds) g_beckmann_fun = true <-> ~ In d0 ds).
        { unfold check_fun. change (sig_of g_beckmann_fun) with (sig d0). change (length (fn_params g_beckmann_fun)) with 3%nat. change (fn_type g_beckmann_fun) with TVec3. rewrite g_beckmann_block, Bool.andb_true_r.
          rewrite Bool.negb_true_iff. destruct (existsb (same_sig (sig d0)) (map sig ds)) eqn:E.
          - split; [discriminate|]. intros N. apply existsb_exists in E. destruct E as (s & Is & Es). apply in_map_iff in Is. destruct Is as (e & <- & Ie).
            apply same_sig_known in Es; [subst e; contradiction|assumption|apply Hd, Ie].
          - split; [|reflexivity]. intros _ Id. assert (X : existsb (same_sig (sig d0)) (map sig ds) = true).
            { apply existsb_exists. exists (sig d0). split; [apply in_map, Id|]. apply same_sig_known; auto. } congruence. }
        rewrite A.
        assert (B : NoDup (ds ++ [d0]) -> check_fun (map sig (ds ++ [d0])) (nth 1 (body_funs KBeckmann) g_beckmann_fun) = true <-> ~ In d1 (ds ++ [d0])).
        { intros Nd. apply One; auto.
          - right. left. reflexivity.
          - intros d Id. apply in_app_iff in Id. destruct Id as [Id|[<-|[]]]; auto.
          - intros a [<-|[]]. rewrite map_app. apply in_app_iff. right. left. reflexivity. }
        split.
        + intros (Q & S). assert (Nd : NoDup (ds ++ [d0])) by (apply NE; assumption). apply NE; [exact Nd|]. apply B; [exact Nd|exact S].
        + intros Q. assert (Nd : NoDup (ds ++ [d0])) by (apply NoDup_remove_1 in Q; rewrite app_nil_r in Q; exact Q).
          split; [apply NE; assumption|]. apply B; [exact Nd|]. apply NE; [exact Nd|exact Q].
      - cbn. rewrite app_nil_r. tauto. }
    rewrite app_assoc. split.
    + intros (A1 & A2). apply A in A1. apply IH in A2; [exact A2| |exact A1].
      intros d Id. apply in_app_iff in Id. destruct Id as [Id|Id]; [auto|apply (defines_known k), Id].
    + intros N. assert (N' : NoDup (ds ++ defines k)).
      { revert N. apply nodup_left. }
      split; [apply A, N'|]. apply IH; [|exact N'|exact N].
      intros d Id. apply in_app_iff in Id. destruct Id as [Id|Id]; [auto|apply (defines_known k), Id].
Qed.

(** ** the function BRDF *)
Definition frame_env : list (string * ty) := param_vars (brdf_fun []).
Lemma type_args sg g es ts : Forall2 (fun e t => type_expr sg g e = Some t) es ts ->
  (fix all l := match l with [] => Some [] | a :: r => match type_expr sg g a, all r with Some t, Some ts => Some (t :: ts) | _, _ => None end end) es = Some ts.
Proof. induction 1 as [|e t es ts H _ IH]; [reflexivity|]. rewrite H, IH. reflexivity. Qed.
Lemma type_vec sg g v : length v = 1%nat \/ length v = 3%nat -> type_expr sg g (vec_ast print v) = Some TVec3.
Proof using Hprint.
  intros H. unfold vec_ast. cbn [type_expr]. rewrite (type_args sg g (map num v) (map (fun _ => TFloat) v)).
  - destruct v as [|a [|b [|c [|]]]]; cbn in H; try lia; reflexivity.
  - clear -Hprint. induction v as [|a v IH]; constructor; [apply type_num|exact IH].
Qed.
Lemma type_vec_bad sg g v : vec_sigs sg -> ~ In "vec3" (map (fun s => fst (fst s)) sg) -> length v <> 1%nat -> length v <> 3%nat -> type_expr sg g (vec_ast print v) = None.
Proof using Hprint.
  intros Hv Hn H1 H3. unfold vec_ast. cbn [type_expr]. rewrite (type_args sg g (map num v) (map (fun _ => TFloat) v)).
  - unfold call_type. assert (B : builtin_type "vec3" (map (fun _ : R => TFloat) v) = None).
    { destruct v as [|a [|b [|c [|d v]]]]; cbn in H1, H3; try lia; reflexivity. }
    rewrite B. match goal with |- match ?x with _ => _ end = _ => destruct x as [s|] eqn:E; [|reflexivity] end.
    exfalso. apply find_some in E. destruct E as (I & E). apply Bool.andb_true_iff in E. destruct E as (E & _). apply String.eqb_eq in E. apply Hn. rewrite <- E. apply (in_map (fun s : signature => fst (fst s))), I.
  - clear -Hprint. induction v as [|a v IH]; constructor; [apply type_num|exact IH].
Qed.
Lemma member_length k l p : length (member nY k l p) = nY.
Proof. unfold member. rewrite map_length, seq_length. reflexivity. Qed.
Lemma members_lengths k p : Forall (fun v => length v = nY) (members_of nY k p).
Proof. unfold members_of. apply Forall_forall. intros v H. apply in_map_iff in H. destruct H as (l & <- & _). apply member_length. Qed.
Lemma members_count k p : length (members_of nY k p) = k.
Proof. unfold members_of. rewrite map_length, seq_length. reflexivity. Qed.
Lemma vecs_args sg g vs : nY = 1%nat \/ nY = 3%nat -> Forall (fun v => length v = nY) vs ->
  Forall2 (fun e t => type_expr sg g e = Some t) (map (vec_ast print) vs) (repeat TVec3 (length vs)).
Proof using Hprint.
  intros H. induction 1 as [|v vs Hv _ IH]; [constructor|]. constructor; [apply type_vec; lia|exact IH].
Qed.
Lemma frame_types sg : Forall2 (fun e t => type_expr sg frame_env e = Some t) frame_args (repeat TVec3 5).
Proof. repeat constructor. Qed.
Lemma type_call sg f vs : nY = 1%nat \/ nY = 3%nat -> Forall (fun v => length v = nY) vs -> vec_sigs sg ->
  builtin_type f (repeat TVec3 (5 + length vs)) = None -> In (f, repeat TVec3 (5 + length vs), TVec3) sg ->
  type_expr sg frame_env (call_ast print f vs) = Some TVec3.
Proof using Hprint.
  intros H Hv Hs Hb Hi. unfold call_ast. cbn [type_expr]. rewrite (type_args sg frame_env _ (repeat TVec3 (5 + length vs))).
  - apply call_user; assumption.
  - rewrite repeat_app. apply Forall2_app; [apply frame_types|apply vecs_args; assumption].
Qed.
Lemma sig_call k : sound k -> k <> KDiffuse -> In (call_name k, repeat TVec3 (5 + call_vecs k), TVec3) (map sig (defines k)).
Proof. intros H N. destruct k as [| | | | | | | | |[| | |]|a| |n|n| | | | ]; try contradiction; try congruence; vm_compute; auto. Qed.
Lemma type_single sg k p : nY = 1%nat \/ nY = 3%nat -> sound k -> vec_sigs sg -> (forall s, In s (map sig (defines k)) -> In s sg) ->
  type_expr sg frame_env (single_ast print nY k p) = Some TVec3.
Proof using Hprint.
  intros H Hs Hv Hi. destruct (match k with KDiffuse => true | _ => false end) eqn:D.
  - destruct k; try discriminate. apply type_vec. rewrite member_length. exact H.
  - assert (N : k <> KDiffuse) by (intros ->; discriminate).
    replace (single_ast print nY k p) with (call_ast print (call_name k) (members_of nY (call_vecs k) p)) by (destruct k; try discriminate; reflexivity).
    apply type_call; auto using members_lengths; rewrite members_count.
    + destruct k; try contradiction; reflexivity.
    + apply Hi, sig_call; assumption.
Qed.
Lemma type_sum sg g es : es <> [] -> Forall (fun e => type_expr sg g e = Some TVec3) es -> type_expr sg g (sum_ast es) = Some TVec3.
Proof.
  intros Hn H. destruct H as [|e es He Hes]; [congruence|]. clear Hn. cbn [sum_ast]. revert e He. induction Hes as [|d es Hd _ IH]; intros e He; [exact He|].
  cbn [fold_left]. apply IH. cbn [type_expr]. rewrite He, Hd. reflexivity.
Qed.
Lemma type_term sg f : nY = 1%nat \/ nY = 3%nat -> factor f \/ term f -> vec_sigs sg -> (forall s, In s (map sig (flat_map defines (kinds f))) -> In s sg) ->
  type_expr sg frame_env (term_ast print nY f) = Some TVec3.
Proof using Hprint.
  intros H. induction f as [k p| | |f IHf g IHg]; intros Hf Hs Hi; try (destruct Hf; contradiction).
  - cbn [kinds flat_map] in Hi. rewrite app_nil_r in Hi.
    assert (Sk : sound k) by (destruct Hf as [[Hf _]|Hf]; assumption). cbn [term_ast]. apply type_sum.
    + unfold lobe_asts. destruct k as [| | | | | | | | |t|a| |n|n| | | | ]; try contradiction; try discriminate; cbn in Sk |- *; destruct n; try lia; discriminate.
    + unfold lobe_asts. apply Forall_forall. intros e He. apply in_map_iff in He. destruct He as (i & <- & _). apply type_single; assumption.
  - assert (Hff : factor (XProd f g)) by (destruct Hf; assumption). destruct Hff as [Hf1 Hf2]. cbn [kinds] in Hi. rewrite flat_map_app, map_app in Hi.
    cbn [term_ast type_expr]. rewrite IHf, IHg; auto; intros s Hin; apply Hi, in_app_iff; auto.
Qed.
(** with another number of channels the first vector of a call has no type *)
Lemma args_none sg g es e : In e es -> type_expr sg g e = None ->
  (fix all l := match l with [] => Some [] | a :: r => match type_expr sg g a, all r with Some t, Some ts => Some (t :: ts) | _, _ => None end end) es = None.
Proof. induction es as [|d es IH]; intros I H; [destruct I|]. destruct I as [E|I]; [subst; rewrite H; reflexivity|]. destruct (type_expr sg g d); [|reflexivity]. rewrite (IH I H); reflexivity. Qed.
Lemma type_single_bad sg k p : nY <> 1%nat -> nY <> 3%nat -> vec_sigs sg -> ~ In "vec3" (map (fun s => fst (fst s)) sg) -> sound k ->
  type_expr sg frame_env (single_ast print nY k p) = None.
Proof using Hprint.
  intros H1 H3 Hv Hn Sk.
  assert (C : forall f k p, (0 < k)%nat -> type_expr sg frame_env (call_ast print f (members_of nY k p)) = None).
  { intros f n q Hk. unfold call_ast. cbn [type_expr]. rewrite (args_none sg frame_env _ (vec_ast print (member nY n 0 q))); [reflexivity| |].
    - apply in_app_iff. right. apply in_map. unfold members_of. apply in_map_iff. exists 0%nat. split; [reflexivity|]. apply in_seq. lia.
    - apply type_vec_bad; try assumption; rewrite member_length; assumption. }
  destruct k; try contradiction; try (apply C; cbn; lia). apply type_vec_bad; try assumption; rewrite member_length; assumption.
Qed.
Lemma type_fold_bad sg g es : forall e, type_expr sg g e = None -> type_expr sg g (fold_left (EBin BAdd) es e) = None.
Proof. induction es as [|d es IH]; intros e H; [exact H|]. cbn [fold_left]. apply IH. cbn [type_expr]. rewrite H. reflexivity. Qed.
Lemma type_term_bad sg f : nY <> 1%nat -> nY <> 3%nat -> vec_sigs sg -> ~ In "vec3" (map (fun s => fst (fst s)) sg) -> factor f \/ term f ->
  type_expr sg frame_env (term_ast print nY f) = None.
Proof using Hprint.
  intros H1 H3 Hv Hn. induction f as [k p| | |f IHf g IHg]; intros Hf; try (destruct Hf; contradiction).
  - assert (Sk : sound k) by (destruct Hf as [[Hf _]|Hf]; assumption). cbn [term_ast]. unfold lobe_asts.
    assert (0 < lobe_count k)%nat by (destruct k; cbn in *; try lia; contradiction).
    destruct (lobe_count k) as [|n]; [lia|]. cbn [seq map sum_ast]. apply type_fold_bad. apply type_single_bad; assumption.
  - assert (Hff : factor (XProd f g)) by (destruct Hf; assumption). destruct Hff as [Hf1 Hf2]. cbn [term_ast type_expr]. rewrite IHf; auto.
Qed.

Lemma adds_ok sg es env k : Forall (fun e => type_expr sg env e = Some TVec3) es -> type_expr sg env (EVar "res") = Some TVec3 ->
  check_block sg TVec3 (map (SAdd (EVar "res")) es ++ [SReturn (EVar "res")]) env k = true.
Proof.
  intros H Hr. induction H as [|e es He _ IH]; cbn [map app check_block check_stmt].
  - unfold has_type. rewrite Hr. reflexivity.
  - rewrite Hr. unfold has_type. rewrite He. cbn. exact IH.
Qed.
(** a declaration of another name changes no type *)
Lemma var_type_other g x t y : String.eqb x y = false -> var_type ((x, t) :: g) y = var_type g y.
Proof. intros H. unfold var_type. cbn [find fst]. rewrite H. reflexivity. Qed.
Lemma type_num_env sg g v : type_expr sg g (vec_ast print v) = type_expr sg frame_env (vec_ast print v).
Proof using Hprint.
  unfold vec_ast. cbn [type_expr]. rewrite !(type_args sg _ (map num v) (map (fun _ => TFloat) v)); [reflexivity| |];
  clear -Hprint; induction v as [|a v IH]; constructor; [apply type_num|exact IH|apply type_num|exact IH].
Qed.
Definition res_env : list (string * ty) := ("res", TVec3) :: frame_env.
Lemma args_env sg es : Forall (fun e => type_expr sg res_env e = type_expr sg frame_env e) es ->
  (fix all l := match l with [] => Some [] | a :: r => match type_expr sg res_env a, all r with Some t, Some ts => Some (t :: ts) | _, _ => None end end) es =
  (fix all l := match l with [] => Some [] | a :: r => match type_expr sg frame_env a, all r with Some t, Some ts => Some (t :: ts) | _, _ => None end end) es.
Proof. induction 1 as [|e es He _ IH]; [reflexivity|]. rewrite He, IH. reflexivity. Qed.
Lemma single_env sg k p : type_expr sg res_env (single_ast print nY k p) = type_expr sg frame_env (single_ast print nY k p).
Proof using Hprint.
  assert (C : forall f vs, type_expr sg res_env (call_ast print f vs) = type_expr sg frame_env (call_ast print f vs)).
  { intros f vs. unfold call_ast. cbn [type_expr]. rewrite args_env; [reflexivity|]. apply Forall_app. split; [repeat constructor|].
    apply Forall_forall. intros e He. apply in_map_iff in He. destruct He as (v & <- & _). apply type_num_env. }
  destruct k; try (apply C). apply type_num_env.
Qed.
Lemma fold_env sg es : Forall (fun e => type_expr sg res_env e = type_expr sg frame_env e) es -> forall e, type_expr sg res_env e = type_expr sg frame_env e ->
  type_expr sg res_env (fold_left (EBin BAdd) es e) = type_expr sg frame_env (fold_left (EBin BAdd) es e).
Proof. induction 1 as [|d es Hd _ IH]; intros e He; [exact He|]. cbn [fold_left]. apply IH. cbn [type_expr]. rewrite He, Hd. reflexivity. Qed.
Lemma term_env sg f : type_expr sg res_env (term_ast print nY f) = type_expr sg frame_env (term_ast print nY f).
Proof using Hprint.
  induction f as [k p| | |f IHf g IHg]; try reflexivity.
  - cbn [term_ast]. unfold lobe_asts. destruct (lobe_count k) as [|n]; [reflexivity|]. cbn [seq map sum_ast]. apply fold_env; [|apply single_env].
    apply Forall_forall. intros e He. apply in_map_iff in He. destruct He as (i & <- & _). apply single_env.
  - cbn [term_ast type_expr]. rewrite IHf, IHg. reflexivity.
Qed.
Lemma sum_kinds_sound fs : Forall term fs -> Forall sound (kinds (XSum fs)).
Proof.
  assert (F : forall f, factor f \/ term f -> Forall sound (kinds f)).
  { induction f as [k p| | |f IHf g IHg]; intros H; try (destruct H; contradiction).
    - repeat constructor. destruct H as [[H _]|H]; assumption.
    - assert (H' : factor (XProd f g)) by (destruct H; assumption). destruct H'. cbn [kinds]. apply Forall_app. auto. }
  intros H. cbn [kinds]. induction H as [|f fs Hf _ IH]; [constructor|]. apply Forall_app. split; [apply F; auto|exact IH].
Qed.
Lemma kinds_sum_in fs f : In f fs -> forall k, In k (kinds f) -> In k (kinds (XSum fs)).
Proof. cbn [kinds]. induction fs as [|g fs IH]; intros []; intros k Hk; apply in_app_iff; [subst; auto|right; apply IH; assumption]. Qed.
Lemma names_not ks x : ~ In x (map fst all_names) -> ~ In x (map (fun s : signature => fst (fst s)) (map sig (flat_map defines ks))).
Proof.
  intros H I. rewrite map_map in I. apply in_map_iff in I. destruct I as (d & E & I). apply in_flat_map in I. destruct I as (k & _ & I).
  apply H. rewrite <- E. change (fst (fst (sig d))) with (fst d). apply in_map, (defines_known k), I.
Qed.
(** Which shaders are accepted. *)
Lemma shader_compiles fs : fs <> [] -> Forall term fs ->
  compiles (shader_program print nY fs) = true <-> (nY = 1 \/ nY = 3)%nat /\ NoDup (flat_map defines (kinds (XSum fs))).
Proof using Hprint.
  intros Hn Hf. unfold compiles, shader_program. rewrite check_from_app. pose proof (sum_kinds_sound fs Hf) as Hk. set (ks := kinds (XSum fs)) in *.
  assert (S : map sig_of (flat_map body_funs ks) = map sig (flat_map defines ks)).
  { clear -Hk. induction Hk as [|k ks Hk _ IH]; [reflexivity|]. cbn [flat_map]. rewrite !map_app, IH, body_sigs by assumption. reflexivity. }
  rewrite S. cbn [app]. rewrite Bool.andb_true_iff.
  rewrite (check_bodies ks Hk [] ltac:(intros d []) ltac:(constructor)). cbn [app map].
  set (sg := map sig (flat_map defines ks)). assert (Hv : vec_sigs sg) by apply vec_sigs_map.
  cbn [check_from]. rewrite Bool.andb_true_r.
  assert (B : check_fun sg (brdf_fun (map (term_ast print nY) fs)) = check_block sg TVec3 (brdf_body (map (term_ast print nY) fs)) frame_env 5).
  { unfold check_fun. replace (existsb _ sg) with false; [reflexivity|]. symmetry. apply Bool.not_true_is_false. intros E. apply existsb_exists in E.
    destruct E as (s & I & E). unfold same_sig in E. apply Bool.andb_true_iff in E. destruct E as (E & _). apply String.eqb_eq in E. cbn in E.
    apply (names_not ks "BRDF"); [cbn; intuition discriminate|]. rewrite E. apply (in_map (fun s : signature => fst (fst s))), I. }
  rewrite B. destruct fs as [|f fs]; [congruence|]. cbn [map brdf_body check_block]. unfold decl. cbn [check_stmt]. change (declared frame_env 5 "res") with false. cbv iota. unfold decl. cbv iota.
  inversion Hf as [|? ? Hf1 Hf2]; subst.
  split.
  - intros (N & C). split; [|exact N]. unfold has_type in C.
    destruct (PeanoNat.Nat.eq_dec nY 1); [auto|]. destruct (PeanoNat.Nat.eq_dec nY 3); [auto|].
    rewrite (type_term_bad sg f) in C; auto; [discriminate|]. apply names_not. cbn. intuition discriminate.
  - intros (C & N). split; [exact N|]. assert (T : forall g, In g (f :: fs) -> type_expr sg frame_env (term_ast print nY g) = Some TVec3).
    { intros g Hg. apply type_term; auto; [right; rewrite Forall_forall in Hf; apply Hf, Hg|]. intros s Hs. apply in_map_iff in Hs. destruct Hs as (d & <- & Hs).
      apply in_map. apply in_flat_map in Hs. destruct Hs as (k & Hk1 & Hk2). apply in_flat_map. exists k. split; [|exact Hk2]. apply (kinds_sum_in (f :: fs) g Hg k Hk1). }
    unfold has_type. rewrite (T f (or_introl eq_refl)). cbn [ty_eqb]. apply adds_ok; [|reflexivity].
    apply Forall_forall. intros e He. apply in_map_iff in He. destruct He as (g & <- & Hg). change (("res", TVec3) :: frame_env) with res_env. rewrite term_env. apply T. right. exact Hg.
Qed.
End Num.

(** Proofs for the shader export: the value of BRDF. *)
From Coq Require Import Reals List Lia Lra.
From Verif Require Import Base ParamsModel GeoModel TextModel NlModel NlMoreModel NlSpec Glsl GlslModel GlslSpec GlslValueSpec GlslLex GlslParse GlslBody GlslProgram GlslCheck GlslEval.
Open Scope R_scope.
Open Scope string_scope.

(** ** finding a function *)
Lemma meaning_app s a b : meaning s (a ++ b) = meaning (meaning s a) b.
Proof. revert s. induction a as [|f a IH]; intros s; [reflexivity|]. cbn [app meaning]. apply IH. Qed.
Lemma meaning_names s fs : map fst (meaning s fs) = (map fst s ++ map sig_of fs)%list.
Proof.
  revert s. induction fs as [|f fs IH]; intros s; cbn [meaning map]; [rewrite app_nil_r; reflexivity|].
  rewrite IH, map_app. cbn [map fst]. rewrite <- app_assoc. reflexivity.
Qed.
Lemma meaning_keeps s fs d : In d s -> In d (meaning s fs).
Proof. revert s. induction fs as [|f fs IH]; intros s H; [exact H|]. cbn [meaning]. apply IH, in_app_iff. auto. Qed.
Lemma meaning_in fs f : In f fs -> forall s, exists s', In (sig_of f, apply_fun (call_of s') f) (meaning s fs).
Proof.
  induction fs as [|g fs IH]; intros H s; [destruct H|]. destruct H as [->|H].
  - exists s. cbn [meaning]. apply meaning_keeps, in_app_iff. right. left. reflexivity.
  - cbn [meaning]. apply IH, H.
Qed.
Lemma tys_eqb_eq a b : tys_eqb a b = true -> a = b.
Proof. revert b. induction a as [|x a IH]; intros [|y b] H; cbn in H; try discriminate; [reflexivity|]. apply Bool.andb_true_iff in H. destruct H as [A B]. rewrite (IH b B). destruct x, y; try discriminate; reflexivity. Qed.
Lemma tys_eqb_refl a : tys_eqb a a = true.
Proof. induction a as [|[] a IH]; cbn; auto. Qed.
Lemma find_unique (s : sem) f ts F : NoDup (map fst s) -> vec_sigs (map fst s) -> In ((f, ts, TVec3), F) s ->
  find (fun d : signature * (list val -> option val) => String.eqb (fst (fst (fst d))) f && tys_eqb (snd (fst (fst d))) ts) s = Some ((f, ts, TVec3), F).
Proof.
  induction s as [|d s IH]; intros Hn Hv H; [destruct H|]. cbn [map] in Hn, Hv. inversion Hn as [|? ? N1 N2]; subst. inversion Hv as [|? ? V1 V2]; subst.
  cbn [find]. destruct (String.eqb (fst (fst (fst d))) f && tys_eqb (snd (fst (fst d))) ts) eqn:E.
  - apply Bool.andb_true_iff in E. destruct E as (E1 & E2). apply String.eqb_eq in E1. apply tys_eqb_eq in E2.
    destruct H as [H|H]; [rewrite H; reflexivity|]. exfalso. apply N1. apply (in_map fst) in H. cbn [fst] in H.
    replace (fst d) with (f, ts, TVec3); [exact H|]. destruct d as [[[a b] c] g]. cbn in *. congruence.
  - destruct H as [H|H]; [|apply IH; assumption]. subst d. cbn [fst snd] in E. rewrite String.eqb_refl, tys_eqb_refl in E. discriminate.
Qed.

Lemma bodies_sigs print ks : Forall sound ks -> map sig_of (flat_map (body_funs print) ks) = map sig (flat_map defines ks).
Proof. induction 1 as [|k l Hk H IH]; [reflexivity|]. cbn [flat_map]. rewrite !map_app, IH. f_equal. apply body_sigs, Hk. Qed.

Lemma find_app_none {A} (p : A -> bool) l m : find p l = None -> find p (l ++ m)%list = find p m.
Proof. induction l as [|a l IH]; intros H; [reflexivity|]. cbn in *. destruct (p a); [discriminate|]. apply IH, H. Qed.
Definition env_vals (x : mem) : venv := rev (combine (map snd lvnxy) (frame_vals x)).

Section Num.
Variables (print : R -> string) (shown : R -> R).
Hypothesis Hprint : prints print shown.
Hypothesis Hpi : shown PI <> 0.
Variable nY : nat.
Hypothesis HnY : nY = 1%nat \/ nY = 3%nat.
Variable x : mem.
Notation body_funs := (body_funs print).
Notation lobe_pi := (lobe (shown PI)).

Definition ch (y : nat) : nat := if (nY =? 1)%nat then 0%nat else y.
(** parameter [l] of [n] for output [y] *)
Definition par_y (n : nat) (q : list R) (y l : nat) : R := shown (nth (ch y * n + l) q 0).

Section Sem.
Variable ks : list kind.
Hypothesis Hks : Forall sound ks.
Hypothesis Hnd : NoDup (flat_map defines ks).
Notation funs := (flat_map body_funs ks).
Notation sm := (meaning [] funs).
Lemma sm_names : map fst sm = map sig (flat_map defines ks).
Proof using Hks.
  rewrite meaning_names. apply (bodies_sigs print ks Hks).
Qed.
Lemma nodup_sigs : NoDup (map sig (flat_map defines ks)).
Proof using Hnd.
  assert (K : forall d, In d (flat_map defines ks) -> In d all_names).
  { intros d H. apply in_flat_map in H. destruct H as (k & _ & H). apply (defines_known k), H. }
  revert Hnd K. generalize (flat_map defines ks). induction l as [|d l IH]; intros N K; [constructor|]. inversion N as [|? ? N1 N2]; subst.
  cbn [map]. constructor; [|apply IH; [exact N2|intros e He; apply K; right; exact He]].
  intros I. apply in_map_iff in I. destruct I as (e & E & I). apply N1. replace d with e; [exact I|].
  apply same_sig_known; [apply K; right; exact I|apply K; left; reflexivity|]. unfold same_sig. rewrite E, String.eqb_refl, tys_eqb_refl. reflexivity.
Qed.
(** the function a plugin is called by *)
Definition main_fun (k : kind) : fundef := match k with KBeckmann => nth 1 (body_funs k) g_beckmann_fun | _ => nth 0 (body_funs k) g_beckmann_fun end.
Lemma main_in k : sound k -> k <> KDiffuse -> In (main_fun k) (body_funs k) /\ sig_of (main_fun k) = (call_name k, repeat TVec3 (5 + call_vecs k), TVec3).
Proof. intros H N. destruct k as [| | | | | | | | |[| | |]|a| |n|n| | | | ]; try contradiction; try congruence; cbn; split; auto. Qed.
Lemma call_main k args : In k ks -> k <> KDiffuse -> map type_of args = repeat TVec3 (5 + call_vecs k) ->
  exists s', call_of sm (call_name k) args = apply_fun (call_of s') (main_fun k) args.
Proof using Hks Hnd.
  intros Hk Hd Ha. assert (Sk : sound k) by (rewrite Forall_forall in Hks; apply Hks, Hk). destruct (main_in k Sk Hd) as (I & E).
  destruct (meaning_in funs (main_fun k) ltac:(apply in_flat_map; exists k; auto) []) as (s' & J). exists s'. rewrite E in J.
  unfold call_of. rewrite Ha. replace (builtin_type (call_name k) (repeat TVec3 (5 + call_vecs k))) with (@None ty) by (destruct k; try contradiction; reflexivity).
  pose proof (find_unique sm (call_name k) _ _ ltac:(rewrite sm_names; apply nodup_sigs) ltac:(rewrite sm_names; apply vec_sigs_map) J) as F.
  etransitivity; [exact (f_equal (fun o : option (signature * (list val -> option val)) => match o with Some d => snd d args | None => None end) F)|]. reflexivity.
Qed.

(** ** calls *)
Variable r : venv.
Hypothesis Hr : forall e, In e frame_args -> forall s, eval (call_of s) r e = eval (call_of s) (env_vals x) e.
Lemma eval_args s es vs : Forall2 (fun e v => eval (call_of s) r e = Some v) es vs ->
  (fix all l := match l with [] => Some [] | a :: t => obind (eval (call_of s) r a) (fun v => obind (all t) (fun vs => Some (v :: vs))) end) es = Some vs.
Proof. induction 1 as [|e v es vs H _ IH]; [reflexivity|]. rewrite H. cbn [obind]. rewrite IH. reflexivity. Qed.
Lemma eval_vec s k l q : eval (call_of s) r (vec_ast print (member nY k l q)) =
  Some (VV (par_y k q 0 l) (par_y k q 1 l) (par_y k q 2 l)).
Proof using Hprint HnY.
  unfold vec_ast. cbn [eval]. rewrite (eval_args s _ (map (fun a => VF (shown a)) (member nY k l q))).
  - unfold par_y, ch. destruct HnY as [-> | ->]; reflexivity.
  - unfold member. rewrite !map_map. generalize (seq 0 nY). intros is. induction is as [|i is IH]; constructor; [|exact IH]. apply (eval_num print shown Hprint).
Qed.
Lemma eval_call s f k q : eval (call_of s) r (call_ast print f (members_of nY k q)) =
  call_of s f (frame_vals x ++ vec_vals (fun l y => par_y k q y l) k).
Proof using Hprint HnY Hr.
  unfold call_ast. cbn [eval]. rewrite (eval_args s _ (frame_vals x ++ vec_vals (fun l y => par_y k q y l) k)%list); [reflexivity|].
  apply Forall2_app.
  - unfold frame_args. repeat constructor; (rewrite Hr; [reflexivity|cbn; tauto]).
  - unfold members_of, vec_vals. rewrite map_map. generalize (seq 0 k). intros ls. induction ls as [|l ls IH]; constructor; [|exact IH]. apply eval_vec.
Qed.
Lemma vals_types m k : map type_of (frame_vals x ++ vec_vals m k) = repeat TVec3 (5 + k).
Proof.
  unfold vec_vals. rewrite map_app, map_map. cbn [frame_vals map type_of repeat Nat.add app]. do 5 f_equal.
  generalize 0%nat. induction k as [|k IH]; intros i; [reflexivity|]. cbn. f_equal. apply IH.
Qed.
Definition vvv (f : nat -> R) : val := VV (f 0%nat) (f 1%nat) (f 2%nat).
Lemma eval_single k q : In k ks -> (forall y, (y < 3)%nat -> lobe_fine k x (par_y (call_vecs k) q y)) ->
  eval (call_of sm) r (single_ast print nY k q) = Some (vvv (fun y => lobe_pi k x (par_y (call_vecs k) q y))).
Proof using Hprint Hpi HnY Hks Hnd Hr.
  intros Hk Hf. assert (Sk : sound k) by (rewrite Forall_forall in Hks; apply Hks, Hk).
  destruct (match k with KDiffuse => true | _ => false end) eqn:D.
  - destruct k; try discriminate. cbn [single_ast]. rewrite eval_vec. reflexivity.
  - assert (N : k <> KDiffuse) by (intros ->; discriminate).
    replace (single_ast print nY k q) with (call_ast print (call_name k) (members_of nY (call_vecs k) q)) by (destruct k; try discriminate; reflexivity).
    rewrite eval_call. destruct (call_main k _ Hk N (vals_types (fun l y => par_y (call_vecs k) q y l) (call_vecs k))) as (s' & ->).
    destruct k as [| | | | | | | | |t|a| |n|n| | | | ]; try discriminate; try contradiction (Hf 0%nat ltac:(lia)); cbn [main_fun call_vecs].
    + apply (blinn_eval print shown s' x (fun l y => par_y 2 q y l)). exact Hf.
    + apply (retroblinn_eval print shown s' x (fun l y => par_y 2 q y l)). exact Hf.
    + apply (abc_eval print shown s' x (fun l y => par_y 3 q y l)). exact Hf.
    + apply (retrobeckmann_eval print shown Hprint Hpi s' x (fun l y => par_y 2 q y l)). exact Hf.
    + apply (ward_eval print shown Hprint Hpi s' x (fun l y => par_y 3 q y l)). exact Hf.
    + apply (schlick_eval print shown s' x (fun l y => par_y 1 q y l)). exact Hf.
    + apply (norm_schlick_eval print shown s' x (fun l y => par_y 1 q y l)). exact Hf.
    + apply (retro_schlick_eval print shown s' x (fun l y => par_y 1 q y l)). exact Hf.
    + apply (gauss_eval print shown s' x t (fun l y => par_y 2 q y l)). exact Hf.
    + apply (laf_eval print shown s' x n (fun l y => par_y 3 q y l)). exact Hf.
Qed.

(** ** terms *)
Definition leaf_lobe (k : kind) (p : list R) (i y : nat) : R := lobe_pi k x (par_y (call_vecs k) (lobe_par nY k i p) y).
Fixpoint rsum (l : list R) : R := match l with [] => 0 | a :: t => a + rsum t end.
Fixpoint term_val (f : xfun) (y : nat) : R :=
  match f with
  | XLeaf k p => rsum (map (fun i => leaf_lobe k p i y) (seq 0 (lobe_count k)))
  | XProd f g => term_val f y * term_val g y
  | _ => 0 end.
Fixpoint term_fine (f : xfun) : Prop :=
  match f with
  | XLeaf k p => forall i y, (i < lobe_count k)%nat -> (y < 3)%nat -> lobe_fine k x (par_y (call_vecs k) (lobe_par nY k i p) y)
  | XProd f g => term_fine f /\ term_fine g
  | _ => False end.
Lemma eval_sum s es vs : es <> [] -> Forall2 (fun e (v : nat -> R) => eval (call_of s) r e = Some (vvv v)) es vs ->
  eval (call_of s) r (sum_ast es) = Some (vvv (fun y => rsum (map (fun v : nat -> R => v y) vs))).
Proof.
  intros Hn H. destruct H as [|e v es vs He H]; [congruence|]. clear Hn. cbn [sum_ast map rsum].
  revert e v He. induction H as [|d w es vs Hd H IH]; intros e v He.
  - cbn [fold_left map rsum]. rewrite He. unfold vvv. rewrite !Rplus_0_r. reflexivity.
  - cbn [fold_left map rsum]. rewrite (IH (EBin BAdd e d) (fun y => v y + w y)).
    + unfold vvv. rewrite !Rplus_assoc. reflexivity.
    + cbn [eval]. rewrite He, Hd. reflexivity.
Qed.
Lemma eval_term f : (forall k, In k (kinds f) -> In k ks) -> factor f \/ term f -> term_fine f ->
  eval (call_of sm) r (term_ast print nY f) = Some (vvv (term_val f)).
Proof using Hprint Hpi HnY Hks Hnd Hr.
  induction f as [k p| | |f IHf g IHg]; intros Hk Hf Hfine; try (destruct Hf; contradiction).
  - assert (Sk : sound k) by (destruct Hf as [[Hf _]|Hf]; assumption). cbn [term_ast].
    rewrite (eval_sum sm (lobe_asts print nY k p) (map (fun i => leaf_lobe k p i) (seq 0 (lobe_count k)))).
    + cbn [term_val]. unfold vvv. rewrite !map_map. reflexivity.
    + unfold lobe_asts. assert (0 < lobe_count k)%nat by (destruct k; cbn in *; try lia; contradiction). destruct (lobe_count k); [lia|]. discriminate.
    + unfold lobe_asts. cbn [term_fine] in Hfine.
      assert (A : forall i, In i (seq 0 (lobe_count k)) -> eval (call_of sm) r (single_ast print nY k (lobe_par nY k i p)) = Some (vvv (leaf_lobe k p i))).
      { intros i Hi. apply in_seq in Hi. apply eval_single; [apply Hk; left; reflexivity|]. intros y Hy. apply Hfine; [lia|exact Hy]. }
      revert A. generalize (seq 0 (lobe_count k)). intros is. induction is as [|i is IH]; intros A; constructor; [apply A; left; reflexivity|].
      apply IH. intros j Hj. apply A. right. exact Hj.
  - assert (Hff : factor (XProd f g)) by (destruct Hf; assumption). destruct Hff as [Hf1 Hf2]. destruct Hfine as [F1 F2]. cbn [kinds] in Hk.
    cbn [term_ast eval term_val]. rewrite IHf, IHg; auto; try (intros k Ik; apply Hk, in_app_iff; auto).
Qed.
End Sem.

(** ** the shader *)
Lemma eval_frame s v e : In e frame_args -> eval (call_of s) (("res", v) :: env_vals x) e = eval (call_of s) (env_vals x) e.
Proof. intros H. cbn in H. destruct H as [<-|[<-|[<-|[<-|[<-|[]]]]]]; reflexivity. Qed.
Lemma run_adds s es vs : forall (a : nat -> R),
  (forall w, Forall2 (fun e (v : nat -> R) => eval (call_of s) (("res", vvv w) :: env_vals x) e = Some (vvv v)) es vs) ->
  exec_block (call_of s) (map (SAdd (EVar "res")) es ++ [SReturn (EVar "res")]) (("res", vvv a) :: env_vals x) =
  Some (inr (vvv (fun y => a y + rsum (map (fun v : nat -> R => v y) vs)))).
Proof.
  revert vs. induction es as [|e es IH]; intros vs a H.
  - pose proof (H a) as Q. inversion Q; subst. cbn [map rsum app exec_block exec eval]. unfold vvv. rewrite !Rplus_0_r. reflexivity.
  - pose proof (H a) as Q. inversion Q as [|? v ? ws He Hes]; subst. cbn [map app exec_block exec]. 
    change (eval (call_of s) (("res", vvv a) :: env_vals x) (EVar "res")) with (Some (vvv a)). cbn [obind]. rewrite He. cbn [obind].
    change (eval_bop BAdd (vvv a) (vvv v)) with (Some (vvv (fun y => a y + v y))). cbn [obind].
    change (assign (("res", vvv a) :: env_vals x) (EVar "res") (vvv (fun y => a y + v y))) with (Some (("res", vvv (fun y => a y + v y)) :: env_vals x)). cbn [obind].
    rewrite (IH ws (fun y => a y + v y)).
    + cbn [rsum]. unfold vvv. rewrite !Rplus_assoc. reflexivity.
    + intros w. pose proof (H w) as Q'. inversion Q'; subst. assumption.
Qed.
Lemma shader_run fs : fs <> [] -> Forall term fs -> NoDup (flat_map defines (kinds (XSum fs))) -> Forall term_fine fs ->
  run (shader_program print nY fs) "BRDF" (frame_vals x) = Some (vvv (fun y => rsum (map (fun f => term_val f y) fs))).
Proof using Hprint Hpi HnY.
  intros Hn Hf Hnd Hfine. pose proof (sum_kinds_sound fs Hf) as Hks. unfold run, shader_program. rewrite meaning_app.
  set (ks := kinds (XSum fs)) in *. set (sm := meaning [] (flat_map body_funs ks)). cbn [meaning].
  assert (R0 : call_of (sm ++ [(sig_of (brdf_fun (map (term_ast print nY) fs)), apply_fun (call_of sm) (brdf_fun (map (term_ast print nY) fs)))])%list "BRDF" (frame_vals x) =
    apply_fun (call_of sm) (brdf_fun (map (term_ast print nY) fs)) (frame_vals x)).
  { unfold call_of at 1. change (builtin_type "BRDF" (map type_of (frame_vals x))) with (@None ty). cbv iota.
    assert (N : find (fun d : signature * (list val -> option val) => String.eqb (fst (fst (fst d))) "BRDF" && tys_eqb (snd (fst (fst d))) (map type_of (frame_vals x))) sm = None).
    { destruct (find _ sm) as [d|] eqn:E; [|reflexivity]. exfalso. apply find_some in E. destruct E as (I & E). apply Bool.andb_true_iff in E. destruct E as (E & _). apply String.eqb_eq in E.
      apply (names_not ks "BRDF"); [cbn; intuition discriminate|]. rewrite <- E. apply (in_map (fun s : signature => fst (fst s))).
      change sm with (meaning [] (flat_map body_funs ks)) in I. apply (in_map fst) in I. rewrite (sm_names ks Hks) in I. exact I. }
    etransitivity; [exact (f_equal (fun o : option (signature * (list val -> option val)) => match o with Some d => snd d (frame_vals x) | None => None end)
       (eq_trans (find_app_none _ sm _ N) eq_refl))|]. reflexivity. }
  rewrite R0. unfold apply_fun. change (tys_eqb (map fst (fn_params (brdf_fun (map (term_ast print nY) fs)))) (map type_of (frame_vals x))) with true. cbv iota.
  change (rev (combine (map snd (fn_params (brdf_fun (map (term_ast print nY) fs)))) (frame_vals x))) with (env_vals x). cbn [brdf_fun fn_body].
  destruct fs as [|f fs]; [congruence|]. inversion Hf as [|? ? Hf1 Hf2]; subst. inversion Hfine as [|? ? F1 F2]; subst.
  cbn [map brdf_body exec_block]. unfold decl. cbn [exec].
  unfold sm. rewrite (eval_term ks Hks Hnd (env_vals x) ltac:(reflexivity) f); auto; [|intros k Hk; apply (kinds_sum_in (f :: fs) f (or_introl eq_refl)); exact Hk].
  cbn [obind]. rewrite (run_adds _ (map (term_ast print nY) fs) (map term_val fs) (term_val f)).
  - cbn [obind]. unfold vvv. rewrite !map_map. cbn [rsum]. reflexivity.
  - intros w. assert (A : forall g, In g fs -> eval (call_of (meaning [] (flat_map body_funs ks))) (("res", vvv w) :: env_vals x) (term_ast print nY g) = Some (vvv (term_val g))).
    { intros g Hg. rewrite Forall_forall in Hf2, F2. apply eval_term; auto.
      - intros e He s. apply eval_frame, He.
      - intros k Hk. apply (kinds_sum_in (f :: fs) g (or_intror Hg)). exact Hk. }
    clearbody ks. clear -A. induction fs as [|g fs IH]; constructor; [apply A; left; reflexivity|]. apply IH. intros h Hh. apply A. right. exact Hh.
Qed.
End Num.

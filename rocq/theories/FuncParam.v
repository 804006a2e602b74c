(** Parametrization of composite functions (C28) and evaluation facts. *)
From Coq Require Import Reals List Lia Lra.
From Verif Require Import Base ParamsModel GeoModel CommonModel CommonProofs FuncModel FuncSpec FuncProofs FuncJac.
Open Scope R_scope.

Lemma input_eqb_spec a b : input_eqb a b = true <-> a = b.
Proof. destruct a, b; cbn; split; congruence. Qed.
Lemma input_eqb_refl a : input_eqb a a = true. Proof. apply input_eqb_spec. reflexivity. Qed.
Lemma output_eqb_spec a b : output_eqb a b = true <-> a = b.
Proof. destruct a, b; cbn; split; congruence. Qed.
Lemma output_eqb_refl a : output_eqb a a = true. Proof. apply output_eqb_spec. reflexivity. Qed.
Lemma input_neq a b : a <> b -> input_eqb a b = false.
Proof. intros H. destruct (input_eqb a b) eqn:E; [apply input_eqb_spec in E; congruence|reflexivity]. Qed.
Lemma output_neq a b : a <> b -> output_eqb a b = false.
Proof. intros H. destruct (output_eqb a b) eqn:E; [apply output_eqb_spec in E; congruence|reflexivity]. Qed.

(** the input parametrization the loop ends with *)
Fixpoint in_fold (r : input) (dim : nat) (l : list input) : nat * input :=
  match l with
  | [] => (dim, r)
  | i :: l' => if input_eqb r UNKNOWN_INPUT then in_fold i dim l'
               else if input_eqb r i then in_fold r dim l' else in_fold CARTESIAN 6 l'
  end.
Fixpoint out_fold (r : output) (l : list output) : option output :=
  match l with
  | [] => Some r
  | o :: l' => if output_eqb r UNKNOWN_OUTPUT then out_fold o l'
               else if output_eqb r o then out_fold r l' else None
  end.
Lemma loop_folds l : forall r, compound_parameters_loop r l =
  match out_fold (out_param r) (map out_param l) with
  | Some o => let d := in_fold (in_param r) (dimX r) (map in_param l) in Ok (mkParameters (fst d) (dimY r) (snd d) o)
  | None => Abort
  end.
Proof.
  induction l as [|f l IH]; intros [dx dy i o]; [reflexivity|]. cbn [compound_parameters_loop map in_fold out_fold in_param out_param dimX dimY].
  destruct (input_eqb i UNKNOWN_INPUT) eqn:Ei; [|destruct (input_eqb i (in_param f)) eqn:Ei2];
  cbn [out_param in_param dimX dimY set_input]; destruct (output_eqb o UNKNOWN_OUTPUT) eqn:Eo; rewrite ?IH; cbn [dimX dimY in_param out_param set_input]; try reflexivity;
  (destruct (output_eqb o (out_param f)); reflexivity).
Qed.

Lemma in_fold_same i d l : i <> UNKNOWN_INPUT -> Forall (eq i) l -> in_fold i d l = (d, i).
Proof.
  intros Hi H. induction H as [|j l <- _ IH]; [reflexivity|]. cbn. rewrite (input_neq _ _ Hi), input_eqb_refl. assumption.
Qed.
Lemma in_fold_cartesian l : in_fold CARTESIAN 6 l = (6%nat, CARTESIAN).
Proof. induction l as [|i l IH]; [reflexivity|]. cbn [in_fold]. rewrite (input_neq CARTESIAN UNKNOWN_INPUT) by discriminate. destruct (input_eqb CARTESIAN i); assumption. Qed.
Lemma in_fold_mixed i d l : i <> UNKNOWN_INPUT -> Exists (fun j => j <> i) l -> in_fold i d l = (6%nat, CARTESIAN).
Proof.
  intros Hi. induction l as [|j l IH]; intros H; [inversion H|]. cbn [in_fold]. rewrite (input_neq _ _ Hi).
  destruct (input_eqb i j) eqn:E.
  - apply input_eqb_spec in E. subst j. apply IH. inversion H; subst; [congruence|assumption].
  - apply in_fold_cartesian.
Qed.
Lemma in_fold_unknown d l : Forall (eq UNKNOWN_INPUT) l -> forall k, in_fold UNKNOWN_INPUT d (l ++ k) = in_fold UNKNOWN_INPUT d k.
Proof. intros H k. induction H as [|j l <- _ IH]; [reflexivity|]. cbn. assumption. Qed.

Lemma out_fold_same o l : o <> UNKNOWN_OUTPUT -> (out_fold o l = Some o <-> Forall (eq o) l) /\ (out_fold o l = None <-> Exists (fun p => p <> o) l).
Proof.
  intros Ho. induction l as [|p l [IH1 IH2]]; [cbn; split; split; intros H; try constructor; try discriminate; inversion H|].
  cbn [out_fold]. rewrite (output_neq _ _ Ho). destruct (output_eqb o p) eqn:E.
  - apply output_eqb_spec in E. subst p. rewrite IH1, IH2. split; split; intros H.
    + constructor; auto. + inversion H; assumption. + right; assumption. + inversion H; subst; [congruence|assumption].
  - assert (o <> p) by (intros ->; rewrite output_eqb_refl in E; discriminate).
    split; split; intros H'; try discriminate; try reflexivity; [inversion H'; congruence|left; congruence].
Qed.
Lemma out_fold_unknown l : Forall (eq UNKNOWN_OUTPUT) l -> forall k, out_fold UNKNOWN_OUTPUT (l ++ k) = out_fold UNKNOWN_OUTPUT k.
Proof. intros H k. induction H as [|j l <- _ IH]; [reflexivity|]. cbn. assumption. Qed.

Lemma compound_folds f l : compound_parameters (f :: l) =
  match out_fold (out_param f) (map out_param l) with
  | Some o => let d := in_fold (in_param f) (dimX f) (map in_param l) in Ok (mkParameters (fst d) (dimY f) (snd d) o)
  | None => Abort
  end.
Proof.
  unfold compound_parameters. rewrite loop_folds. cbn [map out_fold in_fold].
  destruct (output_eqb (out_param f) UNKNOWN_OUTPUT) eqn:Eo; rewrite ?output_eqb_refl;
  destruct (input_eqb (in_param f) UNKNOWN_INPUT) eqn:Ei; rewrite ?input_eqb_refl; reflexivity.
Qed.

Lemma common_parametrization f l : in_param f <> UNKNOWN_INPUT -> out_param f <> UNKNOWN_OUTPUT ->
  Forall (fun g => in_param g = in_param f /\ out_param g = out_param f) l -> compound_parameters (f :: l) = Ok f.
Proof.
  intros Hi Ho H. rewrite compound_folds.
  assert (O : Forall (eq (out_param f)) (map out_param l)) by (clear - H; induction H as [|g l [A B] _ IH]; cbn; constructor; auto).
  assert (I : Forall (eq (in_param f)) (map in_param l)) by (clear - H; induction H as [|g l [A B] _ IH]; cbn; constructor; auto).
  apply (out_fold_same _ _ Ho) in O. rewrite O, (in_fold_same _ _ _ Hi I). destruct f; reflexivity.
Qed.

Lemma skip_unknown_inputs u g k d : Forall (fun h => in_param h = UNKNOWN_INPUT) u ->
  in_fold UNKNOWN_INPUT d (map in_param (u ++ g :: k)) = in_fold (in_param g) d (map in_param k).
Proof.
  intros H. rewrite map_app. rewrite in_fold_unknown; [reflexivity|].
  clear - H. induction H as [|h u A _ IH]; cbn; constructor; auto.
Qed.
Lemma skip_unknown_outputs u g k : Forall (fun h => out_param h = UNKNOWN_OUTPUT) u ->
  out_fold UNKNOWN_OUTPUT (map out_param (u ++ g :: k)) = out_fold (out_param g) (map out_param k).
Proof.
  intros H. rewrite map_app. rewrite out_fold_unknown; [reflexivity|].
  clear - H. induction H as [|h u A _ IH]; cbn; constructor; auto.
Qed.
Lemma in_fold_lead u g k d : Forall (fun h => in_param h = UNKNOWN_INPUT) u ->
  match u ++ g :: k with f :: l => in_fold (in_param f) d (map in_param l) = in_fold (in_param g) d (map in_param k) | [] => False end.
Proof.
  intros H. destruct u as [|h u]; cbn [app]; [reflexivity|]. inversion H as [|? ? E H']; subst. rewrite E. apply skip_unknown_inputs. assumption.
Qed.
Lemma out_fold_lead u g k : Forall (fun h => out_param h = UNKNOWN_OUTPUT) u ->
  match u ++ g :: k with f :: l => out_fold (out_param f) (map out_param l) = out_fold (out_param g) (map out_param k) | [] => False end.
Proof.
  intros H. destruct u as [|h u]; cbn [app]; [reflexivity|]. inversion H as [|? ? E H']; subst. rewrite E. apply skip_unknown_outputs. assumption.
Qed.

(** success, and the input parametrization found *)
Lemma compound_input u g k r : Forall (fun h => in_param h = UNKNOWN_INPUT) u -> in_param g <> UNKNOWN_INPUT ->
  compound_parameters (u ++ g :: k) = Ok r ->
  (Forall (fun h => in_param h = in_param g) k -> in_param r = in_param g /\ dimX r = dimX (hd g (u ++ g :: k))) /\
  (Exists (fun h => in_param h <> in_param g) k -> in_param r = CARTESIAN /\ dimX r = 6%nat).
Proof.
  intros Hu Hg H. pose proof (in_fold_lead u g k (dimX (hd g (u ++ g :: k))) Hu) as L.
  destruct (u ++ g :: k) as [|f l] eqn:E; [contradiction|]. rewrite compound_folds in H.
  destruct (out_fold (out_param f) (map out_param l)); [|discriminate]. apply Ok_inj in H. subst r.
  cbn [hd] in *. rewrite L. cbn [in_param dimX]. split; intros K.
  - rewrite in_fold_same; [split; reflexivity|assumption|]. clear - K. induction K; cbn; constructor; auto.
  - rewrite in_fold_mixed; [split; reflexivity|assumption|]. clear - K. induction K; cbn; [left; assumption|right; assumption].
Qed.
Lemma compound_output u g k : Forall (fun h => out_param h = UNKNOWN_OUTPUT) u -> out_param g <> UNKNOWN_OUTPUT ->
  (Forall (fun h => out_param h = out_param g) k -> exists r, compound_parameters (u ++ g :: k) = Ok r /\ out_param r = out_param g /\ dimY r = dimY (hd g (u ++ g :: k))) /\
  (Exists (fun h => out_param h <> out_param g) k -> compound_parameters (u ++ g :: k) = Abort).
Proof.
  intros Hu Hg. pose proof (out_fold_lead u g k Hu) as L.
  destruct (u ++ g :: k) as [|f l] eqn:E; [contradiction|]. rewrite compound_folds, L. cbn [hd]. split; intros K.
  - assert (K' : Forall (eq (out_param g)) (map out_param k)) by (clear - K; induction K; cbn; constructor; auto).
    apply (out_fold_same _ _ Hg) in K'. rewrite K'. eexists. split; [reflexivity|]. split; reflexivity.
  - assert (K' : Exists (fun p => p <> out_param g) (map out_param k)) by (clear - K; induction K; cbn; [left; assumption|right; assumption]).
    apply (out_fold_same _ _ Hg) in K'. rewrite K'. reflexivity.
Qed.
Lemma compound_all_unknown f l : Forall (fun h => in_param h = UNKNOWN_INPUT) (f :: l) -> forall r, compound_parameters (f :: l) = Ok r ->
  in_param r = UNKNOWN_INPUT.
Proof.
  intros H r. rewrite compound_folds. destruct (out_fold _ _); [|discriminate]. intros E. apply Ok_inj in E. subst r. cbn [in_param].
  inversion H as [|? ? E H']; subst. rewrite E. generalize (dimX f). intros d.
  replace (map in_param l) with (map in_param l ++ []) by apply app_nil_r.
  rewrite in_fold_unknown; [reflexivity|]. clear - H'. induction H'; cbn; constructor; auto.
Qed.

(** value of composites *)
Fixpoint sum_list (l : list R) : R := match l with [] => 0 | x :: l' => x + sum_list l' end.
Lemma compound_value junk par fs x v : tree_ok (Compound par fs) -> value junk (Compound par fs) x = Ok v ->
  length v = dimY par /\
  forall y, nth y v 0 = sum_list (map (fun f : bool * tree => component (do x' <- child_point junk x (in_param par) (par_of (snd f)); value junk (snd f) x') y) fs).
Proof.
  intros Ht Hv. pose proof (value_evaluable junk _ _ _ Hv) as He.
  destruct (value_loop_spec junk par x fs Ht He ltac:(apply Forall_forall; intros; apply value_spec; assumption) (repeat 0 (dimY par)) (repeat_length _ _)) as (w & Ew & Lw & Nw).
  cbn [value] in Hv. rewrite Ew in Hv. apply Ok_inj in Hv. subst w. split; [assumption|]. intros y. rewrite Nw, nth_repeat.
  clear. unfold fs_sum. induction fs as [|f fs IH]; cbn [fold_right map sum_list]; lra.
Qed.
Lemma unknown_point junk x child : in_param child = UNKNOWN_INPUT ->
  forall p, child_point junk x UNKNOWN_INPUT child = Ok p -> p = (fun _ => junk).
Proof.
  intros E p. unfold child_point. rewrite E. cbn -[copy]. intros H.
  apply Ok_inj in H. subst p. reflexivity.
Qed.

(** ** Failures *)
Definition ok_or_abort {A} (o : outcome A) : Prop := match o with Throw => False | UB => False | _ => True end.
Lemma for_ok_or_abort {S} (body : nat -> S -> outcome S) : (forall i s, ok_or_abort (body i s)) -> forall n k s, ok_or_abort (for_ n k body s).
Proof.
  intros H n. induction n as [|n IH]; intros k s; cbn [for_]; [exact I|]. specialize (H k s).
  destruct (body k s); cbn in *; try contradiction; auto.
Qed.
Lemma rd_ok v i : ok_or_abort (rd v i). Proof. unfold rd. destruct (nth_error v i); exact I. Qed.
Lemma wr_ok v i x : ok_or_abort (wr v i x). Proof. unfold wr. destruct (_ <? _)%nat; exact I. Qed.
Lemma bind_ok {A B} (o : outcome A) (k : A -> outcome B) : ok_or_abort o -> (forall a, ok_or_abort (k a)) -> ok_or_abort (do a <- o; k a).
Proof. destruct o; cbn; auto; contradiction. Qed.
Lemma bind_abort {A B} (o : outcome A) (k : A -> outcome B) : ok_or_abort o -> (forall a, k a = Abort) -> (do a <- o; k a) = Abort.
Proof. intros H K. destruct o; cbn in *; auto; contradiction. Qed.

Lemma broadcast_jacobian junk par x2 f1 f2 x p1 p2 v1 v2 j1 j2 :
  child_point junk x (in_param par) (par_of f1) = Ok p1 -> child_point junk x (in_param par) (par_of f2) = Ok p2 ->
  value junk f1 p1 = Ok v1 -> value junk f2 p2 = Ok v2 -> jacobian junk f1 p1 = Ok j1 -> jacobian junk f2 p2 = Ok j2 ->
  (2 <= dimY par)%nat -> length v2 = 1%nat -> (0 < nb f1)%nat ->
  jacobian junk (Product par false x2 f1 f2) x = Abort.
Proof.
  intros E1 E2 V1 V2 J1 J2 Hd Hl Hn. cbn [jacobian]. rewrite E2. cbn [bind]. rewrite E1. cbn [bind]. rewrite V1. cbn [bind]. rewrite V2. cbn [bind].
  rewrite J1. cbn [bind]. rewrite J2. cbn [bind]. destruct (dimY par) as [|[|d]]; try lia. destruct (nb f1) as [|n]; [lia|].
  cbn [for_]. apply bind_abort.
  - apply bind_ok.
    + apply bind_ok; [|intros; apply for_ok_or_abort; intros; repeat (apply bind_ok; [apply rd_ok|intros]); apply wr_ok].
      repeat (apply bind_ok; [apply rd_ok|intros]); apply wr_ok.
    + intros a. destruct x2; [exact I|]. apply for_ok_or_abort; intros; repeat (apply bind_ok; [apply rd_ok|intros]); apply wr_ok.
  - intros a. cbn [for_]. assert (B : rd v2 1 = Abort) by (destruct v2 as [|? [|]]; try discriminate; reflexivity).
    unfold rd at 1. destruct (nth_error j1 (1 * Datatypes.S n + 0)); cbn [bind]; [|reflexivity]. rewrite B. reflexivity.
Qed.

(** a vector that is too short *)
Lemma set_short_fs p : forall fs par start, ok_fs par fs -> (length p < start + nb_fs fs)%nat -> (start <= length p)%nat ->
  set_loop set_parameters p fs start = Abort.
Proof.
  induction fs as [|[b f] fs IH]; intros par start Hok Hlt Hs; [cbn in Hlt; lia|].
  destruct Hok as [[H1 H2] H3]. cbn [fst snd nb_fs fold_right] in *. fold (nb_fs fs) in *. cbn [set_loop fst snd].
  destruct b; cbn [negb].
  - rewrite andb_false_r. rewrite (IH par) by (assumption || lia). reflexivity.
  - rewrite andb_true_r. destruct (Nat.ltb_spec 0 (nb f)) as [Hn|Hn].
    + destruct (Nat.lt_ge_cases (length p) (start + nb f)) as [Hsh|Hlo].
      * rewrite slice_short by assumption. reflexivity.
      * rewrite <- (firstn_skipn start p) at 1. rewrite <- (firstn_skipn (nb f) (skipn start p)) at 1.
        assert (Ls : length (firstn start p) = start) by (rewrite firstn_length; lia).
        assert (Lq : length (firstn (nb f) (skipn start p)) = nb f) by (rewrite firstn_length, skipn_length; lia).
        pose proof (slice_spec' (firstn (nb f) (skipn start p)) (firstn start p) (skipn (nb f) (skipn start p)) (nb f) Lq) as SL.
        rewrite Ls in SL. rewrite SL. cbn [bind].
        destruct (set_spec f _ H1 Lq) as (t' & Et & _). rewrite Et. cbn [bind]. rewrite (IH par) by (assumption || lia). reflexivity.
    + rewrite (IH par) by (assumption || lia). reflexivity.
Qed.
Lemma slice_short0 p off n : (length p < off + n)%nat -> (off <= length p)%nat -> slice p off n = Abort.
Proof. intros H1 H2. apply slice_short; lia. Qed.
Definition composite (t : tree) : Prop := match t with Leaf _ _ => False | _ => True end.
Lemma set_short : forall t p, tree_ok t -> composite t -> (length p < nb t)%nat -> set_parameters t p = Abort.
Proof.
  intros [l q|par fs|par x1 x2 f1 f2] p Ht Hc Hp; [contradiction| |].
  - cbn [set_parameters]. rewrite (set_short_fs p fs par 0); [reflexivity|exact Ht|exact Hp|lia].
  - destruct Ht as (H1 & H2 & _). cbn [nb set_parameters] in *.
    destruct x1; cbn [bind].
    + destruct x2; [lia|]. rewrite slice_short0 by lia. reflexivity.
    + destruct (Nat.lt_ge_cases (length p) (nb f1)) as [Hs|Hs].
      * rewrite slice_short0 by lia. reflexivity.
      * rewrite <- (firstn_skipn (nb f1) p) at 1.
        assert (Lq : length (firstn (nb f1) p) = nb f1) by (rewrite firstn_length; lia).
        pose proof (slice_spec' (firstn (nb f1) p) [] (skipn (nb f1) p) (nb f1) Lq) as SL. cbn [app length] in SL. rewrite SL. cbn [bind].
        destruct (set_spec f1 _ H1 Lq) as (t' & Et & _). rewrite Et. cbn [bind]. destruct x2; [lia|]. rewrite slice_short0 by lia. reflexivity.
Qed.

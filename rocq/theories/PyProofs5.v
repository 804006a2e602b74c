(** Proofs for C95: what a script leaves unchanged. *)
From Coq Require Import Reals List ZArith Lia Lra.
From Verif Require Import Base Num ParamsModel GeoModel CommonModel FuncModel FuncSpec PyModel PySpec PyProofs PyProofs2 PyProofs3.
Open Scope R_scope.

(** nothing is fixed in an object made by a script *)
Definition flags (c : cell) : list bool := match c with CCompound _ fs => map fst fs | CProduct _ x1 x2 _ _ => [x1; x2] | _ => [] end.
Definition unfixed (cs : list cell) : Prop := forall a c x, cell_at cs a = Some c -> In x (flags c) -> x = false.
Lemma unfixed_push c cs : unfixed cs -> (forall x, In x (flags c) -> x = false) -> unfixed (c :: cs).
Proof. intros U H a d x E Hx. destruct (cell_at_cons _ _ _ _ E) as [[_ ->]|E']; [apply H; assumption|]. apply (U a d); assumption. Qed.
Lemma unfixed_tail c cs : unfixed (c :: cs) -> unfixed cs.
Proof. intros U a d x E. apply (U a). apply cell_at_tail. assumption. Qed.
Lemma unfixed_step st st' : unfixed (cells st) -> step st st' -> unfixed (cells st').
Proof.
  intros U [l p Hl|par val|f g st2 h H|f g st2 h H|f v st2 H]; cbn [fst py_new py_new_other cells].
  - apply unfixed_push; [assumption|intros x []].
  - apply unfixed_push; [assumption|intros x []].
  - unfold py_add in H. destruct f as [a1|], g as [b1|]; try (apply Ok_inj in H; injection H as -> ->; assumption).
    destruct (as_tree st (Some a1)) as [t1|]; [|apply Ok_inj in H; injection H as -> ->; assumption]. destruct (as_tree st (Some b1)) as [t2|]; [|apply Ok_inj in H; injection H as -> ->; assumption].
    destruct (compound_parameters _) as [par| | |]; try discriminate. cbn [bind] in H. apply Ok_inj in H. injection H as -> ->. apply unfixed_push; [assumption|]. intros x [<-|[<-|[]]]; reflexivity.
  - unfold py_mult in H. destruct f as [a1|], g as [b1|]; try (apply Ok_inj in H; injection H as -> ->; assumption).
    destruct (as_tree st (Some a1)) as [t1|]; [|apply Ok_inj in H; injection H as -> ->; assumption]. destruct (as_tree st (Some b1)) as [t2|]; [|apply Ok_inj in H; injection H as -> ->; assumption].
    apply Ok_inj in H. injection H as -> ->. apply unfixed_push; [assumption|]. intros x [<-|[<-|[]]]; reflexivity.
  - rewrite (set_inv _ _ _ _ H). assumption.
Qed.
Lemma unfixed_reachable st : reachable st -> unfixed (cells st).
Proof. intros H. induction H as [|st1 st2 _ IH Hs]; [intros a c x E; discriminate|]. eapply unfixed_step; eassumption. Qed.

Lemma expand_agree cs : forall s s' a, unfixed cs -> (forall b, In b (leaves cs a) -> s b = s' b) -> expand cs s a = expand cs s' a.
Proof.
  induction cs as [|c cs IH]; intros s s' a U H; [reflexivity|]. pose proof (unfixed_tail _ _ U) as Ut. cbn [expand leaves] in *. destruct (Nat.eqb_spec a (length cs)) as [->|N].
  - pose proof (U (length cs) c) as Uc. rewrite cell_at_new in Uc. specialize (fun x => Uc x eq_refl). destruct c as [l|par fs|par x1 x2 b1 b2|par val].
    + rewrite H by (left; reflexivity). reflexivity.
    + assert (E : map (fun f : bool * loc => match expand cs s (snd f) with Some t => Some (fst f, t) | None => None end) fs = map (fun f : bool * loc => match expand cs s' (snd f) with Some t => Some (fst f, t) | None => None end) fs); [|rewrite E; reflexivity].
      apply map_ext_in. intros [x b] Hf. cbn [fst snd]. assert (x = false) by (apply Uc; apply in_map_iff; exists (x, b); auto). subst x.
      rewrite (IH s s' b Ut); [reflexivity|]. intros d Hd. apply H. apply in_flat_map. exists (false, b). auto.
    + assert (x1 = false) by (apply Uc; left; reflexivity). assert (x2 = false) by (apply Uc; right; left; reflexivity). subst x1 x2.
      rewrite (IH s s' b1 Ut), (IH s s' b2 Ut); [reflexivity| |]; intros d Hd; apply H; apply in_or_app; auto.
    + reflexivity.
  - apply IH; assumption.
Qed.
(** a function whose plugin functions keep their parameters keeps its value *)
Lemma value_frame junk st st' g : reachable st -> cells st' = cells st -> (forall b, In b (parts st g) -> store st' b = store st b) ->
  forall x, py_value junk st' g x = py_value junk st g x.
Proof.
  intros Hr Hc Hs x. unfold py_value. destruct g as [a|]; [|reflexivity]. rewrite Hc. rewrite (expand_agree (cells st) (store st') (store st) a (unfixed_reachable _ Hr) Hs). reflexivity.
Qed.
(** a new object changes no other *)
Lemma value_push junk c st s a x : (a < length (cells st))%nat -> (forall b, (b < length (cells st))%nat -> s b = store st b) -> reachable st ->
  py_value junk (mkState (c :: cells st) s) (Some a) x = py_value junk st (Some a) x.
Proof.
  intros La Hs Hr. unfold py_value. cbn [cells store]. rewrite expand_tail by assumption. cbn [cell_at]. destruct (Nat.eqb_spec a (length (cells st))); [lia|].
  rewrite (expand_agree (cells st) s (store st) a (unfixed_reachable _ Hr)); [reflexivity|]. intros b Hb. apply Hs. destruct (leaves_cell _ _ _ Hb) as [l El]. apply (cell_at_lt _ _ _ El).
Qed.
(** an object of the script *)
Definition made (st : state) (f : handle) : Prop := match f with Some a => (a < length (cells st))%nat | None => True end.
Lemma step_value junk st st' f x : reachable st -> made st f -> step st st' -> (forall b, In b (parts st f) -> store st' b = store st b) -> py_value junk st' f x = py_value junk st f x.
Proof.
  intros Hr Mf Hstep Hp. destruct f as [a|]; [|reflexivity]. cbn [made] in Mf.
  destruct Hstep as [l p Hl|par val|f g st2 h H|f g st2 h H|f v st2 H].
  - apply value_push; [assumption| |assumption]. intros b Hb. apply put_other. lia.
  - apply value_push; [assumption|reflexivity|assumption].
  - unfold py_add in H. destruct f as [a1|], g as [b1|]; try (apply Ok_inj in H; injection H as -> ->; reflexivity).
    destruct (as_tree st (Some a1)) as [t1|]; [|apply Ok_inj in H; injection H as -> ->; reflexivity]. destruct (as_tree st (Some b1)) as [t2|]; [|apply Ok_inj in H; injection H as -> ->; reflexivity].
    destruct (compound_parameters _) as [par| | |]; try discriminate. cbn [bind] in H. apply Ok_inj in H. injection H as -> ->. apply value_push; [assumption|reflexivity|assumption].
  - unfold py_mult in H. destruct f as [a1|], g as [b1|]; try (apply Ok_inj in H; injection H as -> ->; reflexivity).
    destruct (as_tree st (Some a1)) as [t1|]; [|apply Ok_inj in H; injection H as -> ->; reflexivity]. destruct (as_tree st (Some b1)) as [t2|]; [|apply Ok_inj in H; injection H as -> ->; reflexivity].
    apply Ok_inj in H. injection H as -> ->. apply value_push; [assumption|reflexivity|assumption].
  - apply (value_frame junk st st2 (Some a) Hr (set_inv _ _ _ _ H) Hp).
Qed.
Lemma set_value_frame junk st f v st' g x : reachable st -> py_set st f v = Ok st' -> (forall b, In b (parts st g) -> ~ In b (parts st f)) -> py_value junk st' g x = py_value junk st g x.
Proof.
  intros Hr H D. pose proof (good_reachable _ Hr) as G. apply value_frame; [assumption|apply (set_inv _ _ _ _ H)|]. intros b Hb.
  destruct (as_tree st f) as [t|] eqn:Et.
  - destruct (Nat.eq_dec (length v) (total_size (size_of st) (parts st f))) as [Hv|Hv].
    + destruct (set_effect st f v G (ex_intro _ t Et) Hv) as (st2 & E & _ & F & _). rewrite E in H. apply Ok_inj in H. subst st2. apply F. apply D. assumption.
    + rewrite (set_other_size st f v G Hv) in H. apply Ok_inj in H. subst. reflexivity.
  - assert (E : py_set st f v = Ok st) by (unfold py_set; destruct f; [rewrite Et|]; reflexivity). rewrite E in H. apply Ok_inj in H. subst. reflexivity.
Qed.
Lemma sum_defined junk par t1 t2 x x1 x2 v1 v2 : child_point junk x (in_param par) (par_of t1) = Ok x1 -> child_point junk x (in_param par) (par_of t2) = Ok x2 ->
  value junk t1 x1 = Ok v1 -> value junk t2 x2 = Ok v2 -> length v1 = dimY par -> length v2 = dimY par ->
  exists v, value junk (Compound par [(false, t1); (false, t2)]) x = Ok v.
Proof.
  intros C1 C2 V1 V2 L1 L2. cbn [value value_loop snd]. rewrite C1. cbn [bind]. rewrite V1. cbn [bind]. unfold add_checked at 1. rewrite repeat_length, L1, Nat.eqb_refl. cbn [bind].
  rewrite C2. cbn [bind]. rewrite V2. cbn [bind]. unfold add_checked. rewrite vadd_len, repeat_length, L1, L2, Nat.min_id, Nat.eqb_refl. cbn [bind]. eauto.
Qed.

(** Function trees: the Jacobian is the gradient (C27). *)
From Coq Require Import Reals List Lia Lra.
From Verif Require Import Base ParamsModel GeoModel CommonModel CommonProofs FuncModel FuncSpec FuncProofs.
Open Scope R_scope.

(** ** Loops *)
Lemma for_inv {S} (Inv : nat -> S -> Prop) (body : nat -> S -> outcome S) n : forall k,
  (forall i s, (k <= i < k + n)%nat -> Inv i s -> exists s', body i s = Ok s' /\ Inv (Datatypes.S i) s') ->
  forall s, Inv k s -> exists s', for_ n k body s = Ok s' /\ Inv (k + n)%nat s'.
Proof.
  induction n as [|n IH]; intros k H s Hs; cbn [for_].
  - exists s. rewrite Nat.add_0_r. auto.
  - destruct (H k s ltac:(lia) Hs) as (s1 & E & H1). rewrite E. cbn [bind].
    destruct (IH (Datatypes.S k) ltac:(intros; apply H; [lia|assumption]) s1 H1) as (s2 & E2 & H2).
    exists s2. split; [assumption|]. replace (k + Datatypes.S n)%nat with (Datatypes.S k + n)%nat by lia. assumption.
Qed.

Lemma for_write n (L : nat) (g : nat -> nat) (h : nat -> R) body (j : list R) :
  (forall i s, (i < n)%nat -> length s = L -> body i s = wr s (g i) (h i)) ->
  (forall i, (i < n)%nat -> (g i < L)%nat) ->
  (forall a b, (a < n)%nat -> (b < n)%nat -> g a = g b -> a = b) -> length j = L ->
  exists j', for_ n 0 body j = Ok j' /\ length j' = L /\
    (forall i, (i < n)%nat -> nth (g i) j' 0 = h i) /\
    (forall q, (forall i, (i < n)%nat -> g i <> q) -> nth q j' 0 = nth q j 0).
Proof.
  intros Hb Hg Hi Hl.
  destruct (for_inv (fun k s => length s = L /\ (forall i, (i < k)%nat -> nth (g i) s 0 = h i) /\
     (forall q, (forall i, (i < k)%nat -> g i <> q) -> nth q s 0 = nth q j 0)) body n 0) with (s := j) as (j' & E & I).
  - intros i s Hk (I1 & I2 & I3). rewrite Hb by (auto; lia). unfold wr. rewrite I1.
    destruct (Nat.ltb_spec (g i) L) as [Hlt|Hge]; [|specialize (Hg i ltac:(lia)); lia].
    eexists. split; [reflexivity|]. split; [rewrite upd_length; assumption|]. split.
    + intros a Ha. rewrite nth_upd, I1. destruct (Nat.eqb_spec (g i) (g a)) as [Eg|Ng].
      * apply Hi in Eg; [|lia|lia]. subst a. cbn [andb]. destruct (Nat.ltb_spec (g i) L); [reflexivity|lia].
      * cbn [andb]. apply I2. destruct (Nat.eq_dec a i) as [->|]; [congruence|lia].
    + intros q Hq. rewrite nth_upd. destruct (Nat.eqb_spec (g i) q) as [Eg|Ng]; [exfalso; exact (Hq i ltac:(lia) Eg)|].
      cbn [andb]. apply I3. intros a Ha. apply Hq. lia.
  - split; [assumption|]. split; [intros; lia|reflexivity].
  - cbn in I. exists j'. tauto.
Qed.

(** ** Evaluation *)
Section Junk.
Variable junk : R.
Notation value := (value junk).
Notation jacobian := (jacobian junk).
Notation child_point := (child_point junk).

(** the points handed to the sub-functions can all be computed *)
Fixpoint evaluable (t : tree) (x : mem) : Prop :=
  match t with
  | Leaf _ _ => True
  | Compound par fs => fold_right (fun (f : bool * tree) P =>
      (exists x', child_point x (in_param par) (par_of (snd f)) = Ok x' /\ evaluable (snd f) x') /\ P) True fs
  | Product par _ _ f1 f2 =>
      (exists x', child_point x (in_param par) (par_of f1) = Ok x' /\ evaluable f1 x') /\
      (exists x', child_point x (in_param par) (par_of f2) = Ok x' /\ evaluable f2 x')
  end.
Definition evaluable_fs par (x : mem) (fs : list (bool * tree)) : Prop := fold_right (fun (f : bool * tree) P =>
      (exists x', child_point x (in_param par) (par_of (snd f)) = Ok x' /\ evaluable (snd f) x') /\ P) True fs.

Lemma vadd_length a : forall b, length a = length b -> length (vadd a b) = length a.
Proof. induction a as [|x a IH]; intros [|y b] H; try discriminate; [reflexivity|]. simpl in *. rewrite IH; congruence. Qed.
Lemma vadd_nth a : forall b i, length a = length b -> nth i (vadd a b) 0 = nth i a 0 + nth i b 0.
Proof.
  induction a as [|x a IH]; intros [|y b] [|i] H; try discriminate; simpl in *; try lra. apply IH. congruence.
Qed.

Lemma product_component a b d y : length a = d -> length b = d -> (y < d)%nat ->
  exists v, product Rmult a b = Ok v /\ length v = d /\ nth y v 0 = nth y a 0 * nth y b 0.
Proof.
  intros Ha Hb Hy. destruct (Nat.eq_dec d 1) as [->|Hd].
  - destruct a as [|s [|]]; try discriminate. destruct b as [|t [|]]; try discriminate.
    eexists. split; [reflexivity|]. split; [reflexivity|]. destruct y; [|lia]. cbn. ring.
  - destruct (product_same_size Rmult a b ltac:(congruence) ltac:(congruence)) as (v & E & L & N).
    exists v. split; [assumption|]. split; [congruence|].
    destruct (nth_error a y) as [p|] eqn:Ea; [|apply nth_error_None in Ea; lia].
    destruct (nth_error b y) as [q|] eqn:Eb; [|apply nth_error_None in Eb; lia].
    rewrite (nth_error_nth _ _ 0 (N y p q Ea Eb)), (nth_error_nth _ _ 0 Ea), (nth_error_nth _ _ 0 Eb). reflexivity.
Qed.
Lemma product_ok a b d : length a = d -> length b = d -> exists v, product Rmult a b = Ok v /\ length v = d.
Proof.
  intros Ha Hb. destruct (Nat.eq_dec d 1) as [->|Hd].
  - destruct a as [|s [|]]; try discriminate. destruct b as [|t [|]]; try discriminate. eexists. split; reflexivity.
  - destruct (product_same_size Rmult a b ltac:(congruence) ltac:(congruence)) as (v & E & L & N). exists v. split; [assumption|congruence].
Qed.

(** the sum over the sub-functions of a compound, component [y] *)
Definition fs_sum par (x : mem) (y : nat) (fs : list (bool * tree)) : R :=
  fold_right (fun (f : bool * tree) acc =>
    component (do x' <- child_point x (in_param par) (par_of (snd f)); value (snd f) x') y + acc) 0 fs.

Lemma value_loop_spec par x fs : ok_fs par fs -> evaluable_fs par x fs ->
  Forall (fun f => forall x, tree_ok (snd f) -> evaluable (snd f) x -> exists v, value (snd f) x = Ok v /\ length v = dimY (par_of (snd f))) fs ->
  forall res, length res = dimY par ->
  exists v, value_loop junk value par x fs res = Ok v /\ length v = dimY par /\
    forall y, nth y v 0 = nth y res 0 + fs_sum par x y fs.
Proof.
  intros Hok Hev IH. induction IH as [|[b f] fs Hf _ IHfs]; intros res Hr.
  - exists res. cbn. repeat split; auto. intros. lra.
  - destruct Hok as [[H1 H2] H3]. destruct Hev as [(x' & Ex & Hx) H4]. cbn [fst snd] in *.
    destruct (Hf x' H1 Hx) as (v & Ev & Lv). cbn [value_loop snd]. rewrite Ex. cbn [bind]. rewrite Ev. cbn [bind].
    unfold add_checked. destruct (Nat.eqb_spec (length res) (length v)) as [El|]; [|lia]. cbn [bind].
    destruct (IHfs H3 H4 (vadd res v)) as (r & Er & Lr & Nr); [rewrite vadd_length; congruence|].
    exists r. split; [assumption|]. split; [assumption|]. intros y. rewrite Nr, vadd_nth by assumption.
    cbn [fs_sum fold_right snd]. fold (fs_sum par x y fs). rewrite Ex. cbn [bind]. rewrite Ev. cbn [component]. lra.
Qed.

Lemma value_spec : forall t x, tree_ok t -> evaluable t x -> exists v, value t x = Ok v /\ length v = dimY (par_of t).
Proof.
  induction t as [l p|par fs IH|par x1 x2 f1 f2 IH1 IH2] using tree_ind'; intros x Ht He.
  - eexists. split; [reflexivity|]. destruct Ht as (A & B & C & D). apply D. assumption.
  - destruct (value_loop_spec par x fs Ht He IH (repeat 0 (dimY par)) (repeat_length _ _)) as (v & E & L & _). exists v. auto.
  - destruct Ht as (H1 & H2 & H3 & H4). destruct He as [(p1 & E1 & V1) (p2 & E2 & V2)].
    destruct (IH1 p1 H1 V1) as (v1 & W1 & L1). destruct (IH2 p2 H2 V2) as (v2 & W2 & L2).
    cbn [FuncModel.value]. rewrite E1. cbn [bind]. rewrite W1. cbn [bind]. rewrite E2. cbn [bind]. rewrite W2. cbn [bind].
    cbn [par_of]. apply product_ok; congruence.
Qed.

Lemma value_evaluable : forall t x v, value t x = Ok v -> evaluable t x.
Proof.
  induction t as [l p|par fs IH|par x1 x2 f1 f2 IH1 IH2] using tree_ind'; intros x v H.
  - exact I.
  - cbn [FuncModel.value] in H. revert H. generalize (repeat 0 (dimY par)). cbn [evaluable].
    induction IH as [|f fs Hf _ IHfs]; intros res H; [exact I|]. cbn [value_loop] in H.
    destruct (child_point x (in_param par) (par_of (snd f))) as [x'| | |] eqn:E; try discriminate. cbn [bind] in H.
    destruct (value (snd f) x') as [w| | |] eqn:Ew; try discriminate. cbn [bind] in H.
    destruct (add_checked res w) as [r| | |]; try discriminate. cbn [bind] in H.
    cbn [fold_right]. split; [exists x'; rewrite E; split; [reflexivity|]; eapply Hf; eassumption|]. eapply IHfs. eassumption.
  - cbn [FuncModel.value] in H.
    destruct (child_point x (in_param par) (par_of f1)) as [p1| | |] eqn:E1; try discriminate. cbn [bind] in H.
    destruct (value f1 p1) as [v1| | |] eqn:W1; try discriminate. cbn [bind] in H.
    destruct (child_point x (in_param par) (par_of f2)) as [p2| | |] eqn:E2; try discriminate. cbn [bind] in H.
    destruct (value f2 p2) as [v2| | |] eqn:W2; try discriminate.
    split; [exists p1|exists p2]; [rewrite E1|rewrite E2]; split; try reflexivity; eauto.
Qed.

Lemma free_change_par : forall t t', free_change t t' -> par_of t' = par_of t.
Proof. intros t t' H. inversion H; reflexivity. Qed.
Lemma flagged_par b t t' : flagged_change b t t' -> par_of t' = par_of t.
Proof. intros H. inversion H; subst; [reflexivity|]. apply free_change_par. assumption. Qed.

Lemma free_change_evaluable : forall t t' x, free_change t t' -> evaluable t x -> evaluable t' x.
Proof.
  induction t as [l p|par fs IH|par x1 x2 f1 f2 IH1 IH2] using tree_ind'; intros t' x H He.
  - inversion H; subst. exact I.
  - inversion H as [|? ? gs Hg|]; subst. cbn [evaluable] in *. clear H. revert gs Hg.
    induction IH as [|[b f] fs Hf _ IHfs]; intros gs Hg.
    + inversion Hg; subst. exact I.
    + inversion Hg as [|? ? g ? gs' Hfl Hgs]; subst. destruct He as [(x' & Ex & Hx) He]. cbn [fold_right snd] in *.
      split; [|apply IHfs; assumption]. exists x'. rewrite (flagged_par _ _ _ Hfl). split; [assumption|].
      inversion Hfl; subst; [assumption|]. apply Hf; assumption.
  - inversion H as [| |? ? ? ? ? g1 g2 C1 C2]; subst. destruct He as [(p1 & E1 & V1) (p2 & E2 & V2)]. cbn [evaluable].
    rewrite (flagged_par _ _ _ C1), (flagged_par _ _ _ C2).
    split; [exists p1|exists p2]; (split; [assumption|]); [inversion C1|inversion C2]; subst; auto.
Qed.

(** ** Derivatives *)
Lemma derivable_ext f g a l : (forall s, f s = g s) -> derivable_pt_lim f a l -> derivable_pt_lim g a l.
Proof. intros E H eps He. destruct (H eps He) as [d Hd]. exists d. intros h Hh Hl. rewrite <- !E. auto. Qed.
Lemma derivable_shift f a l c : derivable_pt_lim f a l -> derivable_pt_lim (fun s => c + f s) a l.
Proof.
  intros H. replace l with (0 + l) by lra. apply (derivable_pt_lim_plus (fun _ => c) f); [apply derivable_pt_lim_const|assumption].
Qed.
Lemma derivable_mult_r f a l c : derivable_pt_lim f a l -> derivable_pt_lim (fun s => f s * c) a (l * c).
Proof.
  intros H. apply (derivable_ext (fun s => c * f s)); [intros; ring|]. rewrite Rmult_comm. exact (derivable_pt_lim_scal f c a l H).
Qed.

(** the function of one parameter *)
Definition along (t : tree) (x : mem) (y i : nat) (s : R) : R :=
  component (do t' <- set_parameters t (upd (flat cur t) i s); value t' x) y.
Definition gradient_at (t : tree) (x : mem) : Prop :=
  exists j, jacobian t x = Ok j /\ length j = (dimY (par_of t) * nb t)%nat /\
  forall y i, (y < dimY (par_of t))%nat -> (i < nb t)%nat ->
  derivable_pt_lim (along t x y i) (nth i (flat cur t) 0) (nth (y * nb t + i) j 0).

Definition D (t : tree) (x : mem) (y i : nat) : R := component (jacobian t x) (y * nb t + i).

(** columns of a compound's Jacobian, row [y] *)
Definition cols par (x : mem) (y : nat) (fs : list (bool * tree)) : list R :=
  flat_map (fun f : bool * tree => if fst f then [] else
    match child_point x (in_param par) (par_of (snd f)) with
    | Ok x' => map (D (snd f) x' y) (seq 0 (nb (snd f)))
    | _ => [] end) fs.

Lemma mul_add_lt y n i d : (y < d)%nat -> (i < n)%nat -> (y * n + i < n * d)%nat.
Proof. intros. nia. Qed.
Lemma mul_add_inj n y i y' i' : (i < n)%nat -> (i' < n)%nat -> (y * n + i = y' * n + i')%nat -> y = y' /\ i = i'.
Proof. intros H H' E. assert (y = y') by nia. subst. split; [reflexivity|]. lia. Qed.

Lemma rd_nth v i : (i < length v)%nat -> rd v i = Ok (nth i v 0).
Proof.
  intros H. unfold rd. destruct (nth_error v i) as [x|] eqn:E; [|apply nth_error_None in E; lia].
  rewrite (nth_error_nth _ _ 0 E). reflexivity.
Qed.

Lemma block_write n nbp d start fj jac : (0 < n)%nat -> (start + n <= nbp)%nat -> length fj = (d * n)%nat -> length jac = (nbp * d)%nat ->
  exists jac', for_ n 0 (fun i j => for_ d 0 (fun y j => do v <- rd fj (y * n + i); wr j (y * nbp + (i + start)) v) j) jac = Ok jac' /\
    length jac' = (nbp * d)%nat /\
    (forall y i, (y < d)%nat -> (i < n)%nat -> nth (y * nbp + (start + i)) jac' 0 = nth (y * n + i) fj 0) /\
    (forall y c, (y < d)%nat -> (c < start)%nat -> nth (y * nbp + c) jac' 0 = nth (y * nbp + c) jac 0).
Proof.
  intros Hn Hs Hf Hj.
  destruct (for_inv (fun k j => length j = (nbp * d)%nat /\
     (forall y i, (y < d)%nat -> (i < k)%nat -> nth (y * nbp + (start + i)) j 0 = nth (y * n + i) fj 0) /\
     (forall y c, (y < d)%nat -> (c < start)%nat -> nth (y * nbp + c) j 0 = nth (y * nbp + c) jac 0))
     (fun i j => for_ d 0 (fun y j => do v <- rd fj (y * n + i); wr j (y * nbp + (i + start)) v) j) n 0) with (s := jac) as (j' & E & I).
  - intros i j Hi (I1 & I2 & I3).
    destruct (for_write d (nbp * d)%nat (fun y => (y * nbp + (i + start))%nat) (fun y => nth (y * n + i) fj 0)
       (fun y j => do v <- rd fj (y * n + i); wr j (y * nbp + (i + start)) v) j) as (j' & E & L & W & U).
    + intros y s Hy _. rewrite rd_nth; [reflexivity|]. rewrite Hf. nia.
    + intros y Hy. nia.
    + intros a b Ha Hb Eab. apply (mul_add_inj nbp) in Eab; [tauto|lia|lia].
    + assumption.
    + exists j'. split; [assumption|]. split; [assumption|]. split.
      * intros y i' Hy Hi'. destruct (Nat.eq_dec i' i) as [->|Ne].
        -- rewrite (Nat.add_comm start i). apply W. assumption.
        -- rewrite U; [apply I2; [assumption|lia]|]. intros y' Hy' Eq. apply (mul_add_inj nbp) in Eq; lia.
      * intros y c Hy Hc. rewrite U; [apply I3; assumption|]. intros y' Hy' Eq. apply (mul_add_inj nbp) in Eq; lia.
  - split; [assumption|]. split; [intros; lia|reflexivity].
  - cbn in I. exists j'. tauto.
Qed.

Lemma cols_length par x y fs : evaluable_fs par x fs -> length (cols par x y fs) = nb_fs fs.
Proof.
  induction fs as [|[b f] fs IH]; intros He; [reflexivity|]. destruct He as [(x' & Ex & _) He]. cbn [fst snd] in *.
  cbn [cols flat_map fst snd nb_fs fold_right]. fold (cols par x y fs) (nb_fs fs). rewrite app_length, IH by assumption.
  destruct b; [reflexivity|]. rewrite Ex, map_length, seq_length. reflexivity.
Qed.

Lemma jac_loop_spec par x nbp fs : ok_fs par fs -> evaluable_fs par x fs ->
  Forall (fun f => forall x', child_point x (in_param par) (par_of (snd f)) = Ok x' -> gradient_at (snd f) x') fs ->
  forall start jac, (start + nb_fs fs <= nbp)%nat -> length jac = (nbp * dimY par)%nat ->
  exists j, jac_loop junk jacobian par nbp x fs start jac = Ok j /\ length j = (nbp * dimY par)%nat /\
    (forall y c, (y < dimY par)%nat -> (c < start)%nat -> nth (y * nbp + c) j 0 = nth (y * nbp + c) jac 0) /\
    (forall y c, (y < dimY par)%nat -> (c < nb_fs fs)%nat -> nth (y * nbp + (start + c)) j 0 = nth c (cols par x y fs) 0).
Proof.
  intros Hok Hev IH. induction IH as [|[b f] fs Hf _ IHfs]; intros start jac Hs Hj.
  - exists jac. cbn. repeat split; auto. intros; lia.
  - destruct Hok as [[H1 H2] H3]. destruct Hev as [(x' & Ex & Hx) H4]. cbn [fst snd] in *.
    cbn [jac_loop fst snd cols flat_map nb_fs fold_right] in *. fold (nb_fs fs) in *. fold (cols par x).
    destruct b; cbn [negb].
    { rewrite andb_false_r. cbn [app]. apply IHfs; assumption. }
    rewrite andb_true_r. destruct (Nat.ltb_spec 0 (nb f)) as [Hn|Hn].
    2: { assert (nb f = 0)%nat as E0 by lia. rewrite E0 in *. rewrite Ex. cbn [seq map app plus] in *. apply IHfs; assumption. }
    rewrite Ex. cbn [bind]. destruct (Hf x' Ex) as (fj & Ej & Lj & _). rewrite Ej. cbn [bind].
    rewrite H2 in Lj.
    destruct (block_write (nb f) nbp (dimY par) start fj jac Hn ltac:(lia) Lj Hj) as (jac' & Eb & Lb & Wb & Ub).
    rewrite Eb. cbn [bind].
    destruct (IHfs H3 H4 (start + nb f)%nat jac' ltac:(lia) Lb) as (j & Er & Lr & Ur & Wr).
    exists j. split; [assumption|]. split; [assumption|]. split.
    + intros y c Hy Hc. rewrite Ur by (auto; lia). apply Ub; assumption.
    + intros y c Hy Hc. destruct (Nat.lt_ge_cases c (nb f)) as [Hlt|Hge].
      * rewrite Ur by (auto; lia). rewrite Wb by assumption.
        rewrite app_nth1 by (rewrite map_length, seq_length; assumption).
        rewrite (nth_indep (map _ _) 0 (D f x' y 0)) by (rewrite map_length, seq_length; assumption).
        rewrite map_nth, seq_nth by assumption. unfold D. rewrite Ej. reflexivity.
      * rewrite app_nth2 by (rewrite map_length, seq_length; assumption). rewrite map_length, seq_length.
        fold (cols par x y fs). rewrite <- Wr by lia. f_equal. lia.
Qed.

(** moving one parameter of a compound moves one sub-function *)
Lemma compound_along par x y fs : ok_fs par fs -> evaluable_fs par x fs -> (y < dimY par)%nat ->
  Forall (fun f => forall x', child_point x (in_param par) (par_of (snd f)) = Ok x' -> gradient_at (snd f) x') fs ->
  forall i pre post, (i < nb_fs fs)%nat ->
  derivable_pt_lim (fun s => match set_loop set_parameters (pre ++ upd (flat_fs cur fs) i s ++ post) fs (length pre) with
                             | Ok gs => fs_sum par x y gs | _ => 0 end)
    (nth i (flat_fs cur fs) 0) (nth i (cols par x y fs) 0).
Proof.
  intros Hok Hev Hy IH. induction IH as [|[b f] fs Hf HF IHfs]; intros i pre post Hi; [cbn in Hi; lia|].
  destruct Hok as [[H1 H2] H3]. pose proof Hev as [(x' & Ex & Hx) H4]. cbn [fst snd] in *.
  cbn [set_loop fst snd cols flat_map nb_fs fold_right flat_fs] in *. fold (nb_fs fs) in *. fold (cols par x y fs). fold (flat_fs cur fs).
  pose proof (flat_length cur sel_cur f H1) as Lf.
  set (c0 := component (do x'0 <- child_point x (in_param par) (par_of f); value f x'0) y).
  assert (Skip : (if b then 0 else nb f)%nat = 0%nat ->
     derivable_pt_lim (fun s => match (do r <- set_loop set_parameters (pre ++ upd (flat_fs cur fs) i s ++ post) fs (length pre); Ok ((b, f) :: r)) with
       | Ok gs => fs_sum par x y gs | _ => 0 end) (nth i (flat_fs cur fs) 0) (nth i (cols par x y fs) 0)).
  { intros E. specialize (IHfs H3 H4 i pre post ltac:(lia)). apply (derivable_shift _ _ _ c0) in IHfs.
    eapply derivable_ext; [|exact IHfs]. intros s. cbn beta.
    destruct (set_loop_spec par fs H3 ltac:(eapply Forall_impl; [|exact HF]; intros; apply set_spec; assumption) pre (upd (flat_fs cur fs) i s) post) as (gs & Eg & _).
    { rewrite upd_length. eapply flat_fs_length; [exact sel_cur|eassumption]. }
    rewrite Eg. cbn [bind]. reflexivity. }
  destruct b; cbn [negb].
  { rewrite andb_false_r. cbn [app]. apply Skip. reflexivity. }
  rewrite andb_true_r. destruct (Nat.ltb_spec 0 (nb f)) as [Hn|Hn].
  2: { assert (nb f = 0)%nat as E0 by lia. assert (flat cur f = []) as EF by (destruct (flat cur f); [reflexivity|simpl in Lf; lia]).
       rewrite EF, Ex, E0. cbn [seq map app]. apply Skip. assumption. }
  clear Skip. rewrite Ex.
  destruct (Nat.lt_ge_cases i (nb f)) as [Hlt|Hge].
  - (* the parameter belongs to this function *)
    rewrite (app_nth1 (flat cur f)) by lia. rewrite (app_nth1 (map _ _)) by (rewrite map_length, seq_length; assumption).
    rewrite (nth_indep (map _ _) 0 (D f x' y 0)) by (rewrite map_length, seq_length; assumption).
    rewrite map_nth, seq_nth by assumption. cbn [plus].
    destruct (Hf x' Ex) as (fj & Ej & Lj & Gf). unfold D. rewrite Ej. cbn [component].
    specialize (Gf y i ltac:(rewrite H2; assumption) Hlt).
    apply (derivable_shift _ _ _ (fs_sum par x y fs)) in Gf. eapply derivable_ext; [|exact Gf].
    intros s. cbn beta. rewrite upd_app_l by lia. rewrite <- app_assoc.
    rewrite (slice_spec' (upd (flat cur f) i s) _ _ (nb f)) by (rewrite upd_length; assumption). cbn [bind].
    destruct (set_spec f (upd (flat cur f) i s) H1 ltac:(rewrite upd_length; assumption)) as (g & Eg & (S1 & _ & _) & _ & _).
    unfold along. rewrite Eg. cbn [bind].
    assert (Es : set_loop set_parameters (pre ++ upd (flat cur f) i s ++ flat_fs cur fs ++ post) fs (length pre + nb f) = Ok fs).
    { pose proof (set_same (Compound par fs) H3) as _.
      replace (length pre + nb f)%nat with (length (pre ++ upd (flat cur f) i s)) by (rewrite app_length, upd_length; lia).
      rewrite app_assoc. clear - H3. generalize (pre ++ upd (flat cur f) i s) as pr. intros pr. revert pr.
      induction fs as [|[x f'] fs IHl]; intros pr; [reflexivity|].
      destruct H3 as [[K1 K2] K3]. cbn [fst snd] in *. cbn [set_loop fst snd flat_fs flat_map]. fold (flat_fs cur fs).
      pose proof (flat_length cur sel_cur f' K1) as Lf'.
      destruct x; cbn [negb andb].
      - rewrite andb_false_r. cbn [app]. rewrite IHl by assumption. reflexivity.
      - rewrite andb_true_r. destruct (Nat.ltb_spec 0 (nb f')) as [Hn'|Hn'].
        + rewrite <- app_assoc. rewrite (slice_spec' (flat cur f') _ _ (nb f')) by assumption. cbn [bind]. rewrite set_same by assumption. cbn [bind].
          specialize (IHl K3 (pr ++ flat cur f')). rewrite app_length, Lf' in IHl. rewrite <- app_assoc in IHl.
          rewrite IHl. reflexivity.
        + assert (flat cur f' = []) as E by (destruct (flat cur f'); [reflexivity|simpl in Lf'; lia]).
          rewrite E. cbn [app]. rewrite IHl by assumption. reflexivity. }
    rewrite Es. cbn [bind fs_sum fold_right snd]. rewrite S1, Ex. cbn [bind]. fold (fs_sum par x y fs). lra.
  - (* it belongs to a later one *)
    rewrite (app_nth2 (flat cur f)) by lia. rewrite (app_nth2 (map _ _)) by (rewrite map_length, seq_length; assumption). rewrite map_length, seq_length, Lf.
    specialize (IHfs H3 H4 (i - nb f)%nat (pre ++ flat cur f) post ltac:(lia)).
    apply (derivable_shift _ _ _ c0) in IHfs. eapply derivable_ext; [|exact IHfs]. intros s. cbn beta.
    assert (U : upd (flat cur f ++ flat_fs cur fs) i s = flat cur f ++ upd (flat_fs cur fs) (i - nb f) s).
    { rewrite <- upd_app_r. f_equal. lia. }
    rewrite U.
    rewrite <- !app_assoc. rewrite (slice_spec' (flat cur f) _ _ (nb f)) by assumption. cbn [bind]. rewrite set_same by assumption. cbn [bind].
    rewrite app_length, Lf.
    destruct (set_loop_spec par fs H3 ltac:(eapply Forall_impl; [|exact HF]; intros; apply set_spec; assumption)
      (pre ++ flat cur f) (upd (flat_fs cur fs) (i - nb f) s) post) as (gs & Eg & _).
    { rewrite upd_length. eapply flat_fs_length; [exact sel_cur|eassumption]. }
    rewrite app_length, Lf in Eg. rewrite <- app_assoc in Eg. rewrite Eg. cbn [bind]. reflexivity.
Qed.

Lemma compound_gradient par fs x :
  Forall (fun f => forall x', child_point x (in_param par) (par_of (snd f)) = Ok x' -> gradient_at (snd f) x') fs ->
  tree_ok (Compound par fs) -> evaluable (Compound par fs) x -> gradient_at (Compound par fs) x.
Proof.
  intros IH Ht He.
  destruct (jac_loop_spec par x (nb_fs fs) fs Ht He IH 0 (repeat 0 (nb_fs fs * dimY par)) (le_n _) (repeat_length _ _)) as (j & Ej & Lj & _ & Wj).
  exists j. split; [exact Ej|]. split; [cbn [nb par_of]; fold (nb_fs fs); lia|].
  intros y i Hy Hi. cbn [par_of nb] in *. fold (nb_fs fs) in *.
  specialize (Wj y i Hy Hi). cbn [plus] in Wj. rewrite Wj.
  pose proof (compound_along par x y fs Ht He Hy IH i [] [] Hi) as G. cbn [app length] in G.
  eapply derivable_ext; [|exact G]. intros s. cbn beta. rewrite app_nil_r.
  unfold along. cbn [set_parameters flat]. fold (flat_fs cur fs).
  destruct (set_loop_spec par fs Ht ltac:(eapply Forall_impl; [|exact IH]; intros; apply set_spec; assumption) [] (upd (flat_fs cur fs) i s) []) as (gs & Eg & O1 & _ & _ & C).
  { rewrite upd_length. eapply flat_fs_length; [exact sel_cur|exact Ht]. }
  rewrite app_nil_r in Eg. cbn [app length] in Eg. rewrite Eg. cbn [bind FuncModel.value].
  assert (He' : evaluable_fs par x gs) by (apply (free_change_evaluable (Compound par fs) (Compound par gs) x); [constructor; assumption|assumption]).
  destruct (value_loop_spec par x gs O1 He' ltac:(apply Forall_forall; intros; apply value_spec; assumption) (repeat 0 (dimY par)) (repeat_length _ _)) as (v & Ev & Lv & Nv).
  rewrite Ev. cbn [component]. rewrite Nv. rewrite nth_repeat. lra.
Qed.

(** ** Products *)
Lemma row_write n nbp d y off src (w : list R) pos jac : (y < d)%nat -> (off + n <= nbp)%nat -> length src = (d * n)%nat -> length w = d ->
  length jac = (nbp * d)%nat -> (forall i, pos i = (y * nbp + (off + i))%nat) ->
  exists jac', for_ n 0 (fun i j => do a <- rd src (y * n + i); do b <- rd w y; wr j (pos i) (a * b)) jac = Ok jac' /\
    length jac' = (nbp * d)%nat /\
    (forall i, (i < n)%nat -> nth (y * nbp + (off + i)) jac' 0 = nth (y * n + i) src 0 * nth y w 0) /\
    (forall y' c, (c < nbp)%nat -> (y' <> y \/ c < off \/ off + n <= c)%nat -> nth (y' * nbp + c) jac' 0 = nth (y' * nbp + c) jac 0).
Proof.
  intros Hy Ho Hs Hw Hj Hp.
  destruct (for_write n (nbp * d)%nat pos (fun i => nth (y * n + i) src 0 * nth y w 0)
     (fun i j => do a <- rd src (y * n + i); do b <- rd w y; wr j (pos i) (a * b)) jac) as (j' & E & L & W & U).
  - intros i s Hi _. rewrite rd_nth by (rewrite Hs; nia). cbn [bind]. rewrite rd_nth by lia. reflexivity.
  - intros i Hi. rewrite Hp. nia.
  - intros a b Ha Hb. rewrite !Hp. lia.
  - assumption.
  - exists j'. split; [assumption|]. split; [assumption|]. split.
    + intros i Hi. rewrite <- Hp. apply W. assumption.
    + intros y' c Hc Hn. apply U. intros i Hi Eq. rewrite Hp in Eq. apply (mul_add_inj nbp) in Eq; lia.
Qed.

Lemma product_gradient par x1 x2 f1 f2 x :
  (forall x', child_point x (in_param par) (par_of f1) = Ok x' -> gradient_at f1 x') ->
  (forall x', child_point x (in_param par) (par_of f2) = Ok x' -> gradient_at f2 x') ->
  tree_ok (Product par x1 x2 f1 f2) -> evaluable (Product par x1 x2 f1 f2) x -> gradient_at (Product par x1 x2 f1 f2) x.
Proof.
  intros IH1 IH2 (H1 & H2 & D1 & D2) [(p1 & E1 & V1) (p2 & E2 & V2)].
  destruct (IH1 p1 E1) as (j1 & J1 & LJ1 & G1). destruct (IH2 p2 E2) as (j2 & J2 & LJ2 & G2).
  destruct (value_spec f1 p1 H1 V1) as (v1 & W1 & L1). destruct (value_spec f2 p2 H2 V2) as (v2 & W2 & L2).
  rewrite D1 in *. rewrite D2 in *.
  pose proof (flat_length cur sel_cur f1 H1) as F1. pose proof (flat_length cur sel_cur f2 H2) as F2.
  set (d := dimY par) in *. set (n1 := nb f1) in *. set (n2 := nb f2) in *.
  set (m1 := (if x1 then 0 else n1)%nat). set (m2 := (if x2 then 0 else n2)%nat).
  set (nbp := (m1 + m2)%nat).
  assert (Jac : exists j, jacobian (Product par x1 x2 f1 f2) x = Ok j /\ length j = (nbp * d)%nat /\
    forall y, (y < d)%nat -> (forall i, (i < m1)%nat -> nth (y * nbp + i) j 0 = nth (y * n1 + i) j1 0 * nth y v2 0) /\
                             (forall i, (i < m2)%nat -> nth (y * nbp + (m1 + i)) j 0 = nth (y * n2 + i) j2 0 * nth y v1 0)).
  { cbn [FuncModel.jacobian]. rewrite E2. cbn [bind]. rewrite E1. cbn [bind]. rewrite W1. cbn [bind]. rewrite W2. cbn [bind].
    rewrite J1. cbn [bind]. rewrite J2. cbn [bind]. fold n1 n2 d.
    change (nb (Product par x1 x2 f1 f2)) with nbp.
    match goal with |- context[for_ d 0 ?b ?s0] =>
      destruct (for_inv (fun k j => length j = (nbp * d)%nat /\ forall y, (y < k)%nat ->
        (forall i, (i < m1)%nat -> nth (y * nbp + i) j 0 = nth (y * n1 + i) j1 0 * nth y v2 0) /\
        (forall i, (i < m2)%nat -> nth (y * nbp + (m1 + i)) j 0 = nth (y * n2 + i) j2 0 * nth y v1 0)) b d 0) with (s := s0) as (j & Ej & Ij) end.
    - intros y jac Hy (I1 & I2).
      assert (A : exists jac1, (if x1 then Ok jac else
           for_ n1 0 (fun i j => do a <- rd j1 (y * n1 + i); do b <- rd v2 y; wr j (y * nbp + i) (a * b)) jac) = Ok jac1 /\
           length jac1 = (nbp * d)%nat /\ (forall i, (i < m1)%nat -> nth (y * nbp + i) jac1 0 = nth (y * n1 + i) j1 0 * nth y v2 0) /\
           (forall y' c, (c < nbp)%nat -> (y' <> y)%nat -> nth (y' * nbp + c) jac1 0 = nth (y' * nbp + c) jac 0)).
      { unfold m1 in *. destruct x1.
        - exists jac. repeat split; auto. intros; lia.
        - destruct (row_write n1 nbp d y 0 j1 v2 (fun i => (y * nbp + i)%nat) jac) as (q & Q1 & Q2 & Q3 & Q4); try assumption; try lia.
          exists q. repeat split; auto. }
      destruct A as (jac1 & A1 & A2 & A3 & A4). rewrite A1. cbn [bind].
      assert (B : exists jac2, (if x2 then Ok jac1 else
           for_ n2 0 (fun i j => do a <- rd j2 (y * n2 + i); do b <- rd v1 y; wr j (y * nbp + (if x1 then i else i + n1)) (a * b)) jac1) = Ok jac2 /\
           length jac2 = (nbp * d)%nat /\ (forall i, (i < m2)%nat -> nth (y * nbp + (m1 + i)) jac2 0 = nth (y * n2 + i) j2 0 * nth y v1 0) /\
           (forall i, (i < m1)%nat -> nth (y * nbp + i) jac2 0 = nth (y * nbp + i) jac1 0) /\
           (forall y' c, (c < nbp)%nat -> (y' <> y)%nat -> nth (y' * nbp + c) jac2 0 = nth (y' * nbp + c) jac1 0)).
      { unfold m2 in *. destruct x2.
        - exists jac1. repeat split; auto. intros; lia.
        - destruct (row_write n2 nbp d y m1 j2 v1 (fun i => (y * nbp + (if x1 then i else i + n1))%nat) jac1) as (q & Q1 & Q2 & Q3 & Q4); try assumption; try lia.
          { intros i. unfold m1. destruct x1; lia. }
          exists q. repeat split; auto. intros i Hi. apply Q4; lia. }
      destruct B as (jac2 & B1 & B2 & B3 & B4 & B5). exists jac2. split; [exact B1|]. split; [assumption|].
      intros y' Hy'. destruct (Nat.eq_dec y' y) as [->|Ne].
      + split; [|assumption]. intros i Hi. rewrite B4, A3 by assumption. reflexivity.
      + destruct (I2 y' ltac:(lia)) as [K1 K2]. split; intros i Hi.
        * rewrite B5, A4 by (assumption || lia). apply K1. assumption.
        * rewrite B5, A4 by (assumption || lia). apply K2. assumption.
    - split; [apply repeat_length|]. intros; lia.
    - cbn in Ij. exists j. split; [exact Ej|]. assumption. }
  destruct Jac as (j & Ej & Lj & Wj). exists j. split; [exact Ej|]. cbn [par_of nb]. fold d n1 n2 m1 m2 nbp.
  split; [rewrite Nat.mul_comm; assumption|].
  intros y i Hy Hi. destruct (Wj y Hy) as [K1 K2].
  (* the value along the line *)
  cbn [flat]. set (a1 := if x1 then [] else flat cur f1). set (a2 := if x2 then [] else flat cur f2).
  assert (La1 : length a1 = m1) by (unfold a1, m1; destruct x1; [reflexivity|assumption]).
  assert (La2 : length a2 = m2) by (unfold a2, m2; destruct x2; [reflexivity|assumption]).
  assert (Val : forall g1 g2 w1 w2, par_of g1 = par_of f1 -> par_of g2 = par_of f2 -> value g1 p1 = Ok w1 -> value g2 p2 = Ok w2 ->
     length w1 = d -> length w2 = d -> component (value (Product par x1 x2 g1 g2) x) y = nth y w1 0 * nth y w2 0).
  { intros g1 g2 w1 w2 Pg1 Pg2 Q1 Q2 Q3 Q4. cbn [FuncModel.value]. rewrite Pg1, Pg2, E1. cbn [bind]. rewrite Q1. cbn [bind]. rewrite E2. cbn [bind]. rewrite Q2. cbn [bind].
    destruct (product_component w1 w2 d y Q3 Q4 Hy) as (v & Ep & _ & Nv). rewrite Ep. exact Nv. }
  destruct (Nat.lt_ge_cases i m1) as [Hlt|Hge].
  - assert (x1 = false) as X1 by (destruct x1; [unfold m1 in Hlt; lia|reflexivity]). subst x1.
    rewrite app_nth1 by lia. rewrite K1 by assumption. cbn in m1. subst m1.
    apply (derivable_ext (fun s => along f1 p1 y i s * nth y v2 0)).
    2: { apply derivable_mult_r. apply G1; assumption. }
    intros s. unfold along. cbn [set_parameters flat]. fold a1 a2. fold n1.
    rewrite upd_app_l by lia.
    destruct (set_spec f1 (upd (flat cur f1) i s) H1 ltac:(rewrite upd_length; assumption)) as (g1 & Eg & (S1 & S2 & S3) & _ & C1).
    pose proof (slice_spec' (upd a1 i s) [] a2 n1 ltac:(rewrite upd_length; assumption)) as SL. cbn [app length] in SL. rewrite SL. cbn [bind].
    unfold a1. rewrite Eg. cbn [bind].
    destruct (value_spec g1 p1 S3 (free_change_evaluable _ _ _ C1 V1)) as (w1 & Ew1 & Lw1).
    rewrite S1, D1 in Lw1. rewrite Ew1. cbn [component].
    assert (Es : (if x2 then Ok f2 else do q <- slice (upd (flat cur f1) i s ++ a2) n1 (nb f2); set_parameters f2 q) = Ok f2).
    { unfold a2. destruct x2; [reflexivity|]. pose proof (slice_spec' (flat cur f2) (upd (flat cur f1) i s) [] (nb f2) F2) as SL2.
      rewrite upd_length, F1, app_nil_r in SL2. fold n1 in SL2. rewrite SL2. cbn [bind]. apply set_same. assumption. }
    rewrite Es. cbn [bind]. symmetry. apply (Val g1 f2 w1 v2); auto.
  - assert (x2 = false) as X2 by (destruct x2; [unfold nbp, m2 in Hi; lia|reflexivity]). subst x2.
    rewrite app_nth2 by lia. rewrite La1.
    specialize (K2 (i - m1)%nat ltac:(unfold nbp in Hi; lia)). replace (m1 + (i - m1))%nat with i in K2 by lia. rewrite K2.
    cbn in m2. subst m2.
    apply (derivable_ext (fun s => along f2 p2 y (i - m1) s * nth y v1 0)).
    2: { apply derivable_mult_r. apply G2; [assumption|unfold nbp in Hi; lia]. }
    intros s. unfold along. cbn [set_parameters flat]. fold a1 a2. fold n1. fold m1.
    assert (U : upd (a1 ++ a2) i s = a1 ++ upd a2 (i - m1) s) by (rewrite <- upd_app_r; f_equal; lia). rewrite U.
    destruct (set_spec f2 (upd (flat cur f2) (i - m1) s) H2 ltac:(rewrite upd_length; assumption)) as (g2 & Eg & (S1 & S2 & S3) & _ & C2).
    destruct (value_spec g2 p2 S3 (free_change_evaluable _ _ _ C2 V2)) as (w2 & Ew2 & Lw2).
    rewrite S1, D2 in Lw2.
    assert (Es : (if x1 then Ok f1 else do q <- slice (a1 ++ upd a2 (i - m1) s) 0 m1; set_parameters f1 q) = Ok f1).
    { unfold a1. destruct x1; [reflexivity|]. pose proof (slice_spec' (flat cur f1) [] (upd a2 (i - m1) s) n1 F1) as SL.
      cbn [app length] in SL.
      match goal with |- context[slice ?a ?b ?c] => change (slice a b c) with (slice (flat cur f1 ++ upd a2 (i - m1) s) 0 n1) end. rewrite SL. cbn [bind]. apply set_same. assumption. }
    rewrite Es. cbn [bind].
    pose proof (slice_spec' (upd a2 (i - m1) s) a1 [] n2 ltac:(rewrite upd_length; assumption)) as SL. rewrite app_nil_r, La1 in SL.
    fold n2. rewrite SL. cbn [bind]. unfold a2. rewrite Eg. cbn [bind]. rewrite Ew2. cbn [component].
    rewrite (Val f1 g2 v1 w2) by auto. ring.
Qed.

Theorem tree_gradient : forall t x, tree_ok t -> leaves_gradient junk t x -> evaluable t x -> gradient_at t x.
Proof.
  intros t. induction t as [l p|par fs IH|par x1 x2 f1 f2 IH1 IH2] using tree_ind'; intros x Ht Hg He.
  - destruct Ht as (A & B & C & HD). exists (lf_jac l p x). split; [reflexivity|]. split; [apply HD; assumption|].
    intros y i Hy Hi. exact (Hg y i Hy Hi).
  - apply compound_gradient; [|assumption|assumption].
    cbn [leaves_gradient tree_ok evaluable] in Hg, Ht, He. clear - IH Hg Ht He. induction IH as [|f fs Hf _ IHfs]; [constructor|].
    destruct Hg as [Hg1 Hg2]. destruct Ht as [[Ht1 _] Ht2]. destruct He as [(x' & Ex & He1) He2].
    constructor; [|apply IHfs; assumption]. intros z Ez. rewrite Ez in Ex. apply Ok_inj in Ex. subst z. apply Hf; auto.
  - destruct Hg as [Hg1 Hg2]. destruct Ht as (T1 & T2 & T3 & T4). destruct He as [(p1 & E1 & V1) (p2 & E2 & V2)].
    apply product_gradient.
    + intros z Ez. rewrite Ez in E1. apply Ok_inj in E1. subst z. auto.
    + intros z Ez. rewrite Ez in E2. apply Ok_inj in E2. subst z. auto.
    + repeat split; assumption.
    + split; eauto.
Qed.
End Junk.

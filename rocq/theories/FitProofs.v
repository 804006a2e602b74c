(** Non linear fitters: proofs. *)
From Coq Require Import Reals List Lia Lra.
From Verif Require Import Base ParamsModel GeoModel CommonModel CommonProofs TextModel NlModel NlMoreModel NlSpec NlProofs NlGrad NlLobes FuncModel FuncSpec FuncProofs FuncJac FitModel FitSpec.
Open Scope R_scope.

(** ** Setting parameters again *)
Lemma free_change_nb : forall t t', free_change t t' -> nb t' = nb t.
Proof.
  induction t as [l p|par fs IH|par x1 x2 f1 f2 IH1 IH2] using tree_ind'; intros t' H.
  - inversion H; subst. reflexivity.
  - inversion H as [|? ? gs Hg|]; subst. cbn [nb]. clear H. revert gs Hg. induction IH as [|[b f] fs Hf _ IHfs]; intros gs Hg.
    + inversion Hg; subst. reflexivity.
    + inversion Hg as [|? ? g ? gs' Hfl Hgs]; subst. cbn [fold_right fst snd]. rewrite (IHfs gs' Hgs).
      inversion Hfl; subst; [reflexivity|]. cbn [snd] in Hf. rewrite Hf by assumption. reflexivity.
  - inversion H as [| |? ? ? ? ? g1 g2 C1 C2]; subst. cbn [nb].
    inversion C1; inversion C2; subst; rewrite ?(IH1 g1), ?(IH2 g2) by assumption; reflexivity.
Qed.

Lemma app_eq_len {A} (a b c d : list A) : a ++ c = b ++ d -> length a = length b -> a = b /\ c = d.
Proof.
  revert b. induction a as [|x a IH]; intros [|y b] E L; try discriminate; [auto|].
  injection E as -> E. destruct (IH b E) as [-> ->]; [cbn in L; lia|auto].
Qed.
(** the free parameters determine the tree *)
Lemma free_eq : forall t t', free_change t t' -> tree_ok t -> tree_ok t' -> flat cur t = flat cur t' -> t' = t.
Proof.
  assert (FL : forall b f g, flagged_change b f g -> tree_ok f -> tree_ok g ->
    length (if b then [] else flat cur f) = length (if b then [] else flat cur g)).
  { intros b f g Hfl T1 T2. inversion Hfl; subst; [reflexivity|]. rewrite !flat_length by auto using sel_cur. symmetry. apply free_change_nb. assumption. }
  induction t as [l p|par fs IH|par x1 x2 f1 f2 IH1 IH2] using tree_ind'; intros t' H T1 T2 E.
  - inversion H; subst. cbn in E. unfold cur in E. congruence.
  - inversion H as [|? ? gs Hg|]; subst. clear H. f_equal. cbn [flat] in E. cbn [tree_ok] in T1, T2.
    revert gs Hg T2 E. induction IH as [|[b f] fs Hf _ IHfs]; intros gs Hg T2 E.
    + inversion Hg; subst. reflexivity.
    + inversion Hg as [|? ? g ? gs' Hfl Hgs]; subst. cbn [fold_right flat_map fst snd] in *.
      destruct T1 as [[T1 _] T1s], T2 as [[T2 _] T2s].
      apply app_eq_len in E; [|apply FL; assumption]. destruct E as [E1 E2]. f_equal; [|apply IHfs; assumption].
      inversion Hfl; subst; [reflexivity|]. rewrite (Hf g); auto.
  - inversion H as [| |? ? ? ? ? g1 g2 C1 C2]; subst. destruct T1 as (A1 & A2 & _), T2 as (B1 & B2 & _). cbn [flat] in E.
    apply app_eq_len in E; [|apply FL; assumption]. destruct E as [E1 E2].
    f_equal; [inversion C1|inversion C2]; subst; auto.
Qed.
Lemma set_again : forall t t' q, free_change t t' -> tree_ok t -> tree_ok t' -> set_parameters t' q = set_parameters t q.
Proof.
  induction t as [l p|par fs IH|par x1 x2 f1 f2 IH1 IH2] using tree_ind'; intros t' q H T1 T2.
  - inversion H; subst. reflexivity.
  - inversion H as [|? ? gs Hg|]; subst. cbn [set_parameters]. clear H.
    assert (L : forall cur, set_loop set_parameters q gs cur = set_loop set_parameters q fs cur); [|rewrite L; reflexivity].
    cbn [tree_ok] in T1, T2. revert gs Hg T2. induction IH as [|[b f] fs Hf _ IHfs]; intros gs Hg T2 c.
    + inversion Hg; subst. reflexivity.
    + inversion Hg as [|? ? g ? gs' Hfl Hgs]; subst. cbn [set_loop fst snd fold_right] in *.
      destruct T1 as [[T1 _] T1s], T2 as [[T2 _] T2s].
      inversion Hfl; subst.
      * cbn [negb]. rewrite !Bool.andb_false_r. rewrite (IHfs T1s gs' Hgs T2s). reflexivity.
      * rewrite (free_change_nb f g) by assumption. destruct (Nat.ltb_spec 0 (nb f)) as [Hn|Hn]; cbn [negb andb].
        -- destruct (slice q c (nb f)) as [a| | |]; try reflexivity. cbn [bind]. rewrite (Hf g a) by assumption.
           destruct (set_parameters f a); try reflexivity. cbn [bind]. rewrite (IHfs T1s gs' Hgs T2s). reflexivity.
        -- rewrite (IHfs T1s gs' Hgs T2s).
           assert (g = f) as ->; [|reflexivity]. apply free_eq; try assumption.
           assert (N : forall h, tree_ok h -> nb h = 0%nat -> flat cur h = []).
           { intros h Hh Z. pose proof (flat_length cur sel_cur h Hh). destruct (flat cur h); [reflexivity|cbn in *; lia]. }
           rewrite !N; auto; [|lia]. rewrite (free_change_nb f g) by assumption. lia.
  - inversion H as [| |? ? ? ? ? g1 g2 C1 C2]; subst. destruct T1 as (A1 & A2 & _), T2 as (B1 & B2 & _). cbn [set_parameters].
    assert (Q1 : (if x1 then Ok g1 else do a <- slice q 0 (if x1 then 0%nat else nb g1); set_parameters g1 a) =
                 (if x1 then Ok f1 else do a <- slice q 0 (if x1 then 0%nat else nb f1); set_parameters f1 a)).
    { inversion C1; subst; [reflexivity|]. rewrite (free_change_nb f1 g1) by assumption.
      destruct (slice q 0 (nb f1)); try reflexivity. cbn [bind]. apply IH1; assumption. }
    assert (N1 : (if x1 then 0%nat else nb g1) = (if x1 then 0%nat else nb f1)).
    { inversion C1; subst; [reflexivity|]. apply free_change_nb. assumption. }
    assert (Q2 : forall n, (if x2 then Ok g2 else do a <- slice q n (nb g2); set_parameters g2 a) =
                 (if x2 then Ok f2 else do a <- slice q n (nb f2); set_parameters f2 a)).
    { intros n. inversion C2; subst; [reflexivity|]. rewrite (free_change_nb f2 g2) by assumption.
      destruct (slice q n (nb f2)); try reflexivity. cbn [bind]. apply IH2; assumption. }
    cbv zeta. rewrite Q1, N1.
    destruct (if x1 then Ok f1 else do a <- slice q 0 (if x1 then 0%nat else nb f1); set_parameters f1 a); try reflexivity. cbn [bind].
    rewrite Q2. reflexivity.
Qed.

(** ** Loops over the samples *)
Lemma each_inv {S} (Inv : nat -> S -> Prop) body l : forall s st,
  (forall k r st, nth_error l k = Some r -> Inv (s + k)%nat st -> exists st', body (s + k)%nat r st = Ok st' /\ Inv (Datatypes.S (s + k)) st') ->
  Inv s st -> exists st', each body s l st = Ok st' /\ Inv (s + length l)%nat st'.
Proof.
  induction l as [|r l IH]; intros s st Hb H0.
  - exists st. cbn. rewrite Nat.add_0_r. auto.
  - cbn [each length]. destruct (Hb 0%nat r st eq_refl) as (st1 & E & H1); [rewrite Nat.add_0_r; exact H0|].
    rewrite Nat.add_0_r in E, H1. rewrite E. cbn [bind].
    destruct (IH (Datatypes.S s) st1) as (st2 & E2 & H2).
    + intros k r' st' Hk Hi. destruct (Hb (Datatypes.S k) r' st' Hk) as (st'' & E' & H'); [rewrite Nat.add_succ_r; exact Hi|].
      rewrite Nat.add_succ_r in E', H'. exists st''. auto.
    + exact H1.
    + exists st2. split; [exact E2|]. rewrite Nat.add_succ_r. exact H2.
Qed.
Lemma slice_all (x : list R) : slice x 0 (length x) = Ok x.
Proof. pose proof (slice_spec x [] []) as H. rewrite app_nil_r in H. exact H. Qed.
Lemma slice_tail (r : list R) a n : length r = (a + n)%nat -> slice r a n = Ok (skipn a r).
Proof.
  intros L. pose proof (slice_spec' (skipn a r) (firstn a r) [] n ltac:(rewrite skipn_length; lia)) as H.
  rewrite app_nil_r, firstn_skipn, firstn_length, Nat.min_l in H by lia. exact H.
Qed.
Lemma vsub_length a : forall b, length a = length b -> length (vsub a b) = length a.
Proof. induction a as [|x a IH]; intros [|y b] H; try discriminate; [reflexivity|]. cbn in *. rewrite IH; lia. Qed.
Lemma vsub_nth a : forall b i, length a = length b -> nth i (vsub a b) 0 = nth i a 0 - nth i b 0.
Proof.
  induction a as [|x a IH]; intros [|y b] i H; try discriminate.
  - destruct i; cbn; lra.
  - destruct i; cbn; [reflexivity|]. apply IH. cbn in H. lia.
Qed.
Lemma sub_ok a b n : length a = n -> length b = n -> exists e, sub_checked a b = Ok e /\ length e = n /\ forall i, nth i e 0 = nth i a 0 - nth i b 0.
Proof.
  intros A B. unfold sub_checked. destruct (Nat.eqb_spec (length a) (length b)); [|lia]. eexists. split; [reflexivity|].
  split; [rewrite vsub_length; lia|]. intros i. apply vsub_nth. lia.
Qed.

(** ** Bounds *)
Lemma outside_ok n : forall k x mn mx, (k + n <= length x)%nat -> (k + n <= length mn)%nat -> (k + n <= length mx)%nat ->
  exists b, outside n k x mn mx = Ok b /\
    (b = true <-> exists i, (k <= i < k + n)%nat /\ (nth i x 0 < nth i mn 0 \/ nth i mx 0 < nth i x 0)).
Proof.
  induction n as [|n IH]; intros k x mn mx H1 H2 H3.
  - exists false. split; [reflexivity|]. split; [discriminate|]. intros (i & Hi & _). lia.
  - cbn [outside]. rewrite !rd_nth by lia. cbn [bind].
    destruct (rltb_dec (nth k x 0) (nth k mn 0)) as [A|A].
    + exists true. split; [reflexivity|]. split; [intros _|reflexivity]. exists k. split; [lia|auto].
    + destruct (rltb_dec (nth k mx 0) (nth k x 0)) as [B|B].
      * exists true. split; [reflexivity|]. split; [intros _|reflexivity]. exists k. split; [lia|auto].
      * destruct (IH (S k) x mn mx) as (b & E & I); [lia..|]. exists b. split; [exact E|]. rewrite I. split.
        -- intros (i & Hi & Q). exists i. split; [lia|exact Q].
        -- intros (i & Hi & Q). exists i. split; [|exact Q]. destruct (Nat.eq_dec i k) as [->|]; [|lia].
           exfalso. destruct Q; contradiction.
Qed.

(** ** The function with parameters [p] *)
Section Loaded.
Variable junk : R.
Variable t : tree.
Variable dp : parameters.
Variable rows : list (list R).
Variable p : list R.
Hypothesis C : comparable junk t dp rows.
Hypothesis Lp : length p = nb t.

Record loaded (t' : tree) : Prop := mkLoaded {
  ld_set : set_parameters t p = Ok t';
  ld_nb : nb t' = nb t;
  ld_par : par_of t' = par_of t;
  ld_ok : tree_ok t';
  ld_flat : flat cur t' = p;
  ld_change : free_change t t' }.
Lemma load_ok : exists t', loaded t'.
Proof.
  destruct C as (T & _). destruct (set_spec t p T Lp) as (t' & E & (S1 & S2 & S3) & F & Ch). exists t'. constructor; assumption.
Qed.

Variable t' : tree.
Hypothesis L : loaded t'.
Lemma ny_eq : dimY (par_of t') = dimY dp.
Proof. rewrite (ld_par _ L). apply C. Qed.
Lemma row_data r : In r rows -> exists x v,
  position junk t dp r = Ok x /\ sample_point junk dp (par_of t') r = Ok x /\ value junk t' x = Ok v /\ length v = dimY dp /\ evaluable junk t' x /\
  (forall i, predicted junk t dp p r i = nth i v 0) /\
  slice r (dimX dp) (dimY dp) = Ok (skipn (dimX dp) r) /\ length (skipn (dimX dp) r) = dimY dp /\
  (forall i, nth i (skipn (dimX dp) r) 0 = observed dp r i) /\
  (forall c, cosine junk dp c r = Ok (weight junk dp c r)).
Proof.
  intros Hr. destruct C as (T & Ey & Ex & F). rewrite Forall_forall in F. destruct (F r Hr) as (Lr & Hd & (c & Ec) & x & v0 & Px & Vx).
  pose proof (free_change_evaluable junk t t' x (ld_change _ L) (value_evaluable _ _ _ _ Vx)) as Ev.
  destruct (value_spec junk t' x (ld_ok _ L) Ev) as (v & Evv & Lv).
  exists x, v. split; [exact Px|]. split.
  { unfold sample_point. destruct (Nat.ltb_spec (length r) (Z.to_nat (dimension_in (in_param dp)))); [lia|].
    unfold child_point. rewrite (ld_par _ L). destruct (Nat.ltb_spec (dimX (par_of t)) (Z.to_nat (dimension_in (in_param (par_of t))))); [lia|]. exact Px. }
  split; [exact Evv|]. split; [rewrite Lv; apply ny_eq|]. split; [exact Ev|]. split.
  { intros i. unfold predicted. rewrite (ld_set _ L). cbn [bind]. rewrite Px. cbn [bind]. rewrite Evv. reflexivity. }
  split; [apply slice_tail, Lr|]. split; [rewrite skipn_length; lia|]. split.
  { intros i. unfold observed. rewrite <- (firstn_skipn (dimX dp) r) at 2. rewrite app_nth2; rewrite firstn_length; [|lia]. f_equal. lia. }
  intros [|]; unfold cosine, weight; [|reflexivity].
  destruct (Nat.ltb_spec (length r) (Z.to_nat (dimension_in (in_param dp)))); [lia|]. rewrite Ec. reflexivity.
Qed.
(** derivative of a prediction *)
Lemma row_jacobian r : In r rows -> exact_for junk t dp p rows -> forall x, position junk t dp r = Ok x ->
  exists J, jacobian junk t' x = Ok J /\ length J = (dimY dp * nb t)%nat /\
  forall i j, (i < dimY dp)%nat -> (j < nb t)%nat ->
    derivable_pt_lim (fun u => predicted junk t dp (upd p j u) r i) (nth j p 0) (nth (i * nb t + j) J 0).
Proof.
  intros Hr Hx x Px. pose proof (Hx t' (ld_set _ L)) as F. rewrite Forall_forall in F. specialize (F r Hr x Px).
  destruct (row_data r Hr) as (x' & v & Px' & _ & _ & _ & Ev & _). rewrite Px in Px'. apply Ok_inj in Px'. subst x'.
  destruct (tree_gradient junk t' x (ld_ok _ L) F Ev) as (J & EJ & LJ & D).
  rewrite (ld_nb _ L), ny_eq in *. exists J. split; [exact EJ|]. split; [exact LJ|].
  intros i j Hi Hj. specialize (D i j Hi Hj). unfold along in D. rewrite (ld_flat _ L) in D.
  eapply derivable_ext; [|exact D]. intros u. cbv beta. unfold predicted.
  rewrite (set_again t t' _ (ld_change _ L)) by (try apply (ld_ok _ L); apply C).
  destruct (set_parameters t (upd p j u)); try reflexivity. cbn [bind]. rewrite Px. reflexivity.
Qed.

(** ** Eigen *)
Notation size := (length rows).
Lemma eigen_rows_ok cosw y : length y = (dimY dp * size)%nat ->
  exists y', each (eigen_row junk dp rows cosw t') 0 rows y = Ok y' /\ length y' = (dimY dp * size)%nat /\
    forall s r i, nth_error rows s = Some r -> (i < dimY dp)%nat -> nth (i * size + s) y' 0 = misfit junk t dp cosw p r i.
Proof.
  intros Ly.
  destruct (each_inv (fun k y => length y = (dimY dp * size)%nat /\
    forall s r i, (s < k)%nat -> nth_error rows s = Some r -> (i < dimY dp)%nat -> nth (i * size + s) y 0 = misfit junk t dp cosw p r i)
    (eigen_row junk dp rows cosw t') rows 0 y) as (y' & E & I1 & I2).
  - cbn [plus]. intros k r y1 Hk (J1 & J2). pose proof (nth_error_In _ _ Hk) as Hr.
    assert (Hs : (k < size)%nat) by (apply nth_error_Some; congruence).
    destruct (row_data r Hr) as (x & v & Px & Sx & Vx & Lv & _ & Pr & Sl & Ls & Ob & Co).
    unfold eigen_row. rewrite Sx. cbn [bind]. rewrite Co. cbn [bind]. rewrite ny_eq, Sl. cbn [bind]. rewrite Vx. cbn [bind].
    destruct (sub_ok (skipn (dimX dp) r) (List.map (Rmult (weight junk dp cosw r)) v) (dimY dp) Ls ltac:(rewrite map_length; exact Lv)) as (e & Ee & Le & Ne).
    rewrite Ee. cbn [bind].
    destruct (for_write (dimY dp) (dimY dp * size) (fun i => i * size + k)%nat (fun i => nth i e 0)
      (fun i y => do a <- rd e i; wr y (i * size + k) a) y1) as (y2 & E2 & L2 & W2 & O2).
    + intros i s Hi _. rewrite rd_nth by lia. reflexivity.
    + intros i Hi. rewrite Nat.mul_comm with (n := dimY dp). apply mul_add_lt; assumption.
    + intros a b Ha Hb Q. apply mul_add_inj in Q; [tauto|assumption|assumption].
    + exact J1.
    + exists y2. split; [exact E2|]. split; [exact L2|]. intros s r' i Hss Hn Hi.
      destruct (Nat.eq_dec s k) as [->|Ns].
      * rewrite Hk in Hn. injection Hn as <-. rewrite W2 by assumption. rewrite Ne, Ob. unfold misfit. f_equal.
        rewrite (nth_indep _ 0 (weight junk dp cosw r * 0)) by (rewrite map_length; lia).
        rewrite map_nth. rewrite Pr. reflexivity.
      * rewrite O2; [apply J2; [lia|assumption|assumption]|]. intros j Hj Q. apply mul_add_inj in Q; lia.
  - split; [exact Ly|]. intros; lia.
  - exists y'. split; [exact E|]. split; [exact I1|]. intros s r i Hn. apply I2; [|exact Hn]. cbn. apply nth_error_Some. congruence.
Qed.

(** writing a column of blocks of a matrix *)
Lemma block_fill a n ny sz s (f : nat -> nat -> R) body m : shaped a n m -> (s < sz)%nat -> (ny * sz <= a)%nat ->
  (forall j i m, (j < n)%nat -> (i < ny)%nat -> shaped a n m -> body j i m = wr2 m (i * sz + s) j (f i j)) ->
  exists m', for_ n 0 (fun j m => for_ ny 0 (fun i m => body j i m) m) m = Ok m' /\ shaped a n m' /\
    (forall i j, (i < ny)%nat -> (j < n)%nat -> ent m' (i * sz + s) j = f i j) /\
    (forall b j, (forall i, (i < ny)%nat -> b <> (i * sz + s)%nat) -> ent m' b j = ent m b j).
Proof.
  intros Sm Hs Ha Hb.
  destruct (for_inv (fun k x => shaped a n x /\
     (forall i j, (i < ny)%nat -> (j < k)%nat -> ent x (i * sz + s) j = f i j) /\
     (forall b j, (forall i, (i < ny)%nat -> b <> (i * sz + s)%nat) -> ent x b j = ent m b j))
     (fun j m => for_ ny 0 (fun i m => body j i m) m) n 0) with (s := m) as (m' & E & I1 & I2 & I3).
  - intros j x Hj (J1 & J2 & J3).
    destruct (for_inv (fun k y => shaped a n y /\
     (forall i j', (i < ny)%nat -> (j' < j)%nat -> ent y (i * sz + s) j' = f i j') /\
     (forall i, (i < k)%nat -> ent y (i * sz + s) j = f i j) /\
     (forall b j, (forall i, (i < ny)%nat -> b <> (i * sz + s)%nat) -> ent y b j = ent m b j)) (body j) ny 0) with (s := x) as (y & E & K1 & K2 & K3 & K4).
    + intros i y Hi (K1 & K2 & K3 & K4). rewrite Hb by (auto; lia).
      destruct (wr2_ok a n y (i * sz + s) j (f i j) K1) as (y' & E & S' & W); [nia|lia|].
      exists y'. split; [exact E|]. split; [exact S'|]. split; [|split].
      * intros i' j' Hi' Hj'. rewrite W. destruct (Nat.eqb_spec j j'); [lia|]. rewrite Bool.andb_false_r. auto.
      * intros i' Hi'. rewrite W, Nat.eqb_refl, Bool.andb_true_r. destruct (Nat.eqb_spec (i * sz + s) (i' * sz + s)) as [Q|Q].
        -- apply mul_add_inj in Q; [destruct Q as [-> _]; reflexivity|assumption|assumption].
        -- apply K3. destruct (Nat.eq_dec i' i) as [->|]; [congruence|lia].
      * intros b j' Hbb. rewrite W. destruct (Nat.eqb_spec (i * sz + s) b) as [Q|]; [exfalso; apply (Hbb i ltac:(lia)); lia|]. apply K4, Hbb.
    + split; [exact J1|]. split; [exact J2|]. split; [intros; lia|exact J3].
    + exists y. split; [exact E|]. split; [exact K1|]. split; [|exact K4]. intros i j' Hi Hj'.
      destruct (Nat.eq_dec j' j) as [->|]; [apply K3; lia|apply K2; lia].
  - split; [exact Sm|]. split; [intros; lia|reflexivity].
  - exists m'. split; [exact E|]. split; [exact I1|]. split; [exact I2|exact I3].
Qed.

Lemma eigen_jac_rows_ok cosw m : exact_for junk t dp p rows -> matrix (dimY dp * size) (nb t) m ->
  exists m', each (eigen_jac_row junk dp rows cosw t') 0 rows m = Ok m' /\ matrix (dimY dp * size) (nb t) m' /\
    forall s r i j, nth_error rows s = Some r -> (i < dimY dp)%nat -> (j < nb t)%nat ->
      derivable_pt_lim (fun u => misfit junk t dp cosw (upd p j u) r i) (nth j p 0) (entry m' (i * size + s) j).
Proof.
  intros Hx Sm.
  destruct (each_inv (fun k m => matrix (dimY dp * size) (nb t) m /\
    forall s r i j, (s < k)%nat -> nth_error rows s = Some r -> (i < dimY dp)%nat -> (j < nb t)%nat ->
      derivable_pt_lim (fun u => misfit junk t dp cosw (upd p j u) r i) (nth j p 0) (entry m (i * size + s) j))
    (eigen_jac_row junk dp rows cosw t') rows 0 m) as (m' & E & I1 & I2).
  - cbn [plus]. intros k r m1 Hk (J1 & J2). pose proof (nth_error_In _ _ Hk) as Hr.
    assert (Hs : (k < size)%nat) by (apply nth_error_Some; congruence).
    destruct (row_data r Hr) as (x & v & Px & Sx & Vx & Lv & _ & Pr & Sl & Ls & Ob & Co).
    destruct (row_jacobian r Hr Hx x Px) as (J & EJ & LJ & DJ).
    unfold eigen_jac_row. rewrite Sx. cbn [bind]. rewrite Co. cbn [bind]. rewrite EJ. cbn [bind]. rewrite (ld_nb _ L), ny_eq.
    destruct (block_fill (dimY dp * size) (nb t) (dimY dp) size k (fun i j => - weight junk dp cosw r * nth (i * nb t + j) J 0)
      (fun j i m => do v0 <- rd J (i * nb t + j); wr2 m (i * size + k) j (- weight junk dp cosw r * v0)) m1 J1 Hs (le_n _)) as (m2 & E2 & S2 & W2 & O2).
    + intros j i mm Hj Hi _. rewrite rd_nth; [reflexivity|]. rewrite LJ, Nat.mul_comm with (n := dimY dp). apply mul_add_lt; assumption.
    + exists m2. split; [exact E2|]. split; [exact S2|]. intros s r' i j Hss Hn Hi Hj.
      destruct (Nat.eq_dec s k) as [->|Ns].
      * rewrite Hk in Hn. injection Hn as <-. change (entry m2 (i * size + k) j) with (ent m2 (i * size + k) j). rewrite W2 by assumption.
        unfold misfit. specialize (DJ i j Hi Hj).
        replace (- weight junk dp cosw r * nth (i * nb t + j) J 0) with (0 - (weight junk dp cosw r) * nth (i * nb t + j) J 0) by ring.
        apply (derivable_pt_lim_minus (fun _ => observed dp r i) (fun u => weight junk dp cosw r * predicted junk t dp (upd p j u) r i)).
        -- apply derivable_const.
        -- apply (derivable_pt_lim_scal (fun u => predicted junk t dp (upd p j u) r i)). exact DJ.
      * change (entry m2 (i * size + s) j) with (ent m2 (i * size + s) j). rewrite O2; [apply (J2 s r' i j); [lia|assumption..]|].
        intros i' Hi' Q. symmetry in Q. apply mul_add_inj in Q; [lia|assumption|apply nth_error_Some; congruence].
  - split; [exact Sm|]. intros; lia.
  - exists m'. split; [exact E|]. split; [exact I1|]. intros s r i j Hn. apply (I2 s r); [|exact Hn]. cbn. apply nth_error_Some. congruence.
Qed.
End Loaded.

(** the bounds test *)
Lemma bounds_test junk t x : tree_ok t -> length x = nb t ->
  exists b mn mx, get_parameters_min junk t = Ok mn /\ get_parameters_max junk t = Ok mx /\ outside (nb t) 0 x mn mx = Ok b /\
    (b = false <-> within t x).
Proof.
  intros T Lx. unfold get_parameters_min, get_parameters_max.
  rewrite !gather_spec by (auto using sel_min, sel_max).
  pose proof (flat_length _ sel_min t T) as L1. pose proof (flat_length _ sel_max t T) as L2.
  destruct (outside_ok (nb t) 0 x (flat (fun l _ => lf_min l) t) (flat (fun l _ => lf_max l) t)) as (b & E & I); [lia..|].
  exists b. do 2 eexists. split; [reflexivity|]. split; [reflexivity|]. split; [exact E|].
  unfold within.
  rewrite (slots_flat (fun l _ => lf_min l) slot_min), (slots_flat (fun l _ => lf_max l) slot_max) by (auto using sel_min, sel_max).
  assert (Ls : length (slots t) = nb t).
  { rewrite <- (map_length slot_value), (slots_flat cur slot_value) by (auto using sel_cur). apply flat_length; auto using sel_cur. }
  rewrite Ls. split.
  - intros Hb i Hi. assert (Nb : ~ exists i, (0 <= i < 0 + nb t)%nat /\ (nth i x 0 < nth i (flat (fun l _ => lf_min l) t) 0 \/ nth i (flat (fun l _ => lf_max l) t) 0 < nth i x 0)).
    { rewrite <- I. congruence. }
    split; apply Rnot_lt_le; intros Q; apply Nb; exists i; (split; [lia|]); auto.
  - intros W. destruct b; [|reflexivity]. destruct (proj1 I eq_refl) as (i & Hi & [Q|Q]); specialize (W i ltac:(lia)); lra.
Qed.

Lemma comparable_ok junk t dp rows : comparable junk t dp rows -> tree_ok t.
Proof. intros H. apply H. Qed.

Theorem eigen_residual_ok junk dp rows cosw t x y : comparable junk t dp rows -> length x = nb t -> length y = (dimY dp * length rows)%nat ->
  within t x ->
  exists y' t', eigen_residual junk dp rows cosw x y t = Ok (Some y', t') /\ set_parameters t x = Ok t' /\
    length y' = (dimY dp * length rows)%nat /\
    forall s r i, nth_error rows s = Some r -> (i < dimY dp)%nat -> nth (i * length rows + s) y' 0 = misfit junk t dp cosw x r i.
Proof.
  intros C Lx Ly W. destruct (bounds_test junk t x (comparable_ok _ _ _ _ C) Lx) as (b & mn & mx & E1 & E2 & E3 & I).
  unfold eigen_residual. rewrite E1. cbn [bind]. rewrite E2. cbn [bind]. rewrite E3. cbn [bind].
  rewrite (proj2 I W). pose proof (slice_all x) as Sx0; rewrite Lx in Sx0; rewrite Sx0. cbn [bind].
  destruct (load_ok junk t dp rows x C Lx) as (t' & Ld). rewrite (ld_set _ _ _ Ld). cbn [bind].
  destruct (eigen_rows_ok junk t dp rows x C Lx t' Ld cosw y Ly) as (y' & E & L1 & N). rewrite E. cbn [bind].
  exists y', t'. auto.
Qed.
Theorem eigen_refuses junk dp rows cosw t x y : tree_ok t -> length x = nb t ->
  ~ within t x -> eigen_residual junk dp rows cosw x y t = Ok (None, t).
Proof.
  intros T Lx W. destruct (bounds_test junk t x T Lx) as (b & mn & mx & E1 & E2 & E3 & I).
  unfold eigen_residual. rewrite E1. cbn [bind]. rewrite E2. cbn [bind]. rewrite E3. cbn [bind].
  destruct b; [reflexivity|]. exfalso. apply W, I. reflexivity.
Qed.
Theorem eigen_jacobian_ok junk dp rows cosw t x m : comparable junk t dp rows -> length x = nb t ->
  matrix (dimY dp * length rows) (nb t) m -> exact_for junk t dp x rows ->
  exists m' t', eigen_jacobian junk dp rows cosw x m t = Ok (m', t') /\ set_parameters t x = Ok t' /\
    matrix (dimY dp * length rows) (nb t) m' /\
    forall s r i j, nth_error rows s = Some r -> (i < dimY dp)%nat -> (j < nb t)%nat ->
      derivable_pt_lim (fun u => misfit junk t dp cosw (upd x j u) r i) (nth j x 0) (entry m' (i * length rows + s) j).
Proof.
  intros C Lx Sm Hx. unfold eigen_jacobian. pose proof (slice_all x) as Sx0; rewrite Lx in Sx0; rewrite Sx0. cbn [bind].
  destruct (load_ok junk t dp rows x C Lx) as (t' & Ld). rewrite (ld_set _ _ _ Ld). cbn [bind].
  destruct (eigen_jac_rows_ok junk t dp rows x C Lx t' Ld cosw m Hx Sm) as (m' & E & L1 & N). rewrite E. cbn [bind].
  exists m', t'. split; [reflexivity|]. split; [reflexivity|]. split; [exact L1|exact N].
Qed.

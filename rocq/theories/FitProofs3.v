(** Ceres, and what the fitters do with a solver. *)
From Coq Require Import Reals List Lia Lra.
From Verif Require Import Base ParamsModel GeoModel CommonModel CommonProofs TextModel NlModel NlMoreModel NlSpec NlProofs NlGrad NlLobes FuncModel FuncSpec FuncProofs FuncJac FitModel FitSpec FitProofs FitProofs2.
Open Scope R_scope.

Lemma fill_vec n (h : nat -> R) body y : length y = n -> (forall i s, (i < n)%nat -> length s = n -> body i s = wr s i (h i)) ->
  exists y', for_ n 0 body y = Ok y' /\ length y' = n /\ forall i, (i < n)%nat -> nth i y' 0 = h i.
Proof.
  intros Ly Hb. destruct (for_write n n (fun i => i) h body y) as (y' & E & L & N & _); auto. exists y'. auto.
Qed.
(** a block of rows written entry by entry *)
Lemma fill_flat a n (h : nat -> nat -> R) body g : length g = (a * n)%nat ->
  (forall i j s, (i < a)%nat -> (j < n)%nat -> length s = (a * n)%nat -> body i j s = wr s (i * n + j) (h i j)) ->
  exists g', for_ a 0 (fun i g => for_ n 0 (fun j g => body i j g) g) g = Ok g' /\ length g' = (a * n)%nat /\
    forall i j, (i < a)%nat -> (j < n)%nat -> nth (i * n + j) g' 0 = h i j.
Proof.
  intros Lg Hb.
  destruct (for_inv (fun k g => length g = (a * n)%nat /\ forall i j, (i < k)%nat -> (j < n)%nat -> nth (i * n + j) g 0 = h i j)
    (fun i g => for_ n 0 (fun j g => body i j g) g) a 0) with (s := g) as (g' & E & I1 & I2).
  - intros i s Hi (J1 & J2).
    destruct (for_write n (a * n) (fun j => i * n + j)%nat (h i) (body i) s) as (s' & E & L & N & O).
    + intros j s0 Hj L0. apply Hb; [lia|assumption..].
    + intros j Hj. nia.
    + intros x y _ _ Q. lia.
    + exact J1.
    + exists s'. split; [exact E|]. split; [exact L|]. intros i' j Hi' Hj. destruct (Nat.eq_dec i' i) as [->|Ne]; [apply N, Hj|].
      rewrite O; [apply J2; lia|]. intros j' Hj' Q. apply mul_add_inj in Q; lia.
  - split; [exact Lg|]. intros; lia.
  - exists g'. split; [exact E|]. split; [exact I1|exact I2].
Qed.

Definition ceres_value (junk : R) (t : tree) (logf : bool) (q : list R) (xi : mem) (i : nat) : R :=
  if logf then log_misfit junk t q xi i else observed_in t xi i - predicted_at junk t q xi i.

Lemma ceres_value_ok junk logf t x xi w : tree_ok t -> length x = nb t -> within t x -> value junk t xi = Ok w ->
  exists y t', ceres_evaluate junk logf xi x false t = Ok (Some (y, None), t') /\ set_parameters t x = Ok t' /\
    length y = dimY (par_of t) /\ forall i, (i < dimY (par_of t))%nat -> nth i y 0 = ceres_value junk t logf x xi i.
Proof.
  intros T Lx W V. destruct (bounds_test junk t x T Lx) as (b & mn & mx & E1 & E2 & E3 & I).
  unfold ceres_evaluate. rewrite E1. cbn [bind]. rewrite E2. cbn [bind]. rewrite E3. cbn [bind]. rewrite (proj2 I W).
  pose proof (slice_all x) as Sx. rewrite Lx in Sx. rewrite Sx. cbn [bind].
  destruct (set_spec t x T Lx) as (t' & E & (S1 & S2 & S3) & F & Ch). rewrite E. cbn [bind]. cbv zeta. rewrite S1.
  pose proof (free_change_evaluable junk t t' xi Ch (value_evaluable _ _ _ _ V)) as Ev.
  destruct (value_spec junk t' xi S3 Ev) as (v & Evv & Lv). rewrite Evv. cbn [bind]. rewrite S1 in Lv.
  set (di := List.map (fun i => xi (dimX (par_of t) + i)%nat) (seq 0 (dimY (par_of t)))).
  assert (Ld : length di = dimY (par_of t)) by (unfold di; rewrite map_length, seq_length; reflexivity).
  destruct (sub_ok di v (dimY (par_of t)) Ld Lv) as (e & Ee & _). rewrite Ee. cbn [bind].
  destruct (fill_vec (dimY (par_of t)) (fun i => ceres_entry logf (nth i di 0) (nth i v 0))
     (fun i y => do d <- rd di i; do a <- rd v i; wr y i (ceres_entry logf d a)) (repeat junk (dimY (par_of t)))) as (y & Ey & Ly & Ny).
  - apply repeat_length.
  - intros i s Hi Ls. rewrite !rd_nth by lia. reflexivity.
  - rewrite Ey. cbn [bind]. exists y, t'. split; [reflexivity|]. split; [reflexivity|]. split; [exact Ly|].
    intros i Hi. rewrite Ny by exact Hi. unfold ceres_value, ceres_entry, log_misfit, observed_in, predicted_at. rewrite E. cbn [bind]. rewrite Evv. cbn [component].
    unfold di. rewrite map_nth_len by exact Hi. reflexivity.
Qed.
Lemma ceres_refuses junk logf t x xi grad : tree_ok t -> length x = nb t -> ~ within t x -> ceres_evaluate junk logf xi x grad t = Ok (None, t).
Proof.
  intros T Lx W. destruct (bounds_test junk t x T Lx) as (b & mn & mx & E1 & E2 & E3 & I).
  unfold ceres_evaluate. rewrite E1. cbn [bind]. rewrite E2. cbn [bind]. rewrite E3. cbn [bind].
  destruct b; [reflexivity|]. exfalso. apply W, I. reflexivity.
Qed.
(** with the Jacobian: entry (i, j) is -dF or -dF / (1 + observed) *)
Lemma ceres_jacobian_ok junk logf t x xi w : tree_ok t -> length x = nb t -> within t x -> value junk t xi = Ok w ->
  (forall t', set_parameters t x = Ok t' -> leaves_gradient junk t' xi) ->
  exists y g t', ceres_evaluate junk logf xi x true t = Ok (Some (y, Some g), t') /\ set_parameters t x = Ok t' /\
    length y = dimY (par_of t) /\ (forall i, (i < dimY (par_of t))%nat -> nth i y 0 = ceres_value junk t logf x xi i) /\
    length g = (dimY (par_of t) * nb t)%nat /\
    exists D : nat -> nat -> R, forall i j, (i < dimY (par_of t))%nat -> (j < nb t)%nat ->
      derivable_pt_lim (fun u => predicted_at junk t (upd x j u) xi i) (nth j x 0) (D i j) /\
      nth (i * nb t + j) g 0 = ceres_jac_entry logf (observed_in t xi i) (D i j).
Proof.
  intros T Lx W V G. destruct (ceres_value_ok junk logf t x xi w T Lx W V) as (y0 & t0 & E0 & S0 & Ly & Ny).
  revert E0. destruct (bounds_test junk t x T Lx) as (b & mn & mx & E1 & E2 & E3 & I).
  unfold ceres_evaluate. rewrite E1. cbn [bind]. rewrite E2. cbn [bind]. rewrite E3. cbn [bind]. rewrite (proj2 I W).
  pose proof (slice_all x) as Sx. rewrite Lx in Sx. rewrite Sx. cbn [bind].
  destruct (set_spec t x T Lx) as (t' & E & (S1 & S2 & S3) & F & Ch). rewrite E in S0. apply Ok_inj in S0. subst t0. rewrite E. cbn [bind]. cbv zeta. rewrite S1, S2.
  pose proof (free_change_evaluable junk t t' xi Ch (value_evaluable _ _ _ _ V)) as Ev.
  destruct (value_spec junk t' xi S3 Ev) as (v & Evv & Lv). rewrite Evv. cbn [bind].
  set (di := List.map (fun i => xi (dimX (par_of t) + i)%nat) (seq 0 (dimY (par_of t)))).
  assert (Ld : length di = dimY (par_of t)) by (unfold di; rewrite map_length, seq_length; reflexivity).
  destruct (sub_checked di v) as [e| | |]; try discriminate. cbn [bind].
  destruct (for_ (dimY (par_of t)) 0 (fun i y => do d <- rd di i; do a <- rd v i; wr y i (ceres_entry logf d a)) (repeat junk (dimY (par_of t)))) as [y| | |]; try discriminate.
  cbn [bind]. intros Q. injection Q as ->.
  destruct (tree_gradient junk t' xi S3 (G t' E) Ev) as (J & EJ & LJ & DJ). rewrite S1, S2 in *. rewrite EJ. cbn [bind].
  destruct (fill_flat (dimY (par_of t)) (nb t) (fun i j => ceres_jac_entry logf (nth i di 0) (nth (i * nb t + j) J 0))
    (fun i j g => do d <- rd di i; do b0 <- rd J (i * nb t + j); wr g (i * nb t + j) (ceres_jac_entry logf d b0)) (repeat junk (dimY (par_of t) * nb t))) as (g & Eg & Lg & Ng).
  - apply repeat_length.
  - intros i j s Hi Hj Ls. rewrite !rd_nth by (rewrite ?LJ; try lia; rewrite Nat.mul_comm with (n := dimY (par_of t)); apply mul_add_lt; assumption). reflexivity.
  - rewrite Eg. cbn [bind]. exists y0, g, t'. split; [reflexivity|]. split; [reflexivity|]. split; [exact Ly|]. split; [exact Ny|]. split; [exact Lg|].
    exists (fun i j => nth (i * nb t + j) J 0). intros i j Hi Hj. split.
    + specialize (DJ i j Hi Hj). unfold along in DJ. rewrite F in DJ. eapply derivable_ext; [|exact DJ].
      intros u. cbv beta. unfold predicted_at. rewrite (set_again t t' _ Ch T S3). reflexivity.
    + rewrite Ng by assumption. unfold di, observed_in. rewrite map_nth_len by exact Hi. reflexivity.
Qed.
(** the derivative of the logarithmic residual *)
Lemma derivable_log f a d : derivable_pt_lim f a d -> 0 < 1 + f a -> derivable_pt_lim (fun u => ln (1 + f u)) a (d / (1 + f a)).
Proof.
  intros H P. replace (d / (1 + f a)) with (/ (1 + f a) * (0 + d)) by (unfold Rdiv; ring).
  apply (derivable_pt_lim_comp (fun u => 1 + f u) ln).
  - apply (derivable_pt_lim_plus (fun _ => 1) f); [apply derivable_const|exact H].
  - apply derivable_pt_lim_ln. exact P.
Qed.
Lemma log_derivative junk t x xi i j d : derivable_pt_lim (fun u => predicted_at junk t (upd x j u) xi i) (nth j x 0) d ->
  0 < 1 + predicted_at junk t x xi i ->
  derivable_pt_lim (fun u => log_misfit junk t (upd x j u) xi i) (nth j x 0) (- (d / (1 + predicted_at junk t x xi i))).
Proof.
  intros H P. unfold log_misfit. replace (- (d / (1 + predicted_at junk t x xi i))) with (0 - d / (1 + predicted_at junk t (upd x j (nth j x 0)) xi i)) by (rewrite upd_same; ring).
  apply (derivable_pt_lim_minus (fun _ => ln (1 + observed_in t xi i)) (fun u => ln (1 + predicted_at junk t (upd x j u) xi i))); [apply derivable_const|].
  apply (derivable_log (fun u => predicted_at junk t (upd x j u) xi i)); [exact H|]. rewrite upd_same. exact P.
Qed.
Lemma log_entry_iff junk t x xi i j d : derivable_pt_lim (fun u => predicted_at junk t (upd x j u) xi i) (nth j x 0) d ->
  0 < 1 + predicted_at junk t x xi i -> 0 < 1 + observed_in t xi i ->
  (derivable_pt_lim (fun u => log_misfit junk t (upd x j u) xi i) (nth j x 0) (ceres_jac_entry true (observed_in t xi i) d) <->
   d = 0 \/ predicted_at junk t x xi i = observed_in t xi i).
Proof.
  intros H P O. pose proof (log_derivative junk t x xi i j d H P) as D. cbn [ceres_jac_entry].
  set (f := predicted_at junk t x xi i) in *. set (o := observed_in t xi i) in *.
  assert (Eq : - (d / (1 + o)) = - (d / (1 + f)) <-> d = 0 \/ f = o).
  { split.
    - intros Q. destruct (Req_dec d 0) as [->|N]; [left; reflexivity|right].
      assert (A : d / (1 + o) = d / (1 + f)) by lra.
      apply (f_equal (fun z => z * ((1 + o) * (1 + f)))) in A.
      replace (d / (1 + o) * ((1 + o) * (1 + f))) with (d * (1 + f)) in A by (field; lra).
      replace (d / (1 + f) * ((1 + o) * (1 + f))) with (d * (1 + o)) in A by (field; lra).
      apply Rmult_eq_reg_l in A; [lra|exact N].
    - intros [->| ->]; [unfold Rdiv; rewrite !Rmult_0_l; reflexivity|reflexivity]. }
  rewrite <- Eq. split.
  - intros D'. exact (uniqueness_limite _ _ _ _ D' D).
  - intros Q0. rewrite <- Q0 in D. exact D.
Qed.

(** ** Running a solver *)
Lemma run_inv {Q A E} (ans : Q -> tree -> outcome (A * tree)) (P : Q -> Prop) (Z : E -> Prop) (Inv : tree -> Prop) :
  (forall q t a t', P q -> Inv t -> ans q t = Ok (a, t') -> Inv t') ->
  forall s t e t', asks P Z s -> Inv t -> run ans s t = Ok (e, t') -> Z e /\ Inv t'.
Proof.
  intros Hs. induction s as [e0|q k IH]; intros t e t' Ha Hi Hr.
  - cbn in Hr. injection Hr as <- <-. auto.
  - cbn [run] in Hr. destruct (ans q t) as [[a t1]| | |] eqn:Ea; try discriminate. cbn [bind fst snd] in Hr.
    destruct Ha as [Hq Hk]. eapply IH; [apply Hk| |exact Hr]. eapply Hs; eassumption.
Qed.

(** a descendant of [t0] with a parameter vector satisfying [K] *)
Definition state (junk : R) (t0 : tree) (K : list R -> Prop) (t : tree) : Prop :=
  tree_ok t /\ free_change t0 t /\ nb t = nb t0 /\ exists q, get_parameters junk t = Ok q /\ K q.
Lemma state_set junk t0 K t q t' : tree_ok t0 -> state junk t0 K t -> length q = nb t0 -> K q -> set_parameters t q = Ok t' -> state junk t0 K t'.
Proof.
  intros T0 (T & Ch & N & _) Lq Kq E. rewrite (set_again t0 t q Ch T0 T) in E.
  destruct (set_spec t0 q T0 Lq) as (t1 & E1 & (S1 & S2 & S3) & F & C1). rewrite E1 in E. apply Ok_inj in E. subst t'.
  split; [exact S3|]. split; [exact C1|]. split; [exact S2|]. exists q. split; [|exact Kq].
  unfold get_parameters. change (fun _ p0 => p0) with cur. rewrite gather_spec by (auto using sel_cur). rewrite F. reflexivity.
Qed.
Lemma state_start junk t0 (K : list R -> Prop) : tree_ok t0 -> (forall q, get_parameters junk t0 = Ok q -> K q) -> state junk t0 K t0.
Proof.
  intros T H. split; [exact T|]. split; [apply free_refl_pair|]. split; [reflexivity|].
  assert (G : get_parameters junk t0 = Ok (flat cur t0)).
  { unfold get_parameters. change (fun _ p0 => p0) with cur. apply gather_spec; auto using sel_cur. }
  exists (flat cur t0). auto.
Qed.
Lemma slice_exact (x : list R) n : length x = n -> slice x 0 n = Ok x.
Proof. intros <-. apply slice_all. Qed.
Lemma set_final junk t0 K t q t' : tree_ok t0 -> state junk t0 K t -> length q = nb t0 -> set_parameters t q = Ok t' ->
  get_parameters junk t' = Ok q /\ free_change t0 t'.
Proof.
  intros T0 (T & Ch & N & _) Lq E. rewrite (set_again t0 t q Ch T0 T) in E.
  destruct (set_spec t0 q T0 Lq) as (t1 & E1 & (S1 & S2 & S3) & F & C1). rewrite E1 in E. apply Ok_inj in E. subst t'.
  split; [|exact C1]. unfold get_parameters. change (fun _ p0 => p0) with cur. rewrite gather_spec by (auto using sel_cur). rewrite F. reflexivity.
Qed.

Section Protocol.
Variable junk : R.
Variable dp : parameters.
Variable rows : list (list R).

Lemma lm_step cosw t0 K q t a t' : tree_ok t0 -> lm_sized (nb t0) K q -> state junk t0 K t -> lm_ans junk dp rows cosw q t = Ok (a, t') -> state junk t0 K t'.
Proof.
  intros T0 Hq St E. destruct q as [x y|x m]; cbn [lm_sized lm_ans] in *; destruct Hq as [Lx Kx]; destruct (St) as (T & Ch & N & _).
  - unfold eigen_residual in E. destruct (get_parameters_min junk t) as [mn| | |]; try discriminate. cbn [bind] in E.
    destruct (get_parameters_max junk t) as [mx| | |]; try discriminate. cbn [bind] in E.
    destruct (outside (nb t) 0 x mn mx) as [[|]| | |]; try discriminate; cbn [bind] in E.
    + cbn in E. injection E as _ <-. exact St.
    + rewrite (slice_exact x (nb t)) in E by congruence. cbn [bind] in E. destruct (set_parameters t x) as [t1| | |] eqn:E1; try discriminate. cbn [bind] in E.
      destruct (each (eigen_row junk dp rows cosw t1) 0 rows y) as [y'| | |]; try discriminate. cbn in E. injection E as _ <-.
      eapply state_set; eassumption.
  - unfold eigen_jacobian in E. rewrite (slice_exact x (nb t)) in E by congruence. cbn [bind] in E. destruct (set_parameters t x) as [t1| | |] eqn:E1; try discriminate. cbn [bind] in E.
    destruct (each (eigen_jac_row junk dp rows cosw t1) 0 rows m) as [y'| | |]; try discriminate. cbn in E. injection E as _ <-.
    eapply state_set; eassumption.
Qed.
Lemma nlopt_step t0 K q t a t' : tree_ok t0 -> length (fst q) = nb t0 /\ K (fst q) -> state junk t0 K t -> nlopt_ans junk dp rows q t = Ok (a, t') -> state junk t0 K t'.
Proof.
  intros T0 [Lx Kx] St E. destruct q as [x g]. cbn [fst] in *. destruct (St) as (T & Ch & N & _). unfold nlopt_ans, nlopt_objective in E. cbn [fst snd] in E.
  rewrite (slice_exact x (nb t)) in E by congruence. cbn [bind] in E. destruct (set_parameters t x) as [t1| | |] eqn:E1; try discriminate. cbn [bind] in E.
  destruct (each (nlopt_row junk dp t1) 0 rows 0) as [y| | |]; try discriminate. cbn [bind] in E.
  assert (t' = t1) as ->; [|eapply state_set; eassumption].
  destruct g; [|congruence]. destruct (each (nlopt_jac_row junk dp t1) 0 rows (repeat 0 (nb t1))); try discriminate. cbn in E. congruence.
Qed.
Lemma ip_step t0 K q t a t' : tree_ok t0 -> ip_sized (nb t0) K q -> state junk t0 K t -> ip_ans junk dp rows q t = Ok (a, t') -> state junk t0 K t'.
Proof.
  intros T0 Hq St E. destruct (St) as (T & Ch & N & _). destruct q as [x|x]; cbn [ip_sized ip_ans] in *; destruct Hq as [Lx Kx];
    [unfold ipopt_objective in E|unfold ipopt_gradient in E]; rewrite (slice_exact x (nb t)) in E by congruence; cbn [bind] in E;
    (destruct (set_parameters t x) as [t1| | |] eqn:E1; try discriminate); cbn [bind] in E.
  - destruct (each (ipopt_row junk dp t1) 0 rows 0); try discriminate. cbn in E. injection E as _ <-. eapply state_set; eassumption.
  - destruct (each (ipopt_jac_row junk dp t1) 0 rows (repeat 0 (nb t1))); try discriminate. cbn in E. injection E as _ <-. eapply state_set; eassumption.
Qed.
Lemma ceres_step logf bs t0 K q t a t' : tree_ok t0 -> length (snd (fst q)) = nb t0 /\ K (snd (fst q)) -> state junk t0 K t -> ceres_ans junk logf bs q t = Ok (a, t') -> state junk t0 K t'.
Proof.
  intros T0 [Lx Kx] St E. destruct q as [[b x] g]. cbn [fst snd] in *. destruct (St) as (T & Ch & N & _). unfold ceres_ans in E.
  destruct (nth_error bs b) as [xi|]; [|discriminate]. unfold ceres_evaluate in E.
  destruct (get_parameters_min junk t) as [mn| | |]; try discriminate. cbn [bind] in E.
  destruct (get_parameters_max junk t) as [mx| | |]; try discriminate. cbn [bind] in E.
  destruct (outside (nb t) 0 x mn mx) as [[|]| | |]; try discriminate; cbn [bind] in E.
  - injection E as _ <-. exact St.
  - rewrite (slice_exact x (nb t)) in E by congruence. cbn [bind] in E. destruct (set_parameters t x) as [t1| | |] eqn:E1; try discriminate. cbn [bind] in E. cbv zeta in E.
    assert (t' = t1) as ->; [|eapply state_set; eassumption].
    destruct (value junk t1 xi); try discriminate. cbn [bind] in E.
    destruct (sub_checked _ _); try discriminate. cbn [bind] in E.
    destruct (for_ _ _ _ (repeat junk (dimY (par_of t1)))); try discriminate. cbn [bind] in E.
    destruct g; [|congruence]. destruct (jacobian junk t1 xi); try discriminate. cbn [bind] in E.
    destruct (for_ _ _ _ _); try discriminate. cbn in E. congruence.
Qed.
End Protocol.

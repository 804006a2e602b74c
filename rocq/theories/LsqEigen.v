From Coq Require Import Reals List Arith Lia Lra.
From Verif Require Import Base Num ParamsModel GeoModel ArgsModel DataModel TextModel FuncModel MonoModel MonoProofs FuncFile RatModel RatSpec RatProofs QuadModel QuadSpec QuadProofs QuadFit QuadSizes LsqModel LsqSpec LsqProofs.
From Verif Require TextProofs.
Open Scope R_scope.

Section Eigen.
Variable junk : R.

(** ** The matrix *)
Definition e_col (r : rf1) (np nq : nat) (s : point) : list R := upper_row r np nq (fst s, 0, snd s).
Lemma e_columns_spec np nq r ss : well_formed r -> length (r_p r) = np -> length (r_q r) = nq -> points_ok (r_dim r) ss ->
  e_columns np nq r ss = Ok (List.map (e_col r np nq) ss).
Proof.
  intros (Hd & D & P & Q) Lp Lq. induction 1 as [|[x y] ss Hx _ IH]; cbn [e_columns List.map]; [reflexivity|]. cbn [fst] in Hx.
  unfold e_column. rewrite !basis_row_spec by (assumption || lia). cbn [bind]. rewrite IH. reflexivity.
Qed.
Lemma e_col_dot r a b s : dot (e_col r (length a) (length b) s) (a ++ b) =
  polynomial (r_dim r) (r_min r) (r_max r) a (fst s) - snd s * polynomial (r_dim r) (r_min r) (r_max r) b (fst s).
Proof. unfold e_col. rewrite upper_row_dot. reflexivity. Qed.
Lemma e_col_length r np nq s : length (e_col r np nq s) = (np + nq)%nat.
Proof. apply upper_row_length. Qed.
Lemma gram_shape n cols : length (gram n cols) = n /\ Forall (fun row => length row = n) (gram n cols).
Proof.
  unfold gram. split; [rewrite map_length; apply seq_length|]. apply Forall_forall. intros row H. apply in_map_iff in H as (a & <- & _).
  rewrite map_length. apply seq_length.
Qed.
Lemma nth_map_seq {A} (f : nat -> A) n a d : (a < n)%nat -> nth a (List.map f (seq 0 n)) d = f a.
Proof.
  intros H. rewrite (nth_indep _ d (f 0%nat)) by (rewrite map_length, seq_length; exact H). rewrite map_nth, seq_nth by exact H. reflexivity.
Qed.
Lemma gram_nth n cols a b : (a < n)%nat -> (b < n)%nat -> nth b (nth a (gram n cols) []) 0 = rsum (List.map (fun c => nth a c 0 * nth b c 0) cols).
Proof. intros Ha Hb. unfold gram. rewrite (nth_map_seq _ n a []) by exact Ha. rewrite (nth_map_seq _ n b 0) by exact Hb. reflexivity. Qed.

(** ** The spectral form of the error *)
Lemma spectral n cols l z : diagonalises n (gram n cols) l -> (forall c, In c cols -> length c = n) -> length z = n ->
  squares (fun c => dot c z) cols = rsum (List.map (fun e => fst e * (dot (snd e) z * dot (snd e) z)) l).
Proof.
  intros D Hc Hz. rewrite squares_rsum. rewrite (rsum_ext _ (fun c => 1 * (dot c z * dot c z))) by (intros; lra).
  rewrite (quad_form (fun _ => 1) (fun c => c) cols n z Hc Hz).
  rewrite (quad_form (fun e => fst e) (fun e => snd e) l n z); [|apply Forall_forall; exact (dia_sizes _ _ _ D)|exact Hz].
  apply rsum_ext. intros a Ha. apply rsum_ext. intros b Hb. apply in_seq in Ha. apply in_seq in Hb. f_equal.
  rewrite <- (dia_matrix _ _ _ D a b) by lia. rewrite gram_nth by lia. apply rsum_ext. intros; lra.
Qed.
Lemma parseval n M l z : diagonalises n M l -> length z = n -> rsum (List.map (fun e => dot (snd e) z * dot (snd e) z) l) = dot z z.
Proof.
  intros D Hz. rewrite (rsum_ext _ (fun e => 1 * (dot (snd e) z * dot (snd e) z))) by (intros; lra).
  rewrite (quad_form (fun _ => 1) (fun e => snd e) l n z); [|apply Forall_forall; exact (dia_sizes _ _ _ D)|exact Hz].
  rewrite (dot_nth z z n Hz Hz). apply rsum_ext. intros a Ha. apply in_seq in Ha.
  rewrite <- (delta_sum (fun b => nth a z 0 * nth b z 0) n 0 a) by lia. apply rsum_ext. intros b Hb. apply in_seq in Hb.
  f_equal. rewrite <- (dia_rows _ _ _ D a b) by lia. apply rsum_ext. intros; lra.
Qed.
Lemma rsum_pick {A} (f : A -> R) (l : list A) k e : nth_error l k = Some e -> (forall j x, nth_error l j = Some x -> j <> k -> f x = 0) -> rsum (List.map f l) = f e.
Proof.
  revert k. induction l as [|x l IH]; intros k He Hf; [destruct k; discriminate|]. cbn [List.map rsum]. destruct k as [|k]; cbn [nth_error] in He.
  - injection He as ->. rewrite (rsum_ext f (fun _ => 0)); [rewrite rsum_zero; lra|]. intros y Hy. apply In_nth_error in Hy as [j Hj]. apply (Hf (S j) y); [exact Hj|lia].
  - rewrite (Hf 0%nat x eq_refl) by lia. rewrite (IH k He); [lra|]. intros j y Hj Nj. apply (Hf (S j) y); [exact Hj|lia].
Qed.
Lemma eigenvalue_is_error n cols l k v lam : diagonalises n (gram n cols) l -> (forall c, In c cols -> length c = n) -> nth_error l k = Some (lam, v) ->
  length v = n /\ dot v v = 1 /\ squares (fun c => dot c v) cols = lam.
Proof.
  intros D Hc Hk. assert (Lv : length v = n) by (pose proof (dia_sizes _ _ _ D) as F; rewrite Forall_forall in F; exact (F _ (nth_error_In _ _ Hk))).
  assert (Hv : dot v v = 1) by (rewrite (dia_columns _ _ _ D k k _ _ Hk Hk : dot v v = delta k k); unfold delta; rewrite Nat.eqb_refl; reflexivity).
  split; [exact Lv|]. split; [exact Hv|]. rewrite (spectral n cols l v D Hc Lv).
  rewrite (rsum_pick (fun e => fst e * (dot (snd e) v * dot (snd e) v)) l k (lam, v) Hk); [cbn; rewrite Hv; lra|].
  intros j e Hj Nj. rewrite (dia_columns _ _ _ D j k _ _ Hj Hk : dot (snd e) v = delta j k). unfold delta. destruct (Nat.eqb_spec j k); [contradiction|lra].
Qed.
Lemma smallest_is_best n cols l z lam : diagonalises n (gram n cols) l -> (forall c, In c cols -> length c = n) -> length z = n -> dot z z = 1 ->
  (forall e, In e l -> lam <= fst e) -> lam <= squares (fun c => dot c z) cols.
Proof.
  intros D Hc Hz Hu Hl. rewrite (spectral n cols l z D Hc Hz). rewrite <- (Rmult_1_r lam), <- Hu, <- (parseval n _ l z D Hz), <- rsum_scale.
  apply rsum_le. intros e He. specialize (Hl e He). nra.
Qed.

(** ** The choice of the eigenvalue *)
Lemma min_loop_spec l : forall i id v, (id < i)%nat \/ v = double_max -> v <= double_max ->
  let (id', v') := min_loop l i id v in
  v' <= v /\ (forall e, In e l -> 0 <= fst e -> v' <= fst e) /\
  ((id', v') = (id, v) \/ (v' < v /\ 0 <= v' /\ exists k u, (id' = i + k)%nat /\ nth_error l k = Some (v', u) /\
     forall j e, (j < k)%nat -> nth_error l j = Some e -> 0 <= fst e -> v' < fst e)).
Proof.
  induction l as [|[w u] l IH]; intros i id v Hid Hv; cbn [min_loop].
  - split; [lra|]. split; [intros e []|left; reflexivity].
  - destruct (rleb 0 w && rltb w v) eqn:E.
    + apply andb_true_iff in E as [E1 E2]. apply TextProofs.rleb_spec in E1. apply rltb_spec in E2.
      specialize (IH (S i) i w (or_introl (Nat.lt_succ_diag_r i)) ltac:(lra)). destruct (min_loop l (S i) i w) as [id' v'].
      destruct IH as (A & B & C). split; [lra|]. split; [intros e [<-|He] H0; [exact A|exact (B e He H0)]|]. right.
      destruct C as [C|(C1 & C2 & k & u' & -> & Hk & Hj)].
      * injection C as -> ->. split; [lra|]. split; [lra|]. exists 0%nat, u. split; [lia|]. split; [reflexivity|]. intros j e Hj; lia.
      * split; [lra|]. split; [exact C2|]. exists (S k), u'. split; [lia|]. split; [exact Hk|]. intros [|j] e Hlt He H0.
        -- cbn in He. injection He as <-. cbn. exact C1.
        -- apply (Hj j e); [lia|exact He|exact H0].
    + specialize (IH (S i) id v ltac:(destruct Hid; [left; lia|right; assumption]) Hv). destruct (min_loop l (S i) id v) as [id' v'].
      destruct IH as (A & B & C).
      assert (Hw : 0 <= w -> v <= w). { intros H0. destruct (Rle_or_lt v w) as [Hh|Hh]; [exact Hh|]. rewrite (proj2 (TextProofs.rleb_spec 0 w) H0), (proj2 (rltb_spec w v) Hh) in E. discriminate. }
      split; [exact A|]. split; [intros e [<-|He] H0; [cbn in *; specialize (Hw H0); lra|exact (B e He H0)]|].
      destruct C as [C|(C1 & C2 & k & u' & -> & Hk & Hj)]; [left; exact C|right]. split; [exact C1|]. split; [exact C2|]. exists (S k), u'. split; [lia|]. split; [exact Hk|].
      intros [|j] e Hlt He H0; [cbn in He; injection He as <-; cbn in *; specialize (Hw H0); lra|]. apply (Hj j e); [lia|exact He|exact H0].
Qed.
Lemma min_loop_first l : match min_loop l 0 0 double_max with
  | (id, v) => (v = double_max /\ forall e, In e l -> 0 <= fst e -> double_max <= fst e) \/
      (0 <= v < double_max /\ exists u, nth_error l id = Some (v, u) /\ (forall e, In e l -> 0 <= fst e -> v <= fst e) /\
        forall j e, (j < id)%nat -> nth_error l j = Some e -> 0 <= fst e -> v < fst e) end.
Proof.
  pose proof (min_loop_spec l 0 0 double_max (or_intror eq_refl) (Rle_refl _)) as H. destruct (min_loop l 0 0 double_max) as [id v].
  destruct H as (A & B & [C|(C1 & C2 & k & u & -> & Hk & Hj)]).
  - injection C as -> ->. left. split; [reflexivity|exact B].
  - right. split; [lra|]. exists u. repeat split; assumption.
Qed.

(** ** The fit *)
Variable eigs : list (list R) -> option (list (R * list R)).
Hypothesis exact : exact_eigs eigs.

Lemma algebraic_cols r a b ss : algebraic_error (r_dim r) (r_min r) (r_max r) a b ss = squares (fun c => dot c (a ++ b)) (List.map (e_col r (length a) (length b)) ss).
Proof. unfold algebraic_error. rewrite squares_map. apply squares_ext. intros s _. rewrite e_col_dot. reflexivity. Qed.
Lemma cols_length r np nq ss c : In c (List.map (e_col r np nq) ss) -> length c = (np + nq)%nat.
Proof. intros H. apply in_map_iff in H as (s & <- & _). apply e_col_length. Qed.

Lemma eigen_true np nq r ss r' : well_formed r -> length (r_p r) = np -> length (r_q r) = nq -> (0 < nq)%nat -> points_ok (r_dim r) ss ->
  eigen_1d junk eigs np nq r ss = Ok (true, r') ->
  exists a b, best_algebraic (r_dim r) (r_min r) (r_max r) np nq a b ss /\ update junk r a b = Ok r' /\ algebraic_error (r_dim r) (r_min r) (r_max r) a b ss < double_max.
Proof.
  intros W Lp Lq Hq HP. unfold eigen_1d. rewrite e_columns_spec by assumption. cbn [bind]. set (cols := List.map (e_col r np nq) ss).
  assert (Hc : forall c, In c cols -> length c = (np + nq)%nat) by (intros c; apply cols_length).
  destruct (eigs (gram (np + nq) cols)) as [l|] eqn:El; [|discriminate].
  pose proof (exact _ _ _ (proj1 (gram_shape _ _)) (proj2 (gram_shape _ _)) El) as D.
  pose proof (min_loop_first l) as M. destruct (min_loop l 0 0 double_max) as [id v]. destruct (Req_EM_T v double_max) as [Ev|Nv]; [discriminate|].
  destruct M as [[M _]|(Hv & u & Hu & Hmin & _)]; [contradiction|]. rewrite Hu.
  destruct (eigenvalue_is_error _ _ _ _ _ _ D Hc Hu) as (Lu & Uu & Su).
  replace (length u - nq)%nat with np by lia. destruct (update junk r (firstn np u) (skipn np u)) as [r1| | |] eqn:Er; try discriminate. cbn [bind]. intros H. injection H as <-.
  assert (La : length (firstn np u) = np) by (rewrite firstn_length; lia). assert (Lb : length (skipn np u) = nq) by (rewrite skipn_length; lia).
  exists (firstn np u), (skipn np u).
  assert (Eu : algebraic_error (r_dim r) (r_min r) (r_max r) (firstn np u) (skipn np u) ss = v) by (rewrite algebraic_cols, La, Lb, firstn_skipn; exact Su).
  split; [|split; [exact Er|rewrite Eu; apply Hv]]. split; [exact La|]. split; [exact Lb|]. rewrite firstn_skipn. split; [exact Uu|]. intros a' b' La' Lb' U'. rewrite Eu.
  rewrite algebraic_cols, La', Lb'. apply (smallest_is_best (np + nq) cols l (a' ++ b') v D Hc); [rewrite app_length; lia|exact U'|].
  intros [lam w] He. apply Hmin; [exact He|]. apply In_nth_error in He as [k Hk]. cbn [fst]. destruct (eigenvalue_is_error _ _ _ _ _ _ D Hc Hk) as (_ & _ & <-). apply squares_nonneg.
Qed.
Lemma eigen_total np nq r ss : well_formed r -> length (r_p r) = np -> length (r_q r) = nq -> (0 < nq)%nat -> points_ok (r_dim r) ss ->
  exists b r', eigen_1d junk eigs np nq r ss = Ok (b, r').
Proof.
  intros W Lp Lq Hq HP. unfold eigen_1d. rewrite e_columns_spec by assumption. cbn [bind]. set (cols := List.map (e_col r np nq) ss).
  destruct (eigs (gram (np + nq) cols)) as [l|] eqn:El; [|eauto].
  pose proof (exact _ _ _ (proj1 (gram_shape _ _)) (proj2 (gram_shape _ _)) El) as D.
  pose proof (min_loop_first l) as M. destruct (min_loop l 0 0 double_max) as [id v]. destruct (Req_EM_T v double_max) as [Ev|Nv]; [eauto|].
  destruct M as [[M _]|(Hv & u & Hu & Hmin & _)]; [contradiction|]. rewrite Hu.
  assert (Lu : length u = (np + nq)%nat) by (pose proof (dia_sizes _ _ _ D) as F; rewrite Forall_forall in F; exact (F _ (nth_error_In _ _ Hu))).
  replace (length u - nq)%nat with np by lia.
  destruct (update_total junk r (firstn np u) (skipn np u) W) as [r' E]; [rewrite firstn_length; lia|rewrite skipn_length; lia| |].
  - intros E. assert (length (skipn np u) = 0%nat) by (rewrite E; reflexivity). rewrite skipn_length in H. lia.
  - rewrite E. cbn [bind]. eauto.
Qed.
Lemma eigen_false np nq r ss r' : well_formed r -> length (r_p r) = np -> length (r_q r) = nq -> (0 < nq)%nat -> points_ok (r_dim r) ss ->
  eigen_1d junk eigs np nq r ss = Ok (false, r') ->
  r' = r /\ (eigs (gram (np + nq) (List.map (e_col r np nq) ss)) = None \/
    forall a b, length a = np -> length b = nq -> dot (a ++ b) (a ++ b) = 1 -> double_max <= algebraic_error (r_dim r) (r_min r) (r_max r) a b ss).
Proof.
  intros W Lp Lq Hq HP. unfold eigen_1d. rewrite e_columns_spec by assumption. cbn [bind]. set (cols := List.map (e_col r np nq) ss).
  assert (Hc : forall c, In c cols -> length c = (np + nq)%nat) by (intros c; apply cols_length).
  destruct (eigs (gram (np + nq) cols)) as [l|] eqn:El; [|intros H; injection H as <-; auto].
  pose proof (exact _ _ _ (proj1 (gram_shape _ _)) (proj2 (gram_shape _ _)) El) as D.
  pose proof (min_loop_first l) as M. destruct (min_loop l 0 0 double_max) as [id v]. destruct (Req_EM_T v double_max) as [Ev|Nv].
  - intros H. injection H as <-. split; [reflexivity|]. right. intros a b La Lb U. destruct M as [[_ M]|((_ & Hv) & _)]; [|lra].
    rewrite algebraic_cols, La, Lb. apply (smallest_is_best (np + nq) cols l (a ++ b) double_max D Hc); [rewrite app_length; lia|exact U|].
    intros [lam w] He. apply M; [exact He|]. apply In_nth_error in He as [k Hk]. cbn [fst]. destruct (eigenvalue_is_error _ _ _ _ _ _ D Hc Hk) as (_ & _ & <-). apply squares_nonneg.
  - destruct (nth_error l id) as [[w u]|]; [|discriminate]. destruct (update _ _ _ _); discriminate.
Qed.
Lemma algebraic_scale r k a b ss : algebraic_error (r_dim r) (r_min r) (r_max r) (List.map (fun t => t / k) a) (List.map (fun t => t / k) b) ss =
  algebraic_error (r_dim r) (r_min r) (r_max r) a b ss / (k * k).
Proof.
  unfold algebraic_error. rewrite !squares_rsum. match goal with |- _ = rsum ?l / _ => transitivity (/ (k * k) * rsum l); [|unfold Rdiv; lra] end. rewrite <- rsum_scale. apply rsum_ext. intros s _. unfold polynomial. rewrite !poly_scale.
  unfold Rdiv. rewrite Rinv_mult. ring.
Qed.
Lemma unit_scale x : dot x x <> 0 -> let k := sqrt (dot x x) in k <> 0 /\ dot (List.map (fun t => t / k) x) (List.map (fun t => t / k) x) = 1.
Proof.
  intros H k. pose proof (dot_self_nonneg x). assert (0 < k) by (apply sqrt_lt_R0; lra). split; [lra|].
  rewrite (List.map_ext (fun t => t / k) (fun t => / k * t)) by (intros; unfold Rdiv; lra). rewrite dot_scale, dot_scale_r.
  assert (E : k * k = dot x x) by (apply sqrt_sqrt; lra). clearbody k. rewrite <- E. field. lra.
Qed.
(** Data that are a quotient are recovered *)
Lemma eigen_exact np nq r ss a b : well_formed r -> length (r_p r) = np -> length (r_q r) = nq -> (0 < nq)%nat -> points_ok (r_dim r) ss ->
  length a = np -> length b = nq -> dot (a ++ b) (a ++ b) <> 0 -> algebraic_error (r_dim r) (r_min r) (r_max r) a b ss = 0 ->
  forall r', eigen_1d junk eigs np nq r ss = Ok (true, r') ->
  Forall (fun s => polynomial (r_dim r) (r_min r) (r_max r) (getQ r') (fst s) <> 0 -> value1 r' (fst s) = Ok (snd s)) ss.
Proof.
  intros W Lp Lq Hq HP La Lb Hnz H0 r' E. destruct (eigen_true np nq r ss r' W Lp Lq Hq HP E) as (a1 & b1 & (L1 & L2 & U1 & Hbest) & Eu & _).
  set (k := sqrt (dot (a ++ b) (a ++ b))). destruct (unit_scale (a ++ b) Hnz) as [Hk Uk]. fold k in Hk, Uk. rewrite map_app in Uk.
  specialize (Hbest (List.map (fun t => t / k) a) (List.map (fun t => t / k) b)). rewrite !map_length in Hbest. specialize (Hbest La Lb Uk).
  rewrite algebraic_scale, H0 in Hbest. unfold Rdiv in Hbest. rewrite Rmult_0_l in Hbest.
  destruct b1 as [|b0 b1]; [cbn in L2; lia|]. destruct (update_spec junk r a1 b0 b1 W ltac:(congruence) ltac:(congruence)) as (r1 & E1 & W1 & D1 & D2 & D3 & G1 & G2 & _).
  rewrite E1 in Eu. injection Eu as ->. apply Forall_forall. intros s Hs Hn. unfold points_ok in HP. rewrite Forall_forall in HP. pose proof (HP s Hs) as Hx.
  rewrite value1_spec by (rewrite ?D1; assumption). rewrite D1, D2, D3. f_equal.
  pose proof (squares_zero _ _ Hbest s Hs) as Z. cbv beta in Z.
  assert (EQ : polynomial (r_dim r) (r_min r) (r_max r) (getP r') (fst s) = snd s * polynomial (r_dim r) (r_min r) (r_max r) (getQ r') (fst s)).
  { destruct (Rlt_or_le (1 / 10 ^ 16) (Rabs b0)) as [Hb|Hb].
    - destruct (G1 Hb) as [-> EQ]. assert (b0 <> 0) by (intros ->; rewrite Rabs_R0 in Hb; assert (0 < 1 / 10 ^ 16) by (apply Rdiv_lt_0_compat; [lra|apply pow_lt; lra]); lra).
      replace (getQ r') with (List.map (fun t => t / b0) (b0 :: b1)) by (rewrite EQ; cbn [List.map]; f_equal; field; assumption).
      unfold polynomial in *. rewrite !poly_scale. replace (polynomial_from 0 (r_dim r) (r_min r) (r_max r) a1 (fst s)) with (snd s * polynomial_from 0 (r_dim r) (r_min r) (r_max r) (b0 :: b1) (fst s)) by lra. unfold Rdiv. ring.
    - destruct (G2 Hb) as [-> ->]. lra. }
  rewrite EQ. field. exact Hn.
Qed.
End Eigen.

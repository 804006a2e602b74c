(** Least squares fitting of rational functions: C64, C65. *)
From Coq Require Import Reals List Arith Lia Lra.
From Verif Require Import Base Num ParamsModel GeoModel ArgsModel DataModel TextModel FuncModel MonoModel FuncFile RatModel RatSpec RatProofs QuadModel QuadSpec QuadProofs QuadSizes LsqModel LsqSpec LsqProofs LsqEigen LsqIter.
Import ListNotations.
Open Scope R_scope.

(** ** C64: the eigen fitter *)
(** When a fit is announced, every channel of the data has a channel of the
    function whose coefficients are, up to a common factor, a unit vector of least
    sum_i (p(x_i) - y_i q(x_i))^2, on the data's domain (flat sides widened). *)
Theorem C64_minimises_algebraic_error : forall junk eigs np nq mn mx channels f f', exact_eigs eigs ->
  (0 < f_dimX f)%nat -> length mn = f_dimX f -> length mx = f_dimX f -> (length channels <= f_dimY f)%nat -> (0 < nq)%nat -> Forall (points_ok (f_dimX f)) channels ->
  lsq_fit junk (eigen_1d junk eigs) np nq mn mx channels f = Ok (true, f') ->
  f_dimX f' = f_dimX f /\ f_dimY f' = f_dimY f /\ f_min f' = mn /\ f_max f' = mx /\
  forall j ss, nth_error channels j = Some ss -> exists r a b k, channel_of f' j r /\ r_dim r = f_dimX f /\ widened (1 / 10) mn mx (r_min r) (r_max r) /\
    best_algebraic (r_dim r) (r_min r) (r_max r) np nq a b ss /\
    k <> 0 /\ getP r = map (fun t => t / k) a /\ getQ r = map (fun t => t / k) b.
Proof.
  intros junk eigs np nq mn mx channels f f' He Hd Hm HM HL Hq HP E.
  destruct (lsq_fit_true junk _ np nq mn mx channels f f' Hd Hm HM HL E) as [F H]. injection F as F1 F2 F3 F4 _ _. repeat (split; [assumption|]).
  destruct (fresh_wf junk (f_dimX f) np nq mn mx Hd Hm HM) as (W & D & L1 & L2 & R1 & R2).
  intros j ss Hj. destruct (H j ss Hj) as (r & Hr & Er). rewrite Forall_forall in HP. pose proof (HP ss (nth_error_In _ _ Hj)) as Hss. rewrite <- D in Hss.
  destruct (eigen_true junk eigs He np nq _ ss r W L1 L2 Hq Hss Er) as (a & b & B & Eu & _).
  destruct (updated junk _ a b r ss W ltac:(rewrite L1; apply B) ltac:(rewrite L2; apply B) Eu Hss) as (_ & D1 & D2 & D3 & k & Hk & EP & EQ).
  exists r, a, b, k. split; [exact Hr|]. split; [congruence|]. rewrite D1, D2, D3, R1, R2. split; [apply inflate_widened; congruence|]. rewrite R1, R2 in B. repeat (split; [assumption|]). assumption.
Qed.
Print Assumptions C64_minimises_algebraic_error.

(** Data that are a quotient of polynomials of these sizes are reproduced wherever
    the fitted denominator does not vanish. *)
Theorem C64_reproduces_quotients : forall junk eigs np nq r ss a b r', exact_eigs eigs ->
  well_formed r -> length (r_p r) = np -> length (r_q r) = nq -> (0 < nq)%nat -> points_ok (r_dim r) ss ->
  length a = np -> length b = nq -> (exists t, In t (a ++ b) /\ t <> 0) ->
  Forall (fun s : point => polynomial (r_dim r) (r_min r) (r_max r) a (fst s) = snd s * polynomial (r_dim r) (r_min r) (r_max r) b (fst s)) ss ->
  eigen_1d junk eigs np nq r ss = Ok (true, r') ->
  Forall (fun s : point => polynomial (r_dim r) (r_min r) (r_max r) (getQ r') (fst s) <> 0 -> value1 r' (fst s) = Ok (snd s)) ss.
Proof.
  intros junk eigs np nq r ss a b r' He W Lp Lq Hq HP La Lb (t & Ht & Nt) H0 E. apply (eigen_exact junk eigs He np nq r ss a b); try assumption.
  - intros Z. apply Nt. clear -Ht Z. induction (a ++ b) as [|u l IH]; [destruct Ht|]. cbn [dot] in Z. pose proof (dot_self_nonneg l). destruct Ht as [->|Ht]; [nra|]. apply IH; [exact Ht|nra].
  - unfold algebraic_error. rewrite (squares_ext _ (fun _ => 0)); [rewrite squares_rsum, (rsum_ext _ (fun _ => 0)) by (intros; lra); apply rsum_zero|].
    intros s Hs. rewrite Forall_forall in H0. rewrite (H0 s Hs). lra.
Qed.
Print Assumptions C64_reproduces_quotients.

(** It gives up, leaving the channel alone, only when the decomposition fails or
    when no coefficients have a representable error. *)
Theorem C64_when_it_fails : forall junk eigs np nq r ss, exact_eigs eigs ->
  well_formed r -> length (r_p r) = np -> length (r_q r) = nq -> (0 < nq)%nat -> points_ok (r_dim r) ss ->
  exists ok r', eigen_1d junk eigs np nq r ss = Ok (ok, r') /\
  (ok = false -> r' = r /\ ((exists M, eigs M = None) \/
    forall a b, length a = np -> length b = nq -> dot (a ++ b) (a ++ b) = 1 -> double_max <= algebraic_error (r_dim r) (r_min r) (r_max r) a b ss)).
Proof.
  intros junk eigs np nq r ss He W Lp Lq Hq HP. destruct (eigen_total junk eigs He np nq r ss W Lp Lq Hq HP) as (b & r' & E). exists b, r'. split; [exact E|].
  intros ->. destruct (eigen_false junk eigs He np nq r ss r' W Lp Lq Hq HP E) as [-> [H|H]]; split; eauto.
Qed.
Print Assumptions C64_when_it_fails.

(** Whatever the decomposition gives, the coefficients are those of the first of
    the smallest eigenvalues that are not negative. *)
Theorem C64_chosen_eigenvector : forall junk eigs np nq r ss cols l r', e_columns np nq r ss = Ok cols -> eigs (gram (np + nq) cols) = Some l ->
  eigen_1d junk eigs np nq r ss = Ok (true, r') ->
  exists k lam v, nth_error l k = Some (lam, v) /\ 0 <= lam < double_max /\ (forall e, In e l -> 0 <= fst e -> lam <= fst e) /\
    (forall j e, (j < k)%nat -> nth_error l j = Some e -> 0 <= fst e -> lam < fst e) /\
    (length v = (np + nq)%nat -> update junk r (firstn np v) (skipn np v) = Ok r').
Proof.
  intros junk eigs np nq r ss cols l r' Ec El. unfold eigen_1d. rewrite Ec. cbn [bind]. rewrite El. pose proof (min_loop_first l) as M.
  destruct (min_loop l 0 0 double_max) as [id v]. destruct (Req_EM_T v double_max); [discriminate|]. destruct M as [[M _]|(Hv & u & Hu & H1 & H2)]; [contradiction|].
  rewrite Hu. destruct (update _ _ _ _) as [r1| | |] eqn:Eu; try discriminate. cbn [bind]. intros H. injection H as <-.
  exists id, v, u. repeat (split; [assumption|]). intros L. rewrite <- Eu. f_equal. f_equal. lia.
Qed.
Print Assumptions C64_chosen_eigenvector.

(** The data must not have more outputs than the function: the missing channel is
    a null pointer. *)
Theorem C64_more_outputs_refuted : forall junk fit1 np nq mn mx channels f, (0 < f_dimX f)%nat -> length mn = f_dimX f -> length mx = f_dimX f -> (f_dimY f < length channels)%nat ->
  (forall r ss, exists r', fit1 np nq r ss = Ok (true, r')) -> lsq_fit junk fit1 np nq mn mx channels f = UB.
Proof. intros. apply lsq_fit_null; auto. Qed.
Print Assumptions C64_more_outputs_refuted.

(** ** C65: the alternating least squares fitter *)
(** Every fit is announced a success.  After at least one iteration, for each
    channel the numerator is, for the denominator found, the one of least
    sum_i (p(x_i)/q(x_i) - y_i)^2, provided the denominator does not vanish at the
    samples. *)
Theorem C65_best_numerator : forall junk qr wild n np nq mn mx channels f, exact_qr qr -> (forall n, length (wild n) = n) ->
  (0 < f_dimX f)%nat -> length mn = f_dimX f -> length mx = f_dimX f -> (length channels <= f_dimY f)%nat -> Forall (points_ok (f_dimX f)) channels ->
  (0 < n)%nat -> (0 < np)%nat -> (0 < nq)%nat ->
  exists f', lsq_fit junk (lsq_1d junk qr wild n) np nq mn mx channels f = Ok (true, f') /\
  f_dimX f' = f_dimX f /\ f_dimY f' = f_dimY f /\ f_min f' = mn /\ f_max f' = mx /\
  forall j ss, nth_error channels j = Some ss -> exists r, channel_of f' j r /\ r_dim r = f_dimX f /\ widened (1 / 10) mn mx (r_min r) (r_max r) /\
    length (getP r) = np /\ length (getQ r) = nq /\
    (defined_at (r_dim r) (r_min r) (r_max r) (getQ r) ss ->
       takes r (fun s => polynomial (r_dim r) (r_min r) (r_max r) (getP r) (fst s) / polynomial (r_dim r) (r_min r) (r_max r) (getQ r) (fst s)) ss /\
       forall a, length a = np -> quotient_error (r_dim r) (r_min r) (r_max r) (getP r) (getQ r) ss <= quotient_error (r_dim r) (r_min r) (r_max r) a (getQ r) ss).
Proof.
  intros junk qr wild n np nq mn mx channels f He Hw Hd Hm HM HL HP Hn Hnp Hnq. destruct n as [|n]; [lia|]. destruct np as [|np]; [lia|]. destruct nq as [|nq]; [lia|].
  destruct (fresh_wf junk (f_dimX f) (S np) (S nq) mn mx Hd Hm HM) as (W & D & L1 & L2 & R1 & R2). rewrite Forall_forall in HP.
  assert (HB : forall ss, In ss channels -> points_ok (r_dim (fresh junk (f_dimX f) (S np) (S nq) mn mx)) ss) by (intros ss Hs; rewrite D; auto).
  destruct (lfits_all (lsq_1d junk qr wild (S n) (S np) (S nq)) (fresh junk (f_dimX f) (S np) (S nq) mn mx) channels) as (us & Eu).
  { intros ss Hs. destruct (lsq_1d_best junk qr wild He Hw n np nq _ ss W L1 L2 (HB ss Hs)) as (r & E & _). eauto. }
  eexists. split; [rewrite lsq_fit_spec by assumption; rewrite Eu; reflexivity|]. cbn [f_dimX f_dimY f_min f_max]. repeat (split; [reflexivity|]).
  intros j ss Hj.
  assert (E : lsq_fit junk (lsq_1d junk qr wild (S n)) (S np) (S nq) mn mx channels f = Ok (true, mkRf (f_dimX f) (f_dimY f) mn mx (S np) (S nq) (map Some us ++ repeat None (f_dimY f - length us)))) by (rewrite lsq_fit_spec by assumption; rewrite Eu; reflexivity).
  destruct (proj2 (lsq_fit_true junk _ (S np) (S nq) mn mx channels f _ Hd Hm HM HL E) j ss Hj) as (r & Hr & Er). exists r. split; [exact Hr|].
  destruct (lsq_1d_best junk qr wild He Hw n np nq _ ss W L1 L2 (HB ss (nth_error_In _ _ Hj))) as (r2 & E2 & W2 & D2 & P2 & Q2 & B2). rewrite Er in E2. injection E2 as <-. assert (D3 : r_dim r = f_dimX f) by (rewrite <- D; congruence). assert (D4 : r_min r = fst (inflate mn mx)) by (rewrite <- R1; congruence). assert (D5 : r_max r = snd (inflate mn mx)) by (rewrite <- R2; congruence). clear D2.
  split; [exact D3|]. rewrite D, R1, R2 in B2. rewrite D3, D4, D5. split; [apply inflate_widened; congruence|]. split; [exact P2|]. split; [exact Q2|]. intros HD. split; [|apply B2; exact HD].
  unfold takes. apply Forall_forall. intros s Hs. rewrite value1_spec; [rewrite D3, D4, D5; reflexivity|exact W2|]. pose proof (HB ss (nth_error_In _ _ Hj)) as Hp. unfold points_ok in Hp. rewrite Forall_forall in Hp. rewrite D3, <- D. auto.
Qed.
Print Assumptions C65_best_numerator.

(** The denominator minimises sum_i (y_i (y_i q(x_i) - p0(x_i)))^2 where p0 is the
    numerator before: the constant one for the first iteration. *)
Theorem C65_denominator : forall junk qr wild n np nq r ss, exact_qr qr -> (forall n, length (wild n) = n) ->
  well_formed r -> length (r_p r) = np -> length (r_q r) = nq -> (0 < np)%nat -> (0 < nq)%nat -> points_ok (r_dim r) ss -> (0 < n)%nat ->
  exists p0 p q r', lsq_1d junk qr wild n np nq r ss = Ok (true, r') /\ update junk r p q = Ok r' /\ length p0 = np /\ length p = np /\ length q = nq /\
    (n = 1%nat -> forall x, polynomial (r_dim r) (r_min r) (r_max r) p0 x = 1) /\
    forall b, length b = nq -> weighted_error (r_dim r) (r_min r) (r_max r) p0 q ss <= weighted_error (r_dim r) (r_min r) (r_max r) p0 b ss.
Proof.
  intros junk qr wild n np nq r ss He Hw W Lp Lq Hnp Hnq HP Hn. destruct n as [|n]; [lia|]. destruct np as [|np]; [lia|]. destruct nq as [|nq]; [lia|].
  destruct (lsq_1d_spec junk qr wild He Hw n np nq r ss W Lp Lq HP) as (p0 & p & q & r' & E & Eu & (A0 & A1 & A2 & A3 & _) & H0).
  exists p0, p, q, r'. repeat (split; [assumption|]). split; [|exact A3]. intros H1 x. rewrite H0 by lia. apply poly_one.
Qed.
Print Assumptions C65_denominator.

(** Data that are the inverse of a polynomial of this size are reproduced. *)
Theorem C65_reproduces_inverses : forall junk qr wild np nq r ss b, exact_qr qr -> (forall n, length (wild n) = n) ->
  well_formed r -> length (r_p r) = np -> length (r_q r) = nq -> (0 < np)%nat -> (0 < nq)%nat -> points_ok (r_dim r) ss ->
  length b = nq -> Forall (fun s : point => snd s * polynomial (r_dim r) (r_min r) (r_max r) b (fst s) = 1) ss ->
  exists r', lsq_1d junk qr wild 1 np nq r ss = Ok (true, r') /\ Forall (fun s : point => value1 r' (fst s) = Ok (snd s)) ss.
Proof.
  intros junk qr wild np nq r ss b He Hw W Lp Lq Hnp Hnq HP Lb H. destruct np as [|np]; [lia|]. destruct nq as [|nq]; [lia|].
  exact (lsq_1d_inverse junk qr wild He Hw np nq r ss b W Lp Lq HP Lb H).
Qed.
Print Assumptions C65_reproduces_inverses.

(** With --max-iter 0 the fit is announced a success although the denominator was
    never computed. *)
Theorem C65_no_iterations_refuted : forall junk qr wild np nq r ss, well_formed r -> length (r_p r) = S np -> length (r_q r) = S nq -> points_ok (r_dim r) ss ->
  exists r', lsq_1d junk qr wild 0 (S np) (S nq) r ss = Ok (true, r') /\ update junk r (1 :: repeat 0 np) (repeat junk (S nq)) = Ok r'.
Proof. intros. apply lsq_1d_none; assumption. Qed.
Print Assumptions C65_no_iterations_refuted.

(** ** Cases *)
(** Two samples of value 5/2 and 1/2 fitted by a constant over a constant: the matrix
    is [2 -3; -3 13/2], its eigenvalues 1/2 and 8, and the fit is the constant 2. *)
Definition s5 : R := / sqrt 5.
Lemma s5_sq : s5 * s5 = / 5.
Proof. unfold s5. rewrite <- Rinv_mult, sqrt_sqrt by lra. reflexivity. Qed.
Definition case_eigs (M : list (list R)) : option (list (R * list R)) :=
  match M with
  | [[m1; m2]; [m3; m4]] =>
      if Req_EM_T m1 2 then if Req_EM_T m2 (-3) then if Req_EM_T m3 (-3) then if Req_EM_T m4 (13 / 2) then
        Some [(1 / 2, [2 * s5; 1 * s5]); (8, [1 * s5; -2 * s5])] else None else None else None else None
  | _ => None
  end.
Lemma case_exact : exact_eigs case_eigs.
Proof.
  intros n M l Hn HM E. destruct M as [|[|m1 [|m2 [|]]] [|[|m3 [|m4 [|]]] [|]]]; cbn in E; try discriminate.
  destruct (Req_EM_T m1 2) as [->|]; [|discriminate]. destruct (Req_EM_T m2 (-3)) as [->|]; [|discriminate]. destruct (Req_EM_T m3 (-3)) as [->|]; [|discriminate]. destruct (Req_EM_T m4 (13 / 2)) as [->|]; [|discriminate].
  injection E as <-. cbn in Hn. subst n. pose proof s5_sq as S. split.
  - reflexivity.
  - repeat constructor.
  - intros [|[|a]] [|[|b]] Ha Hb; try lia; cbn; nra.
  - intros [|[|a]] [|[|b]] Ha Hb; try lia; cbn; unfold delta; cbn; nra.
  - intros [|[|j]] [|[|k]] e1 e2 H1 H2; cbn in H1, H2; try (destruct j; discriminate); try (destruct k; discriminate); injection H1 as <-; injection H2 as <-; cbn; unfold delta; cbn; nra.
Qed.
Definition case_f := mkRf 1 1 [0] [1] 1 1 [None].
Definition case_points : list point := [([0], 5 / 2); ([1], 1 / 2)].
Example C64_case : exists f', lsq_fit 0 (eigen_1d 0 case_eigs) 1 1 [0] [1] [case_points] case_f = Ok (true, f') /\ exists r, channel_of f' 0 r /\ getP r = [2] /\ getQ r = [1].
Proof.
  pose proof s5_sq as S. assert (P5 : 0 < s5) by (apply Rinv_0_lt_compat, sqrt_lt_R0; lra).
  assert (B5 : 1 / 10 ^ 16 < Rabs (1 * s5)). { rewrite Rabs_right by lra. assert (1 / 3 < s5) by nra. assert (1 / 10 ^ 16 < 1 / 3) by lra. lra. }
  rewrite lsq_fit_spec by (cbn; lia). cbn [lfits f_dimX f_dimY case_f].
  destruct (fresh_wf 0 1 1 1 [0] [1] ltac:(lia) eq_refl eq_refl) as (W & D & L1 & L2 & R1 & R2). set (r := fresh 0 1 1 1 [0] [1]) in *.
  assert (E : exists r', eigen_1d 0 case_eigs 1 1 r case_points = Ok (true, r') /\ getP r' = [2] /\ getQ r' = [1]).
  { unfold eigen_1d. rewrite e_columns_spec; [|assumption|assumption|assumption|rewrite D; repeat constructor]. cbn [bind].
    assert (Ec : map (e_col r 1 1) case_points = [[1; - (5 / 2)]; [1; - (1 / 2)]]).
    { unfold case_points, e_col, upper_row. cbn [map position upper fst snd]. rewrite !monos_first. cbn [map seq app]. repeat (f_equal; try lra). }
    rewrite Ec. cbn [gram seq map rsum nth Nat.add]. cbn [case_eigs].
    destruct (Req_EM_T _ 2) as [_|N]; [|exfalso; apply N; lra]. destruct (Req_EM_T _ (-3)) as [_|N]; [|exfalso; apply N; lra].
    destruct (Req_EM_T _ (-3)) as [_|N]; [|exfalso; apply N; lra]. destruct (Req_EM_T _ (13 / 2)) as [_|N]; [|exfalso; apply N; lra].
    assert (HM : 100 < double_max). { unfold double_max. assert (2 ^ 10 <= 2 ^ 1023) by (apply Rle_pow; [lra|apply Nat.leb_le; reflexivity]). assert (/ 2 ^ 52 <= 1) by (rewrite <- Rinv_1; apply Rinv_le_contravar; [lra|apply pow_R1_Rle; lra]).
      cbn [pow] in H. nra. }
    cbn [min_loop]. rewrite (proj2 (TextProofs.rleb_spec 0 (1 / 2))) by lra. rewrite (proj2 (rltb_spec (1 / 2) double_max)) by lra. cbn [andb].
    replace (rltb 8 (1 / 2)) with false by (unfold rltb; destruct Rlt_dec; [lra|reflexivity]). rewrite andb_false_r.
    destruct (Req_EM_T (1 / 2) double_max); [lra|]. cbn [nth_error firstn skipn length Nat.sub].
    destruct (update_spec 0 r [2 * s5] (1 * s5) [] W) as (r' & E & _ & _ & _ & _ & G & _); [rewrite L1; reflexivity|rewrite L2; reflexivity|].
    rewrite E. cbn [bind]. exists r'. split; [reflexivity|]. destruct (G B5) as [-> ->]. cbn [map]. split; [f_equal; field; lra|reflexivity]. }
  destruct E as (r' & E & EP & EQ). rewrite E. cbn [bind fst snd lfits]. eexists. split; [reflexivity|]. exists r'. split; [reflexivity|]. split; assumption.
Qed.

(** An exact solver of least squares problems exists; with it, samples of 1/(1 + u) are reproduced. *)
Example C65_solver : exists qr, exact_qr qr.
Proof. eexists. exact exact_qr_exists. Qed.
Example C65_case : exists r', lsq_1d 0 (fun n A b => gs n (columns n A) b) (fun n => repeat 0 n) 1 1 2 (fresh 0 1 1 2 [-1] [1]) [([0], 1); ([1], 1 / 2)] = Ok (true, r') /\
  value1 r' [0] = Ok 1 /\ value1 r' [1] = Ok (1 / 2).
Proof.
  destruct (fresh_wf 0 1 1 2 [-1] [1] ltac:(lia) eq_refl eq_refl) as (W & D & L1 & L2 & R1 & R2). set (r := fresh 0 1 1 2 [-1] [1]) in *.
  destruct (C65_reproduces_inverses 0 _ (fun n => repeat 0 n) 1 2 r [([0], 1); ([1], 1 / 2)] [1; 1] exact_qr_exists (fun n => repeat_length 0 n) W L1 L2) as (r' & E & H).
  - lia.
  - lia.
  - rewrite D. repeat constructor.
  - reflexivity.
  - rewrite D, R1, R2. cbn [inflate fst snd]. destruct (Req_EM_T (-1) 1); [lra|]. cbn [fst snd]. repeat constructor; cbn; unfold rescaled; lra.
  - exists r'. split; [exact E|]. pose proof (Forall_inv H) as H1. pose proof (Forall_inv (Forall_inv_tail H)) as H2. split; assumption.
Qed.

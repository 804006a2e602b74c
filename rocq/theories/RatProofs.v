(** Rational functions (C32). *)
From Coq Require Import Reals List Lia Lra.
From Verif Require Import Base Num ParamsModel GeoModel ArgsModel DataModel TextModel TextProofs FuncModel MonoModel MonoSpec MonoProofs FuncFile RatModel RatSpec.
Open Scope R_scope.

Lemma rltb_spec a b : rltb a b = true <-> a < b.
Proof. unfold rltb. destruct Rlt_dec; split; intros; auto; discriminate. Qed.

Section Rat.
Variable junk : R.

(** ** structure *)
Lemma set_degrees_length d cs : forall k, length (set_degrees d k cs) = length cs.
Proof. induction cs as [|c cs IH]; intros k; cbn; auto. Qed.
Lemma set_degrees_deg d cs : forall k, map co_deg (set_degrees d k cs) = map (index2degree d) (seq k (length cs)).
Proof. induction cs as [|c cs IH]; intros k; cbn; [reflexivity|]. rewrite IH. reflexivity. Qed.
Lemma vector_resize_length cs n : length (vector_resize junk cs n) = n.
Proof. unfold vector_resize. rewrite app_length, firstn_length, repeat_length. lia. Qed.
Lemma resize_coeffs_length d cs n : length (resize_coeffs junk d cs n) = n.
Proof. unfold resize_coeffs. destruct (Nat.eqb_spec (length cs) n); [assumption|]. rewrite set_degrees_length. apply vector_resize_length. Qed.
Lemma resize_numbered d cs n : numbered d cs -> numbered d (resize_coeffs junk d cs n).
Proof.
  intros H. unfold resize_coeffs. destruct (Nat.eqb_spec (length cs) n); [assumption|].
  unfold numbered. rewrite set_degrees_deg, set_degrees_length. reflexivity.
Qed.
Lemma assign_length cs : forall v b, length cs = length v -> length (assign cs v b) = length v.
Proof. induction cs as [|c cs IH]; intros [|x v] b H; try discriminate; [reflexivity|]. cbn in *. injection H as H. rewrite IH; auto. Qed.
Lemma assign_a cs : forall v b, length cs = length v -> map co_a (assign cs v b) = map (fun x => x / b) v.
Proof. induction cs as [|c cs IH]; intros [|x v] b H; try discriminate; [reflexivity|]. cbn in *. injection H as H. rewrite IH; auto. Qed.
Lemma assign_deg cs : forall v b, length cs = length v -> map co_deg (assign cs v b) = map co_deg cs.
Proof. induction cs as [|c cs IH]; intros [|x v] b H; try discriminate; [reflexivity|]. cbn in *. injection H as H. rewrite IH; auto. Qed.
Lemma assign_numbered d cs v b : length cs = length v -> numbered d cs -> numbered d (assign cs v b).
Proof. intros H N. unfold numbered in *. rewrite assign_deg, assign_length, N, H by assumption. reflexivity. Qed.

Lemma resize_wf r np nq : well_formed r -> well_formed (resize junk r np nq).
Proof.
  intros (H & D & P & Q). unfold resize. destruct (Nat.eqb_spec (r_dim r) 0); [lia|].
  repeat split; cbn; try apply D; auto using resize_numbered.
Qed.
Lemma resize_sizes r np nq : (0 < r_dim r)%nat -> length (r_p (resize junk r np nq)) = np /\ length (r_q (resize junk r np nq)) = nq.
Proof. intros H. unfold resize. destruct (Nat.eqb_spec (r_dim r) 0); [lia|]. cbn. split; apply resize_coeffs_length. Qed.
Lemma resize_keeps r np nq : r_dim (resize junk r np nq) = r_dim r /\ r_min (resize junk r np nq) = r_min r /\ r_max (resize junk r np nq) = r_max r.
Proof. unfold resize. destruct (_ =? _)%nat; auto. Qed.
Lemma new_wf nX np nq mn mx : (0 < nX)%nat -> domain_ok nX mn mx ->
  let r := set_domain (new_rf1 junk nX np nq) mn mx in
  well_formed r /\ r_dim r = nX /\ length (r_p r) = np /\ length (r_q r) = nq /\ r_min r = mn /\ r_max r = mx.
Proof.
  intros H D. unfold new_rf1, set_domain. set (r0 := mkRf1 nX (repeat 0 nX) (repeat 0 nX) [] []).
  destruct (resize_sizes r0 np nq H) as [A B]. destruct (resize_keeps r0 np nq) as (E & _ & _).
  cbv zeta. unfold well_formed. cbn [r_dim r_p r_q r_min r_max]. rewrite E. change (r_dim r0) with nX. repeat split; auto; try apply D.
  - unfold r0, resize. cbn. destruct (Nat.eqb_spec nX 0); [lia|]. cbn. apply resize_numbered. reflexivity.
  - unfold r0, resize. cbn. destruct (Nat.eqb_spec nX 0); [lia|]. cbn. apply resize_numbered. reflexivity.
Qed.

(** ** values *)
Lemma basis_loop_spec n : forall k mn mx x deg res, length (skipn k mn) = n -> length (skipn k mx) = n -> length (skipn k x) = n -> length (skipn k deg) = n ->
  Forall2 (fun lo hi => lo <> hi) (skipn k mn) (skipn k mx) ->
  basis_loop n k mn mx x deg res = Ok (res * monomial (skipn k mn) (skipn k mx) (skipn k x) (skipn k deg)).
Proof.
  assert (S1 : forall A (l : list A) k a t, skipn k l = a :: t -> nth_error l k = Some a /\ skipn (S k) l = t).
  { intros A l. induction l as [|y l IH]; intros [|k] a t E; try discriminate.
    - injection E as -> ->. split; reflexivity.
    - exact (IH k a t E). }
  induction n as [|n IH]; intros k mn mx x deg res H1 H2 H3 H4 HF; cbn [basis_loop].
  - apply length_zero_iff_nil in H1. rewrite H1. cbn. f_equal. lra.
  - destruct (skipn k mn) as [|lo mn'] eqn:E1; [discriminate|]. destruct (skipn k mx) as [|hi mx'] eqn:E2; [discriminate|].
    destruct (skipn k x) as [|t x'] eqn:E3; [discriminate|]. destruct (skipn k deg) as [|e deg'] eqn:E4; [discriminate|].
    apply S1 in E1 as [A1 B1]. apply S1 in E2 as [A2 B2]. apply S1 in E3 as [A3 B3]. apply S1 in E4 as [A4 B4].
    unfold rd. rewrite A1, A2, A3, A4. cbn [bind]. inversion HF as [|? ? ? ? Hne HF']; subst.
    rewrite IH; [|cbn in *; lia|cbn in *; lia|cbn in *; lia|cbn in *; lia|assumption].
    cbn [monomial]. f_equal. rewrite Rmult_assoc. f_equal. f_equal. f_equal. unfold rescaled. field. lra.
Qed.
Lemma basis_spec r x c : domain_ok (r_dim r) (r_min r) (r_max r) -> length x = r_dim r -> length (co_deg c) = r_dim r ->
  basis r x c = Ok (monomial (r_min r) (r_max r) x (co_deg c)).
Proof.
  intros (A & B & C) Hx Hc. unfold basis. rewrite (basis_loop_spec (r_dim r) 0); cbn [skipn]; auto. f_equal. lra.
Qed.
Lemma combination_from r x : domain_ok (r_dim r) (r_min r) (r_max r) -> (0 < r_dim r)%nat -> length x = r_dim r ->
  forall cs i acc, map co_deg cs = map (index2degree (r_dim r)) (seq i (length cs)) ->
  combination r x cs acc = Ok (acc + polynomial_from i (r_dim r) (r_min r) (r_max r) (map co_a cs) x).
Proof.
  intros D Hd Hx. induction cs as [|c cs IH]; intros i acc H; cbn [combination].
  - cbn. f_equal. lra.
  - cbn in H. injection H as H1 H2. rewrite basis_spec; [|assumption|assumption|rewrite H1; apply index2degree_length; assumption].
    cbn [bind]. rewrite (IH (S i)) by assumption. cbn [map polynomial_from]. rewrite H1. f_equal. lra.
Qed.
Lemma combination_spec r x cs acc : domain_ok (r_dim r) (r_min r) (r_max r) -> (0 < r_dim r)%nat -> length x = r_dim r ->
  numbered (r_dim r) cs -> combination r x cs acc = Ok (acc + polynomial (r_dim r) (r_min r) (r_max r) (map co_a cs) x).
Proof. intros. apply combination_from; assumption. Qed.

Theorem value1_spec r x : well_formed r -> length x = r_dim r ->
  value1 r x = Ok (polynomial (r_dim r) (r_min r) (r_max r) (getP r) x / polynomial (r_dim r) (r_min r) (r_max r) (getQ r) x).
Proof.
  intros (H & D & P & Q) Hx. unfold value1. rewrite !combination_spec by assumption. cbn [bind]. rewrite !Rplus_0_l. reflexivity.
Qed.

Lemma poly_scale s d mn mx a x : forall i, polynomial_from i d mn mx (map (fun t => t / s) a) x = polynomial_from i d mn mx a x / s.
Proof. induction a as [|y a IH]; intros i; cbn [map polynomial_from]; [unfold Rdiv; lra|]. rewrite IH. unfold Rdiv. lra. Qed.

(** ** update *)
Theorem update_spec r a b_0 b : well_formed r -> length a = length (r_p r) -> length (b_0 :: b) = length (r_q r) ->
  exists r', update junk r a (b_0 :: b) = Ok r' /\ well_formed r' /\ r_dim r' = r_dim r /\ r_min r' = r_min r /\ r_max r' = r_max r /\
    (1 / 10 ^ 16 < Rabs b_0 -> getP r' = map (fun t => t / b_0) a /\ getQ r' = 1 :: map (fun t => t / b_0) b) /\
    (Rabs b_0 <= 1 / 10 ^ 16 -> getP r' = a /\ getQ r' = b_0 :: b) /\
    (forall x, length x = r_dim r -> polynomial (r_dim r) (r_min r) (r_max r) (b_0 :: b) x <> 0 -> value1 r' x = Ok (polynomial (r_dim r) (r_min r) (r_max r) a x / polynomial (r_dim r) (r_min r) (r_max r) (b_0 :: b) x)).
Proof.
  intros W Ha Hb. pose proof W as (Hd & D & P & Q). unfold update. rewrite (proj2 (Nat.eqb_eq _ _) Ha), (proj2 (Nat.eqb_eq _ _) Hb).
  set (s := if rltb (1 / 10 ^ 16) (Rabs b_0) then b_0 else 1).
  assert (Hp16 : 0 < 1 / 10 ^ 16) by (apply Rdiv_lt_0_compat; [lra|apply pow_lt; lra]).
  assert (Hs : s <> 0).
  { unfold s. destruct (rltb _ _) eqn:E; [|lra]. apply rltb_spec in E. intros ->. rewrite Rabs_R0 in E. lra. }
  eexists. split; [reflexivity|]. split.
  { split; [assumption|]. split; [assumption|]. cbn [r_dim r_p r_q]. split; apply assign_numbered; auto. }
  split; [reflexivity|]. split; [reflexivity|]. split; [reflexivity|]. unfold getP, getQ. cbn [r_p r_q].
  rewrite !assign_a by auto. split; [|split].
  - intros E. apply rltb_spec in E. unfold s in *. rewrite E in *. cbn [map]. split; [reflexivity|]. f_equal. unfold Rdiv. apply Rinv_r. assumption.
  - intros E. assert (E' : rltb (1 / 10 ^ 16) (Rabs b_0) = false) by (destruct (rltb _ _) eqn:F; [apply rltb_spec in F; lra|reflexivity]).
    unfold s. rewrite E'. cbn [map]. split; [rewrite <- (map_id a) at 2; apply List.map_ext; intros; lra|]. f_equal; [lra|].
    rewrite <- (map_id b) at 2. apply List.map_ext. intros. lra.
  - intros x Hx Hv. set (r' := mkRf1 _ _ _ _ _).
    rewrite (value1_spec r'); [|split; [assumption|]; split; [assumption|]; cbn [r_dim r_p r_q r']; split; apply assign_numbered; auto|assumption].
    unfold getP, getQ, r'. cbn [r_dim r_min r_max r_p r_q]. rewrite !assign_a by auto. unfold polynomial. rewrite !poly_scale. f_equal.
    set (u := polynomial_from 0 (r_dim r) (r_min r) (r_max r) a x). set (v := polynomial_from 0 (r_dim r) (r_min r) (r_max r) (b_0 :: b) x).
    change (v <> 0) in Hv. field. split; assumption.
Qed.

(** two updates that differ by a common factor *)
Theorem update_scale r a b k x : well_formed r -> length a = length (r_p r) -> length b = length (r_q r) -> b <> [] -> k <> 0 ->
  length x = r_dim r -> polynomial (r_dim r) (r_min r) (r_max r) b x <> 0 ->
  exists r1 r2 v, update junk r a b = Ok r1 /\ update junk r (map (fun t => t / k) a) (map (fun t => t / k) b) = Ok r2 /\
    value1 r1 x = Ok v /\ value1 r2 x = Ok v.
Proof.
  intros W Ha Hb Hn Hk Hx Hq. destruct b as [|b_0 b]; [congruence|].
  destruct (update_spec r a b_0 b W Ha Hb) as (r1 & E1 & _ & _ & _ & _ & _ & _ & V1).
  destruct (update_spec r (map (fun t => t / k) a) (b_0 / k) (map (fun t => t / k) b) W) as (r2 & E2 & _ & _ & _ & _ & _ & _ & V2).
  { rewrite map_length. assumption. } { cbn in *. rewrite map_length. assumption. }
  exists r1, r2. eexists. split; [exact E1|]. split; [exact E2|]. split; [apply V1; assumption|].
  change (b_0 / k :: map (fun t => t / k) b) with (map (fun t => t / k) (b_0 :: b)) in V2. unfold polynomial in *.
  rewrite V2; [|assumption|]; rewrite !poly_scale.
  - f_equal. field. auto.
  - intros E. apply Hq. apply (Rmult_eq_reg_r (/ k)); [|apply Rinv_neq_0_compat; assumption]. rewrite Rmult_0_l. exact E.
Qed.

(** more coefficients than the function was sized for *)
Lemma combination_ub r x c : (0 < r_dim r)%nat -> domain_ok (r_dim r) (r_min r) (r_max r) -> length x = r_dim r -> co_deg c = [] ->
  forall cs cs' i acc, map co_deg cs = map (index2degree (r_dim r)) (seq i (length cs)) -> combination r x (cs ++ c :: cs') acc = UB.
Proof.
  intros Hd D Hx Hc. induction cs as [|e cs IH]; intros cs' i acc H.
  - cbn [app combination]. unfold basis. rewrite Hc. destruct D as (A & B & _). destruct (r_dim r) as [|n]; [lia|]. cbn [basis_loop].
    unfold rd. destruct x; [discriminate|]. destruct (r_min r); [discriminate|]. destruct (r_max r); [discriminate|]. reflexivity.
  - cbn in H. injection H as H1 H2. cbn [app combination]. rewrite basis_spec; [|assumption|assumption|rewrite H1; apply index2degree_length; assumption].
    cbn [bind]. apply (IH cs' (S i)). assumption.
Qed.
Lemma assign_app cs : forall v b c cs', length cs = length v -> forall y v', assign (cs ++ c :: cs') (v ++ y :: v') b = assign cs v b ++ mkCoeff (y / b) (co_deg c) :: assign cs' v' b.
Proof. induction cs as [|e cs IH]; intros [|x v] b c cs' H y v'; try discriminate; [reflexivity|]. cbn in *. injection H as H. rewrite IH; auto. Qed.
Theorem update_grow r a b x : well_formed r -> (length (r_p r) < length a)%nat -> b <> [] -> length x = r_dim r ->
  exists r', update junk r a b = Ok r' /\ value1 r' x = UB.
Proof.
  intros (Hd & D & P & Q) Ha Hn Hx. destruct b as [|b_0 b]; [congruence|].
  assert (E : exists a1 y a', a = a1 ++ y :: a' /\ length (r_p r) = length a1).
  { destruct (skipn (length (r_p r)) a) as [|y a'] eqn:E; [apply (f_equal (@length R)) in E; rewrite skipn_length in E; cbn in E; lia|].
    exists (firstn (length (r_p r)) a), y, a'. rewrite <- E. split; [symmetry; apply firstn_skipn|]. rewrite firstn_length. lia. }
  destruct E as (a1 & y & a' & -> & L). unfold update.
  destruct (Nat.eqb_spec (length (a1 ++ y :: a')) (length (r_p r))); [lia|].
  set (b0 := if rltb _ _ then _ else _). set (qs := if (_ =? _)%nat then _ else _). eexists. split; [reflexivity|].
  unfold value1. cbn [r_p]. unfold vector_resize. rewrite firstn_all2 by lia.
  destruct (length (a1 ++ y :: a') - length (r_p r))%nat as [|m] eqn:Em; [lia|]. cbn [repeat].
  rewrite assign_app by assumption.
  match goal with |- bind (combination ?r' x _ 0) _ = _ => set (r1 := r') end.
  rewrite (combination_ub r1 x (mkCoeff (y / b0) []) Hd D Hx eq_refl _ _ 0%nat); [reflexivity|].
  rewrite assign_deg, assign_length by assumption. rewrite <- L. exact P.
Qed.

(** p(x) and q(x): off by the content of uninitialised memory *)
Theorem p_q_value r x : well_formed r -> length x = r_dim r ->
  p_value junk r x = Ok (junk + polynomial (r_dim r) (r_min r) (r_max r) (getP r) x) /\
  q_value junk r x = Ok (junk + polynomial (r_dim r) (r_min r) (r_max r) (getQ r) x).
Proof. intros (H & D & P & Q) Hx. split; apply combination_spec; assumption. Qed.

(** copying another function *)
Theorem update_from_spec r s : well_formed r -> well_formed s -> r_dim s = r_dim r ->
  exists r', update_from junk r s = Ok r' /\ well_formed r' /\ r_dim r' = r_dim r /\ r_min r' = r_min r /\ r_max r' = r_max r /\
    getP r' = getP s /\ getQ r' = getQ s.
Proof.
  intros W Ws Ed. unfold update_from. destruct (resize_sizes r (length (r_p s)) (length (r_q s)) (proj1 W)) as [A B].
  destruct (resize_keeps r (length (r_p s)) (length (r_q s))) as (K1 & K2 & K3).
  pose proof (resize_wf r (length (r_p s)) (length (r_q s)) W) as (W1 & W2 & W3 & W4).
  set (r1 := resize junk r (length (r_p s)) (length (r_q s))) in *. rewrite A, B, !Nat.eqb_refl. cbn [andb]. eexists. split; [reflexivity|].
  assert (Lp : length (r_p r1) = length (getP s)) by (unfold getP; rewrite map_length; assumption).
  assert (Lq : length (r_q r1) = length (getQ s)) by (unfold getQ; rewrite map_length; assumption).
  split; [split; [assumption|split; [assumption|split; cbn [r_dim r_p r_q]; apply assign_numbered; assumption]]|].
  split; [assumption|]. split; [assumption|]. split; [assumption|]. split.
  - unfold getP at 1. cbn [r_p]. rewrite assign_a by assumption. rewrite <- (map_id (getP s)) at 2. apply List.map_ext. intros. lra.
  - unfold getQ at 1. cbn [r_q]. rewrite assign_a by assumption. rewrite <- (map_id (getQ s)) at 2. apply List.map_ext. intros. lra.
Qed.

(** ** channels *)
Lemma nth_error_set_channel f i r : (i < length (f_rs f))%nat -> nth_error (f_rs (set_channel f i r)) i = Some (Some r).
Proof.
  intros H. unfold set_channel. cbn [f_rs]. rewrite nth_error_app2; rewrite firstn_length, Nat.min_l by lia; [|lia]. rewrite Nat.sub_diag. reflexivity.
Qed.
Lemma nth_error_set_channel_other f i j r : i <> j -> (i < length (f_rs f))%nat -> nth_error (f_rs (set_channel f i r)) j = nth_error (f_rs f) j.
Proof.
  intros N H. unfold set_channel. cbn [f_rs]. rewrite <- (firstn_skipn i (f_rs f)) at 3.
  destruct (Nat.lt_ge_cases j i) as [L|L].
  - rewrite !nth_error_app1 by (rewrite firstn_length; lia). reflexivity.
  - rewrite !nth_error_app2 by (rewrite firstn_length; lia). rewrite firstn_length, Nat.min_l by lia.
    destruct (j - i)%nat as [|k] eqn:E; [lia|]. cbn [nth_error].
    destruct (skipn i (f_rs f)) as [|c t] eqn:Es; [apply (f_equal (@length _)) in Es; rewrite skipn_length in Es; cbn in Es; lia|].
    assert (Et : skipn (S i) (f_rs f) = t).
    { clear - Es. revert i Es. induction (f_rs f) as [|y l IH]; intros [|i] E; try discriminate; [injection E as -> ->; reflexivity|]. exact (IH i E). }
    rewrite Et. reflexivity.
Qed.
(** get(i) leaves the other channels alone and is stable *)
Theorem get_spec f i : (i < f_dimY f)%nat -> length (f_rs f) = f_dimY f -> length (f_min f) = f_dimX f -> length (f_max f) = f_dimX f ->
  exists r f', get junk f i = Ok (Some r, f') /\ get junk f' i = Ok (Some r, f') /\
    (forall j, j <> i -> nth_error (f_rs f') j = nth_error (f_rs f) j) /\
    f_min f' = f_min f /\ f_max f' = f_max f /\ length (f_rs f') = length (f_rs f).
Proof.
  intros Hi Hl Hm HM. unfold get at 1. rewrite (proj2 (Nat.ltb_lt _ _) Hi).
  destruct (nth_error (f_rs f) i) as [[r|]|] eqn:E; [| |apply nth_error_None in E; lia].
  - exists r, f. split; [reflexivity|]. unfold get. rewrite (proj2 (Nat.ltb_lt _ _) Hi), E. auto.
  - rewrite Hm, HM, !Nat.ltb_irrefl. cbn [orb]. destruct (inflate (f_min f) (f_max f)) as [mn mx].
    set (r := set_domain _ mn mx). exists r, (set_channel f i r). split; [reflexivity|].
    assert (L : (i < length (f_rs f))%nat) by lia. split.
    + unfold get. change (f_dimY (set_channel f i r)) with (f_dimY f). rewrite (proj2 (Nat.ltb_lt _ _) Hi), nth_error_set_channel by assumption. reflexivity.
    + split; [intros j Hj; apply nth_error_set_channel_other; auto|]. split; [reflexivity|]. split; [reflexivity|].
      unfold set_channel. cbn [f_rs]. rewrite app_length, firstn_length. cbn [length]. rewrite skipn_length. lia.
Qed.
Theorem get_out_of_range f i : (f_dimY f <= i)%nat -> get junk f i = Ok (None, f).
Proof. intros H. unfold get. destruct (Nat.ltb_spec i (f_dimY f)); [lia|reflexivity]. Qed.

(** the inflated domain is never degenerate *)
Lemma inflate_ok mn : forall mx d, length mn = d -> length mx = d -> domain_ok d (fst (inflate mn mx)) (snd (inflate mn mx)).
Proof.
  induction mn as [|a mn IH]; intros [|b mx] d H1 H2; cbn in H1, H2; subst; try discriminate; [repeat constructor|].
  injection H2 as H2. cbn [inflate]. destruct (IH mx (length mn) eq_refl H2) as (A & B & C). destruct (inflate mn mx) as [u v]. cbn [fst snd] in *.
  destruct (Req_EM_T a b); cbn [fst snd]; (split; [cbn; lia|]); (split; [cbn; lia|]); constructor; auto; lra.
Qed.
Lemma inflate_widened mn : forall mx, length mn = length mx -> widened (1 / 10) mn mx (fst (inflate mn mx)) (snd (inflate mn mx)).
Proof.
  unfold widened. induction mn as [|a mn IH]; intros [|b mx] H; try discriminate.
  - repeat split; try reflexivity; intros; destruct k; discriminate.
  - injection H as H. destruct (IH mx H) as (A & B & C). cbn [inflate]. destruct (inflate mn mx) as [u v]. cbn [fst snd] in *.
    destruct (Req_EM_T a b) as [E|E]; cbn [fst snd length]; rewrite A, B; (split; [reflexivity|split; [reflexivity|]]); intros [|k] a' b' H1 H2; cbn [nth_error] in *;
      try (apply C; assumption); injection H1 as <-; injection H2 as <-; split; intros; try congruence; split; reflexivity.
Qed.
Theorem get_fresh f i : (i < f_dimY f)%nat -> nth_error (f_rs f) i = Some None -> length (f_min f) = f_dimX f -> length (f_max f) = f_dimX f ->
  (0 < f_dimX f)%nat -> exists r f', get junk f i = Ok (Some r, f') /\ well_formed r /\ r_dim r = f_dimX f /\
    length (r_p r) = f_np f /\ length (r_q r) = f_nq f /\ (r_min r, r_max r) = inflate (f_min f) (f_max f).
Proof.
  intros Hi E Hm HM Hd. unfold get. rewrite (proj2 (Nat.ltb_lt _ _) Hi), E, Hm, HM, !Nat.ltb_irrefl. cbn [orb].
  pose proof (inflate_ok (f_min f) (f_max f) (f_dimX f) Hm HM) as D. destruct (inflate (f_min f) (f_max f)) as [mn mx]. cbn [fst snd] in D.
  destruct (new_wf (f_dimX f) (f_np f) (f_nq f) mn mx Hd D) as (W & A & B & C & F & G).
  eexists _, _. split; [reflexivity|]. split; [exact W|]. repeat split; assumption.
Qed.

(** value needs every channel *)
Theorem value_missing_channel f i x : (i < f_dimY f)%nat -> nth_error (f_rs f) i = Some None ->
  (forall j, (j < i)%nat -> exists r, nth_error (f_rs f) j = Some (Some r) /\ exists v, value1 r x = Ok v) -> value_rf f x = UB.
Proof.
  unfold value_rf. intros Hi Hn Hj. revert i Hi Hn Hj. generalize (f_rs f) as rs. generalize (f_dimY f) as n.
  induction n as [|n IH]; intros rs i Hi Hn Hj; [lia|]. destruct rs as [|c rs]; [destruct i; discriminate|]. cbn [firstn value_channels].
  destruct i as [|i].
  - injection Hn as ->. reflexivity.
  - destruct (Hj 0%nat ltac:(lia)) as (r & Er & v & Ev). injection Er as ->. rewrite Ev. cbn [bind].
    rewrite (IH rs i ltac:(lia) Hn); [reflexivity|]. intros j Hlt. apply (Hj (S j)). lia.
Qed.
End Rat.

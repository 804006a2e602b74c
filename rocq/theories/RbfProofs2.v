From Coq Require Import Reals List Lra.
From Verif Require Import Base Num TextModel TextProofs RatProofs RbfModel RbfSpec RbfProofs.
Open Scope R_scope.

Section Value.
Variable search : list (list R) -> list R -> nat -> list (nat * R).
Variables (dx dy : nat) (t : table) (x : list R).
Hypothesis Hs : finds search.
Hypothesis Ht : table_ok dx dy t.
Hypothesis Hx : length x = dx.
Let W := sum (fun i => weight x (position t i)) (used search t x).
Lemma W_pos : t <> [] -> 0 < W.
Proof. unfold W. apply cum_pos; assumption. Qed.
Lemma value_is y c : t <> [] -> interpolates search dx dy t x y -> (c < dy)%nat -> nth c y 0 = sum (fun i => weight x (position t i) * sample t c i) (used search t x) / W.
Proof.
  intros Hne Hy Hc. destruct (value_ok search dx dy t x Hs Ht Hx) as (y' & H1 & H2 & H3). rewrite (value_unique search dx dy t x Ht y y' Hy H1). assert (P := W_pos Hne). specialize (H3 c Hc Hne). fold W in H3. rewrite <- H3. field. lra.
Qed.
Lemma value_within y c lo hi : t <> [] -> interpolates search dx dy t x y -> (c < dy)%nat ->
  (forall i, In i (used search t x) -> lo <= sample t c i <= hi) -> lo <= nth c y 0 <= hi.
Proof.
  intros Hne Hy Hc H. rewrite (value_is y c Hne Hy Hc). assert (P := W_pos Hne).
  assert (L : lo * W <= sum (fun i => weight x (position t i) * sample t c i) (used search t x) <= hi * W).
  { unfold W. split.
    - rewrite <- (Rplus_0_r (lo * _)), <- (Rmult_0_l W) at 1. unfold W at 1. rewrite <- sum_lin. apply sum_le. intros i I. assert (Q := weight_pos x (position t i)). destruct (H i I) as [A B]. nra.
    - rewrite <- (Rplus_0_r (hi * _)), <- (Rmult_0_l W) at 1. unfold W at 1. rewrite <- sum_lin. apply sum_le. intros i I. assert (Q := weight_pos x (position t i)). destruct (H i I) as [A B]. nra. }
  split; [apply Rmult_le_reg_r with W|apply Rmult_le_reg_r with W]; try assumption; unfold Rdiv; rewrite Rmult_assoc, Rinv_l by lra; lra.
Qed.
Lemma value_diff y c v : t <> [] -> interpolates search dx dy t x y -> (c < dy)%nat ->
  (nth c y 0 - v) * W = sum (fun i => weight x (position t i) * (sample t c i - v)) (used search t x).
Proof.
  intros Hne Hy Hc. rewrite (value_is y c Hne Hy Hc). assert (P := W_pos Hne).
  rewrite (sum_ext (fun i => weight x (position t i) * (sample t c i - v)) (fun i => 1 * (weight x (position t i) * sample t c i) + (- v) * weight x (position t i))) by (intros; ring).
  rewrite sum_lin. fold W. field. lra.
Qed.
Lemma used_few : NoDup (used search t x) /\ (length (used search t x) <= 3)%nat.
Proof. destruct (Hs (List.map fst t) x 3%nat (Nat.lt_0_succ 2)) as (_ & N & L & _). unfold used. rewrite map_length. split; assumption. Qed.
Lemma W_at i : In i (used search t x) -> position t i = x -> 10 ^ 10 <= W.
Proof.
  intros I E. destruct (in_split i _ I) as (l1 & l2 & S). unfold W. rewrite S, sum_app. cbn [sum]. rewrite E. assert (Q : weight x x = 10 ^ 10) by (unfold weight; rewrite squared_same; field). rewrite Q.
  assert (0 <= sum (fun i => weight x (position t i)) l1) by (apply sum_nonneg; intros; apply Rlt_le, weight_pos).
  assert (0 <= sum (fun i => weight x (position t i)) l2) by (apply sum_nonneg; intros; apply Rlt_le, weight_pos). lra.
Qed.
Lemma sum_abs {A} (f : A -> R) l : Rabs (sum f l) <= sum (fun a => Rabs (f a)) l.
Proof. induction l; cbn [sum]; [rewrite Rabs_R0; lra|]. eapply Rle_trans; [apply Rabs_triang|]. lra. Qed.
Lemma sum_bound {A} (f : A -> R) B l : (forall a, In a l -> f a <= B) -> sum f l <= INR (length l) * B.
Proof. induction l; intros H; cbn [sum length]; [cbn; lra|]. rewrite S_INR. assert (H1 := H a (or_introl eq_refl)). assert (H2 := IHl (fun b I => H b (or_intror I))). lra. Qed.
Lemma near_sample y c i delta M : t <> [] -> interpolates search dx dy t x y -> (c < dy)%nat -> In i (used search t x) -> position t i = x -> 0 < delta -> 0 <= M ->
  (forall j, In j (used search t x) -> j <> i -> delta <= squared x (position t j) /\ Rabs (sample t c j - sample t c i) <= M) ->
  Rabs (nth c y 0 - sample t c i) <= 2 * M / (delta * 10 ^ 10).
Proof.
  intros Hne Hy Hc Ii Ei Hd HM Hj. assert (P := W_pos Hne). assert (Q := W_at i Ii Ei). assert (D := value_diff y c (sample t c i) Hne Hy Hc).
  destruct used_few as [N L]. destruct (in_split i _ Ii) as (l1 & l2 & S). rewrite S in D, N, L. rewrite sum_app in D. cbn [sum] in D.
  replace (sample t c i - sample t c i) with 0 in D by ring. rewrite Rmult_0_r, Rplus_0_l in D. rewrite <- sum_app in D.
  assert (Bd : forall j, In j (l1 ++ l2) -> Rabs (weight x (position t j) * (sample t c j - sample t c i)) <= M / delta).
  { intros j Ij. apply NoDup_remove_2 in N. assert (Nj : j <> i) by congruence.
    assert (Ij' : In j (used search t x)) by (rewrite S; apply in_app_or in Ij; apply in_or_app; destruct Ij; [left; assumption|right; right; assumption]).
    destruct (Hj j Ij' Nj) as [A B]. rewrite Rabs_mult, (Rabs_right (weight _ _)) by (apply Rle_ge, Rlt_le, weight_pos).
    assert (Wj : weight x (position t j) <= / delta). { unfold weight. unfold Rdiv at 1. rewrite Rmult_1_l. apply Rinv_le_contravar; [assumption|]. assert (0 < 1 / 10 ^ 10) by (apply Rdiv_lt_0_compat; [lra|apply pow_lt; lra]). lra. }
    assert (W0 := weight_pos x (position t j)). assert (A0 := Rabs_pos (sample t c j - sample t c i)). unfold Rdiv. rewrite (Rmult_comm M). apply Rmult_le_compat; lra. }
  assert (T : Rabs (sum (fun j => weight x (position t j) * (sample t c j - sample t c i)) (l1 ++ l2)) <= 2 * (M / delta)).
  { eapply Rle_trans; [apply sum_abs|]. eapply Rle_trans; [apply (sum_bound _ (M / delta)); exact Bd|].
    assert (L2 : (length (l1 ++ l2) <= 2)%nat) by (rewrite app_length in *; cbn in L; lia). destruct (l1 ++ l2) as [|j r] eqn:El; [cbn; rewrite Rmult_0_l|].
    - apply Rmult_le_pos; [lra|]. apply Rmult_le_pos; [lra|apply Rlt_le, Rinv_0_lt_compat; lra].
    - apply Rmult_le_compat_r; [eapply Rle_trans; [apply Rabs_pos|apply (Bd j); left; reflexivity]|]. apply le_INR in L2. exact L2. }
  rewrite <- D, Rabs_mult, (Rabs_right W) in T by lra.
  assert (A0 := Rabs_pos (nth c y 0 - sample t c i)). assert (0 < 10 ^ 10) by (apply pow_lt; lra).
  apply Rmult_le_reg_r with (10 ^ 10); [assumption|]. replace (2 * M / (delta * 10 ^ 10) * 10 ^ 10) with (2 * (M / delta)) by (field; lra).
  eapply Rle_trans; [|exact T]. apply Rmult_le_compat_l; assumption.
Qed.
End Value.

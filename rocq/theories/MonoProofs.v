(** Enumeration of monomials (C31). *)
From Coq Require Import List Arith Lia.
From Verif Require Import Base MonoModel MonoSpec.

(** ** Counting *)
Lemma sum_upto_ext k f g : (forall i, i <= k -> f i = g i) -> sum_upto k f = sum_upto k g.
Proof. induction k as [|k IH]; intros H; cbn; [apply H; lia|]. rewrite IH, H by (intros; try apply H; lia). reflexivity. Qed.

(** number of vectors of d exponents of total degree k *)
Fixpoint cnt (d k : nat) : nat :=
  match d with
  | O => if k =? 0 then 1 else 0
  | S O => 1
  | S d' => sum_upto k (fun i => cnt d' (k - i))
  end.
Lemma cnt_S d k : 0 < d -> cnt (S d) k = sum_upto k (fun i => cnt d (k - i)).
Proof. destruct d; [lia|reflexivity]. Qed.
Lemma sum_upto_split k f : sum_upto (S k) f = f 0 + sum_upto k (fun i => f (S i)).
Proof. induction k as [|k IH]; [reflexivity|]. cbn [sum_upto] in *. rewrite IH. lia. Qed.
Lemma cnt_pascal d k : 0 < d -> cnt (S d) (S k) = cnt d (S k) + cnt (S d) k.
Proof.
  intros Hd. rewrite !cnt_S by assumption. rewrite sum_upto_split. rewrite Nat.sub_0_r. f_equal.
Qed.
Lemma cnt_0 d : 0 < d -> cnt d 0 = 1.
Proof. induction d as [|d IH]; [lia|]. intros _. destruct d as [|d]; [reflexivity|]. rewrite cnt_S by lia. cbn [sum_upto]. rewrite Nat.sub_0_r. apply IH. lia. Qed.
Lemma binomial_0 a : binomial a 0 = 1. Proof. destruct a; reflexivity. Qed.
Lemma binomial_gt a : forall b, a < b -> binomial a b = 0.
Proof. induction a as [|a IH]; intros [|b] H; try lia; [reflexivity|]. cbn. rewrite !IH by lia. reflexivity. Qed.
Lemma binomial_nn a : binomial a a = 1.
Proof. induction a as [|a IH]; [reflexivity|]. cbn. rewrite IH, binomial_gt by lia. reflexivity. Qed.
Lemma cnt_binomial d : forall k, cnt (S d) k = binomial (k + d) d.
Proof.
  induction d as [|d IH]; intros k; [cbn; rewrite binomial_0; reflexivity|].
  induction k as [|k IHk]; [rewrite cnt_0 by lia; rewrite Nat.add_0_l, binomial_nn; reflexivity|].
  rewrite cnt_pascal by lia. rewrite IH, IHk. replace (S k + S d) with (S (S k + d)) by lia. cbn [binomial].
  replace (k + S d) with (S k + d) by lia. reflexivity.
Qed.
Lemma cnt_pos d k : 0 < d -> 0 < cnt d k.
Proof.
  revert k. induction d as [|d IH]; intros k H; [lia|]. destruct d as [|d]; [cbn; lia|]. rewrite cnt_S by lia.
  destruct k; cbn [sum_upto]; [apply IH; lia|]. specialize (IH (S k - S k) ltac:(lia)). lia.
Qed.
Lemma cnt_1 d : 0 < d -> cnt d 1 = d.
Proof.
  induction d as [|d IH]; [lia|]. intros _. destruct d as [|d]; [reflexivity|]. rewrite cnt_pascal by lia. rewrite IH, cnt_0 by lia. lia.
Qed.
Lemma cnt_2 k : cnt 2 k = k + 1.
Proof. rewrite cnt_S by lia. induction k as [|k IH]; [reflexivity|]. cbn [sum_upto]. rewrite (sum_upto_ext k _ (fun i => cnt 1 (k - i))) by reflexivity. rewrite IH. cbn. lia. Qed.
Lemma cnt_3 k : 2 * cnt 3 k = (k + 1) * (k + 2).
Proof. induction k as [|k IH]; [reflexivity|]. rewrite cnt_pascal by lia. rewrite cnt_2. nia. Qed.
Lemma cnt_3_code k : (k + 1) * (k + 1) - ((k + 1) * k) / 2 = cnt 3 k.
Proof.
  pose proof (cnt_3 k) as H. assert (E : (k + 1) * k = ((k + 1) * (k + 1) - cnt 3 k) * 2) by nia.
  assert (D : (k + 1) * k / 2 = (k + 1) * (k + 1) - cnt 3 k) by (rewrite E; apply Nat.div_mul; lia). rewrite D. nia.
Qed.

Lemma estimate_cnt d : forall k, 0 < d -> estimate_dk d k = cnt d k.
Proof.
  induction d as [|d IH]; intros k H; [lia|]. cbn [estimate_dk].
  destruct (Nat.eqb_spec (S d) 1) as [E|N1].
  { injection E as ->. reflexivity. }
  destruct (Nat.eqb_spec k 0) as [->|Nk]; cbn [orb]; [symmetry; apply cnt_0; lia|].
  destruct (Nat.eqb_spec k 1) as [->|Nk1]; [symmetry; apply cnt_1; lia|].
  destruct (Nat.eqb_spec (S d) 2) as [E|N2]; [injection E as ->; symmetry; apply cnt_2|].
  destruct (Nat.eqb_spec (S d) 3) as [E|N3]; [injection E as ->; apply cnt_3_code|].
  rewrite cnt_S by lia. apply sum_upto_ext. intros i Hi. apply IH. lia.
Qed.

(** ** Ranking: position of a vector, last input first, among those of its degree *)
(** number of vectors of [d] exponents and degree [M] whose last exponent is below [a] *)
Fixpoint below (d M a : nat) : nat :=
  match a with O => 0 | S a' => below d M a' + cnt d (M - a') end.
Lemma below_total d M : 0 < d -> below d M (S M) = cnt (S d) M.
Proof.
  intros Hd. rewrite cnt_S by assumption. assert (forall k, below d M (S k) = sum_upto k (fun i => cnt d (M - i))) as H.
  { induction k as [|k IH]; [reflexivity|]. cbn [below sum_upto] in *. rewrite IH. reflexivity. }
  apply H.
Qed.
Lemma below_mono d M a b : a <= b -> below d M a <= below d M b.
Proof. induction 1; [lia|]. cbn. lia. Qed.

(** [w] is the exponent vector in reverse order (last input first) *)
Fixpoint rank (w : list nat) : nat :=
  match w with
  | [] => 0
  | [_] => 0
  | a :: t => below (length t) (degree w) a + rank t
  end.
Lemma rank_cons a t : t <> [] -> rank (a :: t) = below (length t) (a + degree t) a + rank t.
Proof. destruct t; [congruence|reflexivity]. Qed.
Lemma rank_lt w : w <> [] -> rank w < cnt (length w) (degree w).
Proof.
  induction w as [|a t IH]; [congruence|]. intros _. destruct t as [|b t].
  - cbn. lia.
  - rewrite rank_cons by discriminate. specialize (IH ltac:(discriminate)). set (u := b :: t) in *.
    assert (0 < length u) by (cbn; lia). change (length (a :: u)) with (S (length u)). change (degree (a :: u)) with (a + degree u).
    rewrite <- below_total by assumption. apply Nat.lt_le_trans with (below (length u) (a + degree u) (S a)).
    + cbn [below]. replace (a + degree u - a) with (degree u) by lia. lia.
    + apply below_mono. lia.
Qed.

(** what the loops compute *)
Lemma scan_level_spec n : forall k M dims nb j, 0 < dims ->
  nb <= j -> (exists k', k <= k' < k + n /\ j < nb + (below dims M (S k') - below dims M k)) ->
  exists k', k <= k' < k + n /\ scan_level n k M dims nb j = (k', nb + (below dims M k' - below dims M k)) /\
    nb + (below dims M k' - below dims M k) <= j < nb + (below dims M (S k') - below dims M k).
Proof.
  induction n as [|n IH]; intros k M dims nb j Hd Hj (k' & Hk' & Hlt); [lia|]. cbn [scan_level].
  rewrite estimate_cnt by assumption.
  destruct (Nat.leb_spec nb j); [|lia]. cbn [andb].
  destruct (Nat.ltb_spec j (nb + cnt dims (M - k))) as [Hin|Hout].
  - exists k. split; [lia|]. rewrite Nat.sub_diag, Nat.add_0_r. split; [reflexivity|]. cbn [below]. lia.
  - assert (Hlt' : k < k').
    { destruct (Nat.eq_dec k k') as [<-|]; [|lia]. cbn [below] in Hlt. lia. }
    destruct (IH (S k) M dims (nb + cnt dims (M - k)) j Hd Hout) as (q & Hq & E & B).
    + exists k'. split; [lia|]. pose proof (below_mono dims M (S k) (S k') ltac:(lia)) as Q. cbn [below] in *. lia.
    + exists q. split; [lia|]. rewrite E. pose proof (below_mono dims M (S k) q ltac:(lia)) as Q.
      pose proof (below_mono dims M (S k) (S q) ltac:(lia)) as Q'. cbn [below] in Q, Q', B |- *. split; [f_equal; lia|lia].
Qed.
Lemma scan_level_total M dims nb j : 0 < dims -> nb <= j < nb + cnt (S dims) M ->
  exists k, k <= M /\ scan_level (S M) 0 M dims nb j = (k, nb + below dims M k) /\
    nb + below dims M k <= j < nb + below dims M k + cnt dims (M - k).
Proof.
  intros Hd [H1 H2]. destruct (scan_level_spec (S M) 0 M dims nb j Hd H1) as (k & Hk & E & B).
  { exists M. split; [lia|]. rewrite below_total by assumption. cbn [below]. lia. }
  exists k. split; [lia|]. cbn [below] in *. rewrite Nat.sub_0_r in *. split; [assumption|lia].
Qed.

Lemma set_nth_length v : forall i x, length (set_nth v i x) = length v.
Proof. induction v as [|y v IH]; intros [|i] x; cbn; auto. Qed.
Lemma set_nth_app a y b x : set_nth (a ++ y :: b) (length a) x = a ++ x :: b.
Proof. induction a as [|z a IH]; cbn; [reflexivity|]. rewrite IH. reflexivity. Qed.

Lemma populate_loop_spec n : forall N v M nb j c, n < N -> v = repeat 0 (S n) ++ c ->
  nb <= j < nb + cnt (S n) M ->
  exists w, populate_loop n N v M nb j = rev w ++ c /\ length w = S n /\ degree w = M /\ rank w = j - nb.
Proof.
  induction n as [|n IH]; intros N v M nb j c HN -> Hj; cbn [populate_loop].
  - exists [M]. cbn in *. repeat split; lia.
  - replace (N - 1 - S n + 1) with (N - S n) by lia. replace (N - (N - S n)) with (S n) by lia.
    replace (N - 1 - (N - 1 - S n)) with (S n) by lia.
    destruct (scan_level_total M (S n) nb j ltac:(lia) Hj) as (k & Hk & E & B). rewrite E.
    assert (ES : set_nth (repeat 0 (S (S n)) ++ c) (S n) k = repeat 0 (S n) ++ k :: c).
    { rewrite (repeat_cons (S n) 0 : repeat 0 (S (S n)) = repeat 0 (S n) ++ [0]). rewrite <- app_assoc. cbn [app].
      pose proof (set_nth_app (repeat 0 (S n)) 0 c k) as S1. rewrite repeat_length in S1. exact S1. }
    rewrite ES. destruct (IH N (repeat 0 (S n) ++ k :: c) (M - k) (nb + below (S n) M k) j (k :: c) ltac:(lia) eq_refl B) as (w & Ew & Lw & Dw & Rw).
    exists (k :: w). rewrite Ew. cbn [rev length]. rewrite <- app_assoc. cbn [app]. repeat split.
    + lia.
    + change (degree (k :: w)) with (k + degree w). lia.
    + rewrite rank_cons by (destruct w; discriminate). rewrite Lw, Dw, Rw. replace (k + (M - k)) with M by lia. lia.
Qed.

(** rank is injective on vectors of the same length and degree *)
Lemma below_inj d M a b r s : 0 < d -> a <= M -> b <= M -> r < cnt d (M - a) -> s < cnt d (M - b) -> below d M a + r = below d M b + s -> a = b.
Proof.
  intros Hd Ha Hb Hr Hs E. destruct (Nat.lt_trichotomy a b) as [H|[H|H]]; [|assumption|].
  - pose proof (below_mono d M (S a) b H). cbn [below] in *. lia.
  - pose proof (below_mono d M (S b) a H). cbn [below] in *. lia.
Qed.
Lemma rank_inj w : forall w', length w = length w' -> degree w = degree w' -> rank w = rank w' -> w = w'.
Proof.
  induction w as [|a t IH]; intros [|b u] Hl Hd Hr; try discriminate; [reflexivity|].
  injection Hl as Hl. change (degree (a :: t)) with (a + degree t) in Hd. change (degree (b :: u)) with (b + degree u) in Hd.
  destruct t as [|a2 t]; destruct u as [|b2 u]; try discriminate.
  - cbn in Hd. f_equal. lia.
  - set (t' := a2 :: t) in *. set (u' := b2 :: u) in *.
    rewrite !rank_cons in Hr by discriminate.
    pose proof (rank_lt t' ltac:(discriminate)) as Rt. pose proof (rank_lt u' ltac:(discriminate)) as Ru.
    rewrite <- Hl, <- Hd in Hr. rewrite <- Hl in Ru.
    assert (a = b) as <-.
    { apply (below_inj (length t') (a + degree t') a b (rank t') (rank u')); [cbn; lia|lia|lia| | |exact Hr].
      - replace (a + degree t' - a) with (degree t') by lia. exact Rt.
      - replace (a + degree t' - b) with (degree u') by lia. exact Ru. }
    f_equal. apply IH; lia.
Qed.
(** order *)
Lemma rank_lex w : forall w', length w = length w' -> degree w = degree w' -> rank w < rank w' ->
  exists c a b s t, w = c ++ a :: s /\ w' = c ++ b :: t /\ length s = length t /\ a < b.
Proof.
  induction w as [|a t IH]; intros [|b u] Hl Hd Hr; try discriminate; [cbn in Hr; lia|].
  injection Hl as Hl. change (degree (a :: t)) with (a + degree t) in Hd. change (degree (b :: u)) with (b + degree u) in Hd.
  destruct t as [|a2 t]; destruct u as [|b2 u]; try discriminate; [cbn in Hr; lia|].
  set (t' := a2 :: t) in *. set (u' := b2 :: u) in *. rewrite !rank_cons in Hr by discriminate.
  destruct (Nat.lt_trichotomy a b) as [H|[H|H]].
  - exists [], a, b, t', u'. auto.
  - subst b. destruct (IH u' Hl ltac:(lia)) as (c & x & y & s & v & -> & E2 & L & Hlt).
    { replace (degree u') with (degree t') in Hr by lia. rewrite <- Hl in Hr. lia. }
    exists (a :: c), x, y, s, v. rewrite E2. auto.
  - exfalso. pose proof (rank_lt u' ltac:(discriminate)) as Ru. rewrite <- Hl, <- Hd in Hr.
    pose proof (below_mono (length t') (a + degree t') (S b) a H) as Q. cbn [below] in Q.
    replace (a + degree t' - b) with (degree u') in Q by lia. rewrite <- Hl in Ru. lia.
Qed.

(** ** Blocks of equal degree *)
(** number of vectors of degree below k *)
Fixpoint base (d k : nat) : nat := match k with O => 0 | S k' => base d k' + cnt d k' end.
Lemma base_mono d a b : a <= b -> base d a <= base d b.
Proof. induction 1; [lia|]. cbn. lia. Qed.
Lemma base_ge d k : 0 < d -> k <= base d k.
Proof. intros Hd. induction k as [|k IH]; [lia|]. cbn. pose proof (cnt_pos d k Hd). lia. Qed.
Lemma find_degree_spec count d i : (forall k, count k = cnt d k) -> 0 < d -> forall fuel k, base d k <= i -> i < k + fuel ->
  exists k', k <= k' /\ find_degree fuel count i (base d k) k = (k', base d k') /\ base d k' <= i < base d (S k').
Proof.
  intros Hc Hd. induction fuel as [|fuel IH]; intros k Hk Hf.
  - pose proof (base_ge d k Hd). lia.
  - cbn [find_degree]. rewrite Hc. destruct (Nat.leb_spec (base d k) i); [|lia]. cbn [andb].
    destruct (Nat.ltb_spec i (base d k + cnt d k)).
    + exists k. cbn [base]. auto with arith.
    + change (base d k + cnt d k) with (base d (S k)). destruct (IH (S k)) as (k' & A & B & C); [cbn; lia|lia|]. exists k'. split; [lia|auto].
Qed.

(** the index of a vector (in reverse order) in the whole enumeration *)
Definition index_of (w : list nat) : nat := base (length w) (degree w) + rank w.

Theorem index2degree_spec d i : 0 < d -> exists w, index2degree d i = rev w /\ length w = d /\ index_of w = i.
Proof.
  intros Hd. unfold index2degree. destruct (Nat.eqb_spec i 0) as [->|Hi].
  { exists (repeat 0 d). split.
    - clear. induction d as [|d IH]; [reflexivity|]. cbn [repeat rev]. rewrite <- IH. apply repeat_cons.
    - split; [apply repeat_length|]. unfold index_of. rewrite repeat_length.
      assert (D : degree (repeat 0 d) = 0) by (clear; induction d; cbn; auto). rewrite D. cbn [base].
      clear - Hd. induction d as [|d IH]; [lia|]. destruct d as [|d]; [reflexivity|]. cbn [repeat].
      change (0 :: repeat 0 d) with (repeat 0 (S d)). rewrite rank_cons by discriminate. cbn [below]. apply IH. lia. }
  assert (B1 : base d 1 = 1) by (cbn; rewrite cnt_0; auto).
  destruct (Nat.eqb_spec d 1) as [->|Hd1].
  { exists [i]. split; [reflexivity|]. split; [reflexivity|]. unfold index_of. cbn [length degree fold_right rank].
    rewrite !Nat.add_0_r. clear. induction i as [|i IH]; [reflexivity|]. cbn [base]. rewrite IH. cbn. lia. }
  destruct (Nat.eqb_spec d 2) as [->|Hd2].
  { destruct (find_degree_spec (fun k => k + 1) 2 i (fun k => eq_sym (cnt_2 k)) Hd (S i) 1 ltac:(lia) ltac:(lia)) as (k & Hk & E & B).
    rewrite B1 in E. rewrite E. set (r := i - base 2 k). cbn [base] in B. rewrite cnt_2 in B.
    exists [r; k - r]. split; [reflexivity|]. split; [reflexivity|]. unfold index_of. cbn [length degree fold_right].
    replace (r + (k - r + 0)) with k by (unfold r; lia). rewrite rank_cons by discriminate. cbn [length degree fold_right rank].
    replace (below 1 _ r) with r; [unfold r; lia|]. generalize (r + (k - r + 0)). intros M. clear. induction r as [|r IH]; [reflexivity|]. cbn [below]. rewrite <- IH. cbn. lia. }
  destruct (find_degree_spec (estimate_dk d) d i (fun k => estimate_cnt d k Hd) Hd (S i) 1 ltac:(lia) ltac:(lia)) as (k & Hk & E & B).
  rewrite B1 in E. rewrite E. unfold populate.
  assert (ER : repeat 0 d = repeat 0 (S (d - 1)) ++ []) by (rewrite app_nil_r; f_equal; lia). rewrite ER.
  destruct (populate_loop_spec (d - 1) d _ k 0 (i - base d k) [] ltac:(lia) eq_refl) as (w & Ew & Lw & Dw & Rw).
  { cbn [base] in B. replace (S (d - 1)) with d by lia. lia. }
  exists w. rewrite Ew, app_nil_r. split; [reflexivity|]. split; [lia|]. unfold index_of. rewrite Lw, Dw, Rw. replace (S (d - 1)) with d by lia. lia.
Qed.

Lemma base_block d a b i : base d a <= i < base d (S a) -> base d b <= i < base d (S b) -> a = b.
Proof.
  intros A B. destruct (Nat.lt_trichotomy a b) as [H|[H|H]]; [|assumption|].
  - pose proof (base_mono d (S a) b H). lia.
  - pose proof (base_mono d (S b) a H). lia.
Qed.
Lemma index_of_block w : w <> [] -> base (length w) (degree w) <= index_of w < base (length w) (S (degree w)).
Proof. intros H. unfold index_of. cbn [base]. pose proof (rank_lt w H). lia. Qed.
Lemma index_of_inj w w' : w <> [] -> length w = length w' -> index_of w = index_of w' -> w = w'.
Proof.
  intros Hn Hl E. assert (Hn' : w' <> []) by (destruct w, w'; try discriminate; congruence).
  pose proof (index_of_block w Hn) as A. pose proof (index_of_block w' Hn') as B. rewrite <- Hl, <- E in B.
  assert (D : degree w = degree w') by (eapply base_block; eassumption).
  apply rank_inj; auto. unfold index_of in E. rewrite <- Hl, <- D in E. lia.
Qed.
Lemma degree_rev w : degree (rev w) = degree w.
Proof.
  assert (A : forall a b, degree (a ++ b) = degree a + degree b) by (induction a as [|x a IH]; intros b; [reflexivity|]; change (x + degree (a ++ b) = x + degree a + degree b); rewrite IH; lia).
  induction w as [|x w IH]; [reflexivity|]. cbn [rev]. rewrite A, IH. change (degree w + (x + 0) = x + degree w). lia.
Qed.

(** the headline facts *)
Theorem index2degree_length d i : 0 < d -> length (index2degree d i) = d.
Proof. intros H. destruct (index2degree_spec d i H) as (w & -> & L & _). rewrite rev_length. assumption. Qed.
Theorem index2degree_onto d v : 0 < d -> length v = d -> exists i, index2degree d i = v.
Proof.
  intros Hd Hv. exists (index_of (rev v)). destruct (index2degree_spec d (index_of (rev v)) Hd) as (w & -> & L & E).
  apply index_of_inj in E; [subst w; apply rev_involutive| |rewrite rev_length; lia]. destruct w; [cbn in L; lia|discriminate].
Qed.
Theorem index2degree_before d i j : 0 < d -> i < j -> before (index2degree d i) (index2degree d j).
Proof.
  intros Hd Hij. destruct (index2degree_spec d i Hd) as (w & -> & L & E). destruct (index2degree_spec d j Hd) as (w' & -> & L' & E').
  assert (Hn : w <> []) by (destruct w; [cbn in L; lia|discriminate]). assert (Hn' : w' <> []) by (destruct w'; [cbn in L'; lia|discriminate]).
  unfold before. rewrite !degree_rev. pose proof (index_of_block w Hn) as A. pose proof (index_of_block w' Hn') as B. rewrite L, E in A. rewrite L', E' in B.
  destruct (Nat.lt_trichotomy (degree w) (degree w')) as [H|[H|H]]; [left; assumption| |].
  - right. split; [assumption|]. destruct (rank_lex w w') as (c & a & b & s & t & -> & -> & Hl & Hlt); [lia|assumption| |].
    + unfold index_of in E, E'. rewrite L in E. rewrite L', <- H in E'. lia.
    + exists (rev c), a, b, (rev s), (rev t). rewrite !rev_app_distr. cbn [rev]. rewrite <- !app_assoc. cbn [app]. rewrite !rev_length. auto.
  - pose proof (base_mono d (S (degree w')) (degree w) H). lia.
Qed.
Lemma before_irrefl v : ~ before v v.
Proof.
  intros [H|[_ (c & a & b & s & t & E1 & E2 & L & Hlt)]]; [lia|]. rewrite E1 in E2.
  assert (s ++ [a] = t ++ [b]) as E3 by (apply (app_inv_tail c); rewrite <- !app_assoc; exact E2). apply app_inj_tail in E3 as [_ E3]. lia.
Qed.
Theorem index2degree_inj d i j : 0 < d -> index2degree d i = index2degree d j -> i = j.
Proof.
  intros Hd E. destruct (Nat.lt_trichotomy i j) as [H|[H|H]]; [|assumption|]; exfalso.
  - apply (before_irrefl (index2degree d j)). rewrite <- E at 1. apply index2degree_before; assumption.
  - apply (before_irrefl (index2degree d j)). rewrite <- E at 2. apply index2degree_before; assumption.
Qed.
Theorem estimate_binomial d k : 0 < d -> estimate_dk d k = binomial (k + (d - 1)) (d - 1).
Proof. intros H. rewrite estimate_cnt by assumption. destruct d as [|d]; [lia|]. rewrite cnt_binomial. replace (S d - 1) with d by lia. reflexivity. Qed.

(** the vectors of total degree k occupy a block of estimate_dk k indices *)
Theorem degree_block d k : 0 < d -> exists lo, forall i, degree (index2degree d i) = k <-> lo <= i < lo + estimate_dk d k.
Proof.
  intros Hd. exists (base d k). intros i. rewrite estimate_cnt by assumption. change (base d k + cnt d k) with (base d (S k)).
  destruct (index2degree_spec d i Hd) as (w & -> & L & E). rewrite degree_rev.
  assert (Hn : w <> []) by (destruct w; [cbn in L; lia|discriminate]). pose proof (index_of_block w Hn) as A. rewrite L, E in A.
  split; [intros <-; exact A|]. intros B. eapply base_block; eassumption.
Qed.

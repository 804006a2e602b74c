(** Proofs about common.h / common.cpp (C24, C25, C58). *)
From Coq Require Import Reals List ZArith Lia Lra.
From Verif Require Import Base Num CommonModel.

(** ** Specification vocabulary *)
(** a clock reading sequence of complete intervals, each not running backwards *)
Definition intervals := list (Z * Z).
Definition total (l : intervals) : Z := fold_right (fun i acc => snd i - fst i + acc)%Z 0%Z l.
Definition run_intervals (t : timer) (l : intervals) : timer :=
  fold_left (fun t i => timer_stop (timer_start t (fst i)) (snd i)) l t.

Section Product.
Context {T : Type} (mul : T -> T -> T).

Lemma cwise_length a : forall b, length a = length b -> length (cwise mul a b) = length a.
Proof. induction a as [|x a IH]; intros [|y b] H; try discriminate; [reflexivity|]. simpl in *. rewrite IH; congruence. Qed.
Lemma cwise_nth a : forall b i x y, nth_error a i = Some x -> nth_error b i = Some y -> nth_error (cwise mul a b) i = Some (mul x y).
Proof.
  induction a as [|u a IH]; intros [|v b] [|i] x y Hx Hy; try discriminate.
  - injection Hx as ->. injection Hy as ->. reflexivity.
  - simpl in *. eauto.
Qed.

Lemma product_same_size a b : length a = length b -> length a <> 1%nat ->
  exists c, product mul a b = Ok c /\ length c = length a /\
    forall i x y, nth_error a i = Some x -> nth_error b i = Some y -> nth_error c i = Some (mul x y).
Proof.
  intros H N. exists (cwise mul a b). split.
  - unfold product. destruct a as [|x [|x' a]], b as [|y [|y' b]]; simpl in *; try lia; try reflexivity.
    destruct (Nat.eqb_spec (length a) (length b)); [reflexivity|lia].
  - split; [apply cwise_length; assumption|]. intros. apply cwise_nth; assumption.
Qed.
Lemma product_scalar_left s b : product mul [s] b = Ok (map (fun x => mul x s) b).
Proof. reflexivity. Qed.
Lemma product_scalar_right a s : length a <> 1%nat -> product mul a [s] = Ok (map (fun x => mul x s) a).
Proof. intros H. destruct a as [|x [|y a]]; simpl in *; try reflexivity. lia. Qed.
Lemma product_mismatch a b : length a <> length b -> length a <> 1%nat -> length b <> 1%nat -> product mul a b = Abort.
Proof.
  intros H Ha Hb. unfold product. destruct a as [|x [|x' a]], b as [|y [|y' b]]; simpl in *; try lia; try reflexivity.
  destruct (Nat.eqb_spec (length a) (length b)); [lia|reflexivity].
Qed.
Hypothesis mul_comm : forall x y, mul x y = mul y x.
Lemma cwise_comm a : forall b, cwise mul a b = cwise mul b a.
Proof. induction a as [|x a IH]; intros [|y b]; try reflexivity. simpl. rewrite mul_comm, IH. reflexivity. Qed.
Lemma product_comm a b : product mul a b = product mul b a.
Proof.
  unfold product. destruct a as [|x [|x' a]], b as [|y [|y' b]]; try reflexivity.
  - simpl. rewrite mul_comm. reflexivity.
  - rewrite Nat.eqb_sym. rewrite cwise_comm. reflexivity.
Qed.
Lemma product_size a b c : product mul a b = Ok c -> (0 < length a)%nat -> (0 < length b)%nat ->
  length c = Nat.max (length a) (length b).
Proof.
  unfold product. destruct a as [|x [|x' a]], b as [|y [|y' b]]; intros H Ha Hb; simpl in Ha, Hb; try lia;
    try (apply Ok_inj in H; subst; simpl; rewrite ?map_length; lia).
  destruct (Nat.eqb_spec (length (x :: x' :: a)) (length (y :: y' :: b))) as [E|]; [|discriminate].
  apply Ok_inj in H. subst. rewrite cwise_length by assumption. lia.
Qed.
End Product.

(** ** is_in *)
Lemma is_in_from_spec {T} (eqb : T -> T -> bool) (Hs : forall x y, eqb x y = true <-> x = y) l v : forall i,
  (0 <= i)%Z ->
  (is_in_from eqb i l v = (-1)%Z /\ ~ In v l) \/
  (exists k, is_in_from eqb i l v = (i + Z.of_nat k)%Z /\ nth_error l k = Some v /\ forall j, (j < k)%nat -> nth_error l j <> Some v).
Proof.
  induction l as [|x l IH]; intros i Hi; simpl.
  - left. auto.
  - destruct (eqb x v) eqn:E.
    + right. exists 0%nat. apply Hs in E. subst. repeat split; try lia.
    + assert (x <> v) by (intros ->; rewrite (proj2 (Hs v v) eq_refl) in E; discriminate).
      destruct (IH (i + 1)%Z ltac:(lia)) as [[-> H']|(k & -> & Hk & Hj)].
      * left. split; [reflexivity|]. intros [|]; contradiction.
      * right. exists (S k). split; [lia|]. split; [exact Hk|]. intros [|j] Hlt; simpl; [congruence|]. apply Hj. lia.
Qed.

(** ** clamp *)
Lemma clamp_spec x a b : (a <= b)%R ->
  (a <= clamp x a b <= b)%R /\ ((a <= x <= b)%R -> clamp x a b = x) /\ ((x < a)%R -> clamp x a b = a) /\ ((b < x)%R -> clamp x a b = b).
Proof.
  intros H. unfold clamp, Rmax, Rmin. repeat split; intros; repeat destruct Rle_dec; lra.
Qed.

(** ** Timer *)
Lemma u32_mod z : (0 <= u32 z < 2 ^ 32)%Z.
Proof. apply Z.mod_pos_bound. lia. Qed.
Lemma u32_small z : (0 <= z < 2 ^ 32)%Z -> u32 z = z.
Proof. apply Z.mod_small. Qed.
Lemma u32_sub a b : u32 (u32 a - u32 b) = u32 (a - b).
Proof. unfold u32. rewrite <- Zminus_mod. reflexivity. Qed.
Lemma u32_add_r a b : u32 (a + u32 b) = u32 (a + b).
Proof. unfold u32. rewrite Zplus_mod_idemp_r. reflexivity. Qed.
Lemma u32_add_l a b : u32 (u32 a + b) = u32 (a + b).
Proof. unfold u32. rewrite Zplus_mod_idemp_l. reflexivity. Qed.
Lemma u32_idem a : u32 (u32 a) = u32 a.
Proof. unfold u32. apply Z.mod_mod. lia. Qed.

Lemma start_stop t a b : t_start t = t_stop t -> t_elapsed t = u32 (t_elapsed t) ->
  let t' := timer_stop (timer_start t a) b in
  t_start t' = t_stop t' /\ t_elapsed t' = u32 (t_elapsed t + (b - a)).
Proof.
  intros H He. cbn. split; [reflexivity|]. rewrite H, Z.sub_diag. change (u32 0) with 0%Z. rewrite Z.add_0_r.
  rewrite u32_sub, u32_add_r, u32_add_l. reflexivity.
Qed.

Lemma run_total l : forall t, t_start t = t_stop t -> t_elapsed t = u32 (t_elapsed t) ->
  t_elapsed (run_intervals t l) = u32 (t_elapsed t + total l).
Proof.
  induction l as [|[a b] l IH]; intros t Hs He.
  - cbn. rewrite Z.add_0_r. assumption.
  - change (run_intervals t ((a, b) :: l)) with (run_intervals (timer_stop (timer_start t a) b) l).
    destruct (start_stop t a b Hs He) as [H1 H2]. rewrite IH; [|assumption|rewrite H2, u32_idem; reflexivity].
    rewrite H2, u32_add_l. cbn [total fold_right fst snd]. fold (total l). f_equal. lia.
Qed.

Theorem timer_total now l : (0 <= total l < 2 ^ 31)%Z -> timer_read (run_intervals (timer_reset now) l) = total l.
Proof.
  intros H. unfold timer_read. rewrite run_total by reflexivity. cbn [timer_reset t_elapsed]. rewrite Z.add_0_l, u32_small by lia.
  destruct (Z.ltb_spec (total l) (2 ^ 31)); lia.
Qed.

(** two starts in a row subtract the time between the last stop and the first start *)
Theorem timer_double_start now a b c : 
  (now < a)%Z -> (a <= b)%Z -> (b <= c)%Z -> (c - b < a - now)%Z -> (c - now < 2 ^ 31)%Z ->
  timer_read (timer_stop (timer_start (timer_start (timer_reset now) a) b) c) = (c - b - (a - now))%Z.
Proof.
  intros H1 H2 H3 H4 H5. unfold timer_read, timer_stop, timer_start, timer_reset. cbn [t_start t_stop t_elapsed].
  assert (E : u32 (u32 (u32 (0 + u32 (u32 now - u32 now)) + u32 (u32 now - u32 a)) + u32 (u32 c - u32 b))%Z = (c - b - (a - now) + 2 ^ 32)%Z).
  { rewrite !u32_sub, !Z.sub_diag. change (u32 (0 + u32 0)) with 0%Z. rewrite Z.add_0_l.
    rewrite u32_add_r, u32_add_l, u32_add_l.
    unfold u32. symmetry. apply (Zmod_unique _ _ (-1)); lia. }
  rewrite E. destruct (Z.ltb_spec (c - b - (a - now) + 2 ^ 32)%Z (2 ^ 31)%Z); lia.
Qed.

(** ** Printing *)
Lemma print_fields (a b c a' b' c' : Z) : 
  print_Z a ++ lit "h " ++ print_Z b ++ lit "m " ++ print_Z c ++ lit "s" =
  print_Z a' ++ lit "h " ++ print_Z b' ++ lit "m " ++ print_Z c' ++ lit "s" -> a = a' /\ b = b' /\ c = c'.
Proof.
  intros H. pose proof (f_equal scan_int H) as E1. rewrite !scan_int_print_Z in E1 by reflexivity.
  injection E1 as -> E2. cbn [lit list_ascii_of_string app] in E2.
  pose proof (f_equal scan_int E2) as E3. cbn [lit list_ascii_of_string app] in E3. rewrite !scan_int_print_Z in E3 by reflexivity.
  injection E3 as -> E4. cbn [lit list_ascii_of_string app] in E4.
  pose proof (f_equal scan_int E4) as E5. rewrite !scan_int_print_Z in E5 by reflexivity.
  injection E5 as ->. auto.
Qed.

Lemma read_range t : (0 <= t_elapsed t < 2 ^ 32)%Z -> u32 (timer_read t) = t_elapsed t.
Proof.
  intros H. unfold timer_read. destruct (Z.ltb_spec (t_elapsed t) (2 ^ 31)).
  - apply u32_small. assumption.
  - unfold u32. symmetry. apply (Zmod_unique _ _ (-1)); lia.
Qed.

Theorem timer_print_injective t t' : (0 <= t_elapsed t < 2 ^ 32)%Z -> (0 <= t_elapsed t' < 2 ^ 32)%Z ->
  timer_print t = timer_print t' -> timer_read t = timer_read t'.
Proof.
  intros H H' E. unfold timer_print in E. apply print_fields in E. rewrite !read_range in E by assumption.
  destruct E as (E1 & E2 & E3).
  assert (t_elapsed t = t_elapsed t') as Et.
  { set (x := t_elapsed t) in *. set (y := t_elapsed t') in *.
    Z.div_mod_to_equations. lia. }
  unfold timer_read. rewrite Et. reflexivity.
Qed.

(** the hour field is right exactly below six minutes *)
Theorem timer_print_hours t : (0 <= t_elapsed t < 2 ^ 32)%Z ->
  ((u32 (timer_read t) / 360 = t_elapsed t / 3600)%Z <-> (t_elapsed t < 360)%Z).
Proof.
  intros H. rewrite read_range by assumption. set (x := t_elapsed t) in *. Z.div_mod_to_equations. lia.
Qed.

(** Properties C24, C25 and C58: vector products, timer and small helpers. *)
From Coq Require Import Reals List ZArith Lia Lra.
From Verif Require Import Base Num CommonModel CommonProofs.

(** C24 *)
Theorem C24_equal_sizes_multiply_componentwise : forall T (mul : T -> T -> T) a b, length a = length b -> length a <> 1%nat ->
  exists c, product mul a b = Ok c /\ length c = length a /\
    forall i x y, nth_error a i = Some x -> nth_error b i = Some y -> nth_error c i = Some (mul x y).
Proof. intros T mul. exact (product_same_size mul). Qed.
Print Assumptions C24_equal_sizes_multiply_componentwise.

Theorem C24_scalars_broadcast : forall T (mul : T -> T -> T) s v,
  product mul [s] v = Ok (map (fun x => mul x s) v) /\
  (length v <> 1%nat -> product mul v [s] = Ok (map (fun x => mul x s) v)).
Proof. intros. split; [reflexivity|]. apply product_scalar_right. Qed.
Print Assumptions C24_scalars_broadcast.

Theorem C24_commutative : forall T (mul : T -> T -> T), (forall x y, mul x y = mul y x) ->
  forall a b, product mul a b = product mul b a.
Proof. intros T mul H. exact (product_comm mul H). Qed.
Print Assumptions C24_commutative.

Theorem C24_size_of_the_larger : forall T (mul : T -> T -> T) a b c, product mul a b = Ok c ->
  (0 < length a)%nat -> (0 < length b)%nat -> length c = Nat.max (length a) (length b).
Proof. intros T mul. exact (product_size mul). Qed.
Print Assumptions C24_size_of_the_larger.

Theorem C24_incompatible_sizes_are_refused : forall T (mul : T -> T -> T) a b,
  length a <> length b -> length a <> 1%nat -> length b <> 1%nat -> product mul a b = Abort.
Proof. intros T mul. exact (product_mismatch mul). Qed.
Print Assumptions C24_incompatible_sizes_are_refused.

Example C24_case : product Z.mul [2; 3]%Z [5; 7]%Z = Ok [10; 21]%Z /\ product Z.mul [2]%Z [5; 7]%Z = Ok [10; 14]%Z /\
  product Z.mul [1; 2]%Z [1; 2; 3]%Z = Abort.
Proof. repeat split. Qed.

(** C25 *)
Theorem C25_elapsed_is_the_sum_of_intervals : forall now l, (0 <= total l < 2 ^ 31)%Z ->
  timer_read (run_intervals (timer_reset now) l) = total l.
Proof. exact timer_total. Qed.
Print Assumptions C25_elapsed_is_the_sum_of_intervals.

Theorem C25_reset_is_zero : forall now, timer_read (timer_reset now) = 0%Z.
Proof. reflexivity. Qed.
Print Assumptions C25_reset_is_zero.

Theorem C25_printed_value_determines_elapsed : forall t t', (0 <= t_elapsed t < 2 ^ 32)%Z -> (0 <= t_elapsed t' < 2 ^ 32)%Z ->
  timer_print t = timer_print t' -> timer_read t = timer_read t'.
Proof. exact timer_print_injective. Qed.
Print Assumptions C25_printed_value_determines_elapsed.

(** The printed hours are wrong from six minutes on. *)
Theorem C25_printed_hours_refuted : forall t, (0 <= t_elapsed t < 2 ^ 32)%Z ->
  ((u32 (timer_read t) / 360 = t_elapsed t / 3600)%Z <-> (t_elapsed t < 360)%Z).
Proof. exact timer_print_hours. Qed.
Print Assumptions C25_printed_hours_refuted.

(** Starting a running timer makes it lose time: it can even become negative. *)
Theorem C25_double_start_refuted : forall now a b c,
  (now < a)%Z -> (a <= b)%Z -> (b <= c)%Z -> (c - b < a - now)%Z -> (c - now < 2 ^ 31)%Z ->
  timer_read (timer_stop (timer_start (timer_start (timer_reset now) a) b) c) = (c - b - (a - now))%Z.
Proof. exact timer_double_start. Qed.
Print Assumptions C25_double_start_refuted.

Example C25_case : timer_read (run_intervals (timer_reset 100) [(105, 115); (200, 203)]%Z) = 13%Z /\
  timer_print (run_intervals (timer_reset 0) [(0, 365)]%Z) = lit "1h 6m 5s" /\
  timer_read (timer_stop (timer_start (timer_start (timer_reset 0) 10) 20) 25) = (-5)%Z.
Proof. repeat split; reflexivity. Qed.

(** C58 *)
Theorem C58_is_in_finds_the_first_index : forall T (eqb : T -> T -> bool), (forall x y, eqb x y = true <-> x = y) ->
  forall l v, (is_in eqb l v = (-1)%Z /\ ~ In v l) \/
  (exists k, is_in eqb l v = Z.of_nat k /\ nth_error l k = Some v /\ forall j, (j < k)%nat -> nth_error l j <> Some v).
Proof. intros T eqb H l v. exact (is_in_from_spec eqb H l v 0 ltac:(lia)). Qed.
Print Assumptions C58_is_in_finds_the_first_index.

Theorem C58_clamp : forall x a b, (a <= b)%R ->
  (a <= clamp x a b <= b)%R /\ ((a <= x <= b)%R -> clamp x a b = x) /\ ((x < a)%R -> clamp x a b = a) /\ ((b < x)%R -> clamp x a b = b).
Proof. exact clamp_spec. Qed.
Print Assumptions C58_clamp.

Example C58_case : is_in Z.eqb [4; 5; 6; 5]%Z 5%Z = 1%Z /\ is_in Z.eqb [4; 5]%Z 9%Z = (-1)%Z.
Proof. split; reflexivity. Qed.

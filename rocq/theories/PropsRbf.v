(** Property C85: the interpolant of scattered samples. *)
From Coq Require Import Reals List Lra.
From Verif Require Import Base Num TextModel TextProofs RatProofs RbfModel RbfSpec RbfProofs RbfProofs2.
Open Scope R_scope.

(** The value is the average of at most three samples weighted by the inverse of
    their squared distance (plus 1e-10), channel by channel. *)
Theorem C85_value : forall search dx dy t x, finds search -> table_ok dx dy t -> length x = dx -> t <> [] ->
  exists y, interpolates search dx dy t x y /\ length y = dy /\
    (forall c, (c < dy)%nat -> nth c y 0 = sum (fun i => weight x (position t i) * sample t c i) (used search t x) / sum (fun i => weight x (position t i)) (used search t x)) /\
    NoDup (used search t x) /\ (0 < length (used search t x) <= 3)%nat /\ (forall i, In i (used search t x) -> (i < length t)%nat).
Proof.
  intros search dx dy t x Hs Ht Hx Hne. destruct (value_ok search dx dy t x Hs Ht Hx) as (y & H1 & H2 & _). exists y. split; [assumption|]. split; [assumption|].
  split; [intros c Hc; apply (value_is search dx dy t x Hs Ht Hx y c Hne H1 Hc)|]. destruct (used_few search t x Hs) as [N L]. split; [assumption|].
  split; [|intros i; apply (used_in search t x Hs)]. split; [|assumption]. assert (U := used_ne search t x Hs Hne). destruct (used search t x); [congruence|cbn; lia].
Qed.
Print Assumptions C85_value.
(** It never leaves the range of the samples used; where those agree it is their
    value. *)
Theorem C85_within_range : forall search dx dy t x y c lo hi, finds search -> table_ok dx dy t -> length x = dx -> t <> [] ->
  interpolates search dx dy t x y -> (c < dy)%nat ->
  (forall i, In i (used search t x) -> lo <= sample t c i <= hi) -> lo <= nth c y 0 <= hi.
Proof. intros search dx dy t x y c lo hi Hs Ht Hx. apply value_within; assumption. Qed.
Print Assumptions C85_within_range.
(** Samples that are not used have no effect. *)
Theorem C85_local : forall search dx dy t t' x y y', finds search -> table_ok dx dy t -> table_ok dx dy t' -> length x = dx -> t <> [] ->
  List.map fst t = List.map fst t' -> (forall i c, In i (used search t x) -> sample t c i = sample t' c i) ->
  interpolates search dx dy t x y -> interpolates search dx dy t' x y' -> forall c, (c < dy)%nat -> nth c y 0 = nth c y' 0.
Proof.
  intros search dx dy t t' x y y' Hs Ht Ht' Hx Hne Hp Hv Hy Hy' c Hc.
  assert (Hne' : t' <> []) by (intros ->; destruct t; [congruence|discriminate]).
  rewrite (value_is search dx dy t x Hs Ht Hx y c Hne Hy Hc), (value_is search dx dy t' x Hs Ht' Hx y' c Hne' Hy' Hc).
  assert (U : used search t' x = used search t x) by (unfold used; rewrite Hp; reflexivity). rewrite U.
  assert (P : forall i, In i (used search t x) -> position t i = position t' i).
  { intros i I. assert (L := used_in search t x Hs i I). assert (L' := used_in search t' x Hs i ltac:(rewrite U; exact I)). unfold position. rewrite <- (map_nth fst t), <- (map_nth fst t'). rewrite Hp. reflexivity. }
  rewrite (sum_ext (fun i => weight x (position t i)) (fun i => weight x (position t' i))) by (intros i I; rewrite (P i I); reflexivity).
  f_equal. apply sum_ext. intros i I. rewrite (P i I), (Hv i c I). reflexivity.
Qed.
Print Assumptions C85_local.
(** Scaling and shifting a channel of all samples scales and shifts the value. *)
Theorem C85_affine : forall search dx dy t t' x y y' c a b, finds search -> table_ok dx dy t -> table_ok dx dy t' -> length x = dx -> t <> [] ->
  List.map fst t = List.map fst t' -> (forall i, (i < length t)%nat -> sample t' c i = a * sample t c i + b) ->
  interpolates search dx dy t x y -> interpolates search dx dy t' x y' -> (c < dy)%nat -> nth c y' 0 = a * nth c y 0 + b.
Proof.
  intros search dx dy t t' x y y' c a b Hs Ht Ht' Hx Hne Hp Hv Hy Hy' Hc.
  assert (Hne' : t' <> []) by (intros ->; destruct t; [congruence|discriminate]).
  rewrite (value_is search dx dy t x Hs Ht Hx y c Hne Hy Hc), (value_is search dx dy t' x Hs Ht' Hx y' c Hne' Hy' Hc).
  assert (U : used search t' x = used search t x) by (unfold used; rewrite Hp; reflexivity). rewrite U.
  assert (P : forall i, position t' i = position t i). { intros i. unfold position. rewrite <- (map_nth fst t), <- (map_nth fst t'). rewrite Hp. reflexivity. }
  assert (W := cum_pos search t x Hs Hne).
  rewrite (sum_ext (fun i => weight x (position t' i) * sample t' c i) (fun i => a * (weight x (position t i) * sample t c i) + b * weight x (position t i)))
    by (intros i I; rewrite P, Hv by (apply (used_in search t x Hs i I)); ring).
  rewrite sum_lin. rewrite (sum_ext (fun i => weight x (position t' i)) (fun i => weight x (position t i))) by (intros; rewrite P; reflexivity). field. lra.
Qed.
Print Assumptions C85_affine.
(** At the position of a sample the value is close to it: the other samples used,
    at a squared distance of at least delta and with values within M, change it
    by at most 2 M / (delta 1e10)... *)
Theorem C85_near_sample : forall search dx dy t x y c i delta M, finds search -> table_ok dx dy t -> length x = dx -> t <> [] ->
  interpolates search dx dy t x y -> (c < dy)%nat -> In i (used search t x) -> position t i = x -> 0 < delta -> 0 <= M ->
  (forall j, In j (used search t x) -> j <> i -> delta <= squared x (position t j) /\ Rabs (sample t c j - sample t c i) <= M) ->
  Rabs (nth c y 0 - sample t c i) <= 2 * M / (delta * 10 ^ 10).
Proof. intros search dx dy t x y c i delta M Hs Ht Hx. apply near_sample; assumption. Qed.
Print Assumptions C85_near_sample.
(** ... but it is not the sample: when another sample is used and none of those
    used is lower, the value is above. *)
Theorem C85_samples_not_reproduced_refuted : forall search dx dy t x y c i j, finds search -> table_ok dx dy t -> length x = dx -> t <> [] ->
  interpolates search dx dy t x y -> (c < dy)%nat -> In j (used search t x) -> sample t c i < sample t c j ->
  (forall k, In k (used search t x) -> sample t c i <= sample t c k) -> sample t c i < nth c y 0.
Proof.
  intros search dx dy t x y c i j Hs Ht Hx Hne Hy Hc Ij Hj Hk.
  assert (D := value_diff search dx dy t x Hs Ht Hx y c (sample t c i) Hne Hy Hc). assert (W := cum_pos search t x Hs Hne).
  assert (P : 0 < sum (fun k => weight x (position t k) * (sample t c k - sample t c i)) (used search t x)).
  { destruct (in_split j _ Ij) as (l1 & l2 & E). rewrite E in *. rewrite sum_app. cbn [sum]. assert (Wj := weight_pos x (position t j)).
    assert (N : forall l, (forall k, In k l -> In k (l1 ++ j :: l2)) -> 0 <= sum (fun k => weight x (position t k) * (sample t c k - sample t c i)) l).
    { intros l Hl. apply sum_nonneg. intros k Ik. assert (Wk := weight_pos x (position t k)). specialize (Hk k (Hl k Ik)). apply Rmult_le_pos; lra. }
    assert (N1 := N l1 ltac:(intros; apply in_or_app; left; assumption)). assert (N2 := N l2 ltac:(intros; apply in_or_app; right; right; assumption)). assert (0 < weight x (position t j) * (sample t c j - sample t c i)) by (apply Rmult_lt_0_compat; lra). lra. }
  rewrite <- D in P. destruct (Rle_dec (nth c y 0 - sample t c i) 0) as [H|H]; [|lra]. exfalso. nra.
Qed.
Print Assumptions C85_samples_not_reproduced_refuted.
(** Without samples the value is zero. *)
Theorem C85_no_samples : forall search dx dy x, finds search -> length x = dx -> interpolates search dx dy [] x (repeat 0 dy).
Proof.
  intros search dx dy x Hs Hx. eexists _, [], []. split; [apply (new_ok dx dy []); constructor|]. unfold rbf_value. cbn [rb_dx rb_dy rb_points rb_rows rb_knn]. rewrite Hx, Nat.ltb_irrefl. rewrite <- Hx at 1. rewrite firstn_all.
  destruct (Hs [] x 3%nat (Nat.lt_0_succ 2)) as (F & _). cbn [List.map]. destruct (search [] x 3%nat) as [|[i d] l].
  - cbn [rbf_loop bind]. replace (rltb 0 0) with false; [reflexivity|]. destruct (rltb 0 0) eqn:B; [|reflexivity]. apply rltb_spec in B. lra.
  - exfalso. inversion_clear F as [|? ? (p & E & _) _]. cbn in E. destruct i; discriminate.
Qed.
Print Assumptions C85_no_samples.
(** Only dimX numbers of the argument matter; with fewer, memory outside it is read. *)
Theorem C85_arguments : forall search s x more, (length x = rb_dx s -> rbf_value search s (x ++ more) = rbf_value search s x) /\
  ((length x < rb_dx s)%nat -> rbf_value search s x = UB).
Proof.
  intros search s x more. split; intros H; unfold rbf_value.
  - rewrite app_length, H. destruct (Nat.ltb_spec (rb_dx s + length more) (rb_dx s)); [lia|]. rewrite Nat.ltb_irrefl. rewrite <- H, firstn_app, Nat.sub_diag, firstn_O, app_nil_r. reflexivity.
  - apply Nat.ltb_lt in H. rewrite H. reflexivity.
Qed.
Print Assumptions C85_arguments.

(** The contract of the search can be met: the first samples do. *)
Definition first_samples (pts : list (list R)) (x : list R) (k : nat) : list (nat * R) :=
  List.map (fun i => (i, squared x (nth i pts []))) (seq 0 (min k (length pts))).
Example first_samples_found : finds first_samples.
Proof.
  intros pts x k Hk. cbn zeta. unfold first_samples. split; [|split; [|split]].
  - apply Forall_forall. intros [i d] I. apply in_map_iff in I. destruct I as (j & E & J). injection E as <- <-. apply in_seq in J. exists (nth j pts []). split; [|reflexivity]. apply nth_error_nth'. cbn [fst]. lia.
  - rewrite List.map_map. cbn [fst]. rewrite List.map_id. apply seq_NoDup.
  - rewrite map_length, seq_length. lia.
  - intros Hp. destruct pts; [congruence|]. destruct k; [lia|]. discriminate.
Qed.
(** Two samples on a line: halfway, and at the first of them. *)
Example C85_case : let t := [([0], [1]); ([1], [3])] in
  table_ok 1 1 t /\ interpolates first_samples 1 1 t [1 / 2] [2] /\
  exists v, interpolates first_samples 1 1 t [0] [v] /\ 1 < v <= 1 + 4 / 10 ^ 10.
Proof.
  intros t. assert (Ht : table_ok 1 1 t) by (repeat constructor). split; [assumption|].
  assert (One : forall y : list R, length y = 1%nat -> y = [nth 0 y 0]) by (intros [|a [|b y]] H; try discriminate; reflexivity).
  split.
  - destruct (C85_value first_samples 1 1 t [1 / 2] first_samples_found Ht eq_refl ltac:(discriminate)) as (y & H1 & H2 & H3 & _).
    replace [2] with y; [assumption|]. rewrite (One y H2). f_equal. rewrite (H3 0%nat ltac:(lia)). unfold used, first_samples, sample, position, weight, squared, t. cbn. field.
  - destruct (C85_value first_samples 1 1 t [0] first_samples_found Ht eq_refl ltac:(discriminate)) as (y & H1 & H2 & H3 & _). exists (nth 0 y 0). rewrite <- (One y H2). split; [assumption|]. split.
    + apply (C85_samples_not_reproduced_refuted first_samples 1 1 t [0] y 0 0 1 first_samples_found Ht eq_refl ltac:(discriminate) H1 ltac:(lia)); [right; left; reflexivity|unfold sample; cbn; lra|].
      intros k [<-|[<-|[]]]; unfold sample; cbn; lra.
    + assert (N := C85_near_sample first_samples 1 1 t [0] y 0 0 1 2 first_samples_found Ht eq_refl ltac:(discriminate) H1 ltac:(lia) ltac:(left; reflexivity) eq_refl ltac:(lra) ltac:(lra)).
      assert (N' : Rabs (nth 0 y 0 - sample t 0 0) <= 2 * 2 / (1 * 10 ^ 10)).
      { apply N. intros j [<-|[<-|[]]] Hj; [exfalso; apply Hj; reflexivity|]. unfold squared, sample, position. cbn. split; [lra|]. rewrite Rabs_right; lra. }
      change (sample t 0 0) with 1 in N'. assert (A := Rle_abs (nth 0 y 0 - 1)). lra.
Qed.
(** As a table of samples the object is of no use: get returns whatever the memory
    contains, set stops the program. *)
Example C85_samples_unreadable : forall junk s i x, rbf_get junk s i = firstn (rb_dx s + rb_dy s) (junk i) /\ rbf_set s i x = Abort.
Proof. split; reflexivity. Qed.

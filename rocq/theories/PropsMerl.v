(** Properties C40, C41, C42. *)
From Coq Require Import Reals List ZArith Lia Lra.
From Verif Require Import Base Num Double DataProofs MerlModel MerlSpec MerlProofs.
Open Scope R_scope.

(** * C40: evaluation never leaves the table *)
(** Whatever the angles, even outside their range, evaluating a complete table
    yields three non negative numbers: no access is out of bounds. *)
Theorem C40_value_is_defined : forall t x, table_ok t ->
  exists r g b, merl_value t x = Ok (r, g, b) /\ 0 <= r /\ 0 <= g /\ 0 <= b.
Proof. exact value_total. Qed.
Print Assumptions C40_value_is_defined.

(** Angles outside the range give black. *)
Theorem C40_outside_is_black : forall t th td pd,
  th < 0 \/ PI / 2 < th \/ td < 0 \/ PI / 2 < td \/ pd < - (2 * PI) \/ 2 * PI < pd ->
  merl_value t (th, td, pd) = Ok (0, 0, 0).
Proof. exact value_outside. Qed.
Print Assumptions C40_outside_is_black.

(** Reciprocity: the azimuth may be negated or replaced by its complement to a
    full turn. *)
Theorem C40_azimuth_symmetry : forall t th td pd,
  merl_value t (th, td, - pd) = merl_value t (th, td, pd) /\
  (0 <= pd <= 2 * PI -> merl_value t (th, td, 2 * PI - pd) = merl_value t (th, td, pd)).
Proof. intros. split; [apply value_phi_sym|apply value_phi_wrap]. Qed.
Print Assumptions C40_azimuth_symmetry.

(** * C41: samples and cells *)
(** All 1458000 samples can be read, and no two have the same angles. *)
Theorem C41_samples : forall t, table_ok t ->
  (forall i, (0 <= i < samples)%Z -> exists x y, merl_get t i = Ok (x, y)) /\
  (forall i j x y y', (0 <= i < samples)%Z -> (0 <= j < samples)%Z ->
     merl_get t i = Ok (x, y) -> merl_get t j = Ok (x, y') -> i = j).
Proof.
  intros t Ht. split.
  - intros i Hi. apply get_total; assumption.
  - intros i j x y y' Hi Hj. apply samples_distinct; assumption.
Qed.
Print Assumptions C41_samples.

(** Evaluating at the angles of sample i gives its values - or black if one of
    them is negative (MERL marks missing measurements so). *)
Theorem C41_value_at_sample : forall t i x r g b, (0 <= i < samples)%Z -> merl_get t i = Ok (x, (r, g, b)) ->
  (0 <= r /\ 0 <= g /\ 0 <= b -> merl_value t x = Ok (r, g, b)) /\
  (r < 0 \/ g < 0 \/ b < 0 -> merl_value t x = Ok (0, 0, 0)).
Proof. exact value_at_sample. Qed.
Print Assumptions C41_value_at_sample.

(** The angles split into cells; the value is the same in a whole cell, that of
    its sample, whose angles are in the cell. *)
Theorem C41_cells : forall t, table_ok t ->
  (forall th td pd, 0 <= th <= PI / 2 -> 0 <= td <= PI / 2 -> 0 <= pd <= PI -> exists h d p, in_cell h d p (th, td, pd)) /\
  (forall h d p x, in_cell h d p x ->
     exists x' y, merl_get t (cell_number h d p) = Ok (x', y) /\ in_cell h d p x' /\ merl_value t x = merl_value t x').
Proof.
  intros t Ht. split; [intros; apply every_angle_in_cell; assumption|].
  intros h d p x Hx. destruct (value_in_cell t h d p x Ht Hx) as (x' & H1 & H2 & H3). eauto.
Qed.
Print Assumptions C41_cells.

(** Writing a sample changes that sample only. *)
Theorem C41_set : forall t i y, table_ok t -> (0 <= i < samples)%Z ->
  exists t', merl_set t i y = Ok t' /\ table_ok t' /\
    (exists x, merl_get t' i = Ok (x, y)) /\
    (forall j, (0 <= j < samples)%Z -> j <> i -> merl_get t' j = merl_get t j).
Proof. exact set_get. Qed.
Print Assumptions C41_set.

(** A table holding 3000 everywhere but -1 as the red of the first sample. *)
Example C41_case : exists t, table_ok t /\
  (exists x, merl_get t 0 = Ok (x, (- 1, 23 / 10, 332 / 100)) /\ merl_value t x = Ok (0, 0, 0)) /\
  (exists x, merl_get t 1457999 = Ok (x, (2, 23 / 10, 332 / 100)) /\ merl_value t x = Ok (2, 23 / 10, 332 / 100) /\
             merl_value t (PI / 2, PI / 2, PI) = Ok (2, 23 / 10, 332 / 100)).
Proof.
  set (N := Z.to_nat (3 * samples)).
  assert (HN : Z.of_nat N = (3 * samples)%Z) by (unfold N; apply Z2Nat.id; unfold samples; lia).
  assert (Ht : table_ok (repeat 3000 N)) by (unfold table_ok; rewrite repeat_length; exact HN).
  assert (Hat : forall i, (0 <= i < 3 * samples)%Z -> at_ (repeat 3000 N) i = Ok 3000).
  { intros i Hi. unfold at_. destruct (Z.ltb_spec i 0); [lia|]. rewrite nth_error_repeat by lia. reflexivity. }
  assert (Hg : forall i, (0 <= i < samples)%Z -> exists x, merl_get (repeat 3000 N) i = Ok (x, (2, 23 / 10, 332 / 100))).
  { intros i Hi. unfold samples in *. rewrite get_shape, !Hat by lia. cbn [bind]. eexists. f_equal. f_equal.
    unfold RED_SCALE, GREEN_SCALE, BLUE_SCALE. f_equal; [f_equal|]; field. }
  destruct (C41_set (repeat 3000 N) 0 (- 1, 23 / 10, 332 / 100) Ht) as (t & _ & Ht' & [x0 H0] & Hj); [unfold samples; lia|].
  exists t. split; [exact Ht'|]. split.
  - exists x0. split; [exact H0|]. apply (C41_value_at_sample t 0 _ _ _ _ ltac:(unfold samples; lia) H0). lra.
  - destruct (Hg 1457999%Z) as [x Hx]; [unfold samples; lia|]. rewrite <- (Hj 1457999%Z) in Hx; [|unfold samples; lia|lia].
    assert (Hv : merl_value t x = Ok (2, 23 / 10, 332 / 100)).
    { apply (C41_value_at_sample t 1457999 _ _ _ _ ltac:(unfold samples; lia) Hx). lra. }
    exists x. split; [exact Hx|]. split; [exact Hv|]. pose proof PI_RGT_0 as Hpi.
    destruct (proj2 (C41_cells t Ht') 89%Z 89%Z 179%Z (PI / 2, PI / 2, PI)) as (x' & y & G & _ & V).
    { unfold in_cell, piece. replace (PI / 2 / (PI / 2)) with 1 by (field; lra). replace (PI / PI) with 1 by (field; lra).
      repeat split; try lia; try lra; right; split; (reflexivity || lra). }
    rewrite V. change (cell_number 89 89 179) with 1457999%Z in G. rewrite G in Hx. injection Hx as -> _. exact Hv.
Qed.

(** * C42: files *)
(** A complete table written to a file is read back bit for bit. *)
Theorem C42_file_round_trip : forall t, table_ok t -> Forall is_double t ->
  exists file, merl_save t = Ok file /\ merl_load file = Ok t.
Proof. exact file_roundtrip. Qed.
Print Assumptions C42_file_round_trip.

(** Reading checks the three dimensions of the header through their product
    only; another product stops the program. *)
Theorem C42_header_check : forall a b c rest,
  (0 <= a < 2 ^ 15)%Z -> (0 <= b < 2 ^ 15)%Z -> (0 <= c < 2 ^ 31)%Z -> (a * b * c < 2 ^ 31)%Z ->
  merl_load (bytes_of_int a ++ bytes_of_int b ++ bytes_of_int c ++ rest) =
  if (a * b * c =? samples)%Z then Ok (bytes_doubles (Z.to_nat (3 * samples)) rest) else Abort.
Proof. exact load_accepts. Qed.
Print Assumptions C42_header_check.

(** A truncated file is not detected: the header alone is read as a black
    table. *)
Theorem C42_truncated_file_refuted :
  merl_load (bytes_of_int 90 ++ bytes_of_int 90 ++ bytes_of_int 180) = Ok (repeat 0%N (Z.to_nat (3 * samples))).
Proof. exact load_header_only. Qed.
Print Assumptions C42_truncated_file_refuted.

(** Wrong dimensions with the right product are accepted. *)
Theorem C42_wrong_dimensions_refuted : forall rest,
  merl_load (bytes_of_int 1 ++ bytes_of_int 1 ++ bytes_of_int samples ++ rest) =
  Ok (bytes_doubles (Z.to_nat (3 * samples)) rest).
Proof.
  intros. rewrite load_accepts by (unfold samples; lia). replace (1 * 1 * samples)%Z with samples by ring.
  rewrite Z.eqb_refl. reflexivity.
Qed.
Print Assumptions C42_wrong_dimensions_refuted.

Example C42_case : table_ok (repeat 4611686018427387904%N (Z.to_nat (3 * samples))) /\
  Forall is_double (repeat 4611686018427387904%N (Z.to_nat (3 * samples))).
Proof.
  split.
  - unfold table_ok. rewrite repeat_length. apply Z2Nat.id. unfold samples; lia.
  - apply Forall_forall. intros w Hw. apply repeat_spec in Hw. subst w. unfold is_double. lia.
Qed.

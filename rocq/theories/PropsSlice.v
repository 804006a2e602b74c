(** Property C45. *)
From Coq Require Import Reals List ZArith Lia Lra.
From Verif Require Import Base Num ParamsModel MerlModel SliceModel SliceSpec SliceProofs.
Open Scope R_scope.

(** Whatever the --param and --phi options, an object made from an image is well
    formed and has the size of the image. *)
Theorem C45_construction : forall param phi w h content, image_ok w h content ->
  slice_ok (slice_new param phi w h 1 content) /\
  s_width (slice_new param phi w h 1 content) = w /\ s_height (slice_new param phi w h 1 content) = h.
Proof. exact new_ok. Qed.
Print Assumptions C45_construction.
(** The parametrization asked for with --param is the one of the object when it
    has 2 or 3 dimensions, and is replaced by STARK_2D otherwise; the slice is
    at --phi (degrees) for 3D parametrizations. *)
Theorem C45_parametrization : forall p phi w h n content,
  let s := slice_new (Some p) phi w h n content in
  ((dimension_in p = 2 \/ dimension_in p = 3)%Z -> s_param s = p /\ Z.of_nat (s_dim s) = dimension_in p) /\
  ((dimension_in p <> 2)%Z -> (dimension_in p <> 3)%Z -> s_param s = STARK_2D /\ s_dim s = 2%nat) /\
  s_phi s = (if Z.eq_dec (dimension_in p) 3 then phi * PI / 180 else PI / 2) /\
  s_param (slice_new None phi w h n content) = STARK_2D /\ s_dim (slice_new None phi w h n content) = 2%nat.
Proof.
  intros p phi w h n content s. subst s. unfold slice_new, slice_parameters.
  destruct (Z.eqb_spec (dimension_in p) 2) as [E|N2]; [|destruct (Z.eqb_spec (dimension_in p) 3) as [E|N3]]; cbn [s_param s_dim s_phi Nat.eqb].
  - rewrite E. split; [auto|]. split; [lia|]. split; [destruct (Z.eq_dec 2 3); [lia|lra]|auto].
  - rewrite E. split; [auto|]. split; [lia|]. split; [destruct (Z.eq_dec 3 3); [lra|lia]|auto].
  - split; [lia|]. split; [auto|]. split; [destruct (Z.eq_dec (dimension_in p) 3); [lia|lra]|auto].
Qed.
Print Assumptions C45_parametrization.

(** Each of the width x height samples can be read, and two samples never have
    the same position. *)
Theorem C45_samples : forall s, slice_ok s ->
  (forall id, (0 <= id < s_width s * s_height s)%Z -> exists x y, slice_get s id = Ok (x, y) /\ length x = s_dim s) /\
  (forall id id' x y y', (0 <= id < s_width s * s_height s)%Z -> (0 <= id' < s_width s * s_height s)%Z ->
     slice_get s id = Ok (x, y) -> slice_get s id' = Ok (x, y') -> id = id').
Proof.
  intros s Hs. split; [intros; apply slice_get_total; assumption|]. intros id id' x y y'. apply slice_samples_distinct. assumption.
Qed.
Print Assumptions C45_samples.

(** Sample i + j * width is at the centre of cell (i, j) of the square of the
    parametrization, and at the angle of the slice in the third coordinate. *)
Theorem C45_positions : forall s i j x y, slice_ok s -> (0 <= i < s_width s)%Z -> (0 <= j < s_height s)%Z ->
  slice_get s (i + j * s_width s) = Ok (x, y) ->
  horizontal s x = centre (square (s_param s)) (s_width s) i /\ vertical s x = centre (square (s_param s)) (s_height s) j /\  (s_dim s = 3%nat -> depth s x = s_phi s).
Proof. exact slice_positions. Qed.
Print Assumptions C45_positions.

(** Writing a sample changes that sample only. *)
Theorem C45_set : forall s id y, slice_ok s -> (0 <= id < s_width s * s_height s)%Z ->
  exists s', slice_set s id y = Ok s' /\ slice_ok s' /\
    (exists x, slice_get s' id = Ok (x, y)) /\
    (forall id', (0 <= id' < s_width s * s_height s)%Z -> id' <> id -> slice_get s' id' = slice_get s id').
Proof. exact slice_set_get. Qed.
Print Assumptions C45_set.

(** Evaluating at the position of a sample gives its values - except for a
    projected parametrization with a --phi below the lower bound, where the
    result is uninitialised. *)
Theorem C45_value_at_sample : forall s id x y, slice_ok s -> (0 <= id < s_width s * s_height s)%Z -> slice_get s id = Ok (x, y) ->
  slice_value s x = (if s_reverse s then if Rlt_dec (s_phi s) (s_min s) then UB else Ok y else Ok y).
Proof. exact slice_value_at_sample. Qed.
Print Assumptions C45_value_at_sample.

(** More generally the value of a point is the pixel whose cell contains it. *)
Theorem C45_value_in_pixel : forall s x i j, slice_ok s -> length x = s_dim s -> (0 <= i < s_width s)%Z -> (0 <= j < s_height s)%Z ->
  in_piece (s_min s) (s_max s) (s_width s) i (horizontal s x) -> in_piece (s_min s) (s_max s) (s_height s) j (vertical s x) ->
  (s_reverse s = true -> s_min s <= depth s x) ->
  slice_value s x = pixel (s_data s) (i + j * s_width s).
Proof. exact value_in_pixel. Qed.
Print Assumptions C45_value_in_pixel.

(** On the right edge of the domain the value is that of the first pixel of the
    next line, on its last line and on the upper edge memory outside the image is
    read. *)
Theorem C45_edges_refuted : forall s x, slice_ok s -> s_reverse s = false -> length x = s_dim s ->
  (forall j, (0 <= j < s_height s)%Z -> horizontal s x = s_max s -> in_piece (s_min s) (s_max s) (s_height s) j (vertical s x) ->
     slice_value s x = if (j =? s_height s - 1)%Z then UB else pixel (s_data s) ((j + 1) * s_width s)) /\
  (forall i, (0 <= i < s_width s)%Z -> vertical s x = s_max s -> in_piece (s_min s) (s_max s) (s_width s) i (horizontal s x) ->
     slice_value s x = UB).
Proof. intros s x Hs Hr Hl. split; intros; [apply right_edge; assumption|eapply top_edge; eassumption]. Qed.
Print Assumptions C45_edges_refuted.

(** For projected parametrizations, memory before the image is read for a point
    left of the domain: the test is made on the wrong coordinate. *)
Theorem C45_projected_lower_bound_refuted : forall s x, slice_ok s -> s_reverse s = true -> length x = 3%nat ->
  horizontal s x < s_min s -> s_min s <= depth s x -> in_piece (s_min s) (s_max s) (s_height s) 0 (vertical s x) ->
  slice_value s x = UB.
Proof. exact left_unchecked. Qed.
Print Assumptions C45_projected_lower_bound_refuted.

(** A 2 x 2 image. *)
Example C45_case : let s := slice_new None 90 2 2 1 [1; 2; 3; 4; 5; 6; 7; 8; 9; 10; 11; 12] in
  slice_ok s /\ slice_value s [3 / 4; 1 / 4] = Ok (4, 5, 6) /\ slice_value s [1; 1 / 4] = Ok (7, 8, 9) /\ slice_value s [1; 3 / 4] = UB.
Proof.
  intros s. assert (Hi : image_ok 2 2 [1; 2; 3; 4; 5; 6; 7; 8; 9; 10; 11; 12]) by (repeat split; lia).
  destruct (C45_construction None 90 2 2 _ Hi) as (Hs & _). fold s in Hs. split; [exact Hs|].
  assert (P : forall k x, IZR k / 2 <= x < (IZR k + 1) / 2 -> in_piece (s_min s) (s_max s) 2 k x).
  { intros k x H. unfold in_piece, s_min, s_max. cbn. lra. }
  split; [|split].
  - rewrite (C45_value_in_pixel s _ 1 0 Hs); [reflexivity|reflexivity|cbn; lia|cbn; lia|apply P; cbn; lra|apply P; cbn; lra|discriminate].
  - rewrite (proj1 (C45_edges_refuted s [1; 1 / 4] Hs eq_refl eq_refl) 0%Z); [reflexivity|cbn; lia|reflexivity|apply P; cbn; lra].
  - rewrite (proj1 (C45_edges_refuted s [1; 3 / 4] Hs eq_refl eq_refl) 1%Z); [reflexivity|cbn; lia|reflexivity|apply P; cbn; lra].
Qed.

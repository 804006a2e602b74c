(** Property C43. *)
From Coq Require Import Reals List ZArith Lia Lra.
From Verif Require Import Base Num Double MerlModel UtiaModel UtiaSpec UtiaProofs.
Open Scope R_scope.

(** Every elevation between the zenith and the horizon lies in an interval
    between measured elevations (the last one for grazing angles), and every
    azimuth in one between measured azimuths. *)
Theorem C43_every_direction_has_a_cell :
  (forall theta, 0 <= theta <= PI / 2 -> exists it f, elevation theta it f /\ (deg theta <= 75 -> f <= 1)) /\
  (forall phi, exists ip f, azimuth phi ip f).
Proof. exact (conj elevation_exists azimuth_exists). Qed.
Print Assumptions C43_every_direction_has_a_cell.

(** The value is the interpolation of the sixteen surrounding measurements. *)
Theorem C43_value : forall t ti pi tv pv f1 f2 f3 f4 th_i ph_i th_v ph_v, utia_ok t ->
  elevation th_i ti f1 -> azimuth ph_i pi f2 -> elevation th_v tv f3 -> azimuth ph_v pv f4 ->
  th_i <= PI / 2 -> th_v <= PI / 2 -> - (2 * PI) <= ph_i <= 2 * PI -> - (2 * PI) <= ph_v <= 2 * PI ->
  utia_value t (th_i, ph_i, th_v, ph_v) =
  Ok (interpolated t 0 ti pi tv pv f1 f2 f3 f4, interpolated t 1 ti pi tv pv f1 f2 f3 f4, interpolated t 2 ti pi tv pv f1 f2 f3 f4).
Proof. exact utia_value_spec. Qed.
Print Assumptions C43_value.

(** Up to 75 degrees the value of a channel is within any bounds on its
    measurements. *)
Theorem C43_within_measurements : forall t m M th_i ph_i th_v ph_v, utia_ok t ->
  (forall c a b d e, (0 <= c < 3)%Z -> (0 <= a < 6)%Z -> (0 <= b < 48)%Z -> (0 <= d < 6)%Z -> (0 <= e < 48)%Z -> m c <= measured t c a b d e <= M c) ->
  0 <= deg th_i <= 75 -> 0 <= deg th_v <= 75 -> - (2 * PI) <= ph_i <= 2 * PI -> - (2 * PI) <= ph_v <= 2 * PI ->
  exists r g b, utia_value t (th_i, ph_i, th_v, ph_v) = Ok (r, g, b) /\
    m 0%Z <= r <= M 0%Z /\ m 1%Z <= g <= M 1%Z /\ m 2%Z <= b <= M 2%Z.
Proof.
  intros t m M th_i ph_i th_v ph_v Ht Hb D1 D2 B1 B2. pose proof PI_RGT_0 as Hpi.
  assert (R : forall th, 0 <= deg th <= 75 -> 0 <= th <= PI / 2).
  { intros th [H1 H2]. assert (E : th = deg th * (PI / 180)) by (unfold deg; field; lra). rewrite E. split; nra. }
  destruct (elevation_exists th_i (R _ D1)) as (ti & f1 & E1 & F1). destruct (elevation_exists th_v (R _ D2)) as (tv & f3 & E2 & F3).
  destruct (azimuth_exists ph_i) as (pi & f2 & A1). destruct (azimuth_exists ph_v) as (pv & f4 & A2).
  do 3 eexists. split; [apply (utia_value_spec t ti pi tv pv f1 f2 f3 f4); auto; apply R; assumption|].
  pose proof (F1 (proj2 D1)). pose proof (F3 (proj2 D2)). destruct E1 as (_ & ? & ? & _), E2 as (_ & ? & ? & _), A1 as (_ & ? & ?), A2 as (_ & ? & ?).
  assert (K : forall c, (0 <= c < 3)%Z -> m c <= interpolated t c ti pi tv pv f1 f2 f3 f4 <= M c).
  { intros c Hc. apply interpolated_bounds; try assumption; try lra. intros; apply Hb; assumption. }
  split; [apply K; lia|]. split; apply K; lia.
Qed.
Print Assumptions C43_within_measurements.

(** Sample i is measurement i; evaluating at its position gives its values, and
    two samples have different positions. *)
Theorem C43_samples : forall t, utia_ok t ->
  (forall ti pi tv pv, (0 <= ti < 6)%Z -> (0 <= pi < 48)%Z -> (0 <= tv < 6)%Z -> (0 <= pv < 48)%Z ->
     exists a b c d, utia_get t (number ti pi tv pv) = Ok ([a; b; c; d], (measured t 0 ti pi tv pv, measured t 1 ti pi tv pv, measured t 2 ti pi tv pv)) /\
       deg a = 15 * IZR ti /\ deg b = 75 / 10 * IZR pi /\ deg c = 15 * IZR tv /\ deg d = 75 / 10 * IZR pv) /\
  (forall i, (0 <= i < plane)%Z -> exists a b c d y, utia_get t i = Ok ([a; b; c; d], y) /\ utia_value t (a, b, c, d) = Ok y) /\
  (forall i j x y y', (0 <= i < plane)%Z -> (0 <= j < plane)%Z -> utia_get t i = Ok (x, y) -> utia_get t j = Ok (x, y') -> i = j).
Proof.
  intros t Ht. pose proof PI_RGT_0. split; [|split; [intros; apply utia_value_at_sample; assumption|intros i j x y y'; apply utia_samples_distinct; assumption]].
  intros. do 4 eexists. split; [apply utia_get_number; assumption|]. unfold deg, STEP_T, STEP_P. repeat split; field; lra.
Qed.
Print Assumptions C43_samples.

(** Writing a sample changes that sample only. *)
Theorem C43_set : forall t i y, utia_ok t -> (0 <= i < plane)%Z -> exists t', utia_set t i y = Ok t' /\ utia_ok t' /\
  (exists x, utia_get t' i = Ok (x, y)) /\ (forall j, (0 <= j < plane)%Z -> j <> i -> utia_get t' j = utia_get t j).
Proof. exact utia_set_get. Qed.
Print Assumptions C43_set.

(** Below the horizon the value is black; azimuths beyond one turn stop the
    program. *)
Theorem C43_outside : forall t th_i ph_i th_v ph_v,
  (PI / 2 < th_i \/ PI / 2 < th_v -> utia_value t (th_i, ph_i, th_v, ph_v) = Ok (0, 0, 0)) /\
  (th_i <= PI / 2 -> th_v <= PI / 2 -> ph_i < - (2 * PI) \/ 2 * PI < ph_i \/ ph_v < - (2 * PI) \/ 2 * PI < ph_v ->
   utia_value t (th_i, ph_i, th_v, ph_v) = Abort).
Proof. intros. split; [apply utia_black|apply utia_abort]. Qed.
Print Assumptions C43_outside.

(** A negative light elevation always reads before the table. *)
Theorem C43_negative_elevation_refuted : forall t th_i ph_i th_v ph_v, th_i < 0 -> th_v <= PI / 2 ->
  - (2 * PI) <= ph_i <= 2 * PI -> - (2 * PI) <= ph_v <= 2 * PI ->
  utia_value t (th_i, ph_i, th_v, ph_v) = UB.
Proof.
  intros t th_i ph_i th_v ph_v H1 H2 H3 H4. destruct (azimuth_exists ph_i) as (pi & f2 & A1). destruct (azimuth_exists ph_v) as (pv & f4 & A2).
  exact (utia_negative t th_i ph_i pi f2 th_v ph_v pv f4 A1 A2 H1 H2 H3 H4).
Qed.
Print Assumptions C43_negative_elevation_refuted.

(** Beyond 75 degrees the last interval is extrapolated: nonnegative
    measurements can give negative values. *)
Theorem C43_grazing_refuted : exists t, utia_ok t /\
  (forall c a b d e, (0 <= c < 3)%Z -> (0 <= a < 6)%Z -> (0 <= b < 48)%Z -> (0 <= d < 6)%Z -> (0 <= e < 48)%Z -> 0 <= measured t c a b d e <= 1) /\
  utia_value t (PI / 2, 0, 0, 0) = Ok (-1, -1, -1).
Proof.
  exists ridge. split; [exact ridge_ok|]. split; [|exact ridge_value].
  intros. rewrite ridge_measured by assumption. destruct (a =? 4)%Z; lra.
Qed.
Print Assumptions C43_grazing_refuted.

(** Raw files are read as they are, but save writes decimal text, which load does
    not read back: an object full of zeros does not come back as zeros. *)
Theorem C43_load : forall junk t, Forall is_double t -> utia_ok t -> length junk = length t -> utia_load junk (doubles_bytes t) = t.
Proof. exact utia_load_raw. Qed.
Print Assumptions C43_load.
Theorem C43_save_then_load_refuted : forall print junk, print 0%N = lit "0" ->
  nth_error (utia_load junk (utia_save print (repeat 0%N (Z.to_nat (3 * plane))))) 0 = Some 3472328296227680304%N.
Proof. exact utia_save_load. Qed.
Print Assumptions C43_save_then_load_refuted.

(** Nonvacuity: a table with 3 x 82944 entries and a direction not on the
    samples. *)
Example C43_case : exists t, utia_ok t /\ elevation (PI / 8) 1 (1 / 2) /\ azimuth (PI / 48) 0 (1 / 2) /\
  azimuth (- (PI / 48)) 47 (1 / 2) /\
  utia_value t (PI / 8, PI / 48, PI / 8, - (PI / 48)) = Ok (interpolated t 0 1 0 1 47 (1 / 2) (1 / 2) (1 / 2) (1 / 2), interpolated t 1 1 0 1 47 (1 / 2) (1 / 2) (1 / 2) (1 / 2), interpolated t 2 1 0 1 47 (1 / 2) (1 / 2) (1 / 2) (1 / 2)).
Proof.
  pose proof PI_RGT_0 as Hpi.
  assert (E : elevation (PI / 8) 1 (1 / 2)). { split; [unfold deg; field; lra|]. split; [lia|]. split; [lra|]. left; lra. }
  assert (A : azimuth (PI / 48) 0 (1 / 2)). { split; [exists 0%Z; unfold deg; field; lra|]. split; [lia|lra]. }
  assert (B : azimuth (- (PI / 48)) 47 (1 / 2)). { split; [exists 1%Z; unfold deg; field; lra|]. split; [lia|lra]. }
  exists ridge. split; [exact ridge_ok|]. split; [exact E|]. split; [exact A|]. split; [exact B|].
  apply utia_value_spec; auto using ridge_ok; lra.
Qed.

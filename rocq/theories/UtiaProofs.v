From Coq Require Import Reals List ZArith Lia Lra.
From Verif Require Import Base Num Double DataProofs MerlModel MerlProofs SliceProofs GridSpec GridMore UtiaModel UtiaSpec.
Open Scope R_scope.

Lemma at_nth t i : (0 <= i < Z.of_nat (length t))%Z -> at_ t i = Ok (nth (Z.to_nat i) t 0).
Proof.
  intros H. unfold at_. destruct (Z.ltb_spec i 0); [lia|].
  rewrite (nth_error_nth' t 0) by lia. reflexivity.
Qed.

Lemma accumulate_ok t es : Forall (fun e => (0 <= fst e < Z.of_nat (length t))%Z) es -> forall acc,
  accumulate t es acc = Ok (fold_left (fun s e => let '(idx, (a, b, c, d)) := e in s + nth (Z.to_nat idx) t 0 * a * b * c * d) es acc).
Proof.
  induction 1 as [|[idx [[[a b] c] d]] es H _ IH]; intros acc; [reflexivity|]. cbn [accumulate fold_left fst] in *.
  rewrite at_nth by assumption. cbn [bind]. apply IH.
Qed.

Lemma elevation_cell theta it f : elevation theta it f -> elevations 6 (theta * (180 / PI)) = (it, (it + 1)%Z) /\
  weights STEP_T (theta * (180 / PI)) (it, (it + 1)%Z) = (1 - f, f).
Proof.
  intros (E & H1 & H2 & H3). assert (Ed : theta * (180 / PI) = 15 * (IZR it + f)) by (unfold deg in E; unfold Rdiv in *; lra).
  rewrite Ed. split.
  - unfold elevations, STEP_T. change (6 - 2)%Z with 4%Z. change (6 - 1)%Z with 5%Z.
    replace (15 * (IZR it + f) / 15) with (IZR it + f) by field.
    destruct H3 as [H3| ->].
    + rewrite (Int_part_unique _ it) by lra. destruct (Z.ltb_spec 4 it); [lia|reflexivity].
    + pose proof (Int_part_bounds (4 + f)) as [B1 B2].
      assert (4 <= Int_part (4 + f))%Z. { assert (3 < Int_part (4 + f))%Z; [|lia]. apply lt_IZR. lra. }
      destruct (Z.ltb_spec 4 (Int_part (4 + f))); [reflexivity|]. replace (Int_part (4 + f)) with 4%Z by lia. reflexivity.
  - unfold weights, STEP_T. cbn [fst snd]. rewrite plus_IZR. f_equal; field; lra.
Qed.

Lemma azimuth_cell phi ip f : azimuth phi ip f -> - (2 * PI) <= phi <= 2 * PI ->
  let phi' := if Rlt_dec phi 0 then PI * 2 + phi else phi in
  0 <= phi' <= PI * 2 /\
  let d := if Rle_dec 360 (phi' * (180 / PI)) then 0 else phi' * (180 / PI) in
  azimuths d = (ip, (ip + 1)%Z) /\ weights STEP_P d (ip, (ip + 1)%Z) = (1 - f, f).
Proof.
  intros ([n E] & H1 & H2) Hphi phi'. pose proof PI_RGT_0 as Hpi.
  assert (Hp : 0 <= phi' <= PI * 2) by (unfold phi'; destruct (Rlt_dec phi 0); lra).
  split; [exact Hp|]. intros d.
  assert (Hd : d = 75 / 10 * (IZR ip + f)).
  { set (v := 75 / 10 * (IZR ip + f)) in *.
    assert (Hv : 0 <= v < 360).
    { unfold v. assert (0 <= IZR ip <= 47) by (split; [apply IZR_le; lia|change 47 with (IZR 47); apply IZR_le; lia]). lra. }
    (* phi in degrees plus 360 n is v; so is d plus some multiple of 360, with d in [0, 360) *)
    assert (Hk : exists m : Z, d = v + 360 * IZR m).
    { assert (E' : phi * (180 / PI) = v - 360 * IZR n).
      { unfold deg in E. replace ((phi + 2 * PI * IZR n) * 180 / PI) with (phi * (180 / PI) + 360 * IZR n) in E by (field; lra). lra. }
      unfold d, phi'. destruct (Rlt_dec phi 0).
      - assert (Eq : (PI * 2 + phi) * (180 / PI) = v - 360 * IZR n + 360).
        { replace ((PI * 2 + phi) * (180 / PI)) with (phi * (180 / PI) + 360) by (field; lra). lra. }
        destruct (Rle_dec 360 ((PI * 2 + phi) * (180 / PI))).
        + (* impossible unless equal: phi < 0 *) exfalso.
          assert ((PI * 2 + phi) * (180 / PI) < 360).
          { replace 360 with (PI * 2 * (180 / PI)) by (field; lra). apply Rmult_lt_compat_r; [|lra]. apply Rmult_lt_0_compat; [lra|apply Rinv_0_lt_compat; lra]. }
          lra.
        + exists (1 - n)%Z. rewrite minus_IZR. lra.
      - destruct (Rle_dec 360 (phi * (180 / PI))) as [Hge|Hlt].
        + assert (phi * (180 / PI) <= 360).
          { replace 360 with (PI * 2 * (180 / PI)) by (field; lra). apply Rmult_le_compat_r; [|lra]. apply Rlt_le, Rmult_lt_0_compat; [lra|apply Rinv_0_lt_compat; lra]. }
          assert (Hx : v - 360 * IZR n = 360) by lra.
          exists (- 1 - n)%Z. rewrite minus_IZR. lra.
        + exists (- n)%Z. rewrite opp_IZR. lra. }
    assert (Hd : 0 <= d < 360).
    { unfold d. destruct (Rle_dec 360 (phi' * (180 / PI))); [lra|]. split; [|lra]. apply Rmult_le_pos; [lra|]. apply Rlt_le, Rmult_lt_0_compat; [lra|apply Rinv_0_lt_compat; lra]. }
    destruct Hk as [m Hm]. assert (m = 0)%Z.
    { assert (-1 < m)%Z by (apply lt_IZR; lra). assert (m < 1)%Z by (apply lt_IZR; lra). lia. }
    subst m. lra. }
  rewrite Hd. split.
  - unfold azimuths, STEP_P. replace (75 / 10 * (IZR ip + f) / (75 / 10)) with (IZR ip + f) by field.
    rewrite (Int_part_unique _ ip) by lra. reflexivity.
  - unfold weights, STEP_P. cbn [fst snd]. rewrite plus_IZR. f_equal; field; lra.
Qed.

Lemma next_azimuth ip : (0 <= ip < 48)%Z -> (if (ip + 1 =? 48)%Z then 0 else ip + 1)%Z = ((ip + 1) mod 48)%Z.
Proof.
  intros H. destruct (Z.eqb_spec (ip + 1) 48) as [->|]; [reflexivity|]. symmetry. apply Z.mod_small. lia.
Qed.

Lemma plane_value t c ti pi tv pv f1 f2 f3 f4 : utia_ok t -> (0 <= c < 3)%Z ->
  (0 <= ti <= 4)%Z -> (0 <= pi < 48)%Z -> (0 <= tv <= 4)%Z -> (0 <= pv < 48)%Z ->
  accumulate t (entries c (ti, (ti + 1)%Z) (tv, (tv + 1)%Z) (pi, ((pi + 1) mod 48)%Z) (pv, ((pv + 1) mod 48)%Z) (1 - f1, f1) (1 - f3, f3) (1 - f2, f2) (1 - f4, f4)) 0 =
  Ok (interpolated t c ti pi tv pv f1 f2 f3 f4).
Proof.
  unfold utia_ok, plane. intros L Hc H1 H2 H3 H4.
  pose proof (Z.mod_pos_bound (pi + 1) 48 ltac:(lia)) as Hp. pose proof (Z.mod_pos_bound (pv + 1) 48 ltac:(lia)) as Hq.
  rewrite accumulate_ok.
  - f_equal. unfold interpolated, measured, number, plane, entries, two. cbn [flat_map map app fold_left pick fst snd blend].
    rewrite !Z.add_0_r. rewrite (Z.mod_small pi 48), (Z.mod_small pv 48) by lia.
    set (P := ((pi + 1) mod 48)%Z) in *. set (Q := ((pv + 1) mod 48)%Z) in *.
    unfold NPI, NTI, NPV, NTV.
    assert (E : forall a b d e : Z, (c * (48 * 6) * (48 * 6) + 48 * 6 * (48 * a + b) + 48 * d + e = c * 82944 + (((a * 48 + b) * 6 + d) * 48 + e))%Z) by (intros; ring).
    rewrite !E. ring.
  - unfold entries, two, NPI, NTI, NPV, NTV. cbn [flat_map map app pick fst snd]. repeat apply Forall_cons; try apply Forall_nil; cbn [fst]; nia.
Qed.

Lemma utia_value_spec t ti pi tv pv f1 f2 f3 f4 th_i ph_i th_v ph_v : utia_ok t ->
  elevation th_i ti f1 -> azimuth ph_i pi f2 -> elevation th_v tv f3 -> azimuth ph_v pv f4 ->
  th_i <= PI / 2 -> th_v <= PI / 2 -> - (2 * PI) <= ph_i <= 2 * PI -> - (2 * PI) <= ph_v <= 2 * PI ->
  utia_value t (th_i, ph_i, th_v, ph_v) =
  Ok (interpolated t 0 ti pi tv pv f1 f2 f3 f4, interpolated t 1 ti pi tv pv f1 f2 f3 f4, interpolated t 2 ti pi tv pv f1 f2 f3 f4).
Proof.
  intros Ht E1 A1 E2 A2 B1 B2 B3 B4. pose proof PI_RGT_0 as Hpi. unfold utia_value.
  destruct (Rlt_dec (PI * (5 / 10)) th_i); [lra|]. destruct (Rlt_dec (PI * (5 / 10)) th_v); [lra|].
  destruct (azimuth_cell _ _ _ A1 B3) as (R1 & C1 & W1). destruct (azimuth_cell _ _ _ A2 B4) as (R2 & C2 & W2). cbv zeta in *.
  set (p1 := if Rlt_dec ph_i 0 then _ else _) in *. set (p2 := if Rlt_dec ph_v 0 then _ else _) in *.
  destruct (Rlt_dec p1 0); [lra|]. destruct (Rlt_dec (PI * 2) p1); [lra|]. destruct (Rlt_dec p2 0); [lra|]. destruct (Rlt_dec (PI * 2) p2); [lra|].
  rewrite C1, C2. destruct (elevation_cell _ _ _ E1) as [D1 V1]. destruct (elevation_cell _ _ _ E2) as [D2 V2].
  unfold NTI, NTV. rewrite D1, D2, V1, V2, W1, W2. cbn [fst snd].
  destruct E1 as (_ & I1 & _). destruct E2 as (_ & I2 & _). destruct A1 as (_ & J1 & _). destruct A2 as (_ & J2 & _).
  unfold NPI, NPV. rewrite !next_azimuth by assumption.
  rewrite !plane_value by (assumption || lia). reflexivity.
Qed.

(** Every elevation and azimuth has a cell. *)
Lemma elevation_exists theta : 0 <= theta <= PI / 2 -> exists it f, elevation theta it f /\ (deg theta <= 75 -> f <= 1).
Proof.
  intros H. pose proof PI_RGT_0 as Hpi. set (u := deg theta / 15).
  assert (Hu : 0 <= u).
  { unfold u, deg. apply Rmult_le_pos; [|lra]. apply Rmult_le_pos; [nra|]. apply Rlt_le, Rinv_0_lt_compat. lra. }
  pose proof (Int_part_bounds u) as [B1 B2]. assert (Hi : (0 <= Int_part u)%Z). { assert (-1 < Int_part u)%Z; [|lia]. apply lt_IZR. lra. }
  destruct (Z_le_gt_dec (Int_part u) 4).
  - exists (Int_part u), (u - IZR (Int_part u)). split; [|lra]. split; [unfold u; field|]. split; [lia|]. split; [lra|]. left; lra.
  - exists 4%Z, (u - 4). assert (5 <= IZR (Int_part u)) by (apply IZR_le; lia). split; [|unfold u; lra].
    split; [unfold u; field|]. split; [lia|]. split; [lra|]. right; reflexivity.
Qed.
Lemma azimuth_exists phi : exists ip f, azimuth phi ip f.
Proof.
  pose proof PI_RGT_0 as Hpi. set (n := Int_part (phi / (2 * PI))). pose proof (Int_part_bounds (phi / (2 * PI))) as [B1 B2]. fold n in B1, B2.
  set (psi := phi + 2 * PI * IZR (- n)). set (u := deg psi / (75 / 10)).
  assert (Hpsi : 0 <= psi < 2 * PI).
  { unfold psi. rewrite opp_IZR. assert (E : phi = 2 * PI * (phi / (2 * PI))) by (field; lra). set (q := phi / (2 * PI)) in *. nra. }
  assert (Hu : 0 <= u < 48).
  { unfold u, deg. replace (psi * 180 / PI / (75 / 10)) with (psi / (2 * PI) * 48) by (field; lra).
    assert (0 <= psi / (2 * PI) < 1).
    { split; [apply Rmult_le_pos; [lra|apply Rlt_le, Rinv_0_lt_compat; lra]|]. apply Rmult_lt_reg_r with (2 * PI); [lra|]. unfold Rdiv. rewrite Rmult_assoc, Rinv_l by lra. lra. }
    lra. }
  pose proof (Int_part_bounds u) as [C1 C2]. exists (Int_part u), (u - IZR (Int_part u)). split; [|split].
  - exists (- n)%Z. fold psi. unfold u. field.
  - split; [assert (-1 < Int_part u)%Z; [apply lt_IZR; lra|lia]|apply lt_IZR; lra].
  - lra.
Qed.

Lemma interpolated_bounds t c ti pi tv pv f1 f2 f3 f4 m M : (0 <= ti <= 4)%Z -> (0 <= tv <= 4)%Z ->
  0 <= f1 <= 1 -> 0 <= f2 <= 1 -> 0 <= f3 <= 1 -> 0 <= f4 <= 1 ->
  (forall a b d e, (0 <= a < 6)%Z -> (0 <= b < 48)%Z -> (0 <= d < 6)%Z -> (0 <= e < 48)%Z -> m <= measured t c a b d e <= M) ->
  m <= interpolated t c ti pi tv pv f1 f2 f3 f4 <= M.
Proof.
  intros H1 H2 F1 F2 F3 F4 H. unfold interpolated. apply blend_bounds; [exact (Forall_cons _ F1 (Forall_cons _ F3 (Forall_cons _ F2 (Forall_cons _ F4 (Forall_nil _)))))|].
  intros b [Hl Hb]. destruct b as [|b1 [|b2 [|b3 [|b4 [|]]]]]; try discriminate Hl.
  inversion Hb as [|? ? K1 Hb1]; subst. inversion Hb1 as [|? ? K2 Hb2]; subst. inversion Hb2 as [|? ? K3 Hb3]; subst. inversion Hb3 as [|? ? K4 _]; subst.
  apply H; try lia; apply Z.mod_pos_bound; lia.
Qed.

(** ** Samples *)
Lemma utia_indices i : (0 <= i < plane)%Z -> exists ti pi tv pv, (0 <= ti < 6)%Z /\ (0 <= pi < 48)%Z /\ (0 <= tv < 6)%Z /\ (0 <= pv < 48)%Z /\
  i = number ti pi tv pv.
Proof.
  unfold plane, number. intros H.
  exists (i / 48 / 6 / 48)%Z, (i / 48 / 6 mod 48)%Z, (i / 48 mod 6)%Z, (i mod 48)%Z.
  pose proof (Z.div_mod i 48 ltac:(lia)) as D1. pose proof (Z.div_mod (i / 48) 6 ltac:(lia)) as D2. pose proof (Z.div_mod (i / 48 / 6) 48 ltac:(lia)) as D3.
  pose proof (Z.mod_pos_bound i 48 ltac:(lia)). pose proof (Z.mod_pos_bound (i / 48) 6 ltac:(lia)). pose proof (Z.mod_pos_bound (i / 48 / 6) 48 ltac:(lia)).
  repeat split; lia.
Qed.
Definition angles (ti pi tv pv : Z) : list R :=
  [PI / 180 * STEP_T * IZR ti; PI / 180 * STEP_P * IZR pi; PI / 180 * STEP_T * IZR tv; PI / 180 * STEP_P * IZR pv].
Lemma utia_get_number t ti pi tv pv : utia_ok t -> (0 <= ti < 6)%Z -> (0 <= pi < 48)%Z -> (0 <= tv < 6)%Z -> (0 <= pv < 48)%Z ->
  utia_get t (number ti pi tv pv) = Ok (angles ti pi tv pv, (measured t 0 ti pi tv pv, measured t 1 ti pi tv pv, measured t 2 ti pi tv pv)).
Proof.
  unfold utia_ok, plane. intros L H1 H2 H3 H4. unfold utia_get.
  set (i := number ti pi tv pv). assert (Hi : (0 <= i < 82944)%Z) by (unfold i, number; lia).
  assert (EN : N_PER_PLANE = 82944%Z) by reflexivity. rewrite EN. unfold measured, plane.
  rewrite !at_nth by lia. cbn [bind]. fold i.
  replace (i + 0 * 82944)%Z with (0 * 82944 + i)%Z by ring. replace (i + 1 * 82944)%Z with (1 * 82944 + i)%Z by ring. replace (i + 2 * 82944)%Z with (2 * 82944 + i)%Z by ring.
  assert (R : forall a b c : Z, (0 <= a)%Z -> (0 < c)%Z -> (0 <= b < c)%Z -> Z.rem (a * c + b) c = b /\ Z.quot (a * c + b) c = a).
  { intros a b c Ha Hc Hb. rewrite Z.rem_mod_nonneg, Z.quot_div_nonneg by nia. rewrite (Z.add_comm (a * c)). rewrite Z.mod_add, Z.div_add by lia.
    rewrite Z.mod_small, Z.div_small by lia. lia. }
  unfold NPV, NTV, NPI, NTI, i, number.
  destruct (R ((ti * 48 + pi) * 6 + tv)%Z pv 48%Z) as [-> ->]; try nia.
  destruct (R (ti * 48 + pi)%Z tv 6%Z) as [-> ->]; try nia.
  destruct (R ti pi 48%Z) as [-> ->]; try nia.
  rewrite (Z.rem_small ti 6) by lia. reflexivity.
Qed.

Lemma measured_elevation ti : (0 <= ti < 6)%Z -> elevation (PI / 180 * STEP_T * IZR ti) (if (ti =? 5)%Z then 4 else ti)%Z (if (ti =? 5)%Z then 1 else 0).
Proof.
  intros H. pose proof PI_RGT_0. unfold elevation, deg, STEP_T. destruct (Z.eqb_spec ti 5) as [->|].
  - split; [field; lra|]. split; [lia|]. split; [lra|]. right; reflexivity.
  - split; [field; lra|]. split; [lia|]. split; [lra|]. left; lra.
Qed.
Lemma measured_azimuth pi : (0 <= pi < 48)%Z -> azimuth (PI / 180 * STEP_P * IZR pi) pi 0.
Proof.
  intros H. pose proof PI_RGT_0. unfold azimuth, deg, STEP_P. split; [exists 0%Z; field; lra|]. split; [lia|lra].
Qed.
Lemma interpolated_measured t c ti pi tv pv : (0 <= ti < 6)%Z -> (0 <= pi < 48)%Z -> (0 <= tv < 6)%Z -> (0 <= pv < 48)%Z ->
  interpolated t c (if (ti =? 5)%Z then 4 else ti) pi (if (tv =? 5)%Z then 4 else tv) pv
    (if (ti =? 5)%Z then 1 else 0) 0 (if (tv =? 5)%Z then 1 else 0) 0 = measured t c ti pi tv pv.
Proof.
  intros H1 H2 H3 H4. unfold interpolated. cbn [blend]. rewrite !Z.add_0_r, (Z.mod_small pi 48), (Z.mod_small pv 48) by lia.
  destruct (Z.eqb_spec ti 5) as [->|]; destruct (Z.eqb_spec tv 5) as [->|]; cbn [Z.add Pos.add]; try ring.
  all: change (4 + 1)%Z with 5%Z; ring.
Qed.

Lemma utia_value_at_sample t i : utia_ok t -> (0 <= i < plane)%Z ->
  exists a b c d y, utia_get t i = Ok ([a; b; c; d], y) /\ utia_value t (a, b, c, d) = Ok y.
Proof.
  intros Ht Hi. destruct (utia_indices i Hi) as (ti & pi & tv & pv & H1 & H2 & H3 & H4 & ->).
  rewrite utia_get_number by assumption. unfold angles. do 5 eexists. split; [reflexivity|].
  pose proof PI_RGT_0 as Hpi.
  assert (B : forall k, (0 <= k < 6)%Z -> PI / 180 * STEP_T * IZR k <= PI / 2).
  { intros k Hk. assert (IZR k <= 5) by (apply IZR_le; lia). unfold STEP_T. nra. }
  assert (C : forall k, (0 <= k < 48)%Z -> - (2 * PI) <= PI / 180 * STEP_P * IZR k <= 2 * PI).
  { intros k Hk. assert (0 <= IZR k <= 47) by (split; [apply IZR_le; lia|apply IZR_le; lia]). unfold STEP_P. split; nra. }
  rewrite (utia_value_spec t _ _ _ _ _ _ _ _ _ _ _ _ Ht (measured_elevation ti H1) (measured_azimuth pi H2) (measured_elevation tv H3) (measured_azimuth pv H4)); auto.
  rewrite !interpolated_measured by assumption. reflexivity.
Qed.
Lemma utia_samples_distinct t i j x y y' : utia_ok t -> (0 <= i < plane)%Z -> (0 <= j < plane)%Z ->
  utia_get t i = Ok (x, y) -> utia_get t j = Ok (x, y') -> i = j.
Proof.
  intros Ht Hi Hj E1 E2. destruct (utia_indices i Hi) as (ti & pi & tv & pv & H1 & H2 & H3 & H4 & ->).
  destruct (utia_indices j Hj) as (ti' & pi' & tv' & pv' & H1' & H2' & H3' & H4' & ->).
  rewrite utia_get_number in E1 by assumption. rewrite utia_get_number in E2 by assumption.
  injection E1 as <- _. injection E2 as A1 A2 A3 A4 _.
  pose proof PI_RGT_0 as Hpi.
  assert (I : forall s a b, 0 < s -> PI / 180 * s * IZR a = PI / 180 * s * IZR b -> a = b).
  { intros s a b Hs E. apply eq_IZR. apply Rmult_eq_reg_l with (PI / 180 * s); [exact E|]. apply Rgt_not_eq. apply Rmult_lt_0_compat; lra. }
  unfold STEP_T, STEP_P in *. apply I in A1; [|lra]. apply I in A2; [|lra]. apply I in A3; [|lra]. apply I in A4; [|lra]. subst. reflexivity.
Qed.

Lemma utia_set_get t i y : utia_ok t -> (0 <= i < plane)%Z -> exists t', utia_set t i y = Ok t' /\ utia_ok t' /\
  (exists x, utia_get t' i = Ok (x, y)) /\ (forall j, (0 <= j < plane)%Z -> j <> i -> utia_get t' j = utia_get t j).
Proof.
  unfold utia_ok, plane. intros L Hi. destruct y as [[r g] b]. unfold utia_set. assert (EN : N_PER_PLANE = 82944%Z) by reflexivity. rewrite EN.
  destruct (put_ok t (0 * 82944 + i) r) as [d1 E1]; [lia|]. rewrite E1. cbn [bind].
  assert (L1 : length d1 = length t) by (apply (put_at _ _ _ _ 0%Z E1)).
  destruct (put_ok d1 (1 * 82944 + i) g) as [d2 E2]; [lia|]. rewrite E2. cbn [bind].
  assert (L2 : length d2 = length d1) by (apply (put_at _ _ _ _ 0%Z E2)).
  destruct (put_ok d2 (2 * 82944 + i) b) as [d3 E3]; [lia|]. rewrite E3.
  assert (L3 : length d3 = length d2) by (apply (put_at _ _ _ _ 0%Z E3)).
  assert (Hat : forall j, at_ d3 j = if (j =? 2 * 82944 + i)%Z then Ok b else if (j =? 1 * 82944 + i)%Z then Ok g else if (j =? 0 * 82944 + i)%Z then Ok r else at_ t j).
  { intros j. rewrite (proj2 (put_at _ _ _ _ j E3)), (proj2 (put_at _ _ _ _ j E2)), (proj2 (put_at _ _ _ _ j E1)). reflexivity. }
  exists d3. split; [reflexivity|]. split; [rewrite L3, L2, L1; exact L|].
  unfold utia_get. rewrite EN. split.
  - rewrite !Hat. replace (i + 0 * 82944 =? 2 * 82944 + i)%Z with false by (symmetry; apply Z.eqb_neq; lia).
    replace (i + 0 * 82944 =? 1 * 82944 + i)%Z with false by (symmetry; apply Z.eqb_neq; lia).
    replace (i + 0 * 82944 =? 0 * 82944 + i)%Z with true by (symmetry; apply Z.eqb_eq; lia).
    replace (i + 1 * 82944 =? 2 * 82944 + i)%Z with false by (symmetry; apply Z.eqb_neq; lia).
    replace (i + 1 * 82944 =? 1 * 82944 + i)%Z with true by (symmetry; apply Z.eqb_eq; lia).
    replace (i + 2 * 82944 =? 2 * 82944 + i)%Z with true by (symmetry; apply Z.eqb_eq; lia). cbn [bind]. eauto.
  - intros j Hj Hne. rewrite !Hat.
    repeat match goal with |- context [(?a =? ?b)%Z] => replace (a =? b)%Z with false by (symmetry; apply Z.eqb_neq; lia) end. reflexivity.
Qed.

(** ** Outside the domain *)
Lemma utia_black t th_i ph_i th_v ph_v : PI / 2 < th_i \/ PI / 2 < th_v -> utia_value t (th_i, ph_i, th_v, ph_v) = Ok (0, 0, 0).
Proof.
  intros H. unfold utia_value. destruct (Rlt_dec (PI * (5 / 10)) th_i); [reflexivity|].
  destruct (Rlt_dec (PI * (5 / 10)) th_v); [reflexivity|]. lra.
Qed.
Lemma utia_abort t th_i ph_i th_v ph_v : th_i <= PI / 2 -> th_v <= PI / 2 ->
  ph_i < - (2 * PI) \/ 2 * PI < ph_i \/ ph_v < - (2 * PI) \/ 2 * PI < ph_v ->
  utia_value t (th_i, ph_i, th_v, ph_v) = Abort.
Proof.
  intros B1 B2 H. pose proof PI_RGT_0 as Hpi. unfold utia_value.
  destruct (Rlt_dec (PI * (5 / 10)) th_i); [lra|]. destruct (Rlt_dec (PI * (5 / 10)) th_v); [lra|].
  destruct (Rlt_dec ph_i 0), (Rlt_dec ph_v 0); cbv zeta;
  repeat match goal with |- context [Rlt_dec ?a ?b] => destruct (Rlt_dec a b); try reflexivity end; exfalso; lra.
Qed.

Lemma elevations_first n theta : (2 <= n)%Z -> fst (elevations n theta) = Z.min (n - 2) (Int_part (theta / STEP_T)).
Proof. intros. unfold elevations. destruct (Z.ltb_spec (n - 2) (Int_part (theta / STEP_T))); cbn [fst]; lia. Qed.
Lemma utia_negative t th_i ph_i pi f2 th_v ph_v pv f4 : azimuth ph_i pi f2 -> azimuth ph_v pv f4 -> th_i < 0 -> th_v <= PI / 2 ->
  - (2 * PI) <= ph_i <= 2 * PI -> - (2 * PI) <= ph_v <= 2 * PI ->
  utia_value t (th_i, ph_i, th_v, ph_v) = UB.
Proof.
  intros A1 A2 B1 B2 B3 B4. pose proof PI_RGT_0 as Hpi. unfold utia_value.
  destruct (Rlt_dec (PI * (5 / 10)) th_i); [lra|]. destruct (Rlt_dec (PI * (5 / 10)) th_v); [lra|].
  destruct (azimuth_cell _ _ _ A1 B3) as (R1 & C1 & W1). destruct (azimuth_cell _ _ _ A2 B4) as (R2 & C2 & W2). cbv zeta in *.
  set (p1 := if Rlt_dec ph_i 0 then _ else _) in *. set (p2 := if Rlt_dec ph_v 0 then _ else _) in *.
  destruct (Rlt_dec p1 0); [lra|]. destruct (Rlt_dec (PI * 2) p1); [lra|]. destruct (Rlt_dec p2 0); [lra|]. destruct (Rlt_dec (PI * 2) p2); [lra|].
  rewrite C1, C2.
  assert (F : (fst (elevations NTI (th_i * (180 / PI))) <= -1)%Z).
  { unfold NTI. rewrite elevations_first by lia. apply Z.le_trans with (Int_part (th_i * (180 / PI) / STEP_T)); [apply Z.le_min_r|].
    pose proof (Int_part_bounds (th_i * (180 / PI) / STEP_T)) as [I1 I2].
    assert (Hn : th_i * (180 / PI) / STEP_T < 0).
    { assert (0 < 180 / PI) by (apply Rmult_lt_0_compat; [lra|apply Rinv_0_lt_compat; lra]). unfold STEP_T. nra. }
    assert (Int_part (th_i * (180 / PI) / STEP_T) < 0)%Z by (apply lt_IZR; lra). lia. }
  assert (G : (fst (elevations NTV (th_v * (180 / PI))) <= 4)%Z) by (unfold NTV; rewrite elevations_first by lia; lia).
  destruct A1 as (_ & J1 & _). destruct A2 as (_ & J2 & _).
  set (e1 := elevations NTI _) in *. set (e2 := elevations NTV _) in *. clearbody e1 e2. destruct e1 as [a a'], e2 as [b b']. cbn [fst] in *.
  unfold entries, two. cbn [flat_map map app accumulate pick fst snd].
  set (idx := (0 * (NPI * NTI) * (NPV * NTV) + NPV * NTV * (NPI * a + pi) + NPV * b + pv)%Z).
  assert (idx < 0)%Z by (unfold idx, NPI, NTI, NPV, NTV; lia).
  unfold at_ at 1. destruct (Z.ltb_spec idx 0); [reflexivity|lia].
Qed.

(** ** Grazing elevations *)
(** Measurements equal to one at a light elevation of 60 degrees, zero elsewhere. *)
Definition ridge : list R := map (fun i => if (Z.of_nat i / 48 / 6 / 48 mod 6 =? 4)%Z then 1 else 0) (seq 0 (Z.to_nat (3 * plane))).
Lemma ridge_ok : utia_ok ridge.
Proof. unfold utia_ok, ridge. rewrite map_length, seq_length, Z2Nat.id; [reflexivity|unfold plane; lia]. Qed.
Lemma ridge_measured c ti pi tv pv : (0 <= c < 3)%Z -> (0 <= ti < 6)%Z -> (0 <= pi < 48)%Z -> (0 <= tv < 6)%Z -> (0 <= pv < 48)%Z ->
  measured ridge c ti pi tv pv = if (ti =? 4)%Z then 1 else 0.
Proof.
  intros Hc H1 H2 H3 H4. unfold measured, ridge.
  set (i := (c * plane + number ti pi tv pv)%Z). assert (Hi : (0 <= i < 3 * plane)%Z) by (unfold i, number, plane; lia).
  set (g := fun i : nat => if (Z.of_nat i / 48 / 6 / 48 mod 6 =? 4)%Z then 1 else 0).
  rewrite (nth_indep _ 0 (g 0%nat)) by (rewrite map_length, seq_length; lia).
  rewrite map_nth, seq_nth by lia. unfold g. rewrite Nat.add_0_l, Z2Nat.id by lia.
  replace i with ((((c * 6 + ti) * 48 + pi) * 6 + tv) * 48 + pv)%Z by (unfold i, number, plane; ring).
  assert (D : forall a b n, (0 <= b < n)%Z -> ((a * n + b) / n = a)%Z).
  { intros a b n Hb. rewrite Z.div_add_l by lia. rewrite Z.div_small by lia. lia. }
  rewrite !D by lia. replace (c * 6 + ti)%Z with (ti + c * 6)%Z by ring. rewrite Z.mod_add by lia. rewrite Z.mod_small by lia. reflexivity.
Qed.
Lemma ridge_value : utia_value ridge (PI / 2, 0, 0, 0) = Ok (-1, -1, -1).
Proof.
  pose proof PI_RGT_0 as Hpi.
  assert (E1 : elevation (PI / 2) 4 2). { split; [unfold deg; field; lra|]. split; [lia|]. split; [lra|]. right; reflexivity. }
  assert (E2 : elevation 0 0 0). { split; [unfold deg; field; lra|]. split; [lia|]. split; [lra|]. left; lra. }
  assert (A : azimuth 0 0 0). { split; [exists 0%Z; unfold deg; field; lra|]. split; [lia|lra]. }
  rewrite (utia_value_spec _ _ _ _ _ _ _ _ _ _ _ _ _ ridge_ok E1 A E2 A) by lra.
  assert (V : forall c, (0 <= c < 3)%Z -> interpolated ridge c 4 0 0 0 2 0 0 0 = -1).
  { intros c Hc. unfold interpolated. cbn [blend]. rewrite !ridge_measured by (assumption || lia || (apply Z.mod_pos_bound; lia)).
    change (4 + 0)%Z with 4%Z. change (4 + 1)%Z with 5%Z. cbn [Z.eqb Pos.eqb]. ring. }
  rewrite !V by lia. reflexivity.
Qed.

(** ** Files *)
Lemma utia_load_raw junk t : Forall is_double t -> utia_ok t -> length junk = length t -> utia_load junk (doubles_bytes t) = t.
Proof.
  unfold utia_ok. intros Hd L Lj. unfold utia_load.
  assert (En : Z.to_nat (PLANES * N_PER_PLANE) = length t).
  { replace (PLANES * N_PER_PLANE)%Z with (3 * plane)%Z by reflexivity. rewrite <- L. apply Nat2Z.id. }
  rewrite En, firstn_all2 by (rewrite doubles_bytes_length; lia).
  apply bytes_doubles_app. assumption.
Qed.
Lemma utia_save_zeros print n : print 0%N = lit "0" -> utia_save print (repeat 0%N n) = repeat "0"%char n.
Proof.
  intros H. unfold utia_save. induction n as [|n IH]; [reflexivity|]. cbn [repeat flat_map]. rewrite H, IH. reflexivity.
Qed.
Lemma utia_save_load print junk : print 0%N = lit "0" ->
  nth_error (utia_load junk (utia_save print (repeat 0%N (Z.to_nat (3 * plane))))) 0 = Some 3472328296227680304%N.
Proof.
  intros H. rewrite utia_save_zeros by assumption. unfold utia_load.
  replace (PLANES * N_PER_PLANE)%Z with (3 * plane)%Z by reflexivity. set (n := Z.to_nat (3 * plane)).
  assert (Hn : (8 <= n)%nat) by (unfold n, plane; lia).
  assert (En : exists k, n = (8 + k)%nat) by (exists (n - 8)%nat; lia). destruct En as [k Ek].
  rewrite (firstn_all2 (n := (8 * n)%nat)) by (rewrite repeat_length; lia).
  rewrite Ek, repeat_app, <- app_assoc. reflexivity.
Qed.

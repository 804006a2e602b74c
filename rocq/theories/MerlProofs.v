From Coq Require Import Reals List ZArith Lia Lra.
From Verif Require Import Base Num Double DataModel DataProofs MerlModel MerlSpec.
Open Scope R_scope.

Lemma Int_part_unique x z : IZR z <= x -> x < IZR z + 1 -> Int_part x = z.
Proof.
  intros H1 H2. unfold Int_part. assert (E : up x = (z + 1)%Z).
  { symmetry. apply tech_up; rewrite plus_IZR; lra. }
  rewrite E; lia.
Qed.
Lemma Int_part_bounds x : IZR (Int_part x) <= x < IZR (Int_part x) + 1.
Proof. pose proof (base_Int_part x) as [H1 H2]. lra. Qed.
Lemma trunc_half p : (0 <= p)%Z -> trunc (IZR p + 5 / 10) = p.
Proof.
  intros H. apply IZR_le in H. unfold trunc. destruct (Rle_dec 0 (IZR p + 5 / 10)); [|lra].
  apply Int_part_unique; lra.
Qed.

(** ** Indices *)
Lemma theta_half_range th : (0 <= theta_half_index th < 90)%Z.
Proof.
  unfold theta_half_index, RES_TH. destruct (Rle_dec th 0); [lia|].
  set (r := trunc _). destruct (Z.ltb_spec r 0); [simpl; lia|]. destruct (Z.leb_spec 90 r); lia.
Qed.
Lemma theta_diff_range td : (0 <= theta_diff_index td < 90)%Z.
Proof.
  unfold theta_diff_index, RES_TD. set (r := trunc _).
  destruct (Z.ltb_spec r 0); [lia|]. destruct (Z.ltb_spec r (90 - 1)); lia.
Qed.
Lemma phi_diff_range pd : (0 <= phi_diff_index pd < 180)%Z.
Proof.
  unfold phi_diff_index, RES_PD. change (Z.quot 360 2) with 180%Z. set (r := trunc _).
  destruct (Z.ltb_spec r 0); [lia|]. destruct (Z.ltb_spec r (180 - 1)); lia.
Qed.

Lemma theta_half_inverse i : (0 <= i < 90)%Z ->
  theta_half_index (theta_half_from_index i) = i /\ 0 < theta_half_from_index i < PI / 2.
Proof.
  intros [H1 H2]. pose proof PI_RGT_0 as Hpi.
  assert (Hi : 0 <= IZR i <= 89) by (split; [apply IZR_le; lia|change 89 with (IZR 89); apply IZR_le; lia]).
  assert (Hx : theta_half_from_index i = (IZR i + 5 / 10) * (IZR i + 5 / 10) / 8100 * (PI / 2)).
  { unfold theta_half_from_index, RES_TH. field. }
  assert (Hs : 0 < (IZR i + 5 / 10) * (IZR i + 5 / 10) / 8100 < 1) by nra.
  assert (Hp : 0 < theta_half_from_index i < PI / 2) by (rewrite Hx; nra).
  split; [|exact Hp].
  unfold theta_half_index, RES_TH. destruct (Rle_dec (theta_half_from_index i) 0); [lra|].
  replace (theta_half_from_index i / (PI / 2) * 90 * 90) with ((IZR i + 5 / 10) * (IZR i + 5 / 10)) by (rewrite Hx; field; lra).
  rewrite sqrt_square by lra. rewrite trunc_half by assumption.
  destruct (Z.ltb_spec i 0); [lia|]. destruct (Z.leb_spec 90 i); lia.
Qed.
Lemma theta_diff_inverse i : (0 <= i < 90)%Z ->
  theta_diff_index (theta_diff_from_index i) = i /\ 0 < theta_diff_from_index i < PI / 2.
Proof.
  intros [H1 H2]. pose proof PI_RGT_0 as Hpi.
  assert (Hi : 0 <= IZR i <= 89) by (split; [apply IZR_le; lia|change 89 with (IZR 89); apply IZR_le; lia]).
  assert (Hx : theta_diff_from_index i = (IZR i + 5 / 10) / 90 * (PI / 2)).
  { unfold theta_diff_from_index, RES_TD. field. }
  assert (Hs : 0 < (IZR i + 5 / 10) / 90 < 1) by lra.
  split; [|rewrite Hx; nra].
  unfold theta_diff_index, RES_TD.
  replace (theta_diff_from_index i / (PI * (5 / 10)) * 90) with (IZR i + 5 / 10) by (rewrite Hx; field; lra).
  rewrite trunc_half by assumption.
  destruct (Z.ltb_spec i 0); [lia|]. destruct (Z.ltb_spec i (90 - 1)); lia.
Qed.
Lemma phi_diff_inverse i : (0 <= i < 180)%Z ->
  phi_diff_index (phi_diff_from_index i) = i /\ 0 < phi_diff_from_index i < PI.
Proof.
  intros [H1 H2]. pose proof PI_RGT_0 as Hpi.
  assert (Hi : 0 <= IZR i <= 179) by (split; [apply IZR_le; lia|change 179 with (IZR 179); apply IZR_le; lia]).
  assert (Hx : phi_diff_from_index i = (IZR i + 5 / 10) / 180 * PI).
  { unfold phi_diff_from_index, RES_PD. change (Z.quot 360 2) with 180%Z. field. }
  assert (Hs : 0 < (IZR i + 5 / 10) / 180 < 1) by lra.
  assert (Hp : 0 < phi_diff_from_index i < PI) by (rewrite Hx; nra).
  split; [|exact Hp].
  unfold phi_diff_index, RES_PD. change (Z.quot 360 2) with 180%Z.
  destruct (Rlt_dec (phi_diff_from_index i) 0); [lra|].
  replace (phi_diff_from_index i / PI * 360 / 2) with (IZR i + 5 / 10) by (rewrite Hx; field; lra).
  rewrite trunc_half by assumption.
  destruct (Z.ltb_spec i 0); [lia|]. destruct (Z.ltb_spec i (180 - 1)); lia.
Qed.

(** ** Table accesses *)
Lemma MERL_SIZE_val : MERL_SIZE = 1458000%Z. Proof. reflexivity. Qed.

Lemma at_ok t i : table_ok t -> (0 <= i < 3 * 1458000)%Z -> exists v, at_ t i = Ok v.
Proof.
  unfold table_ok, samples. intros Ht Hi. unfold at_.
  destruct (Z.ltb_spec i 0); [lia|].
  destruct (nth_error t (Z.to_nat i)) eqn:E; [eauto|]. apply nth_error_None in E. lia.
Qed.

Definition clip (y : R * R * R) : R * R * R :=
  let '(r, g, b) := y in
  if Rlt_dec r 0 then (0, 0, 0) else if Rlt_dec g 0 then (0, 0, 0) else if Rlt_dec b 0 then (0, 0, 0) else (r, g, b).

Lemma quot_double z : (0 <= z)%Z -> Z.quot (z * 360) 2 = (z * 180)%Z.
Proof. intros H. replace (z * 360)%Z with (z * 180 * 2)%Z by ring. apply Z.quot_mul. lia. Qed.

Lemma lookup_total t th td pd : table_ok t -> exists y, lookup_brdf_val t th td pd = Ok y.
Proof.
  intros Ht. unfold lookup_brdf_val.
  repeat match goal with |- context [if ?d then Ok _ else _] => destruct d; [eauto|] end.
  set (pd' := if Rlt_dec PI (if Rlt_dec pd 0 then - pd else pd) then _ else _) in *.
  pose proof (theta_half_range th) as H1. pose proof (theta_diff_range td) as H2. pose proof (phi_diff_range pd') as H3.
  unfold RES_PD, RES_TD, RES_TH. rewrite !quot_double by lia. change (90 * 90 * 180)%Z with 1458000%Z.
  set (ind := (phi_diff_index pd' + theta_diff_index td * 180 + theta_half_index th * 180 * 90)%Z).
  assert (Hi : (0 <= ind < 1458000)%Z) by (unfold ind; lia).
  destruct (at_ok t ind Ht) as [r Er]; [lia|]. destruct (at_ok t (ind + 1458000) Ht) as [g Eg]; [lia|].
  destruct (at_ok t (ind + 90 * 90 * 360) Ht) as [b Eb]; [lia|].
  rewrite Er, Eg, Eb. cbn [bind]. eauto.
Qed.

Lemma value_clip t x : merl_value t x = (let '(th, td, pd) := x in omap clip (lookup_brdf_val t th td pd)).
Proof.
  destruct x as [[th td] pd]. unfold merl_value, omap. destruct (lookup_brdf_val t th td pd) as [[[r g] b]| | |]; try reflexivity.
  cbn [bind]. unfold clip. destruct (Rlt_dec r 0), (Rlt_dec g 0), (Rlt_dec b 0); reflexivity.
Qed.

Lemma clip_nonneg y : let '(r, g, b) := clip y in 0 <= r /\ 0 <= g /\ 0 <= b.
Proof.
  destruct y as [[r g] b]. unfold clip. destruct (Rlt_dec r 0), (Rlt_dec g 0), (Rlt_dec b 0); repeat split; lra.
Qed.
Lemma clip_id r g b : 0 <= r -> 0 <= g -> 0 <= b -> clip (r, g, b) = (r, g, b).
Proof. intros. unfold clip. destruct (Rlt_dec r 0), (Rlt_dec g 0), (Rlt_dec b 0); try lra; reflexivity. Qed.
Lemma clip_zero r g b : r < 0 \/ g < 0 \/ b < 0 -> clip (r, g, b) = (0, 0, 0).
Proof. intros. unfold clip. destruct (Rlt_dec r 0), (Rlt_dec g 0), (Rlt_dec b 0); try lra; reflexivity. Qed.

Lemma value_total t x : table_ok t -> exists r g b, merl_value t x = Ok (r, g, b) /\ 0 <= r /\ 0 <= g /\ 0 <= b.
Proof.
  intros Ht. rewrite value_clip. destruct x as [[th td] pd]. destruct (lookup_total t th td pd Ht) as [y ->].
  cbn. pose proof (clip_nonneg y). destruct (clip y) as [[r g] b]. exists r, g, b. split; [reflexivity|assumption].
Qed.

Lemma value_outside t th td pd : th < 0 \/ PI / 2 < th \/ td < 0 \/ PI / 2 < td \/ pd < - (2 * PI) \/ 2 * PI < pd ->
  merl_value t (th, td, pd) = Ok (0, 0, 0).
Proof.
  intros H. rewrite value_clip. pose proof PI_RGT_0 as Hpi.
  assert (E : lookup_brdf_val t th td pd = Ok (0, 0, 0)).
  { unfold lookup_brdf_val.
    destruct (Rlt_dec th 0); [reflexivity|]. destruct (Rlt_dec (5 / 10 * PI) th); [reflexivity|].
    destruct (Rlt_dec td 0); [reflexivity|]. destruct (Rlt_dec (5 / 10 * PI) td); [reflexivity|].
    destruct (Rlt_dec pd 0).
    - destruct (Rlt_dec PI (- pd)); [|lra]. destruct (Rlt_dec PI (2 * PI - - pd)); [lra|].
      destruct (Rlt_dec (2 * PI - - pd) 0); [reflexivity|lra].
    - destruct (Rlt_dec PI pd); [|lra]. destruct (Rlt_dec PI (2 * PI - pd)); [lra|].
      destruct (Rlt_dec (2 * PI - pd) 0); [reflexivity|lra]. }
  rewrite E. cbn. f_equal. apply clip_id; lra.
Qed.

Lemma value_phi_sym t th td pd : merl_value t (th, td, - pd) = merl_value t (th, td, pd).
Proof.
  rewrite !value_clip. f_equal. unfold lookup_brdf_val.
  destruct (Rlt_dec (- pd) 0); destruct (Rlt_dec pd 0); try lra.
  - rewrite Ropp_involutive. reflexivity.
  - reflexivity.
  - replace (- pd) with pd by lra. reflexivity.
Qed.
Lemma value_phi_wrap t th td pd : 0 <= pd <= 2 * PI -> merl_value t (th, td, 2 * PI - pd) = merl_value t (th, td, pd).
Proof.
  intros H. pose proof PI_RGT_0 as Hpi. rewrite !value_clip. f_equal. unfold lookup_brdf_val.
  destruct (Rlt_dec (2 * PI - pd) 0); [lra|]. destruct (Rlt_dec pd 0); [lra|].
  destruct (Rlt_dec PI (2 * PI - pd)); destruct (Rlt_dec PI pd); try lra.
  - replace (2 * PI - (2 * PI - pd)) with pd by ring. reflexivity.
  - reflexivity.
  - replace (2 * PI - pd) with pd by lra. reflexivity.
Qed.

(** ** Samples *)
Definition pd_of (i : Z) := Z.rem i 180.
Definition td_of (i : Z) := Z.rem (Z.quot i 180) 90.
Definition th_of (i : Z) := Z.rem (Z.quot i (180 * 90)) 90.
Lemma indices_of i : (0 <= i < 1458000)%Z ->
  (0 <= pd_of i < 180)%Z /\ (0 <= td_of i < 90)%Z /\ (0 <= th_of i < 90)%Z /\
  (pd_of i + td_of i * 180 + th_of i * 180 * 90 = i)%Z.
Proof.
  intros Hi. unfold pd_of, td_of, th_of.
  rewrite !Z.rem_mod_nonneg, !Z.quot_div_nonneg by (try (apply Z.quot_pos); lia).
  assert (E : (i / (180 * 90) = i / 180 / 90)%Z) by (rewrite Z.div_div by lia; reflexivity).
  rewrite E.
  pose proof (Z.mod_pos_bound i 180 ltac:(lia)). pose proof (Z.mod_pos_bound (i / 180) 90 ltac:(lia)).
  pose proof (Z.mod_pos_bound (i / 180 / 90) 90 ltac:(lia)).
  pose proof (Z.div_mod i 180 ltac:(lia)). pose proof (Z.div_mod (i / 180) 90 ltac:(lia)).
  assert (0 <= i / 180 / 90 < 90)%Z.
  { rewrite <- E. split; [apply Z.div_pos; lia|]. apply Z.div_lt_upper_bound; lia. }
  rewrite (Z.mod_small (i / 180 / 90) 90) by lia. lia.
Qed.

Lemma get_shape t i : merl_get t i =
  (do r <- at_ t i; do g <- at_ t (i + 1458000); do b <- at_ t (i + 2916000);
   Ok ((theta_half_from_index (th_of i), theta_diff_from_index (td_of i), phi_diff_from_index (pd_of i)),
       (r * RED_SCALE, g * GREEN_SCALE, b * BLUE_SCALE))).
Proof. reflexivity. Qed.

Lemma get_total t i : table_ok t -> (0 <= i < MERL_SIZE)%Z -> exists x y, merl_get t i = Ok (x, y).
Proof.
  rewrite MERL_SIZE_val. intros Ht Hi. rewrite get_shape.
  destruct (at_ok t i Ht) as [r Er]; [lia|]. destruct (at_ok t (i + 1458000) Ht) as [g Eg]; [lia|].
  destruct (at_ok t (i + 2916000) Ht) as [b Eb]; [lia|]. rewrite Er, Eg, Eb. cbn [bind]. eauto.
Qed.

Lemma lookup_at t i x y : (0 <= i < MERL_SIZE)%Z -> merl_get t i = Ok (x, y) ->
  (let '(th, td, pd) := x in lookup_brdf_val t th td pd) = Ok y.
Proof.
  rewrite MERL_SIZE_val, get_shape. intros Hi. destruct (indices_of i Hi) as (Hp & Hd & Hh & E).
  destruct (theta_half_inverse (th_of i) Hh) as [I1 B1]. destruct (theta_diff_inverse (td_of i) Hd) as [I2 B2].
  destruct (phi_diff_inverse (pd_of i) Hp) as [I3 B3]. pose proof PI_RGT_0 as Hpi.
  destruct (at_ t i) as [r| | |] eqn:Er; try discriminate. destruct (at_ t (i + 1458000)) as [g| | |] eqn:Eg; try discriminate.
  destruct (at_ t (i + 2916000)) as [b| | |] eqn:Eb; try discriminate. cbn [bind].
  intros H; injection H as <- <-.
  unfold lookup_brdf_val.
  destruct (Rlt_dec (phi_diff_from_index (pd_of i)) 0); [lra|].
  destruct (Rlt_dec PI (phi_diff_from_index (pd_of i))); [lra|].
  destruct (Rlt_dec (theta_half_from_index (th_of i)) 0); [lra|].
  destruct (Rlt_dec (5 / 10 * PI) (theta_half_from_index (th_of i))); [lra|].
  destruct (Rlt_dec (theta_diff_from_index (td_of i)) 0); [lra|].
  destruct (Rlt_dec (5 / 10 * PI) (theta_diff_from_index (td_of i))); [lra|].
  destruct (Rlt_dec PI (phi_diff_from_index (pd_of i))); [lra|].
  destruct (Rlt_dec (phi_diff_from_index (pd_of i)) 0); [lra|].
  rewrite I1, I2, I3. unfold RES_PD, RES_TD, RES_TH. rewrite !quot_double by lia. rewrite E.
  change (90 * 90 * 180)%Z with 1458000%Z. change (90 * 90 * 360)%Z with 2916000%Z.
  rewrite Er, Eg, Eb. reflexivity.
Qed.

Lemma value_at_sample t i x r g b : (0 <= i < MERL_SIZE)%Z -> merl_get t i = Ok (x, (r, g, b)) ->
  (0 <= r /\ 0 <= g /\ 0 <= b -> merl_value t x = Ok (r, g, b)) /\
  (r < 0 \/ g < 0 \/ b < 0 -> merl_value t x = Ok (0, 0, 0)).
Proof.
  intros Hi Hg. pose proof (lookup_at t i x (r, g, b) Hi Hg) as Hl. rewrite value_clip.
  destruct x as [[th td] pd]. rewrite Hl. cbn. split.
  - intros (H1 & H2 & H3). f_equal. apply (clip_id r g b); assumption.
  - intros H. f_equal. apply (clip_zero r g b H).
Qed.

Lemma samples_distinct t t' i j x y y' : (0 <= i < MERL_SIZE)%Z -> (0 <= j < MERL_SIZE)%Z ->
  merl_get t i = Ok (x, y) -> merl_get t' j = Ok (x, y') -> i = j.
Proof.
  rewrite MERL_SIZE_val. intros Hi Hj. rewrite !get_shape.
  destruct (at_ t i); try discriminate. destruct (at_ t (i + 1458000)); try discriminate.
  destruct (at_ t (i + 2916000)); try discriminate.
  destruct (at_ t' j); try discriminate. destruct (at_ t' (j + 1458000)); try discriminate.
  destruct (at_ t' (j + 2916000)); try discriminate. cbn [bind]. intros H1 H2.
  injection H1 as H1 _. injection H2 as H2 _. rewrite <- H1 in H2. injection H2 as E1 E2 E3.
  destruct (indices_of i Hi) as (Hp & Hd & Hh & E). destruct (indices_of j Hj) as (Hp' & Hd' & Hh' & E').
  pose proof (proj1 (theta_half_inverse _ Hh)) as I1. pose proof (proj1 (theta_half_inverse _ Hh')) as I1'.
  pose proof (proj1 (theta_diff_inverse _ Hd)) as I2. pose proof (proj1 (theta_diff_inverse _ Hd')) as I2'.
  pose proof (proj1 (phi_diff_inverse _ Hp)) as I3. pose proof (proj1 (phi_diff_inverse _ Hp')) as I3'.
  rewrite E1, I1 in I1'. rewrite E2, I2 in I2'. rewrite E3, I3 in I3'. lia.
Qed.

(** ** set *)
Lemma put_at t i v t' j : put t i v = Ok t' ->
  length t' = length t /\ at_ t' j = if (j =? i)%Z then Ok v else at_ t j.
Proof.
  unfold put. destruct (Z.ltb_spec i 0); [discriminate|]. destruct (Z.ltb_spec i (Z.of_nat (length t))); [|discriminate].
  intros E; apply Ok_inj in E; subst t'.
  assert (Hn : (Z.to_nat i < length t)%nat) by lia.
  split.
  - rewrite app_length, firstn_length. rewrite Nat.min_l by lia. cbn [length]. rewrite skipn_length. lia.
  - unfold at_. destruct (Z.ltb_spec j 0); [destruct (Z.eqb_spec j i); [lia|reflexivity]|].
    destruct (Z.eqb_spec j i) as [->|Hji].
    + rewrite nth_error_app2 by (rewrite firstn_length; lia).
      rewrite firstn_length, Nat.min_l by lia. rewrite Nat.sub_diag. reflexivity.
    + destruct (Z.lt_ge_cases j i).
      * rewrite nth_error_app1 by (rewrite firstn_length; lia).
        rewrite <- (firstn_skipn (Z.to_nat i) t) at 2. rewrite nth_error_app1 by (rewrite firstn_length; lia). reflexivity.
      * rewrite nth_error_app2 by (rewrite firstn_length; lia). rewrite firstn_length, Nat.min_l by lia.
        replace (Z.to_nat j - Z.to_nat i)%nat with (S (Z.to_nat j - S (Z.to_nat i))) by lia. cbn [nth_error].
        rewrite <- (firstn_skipn (S (Z.to_nat i)) t) at 2. rewrite nth_error_app2 by (rewrite firstn_length; lia).
        rewrite firstn_length, Nat.min_l by lia. reflexivity.
Qed.
Lemma put_ok t i v : (0 <= i < Z.of_nat (length t))%Z -> exists t', put t i v = Ok t'.
Proof.
  intros H. unfold put. destruct (Z.ltb_spec i 0); [lia|]. destruct (Z.ltb_spec i (Z.of_nat (length t))); [eauto|lia].
Qed.

Lemma set_get t i y : table_ok t -> (0 <= i < MERL_SIZE)%Z ->
  exists t', merl_set t i y = Ok t' /\ table_ok t' /\
    (exists x, merl_get t' i = Ok (x, y)) /\
    (forall j, (0 <= j < MERL_SIZE)%Z -> j <> i -> merl_get t' j = merl_get t j).
Proof.
  destruct y as [[r g] b]. rewrite MERL_SIZE_val. intros Ht Hi. unfold merl_set. rewrite MERL_SIZE_val.
  assert (Hl : Z.of_nat (length t) = 4374000%Z) by exact Ht.
  destruct (put_ok t i (r / RED_SCALE)) as [t1 E1]; [lia|]. rewrite E1. cbn [bind].
  assert (L1 : length t1 = length t) by (apply (put_at _ _ _ _ 0%Z E1)).
  destruct (put_ok t1 (i + 1458000) (g / GREEN_SCALE)) as [t2 E2]; [lia|]. rewrite E2. cbn [bind].
  assert (L2 : length t2 = length t1) by (apply (put_at _ _ _ _ 0%Z E2)).
  destruct (put_ok t2 (i + 1458000 + 1458000) (b / BLUE_SCALE)) as [t3 E3]; [lia|].
  assert (L3 : length t3 = length t2) by (apply (put_at _ _ _ _ 0%Z E3)).
  assert (Hat : forall j, at_ t3 j = if (j =? i + 1458000 + 1458000)%Z then Ok (b / BLUE_SCALE)
     else if (j =? i + 1458000)%Z then Ok (g / GREEN_SCALE) else if (j =? i)%Z then Ok (r / RED_SCALE) else at_ t j).
  { intros j. rewrite (proj2 (put_at _ _ _ _ j E3)), (proj2 (put_at _ _ _ _ j E2)), (proj2 (put_at _ _ _ _ j E1)). reflexivity. }
  exists t3. split; [exact E3|]. split; [unfold table_ok; rewrite L3, L2, L1; exact Ht|]. split.
  - rewrite get_shape, !Hat.
    replace (i =? i + 1458000 + 1458000)%Z with false by (symmetry; apply Z.eqb_neq; lia).
    replace (i =? i + 1458000)%Z with false by (symmetry; apply Z.eqb_neq; lia).
    replace (i + 1458000 =? i + 1458000 + 1458000)%Z with false by (symmetry; apply Z.eqb_neq; lia).
    replace (i + 2916000 =? i + 1458000 + 1458000)%Z with true by (symmetry; apply Z.eqb_eq; lia).
    rewrite !Z.eqb_refl. cbn [bind]. eexists. f_equal. f_equal.
    unfold RED_SCALE, GREEN_SCALE, BLUE_SCALE. f_equal; [f_equal|]; field.
  - intros j Hj Hne. rewrite !get_shape, !Hat.
    repeat match goal with |- context [(?a =? ?b)%Z] => replace (a =? b)%Z with false by (symmetry; apply Z.eqb_neq; lia) end.
    reflexivity.
Qed.

(** ** Files *)
Lemma int_bytes z : (0 <= z < 2 ^ 31)%Z -> int_of_bytes (bytes_of_int z) = z.
Proof.
  intros H. unfold int_of_bytes, bytes_of_int. rewrite le_word_bytes.
  - rewrite Z.mod_small by lia. rewrite Z2N.id by lia. destruct (Z.ltb_spec z (2 ^ 31)); [reflexivity|lia].
  - rewrite Z.mod_small by lia. change (256 ^ N.of_nat 4)%N with (2 ^ 32)%N. lia.
Qed.

Lemma file_roundtrip t : table_ok t -> Forall is_double t ->
  exists file, merl_save t = Ok file /\ merl_load file = Ok t.
Proof.
  intros Ht Hd. unfold table_ok, samples in Ht.
  unfold merl_save. change (3 * (RES_TH * RES_TD * Z.quot RES_PD 2))%Z with (3 * 1458000)%Z.
  destruct (Z.ltb_spec (Z.of_nat (length t)) (3 * 1458000)); [lia|].
  assert (Hlen : Z.to_nat (3 * 1458000) = length t) by lia.
  eexists; split; [reflexivity|]. rewrite Hlen, firstn_all.
  unfold merl_load.
  assert (L4 : forall z, length (bytes_of_int z) = 4%nat) by (intros; apply le_bytes_length).
  destruct (Nat.ltb_spec (length (bytes_of_int RES_TH ++ bytes_of_int RES_TD ++ bytes_of_int (RES_PD ÷ 2) ++ doubles_bytes t)) 12) as [Hlt|_].
  { exfalso. rewrite !app_length, !L4 in Hlt. lia. }
  set (A := bytes_of_int RES_TH). set (B := bytes_of_int RES_TD). set (C := bytes_of_int (RES_PD ÷ 2)).
  assert (F1 : firstn 4 (A ++ B ++ C ++ doubles_bytes t) = A).
  { rewrite <- (L4 RES_TH). fold A. rewrite firstn_app, Nat.sub_diag, firstn_all. apply app_nil_r. }
  assert (S1 : skipn 4 (A ++ B ++ C ++ doubles_bytes t) = B ++ C ++ doubles_bytes t).
  { rewrite <- (L4 RES_TH). fold A. rewrite skipn_app, Nat.sub_diag, skipn_all. reflexivity. }
  assert (F2 : firstn 4 (B ++ C ++ doubles_bytes t) = B).
  { rewrite <- (L4 RES_TD). fold B. rewrite firstn_app, Nat.sub_diag, firstn_all. apply app_nil_r. }
  assert (S2 : skipn 8 (A ++ B ++ C ++ doubles_bytes t) = C ++ doubles_bytes t).
  { rewrite app_assoc. replace 8%nat with (length (A ++ B)) by (rewrite app_length; unfold A, B; rewrite !L4; reflexivity).
    rewrite skipn_app, Nat.sub_diag, skipn_all. reflexivity. }
  assert (F3 : firstn 4 (C ++ doubles_bytes t) = C).
  { rewrite <- (L4 (RES_PD ÷ 2)%Z). fold C. rewrite firstn_app, Nat.sub_diag, firstn_all. apply app_nil_r. }
  assert (S3 : skipn 12 (A ++ B ++ C ++ doubles_bytes t) = doubles_bytes t).
  { rewrite !app_assoc. replace 12%nat with (length ((A ++ B) ++ C)) by (rewrite !app_length; unfold A, B, C; rewrite !L4; reflexivity).
    rewrite skipn_app, Nat.sub_diag, skipn_all. reflexivity. }
  rewrite F1, S1, F2, S2, F3, S3. unfold A, B, C. rewrite !int_bytes by (vm_compute; split; congruence).
  change (int_mul RES_TH RES_TD) with (Ok 8100%Z). cbn [bind].
  change (int_mul 8100 (RES_PD ÷ 2)) with (Ok 1458000%Z). cbn [bind].
  rewrite MERL_SIZE_val, Z.eqb_refl. cbn [negb]. rewrite Hlen. f_equal.
  rewrite <- (app_nil_r (doubles_bytes t)). apply bytes_doubles_app. assumption.
Qed.

Lemma bytes_doubles_nil n : bytes_doubles n [] = repeat 0%N n.
Proof. induction n as [|n IH]; [reflexivity|]. cbn [bytes_doubles firstn skipn repeat le_word]. rewrite IH. reflexivity. Qed.

(** ** Cells *)
Lemma trunc_unique x z : 0 <= x -> IZR z <= x -> x < IZR z + 1 -> trunc x = z.
Proof. intros. unfold trunc. destruct (Rle_dec 0 x); [|lra]. apply Int_part_unique; assumption. Qed.

Lemma sqrt_bounds k y : 0 <= k -> k * k <= y -> k <= sqrt y.
Proof. intros. rewrite <- (sqrt_square k) by assumption. apply sqrt_le_1; nra. Qed.
Lemma sqrt_bounds2 k y : 0 <= k -> 0 <= y -> y < k * k -> sqrt y < k.
Proof. intros. rewrite <- (sqrt_square k) by assumption. apply sqrt_lt_1; nra. Qed.

Lemma piece_theta_half h th : piece 90 (fun u => u * u) h (th / (PI / 2)) -> theta_half_index th = h /\ 0 <= th <= PI / 2.
Proof.
  intros ([H0 H9] & H1 & H2). pose proof PI_RGT_0 as Hpi.
  assert (Hk : 0 <= IZR h <= 89) by (split; [apply IZR_le; lia|change 89 with (IZR 89); apply IZR_le; lia]).
  set (x := th / (PI / 2)) in *. assert (Ex : th = x * (PI / 2)) by (unfold x; field; lra).
  assert (Hx0 : 0 <= x) by nra. assert (Hx1 : x <= 1) by (destruct H2 as [H2|[_ H2]]; nra).
  split; [|rewrite Ex; nra].
  unfold theta_half_index, RES_TH. destruct (Rle_dec th 0) as [Hz|Hz].
  { assert (x = 0) by nra. destruct (Z.eq_dec h 0) as [->|]; [reflexivity|].
    assert (1 <= IZR h) by (change 1 with (IZR 1); apply IZR_le; lia). nra. }
  replace (th / (PI / 2) * 90 * 90) with (x * 8100) by (unfold x; ring).
  assert (S1 : IZR h <= sqrt (x * 8100)) by (apply sqrt_bounds; nra).
  assert (S0 : 0 <= sqrt (x * 8100)) by apply sqrt_pos.
  destruct H2 as [H2|[-> _]].
  - assert (S2 : sqrt (x * 8100) < IZR h + 1) by (apply sqrt_bounds2; nra).
    rewrite (trunc_unique _ h) by assumption.
    destruct (Z.ltb_spec h 0); [lia|]. destruct (Z.leb_spec 90 h); lia.
  - change (IZR (90 - 1)) with 89 in S1. assert (S2 : sqrt (x * 8100) <= 90).
    { replace 90 with (sqrt (90 * 90)) by (apply sqrt_square; lra). apply sqrt_le_1; lra. }
    destruct (Rlt_dec (sqrt (x * 8100)) 90).
    + rewrite (trunc_unique _ 89) by lra. reflexivity.
    + rewrite (trunc_unique _ 90) by lra. reflexivity.
Qed.
Lemma piece_theta_diff d td : piece 90 (fun u => u) d (td / (PI / 2)) -> theta_diff_index td = d /\ 0 <= td <= PI / 2.
Proof.
  intros ([H0 H9] & H1 & H2). pose proof PI_RGT_0 as Hpi.
  assert (Hk : 0 <= IZR d <= 89) by (split; [apply IZR_le; lia|change 89 with (IZR 89); apply IZR_le; lia]).
  set (x := td / (PI / 2)) in *. assert (Ex : td = x * (PI / 2)) by (unfold x; field; lra).
  assert (Hx0 : 0 <= x) by lra. assert (Hx1 : x <= 1) by (destruct H2 as [H2|[_ H2]]; lra).
  split; [|rewrite Ex; nra].
  unfold theta_diff_index, RES_TD. replace (td / (PI * (5 / 10)) * 90) with (x * 90) by (unfold x; field; lra).
  destruct H2 as [H2|[-> _]].
  - rewrite (trunc_unique _ d) by lra. destruct (Z.ltb_spec d 0); [lia|]. destruct (Z.ltb_spec d (90 - 1)); lia.
  - change (IZR (90 - 1)) with 89 in *. destruct (Rlt_dec (x * 90) 90).
    + rewrite (trunc_unique _ 89) by lra. reflexivity.
    + rewrite (trunc_unique _ 90) by lra. reflexivity.
Qed.
Lemma piece_phi_diff p pd : piece 180 (fun u => u) p (pd / PI) -> phi_diff_index pd = p /\ 0 <= pd <= PI.
Proof.
  intros ([H0 H9] & H1 & H2). pose proof PI_RGT_0 as Hpi.
  assert (Hk : 0 <= IZR p <= 179) by (split; [apply IZR_le; lia|change 179 with (IZR 179); apply IZR_le; lia]).
  set (x := pd / PI) in *. assert (Ex : pd = x * PI) by (unfold x; field; lra).
  assert (Hx0 : 0 <= x) by lra. assert (Hx1 : x <= 1) by (destruct H2 as [H2|[_ H2]]; lra).
  assert (Hpd : 0 <= pd) by (rewrite Ex; nra).
  split; [|rewrite Ex; nra].
  unfold phi_diff_index, RES_PD. change (Z.quot 360 2) with 180%Z. destruct (Rlt_dec pd 0); [lra|].
  replace (pd / PI * 360 / 2) with (x * 180) by (unfold x; field; lra).
  destruct H2 as [H2|[-> _]].
  - rewrite (trunc_unique _ p) by lra. destruct (Z.ltb_spec p 0); [lia|]. destruct (Z.ltb_spec p (180 - 1)); lia.
  - change (IZR (180 - 1)) with 179 in *. destruct (Rlt_dec (x * 180) 180).
    + rewrite (trunc_unique _ 179) by lra. reflexivity.
    + rewrite (trunc_unique _ 180) by lra. reflexivity.
Qed.

Lemma value_in_cell t h d p x : table_ok t -> in_cell h d p x ->
  exists x', merl_get t (cell_number h d p) = Ok (x', match merl_get t (cell_number h d p) with Ok (_, y) => y | _ => (0, 0, 0) end) /\
    merl_value t x = merl_value t x' /\ in_cell h d p x'.
Proof.
  destruct x as [[th td] pd]. intros Ht (C1 & C2 & C3).
  destruct (piece_theta_half _ _ C1) as [I1 B1]. destruct (piece_theta_diff _ _ C2) as [I2 B2].
  destruct (piece_phi_diff _ _ C3) as [I3 B3].
  destruct C1 as (R1 & _ & _). destruct C2 as (R2 & _ & _). destruct C3 as (R3 & _ & _).
  assert (Hi : (0 <= cell_number h d p < MERL_SIZE)%Z) by (rewrite MERL_SIZE_val; unfold cell_number; lia).
  destruct (get_total t _ Ht Hi) as (x' & y & E). rewrite E. exists x'. split; [reflexivity|].
  pose proof (lookup_at t _ x' y Hi E) as L. rewrite MERL_SIZE_val in Hi.
  destruct (indices_of _ Hi) as (Q1 & Q2 & Q3 & Q4). rewrite get_shape in E.
  assert (Hu : th_of (cell_number h d p) = h /\ td_of (cell_number h d p) = d /\ pd_of (cell_number h d p) = p)
    by (unfold cell_number in *; lia).
  destruct Hu as (U1 & U2 & U3). rewrite U1, U2, U3 in E.
  destruct (at_ t (cell_number h d p)) as [r| | |] eqn:Er; try discriminate E. cbn [bind] in E.
  destruct (at_ t (cell_number h d p + 1458000)) as [g| | |] eqn:Eg; try discriminate E. cbn [bind] in E.
  destruct (at_ t (cell_number h d p + 2916000)) as [b| | |] eqn:Eb; try discriminate E. cbn [bind] in E.
  injection E as <- <-. split.
  - rewrite !value_clip, L. f_equal. unfold lookup_brdf_val.
    destruct (Rlt_dec pd 0); [lra|]. destruct (Rlt_dec PI pd); [lra|].
    destruct (Rlt_dec th 0); [lra|]. destruct (Rlt_dec (5 / 10 * PI) th); [lra|].
    destruct (Rlt_dec td 0); [lra|]. destruct (Rlt_dec (5 / 10 * PI) td); [lra|].
    destruct (Rlt_dec PI pd); [lra|]. destruct (Rlt_dec pd 0); [lra|].
    rewrite I1, I2, I3. unfold RES_PD, RES_TD, RES_TH. rewrite !quot_double by lia.
    replace (p + d * 180 + h * 180 * 90)%Z with (cell_number h d p) by (unfold cell_number; ring).
    change (90 * 90 * 180)%Z with 1458000%Z. change (90 * 90 * 360)%Z with 2916000%Z.
    rewrite Er, Eg, Eb. reflexivity.
  - pose proof PI_RGT_0 as Hpi.
    unfold in_cell, piece. repeat apply conj; try lia.
    + unfold theta_half_from_index, RES_TH. assert (0 <= IZR h) by (apply IZR_le; lia).
      replace ((IZR h + 5 / 10) * (IZR h + 5 / 10) / 90 * (5 / 10 * PI) / 90 / (PI / 2)) with ((IZR h + 5/10) * (IZR h + 5/10) / 8100) by (field; lra). nra.
    + left. unfold theta_half_from_index, RES_TH. assert (0 <= IZR h) by (apply IZR_le; lia).
      replace ((IZR h + 5 / 10) * (IZR h + 5 / 10) / 90 * (5 / 10 * PI) / 90 / (PI / 2)) with ((IZR h + 5/10) * (IZR h + 5/10) / 8100) by (field; lra). nra.
    + unfold theta_diff_from_index, RES_TD. replace ((IZR d + 5 / 10) * (5 / 10 * PI) / 90 / (PI / 2)) with ((IZR d + 5 / 10) / 90) by (field; lra). lra.
    + left. unfold theta_diff_from_index, RES_TD. replace ((IZR d + 5 / 10) * (5 / 10 * PI) / 90 / (PI / 2)) with ((IZR d + 5 / 10) / 90) by (field; lra). lra.
    + unfold phi_diff_from_index, RES_PD. change (Z.quot 360 2) with 180%Z. replace ((IZR p + 5 / 10) * PI / 180 / PI) with ((IZR p + 5 / 10) / 180) by (field; lra). lra.
    + left. unfold phi_diff_from_index, RES_PD. change (Z.quot 360 2) with 180%Z. replace ((IZR p + 5 / 10) * PI / 180 / PI) with ((IZR p + 5 / 10) / 180) by (field; lra). lra.
Qed.

(** ** Bad files *)
Lemma load_header_only : merl_load (bytes_of_int 90 ++ bytes_of_int 90 ++ bytes_of_int 180) = Ok (repeat 0%N (Z.to_nat (3 * samples))).
Proof.
  unfold merl_load. change ((length _ <? 12)%nat) with false. cbv iota.
  change (int_mul (int_of_bytes (firstn 4 (bytes_of_int 90 ++ bytes_of_int 90 ++ bytes_of_int 180)))
       (int_of_bytes (firstn 4 (skipn 4 (bytes_of_int 90 ++ bytes_of_int 90 ++ bytes_of_int 180))))) with (Ok 8100%Z). cbn [bind].
  change (int_mul 8100 (int_of_bytes (firstn 4 (skipn 8 (bytes_of_int 90 ++ bytes_of_int 90 ++ bytes_of_int 180))))) with (Ok 1458000%Z).
  cbn [bind]. rewrite MERL_SIZE_val, Z.eqb_refl. cbn [negb].
  change (skipn 12 (bytes_of_int 90 ++ bytes_of_int 90 ++ bytes_of_int 180)) with (@nil Ascii.ascii).
  rewrite bytes_doubles_nil. unfold samples. exact eq_refl.
Qed.

(** ** Every angle lies in a cell *)
Lemma piece_lin n x : (0 < n)%Z -> 0 <= x <= 1 -> exists k, piece n (fun u => u) k x.
Proof.
  intros Hn Hx. assert (Hn' : 0 < IZR n) by (apply IZR_lt; lia).
  pose proof (Int_part_bounds (x * IZR n)) as [B1 B2]. set (k := Int_part (x * IZR n)) in *.
  assert (Hx0 : 0 <= x * IZR n <= IZR n) by nra.
  assert (Hk0 : (0 <= k)%Z).
  { assert (-1 < k)%Z; [|lia]. apply lt_IZR. change (IZR (-1)) with (-1). lra. }
  destruct (Z_lt_le_dec k n) as [Hk|Hk].
  - exists k. unfold piece. split; [lia|]. split.
    + apply Rmult_le_reg_r with (IZR n); [assumption|]. unfold Rdiv. rewrite Rmult_assoc, Rinv_l by lra. lra.
    + left. apply Rmult_lt_reg_r with (IZR n); [assumption|]. unfold Rdiv. rewrite Rmult_assoc, Rinv_l by lra. lra.
  - exists (n - 1)%Z. unfold piece. split; [lia|]. split; [|right; split; [reflexivity|lra]].
    apply Rmult_le_reg_r with (IZR n); [assumption|]. unfold Rdiv. rewrite Rmult_assoc, Rinv_l by lra.
    apply IZR_le in Hk. rewrite minus_IZR. lra.
Qed.
Lemma piece_quad n x : (0 < n)%Z -> 0 <= x <= 1 -> exists k, piece n (fun u => u * u) k x.
Proof.
  intros Hn Hx. assert (Hs : 0 <= sqrt x <= 1).
  { split; [apply sqrt_pos|]. rewrite <- sqrt_1. apply sqrt_le_1; lra. }
  assert (Hss : sqrt x * sqrt x = x) by (apply sqrt_sqrt; lra).
  assert (Hn' : 0 < IZR n) by (apply IZR_lt; lia).
  destruct (piece_lin n (sqrt x) Hn Hs) as (k & Hk & H1 & H2). exists k.
  assert (Hk' : 0 <= IZR k / IZR n).
  { apply Rmult_le_pos; [apply IZR_le; lia|]. apply Rlt_le, Rinv_0_lt_compat. assumption. }
  split; [assumption|]. split; [rewrite <- Hss; nra|].
  destruct H2 as [H2|[-> H2]]; [left|right; split; [reflexivity|lra]]. rewrite <- Hss. nra.
Qed.
Lemma every_angle_in_cell th td pd : 0 <= th <= PI / 2 -> 0 <= td <= PI / 2 -> 0 <= pd <= PI ->
  exists h d p, in_cell h d p (th, td, pd).
Proof.
  intros H1 H2 H3. pose proof PI_RGT_0 as Hpi.
  assert (D : forall a b, 0 < b -> 0 <= a <= b -> 0 <= a / b <= 1).
  { intros a b Hb [Ha Hab]. split; [apply Rmult_le_pos; [assumption|apply Rlt_le, Rinv_0_lt_compat; assumption]|].
    apply Rmult_le_reg_r with b; [assumption|]. unfold Rdiv. rewrite Rmult_assoc, Rinv_l; lra. }
  destruct (piece_quad 90 (th / (PI / 2))) as [h Ch]; [lia|apply D; lra|].
  destruct (piece_lin 90 (td / (PI / 2))) as [d Cd]; [lia|apply D; lra|].
  destruct (piece_lin 180 (pd / PI)) as [p Cp]; [lia|apply D; lra|].
  exists h, d, p. repeat split; try (apply Ch); try (apply Cd); try (apply Cp).
Qed.

(** ** Which headers are accepted *)
Lemma load_accepts a b c rest : (0 <= a < 2 ^ 15)%Z -> (0 <= b < 2 ^ 15)%Z -> (0 <= c < 2 ^ 31)%Z -> (a * b * c < 2 ^ 31)%Z ->
  merl_load (bytes_of_int a ++ bytes_of_int b ++ bytes_of_int c ++ rest) =
  if (a * b * c =? samples)%Z then Ok (bytes_doubles (Z.to_nat (3 * samples)) rest) else Abort.
Proof.
  intros Ha Hb Hc Hp. unfold merl_load.
  assert (L4 : forall z, length (bytes_of_int z) = 4%nat) by (intros; apply le_bytes_length).
  destruct (Nat.ltb_spec (length (bytes_of_int a ++ bytes_of_int b ++ bytes_of_int c ++ rest)) 12) as [Hlt|_].
  { exfalso. rewrite !app_length, !L4 in Hlt. lia. }
  set (A := bytes_of_int a). set (B := bytes_of_int b). set (C := bytes_of_int c).
  assert (F1 : firstn 4 (A ++ B ++ C ++ rest) = A).
  { rewrite <- (L4 a). fold A. rewrite firstn_app, Nat.sub_diag, firstn_all. apply app_nil_r. }
  assert (S1 : skipn 4 (A ++ B ++ C ++ rest) = B ++ C ++ rest).
  { rewrite <- (L4 a). fold A. rewrite skipn_app, Nat.sub_diag, skipn_all. reflexivity. }
  assert (F2 : firstn 4 (B ++ C ++ rest) = B).
  { rewrite <- (L4 b). fold B. rewrite firstn_app, Nat.sub_diag, firstn_all. apply app_nil_r. }
  assert (S2 : skipn 8 (A ++ B ++ C ++ rest) = C ++ rest).
  { rewrite app_assoc. replace 8%nat with (length (A ++ B)) by (rewrite app_length; unfold A, B; rewrite !L4; reflexivity).
    rewrite skipn_app, Nat.sub_diag, skipn_all. reflexivity. }
  assert (F3 : firstn 4 (C ++ rest) = C).
  { rewrite <- (L4 c). fold C. rewrite firstn_app, Nat.sub_diag, firstn_all. apply app_nil_r. }
  assert (S3 : skipn 12 (A ++ B ++ C ++ rest) = rest).
  { rewrite !app_assoc. replace 12%nat with (length ((A ++ B) ++ C)) by (rewrite !app_length; unfold A, B, C; rewrite !L4; reflexivity).
    rewrite skipn_app, Nat.sub_diag, skipn_all. reflexivity. }
  rewrite F1, S1, F2, S2, F3, S3. unfold A, B, C. rewrite !int_bytes by lia. unfold int_mul.
  destruct (Z.leb_spec (- 2 ^ 31) (a * b)); [|lia]. destruct (Z.ltb_spec (a * b) (2 ^ 31)); [|nia]. cbn [andb bind].
  destruct (Z.leb_spec (- 2 ^ 31) (a * b * c)); [|nia]. destruct (Z.ltb_spec (a * b * c) (2 ^ 31)); [|lia]. cbn [andb bind].
  rewrite MERL_SIZE_val. unfold samples. destruct (Z.eqb_spec (a * b * c) 1458000) as [->|]; reflexivity.
Qed.

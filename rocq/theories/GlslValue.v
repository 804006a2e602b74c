(** Proofs for the shader export: values of the plugins. *)
From Coq Require Import Reals List Lia Lra.
From Verif Require Import Base ParamsModel GeoModel GeoUnit TextModel CommonModel RatProofs NlModel NlSpec NlProofs NlGrad NlGrad2 NlGrad3 NlMoreModel NlMoreSpec NlLobes NlLobes2 NlMoreProofs FuncModel
  Glsl GlslModel GlslSpec GlslValueSpec GlslProgram GlslEval GlslRun.
Open Scope R_scope.

Definition agree (x m : mem) : Prop := forall i, (i < 6)%nat -> m i = x i.
Lemma agree_copy x out : agree x (copy 6 x out).
Proof. intros i Hi. destruct i as [|[|[|[|[|[|i]]]]]]; try lia; reflexivity. Qed.
Ltac agree_ H := unfold back_cos, lv_cos, mirror_cos, retro_cos, back_len, lobe_dot3, laf_dot, ward_exp, cos_vh, has_half, halfway, hlen, hsum; cbn [Nat.add]; rewrite ?(H 0%nat), ?(H 1%nat), ?(H 2%nat), ?(H 3%nat), ?(H 4%nat), ?(H 5%nat) by lia.
Lemma agree_half x m : agree x m -> has_half x -> has_half m.
Proof. intros H. agree_ H. auto. Qed.
Lemma agree_directions x m : agree x m -> directions x -> directions m.
Proof. intros H (A & B & C). split; [|split; [|exact (agree_half x m H C)]]; unfold unit3 in *; rewrite ?(H 0%nat), ?(H 1%nat), ?(H 2%nat), ?(H 3%nat), ?(H 4%nat), ?(H 5%nat) by lia; assumption. Qed.
Lemma agree_lobe x m pi k c : agree x m -> lobe pi k m c = lobe pi k x c.
Proof. intros H. unfold lobe. agree_ H. reflexivity. Qed.

(** ** the back vector *)
Lemma back_sq x : back_len x * back_len x = (x 3%nat - x 0%nat) * (x 3%nat - x 0%nat) + (x 4%nat - x 1%nat) * (x 4%nat - x 1%nat) + (x 5%nat + x 2%nat) * (x 5%nat + x 2%nat).
Proof.
  unfold back_len. apply sqrt_sqrt.
  pose proof (Rle_0_sqr (x 3%nat - x 0%nat)). pose proof (Rle_0_sqr (x 4%nat - x 1%nat)). pose proof (Rle_0_sqr (x 5%nat + x 2%nat)). unfold Rsqr in *. lra.
Qed.
Lemma retro_cos_half x : directions x -> 0 < back_len x -> retro_cos x = back_len x / 2.
Proof.
  intros (A & B & _) H. unfold unit3 in *. pose proof (back_sq x) as Q. unfold retro_cos. apply (Rmult_eq_reg_r (back_len x)); [|lra].
  replace (back_len x / 2 * back_len x) with (back_len x * back_len x / 2) by field. rewrite Q. field_simplify; [|lra]. lra.
Qed.
Lemma retro_cos_range x : directions x -> 0 < back_len x -> 0 <= retro_cos x <= 1.
Proof.
  intros Hd H. rewrite (retro_cos_half x Hd H). split; [lra|]. destruct Hd as (A & B & _). unfold unit3 in *. pose proof (back_sq x) as Q.
  assert (back_len x * back_len x <= 4).
  { rewrite Q. pose proof (Rle_0_sqr (x 3%nat + x 0%nat)). pose proof (Rle_0_sqr (x 4%nat + x 1%nat)). pose proof (Rle_0_sqr (x 5%nat - x 2%nat)). unfold Rsqr in *. lra. }
  destruct (Rle_lt_dec (back_len x) 2); [lra|]. exfalso. assert (2 * 2 < back_len x * back_len x) by (apply Rmult_le_0_lt_compat; lra). lra.
Qed.
Lemma clamp01_id d : 0 <= d <= 1 -> clamp01 d = d.
Proof. intros H. unfold clamp01. rewrite Rmax_left by lra. apply Rmin_left. lra. Qed.

(** ** the direction mirrored in spherical coordinates *)
Lemma mirror_dot t x : t = Mirror \/ t = Retro -> directions x -> sg_dot t x = Ok (mirror_cos x).
Proof.
  intros Ht (A & B & H). unfold unit3 in *.
  assert (P : forall a b c, a * a + b * b + c * c = 1 -> cos (atan2 b a) * sin (acos c) = a /\ sin (atan2 b a) * sin (acos c) = b /\ cos (acos c) = c).
  { intros a b c E. assert (Hc : -1 <= c <= 1).
    { pose proof (Rle_0_sqr a). pose proof (Rle_0_sqr b). unfold Rsqr in *. assert (c * c <= 1) by lra. split.
      - destruct (Rle_lt_dec (-1) c); [lra|]. assert (1 * 1 < - c * - c) by (apply Rmult_le_0_lt_compat; lra). lra.
      - destruct (Rle_lt_dec c 1); [lra|]. assert (1 * 1 < c * c) by (apply Rmult_le_0_lt_compat; lra). lra. }
    rewrite cos_acos, sin_acos by lra. replace (1 - c²) with (a * a + b * b) by (unfold Rsqr; lra).
    pose proof (atan2_polar b a) as [U W]. cbv zeta in U, W. rewrite Rmult_comm, (Rmult_comm (sin _)). auto. }
  destruct (P _ _ _ A) as (V0 & V1 & V2). destruct (P _ _ _ B) as (L0 & L1 & L2).
  assert (S0 : convert x CARTESIAN SPHERICAL_TL_PL_TV_PV (fun _ => 0) = Ok (GeoModel.assign [(0%nat, acos (x 5%nat)); (1%nat, atan2 (x 4%nat) (x 3%nat)); (2%nat, acos (x 2%nat)); (3%nat, atan2 (x 1%nat) (x 0%nat))] (fun _ => 0))).
  { unfold convert. cbn -[from_cartesian GeoModel.assign]. rewrite from_cartesian_ok by exact H. unfold from_cartesian_writes. destruct (half_vector x) as [[? ?] ?]. reflexivity. }
  assert (E : forall s : mem, s 0%nat = acos (x 5%nat) -> s 1%nat = atan2 (x 4%nat) (x 3%nat) -> s 2%nat = acos (x 2%nat) -> s 3%nat = atan2 (x 1%nat) (x 0%nat) ->
    (do c <- convert (fun j => if (j =? 1)%nat then s 1%nat + PI else s j) SPHERICAL_TL_PL_TV_PV CARTESIAN (fun _ => 0);
      Ok (c 0%nat * c 3%nat + c 1%nat * c 4%nat + c 2%nat * c 5%nat)) = Ok (mirror_cos x)).
  { intros s E0 E1 E2 E3. unfold convert. cbn -[to_cartesian]. unfold to_cartesian. cbn [to_cartesian_writes bind].
    unfold six. cbn -[cos sin PI]. f_equal. rewrite E0, E1, E2, E3, neg_cos, neg_sin. unfold mirror_cos.
    rewrite V0, V1, V2, L2. replace (- cos (atan2 (x 4%nat) (x 3%nat)) * sin (acos (x 5%nat))) with (- x 3%nat) by (rewrite <- L0 at 1; ring).
    replace (- sin (atan2 (x 4%nat) (x 3%nat)) * sin (acos (x 5%nat))) with (- x 4%nat) by (rewrite <- L1 at 1; ring). ring. }
  destruct Ht as [-> | ->]; unfold sg_dot; rewrite S0; cbn [bind]; apply E; reflexivity.
Qed.

Lemma firstn_skipn_nth (p : list R) a n j : (j < n)%nat -> nth j (firstn n (skipn a p)) 0 = nth (a + j) p 0.
Proof.
  revert p n j. induction a as [|a IH]; intros p n j Hj.
  - cbn [skipn Nat.add]. revert n j Hj. induction p as [|b p IHp]; intros n j Hj; [destruct n, j; reflexivity|]. destruct n as [|n]; [lia|]. destruct j as [|j]; [reflexivity|]. cbn. apply IHp. lia.
  - destruct p as [|b p]; [cbn; destruct n, j; reflexivity|]. cbn [skipn Nat.add nth]. apply IH, Hj.
Qed.
(** ** leaves *)
Section Leaves.
Variable junk : R.
Variable nY : nat.
(** the parameters of lobe [i], channel [y] *)
Definition chan_par (k : kind) (p : list R) (i y l : nat) : R := nth (y * call_vecs k + l) (lobe_par nY k i p) 0.
Definition leaf_sum (pi : R) (k : kind) (x : mem) (p : list R) (y : nat) : R :=
  rsum (map (fun i => lobe pi k x (chan_par k p i y)) (seq 0 (lobe_count k))).
(** the number [m] stands for the point [x] in a parametrization *)
Definition rep (ip : input) (x m : mem) : Prop :=
  match ip with CARTESIAN => agree x m | COS_TH => m 0%nat = halfway x 2 | _ => False end.
Lemma leaf_one pi k x p y : lobe_count k = 1%nat -> leaf_sum pi k x p y = lobe pi k x (chan_par k p 0 y).
Proof. intros H. unfold leaf_sum. rewrite H. cbn [seq map rsum]. ring. Qed.
Lemma nl_leaf F k p m x g : f_sizes F nY = nY -> length p = (f_k F * nY)%nat -> f_geo F m = Ok g -> lobe_count k = 1%nat ->
  (forall y, (y < nY)%nat -> f_val F g (channel (f_k F) p y) = lobe PI k x (chan_par k p 0 y)) ->
  exists v, value_at junk F nY p m = Ok v /\ length v = nY /\ forall y, (y < nY)%nat -> nth y v 0 = leaf_sum PI k x p y.
Proof.
  intros Hs Hp Hg Hc H. eexists. split; [apply (value_at_ok junk F nY p Hs Hp m g Hg)|]. split; [rewrite map_length, seq_length; reflexivity|].
  intros y Hy. rewrite map_nth_len by exact Hy. rewrite leaf_one by exact Hc. apply H, Hy.
Qed.
Lemma std_clamp d : clamp d 0 1 = clamp01 d.
Proof.
  unfold clamp, clamp01. destruct (Rle_lt_dec d 0).
  - rewrite (Rmin_left d 1), (Rmax_right d 0), Rmin_left by lra. reflexivity.
  - destruct (Rle_lt_dec d 1).
    + rewrite (Rmin_left d 1), (Rmax_left d 0), Rmin_left by lra. reflexivity.
    + rewrite (Rmin_right d 1), (Rmax_left d 0), Rmin_right, Rmax_left by lra. reflexivity.
Qed.
Lemma pw_rltb d n : (if rltb 0 d then Rpower d n else 0) = pw d n.
Proof. unfold pw. destruct (rltb_dec 0 d), (Rlt_dec 0 d); try contradiction; reflexivity. Qed.
Lemma leaf_value k p x m : faithful k -> directions x -> plugin_defined x nY k p -> rep (plugin_input k) x m ->
  exists v, plugin_value junk nY k p m = Ok v /\ length v = nY /\ forall y, (y < nY)%nat -> nth y v 0 = leaf_sum PI k x p y.
Proof.
  intros Hk Hx (Hp & Hd) Hm. pose proof Hx as (_ & _ & Hh).
  destruct k as [| | | | | | | | |t|a| |n|n| | | | ]; try contradiction; cbn [plugin_value plugin_input per_channel] in *; unfold rep in Hm.
  - apply (nl_leaf blinn KBlinn p m x [m 0%nat]); auto. intros y Hy. cbn [blinn f_val f_k p0 nth]. rewrite channel2. cbn [p0 p1 nth]. rewrite Hm.
    unfold lobe, chan_par. cbn [call_vecs lobe_par]. rewrite <- pw_rltb. destruct (rltb 0 (halfway x 2)); [reflexivity|]. ring.
  - pose proof (agree_half x m Hm Hh) as Hm'. apply (nl_leaf ward KWard p m x [halfway m 0; halfway m 1; halfway m 2; m 2%nat * m 5%nat]); auto; [apply ward_geo, Hm'|]. intros y Hy. rewrite <- (agree_lobe x m) by exact Hm.
    change (f_k ward) with 3%nat. rewrite channel3. cbn [ward f_val p0 p1 p2 nth]. unfold lobe, chan_par. cbn [call_vecs lobe_par].
    rewrite (Rmult_comm (m 5%nat)). destruct (rltb_dec 0 (m 2%nat * m 5%nat)), (Rlt_dec 0 (m 2%nat * m 5%nat)); try contradiction; reflexivity.
  - pose proof (agree_half x m Hm Hh) as Hm'. destruct (half_of_ok m Hm') as (h & E & E0 & E1 & E2). unfold half_of in E.
    apply (nl_leaf (schlick CARTESIAN) KSchlick p m x [cos_vh m]); auto.
    { cbn [schlick f_geo]. unfold dot_vh. rewrite E, cartesian_itself. cbn [bind]. rewrite E0, E1, E2. reflexivity. }
    intros y Hy. rewrite <- (agree_lobe x m) by exact Hm. change (f_k (schlick CARTESIAN)) with 1%nat. rewrite channel1. cbn [schlick f_val p0 nth]. unfold grazing, lobe, chan_par. cbn [call_vecs lobe_par p0 nth].
    rewrite std_clamp. reflexivity.
  - pose proof (agree_half x m Hm Hh) as Hm'. assert (Hb : / 10 ^ 10 < back_len m) by (revert Hd; agree_ Hm; auto).
    assert (Hb0 : 0 < back_len m) by (assert (0 < / 10 ^ 10) by (apply Rinv_0_lt_compat, pow_lt; lra); lra).
    pose proof (retro_cos_range m (agree_directions x m Hm Hx) Hb0) as Hr.
    apply (nl_leaf retro_schlick KRetroSchlick p m x [retro_cos m]); auto.
    { cbn [retro_schlick f_geo]. assert (E : exists h, convert m CARTESIAN SCHLICK_VK (fun _ => 0) = Ok h /\ h 0%nat = (m 3%nat - m 0%nat) / back_len m /\ h 1%nat = (m 4%nat - m 1%nat) / back_len m /\ h 2%nat = (m 5%nat + m 2%nat) / back_len m).
      { eexists. split.
        - unfold convert. cbn -[from_cartesian]. rewrite from_cartesian_ok by exact Hm'. unfold from_cartesian_writes. destruct (half_vector m) as [[? ?] ?]. cbv zeta. fold (back_len m).
          destruct (Rlt_dec (/ 10 ^ 10) (back_len m)); [|contradiction]. reflexivity.
        - repeat split; reflexivity. }
      destruct E as (h & E & E0 & E1 & E2). rewrite E, cartesian_itself. cbn [bind]. rewrite E0, E1, E2. reflexivity. }
    intros y Hy. rewrite <- (agree_lobe x m) by exact Hm. change (f_k retro_schlick) with 1%nat. rewrite channel1. cbn [retro_schlick f_val p0 nth]. unfold lobe, chan_par. cbn [call_vecs lobe_par p0 nth].
    rewrite clamp01_id by exact Hr. reflexivity.
  - pose proof (agree_half x m Hm Hh) as Hm'. set (d := match t with Half => halfway m 2 | Back => back_cos m | _ => mirror_cos m end).
    assert (E : sg_dot t m = Ok d).
    { destruct t; [apply mirror_dot; [auto|exact (agree_directions x m Hm Hx)]| | |contradiction].
      - unfold sg_dot, convert. cbn -[from_cartesian]. rewrite from_cartesian_ok by exact Hm'. unfold from_cartesian_writes. rewrite (half_vector_ok m (proj1 Hm')). reflexivity.
      - unfold sg_dot, convert. cbn -[from_cartesian]. rewrite from_cartesian_ok by exact Hm'. unfold from_cartesian_writes. destruct (half_vector m) as [[? ?] ?]. cbn -[sqrt].
        unfold d, back_cos. match goal with |- Ok (_ / sqrt ?e) = _ => replace (sqrt e) with (back_len m) by (unfold back_len; f_equal; ring) end. rewrite (Rplus_comm (m 2%nat)). reflexivity. }
    apply (nl_leaf (spherical_gaussian t) (KGauss t) p m x [d]); auto; [cbn [spherical_gaussian f_geo]; rewrite E; reflexivity|].
    intros y Hy. rewrite <- (agree_lobe x m) by exact Hm. change (f_k (spherical_gaussian t)) with 2%nat. rewrite channel2. cbn [spherical_gaussian f_val p0 p1 nth]. unfold lobe, chan_par. cbn [call_vecs lobe_par].
    unfold d. destruct t; try contradiction; reflexivity.
  - rewrite Nat.mul_1_l in Hp. exists p. rewrite (diffuse_value_ok nY p junk Hp). split; [reflexivity|]. split; [exact Hp|]. intros y Hy. rewrite leaf_one by reflexivity.
    unfold lobe, chan_par. cbn [call_vecs lobe_par]. f_equal. lia.
  - destruct (laf_value_at_ok junk nY n p m Hp) as (v & E & Hl & Hv). exists v. split; [exact E|]. split; [exact Hl|]. intros y Hy. rewrite (Hv y Hy). unfold leaf_sum. cbn [lobe_count].
    rewrite (sum_to_ext n _ (fun i => lobe PI (KLafIso n) x (chan_par (KLafIso n) p i y))).
    + clear. generalize (fun i => lobe PI (KLafIso n) x (chan_par (KLafIso n) p i y)). intros f. induction n as [|n IH]; [reflexivity|].
      cbn [sum_to]. rewrite IH, seq_S, map_app. cbn [Nat.add map]. generalize (map f (seq 0 n)). intros l. induction l as [|a l IHl]; cbn; [ring|]. cbn in IHl. lra.
    + intros i Hi. rewrite <- (agree_lobe x m) by exact Hm. unfold laf_lobe, lobe, pw.
      assert (P : forall l, (l < 3)%nat -> chan_par (KLafIso n) p i y l = laf_par nY p i y l).
      { intros l Hl'. unfold chan_par, laf_par. cbn [call_vecs lobe_par]. unfold lobe_pars.
        assert (y * 3 + l < 3 * nY)%nat by lia.
        rewrite firstn_skipn_nth by lia. f_equal. lia. }
      rewrite !P by lia. replace (lobe_dot3 m (laf_par nY p i y 0) (laf_par nY p i y 1)) with (laf_dot nY p m i y) by (unfold lobe_dot3, laf_dot; ring). reflexivity.
Qed.
End Leaves.

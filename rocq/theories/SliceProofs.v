From Coq Require Import Reals List ZArith Lia Lra.
From Verif Require Import Base Num ParamsModel MerlModel MerlProofs SliceModel SliceSpec.
Open Scope R_scope.


Lemma new_ok param phi w h content : image_ok w h content -> slice_ok (slice_new param phi w h 1 content) /\
  s_width (slice_new param phi w h 1 content) = w /\ s_height (slice_new param phi w h 1 content) = h.
Proof.
  intros H. unfold slice_new, slice_ok, s_reverse. destruct param as [p|]; cbn [slice_parameters].
  - destruct p; cbn; split; auto; split; auto; split; auto; intros E; try discriminate; try reflexivity.
  - cbn. split; auto. split; auto. split; auto. discriminate.
Qed.

Lemma range_pos s : s_min s < s_max s.
Proof. pose proof PI_RGT_0. unfold s_min, s_max. destruct (s_param s); lra. Qed.

Lemma at_in (t : list R) i : (0 <= i < Z.of_nat (length t))%Z -> exists v, at_ t i = Ok v.
Proof.
  intros H. unfold at_. destruct (Z.ltb_spec i 0); [lia|]. destruct (nth_error t (Z.to_nat i)) eqn:E; [eauto|].
  apply nth_error_None in E. lia.
Qed.
Lemma at_out (t : list R) i : (i < 0 \/ Z.of_nat (length t) <= i)%Z -> at_ t i = UB.
Proof.
  intros H. unfold at_. destruct (Z.ltb_spec i 0); [reflexivity|]. destruct (nth_error t (Z.to_nat i)) eqn:E; [|reflexivity].
  assert (Z.to_nat i < length t)%nat by (apply nth_error_Some; congruence). lia.
Qed.

Lemma pixel_in d n id : Z.of_nat (length d) = (3 * n)%Z -> (0 <= id < n)%Z -> exists y, pixel d id = Ok y.
Proof.
  intros L H. unfold pixel. destruct (at_in d (3 * id + 0)) as [r ->]; [lia|]. destruct (at_in d (3 * id + 1)) as [g ->]; [lia|].
  destruct (at_in d (3 * id + 2)) as [b ->]; [lia|]. cbn. eauto.
Qed.
Lemma pixel_out d n id : Z.of_nat (length d) = (3 * n)%Z -> (id < 0 \/ n <= id)%Z -> pixel d id = UB.
Proof. intros L H. unfold pixel. rewrite at_out by lia. reflexivity. Qed.

Definition coords (s : slice) (i j : Z) : list R :=
  let x := [(IZR i + 5 / 10) * (s_max s - s_min s) / IZR (s_width s) + s_min s;
            (IZR j + 5 / 10) * (s_max s - s_min s) / IZR (s_height s) + s_min s] ++ (if (s_dim s =? 3)%nat then [s_phi s] else []) in
  if s_reverse s then rev x else x.

Lemma get_pixel s i j : (0 < s_width s)%Z -> (0 < s_height s)%Z -> (0 <= i < s_width s)%Z -> (0 <= j < s_height s)%Z ->
  slice_get s (i + j * s_width s) = omap (fun y => (coords s i j, y)) (pixel (s_data s) (i + j * s_width s)).
Proof.
  intros Hw Hh Hi Hj. unfold slice_get.
  assert (E1 : Z.rem (i + j * s_width s) (s_width s) = i).
  { rewrite Z.rem_mod_nonneg by nia. rewrite Z.mod_add by lia. apply Z.mod_small; lia. }
  assert (E2 : Z.quot (i + j * s_width s) (s_width s * s_height s) = 0%Z).
  { rewrite Z.quot_div_nonneg by nia. apply Z.div_small. nia. }
  rewrite E1, E2. replace (i + j * s_width s - 0 * s_width s * s_height s)%Z with (i + j * s_width s)%Z by ring.
  assert (E3 : Z.quot (i + j * s_width s) (s_width s) = j).
  { rewrite Z.quot_div_nonneg by nia. rewrite Z.div_add by lia. rewrite Z.div_small by lia. lia. }
  rewrite E3. unfold pixel, coords, omap.
  destruct (at_ (s_data s) (3 * (i + j * s_width s) + 0)); try reflexivity. cbn [bind].
  destruct (at_ (s_data s) (3 * (i + j * s_width s) + 1)); try reflexivity. cbn [bind].
  destruct (at_ (s_data s) (3 * (i + j * s_width s) + 2)); reflexivity.
Qed.

Lemma value_pixel s x : slice_ok s -> length x = s_dim s ->
  (horizontal s x <= s_max s) -> (s_min s <= if s_reverse s then depth s x else horizontal s x) -> s_min s <= vertical s x <= s_max s ->
  slice_value s x = pixel (s_data s)
    (Int_part ((horizontal s x - s_min s) * IZR (s_width s) / (s_max s - s_min s)) +
     Int_part ((vertical s x - s_min s) * IZR (s_height s) / (s_max s - s_min s)) * s_width s).
Proof.
  intros (_ & Hd & Hr) Hl H1 H2 H3. unfold slice_value, horizontal, vertical, depth in *.
  destruct (s_reverse s).
  - specialize (Hr eq_refl). rewrite Hr in Hl. destruct x as [|a [|b [|c [|]]]]; try discriminate Hl. cbn [rev nth app] in *.
    destruct (Rlt_dec (s_max s) c); [lra|]. destruct (Rlt_dec a (s_min s)); [lra|]. destruct (Rlt_dec (s_max s) b); [lra|].
    destruct (Rlt_dec b (s_min s)); [lra|]. rewrite Z.mul_1_r. reflexivity.
  - destruct (Rlt_dec (s_max s) (nth 0 x 0)); [lra|]. destruct (Rlt_dec (nth 0 x 0) (s_min s)); [lra|]. destruct (Rlt_dec (s_max s) (nth 1 x 0)); [lra|].
    destruct (Rlt_dec (nth 1 x 0) (s_min s)); [lra|]. rewrite Z.mul_1_r. reflexivity.
Qed.
Lemma value_reach s x : slice_ok s -> length x = s_dim s ->
  (s_max s < horizontal s x \/ (if s_reverse s then depth s x else horizontal s x) < s_min s \/ vertical s x < s_min s \/ s_max s < vertical s x) ->
  slice_value s x = UB.
Proof.
  intros (_ & Hd & Hr) Hl H. unfold slice_value, horizontal, vertical, depth in *.
  destruct (s_reverse s).
  - specialize (Hr eq_refl). rewrite Hr in Hl. destruct x as [|a [|b [|c [|]]]]; try discriminate Hl. cbn [rev nth app] in *.
    destruct (Rlt_dec (s_max s) c); [reflexivity|]. destruct (Rlt_dec a (s_min s)); [reflexivity|]. destruct (Rlt_dec (s_max s) b); [reflexivity|].
    destruct (Rlt_dec b (s_min s)); [reflexivity|lra].
  - destruct (Rlt_dec (s_max s) (nth 0 x 0)); [reflexivity|]. destruct (Rlt_dec (nth 0 x 0) (s_min s)); [reflexivity|]. destruct (Rlt_dec (s_max s) (nth 1 x 0)); [reflexivity|].
    destruct (Rlt_dec (nth 1 x 0) (s_min s)); [reflexivity|lra].
Qed.

Lemma piece_index a b n k x : a < b -> (0 < n)%Z -> in_piece a b n k x -> Int_part ((x - a) * IZR n / (b - a)) = k.
Proof.
  intros Hab Hn [H1 H2]. apply IZR_lt in Hn.
  set (u := (x - a) / (b - a)). assert (Ex : x = a + (b - a) * u) by (unfold u; field; lra).
  replace ((x - a) * IZR n / (b - a)) with (u * IZR n) by (unfold u; field; lra).
  assert (U1 : IZR k / IZR n <= u) by (rewrite Ex in H1; nra).
  assert (U2 : u < (IZR k + 1) / IZR n) by (rewrite Ex in H2; nra).
  apply Int_part_unique.
  - apply Rmult_le_compat_r with (r := IZR n) in U1; [|lra]. unfold Rdiv in U1. rewrite Rmult_assoc, Rinv_l in U1 by lra. lra.
  - apply Rmult_lt_compat_r with (r := IZR n) in U2; [|lra]. unfold Rdiv in U2. rewrite Rmult_assoc, Rinv_l in U2 by lra. lra.
Qed.
Lemma piece_range a b n k x : a < b -> (0 <= k < n)%Z -> in_piece a b n k x -> a <= x < b.
Proof.
  intros Hab [Hk Hkn] [H1 H2]. assert (Hn : 0 < IZR n) by (apply IZR_lt; lia). apply IZR_le in Hk.
  assert (Hk1 : IZR k + 1 <= IZR n) by (rewrite <- plus_IZR; apply IZR_le; lia).
  assert (0 <= IZR k / IZR n) by (apply Rmult_le_pos; [assumption|apply Rlt_le, Rinv_0_lt_compat; assumption]).
  assert ((IZR k + 1) / IZR n <= 1).
  { apply Rmult_le_reg_r with (IZR n); [assumption|]. unfold Rdiv. rewrite Rmult_assoc, Rinv_l by lra. lra. }
  nra.
Qed.

Lemma value_in_pixel s x i j : slice_ok s -> length x = s_dim s -> (0 <= i < s_width s)%Z -> (0 <= j < s_height s)%Z ->
  in_piece (s_min s) (s_max s) (s_width s) i (horizontal s x) -> in_piece (s_min s) (s_max s) (s_height s) j (vertical s x) ->
  (s_reverse s = true -> s_min s <= depth s x) ->
  slice_value s x = pixel (s_data s) (i + j * s_width s).
Proof.
  intros Hs Hl Hi Hj Pi Pj Hd. pose proof (range_pos s) as Hr. pose proof Hs as ((Hw & Hh & HL) & _).
  pose proof (piece_range _ _ _ _ _ Hr Hi Pi). pose proof (piece_range _ _ _ _ _ Hr Hj Pj).
  rewrite value_pixel; try assumption; try lra.
  - rewrite (piece_index _ _ _ _ _ Hr Hw Pi), (piece_index _ _ _ _ _ Hr Hh Pj). reflexivity.
  - destruct (s_reverse s); [auto|lra].
Qed.

Lemma coords_spec s i j : slice_ok s -> (0 <= i < s_width s)%Z -> (0 <= j < s_height s)%Z ->
  length (coords s i j) = s_dim s /\
  in_piece (s_min s) (s_max s) (s_width s) i (horizontal s (coords s i j)) /\
  in_piece (s_min s) (s_max s) (s_height s) j (vertical s (coords s i j)) /\
  (s_dim s = 3%nat -> depth s (coords s i j) = s_phi s).
Proof.
  intros ((Hw & Hh & HL) & Hd & Hr) Hi Hj. pose proof (range_pos s) as Hr'.
  assert (P : forall n k, (0 < n)%Z -> in_piece (s_min s) (s_max s) n k ((IZR k + 5 / 10) * (s_max s - s_min s) / IZR n + s_min s)).
  { intros n k Hn. apply IZR_lt in Hn. pose proof (Rinv_0_lt_compat _ Hn) as Hi'. unfold in_piece, Rdiv.
    set (q := / IZR n) in *. set (W := s_max s - s_min s) in *. assert (0 < W * q) by (apply Rmult_lt_0_compat; unfold W; lra).
    split; nra. }
  unfold coords, horizontal, vertical, depth. destruct (s_reverse s) eqn:Er.
  - rewrite (Hr eq_refl). cbn [Nat.eqb app rev nth length]. repeat split; auto; try apply P; assumption.
  - destruct Hd as [E|E]; rewrite E; cbn [Nat.eqb app nth length]; (split; [reflexivity|split; [apply P; assumption|split; [apply P; assumption|]]]); [discriminate|reflexivity].
Qed.

Lemma decompose s id : (0 < s_width s)%Z -> (0 < s_height s)%Z -> (0 <= id < s_width s * s_height s)%Z ->
  exists i j, (0 <= i < s_width s)%Z /\ (0 <= j < s_height s)%Z /\ id = (i + j * s_width s)%Z.
Proof.
  intros Hw Hh Hid. exists (id mod s_width s)%Z, (id / s_width s)%Z.
  pose proof (Z.mod_pos_bound id (s_width s) Hw). pose proof (Z.div_mod id (s_width s) ltac:(lia)).
  repeat split; try lia.
  - apply Z.div_pos; lia.
  - apply Z.div_lt_upper_bound; lia.
Qed.

Lemma slice_get_total s id : slice_ok s -> (0 <= id < s_width s * s_height s)%Z -> exists x y, slice_get s id = Ok (x, y) /\ length x = s_dim s.
Proof.
  intros Hs Hid. pose proof Hs as ((Hw & Hh & HL) & _). destruct (decompose s id Hw Hh Hid) as (i & j & Hi & Hj & ->).
  rewrite get_pixel by assumption. destruct (pixel_in _ _ (i + j * s_width s) HL Hid) as [y ->]. cbn. exists (coords s i j), y.
  split; [reflexivity|apply coords_spec; assumption].
Qed.
Lemma slice_value_at_sample s id x y : slice_ok s -> (0 <= id < s_width s * s_height s)%Z -> slice_get s id = Ok (x, y) ->
  slice_value s x = (if s_reverse s then if Rlt_dec (s_phi s) (s_min s) then UB else Ok y else Ok y).
Proof.
  intros Hs Hid E. pose proof Hs as ((Hw & Hh & HL) & Hd & Hr). destruct (decompose s id Hw Hh Hid) as (i & j & Hi & Hj & ->).
  rewrite get_pixel in E by assumption. destruct (pixel (s_data s) (i + j * s_width s)) as [y'| | |] eqn:Ep; try discriminate E.
  cbn in E. injection E as <- <-. destruct (coords_spec s i j Hs Hi Hj) as (C1 & C2 & C3 & C4).
  destruct (s_reverse s) eqn:Er.
  - specialize (C4 (Hr eq_refl)). destruct (Rlt_dec (s_phi s) (s_min s)).
    + apply value_reach; [assumption|assumption|]. rewrite Er, C4. auto.
    + rewrite <- Ep. apply value_in_pixel; try assumption. intros _. rewrite C4. lra.
  - rewrite <- Ep. apply value_in_pixel; try assumption. congruence.
Qed.
Lemma slice_samples_distinct s id id' x y y' : slice_ok s -> (0 <= id < s_width s * s_height s)%Z -> (0 <= id' < s_width s * s_height s)%Z ->
  slice_get s id = Ok (x, y) -> slice_get s id' = Ok (x, y') -> id = id'.
Proof.
  intros Hs H1 H2 E1 E2. pose proof Hs as ((Hw & Hh & HL) & _). pose proof (range_pos s) as Hr.
  destruct (decompose s id Hw Hh H1) as (i & j & Hi & Hj & ->). destruct (decompose s id' Hw Hh H2) as (i' & j' & Hi' & Hj' & ->).
  rewrite get_pixel in E1, E2 by assumption. destruct (pixel (s_data s) (i + j * s_width s)); try discriminate E1.
  destruct (pixel (s_data s) (i' + j' * s_width s)); try discriminate E2. cbn in E1, E2. injection E1 as E1 _. injection E2 as E2 _.
  destruct (coords_spec s i j Hs Hi Hj) as (_ & A1 & A2 & _). destruct (coords_spec s i' j' Hs Hi' Hj') as (_ & B1 & B2 & _).
  rewrite E1 in A1, A2. rewrite E2 in B1, B2.
  rewrite <- (piece_index _ _ _ _ _ Hr Hw A1), <- (piece_index _ _ _ _ _ Hr Hh A2), (piece_index _ _ _ _ _ Hr Hw B1), (piece_index _ _ _ _ _ Hr Hh B2). reflexivity.
Qed.

(** ** set *)
Lemma slice_set_get s id y : slice_ok s -> (0 <= id < s_width s * s_height s)%Z ->
  exists s', slice_set s id y = Ok s' /\ slice_ok s' /\
    (exists x, slice_get s' id = Ok (x, y)) /\
    (forall id', (0 <= id' < s_width s * s_height s)%Z -> id' <> id -> slice_get s' id' = slice_get s id').
Proof.
  intros Hs Hid. pose proof Hs as ((Hw & Hh & HL) & Hd & Hr). destruct y as [[r g] b]. unfold slice_set.
  destruct (put_ok (s_data s) (3 * id + 0) r) as [d1 E1]; [lia|]. rewrite E1. cbn [bind].
  assert (L1 : length d1 = length (s_data s)) by (apply (put_at _ _ _ _ 0%Z E1)).
  destruct (put_ok d1 (3 * id + 1) g) as [d2 E2]; [lia|]. rewrite E2. cbn [bind].
  assert (L2 : length d2 = length d1) by (apply (put_at _ _ _ _ 0%Z E2)).
  destruct (put_ok d2 (3 * id + 2) b) as [d3 E3]; [lia|]. rewrite E3. cbn [bind].
  assert (L3 : length d3 = length d2) by (apply (put_at _ _ _ _ 0%Z E3)).
  assert (Hat : forall j, at_ d3 j = if (j =? 3 * id + 2)%Z then Ok b else if (j =? 3 * id + 1)%Z then Ok g else if (j =? 3 * id + 0)%Z then Ok r else at_ (s_data s) j).
  { intros j. rewrite (proj2 (put_at _ _ _ _ j E3)), (proj2 (put_at _ _ _ _ j E2)), (proj2 (put_at _ _ _ _ j E1)). reflexivity. }
  set (s' := mkSlice _ _ _ _ _ _ _).
  assert (Hs' : slice_ok s') by (split; [|split; [exact Hd|exact Hr]]; split; [exact Hw|split; [exact Hh|cbn [s' s_data s_width s_height]; rewrite L3, L2, L1; exact HL]]).
  assert (Hp : forall k, pixel (s_data s') k = if (k =? id)%Z then Ok (r, g, b) else pixel (s_data s) k).
  { intros k. unfold pixel. cbn [s' s_data]. rewrite !Hat. destruct (Z.eqb_spec k id) as [->|Hne].
    - rewrite !Z.eqb_refl. replace (3 * id + 0 =? 3 * id + 2)%Z with false by (symmetry; apply Z.eqb_neq; lia).
      replace (3 * id + 0 =? 3 * id + 1)%Z with false by (symmetry; apply Z.eqb_neq; lia).
      replace (3 * id + 1 =? 3 * id + 2)%Z with false by (symmetry; apply Z.eqb_neq; lia). reflexivity.
    - repeat match goal with |- context [(?a =? ?b)%Z] => replace (a =? b)%Z with false by (symmetry; apply Z.eqb_neq; lia) end. reflexivity. }
  exists s'. split; [reflexivity|]. split; [exact Hs'|]. split.
  - destruct (decompose s id Hw Hh Hid) as (i & j & Hi & Hj & E). rewrite E. change (s_width s) with (s_width s'). rewrite get_pixel by assumption.
    change (s_width s') with (s_width s). rewrite <- E, Hp, Z.eqb_refl. cbn. eauto.
  - intros id' Hid' Hne. destruct (decompose s id' Hw Hh Hid') as (i & j & Hi & Hj & E). rewrite E.
    rewrite (get_pixel s) by assumption. change (s_width s) with (s_width s') at 1. rewrite (get_pixel s') by assumption.
    change (s_width s') with (s_width s). rewrite <- E, Hp. destruct (Z.eqb_spec id' id); [contradiction|]. reflexivity.
Qed.

(** ** Edges *)
Lemma right_edge s x j : slice_ok s -> s_reverse s = false -> length x = s_dim s -> horizontal s x = s_max s -> (0 <= j < s_height s)%Z ->
  in_piece (s_min s) (s_max s) (s_height s) j (vertical s x) ->
  slice_value s x = if (j =? s_height s - 1)%Z then UB else pixel (s_data s) ((j + 1) * s_width s).
Proof.
  intros Hs Hr Hl Hx Hj Pj. pose proof (range_pos s) as Hp. pose proof Hs as ((Hw & Hh & HL) & _).
  pose proof (piece_range _ _ _ _ _ Hp Hj Pj). rewrite value_pixel; try assumption; try lra; [|rewrite Hr; lra].
  rewrite (piece_index _ _ _ _ _ Hp Hh Pj), Hx.
  assert (E : Int_part ((s_max s - s_min s) * IZR (s_width s) / (s_max s - s_min s)) = s_width s).
  { replace ((s_max s - s_min s) * IZR (s_width s) / (s_max s - s_min s)) with (IZR (s_width s)) by (field; lra). apply Int_part_unique; lra. }
  rewrite E. replace (s_width s + j * s_width s)%Z with ((j + 1) * s_width s)%Z by ring.
  destruct (Z.eqb_spec j (s_height s - 1)) as [->|]; [|reflexivity].
  apply pixel_out with (n := (s_width s * s_height s)%Z); [exact HL|]. right. nia.
Qed.
Lemma top_edge s x i : slice_ok s -> s_reverse s = false -> length x = s_dim s -> vertical s x = s_max s -> (0 <= i < s_width s)%Z ->
  in_piece (s_min s) (s_max s) (s_width s) i (horizontal s x) -> slice_value s x = UB.
Proof.
  intros Hs Hr Hl Hx Hi Pi. pose proof (range_pos s) as Hp. pose proof Hs as ((Hw & Hh & HL) & _).
  pose proof (piece_range _ _ _ _ _ Hp Hi Pi). rewrite value_pixel; try assumption; try lra; [|rewrite Hr; lra].
  rewrite (piece_index _ _ _ _ _ Hp Hw Pi), Hx.
  assert (E : Int_part ((s_max s - s_min s) * IZR (s_height s) / (s_max s - s_min s)) = s_height s).
  { replace ((s_max s - s_min s) * IZR (s_height s) / (s_max s - s_min s)) with (IZR (s_height s)) by (field; lra). apply Int_part_unique; lra. }
  rewrite E. apply pixel_out with (n := (s_width s * s_height s)%Z); [exact HL|]. right. nia.
Qed.
(** projected parametrizations: the lower bound is tested on the wrong
    coordinate *)
Lemma left_unchecked s x : slice_ok s -> s_reverse s = true -> length x = 3%nat ->
  horizontal s x < s_min s -> s_min s <= depth s x -> in_piece (s_min s) (s_max s) (s_height s) 0 (vertical s x) ->
  slice_value s x = UB.
Proof.
  intros Hs Hr Hl Hx Hd Pj. pose proof (range_pos s) as Hp. pose proof Hs as ((Hw & Hh & HL) & _ & H3).
  assert (Hj : (0 <= 0 < s_height s)%Z) by lia.
  pose proof (piece_range _ _ _ _ _ Hp Hj Pj). rewrite value_pixel; try assumption; try lra; [|rewrite (H3 Hr); assumption|rewrite Hr; lra].
  rewrite (piece_index _ _ _ _ _ Hp Hh Pj).
  set (u := (horizontal s x - s_min s) * IZR (s_width s) / (s_max s - s_min s)).
  assert (Hu : u < 0).
  { unfold u. apply IZR_lt in Hw. assert (0 < / (s_max s - s_min s)) by (apply Rinv_0_lt_compat; lra). unfold Rdiv.
    assert ((horizontal s x - s_min s) * IZR (s_width s) < 0) by nra. nra. }
  pose proof (Int_part_bounds u) as [B1 _]. assert (Int_part u < 0)%Z by (apply lt_IZR; lra).
  apply pixel_out with (n := (s_width s * s_height s)%Z); [exact HL|]. left. lia.
Qed.

Lemma square_spec s : square (s_param s) = (s_min s, s_max s).
Proof. unfold square, s_min, s_max. destruct (s_param s); cbn; f_equal; try lra; field. Qed.
Lemma slice_positions s i j x y : slice_ok s -> (0 <= i < s_width s)%Z -> (0 <= j < s_height s)%Z ->
  slice_get s (i + j * s_width s) = Ok (x, y) ->
  horizontal s x = centre (square (s_param s)) (s_width s) i /\ vertical s x = centre (square (s_param s)) (s_height s) j /\
  (s_dim s = 3%nat -> depth s x = s_phi s).
Proof.
  intros Hs Hi Hj E. pose proof Hs as ((Hw & Hh & HL) & Hd & Hr).
  rewrite get_pixel in E by assumption. destruct (pixel (s_data s) (i + j * s_width s)) as [y'| | |]; try discriminate E.
  cbn in E. injection E as <- <-. rewrite square_spec. unfold centre. cbn [fst snd].
  assert (W : IZR (s_width s) <> 0) by (apply not_0_IZR; lia). assert (V : IZR (s_height s) <> 0) by (apply not_0_IZR; lia).
  unfold horizontal, vertical, depth, coords. destruct (s_reverse s).
  - rewrite (Hr eq_refl). cbn [Nat.eqb app rev nth]. repeat split; try reflexivity; field; assumption.
  - split; [cbn [app nth]; field; assumption|]. split; [cbn [app nth]; field; assumption|]. intros ->. reflexivity.
Qed.

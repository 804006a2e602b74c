(** Derivatives of the non linear function plugins, continued. *)
From Coq Require Import Reals List Lia Lra.
From Coquelicot Require Import Coquelicot.
From Verif Require Import Base ParamsModel GeoModel CommonModel FuncModel FuncSpec FuncProofs FuncJac TextModel NlModel NlSpec NlProofs NlGrad.
Open Scope R_scope.

Lemma abc_value junk nY p x : length p = (3 * nY)%nat -> 0 <= x 0%nat <= 1 ->
  value_is junk abc nY p x (fun y => par abc p y 0 / Rpower (1 + par abc p y 1 * (1 - x 0%nat)) (par abc p y 2)).
Proof.
  intros Hp Hx. apply (value_is_of junk abc nY p x [1 - x 0%nat]); [reflexivity|exact Hp|reflexivity|].
  intros y Hy. unfold par. cbn -[Nat.mul channel]. rewrite channel3. cbn -[Nat.mul rleb Rpower].
  rewrite !rleb_true by lra. reflexivity.
Qed.
Lemma abc_outside junk nY p x : length p = (3 * nY)%nat -> x 0%nat < 0 \/ 1 < x 0%nat ->
  value_is junk abc nY p x (fun _ => 0).
Proof.
  intros Hp Hx. apply (value_is_of junk abc nY p x [1 - x 0%nat]); [reflexivity|exact Hp|reflexivity|].
  intros y Hy. cbn -[Nat.mul channel]. rewrite channel3. cbn -[Nat.mul rleb Rpower].
  destruct Hx as [H|H]; [rewrite (rleb_no (1 - x 0%nat) 1), Bool.andb_false_r|rewrite (rleb_no 0)]; try lra; reflexivity.
Qed.
Lemma deriv_unique f a l m : derivable_pt_lim f a l -> derivable_pt_lim f a m -> l = m.
Proof. apply uniqueness_limite. Qed.
Lemma abc_outside_jac junk nY p x y : length p = (3 * nY)%nat -> x 0%nat < 0 \/ 1 < x 0%nat -> (y < nY)%nat ->
  ~ partial_exact junk abc nY p x y (y * 3 + 0).
Proof.
  intros Hp Hx Hy H. apply (partial_iff junk abc nY p x [1 - x 0%nat] y y 0) in H; try reflexivity; try assumption; try discriminate; [|cbn; lia].
  cbn [f_k abc] in H. rewrite channel3 in H. cbn [f_val f_jac abc] in H. cbv zeta in H. unfold p0, p1, p2 in H. cbn [nth upd] in H.
  assert (D : forall a, rleb 0 (1 - a) && rleb (1 - a) 1 = true -> 0 <= a <= 1).
  { intros a E. apply andb_prop in E. destruct E as [E1 E2]. destruct (rleb_dec 0 (1 - a)), (rleb_dec (1 - a) 1); try discriminate. lra. }
  destruct (rleb 0 (1 - x 0%nat) && rleb (1 - x 0%nat) 1) eqn:E; [apply D in E; lra|].
  pose proof (deriv_unique _ _ _ _ H (derivable_const 0 _)) as Z.
  pose proof (exp_pos (nth (y * 3 + 2) p 0 * ln (1 + nth (y * 3 + 1) p 0 * (1 - x 0%nat)))) as P.
  fold (Rpower (1 + nth (y * 3 + 1) p 0 * (1 - x 0%nat)) (nth (y * 3 + 2) p 0)) in P.
  assert (0 < 1 / Rpower (1 + nth (y * 3 + 1) p 0 * (1 - x 0%nat)) (nth (y * 3 + 2) p 0)) by (apply Rdiv_lt_0_compat; [lra|exact P]). lra.
Qed.

(** ** Schlick's Fresnel factors *)
Lemma schlick_gradient junk ip nY p x h c : length p = nY ->
  convert x ip RUSIN_VH (fun _ => 0) = Ok h -> convert x ip CARTESIAN (fun _ => 0) = Ok c ->
  gradient_at junk (schlick ip) nY p x.
Proof.
  intros Hp Eh Ec.
  eapply nl_gradient with (F := schlick ip); [reflexivity|cbn; lia|cbn [f_geo schlick]; unfold dot_vh; rewrite Eh, Ec; reflexivity|reflexivity|].
  intros y l Hy Hl. cbn [f_k schlick] in *. rewrite channel1. cbn [f_val f_jac schlick]. one l Hl. unfold p0. cbn [nth upd].
  set (g := grazing _). clearbody g. apply deriv_of. auto_derive; [exact I|ring].
Qed.
Lemma schlick_value_is junk ip nY p x h c : length p = nY ->
  convert x ip RUSIN_VH (fun _ => 0) = Ok h -> convert x ip CARTESIAN (fun _ => 0) = Ok c ->
  value_is junk (schlick ip) nY p x (fun y => nth y p 0 + (1 - nth y p 0) *
    (1 - Rmax (Rmin (h 0%nat * c 0%nat + h 1%nat * c 1%nat + h 2%nat * c 2%nat) 1) 0) ^ 5).
Proof.
  intros Hp Eh Ec.
  eapply value_is_of with (F := schlick ip); [reflexivity|cbn; lia|cbn [f_geo schlick]; unfold dot_vh; rewrite Eh, Ec; reflexivity|].
  intros y Hy. cbn [f_k schlick]. rewrite channel1. cbn [f_val schlick]. unfold p0, grazing, clamp, p0. cbn [nth].
  replace (y * 1 + 0)%nat with y by lia. reflexivity.
Qed.
Lemma cartesian_itself x : convert x CARTESIAN CARTESIAN (fun _ => 0) = Ok (copy 6 x (fun _ => 0)).
Proof. reflexivity. Qed.
Lemma schlick_cartesian junk nY p x : length p = nY -> has_half x ->
  gradient_at junk (schlick CARTESIAN) nY p x /\
  value_is junk (schlick CARTESIAN) nY p x (fun y => nth y p 0 + (1 - nth y p 0) * (1 - Rmax (Rmin (cos_vh x) 1) 0) ^ 5).
Proof.
  intros Hp Hx. destruct (half_of_ok x Hx) as (h & E & E0 & E1 & E2). unfold half_of in E. split.
  - eapply schlick_gradient; [exact Hp|exact E|apply cartesian_itself].
  - unfold cos_vh. rewrite <- E0, <- E1, <- E2. apply (schlick_value_is junk CARTESIAN nY p x h _ Hp E (cartesian_itself x)).
Qed.

(** bounds of the Fresnel factor *)
Lemma clamp_range c : 0 <= 1 - Rmax (Rmin c 1) 0 <= 1.
Proof. unfold Rmax, Rmin. destruct (Rle_dec c 1); destruct (Rle_dec _ 0); lra. Qed.
Lemma pow5_range a : 0 <= a <= 1 -> 0 <= a ^ 5 <= 1.
Proof.
  intros [H0 H1]. split; [apply pow_le; exact H0|]. rewrite <- (pow1 5). apply pow_incr. lra.
Qed.
Lemma fresnel_range r c : r <= 1 -> r <= r + (1 - r) * (1 - Rmax (Rmin c 1) 0) ^ 5 <= 1.
Proof.
  intros Hr. pose proof (pow5_range _ (clamp_range c)) as [A B]. split; nra.
Qed.
Lemma fresnel_normal r c : 1 <= c -> r + (1 - r) * (1 - Rmax (Rmin c 1) 0) ^ 5 = r.
Proof. intros H. rewrite Rmin_right, Rmax_left by lra. ring. Qed.
Lemma fresnel_grazing r c : c <= 0 -> r + (1 - r) * (1 - Rmax (Rmin c 1) 0) ^ 5 = 1.
Proof. intros H. rewrite Rmin_left, Rmax_right by lra. ring. Qed.
Lemma fresnel_decreases r c d : r <= 1 -> c <= d -> r + (1 - r) * (1 - Rmax (Rmin d 1) 0) ^ 5 <= r + (1 - r) * (1 - Rmax (Rmin c 1) 0) ^ 5.
Proof.
  intros Hr H. apply Rplus_le_compat_l. apply Rmult_le_compat_l; [lra|]. apply pow_incr. pose proof (clamp_range d). split; [lra|].
  unfold Rmax, Rmin. destruct (Rle_dec c 1), (Rle_dec d 1); repeat destruct (Rle_dec _ 0); lra.
Qed.

(** cosine of the half angle *)
Lemma cos_vh_half x : 0 < hlen x -> x 0%nat * x 0%nat + x 1%nat * x 1%nat + x 2%nat * x 2%nat = 1 ->
  x 3%nat * x 3%nat + x 4%nat * x 4%nat + x 5%nat * x 5%nat = 1 -> cos_vh x = hlen x / 2.
Proof.
  intros Hh Hv Hl. pose proof (hlen_sq x Hh) as Hs.
  assert (E : hlen x * hlen x = hsum x 0 * hsum x 0 + hsum x 1 * hsum x 1 + hsum x 2 * hsum x 2) by (unfold hlen; apply sqrt_sqrt; lra).
  unfold cos_vh, halfway. apply (Rmult_eq_reg_l (hlen x)); [|lra].
  replace (hlen x * (hsum x 0 / hlen x * x 0%nat + hsum x 1 / hlen x * x 1%nat + hsum x 2 / hlen x * x 2%nat))
    with (hsum x 0 * x 0%nat + hsum x 1 * x 1%nat + hsum x 2 * x 2%nat) by (field; lra).
  unfold hsum in *. cbn [Nat.add] in *. nra.
Qed.
Lemma cos_vh_square x : 0 < hlen x -> x 0%nat * x 0%nat + x 1%nat * x 1%nat + x 2%nat * x 2%nat = 1 ->
  x 3%nat * x 3%nat + x 4%nat * x 4%nat + x 5%nat * x 5%nat = 1 ->
  0 < cos_vh x <= 1 /\ cos_vh x * cos_vh x = (1 + (x 0%nat * x 3%nat + x 1%nat * x 4%nat + x 2%nat * x 5%nat)) / 2.
Proof.
  intros Hh Hv Hl. pose proof (cos_vh_half x Hh Hv Hl) as E.
  pose proof (hlen_sq x Hh) as Hs.
  assert (Eh : hlen x * hlen x = hsum x 0 * hsum x 0 + hsum x 1 * hsum x 1 + hsum x 2 * hsum x 2) by (unfold hlen; apply sqrt_sqrt; lra).
  unfold hsum in Eh. cbn [Nat.add] in Eh.
  assert (S : cos_vh x * cos_vh x = (1 + (x 0%nat * x 3%nat + x 1%nat * x 4%nat + x 2%nat * x 5%nat)) / 2) by (rewrite E; nra).
  split; [|exact S]. split; [lra|].
  assert (2 * (x 0%nat * x 3%nat + x 1%nat * x 4%nat + x 2%nat * x 5%nat) <= 2).
  { pose proof (Rle_0_sqr (x 0%nat - x 3%nat)). pose proof (Rle_0_sqr (x 1%nat - x 4%nat)). pose proof (Rle_0_sqr (x 2%nat - x 5%nat)).
    unfold Rsqr in *. nra. }
  nra.
Qed.

Lemma retro_schlick_gradient junk nY p x k c : length p = nY ->
  convert x CARTESIAN SCHLICK_VK (fun _ => 0) = Ok k -> convert x CARTESIAN CARTESIAN (fun _ => 0) = Ok c ->
  gradient_at junk retro_schlick nY p x.
Proof.
  intros Hp Ek Ec.
  eapply nl_gradient with (F := retro_schlick); [reflexivity|cbn; lia|cbn [f_geo retro_schlick]; rewrite Ek, Ec; reflexivity|discriminate|].
  intros y l Hy Hl. cbn [f_k retro_schlick] in *. rewrite channel1. cbn [f_val f_jac retro_schlick]. one l Hl. unfold p0. cbn [nth upd].
  set (g := (1 - _) ^ 5). clearbody g. apply deriv_of. auto_derive; [exact I|ring].
Qed.

(** the normalized factor cannot be used at all *)
Lemma normalized_schlick_dead junk nY p x : (0 < nY)%nat ->
  value_at junk normalized_schlick nY p x = Abort /\ jacobian_at junk normalized_schlick nY p x = Abort.
Proof.
  intros H. assert (E : set_params normalized_schlick nY p (members junk normalized_schlick nY) = Abort).
  { destruct nY as [|n]; [lia|]. unfold set_params. cbn. unfold rd. destruct p; reflexivity. }
  unfold value_at, jacobian_at. rewrite E. split; reflexivity.
Qed.

(** ** Spherical Gaussian *)
Lemma sg_gradient junk t nY p x d : length p = (2 * nY)%nat -> sg_dot t x = Ok d ->
  gradient_at junk (spherical_gaussian t) nY p x /\
  value_is junk (spherical_gaussian t) nY p x (fun y => par (spherical_gaussian t) p y 0 * exp (par (spherical_gaussian t) p y 1 * (d - 1))).
Proof.
  intros Hp Ed. assert (Eg : f_geo (spherical_gaussian t) x = Ok [d]) by (cbn [f_geo spherical_gaussian]; rewrite Ed; reflexivity). split.
  - eapply nl_gradient with (F := spherical_gaussian t); [reflexivity|exact Hp|exact Eg|discriminate|].
    intros y l Hy Hl. cbn [f_k spherical_gaussian] in *. rewrite channel2. cbn [f_val f_jac spherical_gaussian]. unfold p0, p1. cbn [nth].
    two l Hl; cbn [nth upd]; apply deriv_of; auto_derive; try exact I; ring.
  - eapply value_is_of; [reflexivity|exact Hp|exact Eg|]. intros y Hy. unfold par. cbn [f_k spherical_gaussian]. rewrite channel2. reflexivity.
Qed.

(** ** Schlick's shadowing term *)
Lemma shadowing_gradient junk nY p x : length p = nY ->
  (forall y, (y < nY)%nat -> x 5%nat + nth y p 0 * (1 - x 5%nat) <> 0 /\ x 2%nat + nth y p 0 * (1 - x 2%nat) <> 0) ->
  gradient_at junk shadowing_schlick nY p x.
Proof.
  intros Hp Hd. eapply nl_gradient with (F := shadowing_schlick); [reflexivity|cbn; lia|reflexivity|reflexivity|].
  intros y l Hy Hl. destruct (Hd y Hy) as [H5 H2]. cbn [f_k shadowing_schlick] in *. rewrite channel1. cbn [f_val f_jac shadowing_schlick].
  one l Hl. unfold p0, p1, g1. cbn [nth upd]. replace (y * 1 + 0)%nat with y by lia. set (w := nth y p 0) in *.
  apply deriv_of. auto_derive; [tauto|]. field. tauto.
Qed.
Lemma shadowing_value junk nY p x : length p = nY ->
  value_is junk shadowing_schlick nY p x (fun y =>
    (x 5%nat / (x 5%nat + nth y p 0 * (1 - x 5%nat))) * (x 2%nat / (x 2%nat + nth y p 0 * (1 - x 2%nat)))).
Proof.
  intros Hp. eapply value_is_of with (F := shadowing_schlick); [reflexivity|cbn; lia|reflexivity|].
  intros y Hy. cbn [f_k shadowing_schlick]. rewrite channel1. cbn [f_val shadowing_schlick]. unfold p0, p1, g1. cbn [nth].
  replace (y * 1 + 0)%nat with y by lia. reflexivity.
Qed.
Lemma g1_range u w : 0 < u <= 1 -> 0 <= w -> 0 < u / (u + w * (1 - u)) <= 1.
Proof.
  intros Hu Hw. assert (0 <= w * (1 - u)) by nra. split; [apply Rdiv_lt_0_compat; lra|].
  apply (Rmult_le_reg_r (u + w * (1 - u))); [lra|]. unfold Rdiv. rewrite Rmult_assoc, Rinv_l by lra. lra.
Qed.

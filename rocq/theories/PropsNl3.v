(** Properties C67, C68 and C71, continued: closed forms of the values in terms of
    the two directions. *)
From Coq Require Import Reals List Lia Lra.
From Coquelicot Require Import Coquelicot.
From Verif Require Import Base ParamsModel GeoModel GeoUnit CommonModel FuncModel FuncSpec FuncJac TextModel NlModel NlSpec NlProofs NlGrad NlGrad2 NlGrad5 NlLobes NlLobes2 NlGrad3 NlGrad4 NlSgd GlslValueSpec GlslValue.
Open Scope R_scope.

(** ** C67: the cosine each type of spherical Gaussian is evaluated at *)
(** Half: normal and half vector; back: normal and the vector halfway between the
    light and the mirrored view direction; mirror, and also retro: light and
    mirrored view direction. *)
Definition gaussian_cos (t : sg_type) (x : mem) : R :=
  match t with Half => halfway x 2 | Back => back_cos x | Mirror | Retro => mirror_cos x end.
Theorem C67_directions : forall junk t nY p x, length p = (2 * nY)%nat -> directions x ->
  value_is junk (spherical_gaussian t) nY p x
    (fun y => par (spherical_gaussian t) p y 0 * exp (par (spherical_gaussian t) p y 1 * (gaussian_cos t x - 1))).
Proof.
  intros junk t nY p x Hp Hx.
  assert (E : sg_dot t x = Ok (gaussian_cos t x)); [|exact (proj2 (sg_gradient junk t nY p x _ Hp E))].
  assert (Hx' := Hx). destruct Hx as (A & B & Hh). destruct t; [apply mirror_dot; [auto|exact Hx']| | |apply mirror_dot; [auto|exact Hx']].
  - unfold sg_dot, convert. cbn -[from_cartesian]. rewrite from_cartesian_ok by exact Hh. unfold from_cartesian_writes. rewrite (half_vector_ok x (proj1 Hh)). reflexivity.
  - unfold sg_dot, convert. cbn -[from_cartesian]. rewrite from_cartesian_ok by exact Hh. unfold from_cartesian_writes. destruct (half_vector x) as [[? ?] ?]. cbn -[sqrt].
    unfold gaussian_cos, back_cos. match goal with |- Ok (_ / sqrt ?e) = _ => replace (sqrt e) with (back_len x) by (unfold back_len; f_equal; ring) end. rewrite (Rplus_comm (x 2%nat)). reflexivity.
Qed.
Print Assumptions C67_directions.

(** ** C68 *)
(** Smith's term: 1 where the view direction is the normal, otherwise
    1 / (1 + A) with mu the cotangent of the light's angle and r = mu / w *)
Theorem C68_smith_value : forall junk nY p x, length p = nY ->
  let mu := x 5%nat / sqrt (x 3%nat * x 3%nat + x 4%nat * x 4%nat) in
  value_is junk smith nY p x (fun y => if Req_EM_T (x 2%nat) 1 then 1 else
    let r := mu / nth y p 0 in
    1 / (1 + (398942280401439 / 1000000000000000 * exp (- (r ^ 2 / 2)) / r - 1 / 2 * (1 - erf (70710678118655 / 100000000000000 * r))))).
Proof.
  intros junk nY p x Hp mu. apply (value_is_of junk smith nY p x [x 2%nat; mu]); [reflexivity|cbn; lia|reflexivity|].
  intros y Hy. cbn [f_k smith]. rewrite channel1. replace (y * 1 + 0)%nat with y by lia. cbn [f_val smith]. unfold p0, p1, smith_value. cbn [nth]. cbv zeta.
  replace (- (1 / 2) * (mu / nth y p 0 * (mu / nth y p 0))) with (- ((mu / nth y p 0) ^ 2 / 2)) by (cbn [pow]; lra). reflexivity.
Qed.
Print Assumptions C68_smith_value.

(** Walter's term for two unit directions that are not opposite: 0 unless both
    are above the surface, and then the product of two factors *)
Definition walter_factor (a : R) : R :=
  if Rlt_dec a (8 / 5) then (3535 / 1000 * a + 2181 / 1000 * a ^ 2) / (1 + 2267 / 1000 * a + 2577 / 1000 * a ^ 2) else 1.
Lemma walter_factor_is a : shadow_term a = walter_factor a.
Proof.
  unfold shadow_term, walter_factor. destruct (Rlt_dec a (8 / 5)).
  - rewrite rleb_no by lra. replace ((3535 / 1000 + 2181 / 1000 * a) * a) with (3535 / 1000 * a + 2181 / 1000 * a ^ 2) by ring.
    replace ((2267 / 1000 + 2577 / 1000 * a) * a + 1) with (1 + 2267 / 1000 * a + 2577 / 1000 * a ^ 2) by ring. reflexivity.
  - rewrite rleb_true by lra. reflexivity.
Qed.
Lemma walter_visible_iff x : unit3 (x 0%nat) (x 1%nat) (x 2%nat) -> unit3 (x 3%nat) (x 4%nat) (x 5%nat) -> 1 / 1000000 <= hlen x -> x 2%nat <> 0 -> x 5%nat <> 0 ->
  walter_visible x = true <-> 0 < x 2%nat /\ 0 < x 5%nat.
Proof.
  intros A B L N2 N5. unfold unit3, walter_visible in *. cbv zeta.
  change (sqrt ((x 0%nat + x 3%nat) * (x 0%nat + x 3%nat) + (x 1%nat + x 4%nat) * (x 1%nat + x 4%nat) + (x 2%nat + x 5%nat) * (x 2%nat + x 5%nat))) with (hlen x).
  rewrite rltb_no by lra.
  assert (Q : hlen x * hlen x = 2 * (1 + lv_cos x)).
  { unfold hlen at 1 2. rewrite sqrt_sqrt; [unfold hsum, lv_cos; cbn [Nat.add]; lra|].
    pose proof (Rle_0_sqr (hsum x 0)). pose proof (Rle_0_sqr (hsum x 1)). pose proof (Rle_0_sqr (hsum x 2)). unfold Rsqr in *. lra. }
  set (len := hlen x) in *. assert (P : 0 < len) by lra. assert (K : 0 < 1 + lv_cos x) by nra. pose proof (Rinv_0_lt_compat _ P) as Pi.
  replace (x 0%nat * ((x 0%nat + x 3%nat) / len) + x 1%nat * ((x 1%nat + x 4%nat) / len) + x 2%nat * ((x 2%nat + x 5%nat) / len)) with ((1 + lv_cos x) * / len)
    by (unfold lv_cos, Rdiv; replace 1 with (x 0%nat * x 0%nat + x 1%nat * x 1%nat + x 2%nat * x 2%nat) by exact A; ring).
  replace (x 3%nat * ((x 0%nat + x 3%nat) / len) + x 4%nat * ((x 1%nat + x 4%nat) / len) + x 5%nat * ((x 2%nat + x 5%nat) / len)) with ((1 + lv_cos x) * / len)
    by (unfold lv_cos, Rdiv; replace 1 with (x 3%nat * x 3%nat + x 4%nat * x 4%nat + x 5%nat * x 5%nat) by exact B; ring).
  set (m := (1 + lv_cos x) * / len). assert (M : 0 < m) by (apply Rmult_lt_0_compat; assumption). rewrite Bool.andb_true_iff.
  assert (T : forall z, z <> 0 -> rltb 0 (m / z) = true <-> 0 < z).
  { intros z Hz. rewrite RatProofs.rltb_spec. split; intros H.
    - destruct (Rtotal_order z 0) as [N|[N|N]]; [|contradiction|exact N]. exfalso. assert (/ z < 0) by (apply Rinv_lt_0_compat, N). unfold Rdiv in H. nra.
    - apply Rdiv_lt_0_compat; assumption. }
  rewrite !T by assumption. reflexivity.
Qed.
Theorem C68_walter_value : forall junk nY p x, length p = nY ->
  unit3 (x 0%nat) (x 1%nat) (x 2%nat) -> unit3 (x 3%nat) (x 4%nat) (x 5%nat) -> 1 / 1000000 <= hlen x -> x 2%nat <> 0 -> x 5%nat <> 0 ->
  let tan z := sqrt (1 - z ^ 2) / z in
  value_is junk walter_smith nY p x (fun y => if Rlt_dec 0 (x 2%nat) then if Rlt_dec 0 (x 5%nat) then
      walter_factor (1 / (nth y p 0 * tan (x 2%nat))) * walter_factor (1 / (nth y p 0 * tan (x 5%nat))) else 0 else 0).
Proof.
  intros junk nY p x Hp A B L N2 N5 tan. apply (value_is_of junk walter_smith nY p x [if walter_visible x then 1 else 0; tangent (x 2%nat); tangent (x 5%nat)]); [reflexivity|cbn; lia|reflexivity|].
  assert (T : forall z, tangent z = tan z) by (intros z; unfold tangent, tan; do 2 f_equal; ring).
  intros y Hy. cbn [f_k walter_smith]. rewrite channel1. replace (y * 1 + 0)%nat with y by lia. cbn [f_val walter_smith]. unfold p0, p1, p2. cbn [nth]. rewrite !T, !walter_factor_is.
  pose proof (walter_visible_iff x A B L N2 N5) as V. destruct (walter_visible x).
  - destruct (proj1 V eq_refl). destruct (Rlt_dec 0 (x 2%nat)); [|contradiction]. destruct (Rlt_dec 0 (x 5%nat)); [|contradiction]. rewrite rleb_no by lra. ring.
  - rewrite rleb_true by lra. destruct (Rlt_dec 0 (x 2%nat)); [|reflexivity]. destruct (Rlt_dec 0 (x 5%nat)); [|reflexivity]. assert (false = true) by (apply V; auto). discriminate.
Qed.
Print Assumptions C68_walter_value.

(** ** C71 *)
(** If the reflectance vector of the normalized Schlick factor had its size, the
    Jacobian would be the derivative only for reflectance 1 or at normal incidence. *)
Definition normalized_sized : nlf := mkNlf (f_k normalized_schlick) (f_geo normalized_schlick) (f_val normalized_schlick) (f_jac normalized_schlick)
  (f_trans normalized_schlick) same (f_start normalized_schlick).
Theorem C71_normalized_jacobian_refuted : forall junk nY p x y, length p = nY -> (y < nY)%nat -> has_half x -> nth y p 0 <> 0 ->
  let fresnel := (1 - Rmax (Rmin (cos_vh x) 1) 0) ^ 5 in
  value_is junk normalized_sized nY p x (fun y => 1 + (1 / nth y p 0 - 1) * fresnel) /\
  (partial_exact junk normalized_sized nY p x y y <-> nth y p 0 = 1 \/ fresnel = 0).
Proof.
  intros junk nY p x y Hp Hy Hh Hr fresnel. destruct (half_of_ok x Hh) as (h & E & E0 & E1 & E2). unfold half_of in E.
  assert (Hg : dot_vh CARTESIAN x = Ok [cos_vh x]) by (unfold dot_vh; rewrite E, cartesian_itself; cbn [bind]; unfold cos_vh; rewrite <- E0, <- E1, <- E2; reflexivity).
  set (c := cos_vh x) in *. assert (G : grazing [c] = fresnel) by reflexivity.
  split.
  - apply (value_is_of junk normalized_sized nY p x [c]); [reflexivity|cbn; lia|exact Hg|].
    intros i Hi. cbn [f_k normalized_sized normalized_schlick]. rewrite channel1. replace (i * 1 + 0)%nat with i by lia. cbn [f_val normalized_sized normalized_schlick]. unfold p0 at 1. cbn [nth]. rewrite G. reflexivity.
  - pose proof (partial_iff junk normalized_sized nY p x [c] y y 0 eq_refl ltac:(cbn; lia) Hg) as P.
    change (f_k normalized_sized) with 1%nat in P. replace (y * 1 + 0)%nat with y in P by lia. rewrite P; try assumption; [|reflexivity|lia]. clear P.
    rewrite channel1. replace (y * 1 + 0)%nat with y by lia. cbn [nth upd]. set (r := nth y p 0) in *.
    assert (D : derivable_pt_lim (fun s => f_val normalized_sized [c] [s]) r (- (1 / r ^ 2) * fresnel)).
    { apply (derivable_ext (fun s => 1 + (1 / s - 1) * fresnel)); [intros s; cbn [f_val normalized_sized normalized_schlick]; unfold p0 at 1; cbn [nth]; rewrite G; reflexivity|].
      apply is_derive_Reals. auto_derive; [exact Hr|field; exact Hr]. }
    assert (W : forall A B : Prop, (A <-> B) -> ((y = y -> A) <-> B)) by tauto. apply W.
    rewrite (exact_iff _ _ _ _ D). change (f_jac normalized_sized [c] [r] 0) with (- (1 / r) * grazing [c]). rewrite G. split; [intros H|intros [H|H]].
    + destruct (Req_dec fresnel 0) as [|Nf]; [right; assumption|left]. apply Rmult_eq_reg_r in H; [|exact Nf]. apply (f_equal (fun z => - (z * r ^ 2))) in H.
      replace (- (- (1 / r) * r ^ 2)) with r in H by (field; exact Hr). replace (- (- (1 / r ^ 2) * r ^ 2)) with 1 in H by (field; exact Hr). lra.
    + rewrite H. field.
    + rewrite H. ring.
Qed.
Print Assumptions C71_normalized_jacobian_refuted.

(** ** Cases *)
(** view (0, 3/5, 4/5), light along the normal *)
Definition tilted : mem := fun i => nth i [0; 3 / 5; 4 / 5; 0; 0; 1] 0.
Lemma tilted_len : hlen tilted * hlen tilted = 18 / 5 /\ 0 < hlen tilted.
Proof. unfold hlen, hsum, tilted. cbn [nth Nat.add]. split; [rewrite sqrt_sqrt; lra|apply sqrt_lt_R0; lra]. Qed.
Example tilted_directions : directions tilted /\ 1 / 1000000 <= hlen tilted /\ tilted 2%nat <> 0 /\ tilted 5%nat <> 0 /\ mirror_cos tilted = 4 / 5.
Proof.
  destruct tilted_len as [A B]. split; [split; [unfold unit3, tilted; cbn; lra|split; [unfold unit3, tilted; cbn; lra|split; [exact B|unfold hsum, tilted; cbn; lra]]]|].
  split; [nra|]. unfold mirror_cos, tilted. cbn [nth]. repeat split; lra.
Qed.
(** a light along the normal is seen by the mirror lobe under the cosine 4/5 *)
Example gaussian_case : component (value_at 0 (spherical_gaussian Mirror) 1 [2; 5] tilted) 0 = 2 * exp (5 * (4 / 5 - 1)).
Proof.
  destruct tilted_directions as (D & _ & _ & _ & M). destruct (C67_directions 0 Mirror 1 [2; 5] tilted eq_refl D) as (v & E & _ & N). rewrite E. cbn [component].
  rewrite N by lia. unfold par. cbn [f_k spherical_gaussian nth Nat.mul Nat.add gaussian_cos]. rewrite M. reflexivity.
Qed.
Example normalized_case : ~ partial_exact 0 normalized_sized 1 [1 / 2] tilted 0 0.
Proof.
  destruct tilted_directions as ((A & B & Hh) & _). intros P. apply C71_normalized_jacobian_refuted in P; [|reflexivity|lia|exact Hh|cbn; lra].
  destruct tilted_len as [Q L]. destruct P as [P|P]; [cbn in P; lra|]. rewrite cos_vh_half in P by assumption.
  set (l := hlen tilted) in *. assert (l < 2) by nra. rewrite Rmin_left, Rmax_left in P by lra. revert P. apply pow_nonzero. lra.
Qed.

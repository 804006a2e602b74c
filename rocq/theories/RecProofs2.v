(** Exchanging the two directions: the plugins that are symmetric for directions of
    the same length, the lobes of Lafortune, SGD, and those that are not. *)
From Coq Require Import Reals List Lia Lra FunctionalExtensionality Bool.
From Verif Require Import Base ParamsModel GeoModel TextModel FuncModel FuncSpec CommonModel NlModel NlSpec NlProofs NlGrad NlMoreModel NlMoreSpec NlMoreProofs NlSgd LafModel GlslValueSpec GlslValue RecSpec RecProofs.
Open Scope R_scope.

Lemma six_copy junk y i : (i < 6)%nat -> copy 6 y (fun _ => junk) i = y i.
Proof. intros Hi. unfold copy. destruct (Nat.ltb_spec i 6); [reflexivity|lia]. Qed.

(** Schlick's factors *)
Lemma dot_vh_swap x : 0 < hlen x -> same_length x -> dot_vh CARTESIAN (swap x) = dot_vh CARTESIAN x.
Proof.
  intros Hl Hs. unfold dot_vh. rewrite (convert_swap RUSIN_VH) by exact I.
  unfold convert at 1 3. cbn [input_eqb]. unfold from_cartesian. rewrite (half_vector_ok x Hl).
  destruct (Rle_dec (halfway x 2) 1); [|reflexivity]. destruct (Rle_dec 0 (halfway x 2)); [|reflexivity].
  unfold from_cartesian_writes. rewrite (half_vector_ok x Hl). cbn [bind]. unfold convert. cbn [input_eqb bind].
  pose proof (half_dot_swap x Hl Hs) as D. unfold cos_vh in D. rewrite !halfway_swap in D by lia.
  unfold swap in *; cbn -[halfway Rmult Rplus] in *. change (Pos.to_nat 6) with 6%nat. unfold copy. cbn -[halfway Rmult Rplus]. rewrite D. reflexivity.
Qed.
Lemma schlick_swap junk nY p x : 0 < hlen x -> same_length x -> forall F, In F reciprocal_unit ->
  seen junk F CARTESIAN nY p (swap x) = seen junk F CARTESIAN nY p x.
Proof.
  intros Hl Hs F [<-|[<-|[]]]; rewrite !seen_cartesian; apply value_geo; exact (dot_vh_swap x Hl Hs).
Qed.

(** Schlick's factor of the mirrored direction *)
Lemma vk_ok x : directions x -> / 10 ^ 10 < vk_norm x ->
  f_geo retro_schlick x = Ok [(1 + mirror_cos x) / vk_norm x].
Proof.
  intros (A & B & Hh) Hn. cbn [f_geo retro_schlick]. unfold convert. cbn [input_eqb]. rewrite from_cartesian_ok by exact Hh.
  assert (W : from_cartesian_writes SCHLICK_VK x =
    if Rlt_dec (/ 10 ^ 10) (vk_norm x) then Some [(0%nat, (x 3%nat - x 0%nat) / vk_norm x); (1%nat, (x 4%nat - x 1%nat) / vk_norm x); (2%nat, (x 5%nat + x 2%nat) / vk_norm x)]
    else Some [(0%nat, 0); (1%nat, 0); (2%nat, 1)]).
  { unfold from_cartesian_writes. destruct (half_vector x) as [[? ?] ?]. reflexivity. }
  rewrite W. destruct (Rlt_dec _ (vk_norm x)); [|contradiction]. cbn [bind]. cbn -[vk_norm Rmult Rdiv]. f_equal. f_equal.
  unfold mirror_cos. unfold unit3 in A.
  assert (P : 0 < vk_norm x). { apply Rlt_trans with (/ 10 ^ 10); [apply Rinv_0_lt_compat, pow_lt; lra|exact Hn]. }
  apply (Rmult_eq_reg_r (vk_norm x)); [|lra].
  transitivity (1 + (- x 3%nat * x 0%nat - x 4%nat * x 1%nat + x 5%nat * x 2%nat)); [|field; lra].
  transitivity ((x 5%nat + x 2%nat) * x 2%nat - ((x 3%nat - x 0%nat) * x 0%nat + (x 4%nat - x 1%nat) * x 1%nat)); [|lra].
  change (Pos.to_nat 6) with 6%nat. unfold copy. cbn -[vk_norm Rmult Rdiv]. field. lra.
Qed.
Lemma directions_swap x : directions x -> directions (swap x).
Proof.
  intros (A & B & Hh). split; [exact B|]. split; [exact A|]. destruct Hh as [H1 H2]. split; [rewrite hlen_swap; exact H1|rewrite hsum_swap by lia; exact H2].
Qed.
Lemma mirror_cos_swap x : mirror_cos (swap x) = mirror_cos x.
Proof. unfold mirror_cos, swap. cbn [Nat.add Nat.sub]. ring. Qed.
Lemma retro_schlick_swap junk nY p x : directions x -> / 10 ^ 10 < vk_norm x ->
  seen junk retro_schlick CARTESIAN nY p (swap x) = seen junk retro_schlick CARTESIAN nY p x.
Proof.
  intros D Hn. rewrite !seen_cartesian. apply value_geo.
  assert (C : forall y, f_geo retro_schlick (copy 6 y (fun _ => junk)) = f_geo retro_schlick y).
  { intros y. reflexivity. }
  rewrite !C, (vk_ok x D Hn). rewrite vk_ok by (rewrite ?vk_norm_swap; auto using directions_swap). rewrite mirror_cos_swap, vk_norm_swap. reflexivity.
Qed.

(** mirror lobes *)
Lemma mirror_swap junk t nY p x : t = Mirror \/ t = Retro -> directions x ->
  seen junk (spherical_gaussian t) CARTESIAN nY p (swap x) = seen junk (spherical_gaussian t) CARTESIAN nY p x.
Proof.
  intros Ht D. rewrite !seen_cartesian. apply value_geo. cbn [f_geo spherical_gaussian].
  assert (C : forall y, sg_dot t (copy 6 y (fun _ => junk)) = sg_dot t y) by (intros y; destruct Ht as [->| ->]; reflexivity).
  rewrite !C, (mirror_dot t x Ht D), (mirror_dot t (swap x) Ht (directions_swap x D)), mirror_cos_swap. reflexivity.
Qed.

(** lobes of Lafortune *)
Lemma lobe_dot_swap x cx cz : lobe_dot (swap x) cx cz = lobe_dot x cx cz.
Proof. unfold lobe_dot, swap. cbn [Nat.add Nat.sub]. ring. Qed.
Lemma laf_value_swap junk nY s x : laf_value junk nY s (swap x) = laf_value junk nY s x.
Proof.
  unfold laf_value. f_equal. apply functional_extensionality. intros i. apply functional_extensionality. intros res.
  destruct (wr res i 0); try reflexivity. cbn [bind]. f_equal. apply functional_extensionality. intros n. apply functional_extensionality. intros r.
  destruct (current_lobe nY s n i) as [[[cx cz] e]| | |]; try reflexivity. cbn [bind]. rewrite lobe_dot_swap. reflexivity.
Qed.
Lemma avalue_swap junk nY s x : avalue junk nY s (swap x) = avalue junk nY s x.
Proof.
  unfold avalue. unfold swap. cbn [Nat.add Nat.sub]. rewrite (Rmult_comm (x 3%nat)), (Rmult_comm (x 4%nat)), (Rmult_comm (x 5%nat)). reflexivity.
Qed.

(** SGD *)
Lemma sgd_lobe_swap junk x c : 0 < hlen x -> same_length x -> sgd_lobe junk (swap x) c = sgd_lobe junk x c.
Proof.
  intros Hl Hs. pose proof (half_dot_swap x Hl Hs) as D. unfold cos_vh in D. rewrite !halfway_swap in D by lia. unfold halfway in D.
  unfold sgd_lobe. rewrite hlen_swap, !hsum_swap by lia.
  assert (E : swap x 3%nat * (hsum x 0 / hlen x) + swap x 4%nat * (hsum x 1 / hlen x) + swap x 5%nat * (hsum x 2 / hlen x) =
    x 3%nat * (hsum x 0 / hlen x) + x 4%nat * (hsum x 1 / hlen x) + x 5%nat * (hsum x 2 / hlen x)).
  { unfold swap in *. cbn [Nat.add Nat.sub] in *. lra. }
  cbv zeta. rewrite E. change (swap x 2%nat) with (x 5%nat). change (swap x 5%nat) with (x 2%nat).
  set (m2 := sgd_masking junk _ _ _ _ (x 2%nat)). set (m5 := sgd_masking junk _ _ _ _ (x 5%nat)). ring.
Qed.
Lemma sgd_swap junk nY p x : length p = (11 * nY)%nat -> 0 < hlen x -> same_length x -> (x 2%nat < 0 <-> x 5%nat < 0) ->
  sgd_value_at junk nY p (swap x) = sgd_value_at junk nY p x.
Proof.
  intros Hp Hl Hs Hb. destruct (sgd_value_ok junk nY p x Hp) as (v & E & Lv & V). destruct (sgd_value_ok junk nY p (swap x) Hp) as (w & E' & Lw & W).
  rewrite E, E'. f_equal. apply (nth_ext _ _ 0 0); [lia|]. intros y Hy. rewrite V, W by lia. rewrite sgd_lobe_swap by assumption.
  change (swap x 2%nat) with (x 5%nat). destruct (Rlt_dec (x 5%nat) 0), (Rlt_dec (x 2%nat) 0); tauto || reflexivity.
Qed.

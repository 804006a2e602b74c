(** Exchanging the two directions. *)
From Coq Require Import Reals List Lia Lra FunctionalExtensionality Bool.
From Verif Require Import Base ParamsModel GeoModel FuncModel FuncSpec NlModel NlSpec NlProofs NlGrad NlMoreModel NlMoreSpec CommonModel TextModel RecSpec.
Open Scope R_scope.

Lemma swap_twice x : forall i, swap (swap x) i = x i.
Proof. intros [|[|[|[|[|[|i]]]]]]; reflexivity. Qed.

Lemma half_swap x : half_vector (swap x) = half_vector x.
Proof. unfold half_vector, swap. cbn [Nat.add Nat.sub]. rewrite (Rplus_comm (x 3%nat)), (Rplus_comm (x 4%nat)), (Rplus_comm (x 5%nat)). reflexivity. Qed.
Lemma hlen_swap x : hlen (swap x) = hlen x.
Proof. unfold hlen, hsum, swap. cbn [Nat.add Nat.sub]. rewrite (Rplus_comm (x 3%nat)), (Rplus_comm (x 4%nat)), (Rplus_comm (x 5%nat)). reflexivity. Qed.
Lemma hsum_swap x i : (i < 3)%nat -> hsum (swap x) i = hsum x i.
Proof. intros H. unfold hsum, swap. destruct i as [|[|[|i]]]; try lia; cbn [Nat.add Nat.sub]; apply Rplus_comm. Qed.
Lemma halfway_swap x i : (i < 3)%nat -> halfway (swap x) i = halfway x i.
Proof. intros H. unfold halfway. rewrite hlen_swap, hsum_swap by exact H. reflexivity. Qed.

Lemma one_eq (a b : R) : a = b -> Some [(0%nat, a)] = Some [(0%nat, b)].
Proof. intros ->. reflexivity. Qed.
Lemma two_eq (a b c d : R) : a = b -> c = d -> Some [(0%nat, a); (1%nat, c)] = Some [(0%nat, b); (1%nat, d)].
Proof. intros -> ->. reflexivity. Qed.
Lemma writes_swap q x : even_handed q -> from_cartesian_writes q (swap x) = from_cartesian_writes q x.
Proof.
  intros H. unfold from_cartesian_writes. rewrite half_swap. destruct (half_vector x) as [[h0 h1] h2].
  destruct q; try destruct H; try reflexivity; unfold swap; cbn [Nat.add Nat.sub]; first [apply one_eq|apply two_eq]; try ring;
    try (apply (f_equal sqrt); ring).
  apply (f_equal2 Rdiv); [ring|apply (f_equal sqrt); ring].
Qed.
Lemma convert_swap q x out : even_handed q -> convert (swap x) CARTESIAN q out = convert x CARTESIAN q out.
Proof.
  intros H. unfold convert. destruct q; try destruct H; cbn [input_eqb]; unfold from_cartesian;
    rewrite half_swap; destruct (half_vector x) as [[h0 h1] h2]; rewrite writes_swap; try exact I; reflexivity.
Qed.

Lemma half_dot_swap x : 0 < hlen x -> same_length x -> cos_vh (swap x) = cos_vh x.
Proof.
  intros Hl H. unfold cos_vh. rewrite !halfway_swap by lia. unfold halfway, hsum, same_length in *. unfold swap. cbn [Nat.add Nat.sub].
  apply (Rmult_eq_reg_r (hlen x)); [|lra].
  transitivity ((x 0%nat + x 3%nat) * x 3%nat + (x 1%nat + x 4%nat) * x 4%nat + (x 2%nat + x 5%nat) * x 5%nat); [field; lra|].
  transitivity ((x 0%nat + x 3%nat) * x 0%nat + (x 1%nat + x 4%nat) * x 1%nat + (x 2%nat + x 5%nat) * x 2%nat); [lra|field; lra].
Qed.
Lemma hlen_pos x : 0 < hlen x -> exists h, half_vector x = (halfway x 0, halfway x 1, halfway x 2) /\ h = hlen x.
Proof. intros H. exists (hlen x). split; [apply half_vector_ok, H|reflexivity]. Qed.
Lemma three_eq (a b c d e f : R) : a = b -> c = d -> e = f -> Some [(0%nat, a); (1%nat, c); (2%nat, e)] = Some [(0%nat, b); (1%nat, d); (2%nat, f)].
Proof. intros -> -> ->. reflexivity. Qed.
Lemma writes_swap_unit q x : even_handed_unit q -> 0 < hlen x -> same_length x -> from_cartesian_writes q (swap x) = from_cartesian_writes q x.
Proof.
  intros H Hl Hs. pose proof (half_dot_swap x Hl Hs) as D. unfold cos_vh in D. rewrite !halfway_swap in D by lia.
  unfold from_cartesian_writes. rewrite half_swap, (half_vector_ok x Hl).
  destruct q; try destruct H; first [apply two_eq|apply three_eq]; try reflexivity; rewrite D; reflexivity.
Qed.
Lemma convert_swap_unit q x out : even_handed_unit q -> 0 < hlen x -> same_length x -> convert (swap x) CARTESIAN q out = convert x CARTESIAN q out.
Proof.
  intros H Hl Hs. unfold convert. destruct q; try destruct H; cbn [input_eqb]; unfold from_cartesian;
    rewrite half_swap; destruct (half_vector x) as [[h0 h1] h2]; rewrite writes_swap_unit; try exact I; try assumption; reflexivity.
Qed.

(** ** Values *)
Lemma value_geo junk F nY p x x' : f_geo F x = f_geo F x' -> value_at junk F nY p x = value_at junk F nY p x'.
Proof. intros H. unfold value_at. destruct (set_params F nY p (members junk F nY)); try reflexivity. cbn [bind]. unfold value. rewrite H. reflexivity. Qed.
Lemma value_geo2 junk F nY p x x' g g' : f_geo F x = Ok g -> f_geo F x' = Ok g' -> (forall c, f_val F g c = f_val F g' c) ->
  value_at junk F nY p x = value_at junk F nY p x'.
Proof.
  intros H H' E. assert (E' : f_val F g = f_val F g') by (apply functional_extensionality; exact E).
  unfold value_at. destruct (set_params F nY p (members junk F nY)); try reflexivity. cbn [bind]. unfold value. rewrite H, H'. cbn [bind]. rewrite E'. reflexivity.
Qed.

Lemma walter_visible_swap x : walter_visible (swap x) = walter_visible x.
Proof.
  unfold walter_visible. unfold swap. cbn [Nat.add Nat.sub].
  rewrite (Rplus_comm (x 3%nat)), (Rplus_comm (x 4%nat)), (Rplus_comm (x 5%nat)). destruct (rltb _ (1 / 1000000)); apply andb_comm.
Qed.

Lemma copy_swap x (out : mem) : forall i, (i < 6)%nat -> copy 6 (swap x) out i = swap (copy 6 x out) i.
Proof. intros [|[|[|[|[|[|i]]]]]] H; reflexivity. Qed.
(** what these plugins look at *)
Lemma seen_cartesian junk F nY p x : seen junk F CARTESIAN nY p x = value_at junk F nY p (copy 6 x (fun _ => junk)).
Proof. reflexivity. Qed.

Lemma half_vector_ext x x' : (forall i, (i < 6)%nat -> x i = x' i) -> half_vector x = half_vector x'.
Proof. intros H. unfold half_vector. rewrite !H by lia. reflexivity. Qed.

(** the vector between the second direction and the first one mirrored *)
Definition vk_norm (x : mem) : R := sqrt ((x 3%nat - x 0%nat) * (x 3%nat - x 0%nat) + (x 4%nat - x 1%nat) * (x 4%nat - x 1%nat) + (x 5%nat + x 2%nat) * (x 5%nat + x 2%nat)).
Lemma vk_norm_swap x : vk_norm (swap x) = vk_norm x.
Proof. unfold vk_norm, swap. cbn [Nat.add Nat.sub]. f_equal. ring. Qed.
Lemma back_swap x : f_geo (retrobeckmann true) (swap x) = f_geo (retrobeckmann true) x.
Proof.
  cbn [f_geo retrobeckmann]. unfold convert. cbn [input_eqb]. unfold from_cartesian. rewrite half_swap.
  destruct (half_vector x) as [[h0 h1] h2] eqn:E. destruct (Rle_dec h2 1); [|reflexivity]. destruct (Rle_dec 0 h2); [|reflexivity].
  assert (W : forall y, half_vector y = (h0, h1, h2) -> from_cartesian_writes SCHLICK_VK y =
    if Rlt_dec (/ 10 ^ 10) (vk_norm y) then Some [(0%nat, (y 3%nat - y 0%nat) / vk_norm y); (1%nat, (y 4%nat - y 1%nat) / vk_norm y); (2%nat, (y 5%nat + y 2%nat) / vk_norm y)]
    else Some [(0%nat, 0); (1%nat, 0); (2%nat, 1)]).
  { intros y Hy. unfold from_cartesian_writes. rewrite Hy. reflexivity. }
  rewrite (W x E). rewrite (W (swap x)) by (rewrite half_swap; exact E). rewrite vk_norm_swap.
  destruct (Rlt_dec _ (vk_norm x)); [|reflexivity]. unfold assign. cbn. rewrite (Rplus_comm (x 5%nat)). reflexivity.
Qed.

Lemma reciprocal_ok junk jp nY p x : forall F ip, In (F, ip) (reciprocal jp) -> seen junk F ip nY p (swap x) = seen junk F ip nY p x.
Proof.
  intros F ip H. unfold reciprocal in H. apply in_app_iff in H. destruct H as [[E|[]]|H].
  { injection E as <- <-. unfold seen. rewrite convert_swap by exact I. reflexivity. }
  apply in_app_iff in H. destruct H as [H|H].
  { apply in_map_iff in H. destruct H as (q & E & Hq). injection E as <- <-. unfold seen. rewrite convert_swap; [reflexivity|].
    destruct Hq as [<-|[<-|[<-|[<-|[]]]]]; exact I. }
  apply in_app_iff in H. destruct H as [H|H].
  { apply in_map_iff in H. destruct H as (q & E & Hq). injection E as <- <-. unfold seen. rewrite convert_swap; [reflexivity|].
    destruct Hq as [<-|[<-|[<-|[<-|[]]]]]; exact I. }
  assert (W : forall F, f_geo F (swap x) = f_geo F x -> value_at junk F nY p (copy 6 x (fun _ => junk)) = value_at junk F nY p x ->
    value_at junk F nY p (copy 6 (swap x) (fun _ => junk)) = value_at junk F nY p (swap x) ->
    seen junk F CARTESIAN nY p (swap x) = seen junk F CARTESIAN nY p x).
  { intros G Hg E1 E2. rewrite !seen_cartesian, E1, E2. apply value_geo, Hg. }
  assert (C : forall y i, (i < 6)%nat -> copy 6 y (fun _ => junk) i = y i) by (intros y i Hi; unfold copy; destruct (Nat.ltb_spec i 6); [reflexivity|lia]).
  assert (Hc : forall y q out, even_handed q -> convert (copy 6 y (fun _ => junk)) CARTESIAN q out = convert y CARTESIAN q out).
  { intros y q out Hq. unfold convert. destruct q; try destruct Hq; reflexivity. }
  destruct H as [E|[E|[E|[E|[E|[E|[E|[]]]]]]]]; injection E as <- <-.
  - apply W; [|apply value_geo|apply value_geo]; cbn [f_geo beckmann]; unfold half_of; rewrite ?Hc by exact I; [rewrite (convert_swap RUSIN_VH) by exact I| |];
      (destruct (convert _ CARTESIAN RUSIN_VH _); try reflexivity); cbn [bind]; rewrite ?C by lia; try reflexivity. unfold swap. cbn [Nat.add Nat.sub]. rewrite Rmult_comm. reflexivity.
  - apply W; [|apply value_geo|apply value_geo]; cbn [f_geo ward]; unfold half_of; rewrite ?Hc by exact I; [rewrite (convert_swap RUSIN_VH) by exact I| |];
      (destruct (convert _ CARTESIAN RUSIN_VH _); try reflexivity); cbn [bind]; rewrite ?C by lia; try reflexivity. unfold swap. cbn [Nat.add Nat.sub]. rewrite (Rmult_comm (x 5%nat)). reflexivity.
  - apply W; [exact (back_swap x)|apply value_geo|apply value_geo]; reflexivity.
  - apply W; [|apply value_geo|apply value_geo]; cbn [f_geo spherical_gaussian sg_dot]; rewrite ?Hc by exact I; [rewrite (convert_swap COS_TH) by exact I| |]; reflexivity.
  - apply W; [|apply value_geo|apply value_geo]; cbn [f_geo spherical_gaussian sg_dot]; rewrite ?Hc by exact I; [rewrite (convert_swap COS_TK) by exact I| |]; reflexivity.
  - rewrite !seen_cartesian. eapply value_geo2; [reflexivity|reflexivity|]. intros c. cbn [f_val shadowing_schlick]. unfold p0, p1. cbn [nth]. rewrite !C by lia.
    unfold swap. cbn [Nat.add Nat.sub]. apply Rmult_comm.
  - rewrite !seen_cartesian. eapply value_geo2; [reflexivity|reflexivity|]. intros c. cbn [f_val walter_smith]. unfold p0, p1, p2. cbn [nth].
    assert (V : forall y, walter_visible (copy 6 y (fun _ => junk)) = walter_visible y) by (intros y; unfold walter_visible; rewrite !C by lia; reflexivity).
    rewrite !V, walter_visible_swap, !C by lia. unfold swap. cbn [Nat.add Nat.sub]. destruct (rleb _ 0); [reflexivity|apply Rmult_comm].
Qed.

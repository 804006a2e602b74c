(** Ranges of the values. *)
From Coq Require Import Reals List Lia Lra.
From Coquelicot Require Import Coquelicot.
From Verif Require Import Base ParamsModel GeoModel TextModel FuncModel FuncSpec CommonModel NlModel NlSpec NlProofs NlGrad NlGrad2 NlGrad5 NlMoreModel NlMoreSpec GlslValueSpec GlslValue RecPi RecGauss RecSpec RecProofs RecProofs2.
Open Scope R_scope.

(** ** Smith *)
Lemma smith_constants : 1 / (2 * sqrt PI * c2) <= c1.
Proof.
  pose proof (sqrt_lt_R0 _ PI_RGT_0) as Hp.
  assert (S : 1 / (2 * c1 * c2) <= sqrt PI).
  { rewrite <- (sqrt_square (1 / (2 * c1 * c2))).
    - apply sqrt_le_1_alt. apply Rle_trans with (314159265358968 / 100000000000000); [unfold c1, c2; lra|exact pi_digits].
    - unfold c1, c2. lra. }
  apply (Rmult_le_reg_r (2 * sqrt PI * c2)); [unfold c2; lra|]. unfold Rdiv at 1. rewrite Rmult_assoc, Rinv_l by (unfold c2; lra).
  replace (c1 * (2 * sqrt PI * c2)) with ((2 * c1 * c2) * sqrt PI) by ring.
  apply Rle_trans with ((2 * c1 * c2) * (1 / (2 * c1 * c2))).
  - right. field. split; unfold c1, c2; lra.
  - apply Rmult_le_compat_l; [unfold c1, c2; lra|exact S].
Qed.
Lemma smithA_pos r : 0 < r -> 0 < smithA r.
Proof.
  intros Hr. pose proof (sqrt_lt_R0 _ PI_RGT_0) as Hp. assert (C : 0 < c2) by (unfold c2; lra).
  pose proof (mills_pos (c2 * r) (Rmult_lt_0_compat _ _ C Hr)) as M. unfold mills in M. unfold smithA.
  assert (E : exp (- (c2 * r * (c2 * r))) <= exp (- (1 / 2) * (r * r))).
  { destruct (Rle_lt_or_eq_dec (- (c2 * r * (c2 * r))) (- (1 / 2) * (r * r))) as [L|L]; [|left; apply exp_increasing, L|rewrite L; lra].
    assert (1 / 2 <= c2 * c2) by (unfold c2; lra). assert (0 < r * r) by nra. replace (c2 * r * (c2 * r)) with (c2 * c2 * (r * r)) by ring. nra. }
  assert (B : exp (- (c2 * r * (c2 * r))) / (2 * sqrt PI * (c2 * r)) <= c1 * exp (- (1 / 2) * (r * r)) / r).
  { replace (exp (- (c2 * r * (c2 * r))) / (2 * sqrt PI * (c2 * r))) with ((1 / (2 * sqrt PI * c2)) * exp (- (c2 * r * (c2 * r))) / r) by (field; lra).
    unfold Rdiv at 1 3. apply Rmult_le_compat_r; [left; apply Rinv_0_lt_compat, Hr|].
    apply Rmult_le_compat; [left; apply Rdiv_lt_0_compat; [lra|apply Rmult_lt_0_compat; lra]|left; apply exp_pos|apply smith_constants|exact E]. }
  lra.
Qed.
Lemma erf_neg x : x <= 0 -> erf x <= 0.
Proof.
  intros Hx. unfold erf. pose proof (sqrt_lt_R0 _ PI_RGT_0) as Hp.
  assert (X : ex_RInt (fun t => exp (- (t * t))) x 0) by (apply (ex_RInt_continuous (fun t => exp (- (t * t)))); intros z _; apply gauss_cont).
  pose proof (RInt_ge_0 (fun t => exp (- (t * t))) x 0 Hx X) as P. rewrite <- (opp_RInt_swap _ _ _ X). change (opp ?a) with (- a).
  assert (0 < 2 / sqrt PI) by (apply Rdiv_lt_0_compat; lra). assert (0 <= RInt (fun t => exp (- (t * t))) x 0) by (apply P; intros; left; apply exp_pos). nra.
Qed.
Lemma smithA_below r : r < 0 -> smithA r < 0.
Proof.
  intros Hr. unfold smithA. assert (E : erf (c2 * r) <= 0) by (apply erf_neg; unfold c2; lra).
  assert (c1 * exp (- (1 / 2) * (r * r)) / r < 0).
  { assert (0 < c1 * exp (- (1 / 2) * (r * r))) by (apply Rmult_lt_0_compat; [unfold c1; lra|apply exp_pos]). pose proof (Rinv_lt_0_compat r Hr). unfold Rdiv. nra. }
  lra.
Qed.

(** ** Lobes *)
Lemma rdiv_nonneg a b : 0 <= a -> 0 <= b -> 0 <= a / b.
Proof.
  intros Ha Hb. destruct (Req_dec b 0) as [->|N].
  - unfold Rdiv. rewrite Rinv_0. lra.
  - apply Rmult_le_pos; [exact Ha|]. left. apply Rinv_0_lt_compat. lra.
Qed.
Lemma beckmann_nonneg d c : 0 <= nth 0 c 0 -> 0 <= beckmann_value d c.
Proof.
  intros H. unfold beckmann_value, p0, p1. apply Rmult_le_pos; [|left; apply exp_pos]. apply rdiv_nonneg; [exact H|].
  pose proof PI_RGT_0. pose proof (Rle_0_sqr (nth 1 c 0)) as A. pose proof (Rle_0_sqr (d * d)) as B. unfold Rsqr in *.
  replace (4 * PI * (nth 1 c 0 * nth 1 c 0) * (d * d) * (d * d)) with (4 * PI * ((nth 1 c 0 * nth 1 c 0) * (d * d * (d * d)))) by ring.
  apply Rmult_le_pos; [lra|apply Rmult_le_pos; assumption].
Qed.
Lemma lobe_channel jp F g c : 0 <= jp -> In F (lobe_plugins jp) -> 0 <= nth 0 c 0 -> (forall l, (1 <= l < f_k F)%nat -> 0 < nth l c 0) -> 0 <= f_val F g c.
Proof.
  intros Hj H H0 Hl. assert (RP : forall a b, 0 <= Rpower a b) by (intros; left; apply exp_pos).
  destruct H as [<-|[<-|[<-|[<-|[<-|[<-|[<-|H]]]]]]].
  - cbn [f_val blinn]. destruct (rltb _ _); [|lra]. apply Rmult_le_pos; [exact H0|apply RP].
  - cbn [f_val retroblinn]. destruct (rltb 0 _); [apply Rmult_le_pos; [exact H0|apply RP]|]. destruct (rltb _ 0); [lra|]. apply Rmult_le_pos; assumption.
  - cbn [f_val abc]. cbv zeta. destruct (andb _ _); [|lra]. apply rdiv_nonneg; [exact H0|apply RP].
  - cbn [f_val beckmann]. destruct (andb _ _); [|lra]. apply beckmann_nonneg, H0.
  - cbn [f_val retrobeckmann]. destruct (rltb _ _); [|lra]. apply beckmann_nonneg, H0.
  - cbn [f_val retrobeckmann]. destruct (rltb _ _); [|lra]. apply beckmann_nonneg, H0.
  - cbn [f_val ward]. cbv zeta. destruct (rltb _ _); [|lra]. apply Rmult_le_pos; [|left; apply exp_pos]. apply rdiv_nonneg; [exact H0|].
    pose proof (Hl 1%nat ltac:(cbn; lia)). pose proof (Hl 2%nat ltac:(cbn; lia)). unfold p1, p2. pose proof PI_RGT_0. pose proof (sqrt_pos (nth 3 g 0)).
    apply Rmult_le_pos; [|assumption]. apply Rmult_le_pos; [|lra]. apply Rmult_le_pos; lra.
  - assert (E : exists t, F = spherical_gaussian t) by (destruct H as [<-|[<-|[<-|[<-|[]]]]]; eauto). destruct E as (t & ->).
    cbn [f_val spherical_gaussian]. apply Rmult_le_pos; [exact H0|left; apply exp_pos].
Qed.
Lemma lobe_sizes jp F nY : In F (lobe_plugins jp) -> f_sizes F nY = nY.
Proof. intros H. repeat (destruct H as [<-|H]; [reflexivity|]). destruct H. Qed.
Lemma channel_nth k p y l : (l < k)%nat -> nth l (channel k p y) 0 = nth (y * k + l) p 0.
Proof.
  intros H. unfold channel. rewrite map_nth_len by exact H. reflexivity.
Qed.
Lemma value_some_geo junk F nY p x v : value_at junk F nY p x = Ok v -> exists g, f_geo F x = Ok g.
Proof.
  unfold value_at. destruct (set_params _ _ _ _); try discriminate. cbn [bind]. unfold value. destruct (f_geo F x) as [g| | |]; try discriminate. eauto.
Qed.
Lemma lobe_nonneg junk jp F nY p x v : 0 <= jp -> In F (lobe_plugins jp) -> length p = (f_k F * nY)%nat -> proper F nY p ->
  value_at junk F nY p x = Ok v -> length v = nY /\ forall y, (y < nY)%nat -> 0 <= nth y v 0.
Proof.
  intros Hj HF Hp Pr Hv. destruct (value_some_geo _ _ _ _ _ _ Hv) as (g & Hg).
  rewrite (value_at_ok junk F nY p (lobe_sizes jp F nY HF) Hp x g Hg) in Hv. apply Ok_inj in Hv. subst v.
  split; [rewrite map_length; apply seq_length|]. intros y Hy. rewrite map_nth_len by exact Hy.
  destruct (Pr y Hy) as [A B]. assert (K : (0 < f_k F)%nat) by (revert HF; clear; intros H; repeat (destruct H as [<-|H]; [cbn; lia|]); destruct H).
  apply (lobe_channel jp F); [exact Hj|exact HF| |].
  - rewrite channel_nth by exact K. exact A.
  - intros l Hl. rewrite channel_nth by lia. apply B, Hl.
Qed.

(** ** Upper bounds *)
Lemma rpower_le_1 a b : 0 < a <= 1 -> 0 <= b -> Rpower a b <= 1.
Proof.
  intros [Ha H1] Hb. unfold Rpower. rewrite <- exp_0. assert (L : ln a <= 0) by (rewrite <- ln_1; destruct H1 as [H1| ->]; [left; apply ln_increasing; assumption|lra]).
  destruct (Rle_lt_or_eq_dec (b * ln a) 0) as [Q|Q]; [nra|left; apply exp_increasing, Q|rewrite Q; lra].
Qed.
Lemma rpower_ge_1 a b : 1 <= a -> 0 <= b -> 1 <= Rpower a b.
Proof.
  intros H1 Hb. unfold Rpower. rewrite <- exp_0. assert (L : 0 <= ln a) by (rewrite <- ln_1; destruct H1 as [H1| <-]; [left; apply ln_increasing; lra|lra]).
  destruct (Rle_lt_or_eq_dec 0 (b * ln a)) as [Q|Q]; [nra|left; apply exp_increasing, Q|rewrite <- Q; lra].
Qed.

(** ** Fresnel factors *)
Lemma mirror_le x : directions x -> -1 <= mirror_cos x <= 1 /\ vk_norm x * vk_norm x = 2 * (1 + mirror_cos x).
Proof.
  intros (A & B & _). unfold unit3, mirror_cos in *.
  assert (N : vk_norm x * vk_norm x = 2 * (1 + (- x 3%nat * x 0%nat - x 4%nat * x 1%nat + x 5%nat * x 2%nat))).
  { unfold vk_norm. rewrite sqrt_sqrt; [lra|]. pose proof (Rle_0_sqr (x 3%nat - x 0%nat)). pose proof (Rle_0_sqr (x 4%nat - x 1%nat)). pose proof (Rle_0_sqr (x 5%nat + x 2%nat)). unfold Rsqr in *. lra. }
  split; [|exact N].
  pose proof (Rle_0_sqr (x 3%nat - x 0%nat)). pose proof (Rle_0_sqr (x 4%nat - x 1%nat)). pose proof (Rle_0_sqr (x 5%nat + x 2%nat)).
  pose proof (Rle_0_sqr (x 3%nat + x 0%nat)). pose proof (Rle_0_sqr (x 4%nat + x 1%nat)). pose proof (Rle_0_sqr (x 5%nat - x 2%nat)). unfold Rsqr in *. lra.
Qed.
Lemma pow5_range a : 0 <= a <= 1 -> 0 <= a ^ 5 <= 1.
Proof. intros [H0 H1]. split; [apply pow_le, H0|]. rewrite <- (pow1 5). apply pow_incr. lra. Qed.
Lemma retro_schlick_range junk nY p x y : length p = nY -> directions x -> / 10 ^ 10 < vk_norm x -> (y < nY)%nat -> nth y p 0 <= 1 ->
  nth y p 0 <= component (value_at junk retro_schlick nY p x) y <= 1.
Proof.
  intros Hp D Hn Hy Hr. destruct (mirror_le x D) as [M N].
  assert (P : 0 < vk_norm x). { apply Rlt_trans with (/ 10 ^ 10); [apply Rinv_0_lt_compat, pow_lt; lra|exact Hn]. }
  destruct (value_is_of junk retro_schlick nY p x [(1 + mirror_cos x) / vk_norm x]
    (fun y => nth y p 0 + (1 - nth y p 0) * (1 - (1 + mirror_cos x) / vk_norm x) ^ 5) eq_refl ltac:(cbn; lia) (vk_ok x D Hn)) as (v & E & _ & V).
  { intros i Hi. cbn [f_k retro_schlick]. rewrite channel1. replace (i * 1 + 0)%nat with i by lia. reflexivity. }
  rewrite E. cbn [component]. rewrite V by exact Hy.
  set (g := (1 + mirror_cos x) / vk_norm x).
  assert (G : g * vk_norm x = 1 + mirror_cos x) by (unfold g; field; lra).
  assert (G2 : 2 * g = vk_norm x) by (apply (Rmult_eq_reg_r (vk_norm x)); [|lra]; lra).
  assert (R : 0 <= 1 - g <= 1) by (split; nra).
  destruct (pow5_range _ R). split; nra.
Qed.

(** ** Shadowing terms *)
Lemma smith_component junk nY p x y mu : length p = nY -> (y < nY)%nat -> x 2%nat <> 1 -> x 5%nat / sqrt (x 3%nat * x 3%nat + x 4%nat * x 4%nat) = mu ->
  component (value_at junk smith nY p x) y = 1 / (1 + smithA (mu / nth y p 0)).
Proof.
  intros Hp Hy Hx Hm. destruct (value_is_of junk smith nY p x [x 2%nat; mu] (fun y => 1 / (1 + smithA (mu / nth y p 0))) eq_refl ltac:(cbn; lia)) as (v & E & _ & N).
  - rewrite <- Hm. reflexivity.
  - intros i Hi. cbn [f_k smith]. rewrite channel1. replace (i * 1 + 0)%nat with i by lia. cbn [f_val smith]. unfold p0, p1. cbn [nth].
    destruct (Req_EM_T (x 2%nat) 1); [contradiction|]. apply smith_value_eq.
  - rewrite E. cbn [component]. apply N. exact Hy.
Qed.
Lemma cotangent x : 0 < x 3%nat * x 3%nat + x 4%nat * x 4%nat -> 0 < sqrt (x 3%nat * x 3%nat + x 4%nat * x 4%nat).
Proof. apply sqrt_lt_R0. Qed.
Lemma inv_range a : 0 < a -> 0 < 1 / (1 + a) < 1.
Proof.
  intros H. split; [apply Rdiv_lt_0_compat; lra|]. apply (Rmult_lt_reg_r (1 + a)); [lra|]. unfold Rdiv. rewrite Rmult_assoc, Rinv_l by lra. lra.
Qed.
Lemma smith_range junk nY p x y : length p = nY -> (y < nY)%nat -> 0 < nth y p 0 -> x 2%nat <> 1 -> 0 < x 3%nat * x 3%nat + x 4%nat * x 4%nat -> 0 < x 5%nat ->
  0 < component (value_at junk smith nY p x) y < 1.
Proof.
  intros Hp Hy Hw Hx Hc H5. rewrite (smith_component junk nY p x y _ Hp Hy Hx eq_refl). apply inv_range, smithA_pos.
  apply Rdiv_lt_0_compat; [|exact Hw]. apply Rdiv_lt_0_compat; [exact H5|apply cotangent, Hc].
Qed.
Lemma smith_outside junk nY p x y : length p = nY -> (y < nY)%nat -> 0 < nth y p 0 -> x 2%nat <> 1 -> 0 < x 3%nat * x 3%nat + x 4%nat * x 4%nat -> x 5%nat < 0 ->
  let v := component (value_at junk smith nY p x) y in v = 0 \/ v < 0 \/ 1 < v.
Proof.
  intros Hp Hy Hw Hx Hc H5. cbv zeta. rewrite (smith_component junk nY p x y _ Hp Hy Hx eq_refl).
  set (r := _ / nth y p 0). assert (Hr : r < 0).
  { unfold r. unfold Rdiv at 1. pose proof (cotangent x Hc) as C. assert (x 5%nat / sqrt (x 3%nat * x 3%nat + x 4%nat * x 4%nat) < 0).
    { unfold Rdiv. pose proof (Rinv_0_lt_compat _ C). nra. } pose proof (Rinv_0_lt_compat _ Hw). nra. }
  pose proof (smithA_below r Hr) as B. destruct (Rtotal_order (1 + smithA r) 0) as [L|[L|L]].
  - right. left. pose proof (Rinv_lt_0_compat _ L). unfold Rdiv. lra.
  - left. rewrite L. unfold Rdiv. rewrite Rinv_0. ring.
  - right. right. apply (Rmult_lt_reg_r (1 + smithA r)); [exact L|]. unfold Rdiv. rewrite Rmult_assoc, Rinv_l by lra. lra.
Qed.

Lemma walter_term a : 0 < a -> 0 < shadow_term a <= 10014 / 10000 /\ (1 < shadow_term a <-> a < 8 / 5 /\ 396 * a ^ 2 + 1000 < 1268 * a).
Proof.
  intros Ha. unfold shadow_term. destruct (rleb_dec (8 / 5) a) as [L|L].
  - split; [lra|]. split; [lra|]. intros [? _]. lra.
  - set (n := (3535 / 1000 + 2181 / 1000 * a) * a). set (d := (2267 / 1000 + 2577 / 1000 * a) * a + 1).
    assert (Pd : 0 < d) by (unfold d; nra). assert (Pn : 0 < n) by (unfold n; nra).
    assert (M : n / d * d = n) by (field; lra).
    split; [split; [apply Rdiv_lt_0_compat; assumption|]|].
    + apply (Rmult_le_reg_r d); [exact Pd|]. rewrite M. unfold n, d. pose proof (Rle_0_sqr (a - 1583 / 1000)) as S. unfold Rsqr in S. nra.
    + split; intros H.
      * split; [lra|]. assert (1 * d < n / d * d) by (apply Rmult_lt_compat_r; assumption). rewrite M in *. unfold n, d in *. nra.
      * apply (Rmult_lt_reg_r d); [exact Pd|]. rewrite M. unfold n, d. nra.
Qed.

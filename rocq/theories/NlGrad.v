(** Derivatives of the non linear function plugins. *)
From Coq Require Import Reals List Lia Lra.
From Coquelicot Require Import Coquelicot.
From Verif Require Import Base ParamsModel GeoModel CommonModel FuncModel FuncSpec FuncProofs FuncJac TextModel TextProofs RatProofs NlModel NlSpec NlProofs.
Open Scope R_scope.

(** ** Channels *)
Lemma channel_nth k p y l : (l < k)%nat -> nth l (channel k p y) 0 = nth (y * k + l) p 0.
Proof. intros H. unfold channel. rewrite map_nth_len by exact H. reflexivity. Qed.
Lemma channel1 p y : channel 1 p y = [nth (y * 1 + 0) p 0].
Proof. reflexivity. Qed.
Lemma channel2 p y : channel 2 p y = [nth (y * 2 + 0) p 0; nth (y * 2 + 1) p 0].
Proof. reflexivity. Qed.
Lemma channel3 p y : channel 3 p y = [nth (y * 3 + 0) p 0; nth (y * 3 + 1) p 0; nth (y * 3 + 2) p 0].
Proof. reflexivity. Qed.

Lemma value_is_of junk F nY p x g f : f_sizes F nY = nY -> length p = (f_k F * nY)%nat -> f_geo F x = Ok g ->
  (forall y, (y < nY)%nat -> f_val F g (channel (f_k F) p y) = f y) -> value_is junk F nY p x f.
Proof.
  intros Hsz Hp Hg Hf. unfold value_is. rewrite (value_at_ok junk F nY p Hsz Hp x g Hg). eexists. split; [reflexivity|].
  split; [rewrite map_length; apply seq_length|]. intros y Hy. rewrite map_nth_len by exact Hy. apply Hf, Hy.
Qed.

(** ** The halfway vector *)
Lemma hlen_sq x : 0 < hlen x -> 0 < hsum x 0 * hsum x 0 + hsum x 1 * hsum x 1 + hsum x 2 * hsum x 2.
Proof.
  intros H. unfold hlen in H. destruct (Rle_lt_dec (hsum x 0 * hsum x 0 + hsum x 1 * hsum x 1 + hsum x 2 * hsum x 2) 0) as [L|]; [|assumption].
  rewrite sqrt_neg_0 in H by exact L. lra.
Qed.
Lemma half_vector_ok x : 0 < hlen x -> half_vector x = (halfway x 0, halfway x 1, halfway x 2).
Proof.
  intros H. unfold half_vector. pose proof (hlen_sq x H) as H2. unfold halfway, hlen, hsum in *. cbn [Nat.add] in *.
  destruct (Rle_dec _ 0) as [L|_]; [lra|]. reflexivity.
Qed.
Lemma halfway_unit x : 0 < hlen x -> halfway x 0 * halfway x 0 + halfway x 1 * halfway x 1 + halfway x 2 * halfway x 2 = 1.
Proof.
  intros H. unfold halfway.
  replace (hsum x 0 / hlen x * (hsum x 0 / hlen x) + hsum x 1 / hlen x * (hsum x 1 / hlen x) + hsum x 2 / hlen x * (hsum x 2 / hlen x))
    with ((hsum x 0 * hsum x 0 + hsum x 1 * hsum x 1 + hsum x 2 * hsum x 2) / (hlen x * hlen x)) by (field; lra).
  unfold hlen at 1 2. pose proof (hlen_sq x H). rewrite sqrt_sqrt by lra. field. lra.
Qed.
Lemma halfway_range x : has_half x -> 0 <= halfway x 2 <= 1.
Proof.
  intros [H1 H2]. split.
  - unfold halfway. apply Rmult_le_pos; [exact H2|]. left. apply Rinv_0_lt_compat, H1.
  - pose proof (halfway_unit x H1). nra.
Qed.
Lemma from_cartesian_ok x q out : has_half x -> from_cartesian x q out =
  match from_cartesian_writes q x with Some ws => Ok (assign ws out) | None => Abort end.
Proof.
  intros H. unfold from_cartesian. rewrite (half_vector_ok x (proj1 H)). destruct (halfway_range x H) as [H0 H1].
  destruct (Rle_dec (halfway x 2) 1); [|lra]. destruct (Rle_dec 0 (halfway x 2)); [|lra]. reflexivity.
Qed.
Lemma half_of_ok x : has_half x -> exists h, half_of x = Ok h /\ h 0%nat = halfway x 0 /\ h 1%nat = halfway x 1 /\ h 2%nat = halfway x 2.
Proof.
  intros H. unfold half_of. cbn [convert input_eqb]. 
  eexists. split.
  - unfold convert. cbn -[from_cartesian]. rewrite from_cartesian_ok by exact H. unfold from_cartesian_writes.
    rewrite (half_vector_ok x (proj1 H)). reflexivity.
  - repeat split; reflexivity.
Qed.

(** ** From Coquelicot's derivative to the standard one *)
Lemma deriv_of f a l : is_derive f a l -> derivable_pt_lim f a l.
Proof. apply is_derive_Reals. Qed.

Lemma rltb_dec a b : reflect (a < b) (rltb a b).
Proof. unfold rltb. destruct (Rlt_dec a b); constructor; assumption. Qed.
Lemma rleb_dec a b : reflect (a <= b) (rleb a b).
Proof. unfold rleb. destruct (Rle_dec a b); constructor; assumption. Qed.
Lemma rltb_true a b : a < b -> rltb a b = true.
Proof. intros H. destruct (rltb_dec a b); [reflexivity|lra]. Qed.
Lemma rltb_no a b : b <= a -> rltb a b = false.
Proof. intros H. destruct (rltb_dec a b); [lra|reflexivity]. Qed.
Lemma rleb_true a b : a <= b -> rleb a b = true.
Proof. intros H. destruct (rleb_dec a b); [reflexivity|lra]. Qed.
Lemma rleb_no a b : b < a -> rleb a b = false.
Proof. intros H. destruct (rleb_dec a b); [lra|reflexivity]. Qed.

Ltac two l Hl := destruct l as [|[|l]]; [| |exfalso; cbn in Hl; lia].
Ltac three l Hl := destruct l as [|[|[|l]]]; [| | |exfalso; cbn in Hl; lia].
Ltac one l Hl := destruct l as [|l]; [|exfalso; cbn in Hl; lia].

(** derivative of a power in its exponent *)
Lemma rpower_exponent b a : derivable_pt_lim (fun s => Rpower b s) a (ln b * Rpower b a).
Proof. apply deriv_of. unfold Rpower. auto_derive; [exact I|]. unfold Rpower. ring. Qed.
Lemma rpower_base (f : R -> R) a c : 0 < f a -> forall l, derivable_pt_lim f a l ->
  derivable_pt_lim (fun s => Rpower (f s) c) a (c * Rpower (f a) (c - 1) * l).
Proof.
  intros Hf l Hl. apply (derivable_pt_lim_comp f (fun u => Rpower u c) a l (c * Rpower (f a) (c - 1)) Hl).
  apply derivable_pt_lim_power, Hf.
Qed.

Lemma derivable_eq f a l m : derivable_pt_lim f a l -> l = m -> derivable_pt_lim f a m.
Proof. intros H <-. exact H. Qed.
Lemma derivable_quot c (f : R -> R) a l : derivable_pt_lim f a l -> 0 < f a ->
  derivable_pt_lim (fun s => c / f s) a (- (c * l) / (f a * f a)).
Proof.
  intros D H. apply (derivable_eq _ _ ((0 * f a - l * c) / (f a)²)).
  - apply (derivable_ext (div_fct (fct_cte c) f)); [reflexivity|].
    apply (derivable_pt_lim_div (fct_cte c) f a 0 l (derivable_pt_lim_const c a) D). lra.
  - unfold Rsqr. field. lra.
Qed.

(** ** Blinn *)
Lemma blinn_gradient junk nY p x : length p = (2 * nY)%nat -> gradient_at junk blinn nY p x.
Proof.
  intros Hp. apply (nl_gradient junk blinn nY p x [x 0%nat]); [reflexivity|exact Hp|reflexivity|discriminate|].
  intros y l Hy Hl. cbn [f_k blinn] in *. rewrite channel2. set (a := nth (y * 2 + 0) p 0). set (n := nth (y * 2 + 1) p 0). cbn [f_val f_jac blinn p0 p1 nth upd].
  destruct (rltb_dec 0 (x 0%nat)) as [Hx|Hx].
  - rewrite (rleb_no _ _ Hx). two l Hl; cbn [nth upd].
    + apply deriv_of. auto_derive; [exact I|ring].
    + replace (a * ln (x 0%nat) * Rpower (x 0%nat) n) with (a * (ln (x 0%nat) * Rpower (x 0%nat) n)) by ring.
      apply (derivable_pt_lim_scal (fun s => Rpower (x 0%nat) s) a). apply rpower_exponent.
  - rewrite rleb_true by lra. two l Hl; cbn [nth upd]; apply derivable_const.
Qed.
Lemma blinn_value junk nY p x : length p = (2 * nY)%nat ->
  value_is junk blinn nY p x (fun y => if Rlt_dec 0 (x 0%nat) then par blinn p y 0 * Rpower (x 0%nat) (par blinn p y 1) else 0).
Proof.
  intros Hp. apply (value_is_of junk blinn nY p x [x 0%nat]); [reflexivity|exact Hp|reflexivity|].
  intros y Hy. unfold par. cbn -[Nat.mul channel]. rewrite channel2. cbn -[Nat.mul].
  destruct (rltb_dec 0 (x 0%nat)), (Rlt_dec 0 (x 0%nat)); try lra; reflexivity.
Qed.

(** ** Retro Blinn *)
Lemma retroblinn_gradient junk jp nY p x : length p = (2 * nY)%nat -> 0 < x 0%nat -> gradient_at junk (retroblinn jp) nY p x.
Proof.
  intros Hp Hx. apply (nl_gradient junk (retroblinn jp) nY p x [x 0%nat]); [reflexivity|exact Hp|reflexivity|discriminate|].
  intros y l Hy Hl. cbn [f_k retroblinn] in *. rewrite channel2. set (a := nth (y * 2 + 0) p 0). set (n := nth (y * 2 + 1) p 0). cbn [f_val f_jac retroblinn p0 p1 nth upd].
  rewrite (rltb_true _ _ Hx), (rleb_no _ _ Hx). two l Hl; cbn [nth upd].
  - apply deriv_of. auto_derive; [exact I|ring].
  - replace (a * ln (x 0%nat) * Rpower (x 0%nat) n) with (a * (ln (x 0%nat) * Rpower (x 0%nat) n)) by ring.
    apply (derivable_pt_lim_scal (fun s => Rpower (x 0%nat) s) a). apply rpower_exponent.
Qed.

(** ** ABC *)
Lemma abc_gradient junk nY p x : length p = (3 * nY)%nat -> 0 <= x 0%nat <= 1 ->
  (forall y, (y < nY)%nat -> 0 < 1 + par abc p y 1 * (1 - x 0%nat)) -> gradient_at junk abc nY p x.
Proof.
  intros Hp Hx Hpos. apply (nl_gradient junk abc nY p x [1 - x 0%nat]); [reflexivity|exact Hp|reflexivity|discriminate|].
  intros y l Hy Hl. specialize (Hpos y Hy). unfold par in Hpos. cbn [f_k abc] in *. rewrite channel3.
  set (a := nth (y * 3 + 0) p 0) in *. set (b := nth (y * 3 + 1) p 0) in *. set (c := nth (y * 3 + 2) p 0) in *.
  cbn [f_val f_jac abc]. unfold p0, p1, p2. cbn [nth]. set (h := 1 - x 0%nat) in *.
  rewrite (rleb_true 0 h), (rleb_true h 1) by (unfold h; lra). cbn [andb].
  pose proof (exp_pos (c * ln (1 + b * h))) as Pw. fold (Rpower (1 + b * h) c) in Pw.
  three l Hl; cbn [nth upd].
  - apply deriv_of. auto_derive; [exact I|]. unfold Rpower in *; lra.
  - assert (D : derivable_pt_lim (fun s => Rpower (1 + s * h) c) b (c * Rpower (1 + b * h) (c - 1) * h)).
    { apply (rpower_base (fun s => 1 + s * h)); [exact Hpos|]. apply deriv_of. auto_derive; [exact I|ring]. }
    apply (derivable_quot a _ _ _ D) in Pw. eapply derivable_eq; [exact Pw|]. field. unfold Rpower. apply Rgt_not_eq, exp_pos.
  - rewrite (rltb_true 0) by lra.
    assert (D := rpower_exponent (1 + b * h) c).
    apply (derivable_quot a _ _ _ D) in Pw. eapply derivable_eq; [exact Pw|]. field. unfold Rpower. apply Rgt_not_eq, exp_pos.
Qed.

(** Retro Yoo and SGD. *)
From Coq Require Import Reals List Lia Lra.
From Coquelicot Require Import Coquelicot.
From Verif Require Import Base ParamsModel GeoModel CommonModel FuncModel FuncSpec FuncProofs FuncJac TextModel NlModel NlSpec NlProofs NlGrad NlGrad2 NlGrad3 NlMoreModel NlMoreSpec NlLobes.
Open Scope R_scope.

(** ** Yoo *)
Lemma yoo_value old junk nY p x : length p = (2 * nY)%nat ->
  value_is junk (yoo old) nY p x (fun y => old * (par (yoo old) p y 0 * yoo_base (2 * PI * x 0%nat / 633) (par (yoo old) p y 1))).
Proof.
  intros Hp. apply (value_is_of junk (yoo old) nY p x [2 * PI * x 0%nat / 633]); [reflexivity|exact Hp|reflexivity|].
  intros y Hy. change (f_k (yoo old)) with 2%nat. rewrite channel2. reflexivity.
Qed.
Lemma yoo_entry_kr old junk nY p x y : length p = (2 * nY)%nat -> (y < nY)%nat ->
  partial_at junk (yoo old) nY p x y (y * 2 + 0) = yoo_base (2 * PI * x 0%nat / 633) (par (yoo old) p y 1) /\
  (partial_exact junk (yoo old) nY p x y (y * 2 + 0) <-> old = 1 \/ yoo_base (2 * PI * x 0%nat / 633) (par (yoo old) p y 1) = 0).
Proof.
  intros Hp Hy. set (b := yoo_base (2 * PI * x 0%nat / 633) (par (yoo old) p y 1)). set (q := 2 * PI * x 0%nat / 633) in *.
  destruct (partial_value junk (yoo old) nY p x [q] y y 0 eq_refl Hp eq_refl) as [E _]; try assumption; [discriminate|cbn; lia|].
  change (f_k (yoo old)) with 2%nat in *. rewrite Nat.eqb_refl, channel2 in E. cbn [f_jac yoo p1 p0 nth] in E.
  split; [exact E|].
  pose proof (partial_iff junk (yoo old) nY p x [q] y y 0 eq_refl Hp eq_refl) as P.
  change (f_k (yoo old)) with 2%nat in P. rewrite P; try assumption; [|discriminate|lia]. clear P.
  rewrite channel2. cbn [nth].
  assert (D : derivable_pt_lim (fun s => f_val (yoo old) [q] (upd [nth (y * 2 + 0) p 0; nth (y * 2 + 1) p 0] 0 s)) (nth (y * 2 + 0) p 0) (old * b)).
  { apply (derivable_ext (fun s => old * (s * b))); [reflexivity|]. apply is_derive_Reals. auto_derive; [exact I|ring]. }
  assert (W : forall A B : Prop, (A <-> B) -> ((y = y -> A) <-> B)) by tauto. apply W.
  rewrite (exact_iff _ _ _ _ D). change (f_jac (yoo old) [q] [nth (y * 2 + 0) p 0; nth (y * 2 + 1) p 0] 0) with b.
  split; [intros H|intros [H|H]].
  - destruct (Req_dec b 0) as [|Nb]; [right; assumption|left]. apply (Rmult_eq_reg_r b); [lra|exact Nb].
  - subst old. ring.
  - rewrite H. ring.
Qed.
Lemma yoo_get junk old nY p : length p = (2 * nY)%nat -> exists out,
  (do st <- set_params (yoo old) nY p (members junk (yoo old) nY); yoo_parameters junk nY st) = Ok out /\
  length out = (3 * nY)%nat /\ firstn (2 * nY) out = p /\ forall i, (2 * nY <= i < 3 * nY)%nat -> nth i out 0 = junk.
Proof.
  intros Hp. destruct (set_params_ok (yoo old) nY p _ (members_shaped junk (yoo old) nY eq_refl) Hp) as (st & E & HSt & HR).
  change (f_k (yoo old)) with 2%nat in *. rewrite E. cbn [bind]. unfold yoo_parameters.
  set (body := fun i l (out : list R) => do v <- rd2 st l i; wr out (i * 2 + l) v).
  change (exists out, for_ nY 0 (fun i out => for_ 2 0 (fun l out => body i l out) out) (repeat junk (3 * nY)) = Ok out /\
    length out = (3 * nY)%nat /\ firstn (2 * nY) out = p /\ forall i, (2 * nY <= i < 3 * nY)%nat -> nth i out 0 = junk).
  destruct (for_inv (fun m s => length s = (3 * nY)%nat /\ (forall i l, (i < m)%nat -> (l < 2)%nat -> nth (i * 2 + l) s 0 = ent st l i) /\
     forall i, (2 * nY <= i < 3 * nY)%nat -> nth i s 0 = junk)
    (fun i s => for_ 2 0 (fun l s => body i l s) s) nY 0) with (s := repeat junk (3 * nY)) as (out & E2 & A & B & C).
  - intros i s Hi (A & B & C).
    destruct (for_write 2 (3 * nY) (fun l => i * 2 + l)%nat (fun l => ent st l i) (body i) s) as (s' & E1 & S1 & E2 & E3).
    + intros l t Hl Ht. unfold body. rewrite (rd2_ok 2 nY) by (assumption || lia). reflexivity.
    + intros l Hl. lia.
    + intros a b _ _ H. lia.
    + exact A.
    + exists s'. split; [exact E1|]. split; [exact S1|]. split.
      * intros i' l Hi' Hl. destruct (Nat.eq_dec i' i) as [->|]; [apply E2, Hl|]. rewrite E3 by (intros; lia). apply B; [lia|exact Hl].
      * intros i' Hi'. rewrite E3 by (intros; lia). apply C, Hi'.
  - split; [apply repeat_length|]. split; [intros; lia|]. intros i Hi. rewrite (nth_indep _ 0 junk) by (rewrite repeat_length; lia). apply nth_repeat.
  - exists out. split; [exact E2|]. split; [exact A|]. split; [|exact C].
    apply nth_ext with (d := 0) (d' := 0); [rewrite firstn_length, A; lia|]. intros i Hi. rewrite firstn_length, A in Hi.
    assert (Hi2 : (i < 2 * nY)%nat) by lia. rewrite <- (firstn_skipn (2 * nY) out) in B.
    destruct (split_index 2 nY i Hi2) as (j & l & -> & Hj & Hl). rewrite <- HR by assumption. rewrite <- B by (assumption || lia).
    rewrite app_nth1 by (rewrite firstn_length; lia). reflexivity.
Qed.

(** ** SGD *)
Section Sgd.
Variable junk : R.
Variable nY : nat.

Lemma sgd_members_shaped : shaped 11 nY (sgd_members nY).
Proof.
  unfold sgd_members. split; [rewrite app_length, repeat_length; reflexivity|]. intros l Hl.
  destruct (Nat.lt_ge_cases l 10) as [H|H].
  - rewrite app_nth1 by (rewrite repeat_length; exact H). rewrite (nth_indep _ [] (repeat 0 nY)) by (rewrite repeat_length; exact H).
    rewrite nth_repeat. apply repeat_length.
  - rewrite app_nth2 by (rewrite repeat_length; exact H). rewrite repeat_length. replace (l - 10)%nat with 0%nat by lia. apply repeat_length.
Qed.
Lemma sgd_set_ok p st : shaped 11 nY st -> length p = (11 * nY)%nat -> exists st', sgd_set nY p st = Ok st' /\ shaped 11 nY st' /\
  forall i m, (i < nY)%nat -> (m < 11)%nat -> ent st' m i = nth (i + m * nY) p 0.
Proof.
  intros Hs Hp. apply (fill_ok 11 nY (fun i m => nth (i + m * nY) p 0)); [exact Hs|]. intros i l s Hi Hl _.
  rewrite rd_nth by nia. reflexivity.
Qed.
Lemma sgd_write (f : nat -> nat -> R) k body out : length out = (k * nY)%nat ->
  (forall i l s, (i < nY)%nat -> (l < k)%nat -> length s = (k * nY)%nat -> body i l s = wr s (i + l * nY) (f i l)) ->
  exists out', for_ nY 0 (fun i s => for_ k 0 (fun l s => body i l s) s) out = Ok out' /\ length out' = (k * nY)%nat /\
    forall i l, (i < nY)%nat -> (l < k)%nat -> nth (i + l * nY) out' 0 = f i l.
Proof.
  intros Ho Hb.
  destruct (for_inv (fun m s => length s = (k * nY)%nat /\ forall i l, (i < m)%nat -> (l < k)%nat -> nth (i + l * nY) s 0 = f i l)
    (fun i s => for_ k 0 (fun l s => body i l s) s) nY 0) with (s := out) as (st' & E & S1 & E1).
  - intros i s Hi (S0 & E0).
    destruct (for_write k (k * nY) (fun l => i + l * nY)%nat (f i) (body i) s) as (s' & E & S1 & E1 & E2).
    + intros l t Hl Ht. apply Hb; auto. lia.
    + intros l Hl. nia.
    + intros a b _ _ H. nia.
    + exact S0.
    + exists s'. split; [exact E|]. split; [exact S1|]. intros i' l Hi' Hl.
      destruct (Nat.eq_dec i' i) as [->|]; [apply E1, Hl|].
      rewrite E2. { apply E0; [lia|exact Hl]. }
      intros l' Hl' H. assert (Q : (l' * nY + i = l * nY + i')%nat) by lia. apply mul_add_inj in Q; lia.
  - split; [exact Ho|]. intros; lia.
  - exists st'. split; [exact E|]. split; [exact S1|]. intros i l Hi Hl. apply E1; [lia|exact Hl].
Qed.
Lemma flat_index k i : (i < k * nY)%nat -> exists l j, i = (j + l * nY)%nat /\ (l < k)%nat /\ (j < nY)%nat.
Proof.
  intros H. rewrite Nat.mul_comm in H. destruct (split_index nY k i H) as (l & j & -> & Hl & Hj). exists l, j. split; [lia|]. split; assumption.
Qed.
Lemma sgd_round_trip p st : shaped 11 nY st -> length p = (11 * nY)%nat -> (do s <- sgd_set nY p st; sgd_get junk nY s) = Ok p.
Proof.
  intros Hs Hp. destruct (sgd_set_ok p st Hs Hp) as (s & E & HSt & HR). rewrite E. cbn [bind]. unfold sgd_get.
  set (body := fun i m (out : list R) => do v <- rd2 s m i; wr out (i + m * nY) v).
  change (for_ nY 0 (fun i out => for_ 11 0 (fun m out => body i m out) out) (repeat junk (11 * nY)) = Ok p).
  destruct (sgd_write (fun i m => ent s m i) 11 body (repeat junk (11 * nY)) (repeat_length _ _)) as (q & Eq & Lq & Nq).
  { intros i l t Hi Hl _. unfold body. rewrite (rd2_ok 11 nY) by assumption. reflexivity. }
  rewrite Eq. f_equal. apply nth_ext with (d := 0) (d' := 0); [congruence|]. intros i Hi. rewrite Lq in Hi.
  destruct (flat_index 11 i Hi) as (l & j & -> & Hl & Hj). rewrite Nq, HR by assumption. reflexivity.
Qed.
Lemma sgd_jac_zero : exists J, sgd_jac junk nY = Ok J /\ length J = (nY * (11 * nY))%nat /\ forall i, (i < nY * (11 * nY))%nat -> nth i J 0 = 0.
Proof.
  unfold sgd_jac. destruct (sgd_write (fun _ _ => 0) (11 * nY) (fun i j jac => wr jac (i + j * nY) 0) (repeat junk (nY * (11 * nY)))) as (J & E & L & N).
  - rewrite repeat_length. lia.
  - reflexivity.
  - exists J. split; [exact E|]. split; [lia|]. intros i Hi. destruct (flat_index (11 * nY) i ltac:(lia)) as (l & j & -> & Hl & Hj). apply N; assumption.
Qed.

Lemma sgd_masking_is c t k l z : sgd_G1 junk c t k l z = sgd_masking junk c t k l z.
Proof. unfold sgd_G1, sgd_masking. replace (Rmax (acos z - t) 0) with (if Rle_dec t (acos z) then acos z - t else 0); [reflexivity|]. unfold Rmax. destruct (Rle_dec t (acos z)), (Rle_dec (acos z - t) 0); lra. Qed.
Lemma sgd_value_ok p x : length p = (11 * nY)%nat -> exists v, sgd_value_at junk nY p x = Ok v /\ length v = nY /\
  forall y, (y < nY)%nat -> nth y v 0 = one_pi * (if Rlt_dec (x 2%nat) 0 then 0 else 1) * (nth (y + 8 * nY) p 0 + sgd_lobe junk x (sgd_channel nY p y)).
Proof.
  intros Hp. unfold sgd_value_at. destruct (sgd_set_ok p _ sgd_members_shaped Hp) as (s & E & HSt & HR). rewrite E. cbn [bind]. unfold sgd_value. cbv zeta.
  assert (HL : (if rltb (x 2%nat) 0 then 0 else 1) = (if Rlt_dec (x 2%nat) 0 then 0 else 1)).
  { destruct (rltb_dec (x 2%nat) 0); destruct (Rlt_dec (x 2%nat) 0); try contradiction; reflexivity. }
  rewrite HL. clear HL.
  match goal with |- exists v, for_ nY 0 ?b _ = _ /\ _ => destruct (for_write nY nY (fun i => i)
    (fun y => one_pi * (if Rlt_dec (x 2%nat) 0 then 0 else 1) * (nth (y + 8 * nY) p 0 + sgd_lobe junk x (sgd_channel nY p y))) b (repeat junk nY)) as (v & Ev & Lv & Nv & _) end.
  - intros i t Hi Ht. 
    pose proof (chan_ok (mkNlf 11 (fun _ => Ok []) (fun _ _ => 0) (fun _ _ _ => 0) false same []) nY 11 0 s i HSt (le_n _) Hi) as Ec.
    rewrite Ec. cbn [bind]. f_equal.
    assert (Em : map (fun m => ent s m i) (seq 0 11) = sgd_channel nY p i).
    { unfold sgd_channel. apply map_ext_in. intros m Hm. apply in_seq in Hm. apply HR; [exact Hi|lia]. }
    rewrite Em. rewrite !sgd_masking_is. reflexivity.
  - auto.
  - auto.
  - apply repeat_length.
  - exists v. split; [exact Ev|]. split; [exact Lv|]. exact Nv.
Qed.

Lemma sgd_rho_d p x y : length p = (11 * nY)%nat -> (y < nY)%nat -> 0 <= x 2%nat ->
  derivable_pt_lim (fun s => component (sgd_value_at junk nY (upd p (y + 8 * nY) s) x) y) (nth (y + 8 * nY) p 0) one_pi.
Proof.
  intros Hp Hy Hx.
  apply (derivable_ext (fun s => one_pi * (s + sgd_lobe junk x (sgd_channel nY p y)))).
  - intros s. destruct (sgd_value_ok (upd p (y + 8 * nY) s) x) as (v & E & L & N); [rewrite upd_length; exact Hp|].
    rewrite E. cbn [component]. rewrite N by exact Hy. destruct (Rlt_dec (x 2%nat) 0) as [C|_]; [lra|].
    rewrite nth_upd_same by nia. rewrite Rmult_1_r. f_equal. f_equal.
    assert (Q : forall m, m <> 8%nat -> nth m (sgd_channel nY (upd p (y + 8 * nY) s) y) 0 = nth m (sgd_channel nY p y) 0).
    { intros m Hm. destruct (Nat.lt_ge_cases m 11) as [H|H].
      - unfold sgd_channel. rewrite !map_nth_len by exact H. apply nth_upd_other. nia.
      - rewrite !nth_overflow by (unfold sgd_channel; rewrite map_length, seq_length; exact H). reflexivity. }
    unfold sgd_lobe. cbv zeta. rewrite !Q by discriminate. reflexivity.
  - apply is_derive_Reals. auto_derive; [exact I|ring].
Qed.
End Sgd.

(** Proofs for C100, second part: gradient, flag, starting point. *)
From Coq Require Import Reals List Lia Lra.
From Coquelicot Require Import Coquelicot.
From Verif Require Import Base ParamsModel GeoModel CommonModel FuncModel FuncSpec FuncProofs FuncJac TextModel NlModel NlSpec NlProofs NlGrad NlGrad2 NlMoreModel NlMoreSpec NlLobes NlLobes2 LafModel LafSpec LafProofs.
Open Scope R_scope.

Lemma lsum_ext L f g : (forall m, (m < L)%nat -> f m = g m) -> lsum L f = lsum L g.
Proof. induction L as [|L IH]; intros H; cbn [lsum]; [reflexivity|]. rewrite IH, H by (intros; try apply H; lia). reflexivity. Qed.
Lemma derivable_lsum L (f : R -> nat -> R) (d : nat -> R) a :
  (forall m, (m < L)%nat -> derivable_pt_lim (fun s => f s m) a (d m)) ->
  derivable_pt_lim (fun s => lsum L (f s)) a (lsum L d).
Proof.
  induction L as [|L IH]; intros H; cbn [lsum]; [apply derivable_const|].
  apply (derivable_pt_lim_plus (fun s => lsum L (f s)) (fun s => f s L)); [apply IH; intros; apply H; lia|apply H; lia].
Qed.
Lemma lsum_zero L f : (forall m, (m < L)%nat -> f m = 0) -> lsum L f = 0.
Proof. induction L as [|L IH]; intros H; cbn [lsum]; [reflexivity|]. rewrite IH, H by (intros; try apply H; lia). ring. Qed.
Lemma lsum_single L f n : (n < L)%nat -> (forall m, (m < L)%nat -> m <> n -> f m = 0) -> lsum L f = f n.
Proof.
  induction L as [|L IH]; intros Hn H; [lia|]. cbn [lsum]. destruct (Nat.eq_dec n L) as [->|N].
  - rewrite lsum_zero by (intros; apply H; lia). ring.
  - rewrite IH by (try lia; intros; apply H; lia). rewrite (H L) by lia. ring.
Qed.

Section Grad.
Variable junk : R.
Variables nY L : nat.

Lemma around_trip p s : lsized nY L s -> length p = (4 * L * nY)%nat -> (do t <- aset nY p s; aget junk nY t) = Ok p.
Proof. intros Hs Hp. destruct (aset_ok nY L p s Hs Hp) as (t & E & H & _). rewrite E. cbn [bind]. apply (aget_ok junk nY L p t H Hp). Qed.
Lemma awrong_size p s : lsized nY L s -> length p <> (4 * L * nY)%nat -> aset nY p s = Abort.
Proof. intros (Hs & Hi & _) Hp. unfold aset, anb. rewrite Hs, Hi. destruct (Nat.eqb_spec (length p) (4 * L * nY)); [contradiction|reflexivity]. Qed.

Lemma lpar_upd p n j l s m i k : (l < 4)%nat -> (k < 4)%nat -> (n < L)%nat -> (j < nY)%nat -> (i < nY)%nat -> length p = (4 * L * nY)%nat ->
  lpar nY (upd p ((n * nY + j) * 4 + l) s) m i k = if ((m =? n) && (i =? j) && (k =? l))%nat%bool then s else lpar nY p m i k.
Proof.
  intros Hl Hk Hn Hj Hi Hp. unfold lpar. rewrite nth_upd.
  assert ((n * nY + j < L * nY)%nat) by nia.
  destruct (Nat.eqb_spec m n) as [->|N1]; cbn [andb].
  - destruct (Nat.eqb_spec i j) as [->|N2]; cbn [andb].
    + destruct (Nat.eqb_spec k l) as [->|N3].
      * rewrite Nat.eqb_refl. destruct (Nat.ltb_spec ((n * nY + j) * 4 + l) (length p)); [reflexivity|lia].
      * destruct (Nat.eqb_spec ((n * nY + j) * 4 + l) ((n * nY + j) * 4 + k)); [lia|reflexivity].
    + destruct (Nat.eqb_spec ((n * nY + j) * 4 + l) ((n * nY + i) * 4 + k)); [lia|reflexivity].
  - destruct (Nat.eqb_spec ((n * nY + j) * 4 + l) ((m * nY + i) * 4 + k)) as [Q|]; [|reflexivity].
    assert (Q2 : (n * nY + j = m * nY + i)%nat) by lia. apply mul_add_inj in Q2; lia.
Qed.

Lemma llobe_other p x n j l s m i : (l < 4)%nat -> (n < L)%nat -> (j < nY)%nat -> (i < nY)%nat -> length p = (4 * L * nY)%nat ->
  m <> n \/ i <> j -> llobe nY (upd p ((n * nY + j) * 4 + l) s) x m i = llobe nY p x m i.
Proof.
  intros Hl Hn Hj Hi Hp Hd. unfold llobe, ldot. rewrite !lpar_upd by (assumption || lia).
  destruct (Nat.eqb_spec m n); destruct (Nat.eqb_spec i j); cbn [andb]; try reflexivity. destruct Hd; contradiction.
Qed.

Lemma llobe_derive p x n j l : (l < 4)%nat -> (n < L)%nat -> (j < nY)%nat -> length p = (4 * L * nY)%nat ->
  ldot nY p x n j <> 0 \/ l = 3%nat ->
  derivable_pt_lim (fun s => llobe nY (upd p ((n * nY + j) * 4 + l) s) x n j) (nth ((n * nY + j) * 4 + l) p 0) (lentry nY p x j n j l).
Proof.
  intros Hl Hn Hj Hp Hd. change (nth ((n * nY + j) * 4 + l) p 0) with (lpar nY p n j l).
  unfold lentry. cbv zeta. rewrite Nat.eqb_refl. cbn [andb].
  set (e := lpar nY p n j 3). set (d := ldot nY p x n j).
  set (kx := x 0%nat * x 3%nat). set (ky := x 1%nat * x 4%nat). set (kz := x 2%nat * x 5%nat).
  assert (Lin : forall (k c : R) (f : R -> R), (forall s, f s = s * k + c) -> forall a, f a = d -> d <> 0 ->
    derivable_pt_lim (fun s => lobe_of e (f s)) a (if rltb 0 d then k * e * Rpower d (e - 1) else 0)).
  { intros k c f Hf a Ha D0. eapply derivable_eq; [apply (derivable_pt_lim_comp f (lobe_of e))|].
    - instantiate (1 := k). apply (derivable_ext (fun s => s * k + c)); [intros; symmetry; apply Hf|]. apply is_derive_Reals. auto_derive; [exact I|ring].
    - rewrite Ha. apply lobe_of_derive, D0.
    - destruct (rltb_dec 0 d); destruct (Rlt_dec 0 d); try contradiction; ring. }
  assert (D0 : l <> 3%nat -> d <> 0) by (intros Q; destruct Hd; [assumption|contradiction]).
  destruct l as [|[|[|[|?]]]]; [| | | |lia].
  - apply (derivable_ext (fun s => lobe_of e (s * kx + lpar nY p n j 1 * ky + lpar nY p n j 2 * kz))).
    { intros s. unfold llobe, ldot, lobe_of. rewrite !lpar_upd by (assumption || lia). rewrite !Nat.eqb_refl. reflexivity. }
    apply (Lin kx (lpar nY p n j 1 * ky + lpar nY p n j 2 * kz)); [intros; ring|reflexivity|apply D0; discriminate].
  - apply (derivable_ext (fun s => lobe_of e (lpar nY p n j 0 * kx + s * ky + lpar nY p n j 2 * kz))).
    { intros s. unfold llobe, ldot, lobe_of. rewrite !lpar_upd by (assumption || lia). rewrite !Nat.eqb_refl. reflexivity. }
    apply (Lin ky (lpar nY p n j 0 * kx + lpar nY p n j 2 * kz)); [intros; ring|reflexivity|apply D0; discriminate].
  - apply (derivable_ext (fun s => lobe_of e (lpar nY p n j 0 * kx + lpar nY p n j 1 * ky + s * kz))).
    { intros s. unfold llobe, ldot, lobe_of. rewrite !lpar_upd by (assumption || lia). rewrite !Nat.eqb_refl. reflexivity. }
    apply (Lin kz (lpar nY p n j 0 * kx + lpar nY p n j 1 * ky)); [intros; ring|reflexivity|apply D0; discriminate].
  - apply (derivable_ext (fun s => lobe_of s d)).
    { intros s. unfold llobe, ldot, lobe_of. rewrite !lpar_upd by (assumption || lia). rewrite !Nat.eqb_refl. reflexivity. }
    unfold lobe_of. destruct (rltb_dec 0 d); destruct (Rlt_dec 0 d); try contradiction; [apply rpower_exponent|apply derivable_const].
Qed.

Lemma agradient s p x i n j l : lsized nY L s -> length p = (4 * L * nY)%nat -> (i < nY)%nat -> (n < L)%nat -> (j < nY)%nat -> (l < 4)%nat ->
  ldot nY p x n j <> 0 \/ l = 3%nat \/ i <> j -> lexact junk nY L s p x i n j l.
Proof.
  intros Hs Hp Hi Hn Hj Hl Hd. unfold lexact.
  destruct (aset_ok nY L p s Hs Hp) as (t & Et & Ht & Hk). rewrite Et. cbn [bind].
  destruct (ajac_ok junk nY L p t x Ht) as (J & EJ & _ & HJ). rewrite EJ. cbn [component]. rewrite HJ by assumption.
  apply (derivable_ext (fun u => nth i (a_kd s) 0 + lsum L (fun m => llobe nY (upd p ((n * nY + j) * 4 + l) u) x m i))).
  { intros u. assert (Hp' : length (upd p ((n * nY + j) * 4 + l) u) = (4 * L * nY)%nat) by (rewrite upd_length; exact Hp).
    destruct (aset_ok nY L _ s Hs Hp') as (t' & Et' & Ht' & Hk'). rewrite Et'. cbn [bind].
    destruct (avalue_ok junk nY L _ t' x Ht') as (v & E & _ & Hv). rewrite E. cbn [component]. rewrite <- Hk'. symmetry. apply Hv, Hi. }
  eapply derivable_eq; [apply (derivable_pt_lim_plus (fun _ => nth i (a_kd s) 0)); [apply derivable_const|]|].
  - apply (derivable_lsum L (fun s m => llobe nY (upd p ((n * nY + j) * 4 + l) s) x m i)
      (fun m => if (m =? n)%nat then lentry nY p x i n j l else 0)).
    intros m Hm. destruct (Nat.eqb_spec m n) as [->|N].
    + destruct (Nat.eq_dec i j) as [->|Nij].
      * apply llobe_derive; try assumption. destruct Hd as [|[|]]; [left; assumption|right; assumption|contradiction].
      * unfold lentry. cbv zeta. destruct (Nat.eqb_spec i j); [contradiction|]. cbn [andb].
        apply (derivable_ext (fun _ => llobe nY p x n i)); [|apply derivable_const].
        intros u. symmetry. apply llobe_other; try assumption. right; exact Nij.
    + apply (derivable_ext (fun _ => llobe nY p x m i)); [|apply derivable_const].
      intros u. symmetry. apply llobe_other; try assumption. left; exact N.
  - rewrite (lsum_single _ _ n Hn); [rewrite Nat.eqb_refl; ring|].
    intros m _ N. destruct (Nat.eqb_spec m n); [contradiction|reflexivity].
Qed.
End Grad.

(** Isotropic Lafortune lobes: parameter vector, gradient, starting point. *)
From Coq Require Import Reals List Lia Lra.
From Coquelicot Require Import Coquelicot.
From Verif Require Import Base ParamsModel GeoModel CommonModel FuncModel FuncSpec FuncProofs FuncJac TextModel NlModel NlSpec NlProofs NlGrad NlGrad2 NlMoreModel NlMoreSpec NlLobes.
Open Scope R_scope.

Lemma sum_to_ext L f g : (forall m, (m < L)%nat -> f m = g m) -> sum_to L f = sum_to L g.
Proof. induction L as [|L IH]; intros H; cbn [sum_to]; [reflexivity|]. rewrite IH, H by (intros; try apply H; lia). reflexivity. Qed.
Lemma derivable_sum_to L (f : R -> nat -> R) (d : nat -> R) a :
  (forall m, (m < L)%nat -> derivable_pt_lim (fun s => f s m) a (d m)) ->
  derivable_pt_lim (fun s => sum_to L (f s)) a (sum_to L d).
Proof.
  induction L as [|L IH]; intros H; cbn [sum_to]; [apply derivable_const|].
  apply (derivable_pt_lim_plus (fun s => sum_to L (f s)) (fun s => f s L)); [apply IH; intros; apply H; lia|apply H; lia].
Qed.
Lemma sum_to_zero L f : (forall m, (m < L)%nat -> f m = 0) -> sum_to L f = 0.
Proof. induction L as [|L IH]; intros H; cbn [sum_to]; [reflexivity|]. rewrite IH, H by (intros; try apply H; lia). ring. Qed.
Lemma sum_to_single L f n : (n < L)%nat -> (forall m, (m < L)%nat -> m <> n -> f m = 0) -> sum_to L f = f n.
Proof.
  induction L as [|L IH]; intros Hn H; [lia|]. cbn [sum_to]. destruct (Nat.eq_dec n L) as [->|N].
  - rewrite sum_to_zero by (intros; apply H; lia). ring.
  - rewrite IH by (try lia; intros; apply H; lia). rewrite (H L) by lia. ring.
Qed.

(** the lobe as a function of its dot product *)
Definition lobe_of (e d : R) : R := if Rlt_dec 0 d then Rpower d e else 0.
Lemma lobe_of_derive e d : d <> 0 -> derivable_pt_lim (lobe_of e) d (if Rlt_dec 0 d then e * Rpower d (e - 1) else 0).
Proof.
  intros Hd. apply is_derive_Reals. destruct (Rlt_dec 0 d) as [H|H].
  - apply (is_derive_ext_loc (fun u => Rpower u e)).
    + exists (mkposreal d H). intros u Hu. unfold lobe_of. cbn in Hu. unfold ball, Hierarchy.ball in Hu. cbn in Hu. unfold AbsRing_ball, abs, minus, plus, opp in Hu. cbn in Hu.
      destruct (Rlt_dec 0 u) as [|C]; [reflexivity|]. exfalso. apply Rabs_def2 in Hu. lra.
    + apply is_derive_Reals. apply derivable_pt_lim_power, H.
  - assert (Hn : 0 < - d) by lra. apply (is_derive_ext_loc (fun u => 0)).
    + exists (mkposreal _ Hn). intros u Hu. unfold lobe_of. cbn in Hu. unfold ball, Hierarchy.ball in Hu. cbn in Hu. unfold AbsRing_ball, abs, minus, plus, opp in Hu. cbn in Hu.
      destruct (Rlt_dec 0 u) as [C|]; [|reflexivity]. exfalso. apply Rabs_def2 in Hu. lra.
    + apply (@is_derive_const R_AbsRing R_NormedModule).
Qed.

Section Grad.
Variable junk : R.
Variables nY L : nat.

Lemma laf_value_at_ok p x : length p = (3 * L * nY)%nat -> exists v, laf_value_at junk nY L p x = Ok v /\ length v = nY /\
  forall i, (i < nY)%nat -> nth i v 0 = sum_to L (fun n => laf_lobe nY p x n i).
Proof.
  intros Hp. unfold laf_value_at, laf_object. destruct (laf_set_ok nY L p _ (set_nb_sized junk nY L) Hp) as (s & E & H).
  rewrite E. cbn [bind]. apply laf_value_ok, H.
Qed.
Lemma laf_jacobian_at_ok p x : length p = (3 * L * nY)%nat -> exists J, laf_jacobian_at junk nY L p x = Ok J /\ length J = (nY * (3 * L * nY))%nat /\
  forall i n j l, (i < nY)%nat -> (n < L)%nat -> (j < nY)%nat -> (l < 3)%nat ->
    nth (i * (3 * L * nY) + ((n * nY + j) * 3 + l)) J 0 = laf_entry nY p x i n j l.
Proof.
  intros Hp. unfold laf_jacobian_at, laf_object. destruct (laf_set_ok nY L p _ (set_nb_sized junk nY L) Hp) as (s & E & H).
  rewrite E. cbn [bind]. apply laf_jac_ok, H.
Qed.
Lemma laf_round_trip p s : sized nY L s -> length p = (3 * L * nY)%nat -> (do t <- laf_set nY p s; laf_get junk nY t) = Ok p.
Proof. intros Hs Hp. destruct (laf_set_ok nY L p s Hs Hp) as (t & E & H). rewrite E. cbn [bind]. apply (laf_get_ok junk nY L p t H Hp). Qed.
Lemma laf_wrong_size p s : l_n s = L -> length p <> (3 * L * nY)%nat -> laf_set nY p s = Abort.
Proof. intros Hs Hp. unfold laf_set, laf_nb. rewrite Hs. destruct (Nat.eqb_spec (length p) (3 * L * nY)); [contradiction|reflexivity]. Qed.

Lemma laf_par_upd p n j l s m i k : (l < 3)%nat -> (k < 3)%nat -> (n < L)%nat -> (j < nY)%nat -> (i < nY)%nat -> length p = (3 * L * nY)%nat ->
  laf_par nY (upd p ((n * nY + j) * 3 + l) s) m i k = if ((m =? n) && (i =? j) && (k =? l))%nat%bool then s else laf_par nY p m i k.
Proof.
  intros Hl Hk Hn Hj Hi Hp. unfold laf_par. rewrite nth_upd.
  assert ((n * nY + j < L * nY)%nat) by nia.
  destruct (Nat.eqb_spec m n) as [->|N1]; cbn [andb].
  - destruct (Nat.eqb_spec i j) as [->|N2]; cbn [andb].
    + destruct (Nat.eqb_spec k l) as [->|N3].
      * rewrite Nat.eqb_refl. destruct (Nat.ltb_spec ((n * nY + j) * 3 + l) (length p)); [reflexivity|lia].
      * destruct (Nat.eqb_spec ((n * nY + j) * 3 + l) ((n * nY + j) * 3 + k)); [lia|reflexivity].
    + destruct (Nat.eqb_spec ((n * nY + j) * 3 + l) ((n * nY + i) * 3 + k)); [lia|reflexivity].
  - destruct (Nat.eqb_spec ((n * nY + j) * 3 + l) ((m * nY + i) * 3 + k)) as [Q|]; [|reflexivity].
    assert (Q2 : (n * nY + j = m * nY + i)%nat) by lia. apply mul_add_inj in Q2; lia.
Qed.

Lemma laf_lobe_other p x n j l s m i : (l < 3)%nat -> (n < L)%nat -> (j < nY)%nat -> (i < nY)%nat -> length p = (3 * L * nY)%nat ->
  m <> n \/ i <> j -> laf_lobe nY (upd p ((n * nY + j) * 3 + l) s) x m i = laf_lobe nY p x m i.
Proof.
  intros Hl Hn Hj Hi Hp Hd. unfold laf_lobe, laf_dot. rewrite !laf_par_upd by (assumption || lia).
  destruct (Nat.eqb_spec m n); destruct (Nat.eqb_spec i j); cbn [andb]; try reflexivity. destruct Hd; contradiction.
Qed.

Lemma laf_lobe_derive p x n j l : (l < 3)%nat -> (n < L)%nat -> (j < nY)%nat -> length p = (3 * L * nY)%nat ->
  laf_dot nY p x n j <> 0 \/ l = 2%nat ->
  derivable_pt_lim (fun s => laf_lobe nY (upd p ((n * nY + j) * 3 + l) s) x n j) (nth ((n * nY + j) * 3 + l) p 0) (laf_entry nY p x j n j l).
Proof.
  intros Hl Hn Hj Hp Hd. change (nth ((n * nY + j) * 3 + l) p 0) with (laf_par nY p n j l).
  unfold laf_entry. cbv zeta. rewrite Nat.eqb_refl. cbn [andb].
  set (e := laf_par nY p n j 2). set (d := laf_dot nY p x n j).
  set (kxy := x 0%nat * x 3%nat + x 1%nat * x 4%nat). set (kz := x 2%nat * x 5%nat).
  destruct l as [|[|[|?]]]; [| | |lia].
  - assert (D0 : d <> 0) by (destruct Hd as [|?]; [assumption|discriminate]).
    apply (derivable_ext (fun s => lobe_of e (s * kxy + laf_par nY p n j 1 * kz))).
    { intros s. unfold laf_lobe, laf_dot, lobe_of. rewrite !laf_par_upd by (assumption || lia). rewrite !Nat.eqb_refl. reflexivity. }
    eapply derivable_eq; [apply (derivable_pt_lim_comp (fun s => s * kxy + laf_par nY p n j 1 * kz) (lobe_of e))|].
    + instantiate (1 := kxy). apply is_derive_Reals. auto_derive; [exact I|ring].
    + change (laf_par nY p n j 0 * kxy + laf_par nY p n j 1 * kz) with d. apply lobe_of_derive, D0.
    + destruct (rltb_dec 0 d); destruct (Rlt_dec 0 d); try contradiction; ring.
  - assert (D0 : d <> 0) by (destruct Hd as [|?]; [assumption|discriminate]).
    apply (derivable_ext (fun s => lobe_of e (laf_par nY p n j 0 * kxy + s * kz))).
    { intros s. unfold laf_lobe, laf_dot, lobe_of. rewrite !laf_par_upd by (assumption || lia). rewrite !Nat.eqb_refl. reflexivity. }
    eapply derivable_eq; [apply (derivable_pt_lim_comp (fun s => laf_par nY p n j 0 * kxy + s * kz) (lobe_of e))|].
    + instantiate (1 := kz). apply is_derive_Reals. auto_derive; [exact I|ring].
    + change (laf_par nY p n j 0 * kxy + laf_par nY p n j 1 * kz) with d. apply lobe_of_derive, D0.
    + destruct (rltb_dec 0 d); destruct (Rlt_dec 0 d); try contradiction; ring.
  - apply (derivable_ext (fun s => lobe_of s d)).
    { intros s. unfold laf_lobe, laf_dot, lobe_of. rewrite !laf_par_upd by (assumption || lia). rewrite !Nat.eqb_refl. reflexivity. }
    unfold lobe_of. destruct (rltb_dec 0 d); destruct (Rlt_dec 0 d); try contradiction; [apply rpower_exponent|apply derivable_const].
Qed.

Lemma laf_gradient p x i n j l : length p = (3 * L * nY)%nat -> (i < nY)%nat -> (n < L)%nat -> (j < nY)%nat -> (l < 3)%nat ->
  laf_dot nY p x n j <> 0 \/ l = 2%nat \/ i <> j -> laf_exact junk nY L p x i n j l.
Proof.
  intros Hp Hi Hn Hj Hl Hd. unfold laf_exact.
  destruct (laf_jacobian_at_ok p x Hp) as (J & EJ & _ & HJ). rewrite EJ. cbn [component]. rewrite HJ by assumption.
  apply (derivable_ext (fun s => sum_to L (fun m => laf_lobe nY (upd p ((n * nY + j) * 3 + l) s) x m i))).
  { intros s. destruct (laf_value_at_ok (upd p ((n * nY + j) * 3 + l) s) x) as (v & E & _ & Hv); [rewrite upd_length; exact Hp|].
    rewrite E. cbn [component]. symmetry. apply Hv, Hi. }
  eapply derivable_eq.
  - apply (derivable_sum_to L (fun s m => laf_lobe nY (upd p ((n * nY + j) * 3 + l) s) x m i)
      (fun m => if (m =? n)%nat then laf_entry nY p x i n j l else 0)).
    intros m Hm. destruct (Nat.eqb_spec m n) as [->|N].
    + destruct (Nat.eq_dec i j) as [->|Nij].
      * apply laf_lobe_derive; try assumption. destruct Hd as [|[|]]; [left; assumption|right; assumption|contradiction].
      * unfold laf_entry. cbv zeta. destruct (Nat.eqb_spec i j); [contradiction|]. cbn [andb].
        apply (derivable_ext (fun _ => laf_lobe nY p x n i)); [|apply derivable_const].
        intros s. symmetry. apply laf_lobe_other; try assumption. right; exact Nij.
    + apply (derivable_ext (fun _ => laf_lobe nY p x m i)); [|apply derivable_const].
      intros s. symmetry. apply laf_lobe_other; try assumption. left; exact N.
  - rewrite (sum_to_single _ _ n Hn); [rewrite Nat.eqb_refl; reflexivity|].
    intros m _ N. destruct (Nat.eqb_spec m n); [contradiction|reflexivity].
Qed.

(** ** Starting point *)
Lemma laf_start_ok given : exists p, (do s <- laf_start junk nY L given; laf_get junk nY s) = Ok p /\ length p = (3 * L * nY)%nat /\
  forall m i, (m < L)%nat -> (i < nY)%nat -> laf_par nY p m i 0 = laf_cxy given m /\ laf_par nY p m i 1 = 1 /\ laf_par nY p m i 2 = INR L.
Proof.
  unfold laf_start. cbv zeta.
  destruct (for_inv (fun k t => sized nY L t /\ forall m i, (m < k)%nat -> (i < nY)%nat ->
    nth ((m * nY + i) * 2 + 0) (l_C t) 0 = laf_cxy given m /\ nth ((m * nY + i) * 2 + 1) (l_C t) 0 = 1 /\ nth (m * nY + i) (l_N t) 0 = INR L)
    (fun m s => for_ nY 0 (fun i s =>
      do C1 <- wr (l_C s) ((m * nY + i) * 2 + 0) (laf_cxy given m); do C2 <- wr C1 ((m * nY + i) * 2 + 1) 1;
      do N1 <- wr (l_N s) (m * nY + i) (INR (l_n s)); Ok (mkLobes (l_n s) C2 N1)) s) L 0) with (s := set_nb_lobes junk nY L) as (t & E & HS & HI).
  - intros m t Hm (HS & HI).
    destruct (for_inv (fun k u => sized nY L u /\
      (forall i, (i < k)%nat -> nth ((m * nY + i) * 2 + 0) (l_C u) 0 = laf_cxy given m /\ nth ((m * nY + i) * 2 + 1) (l_C u) 0 = 1 /\ nth (m * nY + i) (l_N u) 0 = INR L) /\
      (forall m' i, (m' < m)%nat -> (i < nY)%nat -> nth ((m' * nY + i) * 2 + 0) (l_C u) 0 = laf_cxy given m' /\ nth ((m' * nY + i) * 2 + 1) (l_C u) 0 = 1 /\ nth (m' * nY + i) (l_N u) 0 = INR L))
      (fun i s => do C1 <- wr (l_C s) ((m * nY + i) * 2 + 0) (laf_cxy given m); do C2 <- wr C1 ((m * nY + i) * 2 + 1) 1;
      do N1 <- wr (l_N s) (m * nY + i) (INR (l_n s)); Ok (mkLobes (l_n s) C2 N1)) nY 0) with (s := t) as (u & E & U1 & U2 & U3).
    + intros i u Hi ((A1 & A2 & A3) & B & C). assert ((m * nY + i < L * nY)%nat) by nia.
      rewrite wr_ok by lia. cbn [bind]. rewrite wr_ok by (rewrite upd_length; lia). cbn [bind]. rewrite wr_ok by lia. cbn [bind].
      eexists. split; [reflexivity|]. split; [split; [exact A1|]; cbn [l_C l_N]; rewrite !upd_length; auto|]. cbn [l_C l_N]. rewrite A1. split.
      * intros k Hk. destruct (Nat.eq_dec k i) as [->|N].
        -- rewrite (nth_upd_other _ ((m * nY + i) * 2 + 1) ((m * nY + i) * 2 + 0)) by lia.
           rewrite !nth_upd_same by (rewrite ?upd_length; lia). auto.
        -- rewrite !(nth_upd_other _ _ _ _) by lia. apply B. lia.
      * intros m' k Hm' Hk. assert ((m' * nY + k < m * nY)%nat) by nia. rewrite !(nth_upd_other _ _ _ _) by lia. apply C; assumption.
    + split; [exact HS|]. split; [intros; lia|exact HI].
    + exists u. split; [exact E|]. split; [exact U1|]. intros m' i Hm' Hi. destruct (Nat.eq_dec m' m) as [->|N]; [apply U2; lia|apply U3; [lia|exact Hi]].
  - split; [apply set_nb_sized|]. intros; lia.
  - set (p := flat_map (fun q => [nth (q * 2 + 0) (l_C t) 0; nth (q * 2 + 1) (l_C t) 0; nth q (l_N t) 0]) (seq 0 (L * nY))).
    assert (Hlen : forall n a, length (flat_map (fun q => [nth (q * 2 + 0) (l_C t) 0; nth (q * 2 + 1) (l_C t) 0; nth q (l_N t) 0]) (seq a n)) = (3 * n)%nat).
    { induction n as [|n IHn]; intros a; [reflexivity|]. cbn [seq flat_map app length]. rewrite IHn. lia. }
    assert (Hnth : forall n a q, (q < n)%nat -> 
      let w := flat_map (fun q => [nth (q * 2 + 0) (l_C t) 0; nth (q * 2 + 1) (l_C t) 0; nth q (l_N t) 0]) (seq a n) in
      nth (q * 3 + 0) w 0 = nth ((a + q) * 2 + 0) (l_C t) 0 /\ nth (q * 3 + 1) w 0 = nth ((a + q) * 2 + 1) (l_C t) 0 /\ nth (q * 3 + 2) w 0 = nth (a + q) (l_N t) 0).
    { induction n as [|n IHn]; intros a q Hq; [lia|]. cbn [seq flat_map app]. cbv zeta. destruct q as [|z].
      - cbn [Nat.mul Nat.add nth]. replace (a + 0)%nat with a by lia. auto.
      - specialize (IHn (S a) z ltac:(lia)). cbv zeta in IHn.
        change (S z * 3)%nat with (3 + z * 3)%nat. cbn [Nat.add nth] in IHn |- *. rewrite <- plus_n_Sm. exact IHn. }
    assert (HL : length p = (3 * L * nY)%nat) by (unfold p; rewrite Hlen; lia).
    assert (HH : holds nY L p t).
    { split; [exact HS|]. intros m Hm. destruct (Hnth (L * nY)%nat 0%nat m Hm) as (A & B & C). unfold p. rewrite A, B, C. auto. }
    exists p. split; [|split; [exact HL|]].
    + change (for_ L 0 _ (set_nb_lobes junk nY L)) with (for_ L 0 (fun m s => for_ nY 0 (fun i s =>
        do C1 <- wr (l_C s) ((m * nY + i) * 2 + 0) (laf_cxy given m); do C2 <- wr C1 ((m * nY + i) * 2 + 1) 1;
        do N1 <- wr (l_N s) (m * nY + i) (INR (l_n s)); Ok (mkLobes (l_n s) C2 N1)) s) (set_nb_lobes junk nY L)).
      rewrite E. cbn [bind]. apply (laf_get_ok junk nY L p t HH HL).
    + intros m i Hm Hi. assert ((m * nY + i < L * nY)%nat) by nia. destruct HH as (_ & HH). destruct (HH (m * nY + i)%nat ltac:(assumption)) as (A & B & C).
      unfold laf_par. rewrite <- A, <- B, <- C. apply HI; lia.
Qed.
End Grad.

(** Proofs for C100, fourth part: starting point, and reading with the flag set. *)
From Coq Require Import Reals List Lia Lra.
From Verif Require Import Base ParamsModel GeoModel CommonModel FuncModel FuncSpec FuncProofs FuncJac TextModel NlModel NlSpec NlProofs NlGrad NlGrad2 NlMoreModel NlMoreSpec NlLobes NlLobes2 LafModel LafSpec LafProofs LafProofs3.
Open Scope R_scope.

(** ** the diffuse term *)
Section Kd.
Variables nY dX dY : nat.

Lemma least_snoc f n m v : least f n m -> f n = v -> least f (S n) (Rmin v m).
Proof.
  intros ((k & Hk & Ek) & H) Ev. unfold Rmin. destruct (Rle_dec v m) as [Q|Q]; split.
  - exists n. split; [lia|exact Ev].
  - intros i Hi. destruct (Nat.eq_dec i n) as [->|]; [lra|]. specialize (H i ltac:(lia)). lra.
  - exists k. split; [lia|exact Ek].
  - intros i Hi. destruct (Nat.eq_dec i n) as [->|]; [lra|]. apply H. lia.
Qed.

Lemma akd_ok rows kd0 : rows <> [] -> (forall x, In x rows -> length x = (dX + dY)%nat) -> (dY <= length kd0)%nat ->
  exists kd, akd dX dY rows kd0 = Ok kd /\ length kd = length kd0 /\
    (forall j, (j < dY)%nat -> least (chan dX rows j) (length rows) (nth j kd 0)) /\ (forall j, (dY <= j)%nat -> nth j kd 0 = nth j kd0 0).
Proof.
  destruct rows as [|x0 rest]; [congruence|]. intros _ Hr Hk. cbn [akd].
  destruct (for_inv (fun k v => length v = length kd0 /\ (forall j, (j < k)%nat -> nth j v 0 = nth (dX + j) x0 0) /\ forall j, (k <= j)%nat -> nth j v 0 = nth j kd0 0)
    (fun i kd => do v <- rd x0 (dX + i); wr kd i v) dY 0) with (s := kd0) as (k0 & E & I1 & I2 & I3).
  { intros i v Hi (A & B & C). rewrite rd_nth by (rewrite (Hr x0) by (left; reflexivity); lia). cbn [bind]. rewrite wr_ok by lia. eexists. split; [reflexivity|].
    split; [rewrite upd_length; exact A|]. split; intros j Hj.
    - destruct (Nat.eq_dec j i) as [->|N]; [apply nth_upd_same; lia|]. rewrite nth_upd_other by lia. apply B. lia.
    - rewrite nth_upd_other by lia. apply C. lia. }
  { split; [reflexivity|]. split; [intros; lia|reflexivity]. }
  cbn [Nat.add] in *. rewrite E. cbn [bind].
  set (step := fun acc xi => do k <- acc; for_ dY 0 (fun j kd => do v <- rd xi (dX + j); do o <- rd kd j; wr kd j (Rmin v o)) k).
  assert (G : forall rest done k0, (forall x, In x rest -> length x = (dX + dY)%nat) -> length k0 = length kd0 ->
    (forall j, (j < dY)%nat -> least (chan dX done j) (length done) (nth j k0 0)) -> (forall j, (dY <= j)%nat -> nth j k0 0 = nth j kd0 0) ->
    exists kd, fold_left step rest (Ok k0) = Ok kd /\ length kd = length kd0 /\
      (forall j, (j < dY)%nat -> least (chan dX (done ++ rest) j) (length (done ++ rest)) (nth j kd 0)) /\ (forall j, (dY <= j)%nat -> nth j kd 0 = nth j kd0 0)).
  { clear k0 E I1 I2 I3 Hr. induction rest0 as [|xi rest0 IH]; intros done k0 Hr A B C.
    - exists k0. rewrite app_nil_r. auto.
    - cbn [fold_left]. unfold step at 2. cbn [bind].
      destruct (for_inv (fun k v => length v = length kd0 /\ (forall j, (j < k)%nat -> nth j v 0 = Rmin (nth (dX + j) xi 0) (nth j k0 0)) /\ forall j, (k <= j)%nat -> nth j v 0 = nth j k0 0)
        (fun j kd => do v <- rd xi (dX + j); do o <- rd kd j; wr kd j (Rmin v o)) dY 0) with (s := k0) as (k1 & E & J1 & J2 & J3).
      { intros i v Hi (A' & B' & C'). rewrite rd_nth by (rewrite (Hr xi) by (left; reflexivity); lia). cbn [bind]. rewrite rd_nth by lia. cbn [bind]. rewrite wr_ok by lia. eexists. split; [reflexivity|].
        split; [rewrite upd_length; exact A'|]. split; intros j Hj.
        - destruct (Nat.eq_dec j i) as [->|N]; [rewrite nth_upd_same by lia; rewrite C' by lia; reflexivity|]. rewrite nth_upd_other by lia. apply B'. lia.
        - rewrite nth_upd_other by lia. apply C'. lia. }
      { split; [exact A|]. split; [intros; lia|reflexivity]. }
      cbn [Nat.add] in *. rewrite E.
      destruct (IH (done ++ [xi]) k1) as (kd & F1 & F2 & F3 & F4); [intros; apply Hr; right; assumption|exact J1| | |].
      + intros j Hj. rewrite J2 by exact Hj. rewrite app_length. cbn [length]. rewrite Nat.add_1_r. apply least_snoc.
        * destruct (B j Hj) as ((k & Hk' & Ek) & M). split.
          -- exists k. split; [exact Hk'|]. unfold chan in *. rewrite app_nth1 by exact Hk'. exact Ek.
          -- intros k' Hk''. unfold chan in *. rewrite app_nth1 by exact Hk''. apply M, Hk''.
        * unfold chan. rewrite app_nth2 by lia. rewrite Nat.sub_diag. reflexivity.
      + intros j Hj. rewrite J3 by exact Hj. apply C, Hj.
      + exists kd. rewrite <- app_assoc in F3. cbn [app] in F3. auto. }
  destruct (G rest [x0] k0) as (kd & F1 & F2 & F3 & F4); [intros; apply Hr; right; assumption|exact I1| |exact I3|].
  - intros j Hj. rewrite I2 by exact Hj. cbn [length]. split; [exists 0%nat; split; [lia|reflexivity]|]. intros k Hk'. assert (k = 0)%nat as -> by lia. apply Rle_refl.
  - exists kd. auto.
Qed.

Lemma akd_steps rows kd0 : steps (fun kd => length kd = length kd0) (akd dX dY rows kd0).
Proof.
  destruct rows as [|x0 rest]; [exact I|]. cbn [akd].
  apply (steps_bind (fun kd : list R => length kd = length kd0)).
  - apply steps_for; [|reflexivity]. intros i s Hs. apply (steps_bind (fun _ => True)); [apply steps_rd|]. intros v _. apply steps_wr, Hs.
  - intros k0 Hk0.
    set (step := fun acc xi => do k <- acc; for_ dY 0 (fun j kd => do v <- rd xi (dX + j); do o <- rd kd j; wr kd j (Rmin v o)) k).
    change (steps (fun kd => length kd = length kd0) (fold_left step rest (Ok k0))).
    assert (G : forall rest acc, steps (fun kd => length kd = length kd0) acc -> steps (fun kd => length kd = length kd0) (fold_left step rest acc)).
    { induction rest0 as [|xi rest0 IH]; intros acc Ha; [exact Ha|]. cbn [fold_left]. apply IH. unfold step.
      apply (steps_bind _ _ _ _ Ha). intros k Hk. apply steps_for; [|exact Hk]. intros i s Hs.
      apply (steps_bind (fun _ => True)); [apply steps_rd|]. intros v _. apply (steps_bind (fun _ => True)); [apply steps_rd|]. intros o _. apply steps_wr, Hs. }
    apply G. exact Hk0.
Qed.
(** one channel too many *)
Lemma akd_wide rows kd0 : (length kd0 < dY)%nat -> akd dX dY rows kd0 = Abort.
Proof.
  intros H. destruct rows as [|x0 rest]; [reflexivity|]. cbn [akd].
  rewrite (for_abort (fun kd : list R => length kd = length kd0) _ dY (length kd0)); [reflexivity| | |lia|reflexivity].
  - intros i s Hs. apply (steps_bind (fun _ => True)); [apply steps_rd|]. intros v _. apply steps_wr, Hs.
  - intros s Hs. pose proof (steps_rd x0 (dX + length kd0)) as Q. destruct (rd x0 (dX + length kd0)); cbn [steps bind] in *; try contradiction; [|reflexivity].
    apply wr_abort. lia.
Qed.
End Kd.

Section Start.
Variable junk : R.
Variables nY dX dY : nat.

Lemma resized_length l n : length (resized junk l n) = n.
Proof. unfold resized. destruct (Nat.eqb_spec (length l) n) as [E|_]; [exact E|apply repeat_length]. Qed.

Lemma abootstrap_ok L rows s0 : a_iso s0 = false -> length (a_kd s0) = nY -> rows <> [] -> (forall x, In x rows -> length x = (dX + dY)%nat) -> (dY <= nY)%nat ->
  exists s p, abootstrap junk nY L dX dY rows s0 = Ok s /\ lsized nY L s /\
    (forall j, (j < dY)%nat -> least (chan dX rows j) (length rows) (nth j (a_kd s) 0)) /\ (forall j, (dY <= j < nY)%nat -> nth j (a_kd s) 0 = nth j (a_kd s0) 0) /\
    aget junk nY s = Ok p /\ length p = (4 * L * nY)%nat /\
    forall m i, (m < L)%nat -> (i < nY)%nat -> lpar nY p m i 0 = - sin (PI / 2 * (INR m / INR L)) /\ lpar nY p m i 1 = - sin (PI / 2 * (INR m / INR L)) /\
      lpar nY p m i 2 = cos (PI / 2 * (INR m / INR L)) /\ lpar nY p m i 3 = INR L.
Proof.
  intros Hi Hkd Hr Hw Hd. unfold abootstrap. cbv zeta. destruct (akd_ok dX dY rows (a_kd (aset_nb_lobes junk nY L s0)) Hr Hw) as (kd & E & K1 & K2 & K3); [cbn [aset_nb_lobes a_kd]; lia|].
  rewrite E. cbn [bind]. cbn [aset_nb_lobes a_kd] in K1, K3. clear E.
  set (s1 := mkLaf _ _ _ _ kd).
  assert (HS1 : lsized nY L s1).
  { unfold s1, lsized. cbn [aset_nb_lobes a_n a_iso a_C a_N a_kd]. rewrite Hi. rewrite !resized_length. repeat split; auto. congruence. }
  assert (HK1 : a_kd s1 = kd) by reflexivity. clearbody s1.
  set (th := fun m : nat => 1 / 2 * PI * INR m / INR L).
  set (ok := fun (t : laf) (m i : nat) => nth ((m * nY + i) * 3 + 0) (a_C t) 0 = - sin (th m) /\ nth ((m * nY + i) * 3 + 1) (a_C t) 0 = - sin (th m) /\
    nth ((m * nY + i) * 3 + 2) (a_C t) 0 = cos (th m) /\ nth (m * nY + i) (a_N t) 0 = INR L).
  set (body := fun m i s => do C1 <- wr (a_C s) ((m * nY + i) * 3 + 0) (- sin (th m)); do C2 <- wr C1 ((m * nY + i) * 3 + 1) (- sin (th m));
    do C3 <- wr C2 ((m * nY + i) * 3 + 2) (cos (th m)); do N1 <- wr (a_N s) (m * nY + i) (INR L); Ok (mkLaf (a_n s) (a_iso s) C3 N1 (a_kd s))).
  change (exists s p, for_ L 0 (fun m s => for_ nY 0 (body m) s) s1 = Ok s /\ lsized nY L s /\
    (forall j, (j < dY)%nat -> least (chan dX rows j) (length rows) (nth j (a_kd s) 0)) /\ (forall j, (dY <= j < nY)%nat -> nth j (a_kd s) 0 = nth j (a_kd s0) 0) /\
    aget junk nY s = Ok p /\ length p = (4 * L * nY)%nat /\
    forall m i, (m < L)%nat -> (i < nY)%nat -> lpar nY p m i 0 = - sin (PI / 2 * (INR m / INR L)) /\ lpar nY p m i 1 = - sin (PI / 2 * (INR m / INR L)) /\
      lpar nY p m i 2 = cos (PI / 2 * (INR m / INR L)) /\ lpar nY p m i 3 = INR L).
  destruct (for_inv (fun k t => lsized nY L t /\ a_kd t = kd /\ forall m i, (m < k)%nat -> (i < nY)%nat -> ok t m i) (fun m s => for_ nY 0 (body m) s) L 0) with (s := s1) as (t & E & HS & HK & HI).
  - intros m t Hm (HS & HK & HI).
    destruct (for_inv (fun k u => lsized nY L u /\ a_kd u = kd /\ (forall i, (i < k)%nat -> ok u m i) /\ (forall m' i, (m' < m)%nat -> (i < nY)%nat -> ok u m' i)) (body m) nY 0) with (s := t) as (u & E & U1 & UK & U2 & U3).
    + intros i u Hii ((A1 & A0 & A2 & A3 & A4) & AK & B & C). assert ((m * nY + i < L * nY)%nat) by nia. unfold body.
      rewrite wr_ok by lia. cbn [bind]. rewrite wr_ok by (rewrite upd_length; lia). cbn [bind]. rewrite wr_ok by (rewrite !upd_length; lia). cbn [bind]. rewrite wr_ok by lia. cbn [bind].
      eexists. split; [reflexivity|]. split; [repeat split; cbn [a_n a_iso a_C a_N a_kd]; rewrite ?upd_length; auto|]. split; [exact AK|]. unfold ok in *. cbn [a_C a_N]. split.
      * intros k Hk. destruct (Nat.eq_dec k i) as [->|N].
        -- rewrite (nth_upd_other _ ((m * nY + i) * 3 + 2) ((m * nY + i) * 3 + 0)), (nth_upd_other _ ((m * nY + i) * 3 + 2) ((m * nY + i) * 3 + 1)), (nth_upd_other _ ((m * nY + i) * 3 + 1) ((m * nY + i) * 3 + 0)) by lia.
           rewrite !nth_upd_same by (rewrite ?upd_length; lia). auto.
        -- rewrite !(nth_upd_other _ _ _ _) by lia. apply B. lia.
      * intros m' k Hm' Hk. assert ((m' * nY + k < m * nY)%nat) by nia. rewrite !(nth_upd_other _ _ _ _) by lia. apply C; assumption.
    + split; [exact HS|]. split; [exact HK|]. split; [intros; lia|exact HI].
    + exists u. split; [exact E|]. split; [exact U1|]. split; [exact UK|]. intros m' i Hm' Hii. destruct (Nat.eq_dec m' m) as [->|N]; [apply U2; lia|apply U3; [lia|exact Hii]].
  - split; [exact HS1|]. split; [exact HK1|]. intros; lia.
  - set (f := fun q => [nth (q * 3 + 0) (a_C t) 0; nth (q * 3 + 1) (a_C t) 0; nth (q * 3 + 2) (a_C t) 0; nth q (a_N t) 0]).
    set (p := flat_map f (seq 0 (L * nY))).
    assert (Hlen : forall n a, length (flat_map f (seq a n)) = (4 * n)%nat).
    { induction n as [|n IHn]; intros a; [reflexivity|]. cbn [seq flat_map]. rewrite app_length, IHn. cbn [f length]. lia. }
    assert (Hnth : forall n a q, (q < n)%nat -> let w := flat_map f (seq a n) in
      nth (q * 4 + 0) w 0 = nth ((a + q) * 3 + 0) (a_C t) 0 /\ nth (q * 4 + 1) w 0 = nth ((a + q) * 3 + 1) (a_C t) 0 /\ nth (q * 4 + 2) w 0 = nth ((a + q) * 3 + 2) (a_C t) 0 /\ nth (q * 4 + 3) w 0 = nth (a + q) (a_N t) 0).
    { induction n as [|n IHn]; intros a q Hq; [lia|]. cbn [seq flat_map]. unfold f at 1 3 5 7. cbn [app]. cbv zeta. destruct q as [|z].
      - cbn [Nat.mul Nat.add nth]. replace (a + 0)%nat with a by lia. auto.
      - specialize (IHn (S a) z ltac:(lia)). cbv zeta in IHn.
        change (S z * 4)%nat with (4 + z * 4)%nat. cbn [Nat.add nth] in IHn |- *. rewrite <- plus_n_Sm. exact IHn. }
    assert (HL : length p = (4 * L * nY)%nat) by (unfold p; rewrite Hlen; lia).
    assert (HH : lholds nY L p t).
    { split; [exact HS|]. intros m Hm. destruct (Hnth (L * nY)%nat 0%nat m Hm) as (A & B & C & D). unfold p. rewrite A, B, C, D. auto. }
    exists t, p. split; [exact E|]. split; [exact HS|]. rewrite HK. split; [exact K2|]. split; [intros; apply K3; lia|]. split; [apply (aget_ok junk nY L p t HH HL)|]. split; [exact HL|].
    intros m i Hm Hii. assert ((m * nY + i < L * nY)%nat) by nia. destruct HH as (_ & HH). destruct (HH (m * nY + i)%nat ltac:(assumption)) as (A & B & C & D).
    assert (T : th m = PI / 2 * (INR m / INR L)) by (unfold th; field; apply not_0_INR; lia).
    unfold lpar. rewrite <- A, <- B, <- C, <- D, <- T. apply HI; lia.
Qed.

Lemma abootstrap_flag L rows s0 : a_iso s0 = true -> (1 <= L * nY)%nat -> abootstrap junk nY L dX dY rows s0 = Abort.
Proof.
  intros Hi Hp. unfold abootstrap. cbv zeta. pose proof (akd_steps dX dY rows (a_kd (aset_nb_lobes junk nY L s0))) as Q.
  destruct (akd dX dY rows _) as [kd| | |]; cbn [steps bind] in *; try contradiction; [|reflexivity].
  set (s1 := mkLaf _ _ _ _ kd).
  set (Inv := fun s => a_n s = L /\ length (a_C s) = (L * nY * 2)%nat /\ length (a_N s) = (L * nY)%nat).
  assert (HS1 : Inv s1). { unfold s1, Inv. cbn [aset_nb_lobes a_n a_iso a_C a_N a_kd]. rewrite Hi, !resized_length. auto. }
  clearbody s1.
  set (body := fun m i s => let theta := 1 / 2 * PI * INR m / INR L in
    do C1 <- wr (a_C s) ((m * nY + i) * 3 + 0) (- sin theta); do C2 <- wr C1 ((m * nY + i) * 3 + 1) (- sin theta);
    do C3 <- wr C2 ((m * nY + i) * 3 + 2) (cos theta); do N1 <- wr (a_N s) (m * nY + i) (INR L); Ok (mkLaf (a_n s) (a_iso s) C3 N1 (a_kd s))).
  change (for_ L 0 (fun m s => for_ nY 0 (body m) s) s1 = Abort).
  assert (Hb : forall m i s, Inv s -> steps Inv (body m i s)).
  { intros m i s (A & B & C). unfold body. cbv zeta.
    apply (steps_bind _ _ _ _ (steps_wr _ _ _ _ B)). intros C1 B1. apply (steps_bind _ _ _ _ (steps_wr _ _ _ _ B1)). intros C2 B2.
    apply (steps_bind _ _ _ _ (steps_wr _ _ _ _ B2)). intros C3 B3. apply (steps_bind _ _ _ _ (steps_wr _ _ _ _ C)). intros N1 B4.
    cbn [steps]. repeat split; assumption. }
  assert (P1 : (1 <= L)%nat) by (destruct L; cbn in Hp; lia). assert (P2 : (1 <= nY)%nat) by (destruct nY; lia).
  apply (for_abort Inv _ L (L - 1)); [| |lia|exact HS1].
  - intros m u Hu. apply steps_for; [|exact Hu]. intros; apply Hb; assumption.
  - intros u Hu. apply (for_abort Inv _ nY (nY - 1)); [| |lia|exact Hu].
    + intros; apply Hb; assumption.
    + intros s (A & B & C). unfold body. cbv zeta.
      assert (((L - 1) * nY + nY = L * nY)%nat) by (destruct L as [|z]; [lia|]; cbn [Nat.sub]; rewrite Nat.sub_0_r; lia).
      pose proof (steps_wr (a_C s) (((L - 1) * nY + (nY - 1)) * 3 + 0) (- sin (1 / 2 * PI * INR (L - 1) / INR L)) _ B) as Q1.
      destruct (wr (a_C s) _ _) as [C1| | |]; cbn [steps bind] in *; try contradiction; [|reflexivity].
      pose proof (steps_wr C1 (((L - 1) * nY + (nY - 1)) * 3 + 1) (- sin (1 / 2 * PI * INR (L - 1) / INR L)) _ Q1) as Q2.
      destruct (wr C1 _ _) as [C2| | |]; cbn [steps bind] in *; try contradiction; [|reflexivity].
      rewrite wr_abort by lia. reflexivity.
Qed.
End Start.

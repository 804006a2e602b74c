(** Proofs for C100: the Lafortune function. *)
From Coq Require Import Reals List Lia Lra.
From Coquelicot Require Import Coquelicot.
From Verif Require Import Base ParamsModel GeoModel CommonModel FuncModel FuncSpec FuncProofs FuncJac TextModel NlModel NlSpec NlProofs NlGrad NlGrad2 NlMoreModel NlMoreSpec NlLobes NlLobes2 LafModel LafSpec.
Open Scope R_scope.

Ltac four l H := destruct l as [|[|[|[|l]]]]; [| | | |exfalso; lia].

Section Lobes.
Variable junk : R.
Variables nY L : nat.
Notation sized := (lsized nY L).

(** the members hold [p] *)
Definition lholds (p : list R) (s : laf) : Prop := sized s /\ forall m, (m < L * nY)%nat ->
  nth (m * 3 + 0) (a_C s) 0 = nth (m * 4 + 0) p 0 /\ nth (m * 3 + 1) (a_C s) 0 = nth (m * 4 + 1) p 0 /\ nth (m * 3 + 2) (a_C s) 0 = nth (m * 4 + 2) p 0 /\ nth m (a_N s) 0 = nth (m * 4 + 3) p 0.

Lemma aset_ok p s : sized s -> length p = (4 * L * nY)%nat -> exists s', aset nY p s = Ok s' /\ lholds p s' /\ a_kd s' = a_kd s.
Proof.
  intros (H1 & H0 & H2 & H3 & H4) Hp. unfold aset, anb. rewrite H0, H1, Hp, Nat.eqb_refl. cbn [negb].
  set (body := fun m s =>
    do a <- rd p (m * 4 + 0); do C1 <- wr (a_C s) (m * 3 + 0) a;
    do b <- rd p (m * 4 + 1); do C2 <- wr C1 (m * 3 + 1) b;
    do c <- rd p (m * 4 + 2); do C3 <- wr C2 (m * 3 + 2) c;
    do d <- rd p (m * 4 + 3); do N1 <- wr (a_N s) m d; Ok (mkLaf (a_n s) (a_iso s) C3 N1 (a_kd s))).
  change (exists s', for_ L 0 (fun n s => for_ nY 0 (fun i s => body (n * nY + i)%nat s) s) s = Ok s' /\ lholds p s' /\ a_kd s' = a_kd s).
  rewrite for_flat.
  destruct (for_inv (fun k t => sized t /\ a_kd t = a_kd s /\ forall m, (m < k)%nat ->
    nth (m * 3 + 0) (a_C t) 0 = nth (m * 4 + 0) p 0 /\ nth (m * 3 + 1) (a_C t) 0 = nth (m * 4 + 1) p 0 /\ nth (m * 3 + 2) (a_C t) 0 = nth (m * 4 + 2) p 0 /\ nth m (a_N t) 0 = nth (m * 4 + 3) p 0)
    body (L * nY) 0) with (s := s) as (t & E & I1 & IK & I2).
  - intros m t Hm ((S1 & S0 & S2 & S3 & S4) & K & I). unfold body. rewrite !rd_nth by lia. cbn [bind]. rewrite wr_ok by lia. cbn [bind].
    rewrite wr_ok by (rewrite upd_length; lia). cbn [bind]. rewrite wr_ok by (rewrite !upd_length; lia). cbn [bind]. rewrite wr_ok by lia. cbn [bind].
    eexists. split; [reflexivity|]. split; [repeat split; cbn [a_n a_iso a_C a_N a_kd]; rewrite ?upd_length; auto|]. split; [exact K|].
    intros k Hk. cbn [a_C a_N]. destruct (Nat.eq_dec k m) as [->|N].
    + rewrite (nth_upd_other _ (m * 3 + 2) (m * 3 + 0)), (nth_upd_other _ (m * 3 + 2) (m * 3 + 1)), (nth_upd_other _ (m * 3 + 1) (m * 3 + 0)) by lia.
      rewrite !nth_upd_same by (rewrite ?upd_length; lia). auto.
    + rewrite !(nth_upd_other _ _ _ _) by lia. apply I. lia.
  - split; [repeat split; assumption|]. split; [reflexivity|]. intros; lia.
  - exists t. split; [exact E|]. split; [|exact IK]. split; [exact I1|]. intros m Hm. apply I2. lia.
Qed.

Lemma aget_ok p s : lholds p s -> length p = (4 * L * nY)%nat -> aget junk nY s = Ok p.
Proof.
  intros ((H1 & H0 & H2 & H3 & H4) & HI) Hp. unfold aget, anb. rewrite H0, H1.
  set (body := fun m out =>
    do a <- rd (a_C s) (m * 3 + 0); do o1 <- wr out (m * 4 + 0) a;
    do b <- rd (a_C s) (m * 3 + 1); do o2 <- wr o1 (m * 4 + 1) b;
    do c <- rd (a_C s) (m * 3 + 2); do o3 <- wr o2 (m * 4 + 2) c;
    do d <- rd (a_N s) m; wr o3 (m * 4 + 3) d).
  change (for_ L 0 (fun n s => for_ nY 0 (fun i s => body (n * nY + i)%nat s) s) (repeat junk (4 * L * nY)) = Ok p).
  rewrite for_flat.
  destruct (for_inv (fun k out => length out = (4 * L * nY)%nat /\ forall m, (m < 4 * k)%nat -> nth m out 0 = nth m p 0)
    body (L * nY) 0) with (s := repeat junk (4 * L * nY)) as (out & E & I1 & I2).
  - intros m t Hm (S1 & I). destruct (HI m ltac:(lia)) as (A0 & A1 & A2 & A3). unfold body. rewrite !rd_nth by lia. cbn [bind]. rewrite wr_ok by lia. cbn [bind].
    rewrite wr_ok by (rewrite upd_length; lia). cbn [bind]. rewrite wr_ok by (rewrite !upd_length; lia). cbn [bind]. rewrite wr_ok by (rewrite !upd_length; lia).
    eexists. split; [reflexivity|]. split; [rewrite !upd_length; exact S1|].
    intros k Hk. rewrite A0, A1, A2, A3. clear A0 A1 A2 A3.
    destruct (Nat.eq_dec k (m * 4 + 3)) as [->|N3]; [rewrite nth_upd_same by (rewrite !upd_length; lia); reflexivity|rewrite nth_upd_other by lia].
    destruct (Nat.eq_dec k (m * 4 + 2)) as [->|N2]; [rewrite nth_upd_same by (rewrite !upd_length; lia); reflexivity|rewrite nth_upd_other by lia].
    destruct (Nat.eq_dec k (m * 4 + 1)) as [->|N1]; [rewrite nth_upd_same by (rewrite !upd_length; lia); reflexivity|rewrite nth_upd_other by lia].
    destruct (Nat.eq_dec k (m * 4 + 0)) as [->|N0]; [rewrite nth_upd_same by (rewrite ?upd_length; lia); reflexivity|rewrite nth_upd_other by lia].
    apply I. lia.
  - split; [apply repeat_length|]. intros; lia.
  - rewrite E. f_equal. apply nth_ext with (d := 0) (d' := 0); [congruence|]. intros i Hi. apply I2. lia.
Qed.

Lemma acurrent_ok p s n i : lholds p s -> (n < L)%nat -> (i < nY)%nat ->
  acurrent nY s n i = Ok (lpar nY p n i 0, lpar nY p n i 1, lpar nY p n i 2, lpar nY p n i 3).
Proof.
  intros ((H1 & H0 & H2 & H3 & H4) & HI) Hn Hi. assert (Hm : (n * nY + i < L * nY)%nat) by nia. destruct (HI _ Hm) as (A & B & C & D).
  unfold acurrent, lpar. rewrite H0, !rd_nth by lia. cbn [bind]. rewrite A, B, C, D. reflexivity.
Qed.

Lemma avalue_ok p s x : lholds p s -> exists v, avalue junk nY s x = Ok v /\ length v = nY /\
  forall i, (i < nY)%nat -> nth i v 0 = nth i (a_kd s) 0 + lsum L (fun n => llobe nY p x n i).
Proof.
  intros H. pose proof H as ((H1 & _ & _ & _ & H4) & _). unfold avalue. rewrite H1. cbv zeta.
  set (body := fun (i n : nat) res => do l <- acurrent nY s n i; let '(cx, cy, cz, e) := l in
      if rltb 0 (cx * (x 0%nat * x 3%nat) + cy * (x 1%nat * x 4%nat) + cz * (x 2%nat * x 5%nat)) then do r <- rd res i; wr res i (r + Rpower (cx * (x 0%nat * x 3%nat) + cy * (x 1%nat * x 4%nat) + cz * (x 2%nat * x 5%nat)) e) else Ok res).
  change (exists v, for_ nY 0 (fun i res => do k <- rd (a_kd s) i; do r0 <- wr res i k; for_ L 0 (body i) r0) (repeat junk nY) = Ok v /\ length v = nY /\
    forall i, (i < nY)%nat -> nth i v 0 = nth i (a_kd s) 0 + lsum L (fun n => llobe nY p x n i)).
  destruct (for_inv (fun k v => length v = nY /\ forall i, (i < k)%nat -> nth i v 0 = nth i (a_kd s) 0 + lsum L (fun n => llobe nY p x n i))
    (fun i res => do k <- rd (a_kd s) i; do r0 <- wr res i k; for_ L 0 (body i) r0) nY 0) with (s := repeat junk nY) as (v & E & I1 & I2).
  - intros i v Hi (S1 & I). rewrite rd_nth by lia. cbn [bind]. rewrite wr_ok by lia. cbn [bind].
    destruct (for_inv (fun k t => length t = nY /\ nth i t 0 = nth i (a_kd s) 0 + lsum k (fun n => llobe nY p x n i) /\ forall j, j <> i -> nth j t 0 = nth j v 0)
      (body i) L 0) with (s := upd v i (nth i (a_kd s) 0)) as (t & E & T1 & T2 & T3).
    + intros n t Hn (T1 & T2 & T3). unfold body. rewrite (acurrent_ok p s n i H) by lia. cbn [bind].
      change (lpar nY p n i 0 * (x 0%nat * x 3%nat) + lpar nY p n i 1 * (x 1%nat * x 4%nat) + lpar nY p n i 2 * (x 2%nat * x 5%nat)) with (ldot nY p x n i).
      cbn [lsum]. unfold llobe at 2.
      destruct (rltb_dec 0 (ldot nY p x n i)) as [Hd|Hd]; destruct (Rlt_dec 0 (ldot nY p x n i)); try lra.
      * rewrite rd_nth by lia. cbn [bind]. rewrite wr_ok by lia. eexists. split; [reflexivity|]. split; [rewrite upd_length; exact T1|].
        split; [rewrite nth_upd_same by lia; rewrite T2; ring|]. intros j Hj. rewrite nth_upd_other by congruence. apply T3, Hj.
      * exists t. split; [reflexivity|]. split; [exact T1|]. split; [rewrite T2; ring|exact T3].
    + split; [rewrite upd_length; exact S1|]. split; [rewrite nth_upd_same by lia; cbn [lsum]; ring|]. intros j Hj. apply nth_upd_other. congruence.
    + exists t. split; [exact E|]. split; [exact T1|]. intros j Hj. destruct (Nat.eq_dec j i) as [->|Nj]; [exact T2|].
      rewrite T3 by exact Nj. apply I. lia.
  - split; [apply repeat_length|]. intros; lia.
  - exists v. split; [exact E|]. split; [exact I1|]. intros i Hi. apply I2. lia.
Qed.

(** entry of the Jacobian *)
Definition lentry (p : list R) (x : mem) (i n j l : nat) : R :=
  let d := ldot nY p x n j in let e := lpar nY p n j 3 in
  if ((i =? j)%nat && rltb 0 d)%bool then
    match l with
    | O => x 0%nat * x 3%nat * e * Rpower d (e - 1)
    | 1%nat => x 1%nat * x 4%nat * e * Rpower d (e - 1)
    | 2%nat => x 2%nat * x 5%nat * e * Rpower d (e - 1)
    | _ => ln d * Rpower d e
    end
  else 0.

Lemma ajac_ok p s x : lholds p s -> exists J, ajac junk nY s x = Ok J /\ length J = (nY * (4 * L * nY))%nat /\
  forall i n j l, (i < nY)%nat -> (n < L)%nat -> (j < nY)%nat -> (l < 4)%nat ->
    nth (i * (4 * L * nY) + ((n * nY + j) * 4 + l)) J 0 = lentry p x i n j l.
Proof.
  intros H. pose proof H as ((H1 & H0 & _) & _). unfold ajac, anb. rewrite H0, H1. cbv zeta.
  set (T := (4 * L * nY)%nat).
  set (body := fun i n j (jac : list R) =>
    do l <- acurrent nY s n j;
    (let '(cx, cy, cz, e) := l in
     let '(a, b, c, f) := if ((i =? j)%nat && rltb 0 (cx * (x 0%nat * x 3%nat) + cy * (x 1%nat * x 4%nat) + cz * (x 2%nat * x 5%nat)))%bool
      then (x 0%nat * x 3%nat * e * Rpower (cx * (x 0%nat * x 3%nat) + cy * (x 1%nat * x 4%nat) + cz * (x 2%nat * x 5%nat)) (e - 1),
            x 1%nat * x 4%nat * e * Rpower (cx * (x 0%nat * x 3%nat) + cy * (x 1%nat * x 4%nat) + cz * (x 2%nat * x 5%nat)) (e - 1),
            x 2%nat * x 5%nat * e * Rpower (cx * (x 0%nat * x 3%nat) + cy * (x 1%nat * x 4%nat) + cz * (x 2%nat * x 5%nat)) (e - 1),
            if rleb (cx * (x 0%nat * x 3%nat) + cy * (x 1%nat * x 4%nat) + cz * (x 2%nat * x 5%nat)) 0 then 0
            else ln (cx * (x 0%nat * x 3%nat) + cy * (x 1%nat * x 4%nat) + cz * (x 2%nat * x 5%nat)) * Rpower (cx * (x 0%nat * x 3%nat) + cy * (x 1%nat * x 4%nat) + cz * (x 2%nat * x 5%nat)) e)
      else (0, 0, 0, 0) in
     do j1 <- wr jac (i * T + 4 * (n * nY + j) + 0) a; do j2 <- wr j1 (i * T + 4 * (n * nY + j) + 1) b; do j3 <- wr j2 (i * T + 4 * (n * nY + j) + 2) c; wr j3 (i * T + 4 * (n * nY + j) + 3) f)).
  assert (Hb : forall i n j jac, (i < nY)%nat -> (n < L)%nat -> (j < nY)%nat -> length jac = (nY * T)%nat ->
    exists jac', body i n j jac = Ok jac' /\ length jac' = (nY * T)%nat /\
      (forall l, (l < 4)%nat -> nth (i * T + ((n * nY + j) * 4 + l)) jac' 0 = lentry p x i n j l) /\
      (forall q, (forall l, (l < 4)%nat -> (i * T + ((n * nY + j) * 4 + l))%nat <> q) -> nth q jac' 0 = nth q jac 0)).
  { intros i n j jac Hi Hn Hj Lj. unfold body. rewrite (acurrent_ok p s n j H) by assumption. cbn [bind].
    change (lpar nY p n j 0 * (x 0%nat * x 3%nat) + lpar nY p n j 1 * (x 1%nat * x 4%nat) + lpar nY p n j 2 * (x 2%nat * x 5%nat)) with (ldot nY p x n j).
    assert (Hm : (n * nY + j < L * nY)%nat) by nia.
    assert (HT : (i * T + 4 * (n * nY + j) + 3 < nY * T)%nat) by (unfold T; nia).
    assert (Ent : forall l, (l < 4)%nat -> lentry p x i n j l = nth l (
      if ((i =? j)%nat && rltb 0 (ldot nY p x n j))%bool then
        [x 0%nat * x 3%nat * lpar nY p n j 3 * Rpower (ldot nY p x n j) (lpar nY p n j 3 - 1);
         x 1%nat * x 4%nat * lpar nY p n j 3 * Rpower (ldot nY p x n j) (lpar nY p n j 3 - 1);
         x 2%nat * x 5%nat * lpar nY p n j 3 * Rpower (ldot nY p x n j) (lpar nY p n j 3 - 1);
         if rleb (ldot nY p x n j) 0 then 0 else ln (ldot nY p x n j) * Rpower (ldot nY p x n j) (lpar nY p n j 3)] else [0; 0; 0; 0]) 0).
    { intros l Hl. unfold lentry. destruct (i =? j)%nat; cbn [andb]; [|four l Hl; reflexivity].
      destruct (rltb_dec 0 (ldot nY p x n j)) as [D|D]; [|four l Hl; reflexivity]. rewrite (rleb_no (ldot nY p x n j) 0 D). four l Hl; reflexivity. }
    destruct ((i =? j)%nat && rltb 0 (ldot nY p x n j))%bool;
      (rewrite wr_ok by lia; cbn [bind]; rewrite wr_ok by (rewrite upd_length; lia); cbn [bind]; rewrite wr_ok by (rewrite !upd_length; lia); cbn [bind]; rewrite wr_ok by (rewrite !upd_length; lia);
       eexists; split; [reflexivity|]; split; [rewrite !upd_length; exact Lj|]; split;
       [intros l Hl; rewrite (Ent l Hl); four l Hl; cbn [nth];
          [rewrite !nth_upd_other by lia|rewrite !(nth_upd_other _ _ _ _) by lia|rewrite nth_upd_other by lia|];
          (match goal with |- nth ?a (upd _ ?b _) 0 = _ => replace a with b by lia end); apply nth_upd_same; rewrite ?upd_length; lia
       |intros q Hq; rewrite !nth_upd_other; [reflexivity|specialize (Hq 0%nat ltac:(lia)); lia|specialize (Hq 1%nat ltac:(lia)); lia|specialize (Hq 2%nat ltac:(lia)); lia|specialize (Hq 3%nat ltac:(lia)); lia]]). }
  set (row := fun i jac => for_ L 0 (fun n jac => for_ nY 0 (fun j jac => body i n j jac) jac) jac).
  assert (Hrow : forall i jac, (i < nY)%nat -> length jac = (nY * T)%nat ->
    exists jac', row i jac = Ok jac' /\ length jac' = (nY * T)%nat /\
      (forall n j l, (n < L)%nat -> (j < nY)%nat -> (l < 4)%nat -> nth (i * T + ((n * nY + j) * 4 + l)) jac' 0 = lentry p x i n j l) /\
      (forall q, (forall n j l, (n < L)%nat -> (j < nY)%nat -> (l < 4)%nat -> (i * T + ((n * nY + j) * 4 + l))%nat <> q) -> nth q jac' 0 = nth q jac 0)).
  { intros i jac Hi Lj. unfold row.
    destruct (for_inv (fun k t => length t = (nY * T)%nat /\
      (forall n j l, (n < k)%nat -> (j < nY)%nat -> (l < 4)%nat -> nth (i * T + ((n * nY + j) * 4 + l)) t 0 = lentry p x i n j l) /\
      (forall q, (forall n j l, (n < k)%nat -> (j < nY)%nat -> (l < 4)%nat -> (i * T + ((n * nY + j) * 4 + l))%nat <> q) -> nth q t 0 = nth q jac 0))
      (fun n jac => for_ nY 0 (fun j jac => body i n j jac) jac) L 0) with (s := jac) as (t & E & T1 & T2 & T3).
    - intros n t Hn (T1 & T2 & T3).
      destruct (for_inv (fun k u => length u = (nY * T)%nat /\
        (forall j l, (j < k)%nat -> (l < 4)%nat -> nth (i * T + ((n * nY + j) * 4 + l)) u 0 = lentry p x i n j l) /\
        (forall q, (forall j l, (j < k)%nat -> (l < 4)%nat -> (i * T + ((n * nY + j) * 4 + l))%nat <> q) -> nth q u 0 = nth q t 0))
        (body i n) nY 0) with (s := t) as (u & E & U1 & U2 & U3).
      + intros j u Hj (U1 & U2 & U3). destruct (Hb i n j u Hi ltac:(lia) ltac:(lia) U1) as (u' & E & V1 & V2 & V3).
        exists u'. split; [exact E|]. split; [exact V1|]. split.
        * intros j' l Hj' Hl. destruct (Nat.eq_dec j' j) as [->|N]; [apply V2, Hl|].
          rewrite V3; [apply U2; [lia|exact Hl]|]. intros l' Hl' Q. lia.
        * intros q Hq. rewrite V3 by (intros; apply Hq; [lia|assumption]). apply U3. intros; apply Hq; [lia|assumption].
      + split; [exact T1|]. split; [intros; lia|reflexivity].
      + exists u. split; [exact E|]. split; [exact U1|]. split.
        * intros n' j l Hn' Hj Hl. destruct (Nat.eq_dec n' n) as [->|N]; [apply U2; [lia|exact Hl]|].
          rewrite U3; [apply T2; [lia|assumption|assumption]|]. intros j' l' Hj' Hl' Q.
          assert (Q2 : (n * nY + j' = n' * nY + j)%nat) by lia. apply mul_add_inj in Q2; lia.
        * intros q Hq. rewrite U3 by (intros; apply Hq; [lia|lia|assumption]). apply T3. intros; apply Hq; [lia|assumption|assumption].
    - split; [exact Lj|]. split; [intros; lia|reflexivity].
    - exists t. split; [exact E|]. split; [exact T1|]. split; [intros; apply T2; [lia|assumption|assumption]|].
      intros q Hq. apply T3. intros; apply Hq; [lia|assumption|assumption]. }
  change (exists J, for_ nY 0 row (repeat junk (nY * T)) = Ok J /\ length J = (nY * T)%nat /\
    forall i n j l, (i < nY)%nat -> (n < L)%nat -> (j < nY)%nat -> (l < 4)%nat -> nth (i * T + ((n * nY + j) * 4 + l)) J 0 = lentry p x i n j l).
  destruct (for_inv (fun k t => length t = (nY * T)%nat /\
      (forall i n j l, (i < k)%nat -> (n < L)%nat -> (j < nY)%nat -> (l < 4)%nat -> nth (i * T + ((n * nY + j) * 4 + l)) t 0 = lentry p x i n j l))
      row nY 0) with (s := repeat junk (nY * T)) as (J & E & J1 & J2).
  - intros i t Hi (T1 & T2). destruct (Hrow i t ltac:(lia) T1) as (u & E & U1 & U2 & U3).
    exists u. split; [exact E|]. split; [exact U1|]. intros i' n j l Hi' Hn Hj Hl.
    destruct (Nat.eq_dec i' i) as [->|N]; [apply U2; assumption|]. rewrite U3; [apply T2; try assumption; lia|].
    intros n' j' l' Hn' Hj' Hl' Q.
    assert ((n * nY + j < L * nY)%nat) by nia. assert ((n' * nY + j' < L * nY)%nat) by nia.
    apply mul_add_inj in Q; unfold T; lia.
  - split; [apply repeat_length|]. intros; lia.
  - exists J. split; [exact E|]. split; [exact J1|]. intros; apply J2; try assumption; lia.
Qed.
End Lobes.

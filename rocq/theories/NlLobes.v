(** Isotropic Lafortune lobes. *)
From Coq Require Import Reals List Lia Lra.
From Verif Require Import Base ParamsModel GeoModel CommonModel FuncModel FuncSpec FuncProofs FuncJac TextModel NlModel NlSpec NlProofs NlGrad NlGrad2 NlMoreModel NlMoreSpec.
Open Scope R_scope.

(** ** Loops *)
Lemma for_app {S} (body : nat -> S -> outcome S) a : forall b k s,
  for_ (a + b) k body s = do s' <- for_ a k body s; for_ b (k + a) body s'.
Proof.
  induction a as [|a IH]; intros b k s; cbn [for_ Nat.add].
  - cbn [bind]. rewrite Nat.add_0_r. reflexivity.
  - destruct (body k s) as [s'| | |]; cbn [bind]; try reflexivity. rewrite IH. rewrite <- Nat.add_succ_comm. reflexivity.
Qed.
Lemma for_ext {S} (b1 b2 : nat -> S -> outcome S) n : forall k s, (forall i t, (k <= i < k + n)%nat -> b1 i t = b2 i t) -> for_ n k b1 s = for_ n k b2 s.
Proof.
  induction n as [|n IH]; intros k s H; cbn [for_]; [reflexivity|]. rewrite H by lia.
  destruct (b2 k s) as [s'| | |]; cbn [bind]; try reflexivity. apply IH. intros; apply H; lia.
Qed.
Lemma for_shift {S} (body : nat -> S -> outcome S) n : forall k c s, for_ n (c + k) body s = for_ n k (fun i => body (c + i)%nat) s.
Proof.
  induction n as [|n IH]; intros k c s; cbn [for_]; [reflexivity|]. destruct (body (c + k)%nat s) as [s'| | |]; cbn [bind]; try reflexivity.
  rewrite <- Nat.add_succ_r. apply IH.
Qed.
Lemma for_flat {S} (body : nat -> S -> outcome S) a b : forall s,
  for_ a 0 (fun n s => for_ b 0 (fun i s => body (n * b + i)%nat s) s) s = for_ (a * b) 0 body s.
Proof.
  induction a as [|a IH]; intros s; [reflexivity|].
  replace (Datatypes.S a) with (a + 1)%nat by lia. rewrite for_app, IH.
  replace ((a + 1) * b)%nat with (a * b + b)%nat by lia. rewrite for_app. cbn [Nat.add].
  destruct (for_ (a * b) 0 body s) as [s'| | |]; cbn [bind]; try reflexivity. cbn [for_].
  pose proof (for_shift body b 0 (a * b) s') as Q. rewrite Nat.add_0_r in Q. rewrite Q.
  destruct (for_ b 0 (fun i => body (a * b + i)%nat) s') as [u| | |]; reflexivity.
Qed.

Lemma wr_ok v i x : (i < length v)%nat -> wr v i x = Ok (upd v i x).
Proof. intros H. unfold wr. destruct (Nat.ltb_spec i (length v)); [reflexivity|lia]. Qed.
Lemma nth_upd_same v i x : (i < length v)%nat -> nth i (upd v i x) 0 = x.
Proof. intros H. rewrite nth_upd, Nat.eqb_refl. cbn [andb]. destruct (Nat.ltb_spec i (length v)); [reflexivity|lia]. Qed.
Lemma nth_upd_other v i j x : i <> j -> nth j (upd v i x) 0 = nth j v 0.
Proof. intros H. rewrite nth_upd. destruct (Nat.eqb_spec i j); [contradiction|reflexivity]. Qed.

Section Lobes.
Variable junk : R.
Variables nY L : nat.
Notation sized := (sized nY L).

(** the members hold [p] *)
Definition holds (p : list R) (s : lobes) : Prop := sized s /\ forall m, (m < L * nY)%nat ->
  nth (m * 2 + 0) (l_C s) 0 = nth (m * 3 + 0) p 0 /\ nth (m * 2 + 1) (l_C s) 0 = nth (m * 3 + 1) p 0 /\ nth m (l_N s) 0 = nth (m * 3 + 2) p 0.

Lemma set_nb_sized : sized (set_nb_lobes junk nY L).
Proof. unfold sized, set_nb_lobes. cbn. rewrite !repeat_length. auto. Qed.

Lemma laf_set_ok p s : sized s -> length p = (3 * L * nY)%nat -> exists s', laf_set nY p s = Ok s' /\ holds p s'.
Proof.
  intros (H1 & H2 & H3) Hp. unfold laf_set, laf_nb. rewrite H1, Hp, Nat.eqb_refl. cbn [negb].
  set (body := fun m s =>
    do a <- rd p (m * 3 + 0); do C1 <- wr (l_C s) (m * 2 + 0) a;
    do b <- rd p (m * 3 + 1); do C2 <- wr C1 (m * 2 + 1) b;
    do c <- rd p (m * 3 + 2); do N1 <- wr (l_N s) m c; Ok (mkLobes (l_n s) C2 N1)).
  change (exists s', for_ L 0 (fun n s => for_ nY 0 (fun i s => body (n * nY + i)%nat s) s) s = Ok s' /\ holds p s').
  rewrite for_flat.
  destruct (for_inv (fun k t => sized t /\ forall m, (m < k)%nat ->
    nth (m * 2 + 0) (l_C t) 0 = nth (m * 3 + 0) p 0 /\ nth (m * 2 + 1) (l_C t) 0 = nth (m * 3 + 1) p 0 /\ nth m (l_N t) 0 = nth (m * 3 + 2) p 0)
    body (L * nY) 0) with (s := s) as (t & E & I1 & I2).
  - intros m t Hm ((S1 & S2 & S3) & I). unfold body. rewrite !rd_nth by lia. cbn [bind]. rewrite wr_ok by lia. cbn [bind].
    rewrite wr_ok by (rewrite upd_length; lia). cbn [bind]. rewrite wr_ok by lia. cbn [bind].
    eexists. split; [reflexivity|]. split; [split; [exact S1|]; cbn [l_C l_N]; rewrite !upd_length; auto|].
    intros k Hk. cbn [l_C l_N]. destruct (Nat.eq_dec k m) as [->|N].
    + rewrite (nth_upd_other _ (m * 2 + 1) (m * 2 + 0)) by lia.
      rewrite !nth_upd_same by (rewrite ?upd_length; lia). auto.
    + rewrite !(nth_upd_other _ _ _ _) by lia. apply I. lia.
  - split; [repeat split; assumption|]. intros; lia.
  - exists t. split; [exact E|]. split; [exact I1|]. intros m Hm. apply I2. lia.
Qed.

Lemma laf_get_ok p s : holds p s -> length p = (3 * L * nY)%nat -> laf_get junk nY s = Ok p.
Proof.
  intros ((H1 & H2 & H3) & HI) Hp. unfold laf_get. rewrite H1.
  set (body := fun m out =>
    do a <- rd (l_C s) (m * 2 + 0); do o1 <- wr out (m * 3 + 0) a;
    do b <- rd (l_C s) (m * 2 + 1); do o2 <- wr o1 (m * 3 + 1) b;
    do c <- rd (l_N s) m; wr o2 (m * 3 + 2) c).
  change (for_ L 0 (fun n s => for_ nY 0 (fun i s => body (n * nY + i)%nat s) s) (repeat junk (3 * L * nY)) = Ok p).
  rewrite for_flat.
  destruct (for_inv (fun k out => length out = (3 * L * nY)%nat /\ forall m, (m < 3 * k)%nat -> nth m out 0 = nth m p 0)
    body (L * nY) 0) with (s := repeat junk (3 * L * nY)) as (out & E & I1 & I2).
  - intros m t Hm (S1 & I). destruct (HI m ltac:(lia)) as (A0 & A1 & A2). unfold body. rewrite !rd_nth by lia. cbn [bind]. rewrite wr_ok by lia. cbn [bind].
    rewrite wr_ok by (rewrite upd_length; lia). cbn [bind]. rewrite wr_ok by (rewrite !upd_length; lia).
    eexists. split; [reflexivity|]. split; [rewrite !upd_length; exact S1|].
    intros k Hk. rewrite A0, A1, A2. clear A0 A1 A2.
    destruct (Nat.eq_dec k (m * 3 + 2)) as [->|N2]; [rewrite nth_upd_same by (rewrite !upd_length; lia); reflexivity|rewrite nth_upd_other by lia].
    destruct (Nat.eq_dec k (m * 3 + 1)) as [->|N1]; [rewrite nth_upd_same by (rewrite !upd_length; lia); reflexivity|rewrite nth_upd_other by lia].
    destruct (Nat.eq_dec k (m * 3 + 0)) as [->|N0]; [rewrite nth_upd_same by (rewrite ?upd_length; lia); reflexivity|rewrite nth_upd_other by lia].
    apply I. lia.
  - split; [apply repeat_length|]. intros; lia.
  - rewrite E. f_equal. apply nth_ext with (d := 0) (d' := 0); [congruence|]. intros i Hi. apply I2. lia.
Qed.

Lemma current_lobe_ok p s n i : holds p s -> (n < L)%nat -> (i < nY)%nat ->
  current_lobe nY s n i = Ok (laf_par nY p n i 0, laf_par nY p n i 1, laf_par nY p n i 2).
Proof.
  intros ((H1 & H2 & H3) & HI) Hn Hi. assert (Hm : (n * nY + i < L * nY)%nat) by nia. destruct (HI _ Hm) as (A & B & C).
  unfold current_lobe, laf_par. rewrite !rd_nth by lia. cbn [bind]. rewrite A, B, C. reflexivity.
Qed.

Lemma laf_value_ok p s x : holds p s -> exists v, laf_value junk nY s x = Ok v /\ length v = nY /\
  forall i, (i < nY)%nat -> nth i v 0 = sum_to L (fun n => laf_lobe nY p x n i).
Proof.
  intros H. pose proof H as ((H1 & _) & _). unfold laf_value. rewrite H1.
  destruct (for_inv (fun k v => length v = nY /\ forall i, (i < k)%nat -> nth i v 0 = sum_to L (fun n => laf_lobe nY p x n i))
    (fun i res => do r0 <- wr res i 0; for_ L 0 (fun n res =>
      do l <- current_lobe nY s n i; let '(cx, cz, e) := l in let d := lobe_dot x cx cz in
      if rltb 0 d then do r <- rd res i; wr res i (r + Rpower d e) else Ok res) r0) nY 0) with (s := repeat junk nY) as (v & E & I1 & I2).
  - intros i v Hi (S1 & I). rewrite wr_ok by lia. cbn [bind].
    destruct (for_inv (fun k t => length t = nY /\ nth i t 0 = sum_to k (fun n => laf_lobe nY p x n i) /\ forall j, j <> i -> nth j t 0 = nth j v 0)
      (fun n res => do l <- current_lobe nY s n i; let '(cx, cz, e) := l in let d := lobe_dot x cx cz in
      if rltb 0 d then do r <- rd res i; wr res i (r + Rpower d e) else Ok res) L 0) with (s := upd v i 0) as (t & E & T1 & T2 & T3).
    + intros n t Hn (T1 & T2 & T3). rewrite (current_lobe_ok p s n i H) by lia. cbn [bind]. cbv zeta.
      change (lobe_dot x (laf_par nY p n i 0) (laf_par nY p n i 1)) with (laf_dot nY p x n i).
      cbn [sum_to]. unfold laf_lobe at 2.
      destruct (rltb_dec 0 (laf_dot nY p x n i)) as [Hd|Hd]; destruct (Rlt_dec 0 (laf_dot nY p x n i)); try lra.
      * rewrite rd_nth by lia. cbn [bind]. rewrite wr_ok by lia. eexists. split; [reflexivity|]. split; [rewrite upd_length; exact T1|].
        split; [rewrite nth_upd_same by lia; rewrite T2; reflexivity|]. intros j Hj. rewrite nth_upd_other by congruence. apply T3, Hj.
      * exists t. split; [reflexivity|]. split; [exact T1|]. split; [rewrite T2; ring|exact T3].
    + split; [rewrite upd_length; exact S1|]. split; [apply nth_upd_same; lia|]. intros j Hj. apply nth_upd_other. congruence.
    + exists t. split; [exact E|]. split; [exact T1|]. intros j Hj. destruct (Nat.eq_dec j i) as [->|Nj]; [exact T2|].
      rewrite T3 by exact Nj. apply I. lia.
  - split; [apply repeat_length|]. intros; lia.
  - exists v. split; [exact E|]. split; [exact I1|]. intros i Hi. apply I2. lia.
Qed.

(** entry of the Jacobian *)
Definition laf_entry (p : list R) (x : mem) (i n j l : nat) : R :=
  let d := laf_dot nY p x n j in let e := laf_par nY p n j 2 in
  if ((i =? j)%nat && rltb 0 d)%bool then
    match l with
    | O => (x 0%nat * x 3%nat + x 1%nat * x 4%nat) * e * Rpower d (e - 1)
    | 1%nat => x 2%nat * x 5%nat * e * Rpower d (e - 1)
    | _ => ln d * Rpower d e
    end
  else 0.

Lemma laf_jac_ok p s x : holds p s -> exists J, laf_jac junk nY s x = Ok J /\ length J = (nY * (3 * L * nY))%nat /\
  forall i n j l, (i < nY)%nat -> (n < L)%nat -> (j < nY)%nat -> (l < 3)%nat ->
    nth (i * (3 * L * nY) + ((n * nY + j) * 3 + l)) J 0 = laf_entry p x i n j l.
Proof.
  intros H. pose proof H as ((H1 & _) & _). unfold laf_jac, laf_nb. rewrite H1. cbv zeta.
  set (T := (3 * L * nY)%nat).
  set (body := fun i n j (jac : list R) =>
    do l <- current_lobe nY s n j;
    (let '(cx, cz, e) := l in
     let '(a, b, c) := if ((i =? j)%nat && rltb 0 (lobe_dot x cx cz))%bool
      then ((x 0%nat * x 3%nat + x 1%nat * x 4%nat) * e * Rpower (lobe_dot x cx cz) (e - 1), x 2%nat * x 5%nat * e * Rpower (lobe_dot x cx cz) (e - 1),
            if rleb (lobe_dot x cx cz) 0 then 0 else ln (lobe_dot x cx cz) * Rpower (lobe_dot x cx cz) e)
      else (0, 0, 0) in
     do j1 <- wr jac (i * T + 3 * (n * nY + j) + 0) a; do j2 <- wr j1 (i * T + 3 * (n * nY + j) + 1) b; wr j2 (i * T + 3 * (n * nY + j) + 2) c)).
  assert (Hb : forall i n j jac, (i < nY)%nat -> (n < L)%nat -> (j < nY)%nat -> length jac = (nY * T)%nat ->
    exists jac', body i n j jac = Ok jac' /\ length jac' = (nY * T)%nat /\
      (forall l, (l < 3)%nat -> nth (i * T + ((n * nY + j) * 3 + l)) jac' 0 = laf_entry p x i n j l) /\
      (forall q, (forall l, (l < 3)%nat -> (i * T + ((n * nY + j) * 3 + l))%nat <> q) -> nth q jac' 0 = nth q jac 0)).
  { intros i n j jac Hi Hn Hj Lj. unfold body. rewrite (current_lobe_ok p s n j H) by assumption. cbn [bind].
    change (lobe_dot x (laf_par nY p n j 0) (laf_par nY p n j 1)) with (laf_dot nY p x n j).
    assert (Hm : (n * nY + j < L * nY)%nat) by nia.
    assert (HT : (i * T + 3 * (n * nY + j) + 2 < nY * T)%nat) by (unfold T; nia).
    assert (Ent : forall l, (l < 3)%nat -> laf_entry p x i n j l = nth l (
      if ((i =? j)%nat && rltb 0 (laf_dot nY p x n j))%bool then
        [(x 0%nat * x 3%nat + x 1%nat * x 4%nat) * laf_par nY p n j 2 * Rpower (laf_dot nY p x n j) (laf_par nY p n j 2 - 1);
         x 2%nat * x 5%nat * laf_par nY p n j 2 * Rpower (laf_dot nY p x n j) (laf_par nY p n j 2 - 1);
         if rleb (laf_dot nY p x n j) 0 then 0 else ln (laf_dot nY p x n j) * Rpower (laf_dot nY p x n j) (laf_par nY p n j 2)] else [0; 0; 0]) 0).
    { intros l Hl. unfold laf_entry. destruct (i =? j)%nat; cbn [andb]; [|three l Hl; reflexivity].
      destruct (rltb_dec 0 (laf_dot nY p x n j)) as [D|D]; [|three l Hl; reflexivity]. rewrite (rleb_no (laf_dot nY p x n j) 0 D). three l Hl; reflexivity. }
    destruct ((i =? j)%nat && rltb 0 (laf_dot nY p x n j))%bool;
      (rewrite wr_ok by lia; cbn [bind]; rewrite wr_ok by (rewrite upd_length; lia); cbn [bind]; rewrite wr_ok by (rewrite !upd_length; lia);
       eexists; split; [reflexivity|]; split; [rewrite !upd_length; exact Lj|]; split;
       [intros l Hl; rewrite (Ent l Hl); three l Hl; cbn [nth];
          [rewrite !nth_upd_other by lia|rewrite nth_upd_other by lia|];
          (match goal with |- nth ?a (upd _ ?b _) 0 = _ => replace a with b by lia end); apply nth_upd_same; rewrite ?upd_length; lia
       |intros q Hq; rewrite !nth_upd_other; [reflexivity|specialize (Hq 0%nat ltac:(lia)); lia|specialize (Hq 1%nat ltac:(lia)); lia|specialize (Hq 2%nat ltac:(lia)); lia]]). }
  (* rows *)
  set (row := fun i jac => for_ L 0 (fun n jac => for_ nY 0 (fun j jac => body i n j jac) jac) jac).
  assert (Hrow : forall i jac, (i < nY)%nat -> length jac = (nY * T)%nat ->
    exists jac', row i jac = Ok jac' /\ length jac' = (nY * T)%nat /\
      (forall n j l, (n < L)%nat -> (j < nY)%nat -> (l < 3)%nat -> nth (i * T + ((n * nY + j) * 3 + l)) jac' 0 = laf_entry p x i n j l) /\
      (forall q, (forall n j l, (n < L)%nat -> (j < nY)%nat -> (l < 3)%nat -> (i * T + ((n * nY + j) * 3 + l))%nat <> q) -> nth q jac' 0 = nth q jac 0)).
  { intros i jac Hi Lj. unfold row.
    destruct (for_inv (fun k t => length t = (nY * T)%nat /\
      (forall n j l, (n < k)%nat -> (j < nY)%nat -> (l < 3)%nat -> nth (i * T + ((n * nY + j) * 3 + l)) t 0 = laf_entry p x i n j l) /\
      (forall q, (forall n j l, (n < k)%nat -> (j < nY)%nat -> (l < 3)%nat -> (i * T + ((n * nY + j) * 3 + l))%nat <> q) -> nth q t 0 = nth q jac 0))
      (fun n jac => for_ nY 0 (fun j jac => body i n j jac) jac) L 0) with (s := jac) as (t & E & T1 & T2 & T3).
    - intros n t Hn (T1 & T2 & T3).
      destruct (for_inv (fun k u => length u = (nY * T)%nat /\
        (forall j l, (j < k)%nat -> (l < 3)%nat -> nth (i * T + ((n * nY + j) * 3 + l)) u 0 = laf_entry p x i n j l) /\
        (forall q, (forall j l, (j < k)%nat -> (l < 3)%nat -> (i * T + ((n * nY + j) * 3 + l))%nat <> q) -> nth q u 0 = nth q t 0))
        (body i n) nY 0) with (s := t) as (u & E & U1 & U2 & U3).
      + intros j u Hj (U1 & U2 & U3). destruct (Hb i n j u Hi ltac:(lia) ltac:(lia) U1) as (u' & E & V1 & V2 & V3).
        exists u'. split; [exact E|]. split; [exact V1|]. split.
        * intros j' l Hj' Hl. destruct (Nat.eq_dec j' j) as [->|N]; [apply V2, Hl|].
          rewrite V3; [apply U2; [lia|exact Hl]|]. intros l' Hl' Q. lia.
        * intros q Hq. rewrite V3 by (intros; apply Hq; [lia|assumption]). apply U3. intros; apply Hq; [lia|assumption].
      + split; [exact T1|]. split; [intros; lia|reflexivity].
      + exists u. split; [exact E|]. split; [exact U1|]. split.
        * intros n' j l Hn' Hj Hl. destruct (Nat.eq_dec n' n) as [->|N]; [apply U2; [lia|exact Hl]|].
          rewrite U3; [apply T2; [lia|assumption|assumption]|]. intros j' l' Hj' Hl' Q.
          assert (Q2 : (n * nY + j' = n' * nY + j)%nat) by lia. apply mul_add_inj in Q2; lia.
        * intros q Hq. rewrite U3 by (intros; apply Hq; [lia|lia|assumption]). apply T3. intros; apply Hq; [lia|assumption|assumption].
    - split; [exact Lj|]. split; [intros; lia|reflexivity].
    - exists t. split; [exact E|]. split; [exact T1|]. split; [intros; apply T2; [lia|assumption|assumption]|].
      intros q Hq. apply T3. intros; apply Hq; [lia|assumption|assumption]. }
  change (exists J, for_ nY 0 row (repeat junk (nY * T)) = Ok J /\ length J = (nY * T)%nat /\
    forall i n j l, (i < nY)%nat -> (n < L)%nat -> (j < nY)%nat -> (l < 3)%nat -> nth (i * T + ((n * nY + j) * 3 + l)) J 0 = laf_entry p x i n j l).
  destruct (for_inv (fun k t => length t = (nY * T)%nat /\
      (forall i n j l, (i < k)%nat -> (n < L)%nat -> (j < nY)%nat -> (l < 3)%nat -> nth (i * T + ((n * nY + j) * 3 + l)) t 0 = laf_entry p x i n j l))
      row nY 0) with (s := repeat junk (nY * T)) as (J & E & J1 & J2).
  - intros i t Hi (T1 & T2). destruct (Hrow i t ltac:(lia) T1) as (u & E & U1 & U2 & U3).
    exists u. split; [exact E|]. split; [exact U1|]. intros i' n j l Hi' Hn Hj Hl.
    destruct (Nat.eq_dec i' i) as [->|N]; [apply U2; assumption|]. rewrite U3; [apply T2; try assumption; lia|].
    intros n' j' l' Hn' Hj' Hl' Q.
    assert ((n * nY + j < L * nY)%nat) by nia. assert ((n' * nY + j' < L * nY)%nat) by nia.
    apply mul_add_inj in Q; unfold T; lia.
  - split; [apply repeat_length|]. intros; lia.
  - exists J. split; [exact E|]. split; [exact J1|]. intros; apply J2; try assumption; lia.
Qed.
End Lobes.

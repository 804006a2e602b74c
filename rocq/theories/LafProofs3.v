(** Proofs for C100, third part: the flag and the starting point. *)
From Coq Require Import Reals List Lia Lra.
From Verif Require Import Base ParamsModel GeoModel CommonModel FuncModel FuncSpec FuncProofs FuncJac TextModel NlModel NlSpec NlProofs NlGrad NlGrad2 NlMoreModel NlMoreSpec NlLobes NlLobes2 LafModel LafSpec LafProofs.
Open Scope R_scope.

(** a loop with an aborting step aborts *)
Definition steps {A} (Inv : A -> Prop) (r : outcome A) : Prop := match r with Ok s => Inv s | Abort => True | _ => False end.
Lemma steps_bind {A B} (P : A -> Prop) (Q : B -> Prop) (r : outcome A) (k : A -> outcome B) :
  steps P r -> (forall a, P a -> steps Q (k a)) -> steps Q (do a <- r; k a).
Proof. destruct r; cbn [steps bind]; auto. Qed.
Lemma steps_for {A} (Inv : A -> Prop) body n : (forall i s, Inv s -> steps Inv (body i s)) -> forall k s, Inv s -> steps Inv (for_ n k body s).
Proof. intros H. induction n as [|n IH]; intros k s Hs; cbn [for_]; [exact Hs|]. apply (steps_bind Inv); [apply H, Hs|]. intros; apply IH; assumption. Qed.
Lemma steps_rd v i : steps (fun _ => True) (rd v i).
Proof. unfold rd. destruct (nth_error v i); exact I. Qed.
Lemma steps_wr v i x n : length v = n -> steps (fun w => length w = n) (wr v i x).
Proof. intros H. unfold wr. destruct (i <? length v)%nat; cbn [steps]; [rewrite upd_length; exact H|exact I]. Qed.
Lemma for_abort {A} (Inv : A -> Prop) body n i0 : (forall i s, Inv s -> steps Inv (body i s)) -> (forall s, Inv s -> body i0 s = Abort) ->
  forall k s, (k <= i0 < k + n)%nat -> Inv s -> for_ n k body s = Abort.
Proof.
  intros H1 H2. induction n as [|n IH]; intros k s Hk Hs; [lia|]. cbn [for_].
  destruct (Nat.eq_dec k i0) as [->|N]; [rewrite H2 by exact Hs; reflexivity|].
  pose proof (H1 k s Hs) as Q. destruct (body k s); cbn [steps bind] in *; try contradiction; [|reflexivity]. apply IH; [lia|exact Q].
Qed.
Lemma wr_abort v i x : (length v <= i)%nat -> wr v i x = Abort.
Proof. intros H. unfold wr. destruct (Nat.ltb_spec i (length v)); [lia|reflexivity]. Qed.

Section Flag.
Variable junk : R.
Variables nY L : nat.
Hypothesis some : (1 <= L * nY)%nat.
Notation K := (L * nY - 1)%nat.

Lemma iset_abort p s : isized nY L s -> aset nY p s = Abort.
Proof.
  intros Hs. unfold aset. destruct (negb _) eqn:E; [reflexivity|]. pose proof Hs as (H1 & _).
  set (body := fun m s =>
    do a <- rd p (m * 4 + 0); do C1 <- wr (a_C s) (m * 3 + 0) a;
    do b <- rd p (m * 4 + 1); do C2 <- wr C1 (m * 3 + 1) b;
    do c <- rd p (m * 4 + 2); do C3 <- wr C2 (m * 3 + 2) c;
    do d <- rd p (m * 4 + 3); do N1 <- wr (a_N s) m d; Ok (mkLaf (a_n s) (a_iso s) C3 N1 (a_kd s))).
  rewrite H1. change (for_ L 0 (fun n s => for_ nY 0 (fun i s => body (n * nY + i)%nat s) s) s = Abort).
  rewrite for_flat. apply (for_abort (isized nY L) body (L * nY) K); [| |lia|exact Hs].
  - intros i t (A1 & A0 & A2 & A3 & A4). unfold body.
    apply (steps_bind (fun _ => True)); [apply steps_rd|]. intros a _. apply (steps_bind _ _ _ _ (steps_wr _ _ _ _ A2)). intros C1 B1.
    apply (steps_bind (fun _ => True)); [apply steps_rd|]. intros b _. apply (steps_bind _ _ _ _ (steps_wr _ _ _ _ B1)). intros C2 B2.
    apply (steps_bind (fun _ => True)); [apply steps_rd|]. intros c _. apply (steps_bind _ _ _ _ (steps_wr _ _ _ _ B2)). intros C3 B3.
    apply (steps_bind (fun _ => True)); [apply steps_rd|]. intros d _. apply (steps_bind _ _ _ _ (steps_wr _ _ _ _ A3)). intros N1 B4.
    cbn [steps]. repeat split; assumption.
  - intros t (A1 & A0 & A2 & A3 & A4). unfold body.
    pose proof (steps_rd p (K * 4 + 0)) as Q. destruct (rd p (K * 4 + 0)) as [a| | |]; cbn [steps bind] in *; try contradiction; try reflexivity. clear Q.
    pose proof (steps_wr (a_C t) (K * 3 + 0) a _ A2) as Q. destruct (wr (a_C t) (K * 3 + 0) a) as [C1| | |]; cbn [steps bind] in *; try contradiction; try reflexivity.
    pose proof (steps_rd p (K * 4 + 1)) as Q'. destruct (rd p (K * 4 + 1)) as [b| | |]; cbn [steps bind] in *; try contradiction; try reflexivity. clear Q'.
    pose proof (steps_wr C1 (K * 3 + 1) b _ Q) as Q1. destruct (wr C1 (K * 3 + 1) b) as [C2| | |]; cbn [steps bind] in *; try contradiction; try reflexivity.
    pose proof (steps_rd p (K * 4 + 2)) as Q'. destruct (rd p (K * 4 + 2)) as [c| | |]; cbn [steps bind] in *; try contradiction; try reflexivity. clear Q'.
    rewrite wr_abort by lia. reflexivity.
Qed.

Lemma ijac_abort s x : isized nY L s -> ajac junk nY s x = Abort.
Proof.
  intros Hs. pose proof Hs as (H1 & H0 & H2 & H3 & H4). unfold ajac, anb. rewrite H0, H1. cbv zeta.
  set (T := (3 * L * nY)%nat).
  set (body := fun i n j (jac : list R) =>
    do l <- acurrent nY s n j;
    (let '(cx, cy, cz, e) := l in
     let '(a, b, c, f) := if ((i =? j)%nat && rltb 0 (cx * (x 0%nat * x 3%nat) + cy * (x 1%nat * x 4%nat) + cz * (x 2%nat * x 5%nat)))%bool
      then (x 0%nat * x 3%nat * e * Rpower (cx * (x 0%nat * x 3%nat) + cy * (x 1%nat * x 4%nat) + cz * (x 2%nat * x 5%nat)) (e - 1),
            x 1%nat * x 4%nat * e * Rpower (cx * (x 0%nat * x 3%nat) + cy * (x 1%nat * x 4%nat) + cz * (x 2%nat * x 5%nat)) (e - 1),
            x 2%nat * x 5%nat * e * Rpower (cx * (x 0%nat * x 3%nat) + cy * (x 1%nat * x 4%nat) + cz * (x 2%nat * x 5%nat)) (e - 1),
            if rleb (cx * (x 0%nat * x 3%nat) + cy * (x 1%nat * x 4%nat) + cz * (x 2%nat * x 5%nat)) 0 then 0
            else ln (cx * (x 0%nat * x 3%nat) + cy * (x 1%nat * x 4%nat) + cz * (x 2%nat * x 5%nat)) * Rpower (cx * (x 0%nat * x 3%nat) + cy * (x 1%nat * x 4%nat) + cz * (x 2%nat * x 5%nat)) e)
      else (0, 0, 0, 0) in
     do j1 <- wr jac (i * T + 4 * (n * nY + j) + 0) a; do j2 <- wr j1 (i * T + 4 * (n * nY + j) + 1) b; do j3 <- wr j2 (i * T + 4 * (n * nY + j) + 2) c; wr j3 (i * T + 4 * (n * nY + j) + 3) f)).
  change (for_ nY 0 (fun i jac => for_ L 0 (fun n jac => for_ nY 0 (fun j jac => body i n j jac) jac) jac) (repeat junk (nY * T)) = Abort).
  set (Inv := fun jac : list R => length jac = (nY * T)%nat).
  assert (Hc : forall n j, steps (fun _ => True) (acurrent nY s n j)).
  { intros n j. unfold acurrent. rewrite H0.
    apply (steps_bind (fun _ => True)); [apply steps_rd|]. intros ? _. apply (steps_bind (fun _ => True)); [apply steps_rd|]. intros ? _.
    apply (steps_bind (fun _ => True)); [apply steps_rd|]. intros ? _. exact I. }
  assert (Hb : forall i n j jac, Inv jac -> steps Inv (body i n j jac)).
  { intros i n j jac Hj. unfold body. apply (steps_bind (fun _ => True)); [apply Hc|]. intros [[[cx cy] cz] e] _.
    destruct (if _ : bool then _ else _) as [[[a b] c] f].
    apply (steps_bind _ _ _ _ (steps_wr _ _ _ _ Hj)). intros j1 B1. apply (steps_bind _ _ _ _ (steps_wr _ _ _ _ B1)). intros j2 B2.
    apply (steps_bind _ _ _ _ (steps_wr _ _ _ _ B2)). intros j3 B3. apply steps_wr, B3. }
  assert (P1 : (1 <= L)%nat) by (destruct L; cbn in some; lia). assert (P2 : (1 <= nY)%nat) by (destruct nY; lia).
  apply (for_abort Inv _ nY (nY - 1)); [| |lia|apply repeat_length].
  - intros i t Ht. apply steps_for; [|exact Ht]. intros n u Hu. apply steps_for; [|exact Hu]. intros; apply Hb; assumption.
  - intros t Ht. apply (for_abort Inv _ L (L - 1)); [| |lia|exact Ht].
    + intros n u Hu. apply steps_for; [|exact Hu]. intros; apply Hb; assumption.
    + intros u Hu. apply (for_abort Inv _ nY (nY - 1)); [| |lia|exact Hu].
      * intros; apply Hb; assumption.
      * intros jac Hj. unfold body. pose proof (Hc (L - 1)%nat (nY - 1)%nat) as Q.
        destruct (acurrent nY s (L - 1) (nY - 1)) as [[[[cx cy] cz] e]| | |]; cbn [steps bind] in *; try contradiction; [|reflexivity].
        destruct (if _ : bool then _ else _) as [[[a b] c] f]. unfold Inv in Hj.
        assert (Last : (nY * T <= (nY - 1) * T + 4 * ((L - 1) * nY + (nY - 1)) + 3)%nat).
        { assert ((nY * T = (nY - 1) * T + T)%nat) by (destruct nY as [|z]; [lia|]; cbn [Nat.sub]; rewrite Nat.sub_0_r; lia).
          assert (((L - 1) * nY + nY = L * nY)%nat) by (destruct L as [|z]; [lia|]; cbn [Nat.sub]; rewrite Nat.sub_0_r; lia). unfold T in *. nia. }
        pose proof (steps_wr jac ((nY - 1) * T + 4 * ((L - 1) * nY + (nY - 1)) + 0) a _ Hj) as Q1.
        destruct (wr jac _ a) as [j1| | |]; cbn [steps bind] in *; try contradiction; [|reflexivity].
        pose proof (steps_wr j1 ((nY - 1) * T + 4 * ((L - 1) * nY + (nY - 1)) + 1) b _ Q1) as Q2.
        destruct (wr j1 _ b) as [j2| | |]; cbn [steps bind] in *; try contradiction; [|reflexivity].
        pose proof (steps_wr j2 ((nY - 1) * T + 4 * ((L - 1) * nY + (nY - 1)) + 2) c _ Q2) as Q3.
        destruct (wr j2 _ c) as [j3| | |]; cbn [steps bind] in *; try contradiction; [|reflexivity].
        apply wr_abort. lia.
Qed.
End Flag.

(** Proofs for C100, fifth part: what can be read with the flag set. *)
From Coq Require Import Reals List Lia Lra.
From Verif Require Import Base ParamsModel GeoModel CommonModel FuncModel FuncSpec FuncProofs FuncJac TextModel NlModel NlSpec NlProofs NlGrad NlGrad2 NlMoreModel NlMoreSpec NlLobes NlLobes2 LafModel LafSpec LafProofs LafProofs3.
Open Scope R_scope.

Section Iso.
Variable junk : R.
Variables nY L : nat.
Notation view s := (mkLobes (a_n s) (a_C s) (a_N s)).

Lemma iget_laf s : a_iso s = true -> aget junk nY s = laf_get junk nY (view s).
Proof. intros H. unfold aget, laf_get, anb. rewrite H. reflexivity. Qed.

(** the parameters an object of two coefficients holds *)
Definition flat (s : laf) : list R := flat_map (fun q => [nth (q * 2 + 0) (a_C s) 0; nth (q * 2 + 1) (a_C s) 0; nth q (a_N s) 0]) (seq 0 (L * nY)).
Lemma flat_holds s : isized nY L s -> length (flat s) = (3 * L * nY)%nat /\ holds nY L (flat s) (view s).
Proof.
  intros (H1 & H0 & H2 & H3 & H4). unfold flat. set (f := fun q => [nth (q * 2 + 0) (a_C s) 0; nth (q * 2 + 1) (a_C s) 0; nth q (a_N s) 0]).
  assert (Hlen : forall n a, length (flat_map f (seq a n)) = (3 * n)%nat).
  { induction n as [|n IHn]; intros a; [reflexivity|]. cbn [seq flat_map]. rewrite app_length, IHn. cbn [f length]. lia. }
  assert (Hnth : forall n a q, (q < n)%nat -> let w := flat_map f (seq a n) in
    nth (q * 3 + 0) w 0 = nth ((a + q) * 2 + 0) (a_C s) 0 /\ nth (q * 3 + 1) w 0 = nth ((a + q) * 2 + 1) (a_C s) 0 /\ nth (q * 3 + 2) w 0 = nth (a + q) (a_N s) 0).
  { induction n as [|n IHn]; intros a q Hq; [lia|]. cbn [seq flat_map]. unfold f at 1 3 5. cbn [app]. cbv zeta. destruct q as [|z].
    - cbn [Nat.mul Nat.add nth]. replace (a + 0)%nat with a by lia. auto.
    - specialize (IHn (S a) z ltac:(lia)). cbv zeta in IHn.
      change (S z * 3)%nat with (3 + z * 3)%nat. cbn [Nat.add nth] in IHn |- *. rewrite <- plus_n_Sm. exact IHn. }
  split; [rewrite Hlen; lia|]. split; [split; [exact H1|]; cbn [l_C l_N]; auto|]. intros m Hm. cbn [l_C l_N].
  destruct (Hnth (L * nY)%nat 0%nat m Hm) as (A & B & C). rewrite A, B, C. auto.
Qed.

Lemma iread s x : isized nY L s -> exists p v, aget junk nY s = Ok p /\ length p = (3 * L * nY)%nat /\ avalue junk nY s x = Ok v /\ length v = nY /\
  forall i, (i < nY)%nat -> nth i v 0 = nth i (a_kd s) 0 + lsum L (fun n => laf_lobe nY p x n i).
Proof.
  intros HS. destruct (flat_holds s HS) as (Lp & Hp). set (p := flat s) in *. exists p. pose proof HS as (H1 & H0 & H2 & H3 & H4).
  assert (Cur : forall n i, (n < L)%nat -> (i < nY)%nat -> acurrent nY s n i = Ok (laf_par nY p n i 0, laf_par nY p n i 0, laf_par nY p n i 1, laf_par nY p n i 2)).
  { intros n i Hn Hi. pose proof (current_lobe_ok nY L p (view s) n i Hp Hn Hi) as Q. unfold current_lobe in Q. cbn [l_C l_N] in Q. unfold acurrent. rewrite H0.
    destruct (rd (a_C s) ((n * nY + i) * 2 + 0)) as [a| | |]; cbn [bind] in *; try discriminate.
    destruct (rd (a_C s) ((n * nY + i) * 2 + 1)) as [b| | |]; cbn [bind] in *; try discriminate.
    destruct (rd (a_N s) (n * nY + i)) as [e| | |]; cbn [bind] in *; try discriminate. injection Q as -> -> ->. reflexivity. }
  unfold avalue. rewrite H1. cbv zeta.
  set (body := fun (i n : nat) res => do l <- acurrent nY s n i; let '(cx, cy, cz, e) := l in
      if rltb 0 (cx * (x 0%nat * x 3%nat) + cy * (x 1%nat * x 4%nat) + cz * (x 2%nat * x 5%nat)) then do r <- rd res i; wr res i (r + Rpower (cx * (x 0%nat * x 3%nat) + cy * (x 1%nat * x 4%nat) + cz * (x 2%nat * x 5%nat)) e) else Ok res).
  change (exists v, aget junk nY s = Ok p /\ length p = (3 * L * nY)%nat /\ for_ nY 0 (fun i res => do k <- rd (a_kd s) i; do r0 <- wr res i k; for_ L 0 (body i) r0) (repeat junk nY) = Ok v /\ length v = nY /\
    forall i, (i < nY)%nat -> nth i v 0 = nth i (a_kd s) 0 + lsum L (fun n => laf_lobe nY p x n i)).
  destruct (for_inv (fun k v => length v = nY /\ forall i, (i < k)%nat -> nth i v 0 = nth i (a_kd s) 0 + lsum L (fun n => laf_lobe nY p x n i))
    (fun i res => do k <- rd (a_kd s) i; do r0 <- wr res i k; for_ L 0 (body i) r0) nY 0) with (s := repeat junk nY) as (v & E & I1 & I2).
  - intros i v Hi (S1 & I). rewrite rd_nth by lia. cbn [bind]. rewrite wr_ok by lia. cbn [bind].
    destruct (for_inv (fun k t => length t = nY /\ nth i t 0 = nth i (a_kd s) 0 + lsum k (fun n => laf_lobe nY p x n i) /\ forall j, j <> i -> nth j t 0 = nth j v 0)
      (body i) L 0) with (s := upd v i (nth i (a_kd s) 0)) as (t & E & T1 & T2 & T3).
    + intros n t Hn (T1 & T2 & T3). unfold body. rewrite Cur by lia. cbn [bind].
      replace (laf_par nY p n i 0 * (x 0%nat * x 3%nat) + laf_par nY p n i 0 * (x 1%nat * x 4%nat) + laf_par nY p n i 1 * (x 2%nat * x 5%nat)) with (laf_dot nY p x n i) by (unfold laf_dot; ring).
      cbn [lsum]. unfold laf_lobe at 2.
      destruct (rltb_dec 0 (laf_dot nY p x n i)) as [Hd|Hd]; destruct (Rlt_dec 0 (laf_dot nY p x n i)); try lra.
      * rewrite rd_nth by lia. cbn [bind]. rewrite wr_ok by lia. eexists. split; [reflexivity|]. split; [rewrite upd_length; exact T1|].
        split; [rewrite nth_upd_same by lia; rewrite T2; ring|]. intros j Hj. rewrite nth_upd_other by congruence. apply T3, Hj.
      * exists t. split; [reflexivity|]. split; [exact T1|]. split; [rewrite T2; ring|exact T3].
    + split; [rewrite upd_length; exact S1|]. split; [rewrite nth_upd_same by lia; cbn [lsum]; ring|]. intros j Hj. apply nth_upd_other. congruence.
    + exists t. split; [exact E|]. split; [exact T1|]. intros j Hj. destruct (Nat.eq_dec j i) as [->|Nj]; [exact T2|].
      rewrite T3 by exact Nj. apply I. lia.
  - split; [apply repeat_length|]. intros; lia.
  - exists v. split; [rewrite iget_laf by exact H0; apply (laf_get_ok junk nY L p (view s) Hp Lp)|]. split; [exact Lp|]. split; [exact E|]. split; [exact I1|]. intros i Hi. apply I2. lia.
Qed.
End Iso.

(** Proofs for C118: how much is lost. *)
From Coq Require Import Reals List Lia Lra ZArith.
From Flocq Require Import Core Relative.
From Verif Require Import Base Num DataModel TextModel TextRound CutSpec DecModel DecProofs.
Open Scope R_scope.

(** a number close enough to one of P digits is rounded to it *)
Lemma round_close beta P d x eps : (0 < P)%Z -> generic_format beta (FLX_exp P) d -> Rabs (x - d) <= eps * Rabs d -> eps < / 2 * bpow beta (- P) -> round beta (FLX_exp P) ZnearestE x = d.
Proof.
  intros HP HF HE Heps. assert (V : Valid_exp (FLX_exp P)) by (apply FLX_exp_valid; exact HP).
  assert (POS : forall d x, 0 < d -> generic_format beta (FLX_exp P) d -> Rabs (x - d) <= eps * d -> round beta (FLX_exp P) ZnearestE x = d).
  { clear d x HF HE. intros d x Hd HF HE. assert (Nd : d <> 0) by lra. set (k := mag beta d : Z).
    pose proof (bpow_mag_le beta d Nd) as L. pose proof (bpow_mag_gt beta d) as U. rewrite Rabs_pos_eq in L, U by lra. fold k in L, U.
    assert (B : forall e, 0 < bpow beta e) by (intros e; apply bpow_gt_0).
    assert (EB : eps * d < / 2 * bpow beta (k - P)).
    { apply Rlt_le_trans with (/ 2 * bpow beta (- P) * d); [apply Rmult_lt_compat_r; assumption|]. replace (k - P)%Z with (- P + k)%Z by lia. rewrite bpow_plus. rewrite Rmult_assoc. apply Rmult_le_compat_l; [lra|]. apply Rmult_le_compat_l; [apply Rlt_le, B|lra]. }
    apply Rabs_le_inv in HE. apply Rle_antisym.
    - apply round_N_le_midp; try assumption. rewrite succ_eq_pos, ulp_neq_0 by lra. unfold cexp, FLX_exp. fold k. lra.
    - apply round_N_ge_midp; try assumption. rewrite pred_eq_pos by lra. unfold pred_pos. fold k. destruct (Req_bool_spec d (bpow beta (k - 1))) as [E|N].
      + unfold FLX_exp. assert (EB2 : eps * d < / 2 * bpow beta (k - 1 - P)).
        { apply Rlt_le_trans with (/ 2 * bpow beta (- P) * d); [apply Rmult_lt_compat_r; assumption|]. rewrite E. rewrite Rmult_assoc, <- bpow_plus. replace (- P + (k - 1))%Z with (k - 1 - P)%Z by lia. lra. }
        lra.
      + rewrite ulp_neq_0 by lra. unfold cexp, FLX_exp. fold k. lra. }
  destruct (Rtotal_order d 0) as [H|[H|H]].
  - rewrite <- (Ropp_involutive x), round_NE_opp. rewrite <- (Ropp_involutive d). f_equal. apply POS; [lra|apply generic_format_opp; exact HF|]. rewrite (Rabs_left d) in HE by lra. replace (- x - - d) with (- (x - d)) by ring. rewrite Rabs_Ropp. exact HE.
  - subst d. rewrite Rabs_R0, Rmult_0_r in HE. pose proof (Rabs_pos (x - 0)) as A. assert (E : Rabs (x - 0) = 0) by lra. rewrite Rminus_0_r in E. destruct (Req_dec x 0) as [->|N]; [apply round_0; apply valid_rnd_N|]. exfalso. apply (Rabs_no_R0 x N). exact E.
  - apply POS; try assumption. rewrite (Rabs_pos_eq d) in HE by lra. exact HE.
Qed.

Lemma bpow10 e : bpow radix10 e = powerRZ 10 e.
Proof. apply bpow_powerRZ. Qed.
(** the error of rounding to P digits *)
Lemma dec_error P v : (0 < P)%Z -> Rabs (dec_round P v - v) <= 5 * powerRZ 10 (- P) * Rabs v.
Proof.
  intros HP. pose proof (relative_error_N_FLX radix10 P HP (fun x => negb (Z.even x)) v) as H. unfold dec_round. eapply Rle_trans; [exact H|]. apply Rmult_le_compat_r; [apply Rabs_pos|]. rewrite bpow_plus, bpow10. change (bpow radix10 1) with 10. lra.
Qed.
Lemma dec_monotone P v w : (0 < P)%Z -> v <= w -> dec_round P v <= dec_round P w.
Proof. intros HP H. apply round_le; [apply FLX_exp_valid; exact HP|apply valid_rnd_N|exact H]. Qed.
Lemma dec_exact P m k : (0 < P)%Z -> (Z.abs m < 10 ^ P)%Z -> dec_round P (IZR m * powerRZ 10 k) = IZR m * powerRZ 10 k.
Proof.
  intros HP Hm. apply round_generic; [apply valid_rnd_N|]. apply generic_format_FLX. rewrite <- bpow10. apply (FLX_spec radix10 P _ (Float radix10 m k)); [reflexivity|exact Hm].
Qed.
Lemma dec_idem P v : (0 < P)%Z -> dec_round P (dec_round P v) = dec_round P v.
Proof. intros HP. apply round_generic; [apply valid_rnd_N|]. apply round_generic_format. exact HP. Qed.
Lemma double_error x : bpow radix2 (-1022) <= Rabs x -> Rabs (to_double x - x) <= / 2 * bpow radix2 (-52) * Rabs x.
Proof. intros H. exact (relative_error_N_FLT radix2 (-1074) 53 eq_refl (fun x => negb (Z.even x)) x H). Qed.
Lemma half_52 : / 2 * bpow radix2 (-52) = bpow radix2 (-53).
Proof. change (-52)%Z with (1 + -53)%Z. rewrite bpow_plus. change (bpow radix2 1) with 2. lra. Qed.
Lemma tiny_53 P : (P <= 15)%Z -> bpow radix2 (-53) < / 2 * bpow radix10 (- P).
Proof.
  intros HP. apply Rlt_le_trans with (/ 2 * bpow radix10 (-15)).
  - change (bpow radix2 (-53)) with (/ 9007199254740992). change (bpow radix10 (-15)) with (/ 1000000000000000). lra.
  - apply Rmult_le_compat_l; [lra|]. apply bpow_le. lia.
Qed.
(** a double of the normal range that is read is printed with the same digits *)
Lemma reread P v : (0 < P <= 15)%Z -> dec_round P v = 0 \/ bpow radix2 (-1022) <= Rabs (dec_round P v) -> dec_round P (to_double (dec_round P v)) = dec_round P v.
Proof.
  intros HP [E|H].
  - rewrite E. unfold to_double. rewrite round_0 by apply valid_rnd_N. apply round_0. apply valid_rnd_N.
  - apply (round_close radix10 P (dec_round P v) _ (bpow radix2 (-53))); [lia|apply round_generic_format; lia| |apply tiny_53; lia]. rewrite <- half_52. apply double_error. exact H.
Qed.
(** with 17 digits every double of the normal range comes back *)
Lemma tiny_17 : 5 * powerRZ 10 (-17) < / 2 * bpow radix2 (-53).
Proof. rewrite <- bpow10. change (bpow radix2 (-53)) with (/ 9007199254740992). change (bpow radix10 (-17)) with (/ 100000000000000000). lra. Qed.
Lemma seventeen v : to_double v = v -> bpow radix2 (-1021) <= Rabs v -> to_double (dec_round 17 v) = v.
Proof.
  intros HD HV. assert (F : generic_format radix2 (FLX_exp 53) v). { apply generic_format_FLX_FLT with (-1074)%Z. rewrite <- HD. apply generic_format_round; [apply FLT_exp_valid; reflexivity|apply valid_rnd_N]. }
  pose proof (dec_error 17 v eq_refl) as E. change (- (17))%Z with (-17)%Z in E.
  assert (NB : bpow radix2 (-1022) <= Rabs (dec_round 17 v)).
  { change (-1021)%Z with (1 + -1022)%Z in HV. rewrite bpow_plus in HV. change (bpow radix2 1) with 2 in HV. pose proof tiny_17 as T. assert (bpow radix2 (-53) <= 1) by (change 1 with (bpow radix2 0); apply bpow_le; lia).
    pose proof (Rabs_triang_inv v (v - dec_round 17 v)) as TI. replace (v - (v - dec_round 17 v)) with (dec_round 17 v) in TI by ring. rewrite (Rabs_minus_sym v) in TI. assert (5 * powerRZ 10 (-17) * Rabs v <= / 2 * Rabs v) by (apply Rmult_le_compat_r; [apply Rabs_pos|lra]). lra. }
  unfold to_double. rewrite round_FLT_FLX by exact NB. apply (round_close radix2 53 v _ (5 * powerRZ 10 (-17))); [lia|exact F|exact E|exact tiny_17].
Qed.

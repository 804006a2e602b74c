(** Fourteen digits of pi, by Machin's formula of the standard library. *)
From Coq Require Import Reals Lra Lia Machin.
Open Scope R_scope.

Lemma term_eq n q : q = (-1) ^ n * (2 * (/ 3 ^ (2 * n + 1) / INR (2 * n + 1)) + / 7 ^ (2 * n + 1) / INR (2 * n + 1)) -> tg_alt PI_2_3_7_tg n = q.
Proof. intros ->. unfold tg_alt, PI_2_3_7_tg, Ratan_seq. rewrite !pow_inv. reflexivity. Qed.
Lemma pi_digits : 314159265358968 / 100000000000000 <= PI.
Proof.
  pose proof (proj1 (PI_2_3_7_ineq 6)) as H. cbn [Nat.mul Nat.add sum_f_R0] in H.
  assert (T0 : 80952380952380952380 / 100000000000000000000 <= tg_alt PI_2_3_7_tg 0).
  { erewrite term_eq by reflexivity. rewrite INR_IZR_INZ. cbn [Nat.mul Nat.add Z.of_nat Pos.of_succ_nat Pos.succ]. lra. }
  assert (T1 : (-2566317532303926862) / 100000000000000000000 <= tg_alt PI_2_3_7_tg 1).
  { erewrite term_eq by reflexivity. rewrite INR_IZR_INZ. cbn [Nat.mul Nat.add Z.of_nat Pos.of_succ_nat Pos.succ]. lra. }
  assert (T2 : 165799033863266358 / 100000000000000000000 <= tg_alt PI_2_3_7_tg 2).
  { erewrite term_eq by reflexivity. rewrite INR_IZR_INZ. cbn [Nat.mul Nat.add Z.of_nat Pos.of_succ_nat Pos.succ]. lra. }
  assert (T3 : (-13081557247630536) / 100000000000000000000 <= tg_alt PI_2_3_7_tg 3).
  { erewrite term_eq by reflexivity. rewrite INR_IZR_INZ. cbn [Nat.mul Nat.add Z.of_nat Pos.of_succ_nat Pos.succ]. lra. }
  assert (T4 : 1129281197586713 / 100000000000000000000 <= tg_alt PI_2_3_7_tg 4).
  { erewrite term_eq by reflexivity. rewrite INR_IZR_INZ. cbn [Nat.mul Nat.add Z.of_nat Pos.of_succ_nat Pos.succ]. lra. }
  assert (T5 : (-102641493384220) / 100000000000000000000 <= tg_alt PI_2_3_7_tg 5).
  { erewrite term_eq by reflexivity. rewrite INR_IZR_INZ. cbn [Nat.mul Nat.add Z.of_nat Pos.of_succ_nat Pos.succ]. lra. }
  assert (T6 : 9649702075850 / 100000000000000000000 <= tg_alt PI_2_3_7_tg 6).
  { erewrite term_eq by reflexivity. rewrite INR_IZR_INZ. cbn [Nat.mul Nat.add Z.of_nat Pos.of_succ_nat Pos.succ]. lra. }
  assert (T7 : (-929224329247) / 100000000000000000000 <= tg_alt PI_2_3_7_tg 7).
  { erewrite term_eq by reflexivity. rewrite INR_IZR_INZ. cbn [Nat.mul Nat.add Z.of_nat Pos.of_succ_nat Pos.succ]. lra. }
  assert (T8 : 91100312052 / 100000000000000000000 <= tg_alt PI_2_3_7_tg 8).
  { erewrite term_eq by reflexivity. rewrite INR_IZR_INZ. cbn [Nat.mul Nat.add Z.of_nat Pos.of_succ_nat Pos.succ]. lra. }
  assert (T9 : (-9056754117) / 100000000000000000000 <= tg_alt PI_2_3_7_tg 9).
  { erewrite term_eq by reflexivity. rewrite INR_IZR_INZ. cbn [Nat.mul Nat.add Z.of_nat Pos.of_succ_nat Pos.succ]. lra. }
  assert (T10 : 910467307 / 100000000000000000000 <= tg_alt PI_2_3_7_tg 10).
  { erewrite term_eq by reflexivity. rewrite INR_IZR_INZ. cbn [Nat.mul Nat.add Z.of_nat Pos.of_succ_nat Pos.succ]. lra. }
  assert (T11 : (-92366248) / 100000000000000000000 <= tg_alt PI_2_3_7_tg 11).
  { erewrite term_eq by reflexivity. rewrite INR_IZR_INZ. cbn [Nat.mul Nat.add Z.of_nat Pos.of_succ_nat Pos.succ]. lra. }
  assert (T12 : 9441883 / 100000000000000000000 <= tg_alt PI_2_3_7_tg 12).
  { erewrite term_eq by reflexivity. rewrite INR_IZR_INZ. cbn [Nat.mul Nat.add Z.of_nat Pos.of_succ_nat Pos.succ]. lra. }
  assert (T13 : (-971388) / 100000000000000000000 <= tg_alt PI_2_3_7_tg 13).
  { erewrite term_eq by reflexivity. rewrite INR_IZR_INZ. cbn [Nat.mul Nat.add Z.of_nat Pos.of_succ_nat Pos.succ]. lra. }
  lra.
Qed.

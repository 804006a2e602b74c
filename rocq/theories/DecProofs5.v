(** Proofs for C118 and C119: concrete cases. *)
From Coq Require Import Reals List Lia Lra ZArith.
From Flocq Require Import Core.
From Verif Require Import Base Num ParamsModel GeoModel ArgsModel ArgsSpec DataModel TextModel TextRound FuncModel FuncFile FuncFileSpec FuncFileProofs.
From Verif Require Import DecModel DecSpec DecProofs DecProofs2 DecProofs3 DecProofs4.
Open Scope R_scope.
Import ListNotations.

(** the digits of a number that is rounded to m * 10^(X + 1 - P) *)
Lemma digits_spec P m X v : (0 < P)%nat -> (10 ^ (Z.of_nat P - 1) <= m < 10 ^ Z.of_nat P)%Z -> dec_round (Z.of_nat P) v = IZR m * bpow radix10 (X + 1 - Z.of_nat P) ->
  dec_round (Z.of_nat P) v <> 0 /\ dec_exp (dec_round (Z.of_nat P) v) = X /\ dec_mant (Z.of_nat P) (dec_round (Z.of_nat P) v) = m /\ 0 < dec_round (Z.of_nat P) v.
Proof.
  intros HP [L U] ->. assert (M0 : (0 < m)%Z) by (assert (0 < 10 ^ (Z.of_nat P - 1))%Z by (apply Z.pow_pos_nonneg; lia); lia).
  pose proof (bpow_gt_0 radix10 (X + 1 - Z.of_nat P)) as B. apply IZR_lt in M0 as M1. assert (POS : 0 < IZR m * bpow radix10 (X + 1 - Z.of_nat P)) by (apply Rmult_lt_0_compat; assumption).
  assert (MAG : mag radix10 (IZR m * bpow radix10 (X + 1 - Z.of_nat P)) = (X + 1)%Z :> Z).
  { apply mag_unique_pos. split.
    - replace (X + 1 - 1)%Z with (Z.of_nat P - 1 + (X + 1 - Z.of_nat P))%Z by lia. rewrite bpow_plus. apply Rmult_le_compat_r; [lra|]. rewrite <- IZR_Zpower by lia. apply IZR_le. exact L.
    - replace (X + 1)%Z with (Z.of_nat P + (X + 1 - Z.of_nat P))%Z at 2 by lia. rewrite bpow_plus. apply Rmult_lt_compat_r; [lra|]. rewrite <- IZR_Zpower by lia. apply IZR_lt. exact U. }
  split; [lra|]. split; [unfold dec_exp; rewrite MAG; lia|]. split; [|exact POS]. unfold dec_mant. rewrite MAG. rewrite Rmult_assoc, <- bpow_plus. replace (X + 1 - Z.of_nat P + (Z.of_nat P - (X + 1)))%Z with 0%Z by lia. cbn [bpow]. rewrite Rmult_1_r, Ztrunc_IZR. lia.
Qed.
Lemma general_pos P m X v : (0 < P)%nat -> (10 ^ (Z.of_nat P - 1) <= m < 10 ^ Z.of_nat P)%Z -> dec_round (Z.of_nat P) v = IZR m * bpow radix10 (X + 1 - Z.of_nat P) ->
  print_general P v = general_digits P X (digits_w P m) /\ print_scientific P v = scientific_digits X (digits_w P m).
Proof.
  intros HP Hm E. destruct (digits_spec P m X v HP Hm E) as (N & EX & EM & POS). unfold print_general, print_scientific, signed. rewrite EX, EM.
  rewrite Req_bool_false by exact N. rewrite Rlt_bool_false by lra. split; reflexivity.
Qed.
Lemma general_neg P m X v : (0 < P)%nat -> (10 ^ (Z.of_nat P - 1) <= m < 10 ^ Z.of_nat P)%Z -> dec_round (Z.of_nat P) v = IZR m * bpow radix10 (X + 1 - Z.of_nat P) ->
  print_general P (- v) = "-"%char :: general_digits P X (digits_w P m) /\ print_scientific P (- v) = "-"%char :: scientific_digits X (digits_w P m).
Proof.
  intros HP Hm E. destruct (digits_spec P m X v HP Hm E) as (N & EX & EM & POS). assert (EN : dec_round (Z.of_nat P) (- v) = - dec_round (Z.of_nat P) v) by (unfold dec_round; apply round_NE_opp).
  unfold print_general, print_scientific, signed. rewrite EN. rewrite Req_bool_false by lra. rewrite Rlt_bool_true by lra.
  assert (E1 : dec_exp (- dec_round (Z.of_nat P) v) = X) by (unfold dec_exp in *; rewrite mag_opp; exact EX).
  assert (E2 : dec_mant (Z.of_nat P) (- dec_round (Z.of_nat P) v) = m) by (unfold dec_mant in *; rewrite mag_opp, Ropp_mult_distr_l_reverse, Ztrunc_opp, Z.abs_opp; exact EM).
  rewrite E1, E2. split; reflexivity.
Qed.
Lemma exact_round P m k : (0 < P)%Z -> (Z.abs m < 10 ^ P)%Z -> dec_round P (IZR m * bpow radix10 k) = IZR m * bpow radix10 k.
Proof. intros HP Hm. rewrite bpow10. apply dec_exact; assumption. Qed.
Lemma exact_v P m k v n d : (0 < P)%Z -> (Z.abs m < 10 ^ P)%Z -> (if k <? 0 then n = m /\ d = 10 ^ (- k) else n = m * 10 ^ k /\ d = 1)%Z -> v * IZR d = IZR n -> dec_round P v = IZR m * bpow radix10 k.
Proof.
  intros HP Hm H E. replace v with (IZR m * bpow radix10 k); [apply exact_round; assumption|]. destruct (Z.ltb_spec k 0) as [K|K]; destruct H as [-> ->].
  - rewrite <- E. rewrite (IZR_Zpower radix10) by lia. rewrite Rmult_assoc, <- bpow_plus. replace (- k + k)%Z with 0%Z by lia. cbn [bpow]. ring.
  - rewrite Rmult_1_r in E. rewrite E, mult_IZR, (IZR_Zpower radix10) by lia. reflexivity.
Qed.
(** m and X are the digits and the exponent *)
Ltac digits P m X lem :=
  let k := eval vm_compute in (X + 1 - Z.of_nat P)%Z in
  let n := eval vm_compute in (if (k <? 0)%Z then m else m * 10 ^ k)%Z in
  let d := eval vm_compute in (if (k <? 0)%Z then 10 ^ (- k) else 1)%Z in
  rewrite (lem P m X); [vm_compute; reflexivity|lia|vm_compute; split; [discriminate|reflexivity]|apply (exact_v _ _ _ _ n d); [lia|vm_compute; reflexivity|vm_compute; split; reflexivity|lra]].
Lemma gp P m X v : (0 < P)%nat -> (10 ^ (Z.of_nat P - 1) <= m < 10 ^ Z.of_nat P)%Z -> dec_round (Z.of_nat P) v = IZR m * bpow radix10 (X + 1 - Z.of_nat P) -> print_general P v = general_digits P X (digits_w P m).
Proof. intros. apply general_pos; assumption. Qed.
Lemma gn P m X v : (0 < P)%nat -> (10 ^ (Z.of_nat P - 1) <= m < 10 ^ Z.of_nat P)%Z -> dec_round (Z.of_nat P) v = IZR m * bpow radix10 (X + 1 - Z.of_nat P) -> print_general P (- v) = "-"%char :: general_digits P X (digits_w P m).
Proof. intros. apply general_neg; assumption. Qed.
Lemma sn P m X v : (0 < P)%nat -> (10 ^ (Z.of_nat P - 1) <= m < 10 ^ Z.of_nat P)%Z -> dec_round (Z.of_nat P) v = IZR m * bpow radix10 (X + 1 - Z.of_nat P) -> print_scientific P (- v) = "-"%char :: scientific_digits X (digits_w P m).
Proof. intros. apply general_neg; assumption. Qed.
Lemma two_thirds : dec_round 10 (2 / 3) = IZR 6666666667 * bpow radix10 (-10).
Proof.
  assert (MAG : mag radix10 (2 / 3) = 0%Z :> Z). { apply mag_unique_pos. cbn. lra. }
  unfold dec_round, round, F2R. cbn [Fnum Fexp]. unfold scaled_mantissa, cexp, FLX_exp. rewrite MAG. change (0 - 10)%Z with (-10)%Z. f_equal. f_equal.
  change (bpow radix10 (- (-10))) with 10000000000. apply Znearest_imp. rewrite Rabs_left1; lra.
Qed.
Lemma texts : print_general 15 (1 / 10) = lit "0.1" /\ print_general 15 (-12345678 / 1000) = lit "-12345.678" /\ print_general 15 (1 / 100000) = lit "1e-05" /\
  print_general 10 100000000000000000000 = lit "1e+20" /\ print_general 10 0 = lit "0" /\ print_general 15 250 = lit "250" /\ print_general 10 (1 / 1024) = lit "0.0009765625" /\
  print_scientific 11 (-5 / 2) = lit "-2.5000000000e+00" /\ print_general 10 (2 / 3) = lit "0.6666666667".
Proof.
  repeat split.
  - digits 15%nat 100000000000000%Z (-1)%Z gp.
  - replace (-12345678 / 1000) with (- (12345678 / 1000)) by lra. digits 15%nat 123456780000000%Z 4%Z gn.
  - digits 15%nat 100000000000000%Z (-5)%Z gp.
  - digits 10%nat 1000000000%Z 20%Z gp.
  - unfold print_general. replace (dec_round (Z.of_nat 10) 0) with 0 by (symmetry; apply round_0; apply valid_rnd_N). rewrite Req_bool_true by reflexivity. reflexivity.
  - digits 15%nat 250000000000000%Z 2%Z gp.
  - digits 10%nat 9765625000%Z (-4)%Z gp.
  - replace (-5 / 2) with (- (5 / 2)) by lra. digits 11%nat 25000000000%Z 0%Z sn.
  - rewrite (proj1 (general_pos 10 6666666667 (-1) (2 / 3) ltac:(lia) ltac:(cbn; lia) two_thirds)). vm_compute. reflexivity.
Qed.

Lemma near_one : dec_round 10 (1 + bpow radix2 (-35)) = 1.
Proof.
  apply (round_close radix10 10 1 _ (bpow radix2 (-35))).
  - lia.
  - apply (decimal_format 10 1); [lia|]. apply one_decimal. lia.
  - replace (1 + bpow radix2 (-35) - 1) with (bpow radix2 (-35)) by ring. rewrite Rabs_R1, Rmult_1_r. rewrite Rabs_pos_eq; [lra|apply bpow_ge_0].
  - change (bpow radix2 (-35)) with (/ 34359738368). change (bpow radix10 (- (10))) with (/ 10000000000). lra.
Qed.
Lemma function_changed get_function args l t0 : map_ok args -> writable args -> lf_nb l = 1%nat -> same_shape t0 (Leaf l []) ->
  parse_input (get_name_in (in_param (lf_par l))) = in_param (lf_par l) ->
  get_function args (mkParameters (dimX (lf_par l)) (dimY (lf_par l)) (in_param (lf_par l)) UNKNOWN_OUTPUT) = Ok t0 ->
  exists v, double v /\ v <> 1 /\ load_function (lex_number to_double) get_function (save_file (print_general 10) args (Leaf l [v])) = Ok (Some (Leaf l [1])).
Proof.
  intros Hm Hw Hl Hs Hi Hg. exists (1 + bpow radix2 (-35)). split; [|split].
  - exists 34359738369%Z, (-35)%Z. split; [reflexivity|]. split; [lia|]. rewrite <- bpow2. change (bpow radix2 (-35)) with (/ 34359738368). lra.
  - pose proof (bpow_gt_0 radix2 (-35)). lra.
  - rewrite (file_round_trip (lex_number to_double) (print_general 10) (kept 10) (general_prints to_double 10 ltac:(lia)) get_function args (Leaf l [1 + bpow radix2 (-35)]) t0); try assumption.
    + cbn [map_params map]. change (Z.of_nat 10) with 10%Z. rewrite near_one. rewrite (double_fixed 1 one_double). reflexivity.
    + cbn [savable length]. symmetry. exact Hl.
Qed.
Lemma normal_big v : / 1000 <= Rabs v -> normal v.
Proof. intros H. right. eapply Rle_trans; [|exact H]. rewrite <- bpow2. apply Rle_trans with (bpow radix2 (-10)); [apply bpow_le; lia|]. change (bpow radix2 (-10)) with (/ 1024). lra. Qed.
Lemma data_case : exists rows, load_text (lex_number to_double) (fun _ => Abort) (fun _ => 0) (powerRZ 2 127) (save_text (print_general 15) (mkParameters 1 1 RUSIN_TH_PH_TD_PD INV_STERADIAN) [[1 / 3; 2]; [0; -1 / 7]]) [] = Ok (mkText (mkParameters 1 1 RUSIN_TH_PH_TD_PD INV_STERADIAN) rows) /\
  Forall2 (fun x row => Forall2 (close 15) (firstn 2 x) (firstn 2 row)) [[1 / 3; 2]; [0; -1 / 7]] rows.
Proof.
  assert (B : 2 <= powerRZ 2 127 / 2). { rewrite <- bpow2. apply Rle_trans with (bpow radix2 2 / 2); [change (bpow radix2 2) with 4; lra|]. apply Rmult_le_compat_r; [lra|apply bpow_le; lia]. }
  destruct (data_file (fun _ => Abort) (fun _ => 0) (powerRZ 2 127) (mkParameters 1 1 RUSIN_TH_PH_TD_PD INV_STERADIAN) [[1 / 3; 2]; [0; -1 / 7]]) as (rows & L & C & _); try reflexivity.
  - cbn. lia.
  - assert (K : forall v, v = 0 \/ / 1000 <= Rabs v -> Rabs v <= 2 -> normal v /\ Rabs v <= powerRZ 2 127 / 2) by (intros v [->|H] H2; (split; [first [left; reflexivity|apply normal_big; assumption]|lra])).
    assert (A1 : Rabs (1 / 3) = 1 / 3) by (apply Rabs_pos_eq; lra). assert (A2 : Rabs 2 = 2) by (apply Rabs_pos_eq; lra). assert (A3 : Rabs (-1 / 7) = 1 / 7) by (rewrite Rabs_left; lra). assert (A4 : Rabs 0 = 0) by apply Rabs_R0.
    apply Forall_cons; [|apply Forall_cons; [|apply Forall_nil]]; (split; [cbn [length dimX dimY]; lia|]); apply Forall_cons; [| |..]; try (apply Forall_cons; [|apply Forall_nil]); apply K; rewrite ?A1, ?A2, ?A3, ?A4; try (right; lra); try (left; reflexivity); lra.
  - exists rows. split; [exact L|exact C].
Qed.

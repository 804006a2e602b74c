(** Proofs for C118 and C119: nearest numbers, and the contracts of the file theorems. *)
From Coq Require Import Reals List Lia Lra ZArith String.
From Flocq Require Import Core Relative.
From Verif Require Import Base Num DataModel TextModel TextRound CutSpec GlslSpec DecModel DecSpec DecProofs DecProofs2.
Import ListNotations.
Open Scope R_scope.
Open Scope list_scope.

Lemma general_prints store P : (0 < P)%nat -> TextRound.prints (lex_number store) (print_general P) (fun v => store (dec_round (Z.of_nat P) v)).
Proof. intros HP v. destruct (general_text P v HP) as (neg & i & f & o & T & Di & Ni & Df & <-). eapply text_numeral; eassumption. Qed.
Lemma scientific_prints store P : (0 < P)%nat -> TextRound.prints (lex_number store) (print_scientific P) (fun v => store (dec_round (Z.of_nat P) v)).
Proof. intros HP v. destruct (scientific_text P v HP) as (neg & i & f & o & T & Di & Ni & Df & <-). eapply text_numeral; eassumption. Qed.
Lemma general_prefixes store P : (0 < P)%nat -> prefixes_end (lex_number store) (print_general P).
Proof. intros HP v q r E Hq. destruct (general_text P v HP) as (neg & i & f & o & T & Di & Ni & Df & _). exact (text_prefix store neg i f o _ q r T Di Ni Df E Hq). Qed.
Lemma scientific_prefixes store P : (0 < P)%nat -> prefixes_end (lex_number store) (print_scientific P).
Proof. intros HP v q r E Hq. destruct (scientific_text P v HP) as (neg & i & f & o & T & Di & Ni & Df & _). exact (text_prefix store neg i f o _ q r T Di Ni Df E Hq). Qed.

Lemma decimal_format P x : (0 < P)%Z -> decimal P x <-> generic_format radix10 (FLX_exp P) x.
Proof.
  intros HP. split.
  - intros (m & k & Hm & _ & ->). apply generic_format_FLX. change (IZR 10) with 10. rewrite <- bpow10. exists (Float radix10 m k); [reflexivity|exact Hm].
  - intros F. apply FLX_format_generic in F; [|exact HP]. destruct F as [[m k] E Hm]. exists m, k. split; [exact Hm|]. split; [exact I|]. rewrite E. unfold F2R. cbn [Fnum Fexp]. rewrite bpow10. reflexivity.
Qed.
Lemma double_format x : double x <-> generic_format radix2 (FLT_exp (-1074) 53) x.
Proof.
  split.
  - intros (m & k & Hm & Hk & ->). apply generic_format_FLT. change (IZR 2) with (IZR radix2). rewrite <- bpow_powerRZ. exists (Float radix2 m k); [reflexivity|exact Hm|exact Hk].
  - intros F. apply FLT_format_generic in F; [|reflexivity]. destruct F as [[m k] E Hm Hk]. exists m, k. split; [exact Hm|]. split; [exact Hk|]. rewrite E. unfold F2R. cbn [Fnum Fexp]. rewrite bpow_powerRZ. reflexivity.
Qed.
Lemma dec_nearest P v : (0 < P)%Z -> nearest (decimal P) v (dec_round P v).
Proof.
  intros HP. assert (V : Valid_exp (FLX_exp P)) by (apply FLX_exp_valid; exact HP). destruct (round_N_pt radix10 (FLX_exp P) (fun x => negb (Z.even x)) v) as [F N].
  split; [apply decimal_format; assumption|]. intros z Hz. apply N. apply decimal_format; assumption.
Qed.
Lemma double_nearest v : nearest double v (to_double v).
Proof.
  assert (V : Valid_exp (FLT_exp (-1074) 53)) by (apply FLT_exp_valid; reflexivity). destruct (round_N_pt radix2 (FLT_exp (-1074) 53) (fun x => negb (Z.even x)) v) as [F N].
  split; [apply double_format; assumption|]. intros z Hz. apply N. apply double_format; assumption.
Qed.
Lemma double_fixed v : double v -> to_double v = v.
Proof. intros H. apply round_generic; [apply valid_rnd_N|]. apply double_format. exact H. Qed.
Lemma decimal_fixed P v : (0 < P)%Z -> decimal P v -> dec_round P v = v.
Proof. intros HP H. apply round_generic; [apply valid_rnd_N|]. apply decimal_format; assumption. Qed.
Lemma bpow2 e : bpow radix2 e = powerRZ 2 e.
Proof. apply bpow_powerRZ. Qed.

Lemma ten_P P : (0 < P)%Z -> 5 * powerRZ 10 (- P) <= / 2.
Proof. intros HP. rewrite <- bpow10. apply Rle_trans with (5 * bpow radix10 (-1)); [apply Rmult_le_compat_l; [lra|apply bpow_le; lia]|]. change (bpow radix10 (-1)) with (/ 10). lra. Qed.
Lemma rounded_normal P v : (0 < P)%Z -> normal v -> dec_round P v = 0 \/ bpow radix2 (-1022) <= Rabs (dec_round P v).
Proof.
  intros HP [->|H]; [left; apply round_0; apply valid_rnd_N|right]. rewrite <- bpow2 in H. change (-1021)%Z with (1 + -1022)%Z in H. rewrite bpow_plus in H. change (bpow radix2 1) with 2 in H.
  pose proof (dec_error P v HP) as E. pose proof (ten_P P HP) as T. pose proof (Rabs_triang_inv v (v - dec_round P v)) as TI. replace (v - (v - dec_round P v)) with (dec_round P v) in TI by ring. rewrite (Rabs_minus_sym v) in TI.
  assert (5 * powerRZ 10 (- P) * Rabs v <= / 2 * Rabs v) by (apply Rmult_le_compat_r; [apply Rabs_pos|exact T]). lra.
Qed.
Lemma stored_close P v : (0 < P <= 15)%Z -> normal v -> close P v (to_double (dec_round P v)).
Proof.
  intros HP HN. unfold close. set (d := dec_round P v). pose proof (dec_error P v ltac:(lia)) as E. fold d in E. pose proof (ten_P P ltac:(lia)) as T. pose proof (Rabs_pos v) as AV.
  assert (E2 : Rabs (to_double d - d) <= bpow radix2 (-53) * Rabs d).
  { pose proof (rounded_normal P v ltac:(lia) HN) as RN. fold d in RN. destruct RN as [Z|B].
    - rewrite Z. unfold to_double. rewrite round_0 by apply valid_rnd_N. rewrite Rminus_0_r, Rabs_R0. lra.
    - rewrite <- half_52. apply double_error. exact B. }
  pose proof (Rabs_triang (to_double d - d) (d - v)) as TR. replace (to_double d - d + (d - v)) with (to_double d - v) in TR by ring.
  pose proof (Rabs_triang v (d - v)) as TD. replace (v + (d - v)) with d in TD by ring.
  pose proof (tiny_53 P ltac:(lia)) as TI. rewrite bpow10 in TI. pose proof (bpow_gt_0 radix2 (-53)) as B0.
  assert (D2 : Rabs d <= 2 * Rabs v). { assert (5 * powerRZ 10 (- P) * Rabs v <= / 2 * Rabs v) by (apply Rmult_le_compat_r; lra). lra. }
  assert (bpow radix2 (-53) * Rabs d <= powerRZ 10 (- P) * Rabs v).
  { apply Rle_trans with (bpow radix2 (-53) * (2 * Rabs v)); [apply Rmult_le_compat_l; lra|]. replace (bpow radix2 (-53) * (2 * Rabs v)) with (2 * bpow radix2 (-53) * Rabs v) by ring. apply Rmult_le_compat_r; lra. }
  lra.
Qed.
Lemma same_general P v : (0 < P <= 15)%nat -> normal v -> print_general P (to_double (dec_round (Z.of_nat P) v)) = print_general P v.
Proof. intros HP HN. unfold print_general. rewrite reread; [reflexivity|lia|apply rounded_normal; [lia|exact HN]]. Qed.
Lemma same_scientific P v : (0 < P <= 15)%nat -> normal v -> print_scientific P (to_double (dec_round (Z.of_nat P) v)) = print_scientific P v.
Proof. intros HP HN. unfold print_scientific. rewrite reread; [reflexivity|lia|apply rounded_normal; [lia|exact HN]]. Qed.
(** a double that was typed with at most P digits comes back *)
Lemma typed P d : (0 < P <= 15)%Z -> decimal P d -> normal d -> to_double (dec_round P (to_double d)) = to_double d.
Proof.
  intros HP HD HN. f_equal. pose proof (decimal_fixed P d ltac:(lia) HD) as E. rewrite <- E at 1. rewrite reread; [exact E|lia|]. apply rounded_normal; [lia|exact HN].
Qed.
Lemma normal_1022 v : normal v -> v = 0 \/ bpow radix2 (-1021) <= Rabs v.
Proof. intros [H|H]; [left; exact H|right; rewrite bpow2; exact H]. Qed.
Lemma seventeen_digits v : double v -> normal v -> to_double (dec_round 17 v) = v.
Proof.
  intros HD [->|H].
  - unfold dec_round, to_double. rewrite round_0 by apply valid_rnd_N. apply round_0. apply valid_rnd_N.
  - apply seventeen; [apply double_fixed; exact HD|rewrite bpow2; exact H].
Qed.
(** 1 and the double after it *)
Lemma after_one : dec_round 15 (1 + powerRZ 2 (-52)) = 1.
Proof.
  apply (round_close radix10 15 1 _ (bpow radix2 (-52))).
  - lia.
  - apply (decimal_format 15 1); [lia|]. exists 1%Z, 0%Z. split; [reflexivity|]. split; [exact I|]. cbn. lra.
  - rewrite <- bpow2. replace (1 + bpow radix2 (-52) - 1) with (bpow radix2 (-52)) by ring. rewrite Rabs_R1, Rmult_1_r. rewrite Rabs_pos_eq; [lra|apply bpow_ge_0].
  - change (bpow radix2 (-52)) with (/ 4503599627370496). change (bpow radix10 (- (15))) with (/ 1000000000000000). lra.
Qed.
Lemma after_one_double : double (1 + powerRZ 2 (-52)).
Proof.
  exists 4503599627370497%Z, (-52)%Z. split; [reflexivity|]. split; [lia|]. rewrite <- !bpow2. change (bpow radix2 (-52)) with (/ 4503599627370496). lra.
Qed.
Lemma one_decimal P : (0 < P)%Z -> decimal P 1.
Proof. intros HP. exists 1%Z, 0%Z. split; [apply Z.pow_gt_1; lia|]. split; [exact I|]. cbn. lra. Qed.
Lemma one_double : double 1.
Proof. exists 1%Z, 0%Z. split; [reflexivity|]. split; [lia|]. cbn. lra. Qed.
Lemma one_kept P : (0 < P)%Z -> to_double (dec_round P 1) = 1.
Proof. intros HP. rewrite decimal_fixed by (try apply one_decimal; exact HP). apply double_fixed, one_double. Qed.

(** the literals of shaders *)
Definition nums (s : str) : list nat := map (fun c => (nat_of_ascii c - 48)%nat) s.
Lemma digit_range c : is_digit c = true -> (48 <= nat_of_ascii c < 58)%nat.
Proof. revert c. assert (K : forall c, is_digit c = true -> ((48 <=? nat_of_ascii c) && (nat_of_ascii c <? 58))%nat = true); [|intros c H; specialize (K c H); apply andb_prop in K; destruct K as [K1 K2]; apply Nat.leb_le in K1; apply Nat.ltb_lt in K2; lia]. intros [[] [] [] [] [] [] [] []]; cbn; intros; try reflexivity; discriminate. Qed.
Lemma digit_text_nums s : all_digits s -> list_ascii_of_string (digit_text (nums s)) = s.
Proof. induction 1 as [|c s H _ IH]; [reflexivity|]. cbn [nums map digit_text list_ascii_of_string]. fold (nums s). rewrite IH. f_equal. pose proof (digit_range c H). replace (48 + (nat_of_ascii c - 48))%nat with (nat_of_ascii c) by lia. apply ascii_nat_embedding. Qed.
Lemma fold_nums s : all_digits s -> forall m, fold_left (fun m d => 10 * m + Z.of_nat d)%Z (nums s) m = fold_left (fun m c => (10 * m + digit_num c)%Z) s m.
Proof. induction 1 as [|c s H _ IH]; intros m; [reflexivity|]. cbn [nums map fold_left]. fold (nums s). rewrite IH. f_equal. unfold digit_num. pose proof (digit_range c H). lia. Qed.
Lemma nums_value s : all_digits s -> digit_value (nums s) = digits_value s.
Proof. intros H. apply fold_nums. exact H. Qed.
Lemma nums_digits s : all_digits s -> Forall (fun d => d < 10)%nat (nums s).
Proof. induction 1 as [|c s H _ IH]; constructor; [|exact IH]. pose proof (digit_range c H). lia. Qed.
Lemma list_ascii_app a : forall b, list_ascii_of_string (a ++ b)%string = (list_ascii_of_string a ++ list_ascii_of_string b)%list.
Proof. induction a as [|c a IH]; intros b; [reflexivity|]. cbn. rewrite IH. reflexivity. Qed.
Definition as_string (s : str) : string := string_of_list_ascii s.
Lemma general_literals P : (0 < P)%nat -> GlslSpec.prints (fun v => as_string (print_general P v)) (dec_round (Z.of_nat P)).
Proof.
  intros HP v. destruct (general_text P v HP) as (neg & i & f & o & T & Di & Ni & Df & V).
  set (fr := match f with [] => None | _ => Some (nums f) end).
  assert (FR : match fr with Some g => g | None => [] end = nums f) by (destruct f; reflexivity).
  assert (FT : list_ascii_of_string (match fr with Some g => "." ++ digit_text g | None => "" end)%string = match f with [] => [] | _ => "."%char :: f end).
  { destruct f as [|c f]; [reflexivity|]. cbn [fr]. rewrite list_ascii_app, digit_text_nums by exact Df. reflexivity. }
  assert (WP : with_point i f = i ++ match f with [] => [] | _ => "."%char :: f end) by (destruct f; [symmetry; apply app_nil_r|reflexivity]).
  assert (OKI : nums i <> []) by (destruct i; [congruence|discriminate]).
  assert (OKF : forall g, fr = Some g -> Forall (fun d => d < 10)%nat g) by (intros g E; destruct f; [discriminate E|]; injection E as <-; exact (nums_digits _ Df)).
  assert (VAL : digit_value (nums i ++ nums f) = digits_value (i ++ f)).
  { unfold nums. rewrite <- map_app. apply nums_value. apply Forall_app. split; assumption. }
  destruct T as [|e].
  - exists (mkNumeral neg (nums i) fr None). split; [|split].
    + split; [exact OKI|]. split; [apply nums_digits; exact Di|]. split; [exact OKF|]. intros g e E. discriminate E.
    + unfold as_string. rewrite <- (string_of_list_ascii_of_string (numeral_text _)). f_equal. unfold numeral_text. cbn [n_neg n_int n_frac n_exp]. rewrite !list_ascii_app, digit_text_nums, FT by exact Di. rewrite app_nil_r, WP. destruct neg; reflexivity.
    + rewrite <- V. unfold numeral_value, text_value. cbn [n_neg n_int n_frac n_exp]. rewrite FR, VAL, <- bpow10. unfold nums. rewrite map_length. reflexivity.
  - destruct (exp_read e [] I) as (sg & x & ET & TS & Dx & Nx & _ & VX).
    exists (mkNumeral neg (nums i) fr (Some ((e <? 0)%Z, nums x))). split; [|split].
    + split; [exact OKI|]. split; [apply nums_digits; exact Di|]. split; [exact OKF|]. intros g y E. cbn [n_exp] in E. injection E as <- <-. split; [destruct x; [congruence|discriminate]|apply nums_digits; exact Dx].
    + unfold as_string. rewrite <- (string_of_list_ascii_of_string (numeral_text _)). f_equal. unfold numeral_text. cbn [n_neg n_int n_frac n_exp]. rewrite !list_ascii_app, !digit_text_nums, FT by assumption. rewrite WP.
      assert (ET' : exp_text e = list_ascii_of_string "e" ++ list_ascii_of_string (if (e <? 0)%Z then "-" else "+") ++ x).
      { rewrite ET. unfold exp_text in ET. injection ET as Hsg _. rewrite <- Hsg. destruct (e <? 0)%Z; reflexivity. }
      rewrite ET', <- !app_assoc. destruct neg; reflexivity.
    + rewrite <- V. unfold numeral_value, text_value. cbn [n_neg n_int n_frac n_exp]. rewrite FR, VAL, <- bpow10. cbn [exp_of].
      rewrite (nums_value x Dx), VX. unfold nums. rewrite map_length. reflexivity.
Qed.

(** Order and real value of IEEE doubles: [dlt] against the integer order of
    the bit patterns, and against the reals (through Flocq). *)
From Coq Require Import SpecFloat NArith ZArith Reals Lia Lra.
From Flocq Require Import Core BinarySingleNaN.
From Verif Require Import Base Double DataModel DataSpec.

(** ** The bit pattern as an ordering key *)
(** sign-magnitude reading of the 64 bits *)
Definition okey (w : double) : Z :=
  if (w <? 2 ^ 63)%N then Z.of_N w else (- Z.of_N (w - 2 ^ 63))%Z.

Lemma decomp w : is_double w -> exists (s : bool) (e m : N),
  (e < 2048 /\ m < 2 ^ 52 /\ w = (if s then 2 ^ 63 else 0) + e * 2 ^ 52 + m)%N /\
  N.testbit w 63 = s /\ ((w / 2 ^ 52) mod 2 ^ 11 = e)%N /\ (w mod 2 ^ 52 = m)%N.
Proof.
  unfold is_double. intros Hw.
  assert (Hq : (w / 2 ^ 52 < 2 ^ 12)%N) by (apply N.div_lt_upper_bound; lia).
  assert (H1 := N.div_mod w (2 ^ 52) ltac:(lia)).
  assert (H2 := N.mod_lt w (2 ^ 52) ltac:(lia)).
  set (q := (w / 2 ^ 52)%N) in *. set (m := (w mod 2 ^ 52)%N) in *.
  assert (H3 := N.div_mod q (2 ^ 11) ltac:(lia)). assert (H4 := N.mod_lt q (2 ^ 11) ltac:(lia)).
  assert (Hs : (q / 2 ^ 11 < 2)%N) by (apply N.div_lt_upper_bound; lia).
  set (e := (q mod 2 ^ 11)%N) in *.
  assert (Ht : N.testbit w 63 = (q / 2 ^ 11 =? 1)%N).
  { rewrite N.testbit_eqb. replace (2 ^ 63)%N with (2 ^ 52 * 2 ^ 11)%N by reflexivity.
    rewrite <- N.div_div by lia. fold q. rewrite N.mod_small by assumption. reflexivity. }
  exists (q / 2 ^ 11 =? 1)%N, e, m. repeat split; auto; try lia.
  change (2 ^ 11)%N with 2048%N in *. change (2 ^ 52)%N with 4503599627370496%N in *.
  change (2 ^ 63)%N with 9223372036854775808%N.
  destruct (N.eqb_spec (q / 2048) 1) as [E|E].
  - rewrite E in H3. lia.
  - assert (q / 2048 = 0)%N as E' by lia. rewrite E' in H3. lia.
Qed.

Lemma okey_decomp (s : bool) e m : (e < 2048 -> m < 2 ^ 52 ->
  okey ((if s then 2 ^ 63 else 0) + e * 2 ^ 52 + m) =
  (if s then - Z.of_N (e * 2 ^ 52 + m) else Z.of_N (e * 2 ^ 52 + m))%Z)%N.
Proof.
  intros He Hm. unfold okey. change (2 ^ 63)%N with 9223372036854775808%N in *.
  change (2 ^ 52)%N with 4503599627370496%N in *.
  destruct s.
  - destruct (N.ltb_spec (9223372036854775808 + e * 4503599627370496 + m) 9223372036854775808); lia.
  - destruct (N.ltb_spec (0 + e * 4503599627370496 + m) 9223372036854775808); lia.
Qed.

(** decoded value of a pattern *)
Definition sf_parts (s : bool) (e m : N) : spec_float :=
  if (e =? 2047)%N then (if (m =? 0)%N then S754_infinity s else S754_nan)
  else if (e =? 0)%N then
    match m with N0 => S754_zero s | Npos p => S754_finite s p (-1074) end
  else match (m + 2 ^ 52)%N with N0 => S754_nan | Npos p => S754_finite s p (Z.of_N e - 1075) end.

Lemma sf_decode_parts w : is_double w -> exists (s : bool) (e m : N),
  (e < 2048 /\ m < 2 ^ 52)%N /\ sf_decode w = sf_parts s e m /\
  okey w = (if s then - Z.of_N (e * 2 ^ 52 + m) else Z.of_N (e * 2 ^ 52 + m))%Z.
Proof.
  intros Hw. destruct (decomp w Hw) as (s & e & m & (He & Hm & Ew) & Hs & Ee & Em).
  exists s, e, m. repeat split; auto.
  - unfold sf_decode. rewrite Hs, Ee, Em. reflexivity.
  - rewrite Ew. apply okey_decomp; assumption.
Qed.

Lemma normal_mantissa m : exists p, (m + 2 ^ 52)%N = Npos p.
Proof. destruct (m + 2 ^ 52)%N eqn:E; [lia|eauto]. Qed.

(** shape of a pattern: NaN, infinity, or a number whose (exponent, mantissa)
    order is the order of the magnitude bits *)
Lemma parts_cases s e m : (e < 2048 -> m < 2 ^ 52 ->
  (e = 2047 /\ m <> 0 /\ sf_parts s e m = S754_nan)
  \/ (e = 2047 /\ m = 0 /\ sf_parts s e m = S754_infinity s)
  \/ (e = 0 /\ m = 0 /\ sf_parts s e m = S754_zero s)
  \/ (e < 2047 /\ 0 < e * 2 ^ 52 + m /\ exists p x, sf_parts s e m = S754_finite s p x /\
      (e = 0 /\ Npos p = m /\ x = (-1074)%Z \/ 0 < e /\ Npos p = m + 2 ^ 52 /\ x = (Z.of_N e - 1075)%Z)))%N.
Proof.
  intros He Hm. unfold sf_parts.
  destruct (N.eqb_spec e 2047) as [->|H1].
  - destruct (N.eqb_spec m 0); auto 6.
  - destruct (N.eqb_spec e 0) as [->|H2].
    + destruct m as [|p]; [auto 6|]. right; right; right. split; [lia|]. split; [lia|]. eauto 10.
    + destruct (normal_mantissa m) as [p Ep]. rewrite Ep. right; right; right.
      split; [lia|]. split; [change (2 ^ 52)%N with 4503599627370496%N in *; lia|].
      exists p, (Z.of_N e - 1075)%Z. split; [reflexivity|]. right. split; [lia|]. auto.
Qed.

Lemma is_nan_false w : is_nan w = false <-> sf_decode w <> S754_nan.
Proof. unfold is_nan. destruct (sf_decode w); split; congruence. Qed.

Lemma compare_finite (s1 s2 : bool) p1 x1 p2 x2 e1 m1 e2 m2 :
  (m1 < 2 ^ 52 -> m2 < 2 ^ 52 ->
  (e1 = 0 /\ Npos p1 = m1 /\ x1 = (-1074)%Z \/ 0 < e1 /\ Npos p1 = m1 + 2 ^ 52 /\ x1 = (Z.of_N e1 - 1075)%Z) ->
  (e2 = 0 /\ Npos p2 = m2 /\ x2 = (-1074)%Z \/ 0 < e2 /\ Npos p2 = m2 + 2 ^ 52 /\ x2 = (Z.of_N e2 - 1075)%Z) ->
  0 < e1 * 2 ^ 52 + m1 -> 0 < e2 * 2 ^ 52 + m2 ->
  SFcompare (S754_finite s1 p1 x1) (S754_finite s2 p2 x2) =
  Some (Z.compare (if s1 then - Z.of_N (e1 * 2 ^ 52 + m1) else Z.of_N (e1 * 2 ^ 52 + m1))
                  (if s2 then - Z.of_N (e2 * 2 ^ 52 + m2) else Z.of_N (e2 * 2 ^ 52 + m2)))%Z)%N.
Proof.
  intros Hm1 Hm2 D1 D2 P1 P2.
  assert (Hc : forall a b c d : Z, (a ?= b)%Z = (c ?= d)%Z -> Some (a ?= b)%Z = Some (c ?= d)%Z) by (intros; congruence).
  assert (K : (match Z.compare x1 x2 with Eq => Pcompare p1 p2 Eq | c => c end) =
    Z.compare (Z.of_N (e1 * 2 ^ 52 + m1)) (Z.of_N (e2 * 2 ^ 52 + m2))).
  { change (2 ^ 52)%N with 4503599627370496%N in *.
    change (Pcompare p1 p2 Eq) with (Z.compare (Zpos p1) (Zpos p2)).
    destruct (Z.compare_spec x1 x2) as [E|E|E];
    [destruct (Z.compare_spec (Zpos p1) (Zpos p2))| |];
    symmetry; first [apply Z.compare_eq_iff | apply Z.compare_lt_iff | apply Z.compare_gt_iff]; lia. }
  unfold SFcompare. destruct s1, s2.
  - f_equal. rewrite Z.compare_opp, (Z.compare_antisym (Z.of_N (e1 * _ + m1))), <- K.
    destruct (x1 ?= x2)%Z; reflexivity.
  - f_equal. symmetry. apply Z.compare_lt_iff. lia.
  - f_equal. symmetry. apply Z.compare_gt_iff. lia.
  - f_equal. rewrite <- K. destruct (x1 ?= x2)%Z; reflexivity.
Qed.

(** [a < b] on doubles is the order of the keys, NaN excluded *)
Theorem dlt_key a b : is_double a -> is_double b ->
  dlt a b = true <-> is_nan a = false /\ is_nan b = false /\ (okey a < okey b)%Z.
Proof.
  intros Ha Hb. rewrite !is_nan_false. unfold dlt, SFltb.
  destruct (sf_decode_parts a Ha) as (s1 & e1 & m1 & [He1 Hm1] & -> & ->).
  destruct (sf_decode_parts b Hb) as (s2 & e2 & m2 & [He2 Hm2] & -> & ->).
  destruct (parts_cases s1 e1 m1 He1 Hm1) as [(A1 & A2 & ->)|[(A1 & A2 & ->)|[(A1 & A2 & ->)|(A1 & A2 & p1 & x1 & -> & D1)]]];
  destruct (parts_cases s2 e2 m2 He2 Hm2) as [(B1 & B2 & ->)|[(B1 & B2 & ->)|[(B1 & B2 & ->)|(B1 & B2 & p2 & x2 & -> & D2)]]];
  try (split; [discriminate|intros (F1 & F2 & _); congruence]).
  9: { rewrite (compare_finite s1 s2 p1 x1 p2 x2 e1 m1 e2 m2) by assumption.
    change (2 ^ 52)%N with 4503599627370496%N in *.
    match goal with |- context [(?x ?= ?y)%Z] => destruct (Z.compare_spec x y) end; cbv beta iota;
    (split; [intros; try discriminate; repeat split; congruence || lia | intros (_ & _ & ?); try reflexivity; lia]). }
  all: change (2 ^ 52)%N with 4503599627370496%N in *; cbn [SFcompare];
  destruct s1, s2; cbv beta iota;
  (split; [intros; try discriminate; repeat split; congruence || lia | intros (_ & _ & ?); try reflexivity; lia]).
Qed.

(** ** Minimum and maximum *)
Definition dle (a b : double) : Prop := is_nan a = false /\ is_nan b = false /\ (okey a <= okey b)%Z.

Lemma dlt_false_le a b : is_double a -> is_double b -> is_nan a = false -> is_nan b = false ->
  dlt a b = false <-> (okey b <= okey a)%Z.
Proof.
  intros Ha Hb Na Nb. destruct (dlt a b) eqn:E.
  - apply dlt_key in E; [|assumption..]. split; [discriminate|lia].
  - split; [|reflexivity]. intros _. destruct (Z.lt_ge_cases (okey a) (okey b)) as [L|]; [|assumption].
    assert (dlt a b = true) by (apply dlt_key; auto). congruence.
Qed.

Lemma fold_dmin l : forall a, is_double a -> Forall is_double l -> is_nan a = false ->
  let m := fold_left dmin l a in
  is_double m /\ is_nan m = false /\ (m = a \/ In m l) /\
  (okey m <= okey a)%Z /\ (forall v, In v l -> is_nan v = false -> (okey m <= okey v)%Z).
Proof.
  induction l as [|x l IH]; intros a Ha Hl Na.
  - cbn. repeat split; auto; [lia|contradiction].
  - inversion Hl as [|? ? Hx Hl']; subst. cbn [fold_left].
    assert (Hd : is_double (dmin a x) /\ is_nan (dmin a x) = false /\ (dmin a x = a \/ dmin a x = x) /\
       (okey (dmin a x) <= okey a)%Z /\ (is_nan x = false -> (okey (dmin a x) <= okey x)%Z)).
    { unfold dmin. destruct (dlt x a) eqn:E.
      - apply dlt_key in E; [|assumption..]. destruct E as (Nx & _ & L). repeat split; auto; lia.
      - repeat split; auto; [lia|]. intros Nx. apply dlt_false_le in E; auto. }
    destruct Hd as (D1 & D2 & D3 & D4 & D5).
    destruct (IH _ D1 Hl' D2) as (M1 & M2 & M3 & M4 & M5). cbv zeta in *.
    set (m := fold_left dmin l (dmin a x)) in *.
    repeat split; auto.
    + destruct M3 as [M3|M3]; [|right; right; exact M3]. rewrite M3. destruct D3 as [->| ->]; [left|right; left]; reflexivity.
    + lia.
    + intros v [<-|Hv] Nv; [specialize (D5 Nv); lia|auto].
Qed.

Lemma fold_dmax l : forall a, is_double a -> Forall is_double l -> is_nan a = false ->
  let m := fold_left dmax l a in
  is_double m /\ is_nan m = false /\ (m = a \/ In m l) /\
  (okey a <= okey m)%Z /\ (forall v, In v l -> is_nan v = false -> (okey v <= okey m)%Z).
Proof.
  induction l as [|x l IH]; intros a Ha Hl Na.
  - cbn. repeat split; auto; [lia|contradiction].
  - inversion Hl as [|? ? Hx Hl']; subst. cbn [fold_left].
    assert (Hd : is_double (dmax a x) /\ is_nan (dmax a x) = false /\ (dmax a x = a \/ dmax a x = x) /\
       (okey a <= okey (dmax a x))%Z /\ (is_nan x = false -> (okey x <= okey (dmax a x))%Z)).
    { unfold dmax. destruct (dlt a x) eqn:E.
      - apply dlt_key in E; [|assumption..]. destruct E as (_ & Nx & L). repeat split; auto; lia.
      - repeat split; auto; [lia|]. intros Nx. apply dlt_false_le in E; auto. }
    destruct Hd as (D1 & D2 & D3 & D4 & D5).
    destruct (IH _ D1 Hl' D2) as (M1 & M2 & M3 & M4 & M5). cbv zeta in *.
    set (m := fold_left dmax l (dmax a x)) in *.
    repeat split; auto.
    + destruct M3 as [M3|M3]; [|right; right; exact M3]. rewrite M3. destruct D3 as [->| ->]; [left|right; left]; reflexivity.
    + lia.
    + intros v [<-|Hv] Nv; [specialize (D5 Nv); lia|auto].
Qed.

Lemma dbl_max_facts : is_double dbl_max /\ is_nan dbl_max = false /\ okey dbl_max = 0x7FEFFFFFFFFFFFFF%Z.
Proof. repeat split. Qed.
Lemma dbl_lowest_facts : is_double dbl_lowest /\ is_nan dbl_lowest = false /\ okey dbl_lowest = (- 0x7FEFFFFFFFFFFFFF)%Z.
Proof. repeat split. Qed.

Lemma finite_key w : is_double w -> is_finite w = true ->
  is_nan w = false /\ (- 0x7FEFFFFFFFFFFFFF <= okey w <= 0x7FEFFFFFFFFFFFFF)%Z.
Proof.
  intros Hw Hf. rewrite is_nan_false. unfold is_finite in Hf.
  destruct (sf_decode_parts w Hw) as (s & e & m & [He Hm] & E & ->). rewrite E in *.
  change (2 ^ 52)%N with 4503599627370496%N in *.
  destruct (parts_cases s e m He Hm) as [(A1 & A2 & A3)|[(A1 & A2 & A3)|[(A1 & A2 & A3)|(A1 & A2 & p & x & A3 & D)]]];
   rewrite A3 in *; try discriminate; (split; [discriminate|]); destruct s; lia.
Qed.

Lemma okey_inj_pos a b : is_double a -> is_double b -> okey a = okey b -> (0 < okey a)%Z -> a = b.
Proof.
  unfold is_double, okey. intros Ha Hb. change (2 ^ 63)%N with 9223372036854775808%N in *. change (2 ^ 64)%N with 18446744073709551616%N in *.
  destruct (N.ltb_spec a 9223372036854775808), (N.ltb_spec b 9223372036854775808); lia.
Qed.
Lemma okey_inj_neg a b : is_double a -> is_double b -> okey a = okey b -> (okey a < 0)%Z -> a = b.
Proof.
  unfold is_double, okey. intros Ha Hb. change (2 ^ 63)%N with 9223372036854775808%N in *. change (2 ^ 64)%N with 18446744073709551616%N in *.
  destruct (N.ltb_spec a 9223372036854775808), (N.ltb_spec b 9223372036854775808); lia.
Qed.

(** ** Real value *)

Lemma sf_valid w : is_double w -> SpecFloat.valid_binary 53 1024 (sf_decode w) = true.
Proof.
  intros Hw. destruct (sf_decode_parts w Hw) as (s & e & m & [He Hm] & -> & _).
  destruct (parts_cases s e m He Hm) as [(A1 & A2 & ->)|[(A1 & A2 & ->)|[(A1 & A2 & ->)|(A1 & A2 & p & x & -> & D)]]]; try reflexivity.
  unfold SpecFloat.valid_binary, SpecFloat.bounded, SpecFloat.canonical_mantissa, SpecFloat.fexp, SpecFloat.emin.
  rewrite Digits.Zpos_digits2_pos.
  assert (Hp : (Zpos p < 2 ^ 53)%Z).
  { change (2 ^ 53)%Z with (Z.of_N (2 ^ 53)). change (Z.pos p) with (Z.of_N (N.pos p)).
    destruct D as [(_ & -> & _)|(_ & -> & _)]; change (2 ^ 53)%N with 9007199254740992%N;
    change (2 ^ 52)%N with 4503599627370496%N in *; lia. }
  assert (Hd : (Digits.Zdigits radix2 (Zpos p) <= 53)%Z).
  { apply Digits.Zdigits_le_Zpower. simpl Z.abs. exact Hp. }
  destruct D as [(E & Ep & ->)|(E & Ep & ->)].
  - apply andb_true_intro. split; [|reflexivity]. apply Zeq_is_eq_bool. lia.
  - assert (Hd2 : (52 < Digits.Zdigits radix2 (Zpos p))%Z).
    { apply Digits.Zdigits_gt_Zpower. simpl Z.abs. change (Zpower radix2 52) with (Z.of_N (2 ^ 52)).
      change (Z.pos p) with (Z.of_N (N.pos p)). rewrite Ep. lia. }
    apply andb_true_intro. split.
    + apply Zeq_is_eq_bool. lia.
    + apply Z.leb_le. lia.
Qed.

Definition to_B (w : double) (Hw : is_double w) : binary_float 53 1024 := SF2B _ (sf_valid w Hw).
Lemma to_B_val w Hw : B2R (to_B w Hw) = dval w.
Proof. apply B2R_SF2B. Qed.
Lemma to_B_SF w Hw : B2SF (to_B w Hw) = sf_decode w.
Proof. apply B2SF_SF2B. Qed.
Lemma to_B_fin w Hw : BinarySingleNaN.is_finite (to_B w Hw) = is_finite w.
Proof. unfold to_B. rewrite is_finite_SF2B. unfold is_finite. destruct (sf_decode w); reflexivity. Qed.

Theorem dlt_real a b : is_double a -> is_double b -> is_finite a = true -> is_finite b = true ->
  dlt a b = true <-> (dval a < dval b)%R.
Proof.
  intros Ha Hb Fa Fb. unfold dlt. rewrite <- (to_B_SF a Ha), <- (to_B_SF b Hb).
  change (Bltb (to_B a Ha) (to_B b Hb) = true <-> (dval a < dval b)%R).
  rewrite Bltb_correct by (rewrite to_B_fin; assumption). rewrite !to_B_val.
  destruct (Rlt_bool_spec (dval a) (dval b)); split; auto; [discriminate|lra].
Qed.

Lemma key_real a b : is_double a -> is_double b -> is_finite a = true -> is_finite b = true ->
  (okey a <= okey b)%Z <-> (dval a <= dval b)%R.
Proof.
  intros Ha Hb Fa Fb. destruct (finite_key a Ha Fa) as [Na _]. destruct (finite_key b Hb Fb) as [Nb _].
  rewrite <- (dlt_false_le b a) by assumption.
  pose proof (dlt_real b a Hb Ha Fb Fa) as H. destruct (dlt b a); split; intros; try discriminate; try reflexivity.
  - exfalso. assert (dval b < dval a)%R by (apply H; reflexivity). lra.
  - destruct (Rlt_le_dec (dval b) (dval a)) as [L|]; [|assumption]. apply H in L. discriminate.
Qed.

(** ** Subtraction *)
Definition dsub (a b : double) : spec_float := SFsub 53 1024 (sf_decode a) (sf_decode b).

Lemma round_nearest_even_equiv s m l : SpecFloat.round_nearest_even m l = choice_mode mode_NE s m l.
Proof. case l; [reflexivity|intro c]. case c; [|reflexivity..]. now simpl; unfold Round.cond_incr; case Z.even. Qed.

Lemma binary_round_aux_equiv sx mx ex lx :
  SpecFloat.binary_round_aux 53 1024 sx mx ex lx = binary_round_aux 53 1024 mode_NE sx mx ex lx.
Proof.
  unfold SpecFloat.binary_round_aux, binary_round_aux. set (mrse' := shr_fexp _ _ _ _ _).
  case mrse'; intros mrs' e'; simpl. now rewrite (round_nearest_even_equiv sx).
Qed.

Lemma binary_round_equiv s m e : SpecFloat.binary_round 53 1024 s m e = binary_round 53 1024 mode_NE s m e.
Proof.
  unfold SpecFloat.binary_round, binary_round, shl_align_fexp. set (mez := shl_align _ _ _); case mez as [mz ez].
  apply binary_round_aux_equiv.
Qed.

#[local] Instance prec_gt_0_53 : Prec_gt_0 53 := eq_refl.
#[local] Instance prec_lt_emax_53 : Prec_lt_emax 53 1024 := eq_refl.

Lemma binary_normalize_equiv m e szero :
  SpecFloat.binary_normalize 53 1024 m e szero = B2SF (binary_normalize 53 1024 _ _ mode_NE m e szero).
Proof.
  case m as [|p|p]; [now simpl| |]; simpl; rewrite B2SF_SF2B; apply binary_round_equiv.
Qed.

Lemma dsub_B a b Ha Hb : dsub a b = B2SF (Bminus mode_NE (to_B a Ha) (to_B b Hb)).
Proof.
  unfold dsub. rewrite <- (to_B_SF a Ha), <- (to_B_SF b Hb).
  case (to_B a Ha) as [sx|sx| |sx mx ex Bx]; case (to_B b Hb) as [sy|sy| |sy my ey By];
   [now (trivial || simpl; case Bool.eqb).. |].
  simpl. unfold Zminus. rewrite <- cond_Zopp_negb. apply binary_normalize_equiv.
Qed.

(** The rounded distance of two finite doubles: [SFabs (dsub a b)] compared with
    a finite double [eps] is decided by the real distance rounded to nearest. *)

Lemma fexp_FLT e : SpecFloat.fexp 53 1024 e = FLT_exp (-1074) 53 e.
Proof. reflexivity. Qed.

#[local] Instance valid_flt : Valid_exp (FLT_exp (-1074) 53) := FLT_exp_valid (-1074) 53.

Lemma rne_abs x : rne (Rabs x) = Rabs (rne x).
Proof. unfold rne. apply round_NE_abs. exact _. Qed.

Lemma dval_format w : is_double w -> generic_format radix2 (FLT_exp (-1074) 53) (dval w).
Proof. intros Hw. rewrite <- (to_B_val w Hw). apply (generic_format_B2R 53 1024). Qed.

Lemma rne_double w : is_double w -> rne (dval w) = dval w.
Proof. intros Hw. apply round_generic; [exact _|]. apply dval_format; assumption. Qed.

Lemma rne_le x y : (x <= y)%R -> (rne x <= rne y)%R.
Proof. intros H. apply round_le; [exact _|exact _|assumption]. Qed.

Lemma dval_bound w : is_double w -> (Rabs (dval w) < bpow radix2 1024)%R.
Proof. intros Hw. rewrite <- (to_B_val w Hw). apply abs_B2R_lt_emax. Qed.

Lemma SFabs_Babs (x : binary_float 53 1024) : SFabs (B2SF x) = B2SF (Babs x).
Proof. destruct x; reflexivity. Qed.

(** [std::abs(a - b) > eps] *)
Definition exceeds (eps a b : double) : bool := SFltb (sf_decode eps) (SFabs (dsub a b)).

Theorem exceeds_real eps a b : is_double eps -> is_double a -> is_double b ->
  is_finite eps = true -> is_finite a = true -> is_finite b = true ->
  exceeds eps a b = false <-> (rne (Rabs (dval a - dval b)) <= dval eps)%R.
Proof.
  intros He Ha Hb Fe Fa Fb. unfold exceeds. rewrite (dsub_B a b Ha Hb), SFabs_Babs, <- (to_B_SF eps He).
  pose proof (Bminus_correct 53 1024 _ _ mode_NE (to_B a Ha) (to_B b Hb)) as C.
  rewrite !to_B_fin, !to_B_val in C. specialize (C Fa Fb). rewrite rne_abs.
  change (round radix2 (SpecFloat.fexp 53 1024) (round_mode mode_NE) (dval a - dval b)) with (rne (dval a - dval b)) in C.
  destruct (Rlt_bool_spec (Rabs (rne (dval a - dval b))) (bpow radix2 1024)) as [L|L].
  - destruct C as (C1 & C2 & _).
    change (Bltb (to_B eps He) (Babs (Bminus mode_NE (to_B a Ha) (to_B b Hb))) = false <-> (Rabs (rne (dval a - dval b)) <= dval eps)%R).
    rewrite Bltb_correct by (rewrite ?is_finite_Babs, ?to_B_fin; assumption).
    rewrite to_B_val, B2R_Babs, C1.
    destruct (Rlt_bool_spec (dval eps) (Rabs (rne (dval a - dval b)))); split; auto; try discriminate; lra.
  - destruct C as (C1 & _). rewrite <- SFabs_Babs, C1.
    assert (E : SFltb (B2SF (to_B eps He)) (SFabs (binary_overflow 53 1024 mode_NE (Bsign (to_B a Ha)))) = true).
    { unfold binary_overflow, overflow_to_inf. cbn [SFabs]. rewrite to_B_SF.
      unfold is_finite in Fe. destruct (sf_decode eps) as [[]|[]| |[]]; try discriminate; reflexivity. }
    rewrite E. pose proof (dval_bound eps He) as B. apply Rabs_def2 in B. split; [discriminate|lra].
Qed.

Corollary exceeds_near eps a b : is_double eps -> is_double a -> is_double b ->
  is_finite eps = true -> is_finite a = true -> is_finite b = true ->
  (Rabs (dval a - dval b) <= dval eps)%R -> exceeds eps a b = false.
Proof.
  intros He Ha Hb Fe Fa Fb H. apply exceeds_real; auto. rewrite <- (rne_double eps He). apply rne_le; assumption.
Qed.

(** the rounded difference of two doubles only changes sign when the
    operands are exchanged *)
Lemma normalize_neg m e : SFabs (SpecFloat.binary_normalize 53 1024 (- m) e false) =
  SFabs (SpecFloat.binary_normalize 53 1024 m e false).
Proof.
  assert (H : forall p, SFabs (SpecFloat.binary_round 53 1024 true p e) = SFabs (SpecFloat.binary_round 53 1024 false p e)).
  { intros p. unfold SpecFloat.binary_round. match goal with |- context [shl_align ?a ?b ?c] => destruct (shl_align a b c) as [mz ez] end.
    unfold SpecFloat.binary_round_aux.
    match goal with |- context [shr_fexp ?a ?b ?c ?d ?e] => destruct (shr_fexp a b c d e) as [mrs e1] end.
    match goal with |- context [shr_fexp ?a ?b ?c ?d ?e] => destruct (shr_fexp a b c d e) as [mrs' e2] end.
    destruct (shr_m mrs'); try reflexivity.
    destruct (e2 <=? 1024 - 53)%Z; reflexivity. }
  destruct m as [|p|p]; simpl; [reflexivity|apply H|symmetry; apply H].
Qed.

Theorem exceeds_sym eps a b : exceeds eps a b = exceeds eps b a.
Proof.
  unfold exceeds. f_equal. unfold dsub. destruct (sf_decode a) as [sa|sa| |sa ma ea], (sf_decode b) as [sb|sb| |sb mb eb];
  try reflexivity; try (destruct sa, sb; reflexivity).
  unfold SFsub. rewrite (Z.min_comm eb ea). rewrite <- normalize_neg. f_equal. f_equal. lia.
Qed.

Theorem exceeds_refl eps a : dlt eps 0%N = false -> exceeds eps a a = false.
Proof.
  unfold exceeds, dlt. intros H. unfold dsub. destruct (sf_decode a) as [s|s| |s m e].
  - destruct s; exact H.
  - destruct s; unfold SFltb; simpl; destruct (sf_decode eps) as [[]|[]| |[]]; reflexivity.
  - unfold SFltb; destruct (sf_decode eps) as [[]|[]| |[]]; reflexivity.
  - unfold SFsub. rewrite Z.sub_diag. exact H.
Qed.

Theorem exceeds_nan eps a b : is_nan a = true \/ is_nan b = true -> exceeds eps a b = false.
Proof.
  unfold exceeds, is_nan, dsub, SFltb. intros H.
  assert (E : SFsub 53 1024 (sf_decode a) (sf_decode b) = S754_nan).
  { destruct H as [H|H]; destruct (sf_decode a), (sf_decode b); try discriminate; reflexivity. }
  rewrite E. destruct (sf_decode eps) as [[]|[]| |[]]; reflexivity.
Qed.

Theorem exceeds_negative eps a : is_finite a = true -> dlt eps 0%N = true -> exceeds eps a a = true.
Proof.
  unfold exceeds, dlt, is_finite. intros Ha H. unfold dsub. destruct (sf_decode a) as [s|s| |s m e]; try discriminate.
  - destruct s; exact H.
  - unfold SFsub. rewrite Z.sub_diag. exact H.
Qed.

(** ** Moving by a positive step never crosses the start *)
Definition dadd (a b : double) : spec_float := SFadd 53 1024 (sf_decode a) (sf_decode b).
Lemma dadd_B a b Ha Hb : dadd a b = B2SF (Bplus mode_NE (to_B a Ha) (to_B b Hb)).
Proof.
  unfold dadd. rewrite <- (to_B_SF a Ha), <- (to_B_SF b Hb).
  case (to_B a Ha) as [sx|sx| |sx mx ex Bx]; case (to_B b Hb) as [sy|sy| |sy my ey By];
   [now (trivial || simpl; case Bool.eqb).. |].
  apply binary_normalize_equiv.
Qed.

Lemma Bsign_pos w Hw : is_finite w = true -> (0 < dval w)%R -> Bsign (to_B w Hw) = false.
Proof.
  rewrite <- (to_B_fin w Hw), <- (to_B_val w Hw). destruct (to_B w Hw) as [s|s| |s m e H]; simpl; intros F L; try discriminate; try lra.
  destruct s; [|reflexivity]. exfalso. revert L. simpl. unfold F2R; simpl. intros L.
  assert (0 < bpow radix2 e)%R by apply bpow_gt_0. assert (IZR (Z.neg m) < 0)%R by (apply IZR_lt; reflexivity). nra.
Qed.

Theorem sub_step y dt : is_double y -> is_double dt -> is_finite y = true -> is_finite dt = true -> (0 < dval dt)%R ->
  SFltb (sf_decode y) (dsub y dt) = false.
Proof.
  intros Hy Hd Fy Fd Pd. rewrite (dsub_B y dt Hy Hd), <- (to_B_SF y Hy).
  pose proof (Bminus_correct 53 1024 _ _ mode_NE (to_B y Hy) (to_B dt Hd)) as C.
  rewrite !to_B_fin, !to_B_val in C. specialize (C Fy Fd).
  change (round radix2 (SpecFloat.fexp 53 1024) (round_mode mode_NE) (dval y - dval dt)) with (rne (dval y - dval dt)) in C.
  destruct (Rlt_bool_spec (Rabs (rne (dval y - dval dt))) (bpow radix2 1024)) as [L|L].
  - destruct C as (C1 & C2 & _).
    change (Bltb (to_B y Hy) (Bminus mode_NE (to_B y Hy) (to_B dt Hd)) = false).
    rewrite Bltb_correct by (rewrite ?to_B_fin; assumption). rewrite to_B_val, C1.
    apply Rlt_bool_false. rewrite <- (rne_double y Hy) at 2. apply rne_le. lra.
  - destruct C as (C1 & C2). rewrite C1. rewrite (Bsign_pos dt Hd Fd Pd) in C2. rewrite C2. rewrite to_B_SF.
    unfold is_finite in Fy. unfold binary_overflow, overflow_to_inf, SFltb. destruct (sf_decode y) as [[]|[]| |[]]; try discriminate; reflexivity.
Qed.

Theorem add_step y dt : is_double y -> is_double dt -> is_finite y = true -> is_finite dt = true -> (0 < dval dt)%R ->
  SFltb (dadd y dt) (sf_decode y) = false.
Proof.
  intros Hy Hd Fy Fd Pd. rewrite (dadd_B y dt Hy Hd), <- (to_B_SF y Hy).
  pose proof (Bplus_correct 53 1024 _ _ mode_NE (to_B y Hy) (to_B dt Hd)) as C.
  rewrite !to_B_fin, !to_B_val in C. specialize (C Fy Fd).
  change (round radix2 (SpecFloat.fexp 53 1024) (round_mode mode_NE) (dval y + dval dt)) with (rne (dval y + dval dt)) in C.
  destruct (Rlt_bool_spec (Rabs (rne (dval y + dval dt))) (bpow radix2 1024)) as [L|L].
  - destruct C as (C1 & C2 & _).
    change (Bltb (Bplus mode_NE (to_B y Hy) (to_B dt Hd)) (to_B y Hy) = false).
    rewrite Bltb_correct by (rewrite ?to_B_fin; assumption). rewrite to_B_val, C1.
    apply Rlt_bool_false. rewrite <- (rne_double y Hy) at 1. apply rne_le. lra.
  - destruct C as (C1 & C2). rewrite C1. rewrite (Bsign_pos dt Hd Fd Pd) in C2. rewrite C2. rewrite to_B_SF.
    unfold is_finite in Fy. unfold binary_overflow, overflow_to_inf, SFltb. destruct (sf_decode y) as [[]|[]| |[]]; try discriminate; reflexivity.
Qed.

(** The texts of numbers in ALTA's files: what the streams of the C++ library write
    for a finite double and what they read.  Files of functions are written with
    precision(10) (core/function.cpp:68), rational functions in scientific notation
    as well (core/rational_function.cpp:683), text data with
    setprecision(numeric_limits<double>::digits10), which is 15
    (core/data_storage.cpp:285-286).  Numbers are real numbers; infinities, NaN and the
    sign of zero are left out, and so are texts beyond the range of doubles. *)
From Coq Require Import Reals List ZArith.
From Flocq Require Import Core.
From Verif Require Import Base Num.
Open Scope R_scope.

Definition radix10 : radix := Build_radix 10 eq_refl.
(** The nearest number of P decimal digits, ties to even. *)
Definition dec_round (P : Z) (v : R) : R := round radix10 (FLX_exp P) ZnearestE v.
(** The decimal exponent of a number, and its digits as an integer of P digits. *)
Definition dec_exp (v : R) : Z := (mag radix10 v - 1)%Z.
Definition dec_mant (P : Z) (v : R) : Z := Z.abs (Ztrunc (v * bpow radix10 (P - mag radix10 v))).

Definition digit_char (d : Z) : ascii := ascii_of_nat (48 + Z.to_nat d).
(** the w last digits of an integer *)
Fixpoint digits_w (w : nat) (m : Z) : str :=
  match w with O => [] | S w' => digits_w w' (m / 10) ++ [digit_char (m mod 10)] end.
Definition zero_char : ascii := "0"%char.
(** zeros at the end are dropped *)
Fixpoint drop_zeros (s : str) : str := match s with [] => [] | c :: t => if aeqb c zero_char then drop_zeros t else s end.
Definition strip (s : str) : str := rev (drop_zeros (rev s)).
Definition with_point (i f : str) : str := match f with [] => i | _ => i ++ "."%char :: f end.
(** the exponent has a sign and two digits or more *)
Definition exp_text (e : Z) : str :=
  "e"%char :: (if (e <? 0)%Z then "-"%char else "+"%char) ::
  (if (Z.abs e <? 10)%Z then [zero_char] else []) ++ print_N (Z.to_N (Z.abs e)).

(** operator<< in the default notation with precision P (printf's %g) of a positive
    number given by the exponent X and the P digits ds *)
Definition general_digits (P : nat) (X : Z) (ds : str) : str :=
  if ((X <? -4) || (Z.of_nat P <=? X))%Z then with_point (firstn 1 ds) (strip (skipn 1 ds)) ++ exp_text X
  else if (X <? 0)%Z then with_point [zero_char] (strip (repeat zero_char (Z.to_nat (- X - 1)) ++ ds))
  else with_point (firstn (Z.to_nat (X + 1)) ds) (strip (skipn (Z.to_nat (X + 1)) ds)).
(** operator<< in scientific notation: one digit, the point and the other digits *)
Definition scientific_digits (X : Z) (ds : str) : str := with_point (firstn 1 ds) (skipn 1 ds) ++ exp_text X.

Definition signed (v : R) (t : str) : str := if Rlt_bool v 0 then "-"%char :: t else t.
(** core/data_storage.cpp:285-286 (P = 15) and core/function.cpp:68 (P = 10) *)
Definition print_general (P : nat) (v : R) : str :=
  let r := dec_round (Z.of_nat P) v in
  if Req_bool r 0 then [zero_char] else signed r (general_digits P (dec_exp r) (digits_w P (dec_mant (Z.of_nat P) r))).
(** core/rational_function.cpp:683: P digits in all, P - 1 after the point *)
Definition print_scientific (P : nat) (v : R) : str :=
  let r := dec_round (Z.of_nat P) v in
  if Req_bool r 0 then with_point [zero_char] (repeat zero_char (P - 1)) ++ exp_text 0
  else signed r (scientific_digits (dec_exp r) (digits_w P (dec_mant (Z.of_nat P) r))).

(** operator>> into a double.  The characters that can be part of a decimal number
    are taken as far as possible; the number is refused when they do not make one
    up (an exponent without digits, no digit at all).  [store] is the conversion of
    the decimal number to a double. *)
Fixpoint take_digits (s : str) : str * str :=
  match s with c :: t => if is_digit c then let (d, r) := take_digits t in (c :: d, r) else ([], s) | [] => ([], []) end.
Definition digit_num (c : ascii) : Z := (Z.of_nat (nat_of_ascii c) - 48)%Z.
Definition digits_value (ds : str) : Z := fold_left (fun m c => (10 * m + digit_num c)%Z) ds 0%Z.
Definition take_sign (s : str) : bool * str :=
  match s with "-"%char :: t => (true, t) | "+"%char :: t => (false, t) | _ => (false, s) end.
Definition take_fraction (s : str) : str * str := match s with "."%char :: t => take_digits t | _ => ([], s) end.
Section Read.
Variable store : R -> R.
Definition lex_number (s : str) : option (R * str) :=
  let (neg, s1) := take_sign s in
  let (i, s2) := take_digits s1 in
  let (f, s3) := take_fraction s2 in
  match i ++ f with
  | [] => None
  | _ =>
      let value (e : Z) := store ((if neg then -1 else 1) * IZR (digits_value (i ++ f)) * bpow radix10 (e - Z.of_nat (length f))) in
      match s3 with
      | ("e"%char | "E"%char) :: t =>
          let (eneg, t1) := take_sign t in
          let (x, t2) := take_digits t1 in
          match x with [] => None | _ => Some (value (if eneg then - digits_value x else digits_value x)%Z, t2) end
      | _ => Some (value 0%Z, s3)
      end
  end.
End Read.
(** The conversion to a double: nearest, ties to even; overflow left out. *)
Definition to_double (x : R) : R := round radix2 (FLT_exp (-1074) 53) ZnearestE x.

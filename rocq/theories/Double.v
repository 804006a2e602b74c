(** IEEE-754 binary64 values as 64-bit words, decoded into the standard
    library's SpecFloat for comparison and subtraction.  This is the storage
    representation of [double] on every platform the code supports. *)
From Coq Require Import SpecFloat NArith.
From Verif Require Import Base.
Open Scope N_scope.

Definition double := N.
Definition is_double (w : double) : Prop := w < 2 ^ 64.

Definition sf_decode (w : double) : spec_float :=
  let s := N.testbit w 63 in
  let e := (w / 2 ^ 52) mod 2 ^ 11 in
  let m := w mod 2 ^ 52 in
  if e =? 2047 then (if m =? 0 then S754_infinity s else S754_nan)
  else if e =? 0 then
    match m with N0 => S754_zero s | Npos p => S754_finite s p (-1074) end
  else match m + 2 ^ 52 with N0 => S754_nan | Npos p => S754_finite s p (Z.of_N e - 1075) end.

(** C++ [a < b], [a - b], [std::abs] on doubles. *)
Definition dlt (a b : double) : bool := SFltb (sf_decode a) (sf_decode b).
Definition is_nan (w : double) : bool := match sf_decode w with S754_nan => true | _ => false end.
Definition is_finite (w : double) : bool :=
  match sf_decode w with S754_zero _ | S754_finite _ _ _ => true | _ => false end.

(** std::numeric_limits<double>::max() and its opposite *)
Definition dbl_max : double := 0x7FEFFFFFFFFFFFFF.
Definition dbl_lowest : double := 0xFFEFFFFFFFFFFFFF.

(** std::min(a, b) = (b < a) ? b : a;  std::max(a, b) = (a < b) ? b : a *)
Definition dmin (a b : double) : double := if dlt b a then b else a.
Definition dmax (a b : double) : double := if dlt a b then b else a.

(** ** Bytes *)

(** The [n] low bytes of [w], least significant first. *)
Fixpoint le_bytes (n : nat) (w : N) : str :=
  match n with
  | O => []
  | S n' => ascii_of_N (w mod 256) :: le_bytes n' (w / 256)
  end.
Fixpoint le_word (s : str) : N :=
  match s with [] => 0 | c :: t => N_of_ascii c + 256 * le_word t end.

(** An array of doubles in memory / in a stream. *)
Definition doubles_bytes (l : list double) : str := concat (map (le_bytes 8) l).
Fixpoint bytes_doubles (n : nat) (s : str) : list double :=
  match n with
  | O => []
  | S n' => le_word (firstn 8 s) :: bytes_doubles n' (skipn 8 s)
  end.

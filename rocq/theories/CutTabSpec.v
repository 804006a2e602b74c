(** Vocabulary of the files of tables that are cut short. *)
From Coq Require Import NArith.
From Verif Require Import Base Double.

(** Of the first k bytes of an array of 8-byte numbers, those that belong to
    number i. *)
Definition bytes_left (k i : nat) : nat := Nat.min 8 (k - 8 * i).
(** The low m bytes of w, and w without them. *)
Definition low_bytes (m : nat) (w : double) : double := (w mod 256 ^ N.of_nat m)%N.
Definition without_low_bytes (m : nat) (w : double) : double := (256 ^ N.of_nat m * (w / 256 ^ N.of_nat m))%N.
From Coq Require Import Reals ZArith.
From Flocq Require Import Core.

(** Number n of a table, v in the whole file, reads as v' once the file is cut
    to k bytes: the same when its 8 bytes are there, zero when none is, and too
    small to matter when some are. The table starts after 12 bytes. *)
Definition cut_value (k : nat) (n : Z) (v v' : R) : Prop :=
  ((12 + 8 * (n + 1) <= Z.of_nat k)%Z -> v' = v) /\
  ((Z.of_nat k <= 12 + 8 * n)%Z -> v' = 0%R) /\
  ((Z.of_nat k < 12 + 8 * (n + 1))%Z -> (0 <= v' < bpow radix2 (-1007))%R).

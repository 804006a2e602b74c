(** Vocabulary of the MERL properties. *)
From Coq Require Import Reals List ZArith.
Open Scope R_scope.

(** A complete table: one red, one green and one blue number for each of the
    90 x 90 x 180 cells. *)
Definition samples : Z := 1458000.
Definition table_ok {A} (t : list A) : Prop := Z.of_nat (length t) = (3 * samples)%Z.

(** The fraction x of an interval lies in its k-th piece, when the pieces are
    separated at f(0) = 0 <= f(1) <= ... <= f(n) = 1; the end belongs to the
    last piece. *)
Definition piece (n : Z) (f : R -> R) (k : Z) (x : R) : Prop :=
  (0 <= k < n)%Z /\ f (IZR k / IZR n) <= x /\ (x < f ((IZR k + 1) / IZR n) \/ k = (n - 1)%Z /\ x <= 1).
(** The angles lie in cell (h, d, p): half angle on a quadratic scale over a
    quarter turn, difference angle on a linear scale over a quarter turn,
    difference azimuth on a linear scale over a half turn. *)
Definition in_cell (h d p : Z) (x : R * R * R) : Prop :=
  let '(th, td, pd) := x in
  piece 90 (fun u => u * u) h (th / (PI / 2)) /\
  piece 90 (fun u => u) d (td / (PI / 2)) /\
  piece 180 (fun u => u) p (pd / PI).
(** Number of the sample of cell (h, d, p). *)
Definition cell_number (h d p : Z) : Z := ((h * 90 + d) * 180 + p)%Z.

(** Vocabulary for C100 (the Lafortune function). *)
From Coq Require Import Reals List.
From Verif Require Import Base GeoModel FuncModel FuncSpec LafModel.
Open Scope R_scope.

(** an object with [L] lobes, [nY] channels, and three coefficients per lobe *)
Definition lsized (nY L : nat) (s : laf) : Prop :=
  a_n s = L /\ a_iso s = false /\ length (a_C s) = (L * nY * 3)%nat /\ length (a_N s) = (L * nY)%nat /\ length (a_kd s) = nY.
(** the same with the flag set: two coefficients per lobe *)
Definition isized (nY L : nat) (s : laf) : Prop :=
  a_n s = L /\ a_iso s = true /\ length (a_C s) = (L * nY * 2)%nat /\ length (a_N s) = (L * nY)%nat /\ length (a_kd s) = nY.

(** parameter [l] of lobe [n] for channel [i]: Cx, Cy, Cz, exponent *)
Definition lpar (nY : nat) (p : list R) (n i l : nat) : R := nth ((n * nY + i) * 4 + l) p 0.
Definition ldot (nY : nat) (p : list R) (x : mem) (n i : nat) : R :=
  lpar nY p n i 0 * (x 0%nat * x 3%nat) + lpar nY p n i 1 * (x 1%nat * x 4%nat) + lpar nY p n i 2 * (x 2%nat * x 5%nat).
Definition llobe (nY : nat) (p : list R) (x : mem) (n i : nat) : R :=
  if Rlt_dec 0 (ldot nY p x n i) then Rpower (ldot nY p x n i) (lpar nY p n i 3) else 0.
Fixpoint lsum (n : nat) (f : nat -> R) : R := match n with O => 0 | S m => lsum m f + f m end.
(** entry of the Jacobian for output [i] and parameter [l] of lobe [n], channel [j]:
    the derivative when this parameter alone is changed *)
Definition lexact (junk : R) (nY L : nat) (s : laf) (p : list R) (x : mem) (i n j l : nat) : Prop :=
  derivable_pt_lim (fun u => component (do t <- aset nY (upd p ((n * nY + j) * 4 + l) u) s; avalue junk nY t x) i)
    (nth ((n * nY + j) * 4 + l) p 0)
    (component (do t <- aset nY p s; ajac junk nY t x) (i * (4 * L * nY) + ((n * nY + j) * 4 + l))).
(** the least value of a channel *)
Definition least (f : nat -> R) (n : nat) (m : R) : Prop := (exists k, (k < n)%nat /\ f k = m) /\ forall k, (k < n)%nat -> m <= f k.
(** channel [j] of sample [k], for samples with [dX] inputs *)
Definition chan (dX : nat) (rows : list (list R)) (j k : nat) : R := nth (dX + j) (nth k rows []) 0.

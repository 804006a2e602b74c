(** Vocabulary of the UTIA properties. *)
From Coq Require Import Reals List ZArith.
From Verif Require Import GridSpec.
Import ListNotations.
Open Scope R_scope.

(** 3 planes of 6 x 48 x 6 x 48 numbers: light elevation and azimuth, view
    elevation and azimuth. *)
Definition plane : Z := 82944.
Definition utia_ok {A} (t : list A) : Prop := Z.of_nat (length t) = (3 * plane)%Z.
Definition number (ti pi tv pv : Z) : Z := (((ti * 48 + pi) * 6 + tv) * 48 + pv)%Z.
Definition measured (t : list R) (c : Z) (ti pi tv pv : Z) : R := nth (Z.to_nat (c * plane + number ti pi tv pv)) t 0.

(** Angles in degrees. *)
Definition deg (a : R) : R := a * 180 / PI.
(** The elevation lies at the fraction f of the interval between measured
    elevations 15 it and 15 (it + 1) degrees; beyond the last measured one (75
    degrees) the last interval is used and f exceeds 1. *)
Definition elevation (theta : R) (it : Z) (f : R) : Prop :=
  deg theta = 15 * (IZR it + f) /\ (0 <= it <= 4)%Z /\ 0 <= f /\ (f < 1 \/ it = 4%Z).
(** The azimuth, up to a number of full turns, lies at the fraction f between
    7.5 ip and 7.5 (ip + 1) degrees. *)
Definition azimuth (phi : R) (ip : Z) (f : R) : Prop :=
  (exists turns, deg (phi + 2 * PI * IZR turns) = 75 / 10 * (IZR ip + f)) /\ (0 <= ip < 48)%Z /\ 0 <= f < 1.
(** Quadrilinear interpolation of a plane; azimuths wrap around. *)
Definition interpolated (t : list R) (c : Z) (ti pi tv pv : Z) (f1 f2 f3 f4 : R) : R :=
  blend [f1; f3; f2; f4] (fun b =>
    match b with
    | [bi; bj; bk; bl] => measured t c (ti + bi) ((pi + bk) mod 48) (tv + bj) ((pv + bl) mod 48)
    | _ => 0
    end).

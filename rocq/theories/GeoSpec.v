(** Specification vocabulary for the parametrization properties C01-C08: what
    the English statements mean, independent of how the code computes it. *)
From Verif Require Import Base ParamsModel GeoModel.
Open Scope R_scope.

(** The enumerators with an entry in the name table. *)
Definition named_input (p : input) : Prop := exists n d, In (p, (n, d)) input_map.

(** number of components of a parametrization *)
Definition dimn (p : input) : nat := Z.to_nat (dimension_in p).

(** a vector of norm one *)
Definition unit3 (a b c : R) : Prop := a * a + b * b + c * c = 1.

(** Domain in which the formulas of to_cartesian have no negative square root
    and no inverse cosine outside [-1,1]. *)
Definition domain (p : input) (v : mem) : Prop :=
  match p with
  | COS_TH | COS_TLV | COS_TLR => -1 <= v 0%nat <= 1
  | COS_TH_TD => -1 <= v 0%nat <= 1 /\ -1 <= v 1%nat <= 1
  | RUSIN_VH => -1 <= v 2%nat <= 1
  | STARK_2D | STARK_3D | NEUMANN_2D => v 0%nat * v 0%nat + v 1%nat * v 1%nat <= 1
  | _ => True
  end.

(** Parametrizations that denote a pair of unit vectors. *)
Definition angular (p : input) : bool :=
  match p with
  | COS_TK | SCHLICK_VK | STEREOGRAPHIC | CARTESIAN
  | RUSIN_VH_VD | SCHLICK_TK_PK | ISOTROPIC_TV_TL | ISOTROPIC_TD_PD | UNKNOWN_INPUT => false
  | _ => true
  end.

Definition two_units (o : mem) : Prop :=
  unit3 (o 0%nat) (o 1%nat) (o 2%nat) /\ unit3 (o 3%nat) (o 4%nat) (o 5%nat).

(** The documented range of each parametrization (angles in radians), where a
    round trip is claimed. *)
Definition rt_domain (p : input) (v : mem) : Prop :=
  match p with
  | SPHERICAL_TL_PL_TV_PV =>
      0 < v 0%nat < PI /\ - PI < v 1%nat <= PI /\ 0 < v 2%nat < PI /\ - PI < v 3%nat <= PI /\
      0 <= cos (v 0%nat) + cos (v 2%nat)
  | ISOTROPIC_TV_TL_DPHI =>
      0 <= v 0%nat <= PI /\ 0 < v 1%nat < PI /\ - PI < v 2%nat <= PI /\
      0 <= cos (v 0%nat) + cos (v 1%nat)
  | RUSIN_TH_TD => 0 <= v 0%nat <= PI / 2 /\ 0 <= v 1%nat < PI / 2
  | RUSIN_TH_PH_TD => 0 < v 0%nat <= PI / 2 /\ - PI < v 1%nat <= PI /\ 0 <= v 2%nat < PI / 2
  | RUSIN_TH_TD_PD =>
      0 <= v 0%nat <= PI / 2 /\ 0 <= v 1%nat < PI / 2 /\ cos (v 1%nat) <= 1 - / 10 ^ 14 /\
      - PI < v 2%nat <= PI
  | RUSIN_TH_PH_TD_PD =>
      0 < v 0%nat <= PI / 2 /\ - PI < v 1%nat <= PI /\
      0 <= v 2%nat < PI / 2 /\ cos (v 2%nat) <= 1 - / 10 ^ 14 /\ - PI < v 3%nat <= PI
  | RUSIN_VH => unit3 (v 0%nat) (v 1%nat) (v 2%nat) /\ 0 <= v 2%nat
  | COS_TH => 0 <= v 0%nat <= 1
  | COS_TH_TD => 0 <= v 0%nat <= 1 /\ 0 < v 1%nat <= 1
  | COS_TLV => -1 <= v 0%nat <= 1
  | STARK_2D | NEUMANN_2D => 0 <= v 0%nat /\ 0 <= v 1%nat /\ v 0%nat * v 0%nat + v 1%nat * v 1%nat <= 1
  | ISOTROPIC_TV_PROJ_DPHI => v 0%nat * v 0%nat + v 1%nat * v 1%nat < PI * PI
  | CARTESIAN => 0 <= v 2%nat + v 5%nat
  | _ => False
  end.

(** [round_trip p v w]: from_cartesian (to_cartesian v) runs normally and its
    first [dimension p] components are [w]'s. *)
Definition round_trip (p : input) (v w : mem) : Prop :=
  forall out1 out2, exists t o,
    to_cartesian v p out1 = Ok t /\ from_cartesian t p out2 = Ok o /\
    forall i, (Z.of_nat i < dimension_in p)%Z -> o i = w i.

(** the last of three coordinates negated / replaced *)
Definition flip_y (v : mem) : mem := fun i => if Nat.eqb i 2 then - v 2%nat else v i.

Definition shift3 (v : mem) (a : R) : mem := fun i => if Nat.eqb i 2 then a else v i.

(** the sum of the first n components *)
Definition total (n : nat) (v : mem) : R := fold_right Rplus 0 (map v (seq 0 n)).

(** The enumerators that have no conversion rule. *)
Definition no_rule_list : list input :=
  [RUSIN_VH_VD; SCHLICK_TK_PK; ISOTROPIC_TV_TL; ISOTROPIC_TD_PD; UNKNOWN_INPUT].

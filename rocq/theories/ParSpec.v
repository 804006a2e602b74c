(** Vocabulary for C120 and C121: the samples that the loop of data2data counts as
    incorrect configurations; the fits and their deltas. *)
From Coq Require Import Reals List.
From Verif Require Import Base ParamsModel GeoModel ConvSpec.
From Verif Require RatModel.
Open Scope R_scope.

(** the light or the view of the sample [x] is below the horizon *)
Definition below (p : parameters) (x : list R) : Prop :=
  exists c, converts x (in_param p) CARTESIAN c /\ (nth 2 c 0 < 0 \/ nth 5 c 0 < 0).
(** [hs] are the numbers of these samples, each once *)
Definition hidden_ones (p : parameters) (out : list (list R)) (hs : list nat) : Prop :=
  NoDup hs /\ forall i, In i hs <-> exists x, nth_error out i = Some x /\ below p x.
(** every iteration of the loop is scheduled at least [n] times *)
Definition fair (sched : list nat) (iterations n : nat) : Prop :=
  forall i, (i < iterations)%nat -> (n <= count_occ Nat.eq_dec sched i)%nat.

(** whether an iteration of the search for a rational function found a fit, and its
    delta (0 without a fit) *)
Definition some_fit (c : option (R * option R * RatModel.rf)) : bool := match c with Some _ => true | None => false end.
Definition delta_of (c : option (R * option R * RatModel.rf)) : R := match c with Some (d, _, _) => d | None => 0 end.

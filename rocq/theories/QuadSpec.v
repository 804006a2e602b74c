(** Vocabulary of the interval fitting properties. *)
From Coq Require Import Reals List Permutation.
From Verif Require Import Base ParamsModel MonoModel RatModel RatSpec QuadModel.
Import ListNotations.
Open Scope R_scope.

Fixpoint dot (a b : list R) : R := match a, b with x :: a', y :: b' => x * y + dot a' b' | _, _ => 0 end.

(** ** The contract of QuadProg++ *)
(** x satisfies CI^T x + ci >= 0 *)
Definition feasible (CI : list (list R)) (ci x : list R) : Prop := Forall2 (fun col c => 0 <= dot col x + c) CI ci.
(** What is returned satisfies the constraints. *)
Definition sound (solver : nat -> list (list R) -> list R -> option (list R)) : Prop :=
  forall n CI ci x, Forall (fun col => length col = n) CI -> solver n CI ci = Some x -> length x = n /\ feasible CI ci x.
(** A solution is returned when there is one. *)
Definition complete (solver : nat -> list (list R) -> list R -> option (list R)) : Prop :=
  forall n CI ci y, Forall (fun col => length col = n) CI -> length y = n -> feasible CI ci y -> solver n CI ci <> None.
(** With the identity as energy, the solution of least norm is returned. *)
Definition least_norm (solver : nat -> list (list R) -> list R -> option (list R)) : Prop :=
  forall n CI ci x y, Forall (fun col => length col = n) CI -> solver n CI ci = Some x -> length y = n -> feasible CI ci y -> dot x x <= dot y y.

(** ** Interpolation *)
Definition position (s : sample) : list R := fst (fst s).
Definition lower (s : sample) : R := snd (fst s).
Definition upper (s : sample) : R := snd s.
Definition strictly_between (a b v : R) : Prop := Rmin a b < v < Rmax a b.
(** The quotient of the polynomials of d inputs with coefficients a and b on the
    box (mn, mx) passes strictly between the bounds of a sample, with a positive
    denominator. *)
Definition interpolates (d : nat) (mn mx a b : list R) (s : sample) : Prop :=
  let num := polynomial d mn mx a (position s) in
  let den := polynomial d mn mx b (position s) in
  0 < den /\ lower s < num / den < upper s.
(** The function has a value at the sample, strictly between the bounds. *)
Definition passes (r : rf1) (s : sample) : Prop :=
  polynomial (r_dim r) (r_min r) (r_max r) (getQ r) (position s) <> 0 /\
  exists v, value1 r (position s) = Ok v /\ strictly_between (lower s) (upper s) v.
(** The function has a value at the sample, between the bounds included. *)
Definition within (r : rf1) (s : sample) : Prop :=
  polynomial (r_dim r) (r_min r) (r_max r) (getQ r) (position s) <> 0 /\
  exists v, value1 r (position s) = Ok v /\ lower s <= v <= upper s.
Definition positions_ok (d : nat) (ss : list sample) : Prop := Forall (fun s => length (position s) = d) ss.

(** A function of several outputs with one existing channel per output. *)
Definition channel_of (f : rf) (j : nat) (r : rf1) : Prop := nth_error (f_rs f) j = Some (Some r).

(** The k-th pair of sizes: both grow by one until they reach their maximum. *)
Definition nth_np (z : sizes) (k : nat) : nat := Nat.min (z_min_np z + k) (z_max_np z).
Definition nth_nq (z : sizes) (k : nat) : nat := Nat.min (z_min_nq z + k) (z_max_nq z).
Definition last_size (z : sizes) : nat := Nat.max (z_max_np z - z_min_np z) (z_max_nq z - z_min_nq z).
Definition sizes_ok (z : sizes) : Prop := (0 < z_min_np z <= z_max_np z)%nat /\ (0 < z_min_nq z <= z_max_nq z)%nat.

(** ** Adding the samples one by one *)
(** The quotient is 0 / 0 at the sample. *)
Definition undefined (r : rf1) (s : sample) : Prop :=
  polynomial (r_dim r) (r_min r) (r_max r) (getP r) (position s) = 0 /\
  polynomial (r_dim r) (r_min r) (r_max r) (getQ r) (position s) = 0.
Definition ordered (s : sample) : Prop := lower s <= upper s.
(** Every [di]-th element of a list whose first element has rank [i], and the others. *)
Fixpoint every (di i : nat) {A} (l : list A) : list A :=
  match l with [] => [] | a :: t => if (i mod di =? 0)%nat then a :: every di (S i) t else every di (S i) t end.
Fixpoint others (di i : nat) {A} (l : list A) : list A :=
  match l with [] => [] | a :: t => if (i mod di =? 0)%nat then others di (S i) t else a :: others di (S i) t end.

(** ** The parallel search *)
(** The result of iteration [j] of the loop of size [i] and the number by which
    it is compared; [None]: no fit, or a distance that is not finite. *)
Definition key (use_delta : bool) (c : option (R * option R * rf)) : option R :=
  match c with Some (delta, l2, _) => if use_delta then Some delta else l2 | None => None end.
Definition fitted (c : option (R * option R * rf)) (f : rf) : Prop := exists delta l2, c = Some (delta, l2, f).
(** [f] is a fit with the smallest number among the results [cs]. *)
Definition best_of (use_delta : bool) (cs : list (option (R * option R * rf))) (f : rf) : Prop :=
  exists c k, In c cs /\ fitted c f /\ key use_delta c = Some k /\ forall c' k', In c' cs -> key use_delta c' = Some k' -> k <= k'.
Definition none_of (use_delta : bool) (cs : list (option (R * option R * rf))) : Prop := forall c, In c cs -> key use_delta c = None.
(** No two fits have the same number. *)
Definition no_ties (use_delta : bool) (cs : list (option (R * option R * rf))) : Prop :=
  forall m n c c' k, nth_error cs m = Some c -> nth_error cs n = Some c' -> key use_delta c = Some k -> key use_delta c' = Some k -> m = n.
(** The threads execute every iteration 1 .. i-1 once, in any order. *)
Definition schedule (order : nat -> list nat) : Prop := forall i, Permutation (seq 1 (i - 1)) (order i).

(** What the conversion should store for a sample: the sample and, for each
    output, (1-dt) y and (1+dt) y. *)
Definition record (dx : nat) (dt : R) (x : list R) : list R :=
  x ++ map (fun y => (1 - dt) * y) (skipn dx x) ++ map (fun y => (1 + dt) * y) (skipn dx x).

(** How far a function misses the interval of a sample: the distance to its
    middle, [None] for an infinite value. *)
Definition misses (r : rf1) (s : sample) (dev : option R) : Prop :=
  let num := polynomial (r_dim r) (r_min r) (r_max r) (getP r) (position s) in
  let den := polynomial (r_dim r) (r_min r) (r_max r) (getQ r) (position s) in
  (den <> 0 /\ ~ lower s <= num / den <= upper s /\ dev = Some (Rabs ((lower s + upper s) / 2 - num / den))) \/
  (den = 0 /\ num <> 0 /\ dev = None).
(** order on distances, [None] is the largest *)
Definition dev_le (a b : option R) : Prop := match a, b with _, None => True | Some u, Some v => u <= v | None, Some _ => False end.

(** Vocabulary for C81-C82: moments of a function over a box, by sampling. *)
From Coq Require Import Reals List.
From Verif Require Import Base.
Open Scope R_scope.

(** f 0 + ... + f (n - 1) *)
Definition sum_to (n : nat) (f : nat -> R) : R := fold_right Rplus 0 (List.map f (seq 0 n)).

(** one dimension of the domain: its bounds, and how many positions are taken,
    the [i]-th at the left end of the [i]-th of as many intervals *)
Record axis := mkAxis { low : R; high : R; count : nat }.
Definition tick (a : axis) (i : nat) : R := low a + (high a - low a) * (INR i / INR (count a)).
Definition wide (a : axis) : Prop := low a < high a.
(** the sum of [f] over all positions *)
Fixpoint grid_sum (axes : list axis) (f : list R -> R) : R :=
  match axes with
  | [] => f []
  | a :: axes' => sum_to (count a) (fun i => grid_sum axes' (fun x => f (tick a i :: x)))
  end.
Definition product (l : list R) : R := fold_right Rmult 1 l.
(** every position stands for that much of the volume; only the dimensions in
    which the domain is extended count *)
Definition cell (axes : list axis) : R :=
  product (List.map (fun a => if Rlt_dec (low a) (high a) then (high a - low a) / INR (count a) else 1) axes).

(** the domain of the data with [n] positions per dimension; one in a dimension
    in which all samples agree *)
Fixpoint domain (lo hi : list R) (ns : list nat) : list axis :=
  match lo, hi, ns with
  | a :: lo', b :: hi', n :: ns' => mkAxis a b (if Rlt_dec a b then n else 1) :: domain lo' hi' ns'
  | _, _, _ => []
  end.

(** the moment of [f] for the exponents [a] and [b] of the coordinates [dx] and [dy] *)
Definition raw_moment (axes : list axis) (f : list R -> R) (dx dy a b : nat) : R :=
  grid_sum axes (fun x => f x * nth dx x 0 ^ a * nth dy x 0 ^ b) * cell axes.
(** relative to the total, undefined when that is zero *)
Definition moment (axes : list axis) (f : list R -> R) (dx dy a b : nat) : option R :=
  if Req_EM_T (raw_moment axes f dx dy 0 0) 0 then None else Some (raw_moment axes f dx dy a b / raw_moment axes f dx dy 0 0).

(** [m] is the least value of column [c] *)
Definition least (rows : list (list R)) (c : nat) (m : R) : Prop :=
  (exists r, In r rows /\ nth c r 0 = m) /\ forall r, In r rows -> m <= nth c r 0.

(** the label of a line of the file *)
Definition label (a b : nat) : str :=
  match (a + b)%nat with
  | 0%nat => lit "\mu_0"
  | 1%nat => lit "\mu_" ++ repeat "x"%char a ++ repeat "y"%char b
  | _ => lit "\mu_{" ++ repeat "x"%char a ++ repeat "y"%char b ++ lit "}"
  end.
(** the lines, by order and then by how often y occurs *)
Definition exponents : list (nat * nat) := [(0,0); (1,0); (0,1); (2,0); (1,1); (0,2); (3,0); (2,1); (1,2); (0,3)]%nat.
(** the line for [a] and [b]: one number per function *)
Definition line (axes : list axis) (fs : list (list R -> R)) (dx dy : nat) (e : nat * nat) : str * list (option R) :=
  (label (fst e) (snd e),
   List.map (fun f => match e with (0, 0)%nat => Some (raw_moment axes f dx dy 0 0) | (a, b) => moment axes f dx dy a b end) fs).
(** [x] is a position of the grid *)
Definition on_grid (axes : list axis) (x : list R) : Prop := Forall2 (fun a c => exists i, (i < count a)%nat /\ c = tick a i) axes x.
(** the requested samples and coordinates *)
Definition wanted (nX : nat) (samples dims : option (list Z)) (ns : list nat) (dx dy : nat) : Prop :=
  (samples = Some (List.map Z.of_nat ns) /\ length ns = nX \/ samples = None /\ ns = repeat 100%nat nX) /\
  (dims = Some [Z.of_nat dx; Z.of_nat dy] \/ dims = None /\ dx = 0%nat /\ dy = 1%nat).
(** channel [c] of the data above its least value [m c] *)
Definition above_least (f : list R -> list R) (m : nat -> R) (c : nat) : list R -> R := fun x => nth c (f x) 0 - m c.

(** an object with an interpolant [f], its bounds and samples, [ns] positions per
    dimension *)
Record samplable (nX nY : nat) (lo hi : list R) (rows : list (list R)) (f : list R -> list R) (m : nat -> R) (ns : list nat) : Prop := {
  sized_values : forall x, length x = nX -> length (f x) = nY;
  sized_low : length lo = nX;
  sized_high : length hi = nX;
  some_rows : rows <> [];
  sized_rows : Forall (fun r => length r = (nX + nY)%nat) rows;
  least_values : forall c, (c < nY)%nat -> least rows (nX + c) (m c);
  positive_samples : Forall (fun n => 0 < n)%nat ns }.
Definition positions (axes : list axis) : Z := Z.of_nat (fold_right Nat.mul 1%nat (List.map count axes)).
(** the file reports [v] for channel [c] and the exponents [a] and [b] *)
Definition reported (lines : list (str * list (option R))) (c a b : nat) (v : R) : Prop :=
  exists l, In (label a b, l) lines /\ nth_error l c = Some (Some v).

(** Vocabulary of the grid properties. *)
From Coq Require Import Reals List ZArith.
From Verif Require Import GridModel.
Import ListNotations.
Open Scope R_scope.

(** A multi-index is inside a grid with these sizes. *)
Definition inside (sizes k : list Z) : Prop := Forall2 (fun s i => (0 <= i < s)%Z) sizes k.
Fixpoint total (sizes : list Z) : Z := match sizes with [] => 1%Z | s :: ss => (s * total ss)%Z end.
(** Rank of a multi-index in lexicographic order; defined for all integers. *)
Fixpoint lex (sizes k : list Z) : Z :=
  match sizes, k with s :: ss, i :: ks => (i * total ss + lex ss ks)%Z | _, _ => 0%Z end.

(** Position of the node number t (t may be fractional) in one dimension. *)
Definition position (a b : R) (s : Z) (t : R) : R := a + (b - a) * (t / IZR (s - 1)).
Inductive positions : list Z -> list R -> list R -> list R -> list R -> Prop :=
| pos_nil : positions [] [] [] [] []
| pos_cons s ss a aa b bb t ts xs : positions ss aa bb ts xs ->
    positions (s :: ss) (a :: aa) (b :: bb) (t :: ts) (position a b s t :: xs).

(** Value number j stored at node k. *)
Definition stored (g : grid) (k : list Z) (j : nat) : R :=
  nth (length (g_sizes g) + j) (nth (Z.to_nat (lex (g_sizes g) k)) (g_rows g) []) 0.

(** A grid with at least two nodes in every dimension, one row per node in
    lexicographic order: the position of the node and dimY values. *)
Record grid_ok (g : grid) : Prop := {
  ok_sizes : Forall (fun s => (2 <= s)%Z) (g_sizes g);
  ok_domain : Forall2 Rlt (g_min g) (g_max g);
  ok_dim : length (g_min g) = length (g_sizes g);
  ok_dim0 : g_sizes g <> [];
  ok_rows : Z.of_nat (length (g_rows g)) = total (g_sizes g);
  ok_row : forall k, inside (g_sizes g) k -> exists xs ys,
     nth_error (g_rows g) (Z.to_nat (lex (g_sizes g) k)) = Some (xs ++ ys) /\
     positions (g_sizes g) (g_min g) (g_max g) (map IZR k) xs /\ length ys = g_dy g }.

(** x lies in the cell whose first corner is node k, at the fraction a of the
    cell; the last node of a dimension is a cell of its own. *)
Definition in_cell (s k : Z) (a : R) : Prop := (0 <= k < s)%Z /\ 0 <= a < 1 /\ (k = (s - 1)%Z -> a = 0).
Inductive cells : list Z -> list Z -> list R -> Prop :=
| cells_nil : cells [] [] []
| cells_cons s ss k ks a al : in_cell s k a -> cells ss ks al -> cells (s :: ss) (k :: ks) (a :: al).
Definition locates (g : grid) (x : list R) (k : list Z) (a : list R) : Prop :=
  cells (g_sizes g) k a /\ positions (g_sizes g) (g_min g) (g_max g) (List.map (fun p => IZR (fst p) + snd p) (combine k a)) x.

(** Corners of a cell. *)
Definition corner_bits (n : nat) (b : list Z) : Prop := length b = n /\ Forall (fun i => i = 0%Z \/ i = 1%Z) b.
Fixpoint shift (k b : list Z) : list Z := match k, b with i :: ks, d :: bs => (i + d)%Z :: shift ks bs | _, _ => [] end.

(** Multilinear interpolation of the values f at the corners of the unit cube,
    at the point a. *)
Fixpoint blend (a : list R) (f : list Z -> R) : R :=
  match a with
  | [] => f []
  | a1 :: al => (1 - a1) * blend al (fun b => f (0%Z :: b)) + a1 * blend al (fun b => f (1%Z :: b))
  end.

(** Points of the domain strictly below the upper end in every dimension. *)
Definition in_interior (g : grid) (x : list R) : Prop := Forall2 Rle (g_min g) x /\ Forall2 Rlt x (g_max g).
(** Scalar product. *)
Fixpoint dot (c x : list R) : R := match c, x with a :: c', v :: x' => a * v + dot c' x' | _, _ => 0 end.

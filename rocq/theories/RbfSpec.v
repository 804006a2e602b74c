(** Vocabulary for C85: interpolation of scattered samples. *)
From Coq Require Import Reals List.
From Verif Require Import Base RbfModel.
Open Scope R_scope.

Fixpoint sum {A} (f : A -> R) (l : list A) : R := match l with [] => 0 | a :: l' => f a + sum f l' end.
(** squared Euclidean distance *)
Definition squared (a b : list R) : R := sum (fun ab => (fst ab - snd ab) ^ 2) (combine a b).
(** a table of samples: positions of [dx] numbers, values of [dy] numbers *)
Definition table := list (list R * list R).
Definition table_ok (dx dy : nat) (t : table) : Prop := Forall (fun s => length (fst s) = dx /\ length (snd s) = dy) t.
Definition rows_of (t : table) : list (list R) := List.map (fun s => fst s ++ snd s) t.
(** what is asked of the search: up to k different samples with their squared
    distances, at least one if there are any.  Not necessarily the nearest. *)
Definition finds (search : list (list R) -> list R -> nat -> list (nat * R)) : Prop :=
  forall pts x k, (0 < k)%nat -> let l := search pts x k in
    Forall (fun id => exists p, nth_error pts (fst id) = Some p /\ snd id = squared x p) l /\
    NoDup (List.map fst l) /\ (length l <= k)%nat /\ (pts <> [] -> l <> []).
(** the samples used at x *)
Definition used (search : list (list R) -> list R -> nat -> list (nat * R)) (t : table) (x : list R) : list nat :=
  List.map fst (search (List.map fst t) x 3%nat).
(** the weight of a sample *)
Definition weight (x p : list R) : R := 1 / (1 / 10 ^ 10 + squared x p).
Definition position (t : table) (i : nat) : list R := fst (nth i t ([], [])).
Definition sample (t : table) (c i : nat) : R := nth c (snd (nth i t ([], []))) 0.
(** the interpolant of a table *)
Definition interpolates (search : list (list R) -> list R -> nat -> list (nat * R)) (dx dy : nat) (t : table) (x : list R) (y : list R) : Prop :=
  exists s mn mx, rbf_new dx dy (rows_of t) mn mx = Ok s /\ rbf_value search s x = Ok y.

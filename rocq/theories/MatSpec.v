(** Vocabulary of the fits through a Matlab session. *)
From Coq Require Import Reals List Arith.
From Verif Require Import Base ParamsModel MonoModel RatModel RatSpec QuadModel QuadSpec.
Import ListNotations.
Open Scope R_scope.

(** x satisfies A x <= b *)
Definition satisfies (A : list (list R)) (b x : list R) : Prop := Forall2 (fun row c => dot row x <= c) A b.
(** A solver that always answers, and whose answers, unless flagged as negative,
    satisfy the constraints. *)
Definition reliable (solver : nat -> list (list R) -> list R -> option (list R * R)) : Prop :=
  forall n A b, Forall (fun row => length row = n) A ->
    exists x v, solver n A b = Some (x, v) /\ (0 <= v -> length x = n /\ satisfies A b x).
(** A negative flag means that there is no solution. *)
Definition complete_flag (solver : nat -> list (list R) -> list R -> option (list R * R)) : Prop :=
  forall n A b x v y, Forall (fun row => length row = n) A -> solver n A b = Some (x, v) -> v < 0 ->
    length y = n -> ~ satisfies A b y.

(** What the solver answered to the problems of a session, oldest first; [None]:
    it stopped on an error. *)
Fixpoint last_answer {A} (h : list (option A)) (before : option A) : option A :=
  match h with [] => before | o :: h' => last_answer h' (match o with Some a => Some a | None => before end) end.

(** The k-th pair of sizes that is tried, and how many are. *)
Definition size_at (mn mx k : nat) : nat := if (mn <=? mx)%nat then Nat.min (mn + k) (S mx) else mn.
Definition width (mn mx : nat) : nat := (S mx - mn)%nat.
Definition tried (z : sizes) : list (nat * nat) :=
  map (fun k => (size_at (z_min_np z) (z_max_np z) k, size_at (z_min_nq z) (z_max_nq z) k))
      (seq 0 (Nat.max (width (z_min_np z) (z_max_np z)) (width (z_min_nq z) (z_max_nq z)))).
(** Attempts one after another, until one succeeds. *)
Fixpoint first_success {F} (attempt : nat -> nat -> F -> outcome (bool * F)) (l : list (nat * nat)) (f : F) : outcome (bool * F) :=
  match l with
  | [] => Ok (false, f)
  | (np, nq) :: t => do b <- attempt np nq f; if fst b then Ok b else first_success attempt t (snd b)
  end.
(** An answer whose flag is positive (is not negative) satisfies the
    constraints. *)
Definition sound_above (ok : R -> Prop) (solver : nat -> list (list R) -> list R -> option (list R * R)) : Prop :=
  forall n A b x v, Forall (fun row => length row = n) A -> solver n A b = Some (x, v) -> ok v -> length x = n /\ satisfies A b x.

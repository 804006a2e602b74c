(** Vocabulary of the least squares fitting properties (C64, C65). *)
From Coq Require Import Reals List.
From Verif Require Import Base ParamsModel MonoModel RatModel RatSpec QuadModel QuadSpec LsqModel.
Import ListNotations.
Open Scope R_scope.

(** sum of the squares of f over a list *)
Fixpoint squares {A} (f : A -> R) (l : list A) : R := match l with [] => 0 | s :: t => f s * f s + squares f t end.

(** ** The contracts of the Eigen library *)
Definition delta (i j : nat) : R := if Nat.eqb i j then 1 else 0.
(** M = V diag(lambda) V^T with V orthogonal: V^T V = V V^T = I *)
Record diagonalises (n : nat) (M : list (list R)) (l : list (R * list R)) : Prop := {
  dia_count : length l = n;
  dia_sizes : Forall (fun e => length (snd e) = n) l;
  dia_matrix : forall a b, (a < n)%nat -> (b < n)%nat -> nth b (nth a M []) 0 = rsum (map (fun e => fst e * (nth a (snd e) 0 * nth b (snd e) 0)) l);
  dia_rows : forall a b, (a < n)%nat -> (b < n)%nat -> rsum (map (fun e => nth a (snd e) 0 * nth b (snd e) 0) l) = delta a b;
  dia_columns : forall j k e1 e2, nth_error l j = Some e1 -> nth_error l k = Some e2 -> dot (snd e1) (snd e2) = delta j k }.
(** When the decomposition of a square matrix succeeds it is exact. *)
Definition exact_eigs (eigs : list (list R) -> option (list (R * list R))) : Prop :=
  forall n M l, length M = n -> Forall (fun row => length row = n) M -> eigs M = Some l -> diagonalises n M l.
(** A x has the least distance to b *)
Definition least_squares (n : nat) (A : list (list R)) (b x : list R) : Prop :=
  length x = n /\ forall z, length z = n ->
    squares (fun t => dot (fst t) x - snd t) (combine A b) <= squares (fun t => dot (fst t) z - snd t) (combine A b).
Definition exact_qr (qr : nat -> list (list R) -> list R -> list R) : Prop :=
  forall n A b, Forall (fun row => length row = n) A -> length A = length b -> least_squares n A b (qr n A b).

(** ** Errors of the quotient of the polynomials with coefficients a and b on a box *)
Section Errors.
Variables (d : nat) (mn mx : list R).
Notation poly := (polynomial d mn mx).
(** sum_i (p(x_i) - y_i q(x_i))^2 *)
Definition algebraic_error (a b : list R) (ss : list point) : R := squares (fun s => poly a (fst s) - snd s * poly b (fst s)) ss.
(** sum_i (y_i (y_i q(x_i) - p(x_i)))^2 *)
Definition weighted_error (a b : list R) (ss : list point) : R := squares (fun s => snd s * (snd s * poly b (fst s) - poly a (fst s))) ss.
(** sum_i (p(x_i) / q(x_i) - y_i)^2 *)
Definition quotient_error (a b : list R) (ss : list point) : R := squares (fun s => poly a (fst s) / poly b (fst s) - snd s) ss.
(** the denominator does not vanish at the samples *)
Definition defined_at (b : list R) (ss : list point) : Prop := Forall (fun s => poly b (fst s) <> 0) ss.
End Errors.

(** a and b minimise the algebraic error among the coefficients of norm one *)
Definition best_algebraic (d : nat) (mn mx : list R) (np nq : nat) (a b : list R) (ss : list point) : Prop :=
  length a = np /\ length b = nq /\ dot (a ++ b) (a ++ b) = 1 /\
  forall a' b', length a' = np -> length b' = nq -> dot (a' ++ b') (a' ++ b') = 1 ->
    algebraic_error d mn mx a b ss <= algebraic_error d mn mx a' b' ss.
(** the positions have d coordinates *)
Definition points_ok (d : nat) (ss : list point) : Prop := Forall (fun s : point => length (fst s) = d) ss.
(** what the function takes at the samples *)
Definition takes (r : rf1) (f : point -> R) (ss : list point) : Prop := Forall (fun s => value1 r (fst s) = Ok (f s)) ss.

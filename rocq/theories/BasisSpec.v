(** Specification vocabulary for the polynomial bases (C34, C35). *)
From Coq Require Import Reals List.
From Verif Require Import Base MonoModel RatSpec.
Open Scope R_scope.

(** Chebyshev polynomials of the first kind: T_0 = 1, T_1 = x,
    T_(n+2) = 2 x T_(n+1) - T_n *)
Fixpoint cheb (n : nat) (x : R) : R :=
  match n with 0%nat => 1 | S n' => match n' with 0%nat => x | S m => 2 * x * cheb n' x - cheb m x end end.
(** Legendre polynomials by Bonnet's recurrence: P_0 = 1, P_1 = x,
    n P_n = (2n - 1) x P_(n-1) - (n - 1) P_(n-2) *)
Fixpoint leg (n : nat) (x : R) : R :=
  match n with 0%nat => 1 | S n' => match n' with 0%nat => x | S m => ((2 * INR n - 1) * x * leg n' x - (INR n - 1) * leg m x) / INR n end end.

(** prod_k B_(e_k)(rescaled x_k) *)
Fixpoint tensor (B : nat -> R -> R) (mn mx x : list R) (e : list nat) : R :=
  match mn, mx, x, e with
  | lo :: mn', hi :: mx', t :: x', k :: e' => B k (rescaled lo hi t) * tensor B mn' mx' x' e'
  | _, _, _, _ => 1
  end.
(** sum_i a_i prod_k B_(e_ik)(rescaled x_k), e_i the i-th exponent vector *)
Fixpoint expansion_from (B : nat -> R -> R) (i d : nat) (mn mx : list R) (a : list R) (x : list R) : R :=
  match a with
  | [] => 0
  | a_i :: a' => a_i * tensor B mn mx x (index2degree d i) + expansion_from B (S i) d mn mx a' x
  end.
Definition expansion (B : nat -> R -> R) := expansion_from B 0.

(** sum_k c_k x^k *)
Fixpoint horner (c : list R) (x : R) : R := match c with [] => 0 | a :: c' => a + x * horner c' x end.
(** the function is a polynomial of degree exactly n *)
Definition of_degree (n : nat) (f : R -> R) : Prop :=
  exists c l, length c = n /\ l <> 0 /\ forall x, f x = horner (c ++ [l]) x.

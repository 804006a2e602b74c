(** Specification vocabulary for the enumeration of monomials (C31). *)
From Coq Require Import List Arith.
From Verif Require Import Base.

(** total degree of the monomial prod_k x_k ^ v_k *)
Definition degree (v : list nat) : nat := fold_right plus 0 v.

(** number of ways to choose b among a *)
Fixpoint binomial (a b : nat) : nat :=
  match a, b with
  | _, O => 1
  | O, S _ => 0
  | S a', S b' => binomial a' b' + binomial a' b
  end.

(** [v] comes before [w]: lower total degree, or equal total degree and a
    lower exponent in the last input where they differ *)
Definition before (v w : list nat) : Prop :=
  degree v < degree w \/
  degree v = degree w /\ exists c a b s t, v = s ++ a :: c /\ w = t ++ b :: c /\ length s = length t /\ a < b.

(** Specification vocabulary for rational functions (C32, C33). *)
From Coq Require Import Reals List.
From Verif Require Import Base ArgsModel TextModel MonoModel RatModel.
Open Scope R_scope.

(** the input coordinate rescaled so that [lo, hi] becomes [-1, 1] *)
Definition rescaled (lo hi x : R) : R := (2 * x - lo - hi) / (hi - lo).
(** prod_k rescaled(x_k) ^ e_k *)
Fixpoint monomial (mn mx x : list R) (e : list nat) : R :=
  match mn, mx, x, e with
  | lo :: mn', hi :: mx', t :: x', k :: e' => rescaled lo hi t ^ k * monomial mn' mx' x' e'
  | _, _, _, _ => 1
  end.
(** sum_i a_i m_i(x), where m_i is the i-th monomial of [d] inputs, from [i] on *)
Fixpoint polynomial_from (i d : nat) (mn mx : list R) (a : list R) (x : list R) : R :=
  match a with
  | [] => 0
  | a_i :: a' => a_i * monomial mn mx x (index2degree d i) + polynomial_from (S i) d mn mx a' x
  end.
Definition polynomial := polynomial_from 0.

(** the box has one non degenerate interval per input *)
Definition domain_ok (d : nat) (mn mx : list R) : Prop :=
  length mn = d /\ length mx = d /\ Forall2 (fun lo hi => lo <> hi) mn mx.
(** the i-th coefficient belongs to the i-th monomial *)
Definition numbered (d : nat) (cs : list coeff) : Prop := map co_deg cs = map (index2degree d) (seq 0 (length cs)).
(** what the constructor, resize and update establish *)
Definition well_formed (r : rf1) : Prop :=
  (0 < r_dim r)%nat /\ domain_ok (r_dim r) (r_min r) (r_max r) /\ numbered (r_dim r) (r_p r) /\ numbered (r_dim r) (r_q r).

(** the box (mn', mx') is (mn, mx) with its flat sides widened by w each way *)
Definition widened (w : R) (mn mx mn' mx' : list R) : Prop :=
  length mn' = length mn /\ length mx' = length mx /\
  forall k a b, nth_error mn k = Some a -> nth_error mx k = Some b ->
    (a <> b -> nth_error mn' k = Some a /\ nth_error mx' k = Some b) /\
    (a = b -> nth_error mn' k = Some (a - w) /\ nth_error mx' k = Some (b + w)).

(** ** Files *)
(** the function with its numbers replaced *)
Definition round_coeffs (rnd : R -> R) (cs : list coeff) : list coeff := map (fun c => mkCoeff (rnd (co_a c)) (co_deg c)) cs.
(** the constant coefficient of the denominator is one, as after update *)
Definition normalised (r : rf1) : Prop := exists t, getQ r = 1 :: t.
(** every channel exists, has the function's number of inputs and is normalised *)
Definition channel_ok (d : nat) (s : rf1) : Prop := r_dim s = d /\ numbered d (r_p s) /\ numbered d (r_q s) /\ normalised s.
(** nothing but white space *)
Definition spaces (w : str) : Prop := forallb is_space w = true.

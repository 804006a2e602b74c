(** Vocabulary of the properties of the C++ and Matlab exports. *)
From Coq Require Import Reals List.
From Verif Require Import Base NlModel NlMoreModel Glsl GlslModel RatModel CppModel.
Open Scope R_scope.

(** ** Rational functions *)
(** x_0^d_0 * x_1^d_1 * ... *)
Fixpoint monomial (x : list R) (degs : list nat) : R :=
  match x, degs with a :: x', d :: t => a ^ d * monomial x' t | _, _ => 1 end.
(** the sum of the coefficients, each as [shown] after printing, times its monomial *)
Fixpoint polynomial (shown : R -> R) (cs : list coeff) (x : list R) : R :=
  match cs with [] => 0 | c :: t => shown (co_a c) * monomial x (co_deg c) + polynomial shown t x end.
(** every coefficient has one exponent per input, there is one bound per input *)
Definition rf1_wf (d : nat) (r : rf1) : Prop :=
  r_dim r = d /\ Forall (fun c => length (co_deg c) = d) (r_p r) /\ Forall (fun c => length (co_deg c) = d) (r_q r) /\
  length (r_min r) = d /\ length (r_max r) = d.
(** the function with its coefficients as they are after printing *)
Definition shown_coeff (shown : R -> R) (c : coeff) : coeff := mkCoeff (shown (co_a c)) (co_deg c).
Definition shown_rf1 (shown : R -> R) (r : rf1) : rf1 :=
  mkRf1 (r_dim r) (r_min r) (r_max r) (map (shown_coeff shown) (r_p r)) (map (shown_coeff shown) (r_q r)).
(** A function of [d] inputs with the one channel [r]. *)
Definition one_channel (f : rf) (d : nat) (r : rf1) : Prop := f_dimX f = d /\ f_dimY f = 1%nat /\ f_rs f = [Some r].
Definition with_channel (f : rf) (r : rf1) : rf := mkRf (f_dimX f) (f_dimY f) (f_min f) (f_max f) (f_np f) (f_nq f) [Some r].
(** The point of the domain [lo, hi] whose coordinates are x when the domain is
    seen as [-1, 1]. *)
Fixpoint stretch (lo hi x : list R) : list R :=
  match lo, hi, x with a :: lo', b :: hi', t :: x' => a + (t + 1) / 2 * (b - a) :: stretch lo' hi' x' | _, _, _ => [] end.

(** ** Trees *)
(** the plugins a function is made of *)
Fixpoint plugins (f : efun) : list kind :=
  match f with
  | ELeaf k _ => [k] | ERational _ => []
  | ESum fs => (fix all l := match l with [] => [] | f :: t => plugins f ++ all t end)%list fs
  | EProd f g => (plugins f ++ plugins g)%list end.
(** the channels of the rational functions it is made of *)
Definition made (rs : list (option rf1)) : list rf1 := flat_map (fun o => match o with Some r => [r] | None => [] end) rs.
Fixpoint rationals (f : efun) : list rf1 :=
  match f with
  | ELeaf _ _ => [] | ERational r => made (firstn (f_dimY r) (f_rs r))
  | ESum fs => (fix all l := match l with [] => [] | f :: t => rationals f ++ all t end)%list fs
  | EProd f g => (rationals f ++ rationals g)%list end.
(** a Lafortune function without lobes writes nothing *)
Definition silent (k : kind) : Prop := match k with KLafIso n => n = 0%nat | _ => False end.
(** "{" minus "}" *)
Fixpoint braces (s : string) : Z :=
  match s with
  | EmptyString => 0
  | String c t => (if Ascii.eqb c "{" then 1 else if Ascii.eqb c "}" then -1 else 0) + braces t end%Z.

(** Vocabulary for rational function files that are cut short (C117). *)
From Coq Require Import Reals List.
From Verif Require Import Base Num ArgsModel TextModel FuncFile RatModel RatSpec.

(** [s] is the beginning of [t], with at least one character missing *)
Definition cut (s t : str) : Prop := exists u, u <> [] /\ t = s ++ u.
(** [s] is the beginning of [t], possibly all of it *)
Definition pre (s t : str) : Prop := exists u, t = s ++ u.
(** a load that is refused, or that works with numbers that were never set *)
Definition refused {A} (o : outcome (bool * A * istream)) : Prop := exists a s, o = Ok (false, a, s).
Definition fails {A} (o : outcome (bool * A * istream)) : Prop := refused o \/ o = UB.
(** the channel as it is read back: numbers as printed, domain from the bounds mn, mx *)
Definition kept (rnd : R -> R) (dx : nat) (mn mx : list R) (s : rf1) : rf1 :=
  mkRf1 dx (fst (inflate mn mx)) (snd (inflate mn mx)) (round_coeffs rnd (r_p s)) (round_coeffs rnd (r_q s)).
(** the last coefficient replaced *)
Definition with_last (cs : list coeff) (v : R) : list coeff :=
  match rev cs with [] => [] | c :: t => rev t ++ [mkCoeff v (co_deg c)] end.

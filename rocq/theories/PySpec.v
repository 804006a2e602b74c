(** Vocabulary for C95-C99 (the Python interface). *)
From Coq Require Import Reals List.
From Verif Require Import Base ParamsModel GeoModel FuncModel FuncSpec PyModel.
Open Scope R_scope.

(** ** Histories: what a script can do to function objects, in any order *)
Inductive step (st : state) : state -> Prop :=
| step_new l p : leaf_ok l p -> step st (fst (py_new st l p))
| step_other par val : step st (fst (py_new_other st par val))
| step_add f g st' h : py_add st f g = Ok (st', h) -> step st st'
| step_mult f g st' h : py_mult st f g = Ok (st', h) -> step st st'
| step_set f v st' : py_set st f v = Ok st' -> step st st'.
Inductive steps (st : state) : state -> Prop :=
| steps_refl : steps st st
| steps_step st1 st2 : steps st st1 -> step st1 st2 -> steps st st2.
(** the states a script can be in *)
Definition reachable (st : state) : Prop := steps py_empty st.

(** a handle whose function has parameters (a nonlinear function) *)
Definition has_parameters (st : state) (f : handle) : Prop := exists t, as_tree st f = Some t.
Definition param_of (st : state) (f : handle) : option parameters :=
  match as_tree st f with Some t => Some (par_of t) | None => None end.

(** The plugin functions whose parameters are free in the object [a], from left
    to right; a plugin function used several times is listed several times. *)
Fixpoint leaves (cs : list cell) (a : loc) : list loc :=
  match cs with
  | [] => []
  | c :: cs' =>
      if Nat.eqb a (length cs') then
        match c with
        | CLeaf _ => [a]
        | CCompound _ fs => flat_map (fun f : bool * loc => if fst f then [] else leaves cs' (snd f)) fs
        | CProduct _ x1 x2 b1 b2 => (if x1 then [] else leaves cs' b1) ++ (if x2 then [] else leaves cs' b2)
        | COther _ _ => []
        end
      else leaves cs' a
  end.
Definition parts (st : state) (f : handle) : list loc := match f with Some a => leaves (cells st) a | None => [] end.
(** the number of parameters of a plugin function *)
Definition size_of (st : state) (b : loc) : nat := match cell_at (cells st) b with Some (CLeaf l) => lf_nb l | _ => 0%nat end.
Fixpoint total_size (sz : loc -> nat) (l : list loc) : nat := match l with [] => 0%nat | b :: l' => (sz b + total_size sz l')%nat end.
(** the part of [v] that belongs to the plugin function [b] listed after [pre] *)
Definition block (sz : loc -> nat) (pre : list loc) (b : loc) (v : list R) : list R := firstn (sz b) (skipn (total_size sz pre) v).
(** occurrences of one plugin function are given the same numbers *)
Definition consistent (sz : loc -> nat) (ls : list loc) (v : list R) : Prop :=
  forall b pre post pre' post', ls = pre ++ b :: post -> ls = pre' ++ b :: post' -> block sz pre b v = block sz pre' b v.

(** ** Data *)
From Verif Require Import GeoSpec ConvSpec.
(** the sample that data2data makes of [r]: the converted position, the converted
    channels, and intervals that are zero; [junk] is what the new array contained *)
Definition py_converted (junk : R) (pin target : parameters) (r o : list R) : Prop :=
  exists w z, converts r (in_param pin) (in_param target) w /\
    channels (dimY pin) (dimY target) (values pin r) (repeat junk (dimY target)) z /\
    o = w ++ z ++ repeat 0 (2 * dimY target).
(** the sample that brdf2data makes of [r]: the first channels of the function
    at its position; [rest] (intervals) stays *)
Definition py_exported (pf pd : parameters) (val : list R -> outcome (list R)) (r o : list R) : Prop :=
  exists w y, argument pf pd r w /\ val w = Ok y /\ (dimY pd <= length y)%nat /\
    o = firstn (dimX pd) r ++ firstn (dimY pd) y ++ skipn (dimX pd + dimY pd) r.

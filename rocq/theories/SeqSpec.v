(** Vocabulary of data sets as Python sequences. *)
From Coq Require Import List ZArith.
From Verif Require Import Base.
Import ListNotations.

(** How a program ends that asks for a sample that is not there *)
Inductive failure := Stops | Undefined.
Definition fails (f : failure) {A} : outcome A := match f with Stops => Abort | Undefined => UB end.
(** The samples are l, and every other position fails. *)
Definition samples_are {A} (get : Z -> outcome A) (l : list A) (f : failure) : Prop :=
  (forall i x, nth_error l i = Some x -> get (Z.of_nat i) = Ok x) /\
  (forall i, (i < 0 \/ Z.of_nat (length l) <= i)%Z -> get i = fails f).
(** The body applied to the samples in order until it leaves the loop. *)
Fixpoint in_turn {A S} (body : A -> S -> outcome (S * bool)) (l : list A) (s : S) : outcome (S * bool) :=
  match l with
  | [] => Ok (s, false)
  | x :: l' => do r <- body x s; if snd r then Ok r else in_turn body l' (fst r)
  end.
(** Assignment to a position outside [0, n) fails. *)
Definition only_inside {D V} (set : D -> Z -> V -> outcome D) (d : D) (n : Z) (f : failure) : Prop :=
  forall i v, (i < 0 \/ n <= i)%Z -> set d i v = fails f.

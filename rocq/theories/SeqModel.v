(** Model of data sets as Python sequences (sources/python/wrapper_data.h): indexing
    and for loops. *)
From Coq Require Import Reals List ZArith.
From Verif Require Import Base Num Double ParamsModel DataModel MerlModel GridModel SliceModel UtiaModel.
Import ListNotations.

(** python/wrapper_data.h:51 __getitem__ and 55 get are data::get(int): pybind11
    raises a TypeError for an index that is not an int *)
Definition py_item {A} (get : Z -> outcome A) (i : Z) : outcome A :=
  if ((i <? - 2 ^ 31) || (2 ^ 31 <=? i))%Z then Throw else get i.
(** for x in d: body.  The class has __getitem__ (python/wrapper_data.h:50-51) and
    no __iter__: Python asks for the items 0, 1, ... until IndexError, which
    data::get never raises; every other exception goes on to the script.  The body
    gives the new state of the script and whether it leaves the loop.  [Ok None]: not
    ended after [fuel] items. *)
Fixpoint py_for {A S} (get : Z -> outcome A) (body : A -> S -> outcome (S * bool)) (fuel : nat) (i : Z) (s : S) : outcome (option S) :=
  match fuel with
  | O => Ok None
  | Datatypes.S fuel' =>
      do x <- py_item get i;
      do r <- body x s;
      if snd r then Ok (Some (fst r)) else py_for get body fuel' (i + 1) (fst r)
  end.
(** for i in range(len(d)): body with d[i]; python/wrapper_data.h:53 __len__;
    [n] items are left, and the result says whether the body left the loop *)
Fixpoint py_range {A S} (get : Z -> outcome A) (body : A -> S -> outcome (S * bool)) (n : nat) (i : Z) (s : S) : outcome (S * bool) :=
  match n with
  | O => Ok (s, false)
  | Datatypes.S n' =>
      do x <- py_item get i;
      do r <- body x s;
      if snd r then Ok r else py_range get body n' (i + 1) (fst r)
  end.

(** vertical_segment.cpp:145-148 get(int): Eigen's assertion on the row *)
Definition segment_get (d : vseg) (i : Z) : outcome (list double) :=
  if (i <? 0)%Z then Abort else vs_get d (Z.to_nat i).

(** ** Assignment *)
(** vertical_segment.cpp:150-163 set(int, x): Eigen's assertion on the row; the
    [throw;] of the other branch terminates for every index *)
Definition segment_set (d : vseg) (i : Z) (x : list double) : outcome vseg :=
  if (i <? 0)%Z then Abort else vs_set d (Z.to_nat i) x.
(** python/wrapper_data.h:52 __setitem__ and 56 set are data::set(int, vec):
    pybind11 raises a TypeError for an index that is not an int *)
Definition py_setitem {D V} (set : D -> Z -> V -> outcome D) (d : D) (i : Z) (v : V) : outcome D :=
  if ((i <? - 2 ^ 31) || (2 ^ 31 <=? i))%Z then Throw else set d i v.

(** Model of the scattered data interpolant sources/plugins/data_interpolants/rbf.cpp
    (FLANN branch).  Numbers are real.  The library FLANN is a parameter:
    [search points x k] is the answer of knnSearch, pairs of an index and a
    distance. *)
From Coq Require Import Reals List.
From Verif Require Import Base Num TextModel.
Open Scope R_scope.

(** data_interpolants/rbf.cpp:62-73 the members; [rb_rows] are the vectors _data->get(i) *)
Record rbf := mkRbf { rb_dx : nat; rb_dy : nat; rb_rows : list (list R); rb_min : list R; rb_max : list R; rb_points : list (list R); rb_knn : nat }.
(** data_interpolants/rbf.cpp:76-109 the constructor; the index is the list of points given
    to FLANN.  Simplification: a row shorter than dimX (memcpy reads beyond it)
    is undefined behaviour. *)
Definition rbf_new (dx dy : nat) (rows : list (list R)) (mn mx : list R) : outcome rbf :=
  if existsb (fun r => (length r <? dx)%nat) rows then UB
  else Ok (mkRbf dx dy rows mn mx (List.map (firstn dx) rows) 3).

(** y.tail(n): Eigen asserts n <= size *)
Definition tail_of (n : nat) (y : list R) : outcome (list R) :=
  if (length y <? n)%nat then Abort else Ok (skipn (length y - n) y).
Fixpoint add_to (a b : list R) : list R := match a, b with x :: a', y :: b' => x + y :: add_to a' b' | _, _ => [] end.

Section Search.
Variable search : list (list R) -> list R -> nat -> list (nat * R).
(** data_interpolants/rbf.cpp:158-167 the loop over the neighbours; _data->get asserts the index *)
Fixpoint rbf_loop (dy : nat) (rows : list (list R)) (l : list (nat * R)) (res : list R) (cum : R) : outcome (list R * R) :=
  match l with
  | [] => Ok (res, cum)
  | (i, d) :: l' =>
      match nth_error rows i with
      | None => Abort
      | Some y =>
          let kernel := 1 / (1 / 10 ^ 10 + d) in
          do v <- tail_of dy y;
          rbf_loop dy rows l' (add_to res (List.map (fun t => kernel * t) v)) (cum + kernel)
      end
  end.
(** data_interpolants/rbf.cpp:143-171 and 213 value; FLANN reads dimX numbers of the copy of [x] *)
Definition rbf_value (s : rbf) (x : list R) : outcome (list R) :=
  if (length x <? rb_dx s)%nat then UB else
  let l := search (rb_points s) (firstn (rb_dx s) x) (rb_knn s) in
  do (res, cum) <- rbf_loop (rb_dy s) (rb_rows s) l (repeat 0 (rb_dy s)) 0;
  Ok (if rltb 0 cum then List.map (fun t => t / cum) res else res).
End Search.
(** data_interpolants/rbf.cpp:128-132 get: the vector is not initialised; [junk] is what it
    happens to contain *)
Definition rbf_get (junk : nat -> list R) (s : rbf) (i : nat) : list R := firstn (rb_dx s + rb_dy s) (junk i).
(** data_interpolants/rbf.cpp:138-141 set *)
Definition rbf_set (s : rbf) (i : nat) (x : list R) : outcome rbf := Abort.

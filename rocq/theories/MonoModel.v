(** Model of the enumeration of monomials of rational_function_1d
    (sources/core/rational_function.cpp:290-421).  Integers are unbounded. *)
From Coq Require Import List Arith.
From Verif Require Import Base.

(** for(int i=0; i<=k; ++i) res += f(i) *)
Fixpoint sum_upto (k : nat) (f : nat -> nat) : nat :=
  match k with O => f 0 | S k' => sum_upto k' f + f k end.

(** rational_function.cpp:293-330 estimate_dk(k, d).  The code never calls it
    with d = 0 (resize does nothing for a function without input, and the
    recursion stops at d = 3). *)
Fixpoint estimate_dk (d k : nat) : nat :=
  match d with
  | O => 0
  | S d' =>
      if (d =? 1) || (k =? 0) then 1
      else if k =? 1 then d
      else if d =? 2 then k + 1
      else if d =? 3 then (k + 1) * (k + 1) - ((k + 1) * k) / 2
      else sum_upto k (fun i => estimate_dk d' (k - i))
  end.

(** vec[i] = x *)
Fixpoint set_nth (v : list nat) (i x : nat) : list nat :=
  match v, i with
  | [], _ => []
  | _ :: t, O => x :: t
  | y :: t, S i' => y :: set_nth t i' x
  end.

(** rational_function.cpp:344-354: for(k=0; k<=current_M; ++k), [n] iterations
    left; returns the k at which the loop stops, and nb_conf *)
Fixpoint scan_level (n k current_M dims nb_conf j : nat) : nat * nat :=
  match n with
  | O => (k, nb_conf)
  | S n' =>
      let oracle := estimate_dk dims (current_M - k) in
      if (nb_conf <=? j) && (j <? nb_conf + oracle) then (k, nb_conf)
      else scan_level n' (S k) current_M dims (nb_conf + oracle) j
  end.
(** rational_function.cpp:335-359 populate(vec, N, M, j): the loop over d < N-1,
    [n] iterations left, d = N-1-n *)
Fixpoint populate_loop (n N : nat) (v : list nat) (current_M nb_conf j : nat) : list nat :=
  match n with
  | O => set_nth v 0 current_M
  | S n' =>
      let d := N - 1 - n in
      let (k, nb') := scan_level (S current_M) 0 current_M (N - (d + 1)) nb_conf j in
      populate_loop n' N (set_nth v (N - 1 - d) k) (current_M - k) nb' j
  end.
Definition populate (v : list nat) (N M j : nat) : list nat := populate_loop (N - 1) N v M 0 j.

(** rational_function.cpp:391-398 and 405-413: the degree whose block holds
    index [i]: while(!(i >= Nk && i < Nk+dk)).  [count k] is the block size. *)
Fixpoint find_degree (fuel : nat) (count : nat -> nat) (i Nk k : nat) : nat * nat :=
  match fuel with
  | O => (k, Nk)
  | S fuel' =>
      if (Nk <=? i) && (i <? Nk + count k) then (k, Nk)
      else find_degree fuel' count i (Nk + count k) (S k)
  end.

(** rational_function.cpp:361-421 index2degree(i) of a function of [dim] inputs *)
Definition index2degree (dim i : nat) : list nat :=
  let deg := repeat 0 dim in
  if i =? 0 then deg
  else if dim =? 1 then set_nth deg 0 i
  else if dim =? 2 then
    let (k, Nk) := find_degree (S i) (fun k => k + 1) i 1 1 in
    let r := i - Nk in set_nth (set_nth deg 0 (k - r)) 1 r
  else
    let (k, Nk) := find_degree (S i) (estimate_dk dim) i 1 1 in
    populate deg dim k (i - Nk).

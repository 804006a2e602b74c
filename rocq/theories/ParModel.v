(** Model of the parallel loop of data2data (sources/softs/data2data/main.cpp)
    at the level of its accesses to shared memory.  The iterations are
    interleaved entry by entry: a schedule is any list of iteration numbers, so
    that every distribution of the iterations over threads is included.  The
    compiled program is taken to perform the accesses of an iteration in the order
    of the text (C++ itself promises nothing for the unsynchronised counter).
    d_in is not changed by the loop: d_in->value is a function [val]. *)
From Coq Require Import Reals List.
From Verif Require Import Base ParamsModel GeoModel CommonModel TextModel NlMoreModel FuncModel MetricsModel ConvModel.
Open Scope R_scope.

Section Par.
Variable junk : R.
Variable pin pout : parameters.
Variable val : list R -> outcome (list R).

(** data2data/main.cpp:243-259: the value found for the copy [x] of a sample;
    [None] is the branch that counts an incorrect configuration *)
Definition look (x : list R) : outcome (option (list R)) :=
  if (length x <? Z.to_nat (dimension_in (in_param pout)))%nat then UB else
  do cart <- convert (row_mem x) (in_param pout) CARTESIAN (fun _ => junk);
  if rleb 0 (cart 2%nat) && rleb 0 (cart 5%nat) then
    if (dimX pin <? Z.to_nat (dimension_in (in_param pin)))%nat then UB else
    do temp <- convert cart CARTESIAN (in_param pin) (fun _ => junk);
    do y <- val (List.map temp (seq 0 (dimX pin)));
    Ok (Some y)
  else Ok None.
(** data2data/main.cpp:263-267: the vector that is handed to d_out->set *)
Definition write_over (x y : list R) : outcome (list R) :=
  if (length y <? dimY pin)%nat then UB
  else if (length x <? dimX pout + dimY pout)%nat then UB
  else
    do z <- convert_out (fun j => nth j y 0) (dimY pin) (dimY pout) (fun j => nth (dimX pout + j) x 0);
    Ok (firstn (dimX pout) x ++ List.map z (seq 0 (dimY pout)) ++ skipn (dimX pout + dimY pout) x).

(** data2data/main.cpp:235-270: where an iteration stands, with its own variables *)
Inductive phase :=
| Reading (acc : list R)           (* :242, the entries copied so far *)
| Looking (x : list R)             (* :243-259 *)
| Counting (x : list R)            (* :257, before the load of stats_incorrect *)
| Counted (x : list R) (c : nat)   (* :257, before the store *)
| Writing (o : list R) (k : nat)   (* :269, k entries are written *)
| Finished.
(** the shared variables d_out and stats_incorrect (unbounded here), and the iterations *)
Record machine := mkM { m_rows : list (list R); m_count : nat; m_at : list phase }.

Definition put {A} (i : nat) (a : A) (l : list A) : list A := firstn i l ++ a :: skipn (S i) l.
Definition go (i : nat) (ph : phase) (m : machine) : machine := mkM (m_rows m) (m_count m) (put i ph (m_at m)).
(** one access, data2data/main.cpp:235-270, of iteration [i]; nothing happens when
    it has ended or does not exist *)
Definition access (i : nat) (m : machine) : outcome machine :=
  match nth_error (m_at m) i, nth_error (m_rows m) i with
  | Some ph, Some row =>
      match ph with
      | Reading acc => Ok (go i (match nth_error row (length acc) with Some v => Reading (acc ++ [v]) | None => Looking acc end) m)
      | Looking x =>
          do l <- look x;
          match l with
          | Some y => do o <- write_over x y; Ok (go i (Writing o 0) m)
          | None => Ok (go i (Counting x) m)
          end
      | Counting x => Ok (go i (Counted x (m_count m)) m)
      | Counted x c =>
          do o <- write_over x (repeat 0 (dimY pin));
          Ok (mkM (m_rows m) (S c) (put i (Writing o 0) (m_at m)))
      | Writing o k =>
          if negb (length row =? length o)%nat then Abort else
          match nth_error o k with
          | Some v => Ok (mkM (put i (put k v row) (m_rows m)) (m_count m) (put i (Writing o (S k)) (m_at m)))
          | None => Ok (go i Finished m)
          end
      | Finished => Ok m
      end
  | _, _ => Ok m
  end.
(** data2data/main.cpp:234-270: the loop under a schedule *)
Fixpoint interleave (sched : list nat) (m : machine) : outcome machine :=
  match sched with [] => Ok m | i :: sched' => do m' <- access i m; interleave sched' m' end.
(** data2data/main.cpp:232-235: before the loop *)
Definition begin_loop (out : list (list R)) : machine := mkM out 0 (repeat (Reading []) (length out)).
(** data2data/main.cpp:270, the end of the loop, where the threads join: every iteration has ended *)
Definition joined (m : machine) : Prop := Forall (fun ph => ph = Finished) (m_at m).
End Par.

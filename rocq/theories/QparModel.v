(** Model of the parallel loop of sources/plugins/rational_fitters/quadprog_parallel.cpp
    at the level of its accesses to what the threads share: the function r, the
    counters and the best distances.  The iterations are interleaved in any
    manner; the critical sections are atomic.  An iteration that throws ends the
    program. *)
From Coq Require Import Reals List.
From Verif Require Import Base Num ParamsModel GeoModel MonoModel RatModel QuadModel.
From Verif Require ParModel.
Open Scope R_scope.

Section Qpar.
Variable junk : R.
Variable solver : nat -> list (list R) -> list R -> option (list R).
Variable cond : list (list R) -> R.
Variable distance : rf -> option R.
Variable use_delta : bool.
Variable channels : list (list sample).

(** quadprog_parallel.cpp:171-237: where an iteration stands *)
Inductive stage :=
| Enter                                         (* :184-189, r->parametrization() *)
| NeedMin (dx dy : nat)                         (* :196, r->min() *)
| NeedMax (dx dy : nat) (mn : list R)           (* :197, r->max() *)
| Solve (rk : rf)                               (* :200-204, setSize and fit_data on rk *)
| AtR (c : R * option R * rf)                   (* :207, before the critical section on r *)
| AtTested                                      (* :231, before the last critical section *)
| Over.
(** quadprog_parallel.cpp:164-168: the shared variables; r is [n_best] of [q_found] *)
Record shared := mkQ { q_found : found; q_sum : R; q_nfound : nat; q_tested : nat; q_at : list stage }.

Definition goto (k : nat) (s : stage) (q : shared) : shared := mkQ (q_found q) (q_sum q) (q_nfound q) (q_tested q) (ParModel.put k s (q_at q)).
(** quadprog_parallel.cpp:171-237: the next action of iteration j = k + 1 of the
    loop of size i *)
Definition act (i k : nat) (q : shared) : outcome shared :=
  let r := n_best (q_found q) in
  match nth_error (q_at q) k with
  | None => Ok q
  | Some s =>
      match s with
      | Enter => Ok (goto k (NeedMin (f_dimX r) (f_dimY r)) q)
      | NeedMin dx dy => Ok (goto k (NeedMax dx dy (f_min r)) q)
      | NeedMax dx dy mn => Ok (goto k (Solve (set_max (set_min (new_rf dx dy 0 0) mn) (f_max r))) q)
      | Solve rk =>
          do c <- candidate junk solver cond distance use_delta channels rk i (S k);
          Ok (goto k (match c with Some t => AtR t | None => AtTested end) q)
      | AtR c => Ok (mkQ (critical use_delta (q_found q) c) (q_sum q + fst (fst c)) (S (q_nfound q)) (q_tested q) (ParModel.put k AtTested (q_at q)))
      | AtTested => Ok (mkQ (q_found q) (q_sum q) (q_nfound q) (S (q_tested q)) (ParModel.put k Over (q_at q)))
      | Over => Ok q
      end
  end.
(** quadprog_parallel.cpp:170-238 under a schedule *)
Fixpoint acts (i : nat) (sched : list nat) (q : shared) : outcome shared :=
  match sched with [] => Ok q | k :: sched' => do q' <- act i k q; acts i sched' q' end.
(** quadprog_parallel.cpp:164-171: before the loop, with iterations 1 .. i-1 *)
Definition enter_loop (i : nat) (f : rf) : shared := mkQ (mkFound None None f) 0 0 0 (repeat Enter (i - 1)).
(** quadprog_parallel.cpp:238: the end of the loop *)
Definition all_over (q : shared) : bool := forallb (fun s => match s with Over => true | _ => false end) (q_at q).
(** quadprog_parallel.cpp:148-255: as [search], with the schedule of the i-th loop
    in [sched i].  [Ok None]: not ended, here or in one of the loops.  The function
    returned is r. *)
Fixpoint par_search (sched : nat -> list nat) (fuel i max_n step : nat) (f : rf) : outcome (option (bool * rf)) :=
  match fuel with
  | O => Ok None
  | S fuel' =>
      if (i <=? max_n)%nat then
        do q <- acts i (sched i) (enter_loop i f);
        if all_over q then
          match n_delta (q_found q) with
          | Some _ => Ok (Some (true, n_best (q_found q)))
          | None => par_search sched fuel' (i + step) max_n step (n_best (q_found q))
          end
        else Ok None
      else Ok (Some (false, f))
  end.
End Qpar.

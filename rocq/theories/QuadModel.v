(** Model of the interval fitters for rational functions:
    sources/plugins/rational_fitters/quadprog.cpp, quadratic_program.h and
    quadprog_parallel.cpp.  Real numbers; sizes are naturals.  The solver
    (external/quadprog++) is a parameter: from the number of unknowns, the
    columns of CI and ci it returns a vector, or [None] when the cost is infinite (quadprog.cpp:389-394
    also when an entry is NaN or infinite).  The energy G, g it minimises is not
    represented; in quadratic_program.h g is not even initialised. *)
From Coq Require Import Reals List Arith.
From Verif Require Import Base Num ParamsModel GeoModel ArgsModel DataModel TextModel FuncModel MonoModel FuncFile RatModel.
Open Scope R_scope.

(** What d->get(i, x, yl, yu) returns for a vertical segment, for one channel:
    position, lower and upper bound.  p and q only read the position. *)
Definition sample : Type := list R * R * R.

(** Eigen column and coefficient assignment, range checked *)
Fixpoint put_col {A} (l : list A) (i : nat) (x : A) : outcome (list A) :=
  match l, i with
  | [], _ => Abort
  | _ :: t, O => Ok (x :: t)
  | y :: t, S i' => do t' <- put_col t i' x; Ok (y :: t')
  end.

(** r->p(xi, j), j = [j] .. [j+n-1] *)
Fixpoint basis_row (n j : nat) (r : rf1) (cs : list coeff) (x : list R) : outcome (list R) :=
  match n with
  | O => Ok []
  | S n' =>
      match nth_error cs j with
      | None => UB
      | Some c => do b <- basis r x c; do t <- basis_row n' (S j) r cs x; Ok (b :: t)
      end
  end.
(** quadprog.cpp:236-262, quadratic_program.h:246-274 and
    quadprog_parallel.cpp:356-385: the two constraints of a sample *)
Definition constraint (np nq : nat) (r : rf1) (s : sample) : outcome (list R * list R) :=
  let '(x, yl, yu) := s in
  do p <- basis_row np 0 r (r_p r) x;
  do q <- basis_row nq 0 r (r_q r) x;
  Ok (p ++ map (fun qi => - yu * qi) q, map Ropp p ++ map (fun qi => yl * qi) q).
(** quadprog.cpp:211-213, 263-270 *)
Definition norm2 (v : list R) : R := fold_left (fun s t => s + t * t) v 0.

(** quadprog.cpp:221-230: columns of the current sample, and of the next *)
Definition next_slot (M k0 k1 : nat) : nat * nat :=
  let k0' := (k0 + 32)%nat in if (M <=? k0')%nat then (k1, S k1) else (k0', k1).
(** quadprog.cpp:209-270; the least squares matrix Cls is left out *)
Fixpoint fill (np nq M : nat) (r : rf1) (ss : list sample) (k0 k1 : nat) (CI : list (list R)) (ci : list R) : outcome (list (list R) * list R) :=
  match ss with
  | [] => Ok (CI, ci)
  | s :: ss' =>
      do c <- constraint np nq r s;
      do CI1 <- put_col CI (2 * k0) (fst c);
      do CI2 <- put_col CI1 (2 * k0 + 1) (snd c);
      do ci1 <- put_col ci (2 * k0) (- sqrt (norm2 (fst c)));
      do ci2 <- put_col ci1 (2 * k0 + 1) (- sqrt (norm2 (snd c)));
      let (k0', k1') := next_slot M k0 k1 in
      fill np nq M r ss' k0' k1' CI2 ci2
  end.

Section Fit.
Variable junk : R.
(** QuadProg++: number of unknowns, columns of CI, ci *)
Variable solver : nat -> list (list R) -> list R -> option (list R).

(** quadprog.cpp:181-426 fit_data for one channel *)
Definition fit_1d (delta : R) (np nq : nat) (r : rf1) (ss : list sample) : outcome (bool * rf1) :=
  let M := length ss in
  let N := (np + nq)%nat in
  do c <- fill np nq M r ss 0 1 (repeat (repeat 0 N) (2 * M)) (repeat 0 (2 * M));
  match solver N (fst c) (map (fun t => t * delta) (snd c)) with
  | None => Ok (false, r)
  | Some x => do r' <- update junk r (firstn np x) (skipn np x); Ok (rltb 0 (norm2 x), r')
  end.

(** core/rational_function.h:225-240 setSize and clear *)
Definition set_size (f : rf) (np nq : nat) : rf :=
  mkRf (f_dimX f) (f_dimY f) (f_min f) (f_max f) np nq (repeat None (f_dimY f)).
(** quadprog.cpp:160-175: channel [j] onwards; [channels] is what the data
    contains for each channel *)
Fixpoint fit_channels (fit1 : rf1 -> list sample -> outcome (bool * rf1)) (np nq j : nat) (channels : list (list sample)) (f : rf) : outcome (bool * rf) :=
  match channels with
  | [] => Ok (true, f)
  | ss :: channels' =>
      do g <- get junk f j;
      match g with
      | (None, _) => UB
      | (Some r, f') =>
          do b <- fit1 (resize junk r np nq) ss;
          let f'' := set_channel f' j (snd b) in
          if fst b then fit_channels fit1 np nq (S j) channels' f'' else Ok (false, f'')
      end
  end.
(** quadprog.cpp:104-106 one attempt *)
Definition attempt (delta : R) (channels : list (list sample)) (np nq : nat) (f : rf) : outcome (bool * rf) :=
  fit_channels (fit_1d delta np nq) np nq 0 channels (set_size f np nq).
(** quadprog.cpp:99-135; [Ok None]: the loop has not ended after [fuel] rounds *)
Fixpoint try_sizes (try_ : nat -> nat -> rf -> outcome (bool * rf)) (fuel np nq max_np max_nq : nat) (f : rf) : outcome (option (bool * rf)) :=
  match fuel with
  | O => Ok None
  | S fuel' =>
      if ((np <=? max_np) || (nq <=? max_nq))%nat then
        do b <- try_ np nq f;
        if fst b then Ok (Some (true, snd b)) else
        if ((np =? max_np) && (nq =? max_nq))%nat then Ok (Some (false, snd b)) else
        try_sizes try_ fuel' (if (np <? max_np)%nat then S np else np) (if (nq <? max_nq)%nat then S nq else nq) max_np max_nq (snd b)
      else Ok (Some (false, f))
  end.
(** quadprog.cpp:138-146 set_parameters, the bounds; the conversions from
    floating point are left out *)
Record sizes := mkSizes { z_min_np : nat; z_min_nq : nat; z_max_np : nat; z_max_nq : nat }.
Definition set_parameters (np nq min_np min_nq : option nat) : sizes :=
  let d o v := match o with Some n => n | None => v end in
  let max_np := d np 10%nat in
  let max_nq := d nq 10%nat in
  let min_np := d min_np max_np in
  let min_nq := d min_nq max_nq in
  mkSizes min_np min_nq (Nat.max max_np min_np) (Nat.max max_nq min_nq).
(** quadprog.cpp:80-136 fit_data; [mn] and [mx] are the data's domain *)
Definition fit_data (delta : R) (z : sizes) (mn mx : list R) (channels : list (list sample)) (fuel : nat) (f : rf) : outcome (option (bool * rf)) :=
  try_sizes (attempt delta channels) fuel (z_min_np z) (z_min_nq z) (z_max_np z) (z_max_nq z) (set_max (set_min f mn) mx).

(** ** quadratic_program.h *)
(** A quotient in IEEE arithmetic *)
Inductive quotient := Fin (v : R) | Infinite | NotANumber.
Definition quotient_at (r : rf1) (x : list R) : outcome quotient :=
  do p <- combination r x (r_p r) 0;
  do q <- combination r x (r_q r) 0;
  Ok (if Req_EM_T q 0 then if Req_EM_T p 0 then NotANumber else Infinite else Fin (p / q)).
(** y[0] > yu[ny] || y[0] < yl[ny] (quadratic_program.h:166-168) *)
Definition fails (y : quotient) (yl yu : R) : bool :=
  match y with Fin v => rltb yu v || rltb v yl | Infinite => true | NotANumber => false end.
(** quadratic_program.h:170; [None] is infinity *)
Definition deviation (y : quotient) (yl yu : R) : option R :=
  match y with Fin v => Some (Rabs (5 / 10 * (yu + yl) - v)) | _ => None end.
Definition dev_lt (a b : option R) : bool :=
  match a, b with Some u, Some v => rltb u v | Some _, None => true | None, _ => false end.
(** quadratic_program.h:160-181: number of failures and the worst of them, with
    its position in the list *)
Fixpoint worst (np nq : nat) (r : rf1) (pool : list sample) (k nb : nat) (max_dev : option R) (best : option (nat * (list R * list R))) : outcome (nat * option (nat * (list R * list R))) :=
  match pool with
  | [] => Ok (nb, best)
  | (x, yl, yu) :: pool' =>
      do y <- quotient_at r x;
      if fails y yl yu then
        let dev := deviation y yl yu in
        if dev_lt max_dev dev then
          do c <- constraint np nq r (x, yl, yu);
          worst np nq r pool' (S k) (S nb) dev (Some (k, c))
        else worst np nq r pool' (S k) (S nb) max_dev best
      else worst np nq r pool' (S k) nb max_dev best
  end.
Fixpoint remove_nth {A} (i : nat) (l : list A) : list A :=
  match l, i with [], _ => [] | _ :: t, O => t | y :: t, S i' => y :: remove_nth i' t end.
(** quadratic_program.h:150-200 test_constraints: [None] when all is satisfied,
    otherwise the new constraints and training set.  When no failure has a
    positive deviation the iterator that is erased was never set. *)
Definition test_constraints (np nq : nat) (r : rf1) (CI : list (list R)) (pool : list sample) : outcome (option (list (list R) * list sample)) :=
  do w <- worst np nq r pool 0 0 (Some 0) None;
  match w with
  | (O, _) => Ok None
  | (S _, None) => UB
  | (S _, Some (i, c)) => Ok (Some (CI ++ [fst c; snd c], remove_nth i pool))
  end.

(** ** quadprog_parallel.cpp *)
(** condition number of the constraints (use_delta) *)
Variable cond : list (list R) -> R.
(** quadprog_parallel.cpp:323-353 with quadratic_program.h:67-144; [m]: number of
    samples, [solved]: programs solved so far.  When a program has no solution the
    function object is updated with unset or old coefficients and discarded by the
    caller; this is left out.  [Ok None]: not ended after [fuel] rounds. *)
Fixpoint qp_loop (fuel : nat) (use_delta : bool) (np nq m : nat) (r : rf1) (CI : list (list R)) (pool : list sample) (delta : R) (solved : nat) : outcome (option (bool * rf1 * R * nat)) :=
  match fuel with
  | O => Ok None
  | S fuel' =>
      let delta := if use_delta then cond CI else delta in
      match solver (np + nq)%nat CI (map (fun c => - delta * sqrt (norm2 c)) CI) with
      | None => Ok (Some (false, r, delta, S solved))
      | Some x =>
          do r' <- update junk r (firstn np x) (skipn np x);
          if rltb 0 (norm2 x) then
            do t <- test_constraints np nq r' CI pool;
            match t with
            | None => Ok (Some (true, r', delta, S solved))
            | Some (CI', pool') =>
                if (length CI' <? 2 * m)%nat then qp_loop fuel' use_delta np nq m r' CI' pool' delta (S solved)
                else Ok (Some (false, r', delta, S solved))
            end
          else Ok (Some (false, r', delta, S solved))
      end
  end.
(** quadprog_parallel.cpp:296-321: every di-th sample is a constraint from the
    start; the number of starting points is the member 100, whatever the option *)
Fixpoint split (np nq di i : nat) (r : rf1) (ss : list sample) : outcome (list (list R) * list sample) :=
  match ss with
  | [] => Ok ([], [])
  | s :: ss' =>
      if (i mod di =? 0)%nat then
        do c <- constraint np nq r s;
        do t <- split np nq di (S i) r ss'; Ok (fst c :: snd c :: fst t, snd t)
      else do t <- split np nq di (S i) r ss'; Ok (fst t, s :: snd t)
  end.
Definition nb_starting_points : nat := 100.
Definition stride (m : nat) : nat := Nat.max (Nat.div (m - 1) (nb_starting_points - 1)) 1.
Definition parallel_1d (use_delta : bool) (fuel np nq : nat) (r : rf1) (ss : list sample) (delta : R) : outcome (option (bool * rf1 * R * nat)) :=
  do s <- split np nq (stride (length ss)) 0 r ss;
  qp_loop fuel use_delta np nq (length ss) r (fst s) (snd s) delta 0.
(** ** The search of quadprog_parallel.cpp *)
(** quadprog_parallel.cpp:263-287: one pair of sizes, channel [j] onwards; the
    second update with the same p and q is left out *)
Fixpoint par_channels (use_delta : bool) (np nq j : nat) (channels : list (list sample)) (f : rf) (delta : R) : outcome (bool * rf * R) :=
  match channels with
  | [] => Ok (true, f, delta)
  | ss :: channels' =>
      do g <- get junk f j;
      match g with
      | (None, _) => UB
      | (Some r, f') =>
          do b <- parallel_1d use_delta (S (length ss)) np nq (resize junk r np nq) ss delta;
          match b with
          | None => Abort
          | Some (ok, r', delta', _) =>
              let f'' := set_channel f' j r' in
              if ok then par_channels use_delta np nq (S j) channels' f'' delta' else Ok (false, f'', delta')
          end
      end
  end.
(** The L2 distance to the data; [None] when it is not finite *)
Variable distance : rf -> option R.
(** quadprog_parallel.cpp:171-204: what iteration j computes on its own; rk is a
    new function with the domain of r, which no iteration changes *)
Definition candidate (use_delta : bool) (channels : list (list sample)) (f : rf) (i j : nat) : outcome (option (R * option R * rf)) :=
  do t <- par_channels use_delta (i - j) j 0 channels (set_size f (i - j) j) 1;
  match t with
  | (true, rk, delta) => Ok (Some (delta, distance rk, rk))
  | (false, _, _) => Ok None
  end.
(** quadprog_parallel.cpp:164-165: [None] is the largest double *)
Record found := mkFound { n_delta : option R; n_l2 : option R; n_best : rf }.
(** quadprog_parallel.cpp:207-228 the critical section; r becomes a copy of rk.
    The counters and the messages are left out. *)
Definition critical (use_delta : bool) (st : found) (c : R * option R * rf) : found :=
  let '(delta, l2, rk) := c in
  if (use_delta && dev_lt (Some delta) (n_delta st)) || (negb use_delta && dev_lt l2 (n_l2 st))
  then mkFound (Some delta) l2 rk else st.
(** quadprog_parallel.cpp:170-238: the iterations in the order in which their
    critical sections are executed *)
Fixpoint parallel_for (use_delta : bool) (channels : list (list sample)) (f : rf) (i : nat) (order : list nat) (st : found) : outcome found :=
  match order with
  | [] => Ok st
  | j :: order' =>
      do c <- candidate use_delta channels f i j;
      parallel_for use_delta channels f i order' (match c with Some t => critical use_delta st t | None => st end)
  end.
(** quadprog_parallel.cpp:148-255: the sizes i, i+step, ... up to [max_n];
    [order i] is the schedule of the i-th parallel loop.  [Ok None]: not ended. *)
Fixpoint search (use_delta : bool) (channels : list (list sample)) (order : nat -> list nat) (fuel i max_n step : nat) (f : rf) : outcome (option (bool * rf)) :=
  match fuel with
  | O => Ok None
  | S fuel' =>
      if (i <=? max_n)%nat then
        do st <- parallel_for use_delta channels f i (order i) (mkFound None None f);
        match n_delta st with
        | Some _ => Ok (Some (true, n_best st))
        | None => search use_delta channels order fuel' (i + step) max_n step f
        end
      else Ok (Some (false, f))
  end.
End Fit.

(** ** quadprog_parallel.cpp:101-130: the automatic conversion *)
(** an array of n uninitialised doubles is [repeat None n] *)
Fixpoint store (l : list (option R)) (i : nat) (v : list R) : outcome (list (option R)) :=
  match v with
  | [] => Ok l
  | t :: v' => do l' <- put_col l i (Some t); store l' (S i) v'
  end.
(** one sample of size dimX + dimY, starting at content[i] *)
Definition store_sample (dx : nat) (dt : R) (l : list (option R)) (i : nat) (x : list R) : outcome (list (option R)) :=
  do l1 <- store l i x;
  do l2 <- store l1 (i + length x) (map (fun y => (1 - dt) * y) (skipn dx x));
  store l2 (i + length x + (length x - dx)) (map (fun y => (1 + dt) * y) (skipn dx x)).
Fixpoint store_samples (dx : nat) (dt : R) (l : list (option R)) (i : nat) (xs : list (list R)) : outcome (list (option R)) :=
  match xs with
  | [] => Ok l
  | x :: xs' => do l' <- store_sample dx dt l i x; store_samples dx dt l' (S i) xs'
  end.
Definition convert (dx dy : nat) (dt : R) (xs : list (list R)) : outcome (list (option R)) :=
  store_samples dx dt (repeat None (length xs * (dx + 3 * dy))) 0 xs.

(** Model of the least squares fitters for rational functions:
    sources/plugins/rational_fitters/eigen.cpp and leastsquare.cpp.  Real numbers;
    sizes are naturals.  The decompositions of the Eigen library are parameters:
    the eigenvalues and eigenvectors of a symmetric matrix (SelfAdjointEigenSolver),
    [None] when it reports a failure, and the solution of an overdetermined
    system (colPivHouseholderQr). *)
From Coq Require Import Reals List Arith.
From Verif Require Import Base Num ParamsModel GeoModel ArgsModel DataModel TextModel FuncModel MonoModel FuncFile RatModel QuadModel.
Open Scope R_scope.

(** A sample of one channel: d->get(i), of which p and q read the position only,
    and its value v[dimX + ny] *)
Definition point : Type := list R * R.

(** eigen.cpp:110-119, leastsquare.cpp:107-117: a channel per output of the data; a
    function with fewer outputs gives a null pointer *)
Fixpoint lsq_channels (junk : R) (fit1 : rf1 -> list point -> outcome (bool * rf1)) (j : nat) (channels : list (list point)) (f : rf) : outcome (bool * rf) :=
  match channels with
  | [] => Ok (true, f)
  | ss :: channels' =>
      do g <- get junk f j;
      match g with
      | (None, _) => UB
      | (Some r, f') =>
          do b <- fit1 r ss;
          let f'' := set_channel f' j (snd b) in
          if fst b then lsq_channels junk fit1 (S j) channels' f'' else Ok (false, f'')
      end
  end.
(** eigen.cpp:74-83, leastsquare.cpp:69-83 *)
Definition lsq_fit (junk : R) (fit1 : nat -> nat -> rf1 -> list point -> outcome (bool * rf1)) (np nq : nat) (mn mx : list R) (channels : list (list point)) (f : rf) : outcome (bool * rf) :=
  lsq_channels junk (fit1 np nq) 0 channels (set_size (set_max (set_min f mn) mx) np nq).

Fixpoint rsum (l : list R) : R := match l with [] => 0 | x :: t => x + rsum t end.
(** scalar product, as in a matrix product *)
Definition inner (a b : list R) : R := rsum (map (fun p => fst p * snd p) (combine a b)).

(** ** eigen.cpp *)
Section Eigen.
Variable junk : R.
(** eigenvalues()[i] and eigenvectors().col(i), in the order of the solver *)
Variable eigs : list (list R) -> option (list (R * list R)).

(** eigen.cpp:136-152: a column of CI, [p_j(x_i)] then [-y_i q_j(x_i)] *)
Definition e_column (np nq : nat) (r : rf1) (s : point) : outcome (list R) :=
  let (x, y) := s in
  do p <- basis_row np 0 r (r_p r) x;
  do q <- basis_row nq 0 r (r_q r) x;
  Ok (p ++ map (fun qi => - y * qi) q).
Fixpoint e_columns (np nq : nat) (r : rf1) (ss : list point) : outcome (list (list R)) :=
  match ss with [] => Ok [] | s :: ss' => do c <- e_column np nq r s; do t <- e_columns np nq r ss'; Ok (c :: t) end.
(** eigen.cpp:159: CI * CI.transpose(), from the columns of CI *)
Definition gram (n : nat) (cols : list (list R)) : list (list R) :=
  map (fun a => map (fun b => rsum (map (fun c => nth a c 0 * nth b c 0) cols)) (seq 0 n)) (seq 0 n).
(** std::numeric_limits<double>::max() *)
Definition double_max : R := (2 - / 2 ^ 52) * 2 ^ 1023.
(** eigen.cpp:179-189 *)
Fixpoint min_loop (l : list (R * list R)) (i min_id : nat) (min_val : R) : nat * R :=
  match l with
  | [] => (min_id, min_val)
  | (value, _) :: l' => if rleb 0 value && rltb value min_val then min_loop l' (S i) i value else min_loop l' (S i) min_id min_val
  end.
(** eigen.cpp:126-209 fit_data for one channel *)
Definition eigen_1d (np nq : nat) (r : rf1) (ss : list point) : outcome (bool * rf1) :=
  do cols <- e_columns np nq r ss;
  match eigs (gram (np + nq) cols) with
  | None => Ok (false, r)
  | Some l =>
      let (min_id, min_val) := min_loop l 0 0 double_max in
      if Req_EM_T min_val double_max then Ok (false, r) else
      match nth_error l min_id with
      | None => Abort
      | Some (_, v) => do r' <- update junk r (firstn np v) (skipn (length v - nq) v); Ok (true, r')
      end
  end.
End Eigen.

(** ** leastsquare.cpp *)
Section LeastSquare.
Variable junk : R.
(** A.colPivHouseholderQr().solve(b): number of columns, rows, right hand side *)
Variable qr : nat -> list (list R) -> list R -> list R.
(** what it gives when the matrix contains infinities or NaNs *)
Variable wild : nat -> list R.

(** leastsquare.cpp:140-152: a row of D, its p and its q part *)
Definition l_row (np nq : nat) (r : rf1) (s : point) : outcome (list R * list R) :=
  do p <- basis_row np 0 r (r_p r) (fst s);
  do q <- basis_row nq 0 r (r_q r) (fst s);
  Ok (p, q).
Fixpoint l_rows (np nq : nat) (r : rf1) (ss : list point) : outcome (list (list R * list R)) :=
  match ss with [] => Ok [] | s :: ss' => do c <- l_row np nq r s; do t <- l_rows np nq r ss'; Ok (c :: t) end.
(** leastsquare.cpp:168-177: the new denominator *)
Definition step1 (nq : nat) (D : list (list R * list R)) (Y p : list R) : list R :=
  qr nq (map (fun t => map (fun u => snd t * snd t * u) (snd (fst t))) (combine D Y))
        (map (fun t => snd t * inner (fst (fst t)) p) (combine D Y)).
(** leastsquare.cpp:201-205: the new numerator *)
Definition step2 (np : nat) (D : list (list R * list R)) (Y q : list R) : list R :=
  if existsb (fun d => if Req_EM_T (inner (snd d) q) 0 then true else false) D then wild np
  else qr np (map (fun d => map (fun u => / inner (snd d) q * u) (fst d)) D) Y.
(** leastsquare.cpp:163-213: numerator and denominator *)
Fixpoint iterate (n np nq : nat) (D : list (list R * list R)) (Y p q : list R) : list R * list R :=
  match n with
  | O => (p, q)
  | S n' => let q' := step1 nq D Y p in iterate n' np nq D Y (step2 np D Y q') q'
  end.
(** leastsquare.cpp:124-243 fit_data for one channel; the scale is 1.  pq(0) is
    range checked. *)
Definition lsq_1d (max_iter np nq : nat) (r : rf1) (ss : list point) : outcome (bool * rf1) :=
  do D <- l_rows np nq r ss;
  do pq <- put_col (repeat 0 np ++ repeat junk nq) 0 1;
  let (p, q) := iterate max_iter np nq D (map snd ss) (firstn np pq) (skipn np pq) in
  do r' <- update junk r p q;
  Ok (true, r').
End LeastSquare.

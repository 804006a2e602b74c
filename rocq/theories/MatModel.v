(** Model of sources/plugins/rational_fitter_matlab/rational_fitter.cpp: interval
    fitting of rational functions with a quadratic program solved in a Matlab
    session.  Real numbers; sizes are naturals.  What Matlab computes is a
    parameter: [quadprog] and [qpas] give x with a flag, or x with an error
    number, or [None] when the statement stops on an error.  Sending the matrices
    to the session is taken to succeed.  *)
From Coq Require Import Reals List Arith.
From Verif Require Import Base Num ParamsModel GeoModel ArgsModel DataModel TextModel FuncModel MonoModel FuncFile RatModel QuadModel.
Open Scope R_scope.

(** The variables x, flag and err of the session; [None]: not assigned yet *)
Record engine := mkEngine { e_x : option (list R); e_flag : option R; e_err : option R }.
Definition new_engine : engine := mkEngine None None None.

Section Matlab.
Variable junk : R.
Variable quadprog qpas : nat -> list (list R) -> list R -> option (list R * R).
(** smallest over largest singular value of the constraints; [None]: not a number
    or infinite *)
Variable ratio : list (list R) -> option R.

(** rational_fitter_matlab/rational_fitter.cpp:292-310: a statement that stops on
    an error assigns nothing; the statement after it is evaluated anyway.
    Simplification: the two changes of directory around qpas are left out. *)
Definition evaluate (use_matlab : bool) (n : nat) (A : list (list R)) (b : list R) (e : engine) : engine :=
  if use_matlab then
    match quadprog n A b with
    | Some (x, v) => mkEngine (Some x) (Some v) (e_err e)
    | None => e
    end
  else
    let e1 := match qpas n A b with
              | Some (x, v) => mkEngine (Some x) (e_flag e) (Some v)
              | None => e
              end in
    match e_err e1 with
    | Some v => mkEngine (e_x e1) (Some (if Req_EM_T v 0 then 1 else 0)) (Some v)
    | None => e1
    end.

(** rational_fitter_matlab/rational_fitter.cpp:165-214: two rows per sample *)
Fixpoint mat_rows (np nq : nat) (r : rf1) (ss : list sample) : outcome (list (list R)) :=
  match ss with
  | [] => Ok []
  | s :: ss' =>
      do c <- constraint np nq r s;
      do t <- mat_rows np nq r ss';
      Ok (fst c :: snd c :: t)
  end.

(** rational_fitter_matlab/rational_fitter.cpp:135-381 fit_data for one channel.
    An index -1 in the singular values stops the program. *)
Definition mat_1d (use_matlab : bool) (np nq : nat) (e : engine) (r : rf1) (ss : list sample) : outcome (bool * rf1 * engine) :=
  let N := (np + nq)%nat in
  do A <- mat_rows np nq r ss;
  if (Nat.min (length A) N =? 0)%nat then Abort else
  match ratio A with
  | None => Ok (false, r, e)
  | Some d =>
      let delta := if rltb d (1 / 10 ^ 6) then 1 else d in
      let e' := evaluate use_matlab N A (map (fun row => - sqrt (norm2 row) * delta) A) e in
      match e_x e', e_flag e' with
      | Some x, Some v =>
          if rltb v 0 then Ok (false, r, e')
          else if (length x <? N)%nat then UB
          else do r' <- update junk r (firstn np x) (firstn nq (skipn np x)); Ok (true, r', e')
      | _, _ => Ok (false, r, e')
      end
  end.
(** rational_fitter_matlab/rational_fitter.cpp:113-129 fit_data: channel [j]
    onwards *)
Fixpoint mat_channels (use_matlab : bool) (np nq j : nat) (channels : list (list sample)) (f : rf) (e : engine) : outcome (bool * rf * engine) :=
  match channels with
  | [] => Ok (true, f, e)
  | ss :: channels' =>
      do g <- get junk f j;
      match g with
      | (None, _) => UB
      | (Some r, f') =>
          do b <- mat_1d use_matlab np nq e (resize junk r np nq) ss;
          let '(ok, r', e') := b in
          let f'' := set_channel f' j r' in
          if ok then mat_channels use_matlab np nq (S j) channels' f'' e' else Ok (false, f'', e')
      end
  end.
(** rational_fitter_matlab/rational_fitter.cpp:76-78 one attempt *)
Definition mat_attempt (use_matlab : bool) (channels : list (list sample)) (np nq : nat) (f : rf) (e : engine) : outcome (bool * rf * engine) :=
  mat_channels use_matlab np nq 0 channels (set_size f np nq) e.
(** rational_fitter_matlab/rational_fitter.cpp:70-100 the search; [Ok None]: not
    ended after [fuel] rounds *)
Fixpoint mat_sizes (try_ : nat -> nat -> rf -> engine -> outcome (bool * rf * engine)) (fuel np nq max_np max_nq : nat) (f : rf) (e : engine) : outcome (option (bool * rf * engine)) :=
  match fuel with
  | O => Ok None
  | S fuel' =>
      if ((np <=? max_np) || (nq <=? max_nq))%nat then
        do b <- try_ np nq f e;
        let '(ok, f', e') := b in
        if ok then Ok (Some b) else
        mat_sizes try_ fuel' (if (np <=? max_np)%nat then S np else np) (if (nq <=? max_nq)%nat then S nq else nq) max_np max_nq f' e'
      else Ok (Some (false, f, e))
  end.
(** rational_fitter_matlab/rational_fitter.cpp:49-101 fit_data; [accepted]: a
    rational function, data with asymmetric intervals and a session that was
    opened; [mn] and [mx] are the data's domain, the dimensions of the function
    are those of the data.  The sizes come from OptModel.matlab_set_parameters. *)
Definition mat_fit (accepted use_matlab : bool) (z : sizes) (mn mx : list R) (channels : list (list sample)) (fuel : nat) (f : rf) (e : engine) : outcome (option (bool * rf * engine)) :=
  if accepted then
    mat_sizes (mat_attempt use_matlab channels) fuel (z_min_np z) (z_min_nq z) (z_max_np z) (z_max_nq z) (set_max (set_min f mn) mx) e
  else Ok (Some (false, f, e)).
End Matlab.

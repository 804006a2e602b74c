(** Model of sources/core/plugins_manager.cpp (Linux branches): library names,
    the search path, opening a plugin, and building function objects from a
    command line.  The file system and the dynamic loader are parameters. *)
From Coq Require Import Reals List.
From Verif Require Import Base ArgsModel ParamsModel GeoModel CommonModel FuncModel.
Open Scope list_scope.
Open Scope nat_scope.

(** plugins_manager.cpp:33-60 library_name.  [name.substr(n-2, n)] throws
    std::out_of_range when n < 2 (the position wraps around). *)
Definition library_name (name : str) : outcome str :=
  let n := List.length name in
  if n <? 2 then Throw
  else if negb (str_eqb (skipn (n - 2) name) (lit "so"))
  then Ok (lit "lib" ++ name ++ lit ".so")
  else Ok name.

(** plugins_manager.cpp:84-102: one turn of the loop per call.  [s] is the text
    from [start] on; find(':', start) splits it. [fuel] bounds the turns. *)
Fixpoint search_loop (sysdir : str) (fuel : nat) (s : str) : list str :=
  match fuel with
  | O => []
  | S fuel' =>
      match s with
      | [] => []                                    (* start < size() fails *)
      | _ =>
          match find_char ":" s with
          | None => [s]                             (* next = size() *)
          | Some (a, b) =>
              (match a with [] => sysdir | _ => a end)
              :: match b with
                 | [] => [sysdir]                   (* next == size() - 1 *)
                 | _ => search_loop sysdir fuel' b
                 end
          end
      end
  end.

(** plugins_manager.cpp:65-103 plugin_search_path; [env] is getenv's result *)
Definition plugin_search_path (sysdir : str) (env : option str) : list str :=
  let s := match env with None => [] | Some e => e end in
  match s with
  | [] => [sysdir]
  | _ => search_loop sysdir (S (List.length s)) s
  end.

(** plugins_manager.cpp:109-176 open_library.  [libs path] is [None] when dlopen
    fails, otherwise the value of dlsym for the requested symbol.  A failed
    dlopen leaves a pending error; [sticky] says whether a later successful dl
    call keeps it (POSIX, musl) or drops it (glibc), which matters because the
    code looks at dlerror() to learn whether dlsym failed. *)
Section Open.
Context {T : Type}.
Variable sticky : bool.
Variable libs : str -> option (option T).
Fixpoint open_loop (dirs : list str) (filename : str) (pending : bool) : outcome (option T) :=
  match dirs with
  | [] => Ok None
  | d :: ds =>
      do n <- library_name filename;
      match libs (d ++ lit "/" ++ n) with
      | None => open_loop ds filename true
      | Some None => open_loop ds filename false
      | Some (Some f) => if sticky && pending then open_loop ds filename false else Ok (Some f)
      end
  end.
Definition open_library (dirs : list str) (filename : str) : outcome (option T) :=
  open_loop dirs filename false.
End Open.

(** Objects a plugin or get_function can return. *)
Inductive fobj :=
| Null
| Rational (p : parameters)
| Nonlinear (t : tree)
| Other (id : nat).

(** dynamic_cast<nonlinear_function*> *)
Definition as_nonlinear (f : fobj) : option tree :=
  match f with Nonlinear t => Some t | _ => None end.

(** function.cpp:461-505: the compound constructor applied to a vector that may
    hold null pointers; reading through one is undefined behaviour. *)
Fixpoint non_null (l : list (option (bool * tree))) : list (bool * tree) :=
  match l with Some f :: l' => f :: non_null l' | _ => [] end.
Definition make_compound_ptrs (l : list (option (bool * tree))) : outcome tree :=
  match l with
  | [] => Abort
  | None :: _ => UB
  | Some f :: _ =>
      do p <- compound_parameters_loop (par_of (snd f)) (map (fun g => par_of (snd g)) (non_null l));
      if List.length (non_null l) =? List.length l then Ok (Compound p (non_null l)) else UB
  end.

Section GetFunction.
(** ALTA_PLUGIN_DIRECTORY, ALTA_PLUGIN_PATH, and the shared objects with their
    provide_function symbols. *)
Variable sysdir : str.
Variable env : option str.
Variable libs : str -> option (option (parameters -> fobj)).

Definition open_function (n : str) : outcome (option (parameters -> fobj)) :=
  open_library false libs (plugin_search_path sysdir env) n.

(** plugins_manager.cpp:273-298: one sub-function per vector element *)
Definition elements (rec : arguments -> parameters -> outcome fobj) (par : parameters) :=
  fix loop (l : list str) : outcome (list (option (bool * tree))) :=
    match l with
    | [] => Ok []
    | e :: l' =>
        do temp_args <- create_arguments (lit "--func " ++ e);
        do f <- rec temp_args par;
        do r <- loop l';
        Ok (match as_nonlinear f with
            | Some t => Some (is_defined temp_args (lit "fixed"), t)
            | None => None
            end :: r)
    end.

(** plugins_manager.cpp:254-327: the object named by --func; [inr] is an
    early return *)
Definition base_function (rec : arguments -> parameters -> outcome fobj) (args : arguments) (par : parameters)
  : outcome (fobj + fobj) :=
  if is_vec args (lit "func") then
    match get_vec_str args (lit "func") with
    | [] => Ok (inr Null)
    | l => do fs <- elements rec par l; do c <- make_compound_ptrs fs; Ok (inl (Nonlinear c))
    end
  else
    do p <- open_function (at_key args (lit "func"));
    match p with
    | Some provide => Ok (inl (provide par))
    | None => Ok (inr (Rational par))
    end.

(** plugins_manager.cpp:330-400: the Fresnel factor *)
Definition fresnel_factor (rec : arguments -> parameters -> outcome fobj) (args : arguments) (par : parameters)
  (func : fobj) : outcome fobj :=
  if negb (is_defined args (lit "fresnel")) then Ok func
  else
    match as_nonlinear func with
    | None => Ok func
    | Some nl_func =>
        let v := at_key args (lit "fresnel") in
        if negb (is_vec args (lit "fresnel")) && str_eqb v [] then Ok func
        else
          let n := lit "--func " ++ (if is_vec args (lit "fresnel") then removelast (tl v) else v) in
          do fargs <- create_arguments n;
          do g <- rec fargs par;
          match as_nonlinear g with
          | Some func_fres =>
              Ok (Nonlinear (make_product nl_func func_fres
                    (is_defined args (lit "fixed-lobe")) (is_defined args (lit "fixed-fresnel"))))
          | None => Ok func
          end
    end.

(** plugins_manager.cpp:235-415 get_function(args, params), with the recursive
    calls abstracted as [rec] *)
Definition get_function_body (rec : arguments -> parameters -> outcome fobj) (args : arguments) (par : parameters)
  : outcome fobj :=
  if negb (is_defined args (lit "func")) then Ok (Rational par)
  else
    do r <- base_function rec args par;
    match r with
    | inr f => Ok f
    | inl func => fresnel_factor rec args par func
    end.

(** Recursion to depth [fuel], with result [stuck] below it. *)
Fixpoint get_function_n (stuck : outcome fobj) (fuel : nat) (args : arguments) (par : parameters) : outcome fobj :=
  match fuel with
  | O => stuck
  | S fuel' => get_function_body (get_function_n stuck fuel') args par
  end.
(** Length of the texts the recursive calls are made from. *)
Definition nesting (args : arguments) : nat :=
  List.length (at_key args (lit "func")) + List.length (at_key args (lit "fresnel")).
Definition get_function (args : arguments) (par : parameters) : outcome fobj :=
  get_function_n UB (S (nesting args)) args par.

(** plugins_manager.cpp:418-446 get_function(name, params) *)
Definition get_function_by_name (n : str) (par : parameters) : outcome fobj :=
  match n with
  | [] => Ok Null
  | _ =>
      if str_eqb n (lit "rational_function") then Ok (Rational par)
      else do p <- open_function n;
           match p with Some provide => Ok (provide par) | None => Ok Null end
  end.
End GetFunction.

(** plugins_manager.cpp:449-474 get_data and 534-557 get_fitter: [None] is a
    null pointer, [dflt] the vertical_segment object. *)
Definition get_data {D} (sysdir : str) (env : option str) (libs : str -> option (option D)) (dflt : D) (n : str)
  : outcome (option D) :=
  if str_eqb n [] || str_eqb n (lit "vertical_segment") then Ok (Some dflt)
  else open_library false libs (plugin_search_path sysdir env) n.
Definition get_fitter {D} (sysdir : str) (env : option str) (libs : str -> option (option D)) (n : str)
  : outcome (option D) :=
  match n with [] => Ok None | _ => open_library false libs (plugin_search_path sysdir env) n end.

(** data.h:139-154 data_params constructor: the sample vector stays empty
    (TODO in the source), and the constructor saves the object, which reads
    every sample: undefined behaviour unless there are none. *)
Definition reparametrize (d : parameters) (size : nat) (p : input) : outcome parameters :=
  let r := mkParameters (Z.to_nat (dimension_in p)) (dimY d) p (out_param d) in
  if size =? 0 then Ok r else UB.

(** plugins_manager.cpp:559-613 check_compatibility.  [d], [f]: parametrizations
    of the data and of the function; result: those after the call. *)
Definition check_compatibility (d : parameters) (size : nat) (f : parameters) (args : arguments)
  : outcome (parameters * parameters) :=
  do r <-
    (if input_eqb (in_param d) UNKNOWN_INPUT && input_eqb (in_param f) UNKNOWN_INPUT then Ok (d, f)
     else if input_eqb (in_param f) UNKNOWN_INPUT
          then Ok (d, mkParameters (dimX f) (dimY f) (in_param d) (out_param f))
          else if negb (input_eqb (in_param d) (in_param f)) && is_defined args (lit "change-param")
               then do d' <- reparametrize d size (in_param f); Ok (d', f)
               else Ok (d, f));
  let '(d', f') := r in
  if negb (dimY f' =? dimY d') then Abort else Ok (d', f').

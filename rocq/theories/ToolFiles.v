(** Function files as the programs write and read them: any function object that
    plugins_manager::get_function can build (C108).  Conversions between numbers and
    text, the functions that are neither rational nor nonlinear and the plugin
    libraries are parameters. *)
From Coq Require Import Reals List ZArith.
From Verif Require Import Base Num ParamsModel GeoModel ArgsModel DataModel TextModel FuncModel FuncFile PlugModel MonoModel RatModel ToolModel.

Inductive fun_obj :=
| ORat (p : parameters) (f : rf)
| ONl (t : tree)
| OOther (id : nat).

Section Files.
Variable junk : R.
Variable lex : str -> option (R * str).
Variable print : R -> str.
Variable sysdir : str.
Variable env : option str.
Variable libs : str -> option (option (parameters -> fobj)).
(** the objects of other classes: their parameters, loading and text *)
Variable other_par : nat -> parameters.
Variable other_load : nat -> istream -> outcome (bool * nat).
Variable other_text : nat -> str * outcome unit.

(** plugins_manager.cpp:235-415 get_function, see PlugModel; a rational function is
    new and has no channel (rational_function.cpp:533-538, np = nq = 0) *)
Definition get_object (a : arguments) (p : parameters) : outcome (option fun_obj) :=
  do o <- get_function sysdir env libs a p;
  Ok (match o with
      | Null => None
      | Rational p => Some (ORat p (new_rf (dimX p) (dimY p) 0 0))
      | Nonlinear t => Some (ONl t)
      | Other i => Some (OOther i)
      end).
Definition object_par (o : fun_obj) : parameters :=
  match o with ORat p _ => p | ONl t => par_of t | OOther i => other_par i end.
(** rational_function.cpp:619-676, function.cpp:287-330, 520-537, 879-904: the virtual function load *)
Definition load_object (o : fun_obj) (s : istream) : outcome (bool * fun_obj) :=
  match o with
  | ORat p f => do r <- load_rf junk lex f s; let '(b, g, _) := r in Ok (b, ORat p g)
  | ONl t => do r <- load lex t s; let '(b, g, _) := r in Ok (b, ONl g)
  | OOther i => do r <- other_load i s; let '(b, j) := r in Ok (b, OOther j)
  end.
(** plugins_manager.cpp:179-231 load_function, on the content of the file *)
Definition read_object (file : str) : outcome (option fun_obj) :=
  let (line, s) := getline file in
  if negb (str_eqb line "#ALTA FUNC HEADER"%string) then Ok None else
  let (header, s1) := (if good s then parse_header_loop (S (length (rest s))) s [] else ([], s)) in
  match get_pair_int header "DIM"%string with
  | None => UB
  | Some (zx, zy) =>
      let pin := parse_input (get_string header "PARAM_IN"%string "UNKNOWN_INPUT"%string) in
      let pout := parse_output (get_string header "PARAM_OUT"%string "UNKNOWN_OUTPUT"%string) in
      do args <- create_arguments (match map_find "CMD"%string header with Some v => v | None => [] end);
      do f <- get_object args (mkParameters (Z.to_nat zx) (Z.to_nat zy) pin pout);
      match f with
      | None => UB                                  (* f->load *)
      | Some f =>
          do r <- load_object f s1;
          let '(b, g) := r in Ok (if b : bool then Some g else None)
      end
  end.

(** function.cpp:50-147 function::save in the alta format: without --export, or with
    --export alta.  [call]: what save_body and save_call write. *)
Definition alta_text (a : arguments) (p : parameters) (call : str * outcome unit) : str * outcome unit :=
  let head := if is_defined a (lit "export") then [] else
    endl (lit "#ALTA FUNC HEADER") ++ endl (lit "#CMD " ++ get_cmd a) ++
    endl (lit "#DIM " ++ print_nat (dimX p) ++ lit " " ++ print_nat (dimY p)) ++
    endl (lit "#PARAM_IN  " ++ get_name_in (in_param p)) ++
    (if is_defined a (lit "export-append") then endl (at_key a (lit "export-append")) else []) ++
    endl (lit "#ALTA HEADER END") ++ endl [] in
  match snd call with
  | Ok _ => (head ++ fst call ++ endl [], Ok tt)
  | e => (head ++ fst call, e)
  end.
(** function.cpp:332-349, 774-813, 906-949: with --export a nonlinear function
    writes no parameter; rational_function.cpp:680-707: what was written before a
    failure is left out *)
Definition object_text (o : fun_obj) (a : arguments) : str * outcome unit :=
  alta_text a (object_par o)
    match o with
    | ONl t => (save_body t ++ (if is_defined a (lit "export") then [] else save_call print t), Ok tt)
    | ORat _ f => match save_rf print f with
                  | Ok t => (t, Ok tt)
                  | Throw => ([], Throw)
                  | Abort => ([], Abort)
                  | UB => ([], UB)
                  end
    | OOther i => other_text i
    end.

(** a world where functions are built, read and saved by this code *)
Definition alta_format (a : arguments) : Prop := map_find (lit "export") a = None \/ map_find (lit "export") a = Some (lit "alta").
Definition real_files {D Ft} (w : world D fun_obj Ft) : Prop :=
  (forall a p, w_get_function w a p = get_object a p) /\
  (forall c, w_read_function w c = read_object c) /\
  (forall f a, alta_format a -> w_function_text w f a = object_text f a).
End Files.

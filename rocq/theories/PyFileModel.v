(** Model of function files in Python: save, load and load_function
    (sources/python/alta.cpp, wrapper_args.h), over the function objects of ToolFiles. *)
From Coq Require Import Reals List ZArith.
From Verif Require Import Base Num ParamsModel GeoModel ArgsModel DataModel TextModel FuncModel FuncFile PlugModel MonoModel RatModel ToolModel ToolFiles.

Section PyFiles.
Variable junk : R.
Variable lex : str -> option (R * str).
Variable print : R -> str.
Variable sysdir : str.
Variable env : option str.
Variable libs : str -> option (option (parameters -> fobj)).
Variable other_par : nat -> parameters.
Variable other_load : nat -> istream -> outcome (bool * nat).
Variable other_text : nat -> str * outcome unit.

(** alta.cpp:77-94 load_from_file_with_args and 95-99 load_from_file (f.load(name),
    f.load(name, args)): what the object is afterwards.  [file]: the content of the
    file, None when it cannot be opened; what load answers is dropped. *)
Definition py_load (file : option str) (o : fun_obj) : outcome fun_obj :=
  match file with
  | None => Ok o
  | Some text => let (_, s) := parse_header text in do r <- load_object junk lex other_load o s; Ok (snd r)
  end.
(** alta.cpp:66-71 load_function(name), load_function(name, args); None in Python
    when no function is loaded.  plugins_manager.cpp:179-187 *)
Definition py_load_function (file : option str) : outcome (option fun_obj) :=
  match file with None => Ok None | Some text => read_object junk lex sysdir env libs other_load text end.
(** alta.cpp:189-192 save_function_without_args (f.save(name)): the text written, and
    how writing it ends *)
Definition py_save (o : fun_obj) : str * outcome unit := object_text print other_par other_text o [].
(** alta.cpp:317 f.save(name, args) is function::save(const std::string&, const
    alta::arguments&); wrapper_args.h:55 registers python_arguments without its base
    class, so pybind11 has no conversion to alta::arguments: TypeError *)
Definition py_save_with_args (o : fun_obj) (args : arguments) : outcome str := Throw.
End PyFiles.

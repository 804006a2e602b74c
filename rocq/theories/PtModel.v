(** Model of the function files of trees of plugins: compound_function and
    product_function over the plugins of PfModel.v, and the whole file with its
    header.  Only nonlinear functions are members of a compound or a product
    (sources/core/plugins_manager.cpp get_function). *)
From Coq Require Import Reals List ZArith.
From Verif Require Import Base Num ParamsModel GeoModel ArgsModel DataModel TextModel FuncModel FuncFile PfModel.
Open Scope R_scope.

Inductive ptree := PLeaf (f : pfun) | PSum (fs : list ptree) | PProd (f g : ptree).

(** plugins/nonlinear_function_lafortune/function.cpp:494-502 save_body: the shader
    code is written whatever the format *)
Definition laf_lines : list str :=
  [lit "vec3 lafortune(vec3 L, vec3 V, vec3 N, vec3 X, vec3 Y, vec3 Cx, vec3 Cy, vec3 Cz, vec3 Nl)"; lit "{";
   tab :: lit "vec3 ext_dot = Cx * dot(L,X)*dot(V,X) + Cy * dot(L,Y)*dot(V,Y) + Cz * dot(L,N)*dot(V,N);";
   tab :: lit "return pow(max(ext_dot, vec3(0,0,0)), Nl);"; lit "}"; []].
(** save_body without --export: the other plugins write nothing, sgd
    (plugins/nonlinear_function_sgd/function.h:43-46) is not implemented;
    core/function.cpp:774-783 compound and 906-915 product *)
Fixpoint tbody (t : ptree) : outcome str :=
  match t with
  | PLeaf f => match pf_kind f with PLaf => Ok (flat_map endl laf_lines) | PSgd => Abort | _ => Ok [] end
  | PSum fs => (fix all l := match l with [] => Ok [] | f :: r => do a <- tbody f; do b <- all r; Ok (a ++ endl [] ++ b) end) fs
  | PProd f g => do a <- tbody f; do b <- tbody g; Ok (a ++ endl [] ++ b ++ endl [])
  end.
Section Files.
Variable lex : str -> option (R * str).
Variable print : R -> str.
Variable junk : nat -> nat -> R.

(** save_call without --export: core/function.cpp:785-813 compound and 917-949 product *)
Fixpoint tcall (t : ptree) : outcome str :=
  match t with
  | PLeaf f => psave print f
  | PSum fs => (fix all l := match l with [] => Ok [] | f :: r => do a <- tcall f; do b <- all r; Ok (a ++ b) end) fs
  | PProd f g => do a <- tcall f; do b <- tcall g; Ok (a ++ b)
  end.
(** core/function.cpp:520-537 compound_function::load and 879-904
    product_function::load *)
Definition tload_loop (load : ptree -> istream -> outcome (bool * ptree * istream)) :=
  fix loop (fs : list ptree) (nb_good : nat) (s : istream) : outcome (nat * list ptree * istream) :=
    match fs with
    | [] => Ok (nb_good, [], s)
    | f :: fs' =>
        let (pos, s1) := tellg s in
        do r <- load f s1;
        let '(b, g, s2) := r in
        do q <- loop fs' (if b then S nb_good else nb_good) (if b then s2 else seekg pos s2);
        let '(n, gs, s3) := q in Ok (n, g :: gs, s3)
    end.
Fixpoint tload (t : ptree) (s : istream) : outcome (bool * ptree * istream) :=
  match t with
  | PLeaf f => do r <- pload lex junk f s; let '(b, g, s') := r in Ok (b, PLeaf g, s')
  | PSum fs => do q <- tload_loop tload fs 0 s; let '(n, gs, s') := q in Ok ((0 <? n)%nat, PSum gs, s')
  | PProd f g =>
      let (pos, s1) := tellg s in
      do r1 <- tload f s1;
      let '(b1, f', s2) := r1 in
      let (pos2, s3) := tellg (if b1 then s2 else seekg pos s2) in
      do r2 <- tload g s3;
      let '(b2, g', s4) := r2 in
      Ok (b1 || b2, PProd f' g', if b2 then s4 else seekg pos2 s4)
  end.
(** core/function.cpp:50-147 function::save, for a function with the parametrization [p] *)
Definition tsave (args : arguments) (p : parameters) (t : ptree) : outcome str :=
  do b <- tbody t; do c <- tcall t; Ok (save_header args p ++ b ++ c ++ endl []).
(** core/plugins_manager.cpp:179-231 load_function, on the content of the file;
    get_function is a parameter.  [None]: a null pointer is returned. *)
Variable get_function : arguments -> parameters -> outcome ptree.
Definition tload_function (file : str) : outcome (option ptree) :=
  let (line, s) := getline file in
  if negb (str_eqb line "#ALTA FUNC HEADER"%string) then Ok None else
  let (header, s1) := (if good s then parse_header_loop (S (length (rest s))) s [] else ([], s)) in
  match get_pair_int header "DIM"%string with
  | None => UB
  | Some (zx, zy) =>
      let pin := parse_input (get_string header "PARAM_IN"%string "UNKNOWN_INPUT"%string) in
      let pout := parse_output (get_string header "PARAM_OUT"%string "UNKNOWN_OUTPUT"%string) in
      do args <- create_arguments (match map_find "CMD"%string header with Some v => v | None => [] end);
      do f <- get_function args (mkParameters (Z.to_nat zx) (Z.to_nat zy) pin pout);
      do r <- tload f s1;
      let '(b, g, _) := r in Ok (if b then Some g else None)
  end.
End Files.

(** Model of function files: function::save, nonlinear_function::load and
    save_call, and their compound and product versions (sources/core/function.cpp),
    and plugins_manager::load_function.  Conversions between numbers and text are
    parameters, as in TextModel. *)
From Coq Require Import Reals List.
From Verif Require Import Base Num ParamsModel GeoModel ArgsModel DataModel TextModel FuncModel.
Open Scope R_scope.

(** ** istream operations on the stream state *)
Definition set_fail (s : istream) : istream := {| rest := rest s; eofbit := eofbit s; failbit := true |}.
(** peek(): a stream that is not good fails, the end sets eofbit *)
Definition peek (s : istream) : option ascii * istream :=
  if good s then match rest s with
                 | [] => (None, {| rest := []; eofbit := true; failbit := false |})
                 | c :: _ => (Some c, s)
                 end
  else (None, set_fail s).
(** in.getline(line, 256): at most 255 characters; the delimiter is consumed *)
Definition getline_buf (s : istream) : istream :=
  if good s then
    match split_line (rest s) with
    | (l, Some r) => if (length l <=? 255)%nat then {| rest := r; eofbit := false; failbit := false |}
                     else {| rest := skipn 255 (rest s); eofbit := false; failbit := true |}
    | ([], None) => {| rest := []; eofbit := true; failbit := true |}
    | (l, None) => if (length l <=? 255)%nat then {| rest := []; eofbit := true; failbit := false |}
                   else {| rest := skipn 255 (rest s); eofbit := false; failbit := true |}
    end
  else set_fail s.
(** in >> token *)
Definition scan_string (s : istream) : option str * istream :=
  if good s then
    match skip_ws (rest s) with
    | [] => (None, {| rest := []; eofbit := true; failbit := true |})
    | r => let (tok, r') := take_token r in
           (Some tok, {| rest := r'; eofbit := match r' with [] => true | _ => false end; failbit := false |})
    end
  else (None, set_fail s).
(** tellg() and seekg(): a stream that is not good has no position; seekg
    clears eofbit and does nothing on a failed stream *)
Definition tellg (s : istream) : option str * istream := if good s then (Some (rest s), s) else (None, set_fail s).
Definition seekg (pos : option str) (s : istream) : istream :=
  if failbit s then {| rest := rest s; eofbit := false; failbit := true |} else
  match pos with
  | Some r => {| rest := r; eofbit := false; failbit := false |}
  | None => {| rest := rest s; eofbit := false; failbit := true |}
  end.

(** function.cpp:289-300: lines are skipped until one begins with '#' *)
Fixpoint skip_lines (fuel : nat) (s : istream) : bool * istream :=
  match fuel with
  | O => (false, s)
  | S fuel' =>
      match peek s with
      | (Some c, s1) => if aeqb c "#" then (true, s1)
                        else let s2 := getline_buf s1 in if good s2 then skip_lines fuel' s2 else (false, s2)
      | (None, s1) => (false, getline_buf s1)
      end
  end.

Section Files.
Variable lex : str -> option (R * str).
Variable print : R -> str.

(** in >> p[i]: [None] when p[i] is left as it is *)
Definition scan_double (s : istream) : option R * istream :=
  if good s then
    match skip_ws (rest s) with
    | [] => (None, {| rest := []; eofbit := true; failbit := true |})
    | r => match lex r with
           | Some (v, r') => (Some v, {| rest := r'; eofbit := match r' with [] => true | _ => false end; failbit := false |})
           | None => (Some 0, {| rest := r; eofbit := false; failbit := true |})
           end
    end
  else (None, set_fail s).
(** function.cpp:321-326; the vector is uninitialised *)
Fixpoint read_params (n : nat) (s : istream) : outcome (list R * istream) :=
  match n with
  | O => Ok ([], s)
  | S n' => let (_, s1) := scan_string s in
            match scan_double s1 with
            | (None, _) => UB
            | (Some v, s2) => do r <- read_params n' s2; Ok (v :: fst r, snd r)
            end
  end.
(** function.cpp:287-330 nonlinear_function::load: the new parameters, if any *)
Definition load_leaf (n : nat) (s : istream) : outcome (option (list R) * istream) :=
  let (found, s1) := skip_lines (S (length (rest s))) s in
  if negb found then Ok (None, s1) else
  let (t1, s2) := scan_string s1 in
  match t1 with
  | Some tok1 =>
      if str_eqb tok1 "#FUNC"%string then
        let (t2, s3) := scan_string s2 in
        match t2 with
        | Some tok2 => if str_eqb tok2 "nonlinear_function"%string
                       then do r <- read_params n s3; Ok (Some (fst r), snd r)
                       else Ok (None, s3)
        | None => Ok (None, s3)
        end
      else Ok (None, s2)
  | None => Ok (None, s2)
  end.

Definition load_loop (load : tree -> istream -> outcome (bool * tree * istream)) :=
  fix loop (fs : list (bool * tree)) (nb_good : nat) (s : istream) : outcome (nat * list (bool * tree) * istream) :=
    match fs with
    | [] => Ok (nb_good, [], s)
    | f :: fs' =>
        let (pos, s1) := tellg s in
        do r <- load (snd f) s1;
        let '(b, g, s2) := r in
        do q <- loop fs' (if b then S nb_good else nb_good) (if b then s2 else seekg pos s2);
        let '(n, gs, s3) := q in Ok (n, (fst f, g) :: gs, s3)
    end.
(** function.cpp:520-537 compound_function::load and 879-904
    product_function::load; fixed functions are loaded too *)
Fixpoint load (t : tree) (s : istream) : outcome (bool * tree * istream) :=
  match t with
  | Leaf l p =>
      do r <- load_leaf (lf_nb l) s;
      match r with
      | (Some q, s') => Ok (true, Leaf l q, s')
      | (None, s') => Ok (false, Leaf l p, s')
      end
  | Compound par fs =>
      do q <- load_loop load fs 0 s;
      let '(n, gs, s') := q in Ok ((0 <? n)%nat, Compound par gs, s')
  | Product par x1 x2 f1 f2 =>
      let (pos, s1) := tellg s in
      do r1 <- load f1 s1;
      let '(b1, g1, s2) := r1 in
      let s2' := if b1 then s2 else seekg pos s2 in
      let (pos2, s3) := tellg s2' in
      do r2 <- load f2 s3;
      let '(b2, g2, s4) := r2 in
      Ok (b1 || b2, Product par x1 x2 g1 g2, if b2 then s4 else seekg pos2 s4)
  end.

(** ** Saving, without the option --export *)
(** function.cpp:332-349 nonlinear_function::save_call *)
Fixpoint params_text (i : nat) (p : list R) : str :=
  match p with
  | [] => []
  | v :: p' => endl (lit "param_" ++ print_nat (S i) ++ tab :: print v) ++ params_text (S i) p'
  end.
Definition leaf_text (p : list R) : str := endl (lit "#FUNC nonlinear_function") ++ params_text 0 p ++ endl [].
(** function.cpp:785-813 and 917-949 save_call *)
Fixpoint save_call (t : tree) : str :=
  match t with
  | Leaf _ p => leaf_text p
  | Compound _ fs => flat_map (fun f : bool * tree => save_call (snd f)) fs
  | Product _ _ _ f1 f2 => save_call f1 ++ save_call f2
  end.
(** function.cpp:774-783 and 906-915 save_body *)
Fixpoint save_body (t : tree) : str :=
  match t with
  | Leaf _ _ => []
  | Compound _ fs => flat_map (fun f : bool * tree => save_body (snd f) ++ [nl]) fs
  | Product _ _ _ f1 f2 => save_body f1 ++ nl :: save_body f2 ++ [nl]
  end.
(** function.cpp:50-147 function::save and save_header *)
Definition save_header (args : arguments) (p : parameters) : str :=
  endl (lit "#ALTA FUNC HEADER") ++
  endl (lit "#CMD " ++ get_cmd args) ++
  endl (lit "#DIM " ++ print_nat (dimX p) ++ lit " " ++ print_nat (dimY p)) ++
  endl (lit "#PARAM_IN  " ++ get_name_in (in_param p)) ++
  endl (lit "#ALTA HEADER END") ++ endl [].
Definition save_file (args : arguments) (t : tree) : str :=
  save_header args (par_of t) ++ save_body t ++ save_call t ++ endl [].

(** plugins_manager.cpp:179-231 load_function, on the content of the file;
    get_function is a parameter.  [None]: a null pointer is returned. *)
Variable get_function : arguments -> parameters -> outcome tree.
Definition load_function (file : str) : outcome (option tree) :=
  let (line, s) := getline file in
  if negb (str_eqb line "#ALTA FUNC HEADER"%string) then Ok None else
  let (header, s1) := (if good s then parse_header_loop (S (length (rest s))) s [] else ([], s)) in
  match get_pair_int header "DIM"%string with
  | None => UB
  | Some (zx, zy) =>
      let pin := parse_input (get_string header "PARAM_IN"%string "UNKNOWN_INPUT"%string) in
      let pout := parse_output (get_string header "PARAM_OUT"%string "UNKNOWN_OUTPUT"%string) in
      do args <- create_arguments (match map_find "CMD"%string header with Some v => v | None => [] end);
      do f <- get_function args (mkParameters (Z.to_nat zx) (Z.to_nat zy) pin pout);
      do r <- load f s1;
      let '(b, g, _) := r in Ok (if b then Some g else None)
  end.
End Files.

(** Model of bootstrap (the starting point of a fit) for trees of functions:
    function::bootstrap, nonlinear_function::bootstrap, compound_function::bootstrap and
    product_function::bootstrap in sources/core/function.cpp.  Loading is that of
    FuncFile.  [None] means that the number of steps given is not enough. *)
From Coq Require Import Reals List.
From Verif Require Import Base Num ParamsModel GeoModel ArgsModel DataModel TextModel FuncModel FuncFile.
Open Scope R_scope.

Definition key : str := lit "bootstrap".
(** the options given to the functions of a compound (fs_args, core/function.h:299-302),
    following the structure of the tree *)
Inductive atree := ANone | ACompound (l : list (arguments * atree)) | AProduct (a b : atree).
Definition achildren (a : atree) : list (arguments * atree) := match a with ACompound l => l | _ => [] end.
Definition afirst (a : atree) : atree := match a with AProduct x _ => x | _ => ANone end.
Definition asecond (a : atree) : atree := match a with AProduct _ y => y | _ => ANone end.
Definition achild (l : list (arguments * atree)) (i : nat) : arguments * atree := nth i l ([], ANone).

Definition then_ {A B} (o : option (outcome A)) (k : A -> option (outcome B)) : option (outcome B) :=
  match o with
  | Some (Ok a) => k a
  | Some Throw => Some Throw
  | Some Abort => Some Abort
  | Some UB => Some UB
  | None => None
  end.

(** core/function.cpp:571-577 and 969-975: do getline while(line != "#ALTA HEADER END");
    a getline on a stream that is not good leaves the line as it is *)
Fixpoint skip_header (fuel : nat) (line : str) (s : istream) : option istream :=
  match fuel with
  | O => None
  | S fuel' =>
      let (line', s') := if good s then getline (rest s) else (line, set_fail s) in
      if str_eqb line' "#ALTA HEADER END"%string then Some s' else skip_header fuel' line' s'
  end.

Section Boot.
Variable lex : str -> option (R * str).
Variable atof : str -> R.
(** the content of the files that can be opened *)
Variable files : str -> option str.
(** What the plugins do: whether the option --bootstrap is passed to
    nonlinear_function::bootstrap (beckmann, diffuse, and the plugins without a
    bootstrap of their own) or ignored, and the values set otherwise. *)
Variable obeys : leaf_fn -> bool.
Variable start : leaf_fn -> list R -> arguments -> list R.

Definition open_file (name : str) : option istream :=
  match files (c_str name) with Some c => Some {| rest := c; eofbit := false; failbit := false |} | None => None end.

(** core/function.cpp:24-48 function::bootstrap and 351-377 nonlinear_function::bootstrap *)
Definition base_bootstrap (l : leaf_fn) (p : list R) (args : arguments) : outcome (list R) :=
  if is_vec args key then Ok (get_vec_num atof args key (lf_nb l) 0) else
  if is_defined args key && negb (match at_key args key with [] => true | _ => false end) then
    match open_file (at_key args key) with
    | Some s => do r <- load_leaf lex (lf_nb l) s; Ok (match fst r with Some q => q | None => p end)
    | None => Abort
    end
  else Ok p.
(** bootstrap of a plugin, e.g. nonlinear_function_beckmann/function.cpp:179-203 *)
Definition leaf_bootstrap (l : leaf_fn) (p : list R) (args : arguments) : outcome (list R) :=
  if obeys l && is_defined args key then base_bootstrap l p args else Ok (start l p args).

(** one function read from the stream: load, and if it fails put the stream back in
    place and bootstrap (core/function.cpp:597-630, 979-1000) *)
Definition try_load (boot : tree -> option (outcome tree)) (pos : option str) (t : tree) (s : istream) : option (outcome (tree * istream)) :=
  then_ (Some (load lex t s)) (fun r =>
    let '(b, g, s') := r in
    if b then Some (Ok (g, s')) else then_ (boot g) (fun h => Some (Ok (h, seekg pos s')))).

(** the loop of compound_function::bootstrap over the functions: [zero] keeps those
    without parameters only (core/function.cpp:555-561), otherwise 637-642 *)
Definition boot_loop (boot : tree -> atree -> arguments -> option (outcome tree)) (zero : bool) (al : list (arguments * atree)) :=
  fix loop (i : nat) (fs : list (bool * tree)) : option (outcome (list (bool * tree))) :=
    match fs with
    | [] => Some (Ok [])
    | f :: fs' =>
        then_ (if zero && negb (Nat.eqb (nb (snd f)) 0) then Some (Ok (snd f)) else boot (snd f) (snd (achild al i)) (fst (achild al i))) (fun g =>
        then_ (loop (S i) fs') (fun gs => Some (Ok ((fst f, g) :: gs))))
    end.
(** the loop over the functions with a file, core/function.cpp:584-631 *)
Definition file_loop (boot : tree -> atree -> arguments -> option (outcome tree)) (al : list (arguments * atree)) (args : arguments) :=
  fix loop (i : nat) (fs : list (bool * tree)) (s : istream) : option (outcome (list (bool * tree))) :=
    match fs with
    | [] => Some (Ok [])
    | f :: fs' =>
        let (pos, s0) := tellg s in
        then_ (match snd f with
               | Product par x1 x2 f1 f2 =>
                   let (pos1, s1) := tellg s0 in
                   then_ (try_load (fun g => boot g (afirst (snd (achild al i))) args) pos1 f1 s1) (fun r1 =>
                   let (pos2, s2) := tellg (snd r1) in
                   then_ (try_load (fun g => boot g (asecond (snd (achild al i))) args) pos2 f2 s2) (fun r2 =>
                   Some (Ok (Product par x1 x2 (fst r1) (fst r2), snd r2))))
               | t => try_load (fun g => boot g (snd (achild al i)) (fst (achild al i))) pos t s0
               end) (fun r =>
        then_ (loop (S i) fs' (snd r)) (fun gs => Some (Ok ((fst f, fst r) :: gs))))
    end.

(** core/function.cpp:539-644 compound_function::bootstrap and 951-1012
    product_function::bootstrap; [fuel] bounds the depth of the calls and the number of
    lines read by the loops that skip a header *)
Fixpoint boot (fuel : nat) (t : tree) (a : atree) (args : arguments) : option (outcome tree) :=
  match fuel with
  | O => None
  | S d =>
    match t with
    | Leaf l p => Some (do q <- leaf_bootstrap l p args; Ok (Leaf l q))
    | Compound par fs =>
        if is_defined args key then
          if is_vec args key then
            then_ (Some (set_parameters t (get_vec_num atof args key (nb t) 0))) (fun t' =>
            match t' with
            | Compound par' fs' => then_ (boot_loop (boot d) true (achildren a) 0 fs') (fun gs => Some (Ok (Compound par' gs)))
            | _ => Some (Ok t')
            end)
          else match open_file (at_key args key) with
               | None => Some (Ok t)
               | Some s => match skip_header d [] s with
                           | None => None
                           | Some s' => then_ (file_loop (boot d) (achildren a) args 0 fs s') (fun gs => Some (Ok (Compound par gs)))
                           end
               end
        else then_ (boot_loop (boot d) false (achildren a) 0 fs) (fun gs => Some (Ok (Compound par gs)))
    | Product par x1 x2 f1 f2 =>
        if is_defined args key then
          if is_vec args key then Some (set_parameters t (get_vec_num atof args key (nb t) 0))
          else match open_file (at_key args key) with
               | None => Some (Ok t)
               | Some s => match skip_header d [] s with
                           | None => None
                           | Some s' =>
                               let (pos, s1) := tellg s' in
                               then_ (try_load (fun g => boot d g (afirst a) args) pos f1 s1) (fun r1 =>
                               then_ (try_load (fun g => boot d g (asecond a) args) pos f2 (snd r1)) (fun r2 =>
                               Some (Ok (Product par x1 x2 (fst r1) (fst r2)))))
                           end
               end
        else then_ (boot d f1 (afirst a) args) (fun g1 => then_ (boot d f2 (asecond a) args) (fun g2 => Some (Ok (Product par x1 x2 g1 g2))))
    end
  end.
(** the call returns with [r]; it never returns *)
Definition boots (t : tree) (a : atree) (args : arguments) (r : outcome tree) : Prop := exists fuel, boot fuel t a args = Some r.
Definition never_boots (t : tree) (a : atree) (args : arguments) : Prop := forall fuel, boot fuel t a args = None.
End Boot.

(** Model of sources/core/args.h (class alta::arguments). *)
From Verif Require Import Base Num.

(** args.h:521-525 [std::map<std::string, std::string> _map]. *)
Definition arguments := smap str.

(** ------------------------------------------------------------------ *)
(** * The argv constructor, args.h:52-107 *)

Definition last_is (c : ascii) (s : str) : bool :=
  match rev s with [] => false | x :: _ => aeqb x c end.

Definition first_is (c : ascii) (s : str) : bool :=
  match s with [] => false | x :: _ => aeqb x c end.

(** args.h:60 [temp.compare(0, 2, "--") == 0] *)
Definition starts_dashes (s : str) : bool :=
  match s with "-"%char :: "-"%char :: _ => true | _ => false end.

(** args.h:78-90, the [while] that glues the tokens of "[a b c]".  [next] is
    the last token appended, [argv] the tokens not yet consumed.  Reading the
    last character of an empty token ([next[next.size()-1]]) is UB; the loop
    condition tests [i < argc] first. *)
Fixpoint bracket_loop (data next : str) (argv : list str) : outcome (str * list str) :=
  match argv with
  | [] => Ok (data, [])
  | t :: rest =>
      match next with
      | [] => UB
      | _ =>
          if last_is "]" next then Ok (data, argv)
          else bracket_loop (data ++ " "%char :: t) t rest
      end
  end.

(** args.h:66-100: the value of an option given the tokens after it.
    [next[0]] on an empty std::string is '\000' (defined). *)
Definition option_value (argv : list str) : outcome (str * list str) :=
  match argv with
  | [] => Ok ([], [])
  | next :: rest =>
      if first_is "-" next then Ok ([], argv)
      else if first_is "[" next && negb (last_is "]" next)
      then bracket_loop next next rest
      else Ok (next, rest)
  end.

(** args.h:54-106, the [for] loop over argv.  [fuel] bounds the iterations
    (each consumes at least one token); [arguments_of_argv] supplies enough. *)
Fixpoint argv_loop (fuel : nat) (argv : list str) (m : arguments) : outcome arguments :=
  match fuel with
  | O => Ok m
  | S fuel' =>
      match argv with
      | [] => Ok m
      | temp :: rest =>
          if starts_dashes temp
          then do r <- option_value rest;
               let '(data, rest') := r in
               (* args.h:104 [_map.insert]: first occurrence wins *)
               argv_loop fuel' rest' (map_insert (skipn 2 temp) data m)
          else argv_loop fuel' rest m
      end
  end.

Definition arguments_of_argv (argv : list str) : outcome arguments :=
  argv_loop (List.length argv) argv [].

(** ------------------------------------------------------------------ *)
(** * Accessors *)

(** args.h:114-124 *)
Definition is_defined (a : arguments) (k : str) : bool :=
  match map_find k a with Some _ => true | None => false end.

(** args.h:130-140 *)
Definition is_vec (a : arguments) (k : str) : bool :=
  match map_find k a with Some v => first_is "[" v | None => false end.

(** args.h:143-154 operator[] *)
Definition at_key (a : arguments) (k : str) : str :=
  match map_find k a with Some v => v | None => [] end.

(** args.h:157-160 update *)
Definition update (a : arguments) (k v : str) : arguments := map_update k v a.

(** [c_str()]: bytes up to the first NUL. *)
Fixpoint c_str (s : str) : str :=
  match s with
  | [] => []
  | c :: t => if aeqb c nul then [] else c :: c_str t
  end.

(** args.h:167-173 get_string *)
Definition get_string (a : arguments) (k dflt : str) : str :=
  match map_find k a with Some v => c_str v | None => dflt end.

(** args.h:180-186 get_float and args.h:221-227 get_int, for a given C
    conversion function ([atof] / [atoi]). *)
Definition get_num {T} (conv : str -> T) (a : arguments) (k : str) (dflt : T) : T :=
  match map_find k a with Some v => conv (c_str v) | None => dflt end.

Definition get_int (a : arguments) (k : str) (dflt : Z) : Z := get_num atoi a k dflt.

(** args.h:192-214 get_double, C++11 branch: [std::stod] throws on text that
    is not a number. *)
Definition get_double {T} (stod : str -> outcome T) (a : arguments) (k : str) (dflt : T) : outcome T :=
  match map_find k a with Some v => stod v | None => Ok dflt end.

(** std::string::find(',', pos) on the suffix starting at pos: text before the
    comma and text after it. *)
Fixpoint find_char (c : ascii) (s : str) : option (str * str) :=
  match s with
  | [] => None
  | x :: t => if aeqb x c then Some ([], t)
              else match find_char c t with
                   | Some (a, b) => Some (x :: a, b)
                   | None => None
                   end
  end.

(** args.h:324-341: the [while] of [get_vec(key)] on the suffix from [pos].
    The last element loses its last character, whatever it is
    ([temp.substr(0, temp.size()-1)]; for an empty [temp] the count wraps to
    npos and the result is empty). *)
Fixpoint split_loop (fuel : nat) (s : str) : list str :=
  match fuel with
  | O => []
  | S fuel' =>
      match find_char "," s with
      | Some (a, b) => a :: split_loop fuel' b
      | None => [removelast s]
      end
  end.

(** args.h:314-345 get_vec(key) for strings. *)
Definition get_vec_str (a : arguments) (k : str) : list str :=
  match map_find k a with
  | None => []
  | Some s =>
      match s with
      | "["%char :: t => split_loop (S (List.length t)) t
      | _ => []
      end
  end.

(** args.h:247-264: the [while] of [get_vec(key,size)] storing converted
    elements into the buffer [res] from index [i] on. *)
Fixpoint set_nth {A} (n : nat) (v : A) (l : list A) : list A :=
  match l, n with
  | [], _ => []
  | _ :: t, O => v :: t
  | x :: t, S n' => x :: set_nth n' v t
  end.

Fixpoint fill_loop {T} (atof : str -> T) (fuel : nat) (s : str) (i : nat) (res : list T) : list T :=
  match fuel with
  | O => res
  | S fuel' =>
      if i <? List.length res then
        match find_char "," s with
        | Some (a, b) => fill_loop atof fuel' b (S i) (set_nth i (atof (c_str a)) res)
        | None => set_nth i (atof (c_str (removelast s))) res
        end
      else res
  end.

(** args.h:234-275 get_vec(key, size, default). *)
Definition get_vec_num {T} (atof : str -> T) (a : arguments) (k : str) (size : nat) (dflt : T) : list T :=
  match map_find k a with
  | Some ("["%char :: t) => fill_loop atof (S (List.length t)) t 0 (repeat dflt size)
  | _ => repeat (get_num atof a k dflt) size
  end.

(** args.h:351-372 get_pair<int>: two [>> int] on the value; the pair is (0,0)
    when the key is undefined; once the stream has failed the second extraction
    leaves its variable uninitialised, which we map to [None]. *)
Definition get_pair_int (a : arguments) (k : str) : option (Z * Z) :=
  match map_find k a with
  | None => Some (0%Z, 0%Z)
  | Some v =>
      match scan_int v with
      | (Some x, r) => match scan_int r with
                       | (Some y, _) => Some (x, y)
                       | (None, _) => None
                       end
      | (None, _) => None
      end
  end.

(** args.h:376-393 get_cmd *)
Fixpoint get_cmd (a : arguments) : str :=
  match a with
  | [] => []
  | (k, v) :: t =>
      match k with
      | [] => get_cmd t
      | _ => (" --"%string : str) ++ k ++ " "%char :: v ++ get_cmd t
      end
  end.

(** [stream >> std::string]: leading white space skipped, then bytes up to the
    next white space. *)
Fixpoint take_token (s : str) : str * str :=
  match s with
  | [] => ([], [])
  | c :: t => if is_space c then ([], s) else let (a, b) := take_token t in (c :: a, b)
  end.

Definition scan_token (s : str) : str * str := take_token (skip_ws s).

(** args.h:404-413: [while(stream.good()) { stream >> temp; push_back(temp) }].
    The stream stays good exactly when the token was ended by white space, so
    trailing white space yields one extra empty token. *)
Fixpoint tokenize (fuel : nat) (s : str) : list str :=
  match fuel with
  | O => []
  | S fuel' =>
      let (tok, r) := scan_token s in
      match r with
      | [] => [tok]
      | _ => tok :: tokenize fuel' r
      end
  end.

(** args.h:397-433 create_arguments; the tokens pass through [char*]. *)
Definition create_arguments (n : str) : outcome arguments :=
  arguments_of_argv (map c_str (tokenize (S (List.length n)) n)).

(** ------------------------------------------------------------------ *)
(** * Header parsing, args.h:458-518 *)

(** An input stream: unread bytes and the state bits that matter. *)
Record istream := { rest : str; eofbit : bool; failbit : bool }.
Definition good (s : istream) : bool := negb (eofbit s) && negb (failbit s).
Definition open_stream (b : str) : istream := {| rest := b; eofbit := false; failbit := false |}.

(** Bytes before the first '\n', and what follows it ([None]: no '\n'). *)
Fixpoint split_line (s : str) : str * option str :=
  match s with
  | [] => ([], None)
  | c :: t => if aeqb c nl then ([], Some t)
              else let (a, b) := split_line t in (c :: a, b)
  end.

(** std::getline(input, line) on a good stream. *)
Definition getline (b : str) : str * istream :=
  match split_line b with
  | (l, Some r) => (l, {| rest := r; eofbit := false; failbit := false |})
  | (l, None) => (l, {| rest := []; eofbit := true;
                        failbit := match l with [] => true | _ => false end |})
  end.

Fixpoint take_until (c : ascii) (s : str) : str :=
  match s with
  | [] => []
  | x :: t => if aeqb x c then [] else x :: take_until c t
  end.

(** What one header line (without its '#') does to the map: args.h:473-509. *)
Inductive line_effect := LNone | LSet (k v : str) | LStop.

Definition header_line (line : str) : line_effect :=
  if first_is " " line then LNone                       (* '# ' comment *)
  else
    let (key, r) := scan_token line in
    match key with
    | [] => LNone
    | _ =>
        if str_eqb key "ALTA"%string then
          let (first, r1) := scan_token r in
          let (second, _) := scan_token r1 in
          if str_eqb second "HEADER"%string then
            if str_eqb first "END"%string then LStop else LSet "TYPE"%string second
          else LNone
        else LSet key (take_until cr (skip_ws r))
    end.

(** args.h:463-515, the [while(input.good())] loop. *)
Fixpoint parse_header_loop (fuel : nat) (s : istream) (m : arguments) : arguments * istream :=
  match fuel with
  | O => (m, s)
  | S fuel' =>
      if good s then
        match rest s with
        | [] => (m, {| rest := []; eofbit := true; failbit := failbit s |})  (* peek() = EOF *)
        | c :: t =>
            if aeqb c "#" then
              let (line, s') := getline t in
              match header_line line with
              | LNone => parse_header_loop fuel' s' m
              | LSet k v => parse_header_loop fuel' s' (map_update k v m)
              | LStop => (m, s')
              end
            else (m, s)
        end
      else (m, s)
  end.

Definition parse_header (b : str) : arguments * istream :=
  parse_header_loop (S (List.length b)) (open_stream b) [].

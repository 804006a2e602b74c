(** Model of the typed vector options (sources/core/args.h, get_vec<T>) and of the
    loader of ASTM files (sources/plugins/data_io/astm.cpp). *)
From Coq Require Import Reals List.
From Verif Require Import Base Num ParamsModel ArgsModel TextModel.
Open Scope R_scope.

(** stream.get(s, n + 1, ','): at most [n] bytes, up to a comma or the end *)
Fixpoint take_chunk (n : nat) (s : str) : str * str :=
  match n, s with
  | S n', c :: t => if aeqb c "," then ([], s) else let (a, b) := take_chunk n' t in (c :: a, b)
  | _, _ => ([], s)
  end.
(** args.h:294-308 the [while(stream.good())] loop of get_vec<T>: the texts put in
    [s].  Reading up to the end of the text ends the loop (eofbit), and so does an
    empty piece (failbit); ignore(1) drops the byte after the piece. *)
Fixpoint chunks (fuel : nat) (s : str) : list str :=
  match fuel with
  | O => []
  | S fuel' =>
      let (a, r) := take_chunk 255 s in
      match r with
      | [] => [a]
      | _ :: r' => match a with [] => [a] | _ => a :: chunks fuel' r' end
      end
  end.
(** args.h:280-311 get_vec<T>; [conv] is [sstream >> v] on a fresh variable,
    [None] when it is left untouched.  [s] is used as a C string. *)
Definition get_vec_of {T} (conv : str -> T) (a : arguments) (k : str) : list T :=
  match map_find k a with
  | None => []
  | Some s =>
      if first_is "[" s && last_is "]" s then
        let t := removelast (tl s) in List.map (fun p => conv (c_str p)) (chunks (S (List.length t)) t)
      else []
  end.
(** [sstream >> std::string]: a fresh string is empty *)
Definition conv_str (p : str) : str := fst (scan_token p).
(** [sstream >> int]: [None] is an uninitialised int; text that is no number
    stores 0 *)
Definition conv_int (p : str) : option Z :=
  match skip_ws p with [] => None | r => Some (match fst (scan_int r) with Some z => z | None => 0%Z end) end.

(** data_io/astm.cpp:68-91 parse_header from the loop on, with the variables
    [key] and [line].  At the end of the text [in >> key] leaves [key], and getline
    leaves [line], as they are. *)
Fixpoint astm_header (fuel : nat) (s : istream) (key line : str) (m : arguments) : arguments * istream :=
  match fuel with
  | O => (m, s)
  | S fuel' =>
      if good s then
        match skip_ws (rest s) with
        | [] => (update m key line, {| rest := []; eofbit := true; failbit := true |})
        | r =>
            let (key', r') := take_token r in
            let (line', s') := match r' with
                               | [] => (line, {| rest := []; eofbit := true; failbit := true |})
                               | _ => getline r'
                               end in
            if str_eqb key' "VARS"%string then (update m key' (lit "[" ++ line' ++ lit "]"), s')
            else astm_header fuel' s' key' line' (update m key' line')
        end
      else (m, s)
  end.

(** data_io/astm.cpp:93-132 compute_parameters; [last] is vars.back() *)
Definition is_angle (v : str) : bool :=
  str_eqb v "theta_i"%string || str_eqb v "phi_i"%string || str_eqb v "theta_s"%string || str_eqb v "phi_s"%string.
Definition astm_parameters (vars : list str) (last : str) : parameters :=
  let nX := List.length (filter is_angle vars) in
  let nY := List.length (filter (fun v => negb (is_angle v)) vars) in
  mkParameters nX nY (if (nX =? 4)%nat then SPHERICAL_TL_PL_TV_PV else UNKNOWN_INPUT)
    (if str_eqb last "B"%string then RGB_COLOR
     else if str_eqb (firstn 10 last) "Integrated"%string then INV_STERADIAN else UNKNOWN_OUTPUT).

(** std::getline(input, line): on a stream that is not good [line] is kept *)
Definition next_line (line : str) (s : istream) : str * istream :=
  if good s then getline (rest s) else (line, {| rest := rest s; eofbit := eofbit s; failbit := true |}).
Definition has_comma (l : str) : bool := existsb (fun c => aeqb c ",") l.
(** data_io/astm.cpp:162-164 the do-while loop; [None]: not finished within [fuel] turns *)
Fixpoint find_row (fuel : nat) (line : str) (s : istream) : option (str * istream) :=
  match fuel with
  | O => None
  | S fuel' => let (l, s') := next_line line s in if has_comma l then Some (l, s') else find_row fuel' l s'
  end.

Section Load.
Variable lex : str -> option (R * str).
(** data_io/astm.cpp:166-173 reading a line; [None]: the number keeps the
    uninitialised memory *)
Fixpoint read_cells (n : nat) (s : tstream) : list (option R) :=
  match n with
  | O => []
  | S n' => let (v, s') := read_num lex s in v :: read_cells n' s'
  end.
Definition spaced (l : str) : str := List.map (fun c => if aeqb c "," then " "%char else c) l.
(** data_io/astm.cpp:158-174 the loop over [k] rows *)
Fixpoint load_rows (fuel k n : nat) (line : str) (s : istream) : option (outcome (list (list (option R)))) :=
  match k with
  | O => Some (Ok [])
  | S k' =>
      if negb (good s) then Some Abort else
      match find_row fuel line s with
      | None => None
      | Some (l, s') =>
          match load_rows fuel k' n l s' with
          | Some (Ok rs) => Some (Ok (read_cells n {| trest := spaced l; tgood := true |} :: rs))
          | o => o
          end
      end
  end.
(** data_io/astm.cpp:141-177 load_data: parametrization and samples.  [None]: some loop
    is not finished within [fuel] turns.  vars.back() of an empty vector is
    undefined; a negative size is turned into a size no allocation meets. *)
Definition load_astm (fuel : nat) (file : str) : option (outcome (parameters * list (list (option R)))) :=
  let (header, s) := astm_header (S (List.length file)) (open_stream file) [] [] [] in
  let vars := get_vec_of conv_str header "VARS"%string in
  match vars with
  | [] => Some UB
  | v :: _ =>
      let p := astm_parameters vars (List.last vars v) in
      if negb (is_defined header "NUM_POINTS"%string) then Some Abort else
      let size := get_int header "NUM_POINTS"%string 0 in
      if (size <? 0)%Z then Some Throw else
      match load_rows fuel (Z.to_nat size) (dimX p + dimY p) [] s with
      | None => None
      | Some o => Some (do rs <- o; Ok (p, rs))
      end
  end.
End Load.

(** Model of the text reader and writer of sources/core/data_storage.cpp.
    Samples are real numbers.  The C++ library's conversions between text and
    numbers are parameters: [lex] is what [istream >> double] does from the
    first non blank character on ([None]: no number there), [stod] is
    std::stod, [atof] is atof and [print] is [ostream << setprecision(15)]. *)
From Coq Require Import Reals List.
From Verif Require Import Base Num ParamsModel GeoModel ArgsModel DataModel.
Open Scope R_scope.

(** a line being read: remaining text and good() *)
Record tstream := { trest : str; tgood : bool }.

Record text_data := mkText { td_par : parameters; td_rows : list (list R) }.

Definition rleb (a b : R) : bool := if Rle_dec a b then true else false.
Definition rltb (a b : R) : bool := if Rlt_dec a b then true else false.

(** data_storage.cpp:64-69 within_bounds.  The vectors have equal length (Eigen
    asserts it). *)
Fixpoint within_bounds (v lo hi : list R) : bool :=
  match v, lo, hi with
  | x :: v', l :: lo', h :: hi' => rleb l x && rleb x h && within_bounds v' lo' hi'
  | _, _, _ => true
  end.

Section Text.
Variable lex : str -> option (R * str).
Variable stod : str -> outcome R.
Variable atof : str -> R.
Variable flt_max : R.

(** [linestream >> item]: [None] if the variable is left untouched, which is
    the case when the stream is already bad or only blanks remain; a failed
    conversion stores 0.  Reading up to the end of the text sets eofbit. *)
Definition read_num (s : tstream) : option R * tstream :=
  if negb (tgood s) then (None, s) else
  match skip_ws (trest s) with
  | [] => (None, {| trest := []; tgood := false |})
  | r => match lex r with
         | Some (v, r') => (Some v, {| trest := r'; tgood := match r' with [] => false | _ => true end |})
         | None => (Some 0, {| trest := r; tgood := false |})
         end
  end.

(** data_storage.cpp:209-215: [item] is uninitialised, so a value left
    untouched is indeterminate. *)
Fixpoint read_values (n : nat) (s : tstream) : outcome (list R * tstream) :=
  match n with
  | O => Ok ([], s)
  | S n' => match read_num s with
            | (None, _) => UB
            | (Some v, s') => do r <- read_values n' s'; Ok (v :: fst r, snd r)
            end
  end.

(** data_storage.cpp:100-123: the offsets of channel [i] *)
Definition channel_dt (kind : ci_kind) (args : arguments) (i : nat) (s : tstream) : outcome (R * R * tstream) :=
  match i, kind with
  | O, ASYMMETRICAL_CI =>
      let (a, s1) := read_num s in
      let (b, s2) := read_num s1 in
      let v o := match o with Some x => x | None => 0 end in
      Ok (- v a, v b, s2)
  | O, SYMMETRICAL_CI =>
      match read_num s with
      | (None, _) => UB
      | (Some dt, s1) => Ok (- dt, dt, s1)
      end
  | _, _ => do dt <- get_double stod args "dt"%string (1 / 10); Ok (- dt, dt, s)
  end.

(** data_storage.cpp:125-149: value, lower and upper bound of one channel *)
Definition channel_interval (args : arguments) (y min_dt max_dt : R) : R * R * R :=
  let '(lo, hi) :=
    if is_defined args "dt-relative"%string then (y * (1 + min_dt), y * (1 + max_dt))
    else if is_defined args "dt-max"%string then (y + Rmax (y * min_dt) min_dt, y + Rmax (y * max_dt) max_dt)
    else (y + min_dt, y + max_dt) in
  if is_defined args "dt-positive"%string then (Rmax y 0, Rmax lo 0, Rmax hi 0) else (y, lo, hi).

(** data_storage.cpp:89-155 read_confidence_interval, channel [i] onwards *)
Fixpoint read_ci (kind : ci_kind) (args : arguments) (i : nat) (ys : list R) (s : tstream) : outcome (list (R * R * R)) :=
  match ys with
  | [] => Ok []
  | y :: ys' => do d <- channel_dt kind args i s;
                let '(min_dt, max_dt, s') := d in
                do r <- read_ci kind args (S i) ys' s';
                Ok (channel_interval args y min_dt max_dt :: r)
  end.

(** data_storage.cpp:36-61 cosine_correction on the x and y part of a row; the
    conversion is given the address of the row. *)
Definition cosine_correction (row : list R) (dx dy : nat) (p : input) : outcome (option (list R)) :=
  do cart <- convert (fun i => nth i row 0) p CARTESIAN (fun _ => 0);
  if rltb 0 (cart 5%nat) && rltb 0 (cart 2%nat) then
    let factor := 1 / cart 5%nat * cart 2%nat in
    Ok (Some (firstn dx row ++ map (fun y => y / factor) (firstn dy (skipn dx row)) ++ skipn (dx + dy) row))
  else Ok None.

(** data_storage.cpp:196-241: one line of the body; [None] when it adds nothing *)
Definition load_line (args : arguments) (dx dy : nat) (p : input) (kind : ci_kind)
    (lo hi ylo yhi : list R) (line : str) : outcome (option (list R)) :=
  match line with
  | [] => Ok None
  | c :: _ =>
    if aeqb c "#" then Ok None else
    do xy <- read_values (dx + dy) {| trest := line; tgood := true |};
    let x := firstn dx (fst xy) in
    do ci <- read_ci kind args 0 (skipn dx (fst xy)) (snd xy);
    let y := map (fun t => fst (fst t)) ci in
    let row := x ++ y ++ map (fun t => snd (fst t)) ci ++ map snd ci in
    if within_bounds x lo hi && within_bounds y ylo yhi then
      if is_defined args "data-correct-cosine"%string then cosine_correction row dx dy p
      else Ok (Some row)
    else Ok None
  end.

(** data_storage.cpp:194-242: [while(input.good())] with std::getline *)
Fixpoint load_body (fuel : nat) (args : arguments) (dx dy : nat) (p : input) (kind : ci_kind)
    (lo hi ylo yhi : list R) (s : istream) : outcome (list (list R)) :=
  match fuel with
  | O => Ok []
  | S fuel' =>
    if good s then
      let (line, s') := getline (rest s) in
      do r <- load_line args dx dy p kind lo hi ylo yhi line;
      do t <- load_body fuel' args dx dy p kind lo hi ylo yhi s';
      Ok (match r with Some row => row :: t | None => t end)
    else Ok []
  end.

(** data_storage.cpp:157-266 load_data_from_text.  Without DIM the bare [throw]
    terminates the program; negative dimensions make Eigen's assertions fail and
    a row of zero columns divides by zero. *)
Definition load_data_from_text (s : istream) (header args : arguments) : outcome text_data :=
  if negb (is_defined header "DIM"%string) then Abort else
  let pin := parse_input (get_string header "PARAM_IN"%string "UNKNOWN_INPUT"%string) in
  let pout := parse_output (get_string header "PARAM_OUT"%string "UNKNOWN_OUTPUT"%string) in
  match get_pair_int header "DIM"%string with
  | None => UB
  | Some (zx, zy) =>
    if ((zx <? 0) || (zy <? 0))%Z then Abort else
    let dx := Z.to_nat zx in let dy := Z.to_nat zy in
    if (dx + 3 * dy =? 0)%nat then UB else
    let lo := get_vec_num atof args "min"%string dx (- flt_max) in
    let hi := get_vec_num atof args "max"%string dx flt_max in
    let ylo := get_vec_num atof args "ymin"%string dy (- flt_max) in
    let yhi := get_vec_num atof args "ymax"%string dy flt_max in
    let kind := ci_kind_from_number (get_int header "VS"%string 0%Z) in
    do rs <- load_body (S (length (rest s))) args dx dy pin kind lo hi ylo yhi s;
    Ok (mkText (mkParameters dx dy pin pout) rs)
  end.

(** the text branch of load_data (plugins_manager.cpp:476-529) *)
Definition load_text (file : str) (args : arguments) : outcome text_data :=
  let (h, s) := parse_header file in load_data_from_text s h args.

End Text.

(** data_storage.cpp:268-290 save_data_as_text, for a data object whose samples
    are [samples]; every sample has at least dimX + dimY entries (Eigen). *)
Section Save.
Variable print : R -> str.
Definition save_row (n : nat) (x : list R) : str := endl (concat (map (fun v => print v ++ [tab]) (firstn n x))).
Definition save_text (p : parameters) (samples : list (list R)) : str :=
  endl (lit "#DIM " ++ print_nat (dimX p) ++ lit " " ++ print_nat (dimY p)) ++
  endl (lit "#PARAM_IN  " ++ get_name_in (in_param p)) ++
  endl (lit "#PARAM_OUT " ++ get_name_out (out_param p)) ++
  concat (map (save_row (dimX p + dimY p)) samples).
End Save.

(** Model of sources/core/vertical_segment.{h,cpp} and of the binary reader and
    writer of sources/core/data_storage.cpp. *)
From Verif Require Import Base Num ParamsModel ArgsModel Double.

(** vertical_segment.h:84-89 ci_kind *)
Inductive ci_kind := NO_CI | SYMMETRICAL_CI | ASYMMETRICAL_CI.

(** vertical_segment.h:138-153 confidence_interval_columns *)
Definition ci_columns (k : ci_kind) (p : parameters) : nat :=
  match k with NO_CI => 0 | SYMMETRICAL_CI => dimY p | ASYMMETRICAL_CI => 2 * dimY p end.

(** vertical_segment.h:156-160 column_number *)
Definition columns_of (k : ci_kind) (p : parameters) : nat := dimX p + dimY p + ci_columns k p.

(** class vertical_segment (with its base class data): the row-major buffer
    [_data], the sizes and the cached bounds.  [_dt] is the constant 0.1. *)
Record vseg := mkVseg {
  vs_par : parameters; vs_size : nat; vs_kind : ci_kind;
  vs_buf : list double; vs_min : list double; vs_max : list double }.

Definition column_number (d : vseg) : nat := columns_of (vs_kind d) (vs_par d).

(** vertical_segment.h:167-170 matrix_view().row(i), as the list of the cells
    of row [i] of a row-major matrix with [cols] columns. *)
Definition buf_row (cols i : nat) (buf : list double) : list double := firstn cols (skipn (i * cols) buf).

(** vertical_segment.cpp:30-62 data_min / data_max over x_view: column [k] of
    sample [i] is cell [i * stride + k]. *)
Definition col_fold (f : double -> double -> double) (init : double) (size stride k : nat) (buf : list double) : double :=
  fold_left (fun acc i => f acc (nth (i * stride + k) buf 0%N)) (seq 0 size) init.
Definition data_min (p : parameters) (k : ci_kind) (size : nat) (buf : list double) : list double :=
  map (fun c => col_fold dmin dbl_max size (columns_of k p) c buf) (seq 0 (dimX p)).
Definition data_max (p : parameters) (k : ci_kind) (size : nat) (buf : list double) : list double :=
  map (fun c => col_fold dmax dbl_lowest size (columns_of k p) c buf) (seq 0 (dimX p)).

(** vertical_segment.cpp:77-88 constructor from a filled buffer *)
Definition make_vseg (p : parameters) (size : nat) (buf : list double) (k : ci_kind) : vseg :=
  mkVseg p size k buf (data_min p k size buf) (data_max p k size buf).

(** vertical_segment.cpp:96-103 constructor of a zeroed buffer *)
Definition zero_vseg (p : parameters) (rows : nat) : vseg :=
  make_vseg p rows (repeat 0%N (rows * (dimX p + 3 * dimY p))) ASYMMETRICAL_CI.

(** vertical_segment.cpp:145-148 get(i): Eigen asserts 0 <= i < rows. *)
Definition vs_get (d : vseg) (i : nat) : outcome (list double) :=
  if (i <? vs_size d)%nat
  then Ok (firstn (dimX (vs_par d) + dimY (vs_par d)) (skipn (i * column_number d) (vs_buf d)))
  else Abort.

(** matrix_view().row(i) *)
Definition vs_row (d : vseg) (i : nat) : outcome (list double) :=
  if (i <? vs_size d)%nat then Ok (buf_row (column_number d) i (vs_buf d)) else Abort.

(** vertical_segment.cpp:150-163 set(i, x): overwrites the head of row [i];
    the [throw;] of the error branch has no active exception and terminates. *)
Definition vs_set (d : vseg) (i : nat) (x : list double) : outcome vseg :=
  if ((length x =? column_number d) || (length x =? dimX (vs_par d) + dimY (vs_par d)))%nat
  then if (i <? vs_size d)%nat
       then Ok (mkVseg (vs_par d) (vs_size d) (vs_kind d)
                  (firstn (i * column_number d) (vs_buf d) ++ x
                     ++ skipn (i * column_number d + length x) (vs_buf d))
                  (vs_min d) (vs_max d))
       else Abort
  else Abort.

(** ** Binary files *)

(** data_storage.cpp:73-86 *)
Definition ci_kind_from_number (v : Z) : ci_kind :=
  if Z.eqb v 2 then ASYMMETRICAL_CI else if Z.eqb v 1 then SYMMETRICAL_CI else NO_CI.
Definition number_from_ci_kind (k : ci_kind) : nat :=
  match k with ASYMMETRICAL_CI => 2 | SYMMETRICAL_CI => 1 | NO_CI => 0 end.

Definition print_nat (n : nat) : str := print_N (N.of_nat n).
Definition endl (s : str) : str := s ++ [nl].

(** data_storage.cpp:296-323: the header of a binary file (little endian). *)
Definition binary_header (p : parameters) (size : nat) (k : ci_kind) : str :=
  endl (lit "#DIM " ++ print_nat (dimX p) ++ lit " " ++ print_nat (dimY p)) ++
  endl (lit "#PARAM_IN  " ++ get_name_in (in_param p)) ++
  endl (lit "#PARAM_OUT " ++ get_name_out (out_param p)) ++
  endl (lit "#FORMAT binary") ++
  endl (lit "#VERSION 0") ++
  endl (lit "#PRECISION ieee754-double") ++
  endl (lit "#SAMPLE_COUNT " ++ print_nat size) ++
  endl (lit "#VS " ++ print_nat (number_from_ci_kind k)) ++
  endl (lit "#ENDIAN little") ++
  endl (lit "#BEGIN_STREAM").

(** data_storage.cpp:348 *)
Definition binary_trailer : str := [nl] ++ endl (lit "#END_STREAM").

(** data_storage.cpp:325-346: the payload.  Without confidence intervals every
    sample is fetched with get(i); otherwise the matrix is dumped. *)
Fixpoint get_all (d : vseg) (n i : nat) : outcome str :=
  match n with
  | O => Ok []
  | S n' => do r <- vs_get d i;
            do t <- get_all d n' (S i);
            Ok (doubles_bytes r ++ t)
  end.
Definition binary_payload (d : vseg) : outcome str :=
  match vs_kind d with
  | NO_CI => get_all d (vs_size d) 0
  | _ => Ok (doubles_bytes (firstn (vs_size d * column_number d) (vs_buf d)))
  end.

(** data_storage.cpp:292-349 save_data_as_binary *)
Definition save_binary (d : vseg) : outcome str :=
  do b <- binary_payload d;
  Ok (binary_header (vs_par d) (vs_size d) (vs_kind d) ++ b ++ binary_trailer).

Definition assertb (b : bool) {A} (k : outcome A) : outcome A := if b then k else Abort.

(** data_storage.cpp:351-403 load_data_from_binary.  [in.exceptions(failbit)]
    throws at once if the stream has already failed; the read loop is skipped
    when eofbit is already set, leaving the buffer uninitialised (UB as soon as
    the constructor computes the bounds); a short read sets failbit and throws.
    A negative sample count makes the array allocation throw. *)
Definition load_data_from_binary (s : istream) (h : arguments) : outcome vseg :=
  assertb (str_eqb (at_key h "FORMAT"%string) "binary"%string) (
  assertb (Z.eqb (get_int h "VERSION"%string 0%Z) 0) (
  assertb (str_eqb (at_key h "PRECISION"%string) "ieee754-double"%string) (
  assertb (str_eqb (at_key h "ENDIAN"%string) "little"%string) (
  match get_pair_int h "DIM"%string with
  | None => UB
  | Some (dx, dy) =>
    assertb ((0 <? dx) && (0 <? dy))%Z (
    let k := ci_kind_from_number (get_int h "VS"%string 0%Z) in
    if failbit s then Throw else
    let n := get_int h "SAMPLE_COUNT"%string 0%Z in
    if (n <? 0)%Z then Throw else
    let rows := (Z.to_nat dx + Z.to_nat dy + number_from_ci_kind k * Z.to_nat dy)%nat in
    let elems := (Z.to_nat n * rows)%nat in
    let p := mkParameters (Z.to_nat dx) (Z.to_nat dy)
                (parse_input (at_key h "PARAM_IN"%string)) (parse_output (at_key h "PARAM_OUT"%string)) in
    if (elems =? 0)%nat then Ok (make_vseg p (Z.to_nat n) [] k)
    else if eofbit s then UB
    else if (length (rest s) <? 8 * elems)%nat then Throw
    else Ok (make_vseg p (Z.to_nat n) (bytes_doubles elems (rest s)) k))
  end)))).

(** plugins_manager.cpp:476-529 load_data, binary branch: the header is parsed
    and the same stream is handed to the loader. *)
Definition load_binary (file : str) : outcome vseg :=
  let (h, s) := parse_header file in load_data_from_binary s h.

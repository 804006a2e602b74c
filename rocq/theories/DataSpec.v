(** Specification vocabulary for the data properties C16-C23. *)
From Coq Require Import SpecFloat NArith Reals.
From Flocq Require Import Core BinarySingleNaN.
From Verif Require Import Base ParamsModel Double DataModel.

(** A data set whose buffer holds [size] rows of 64-bit doubles. *)
Definition wf_vseg (d : vseg) : Prop :=
  length (vs_buf d) = (vs_size d * column_number d)%nat /\ Forall is_double (vs_buf d).

(** the bytes of all samples, row after row *)
Definition payload (d : vseg) : str := doubles_bytes (vs_buf d).

(** the data set as a list of rows *)
Definition rows (d : vseg) : list (list double) :=
  map (fun i => buf_row (column_number d) i (vs_buf d)) (seq 0 (vs_size d)).

(** the dimX + dimY leading entries of row [i]: what the user calls sample [i] *)
Definition sample (d : vseg) (i : nat) : list double :=
  firstn (dimX (vs_par d) + dimY (vs_par d)) (nth i (rows d) []).

(** column [c] of row [i], if both exist *)
Definition cell (d : vseg) (i c : nat) : option double :=
  match nth_error (rows d) i with Some r => nth_error r c | None => None end.

(** the values of input coordinate [c] over all samples *)
Definition coord (d : vseg) (c i : nat) : double := nth c (nth i (rows d) []) 0%N.
Definition column (d : vseg) (c : nat) : list double := map (coord d c) (seq 0 (vs_size d)).

(** a history of writes (index, row) *)
Fixpoint set_all (ws : list (nat * list double)) (d : vseg) : outcome vseg :=
  match ws with
  | [] => Ok d
  | (i, x) :: t => do d' <- vs_set d i x; set_all t d'
  end.

(** the last value a history writes to column [c] of row [i] *)
Fixpoint last_write (ws : list (nat * list double)) (i c : nat) : option double :=
  match ws with
  | [] => None
  | (j, x) :: t => match last_write t i c with
                   | Some v => Some v
                   | None => if Nat.eqb j i then nth_error x c else None
                   end
  end.

(** same number of samples and same parametrization *)
Definition same_shape (d1 d2 : vseg) : Prop :=
  vs_size d1 = vs_size d2 /\ vs_par d1 = vs_par d2.

(** the real number a finite double stands for *)
Definition dval (w : double) : R := SF2R radix2 (sf_decode w).

(** rounding to the nearest double (ties to even, unbounded exponent range) *)
Definition rne (x : R) : R := round radix2 (FLT_exp (-1074) 53) ZnearestE x.

(** consecutive cells of a row *)
Definition seg {A} (from len : nat) (r : list A) : list A := firstn len (skipn from r).

(** A rational function as an object on which calls are made one after the other
    (sources/core/rational_function.h:181-251 and rational_function.cpp:533-603).
    The pointers handed out by get stay valid until setSize, clear or setDimY
    drop them; what they point to is never freed by those three, and the leak is
    not represented. *)
From Coq Require Import Reals List Arith.
From Verif Require Import Base Num ParamsModel DataModel RatModel.
Import ListNotations.
Open Scope R_scope.

(** the calls of the interface *)
Inductive call :=
| SetMin (v : list R)
| SetMax (v : list R)
| Get (i : nat)                       (* f.get(i) *)
| Update (i : nat) (a b : list R)     (* f.get(i)->update(a, b) *)
| SetDimY (n : nat)
| SetSize (np nq : nat)
| Clear.

Section Hist.
Variable junk : R.

(** rational_function.h:218-225: the new parametrization keeps the inputs;
    std::vector::resize adds null pointers *)
Definition set_dimY (f : rf) (n : nat) : rf :=
  mkRf (f_dimX f) n (f_min f) (f_max f) (f_np f) (f_nq f) (firstn n (f_rs f) ++ repeat None (n - length (f_rs f))).
(** rational_function.h:237-241 clear *)
Definition clear (f : rf) : rf := mkRf (f_dimX f) (f_dimY f) (f_min f) (f_max f) (f_np f) (f_nq f) (repeat None (f_dimY f)).
(** rational_function.h:229-234 setSize *)
Definition set_size (f : rf) (np nq : nat) : rf := clear (mkRf (f_dimX f) (f_dimY f) (f_min f) (f_max f) np nq (f_rs f)).

(** one call: rational_function.h:243-251 setMin and setMax, rational_function.cpp:556-589
    get, 178-210 update through the returned pointer *)
Definition step (f : rf) (c : call) : outcome rf :=
  match c with
  | SetMin v => Ok (set_min f v)
  | SetMax v => Ok (set_max f v)
  | Get i => do g <- get junk f i; Ok (snd g)
  | Update i a b =>
      do g <- get junk f i;
      match fst g with
      | None => UB
      | Some r => do r' <- update junk r a b; Ok (set_channel (snd g) i r')
      end
  | SetDimY n => Ok (set_dimY f n)
  | SetSize np nq => Ok (set_size f np nq)
  | Clear => Ok (clear f)
  end.
Fixpoint run (f : rf) (h : list call) : outcome rf :=
  match h with [] => Ok f | c :: h' => do f' <- step f c; run f' h' end.

(** rational_function.h:199-208 update from another function, channel after
    channel; the calls of get make the missing channels on both sides *)
Fixpoint copy_channels (n k : nat) (f g : rf) : outcome (rf * rf) :=
  match n with
  | O => Ok (f, g)
  | S n' =>
      do a <- get junk f k; do b <- get junk g k;
      match fst a, fst b with
      | Some r, Some s => do r' <- update_from junk r s; copy_channels n' (S k) (set_channel (snd a) k r') (snd b)
      | _, _ => UB
      end
  end.
Definition copy (f g : rf) : outcome (rf * rf) :=
  if (f_dimX g =? f_dimX f)%nat && (f_dimY g =? f_dimY f)%nat then copy_channels (f_dimY f) 0 f g else Abort.
End Hist.

(** * operator<< *)
(** rational_function.cpp:481-511: the coefficients go to the standard output
    whatever the stream; 706-723: the headings go to the stream.  The result is
    the list of the pieces of text with their destinations, in order; nothing
    else is assumed to write at the same time. *)
Inductive dest := Stream | Standard_output.
Section Print.
Variable print : R -> str.
Fixpoint separated (i : nat) (v : list R) : list (dest * str) :=
  match v with [] => [] | x :: v' => (if (i =? 0)%nat then [] else [(Standard_output, lit ", ")]) ++ (Standard_output, print x) :: separated (S i) v' end.
Definition print_1d (r : rf1) : list (dest * str) :=
  (Standard_output, lit "p = [") :: separated 0 (getP r) ++ [(Standard_output, endl (lit "]"))] ++
  (Standard_output, lit "q = [") :: separated 0 (getQ r) ++ [(Standard_output, endl (lit "]"))].
Fixpoint print_channels (i : nat) (rs : list (option rf1)) : list (dest * str) :=
  match rs with
  | [] => []
  | c :: rs' =>
      [(Stream, lit "dimension "); (Stream, print_nat i); (Stream, lit ": ")] ++
      (match c with Some r => print_1d r ++ [(Stream, endl [])] | None => [(Stream, endl (lit "[NULL]"))] end) ++ print_channels (S i) rs'
  end.
Definition print_rf (f : rf) : list (dest * str) := print_channels 0 (firstn (f_dimY f) (f_rs f)).
End Print.
(** what arrives in a stream that is not the standard output, on the standard
    output then, and on the standard output when it is the stream *)
Fixpoint arrives (d : dest) (l : list (dest * str)) : str :=
  match l with
  | [] => []
  | (Stream, t) :: l' => (match d with Stream => t | Standard_output => [] end) ++ arrives d l'
  | (Standard_output, t) :: l' => (match d with Stream => [] | Standard_output => t end) ++ arrives d l'
  end.
Definition arrives_all (l : list (dest * str)) : str := flat_map snd l.

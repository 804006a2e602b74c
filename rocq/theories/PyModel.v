(** Model of the Python interface (sources/python/alta.cpp, wrapper_args.h,
    wrapper_vec.h): functions shared between expressions, dictionaries of
    options, vectors, data2data and brdf2data. *)
From Coq Require Import Reals List ZArith.
From Verif Require Import Base Num ParamsModel GeoModel CommonModel ArgsModel NlMoreModel FuncModel MetricsModel FitModel ConvModel.
Open Scope R_scope.

(** ** Function objects *)
(** A Python variable holds a shared pointer; compound_function and
    product_function store the pointers they are given (function.cpp:492-505,
    835-845), so one object can occur several times.  Objects are numbered in
    order of creation; an object only points to older ones.  [COther]: a function
    that is not a nonlinear_function, of which only value is modelled. *)
Definition loc := nat.
Inductive cell :=
| CLeaf (l : leaf_fn)
| CCompound (par : parameters) (fs : list (bool * loc))
| CProduct (par : parameters) (x1 x2 : bool) (a b : loc)
| COther (par : parameters) (val : mem -> outcome (list R)).
(** the objects, newest first, and the parameter vector of every plugin function *)
Record state := mkState { cells : list cell; store : loc -> list R }.
Definition put (s : loc -> list R) (a : loc) (p : list R) : loc -> list R := fun b => if Nat.eqb b a then p else s b.

Fixpoint all_some {A} (l : list (option A)) : option (list A) :=
  match l with
  | [] => Some []
  | None :: _ => None
  | Some a :: l' => match all_some l' with Some r => Some (a :: r) | None => None end
  end.
(** Object [a] with everything it points to, as a tree of FuncModel;
    dynamic_pointer_cast to nonlinear_function fails ([None]) for COther. *)
Fixpoint expand (cs : list cell) (s : loc -> list R) (a : loc) : option tree :=
  match cs with
  | [] => None
  | c :: cs' =>
      if Nat.eqb a (length cs') then
        match c with
        | CLeaf l => Some (Leaf l (s a))
        | CCompound par fs =>
            match all_some (map (fun f : bool * loc => match expand cs' s (snd f) with Some t => Some (fst f, t) | None => None end) fs) with
            | Some ts => Some (Compound par ts)
            | None => None
            end
        | CProduct par x1 x2 b1 b2 =>
            match expand cs' s b1, expand cs' s b2 with
            | Some t1, Some t2 => Some (Product par x1 x2 t1 t2)
            | _, _ => None
            end
        | COther _ _ => None
        end
      else expand cs' s a
  end.
(** A Python value of type function: None is a null pointer. *)
Definition handle := option loc.
Definition as_tree (st : state) (f : handle) : option tree :=
  match f with Some a => expand (cells st) (store st) a | None => None end.
Fixpoint cell_at (cs : list cell) (a : loc) : option cell :=
  match cs with [] => None | c :: cs' => if Nat.eqb a (length cs') then Some c else cell_at cs' a end.

(** function.cpp:664-674 and 1028-1037 nbParameters, on the objects *)
Fixpoint hnb (cs : list cell) (a : loc) : nat :=
  match cs with
  | [] => O
  | c :: cs' =>
      if Nat.eqb a (length cs') then
        match c with
        | CLeaf l => lf_nb l
        | CCompound _ fs => fold_right (fun (f : bool * loc) n => (if fst f then 0 else hnb cs' (snd f)) + n)%nat 0%nat fs
        | CProduct _ x1 x2 b1 b2 => ((if x1 then 0 else hnb cs' b1) + (if x2 then 0 else hnb cs' b2))%nat
        | COther _ _ => O
        end
      else hnb cs' a
  end.
(** function.cpp:752-772: the loop of compound_function::setParameters, each
    sub-object being updated in place *)
Definition hset_loop (n_of : loc -> nat) (set : loc -> list R -> (loc -> list R) -> outcome (loc -> list R)) (p : list R) :=
  fix loop (fs : list (bool * loc)) (cur : nat) (s : loc -> list R) : outcome (loc -> list R) :=
    match fs with
    | [] => Ok s
    | f :: fs' =>
        let n := n_of (snd f) in
        if ((0 <? n) && negb (fst f))%nat then
          do q <- slice p cur n; do s' <- set (snd f) q s; loop fs' (cur + n)%nat s'
        else loop fs' cur s
    end.
(** function.cpp:752-772 and 1075-1106 setParameters *)
Fixpoint hset (cs : list cell) (a : loc) (p : list R) (s : loc -> list R) : outcome (loc -> list R) :=
  match cs with
  | [] => UB
  | c :: cs' =>
      if Nat.eqb a (length cs') then
        match c with
        | CLeaf l => Ok (put s a p)
        | CCompound _ fs => hset_loop (hnb cs') (hset cs') p fs 0 s
        | CProduct _ x1 x2 b1 b2 =>
            let n1 := if x1 then 0%nat else hnb cs' b1 in
            do s1 <- (if x1 then Ok s else do q <- slice p 0 n1; hset cs' b1 q s);
            if x2 then Ok s1 else do q <- slice p n1 (hnb cs' b2); hset cs' b2 q s1
        | COther _ _ => UB
        end
      else hset cs' a p s
  end.

(** alta.cpp:44-53 get_function, for a plugin that provides the function [l] with parameters [p] *)
Definition py_new (st : state) (l : leaf_fn) (p : list R) : state * handle :=
  (mkState (CLeaf l :: cells st) (put (store st) (length (cells st)) p), Some (length (cells st))).
(** the same for a function that is not a nonlinear_function *)
Definition py_new_other (st : state) (par : parameters) (val : mem -> outcome (list R)) : state * handle :=
  (mkState (COther par val :: cells st) (store st), Some (length (cells st))).
(** alta.cpp:107-127 add_function (f1 + f2): the arguments given for the parts are
    empty, so that neither is fixed *)
Definition py_add (st : state) (f1 f2 : handle) : outcome (state * handle) :=
  match f1, f2, as_tree st f1, as_tree st f2 with
  | Some a, Some b, Some t1, Some t2 =>
      do par <- compound_parameters [par_of t1; par_of t2];
      Ok (mkState (CCompound par [(false, a); (false, b)] :: cells st) (store st), Some (length (cells st)))
  | _, _, _, _ => Ok (st, None)
  end.
(** alta.cpp:128-141 mult_function (f1 * f2) *)
Definition py_mult (st : state) (f1 f2 : handle) : outcome (state * handle) :=
  match f1, f2, as_tree st f1, as_tree st f2 with
  | Some a, Some b, Some t1, Some t2 =>
      Ok (mkState (CProduct (product_parameters (par_of t1) (par_of t2)) false false a b :: cells st) (store st), Some (length (cells st)))
  | _, _, _, _ => Ok (st, None)
  end.
(** alta.cpp:147-172 set_function_params (f.set(v)) *)
Definition py_set (st : state) (f : handle) (v : list R) : outcome state :=
  match f, as_tree st f with
  | Some a, Some t =>
      if Nat.eqb (hnb (cells st) a) (length v) then do s <- hset (cells st) a v (store st); Ok (mkState (cells st) s)
      else Ok st
  | _, _ => Ok st
  end.
(** alta.cpp:174-183 get_function_params (f.get()); reading changes no object *)
Definition py_get (junk : R) (st : state) (f : handle) : outcome (list R) :=
  match as_tree st f with Some t => get_parameters junk t | None => Ok [] end.
(** f.value(x); pybind11 raises a TypeError for None *)
Definition py_value (junk : R) (st : state) (f : handle) (x : mem) : outcome (list R) :=
  match f with
  | None => Throw
  | Some a =>
      match expand (cells st) (store st) a, cell_at (cells st) a with
      | Some t, _ => value junk t x
      | None, Some (COther _ val) => val x
      | None, _ => UB
      end
  end.
Definition py_empty : state := mkState [] (fun _ => []).

(** ** arguments *)
(** wrapper_args.h:43-49: arguments built from a dictionary; the keys and values
    are the texts str() gives, in the order of the dictionary. *)
Definition py_arguments (d : list (str * str)) : arguments :=
  fold_left (fun a kv => update a (fst kv) (snd kv)) d [].

(** ** vec *)
(** wrapper_vec.h:73-76 __getitem__: pybind11 raises a TypeError for an index that is
    not an unsigned int *)
Definition py_vec_get (v : list R) (i : Z) : outcome R :=
  if (i <? 0)%Z || (2 ^ 32 <=? i)%Z then Throw
  else if (Z.of_nat (length v) <=? i)%Z then Throw
  else match nth_error v (Z.to_nat i) with Some x => Ok x | None => UB end.
(** wrapper_vec.h:27-29 vec_set_item: Eigen's range check; a TypeError for an index
    that is not an int *)
Definition py_vec_set (v : list R) (i : Z) (x : R) : outcome (list R) :=
  if (i <? - 2 ^ 31)%Z || (2 ^ 31 <=? i)%Z then Throw
  else if (0 <=? i)%Z && (i <? Z.of_nat (length v))%Z then Ok (upd v (Z.to_nat i) x) else Abort.
(** wrapper_vec.h:33-38 vec_add, vec_sub *)
Definition py_vec_add (a b : list R) : outcome (list R) := add_checked a b.
Definition py_vec_sub (a b : list R) : outcome (list R) :=
  if (length a =? length b)%nat then Ok (map (fun q => fst q - snd q) (combine a b)) else Abort.
(** wrapper_vec.h:48-57 vec_str *)
Fixpoint join_commas (first : bool) (l : list str) : str :=
  match l with
  | [] => []
  | t :: l' => ((if first then [] else lit ", ") ++ t ++ join_commas false l')%list
  end.
Definition py_vec_str (print : R -> str) (v : list R) : str := (lit "[" ++ join_commas true (map print v) ++ lit "]")%list.
(** list(v): Python's iteration over an object with __getitem__ asks for the
    items 0, 1, ... until IndexError *)
Fixpoint py_list (fuel : nat) (v : list R) (i : Z) : option (list R) :=
  match fuel with
  | O => None
  | S fuel' => match py_vec_get v i with
               | Ok x => match py_list fuel' v (i + 1) with Some l => Some (x :: l) | None => None end
               | _ => Some []
               end
  end.

(** ** data2data and brdf2data *)
(** alta.cpp:229-250, the body of the loop of data2data: the row of
    dimX + 3 dimY numbers of a new vertical_segment with asymmetrical intervals.
    The array is not initialised ([junk]).  A parametrization with more coordinates than
    the row has columns overruns the row; this is counted as undefined even
    where the overrun ends in the next row of the array. *)
Definition py_row (junk : R) (pin target : parameters) (r : list R) : outcome (list R) :=
  let width := (dimX target + 3 * dimY target)%nat in
  if (length r <? Z.to_nat (dimension_in (in_param pin)))%nat then UB
  else if (width <? Z.to_nat (dimension_in (in_param target)))%nat then UB
  else
    do t1 <- convert (row_mem r) (in_param pin) (in_param target) (fun _ => junk);
    if (length r <=? dimX pin)%nat then Abort
    else if (length r <? dimX pin + dimY pin)%nat then UB else
    do t2 <- convert_out (fun j => row_mem r (dimX pin + j)%nat) (dimY pin) (dimY target) (fun j => t1 (dimX target + j)%nat);
    Ok (List.map (fun j => if (j <? dimX target)%nat then t1 j
                           else if (j <? dimX target + dimY target)%nat then t2 (j - dimX target)%nat
                           else 0) (seq 0 width)).
Fixpoint py_rows (junk : R) (pin target : parameters) (rows : list (list R)) : outcome (list (list R)) :=
  match rows with
  | [] => Ok []
  | r :: rows' => do o <- py_row junk pin target r; do os <- py_rows junk pin target rows'; Ok (o :: os)
  end.
(** alta.cpp:216-256 data2data: parametrization and rows of the result *)
Definition py_data2data (junk : R) (pin target : parameters) (rows : list (list R)) : outcome (parameters * list (list R)) :=
  do os <- py_rows junk pin target rows; Ok (target, os).

(** alta.cpp:286-288: x[dimX + j] = y[j] for j < dimY *)
Fixpoint overwrite (x y : list R) (off j n : nat) : outcome (list R) :=
  match n with
  | O => Ok x
  | S n' => do v <- rd y j; do x' <- wr x (off + j) v; overwrite x' y off (S j) n'
  end.
(** alta.cpp:271-291, the body of the loop of brdf2data; [temp] outlives an iteration *)
Definition py_export_row (pf pd : parameters) (val : list R -> outcome (list R)) (i : nat) (x : list R) (st : mem * list (list R)) : outcome (mem * list (list R)) :=
  let '(temp, rows) := st in
  do t <- eval_point pf pd false x temp;
  do y <- val (vec_of pf t);
  do x' <- overwrite x y (dimX pd) 0 (dimY pd);
  do rows' <- set_row i x' rows;
  Ok (t, rows').
(** alta.cpp:264-292 brdf2data *)
Definition py_brdf2data (junk : R) (pf pd : parameters) (val : list R -> outcome (list R)) (rows : list (list R)) : outcome (list (list R)) :=
  match rows with
  | [] => Ok []
  | _ => do st <- each (py_export_row pf pd val) 0 rows (fun _ => junk, rows); Ok (snd st)
  end.

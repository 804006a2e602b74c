(** Model of sources/core/function.h and function.cpp: trees of compound and
    product functions over leaf functions (the plugins).  Scalars are real
    numbers; Eigen's index and size assertions end the process ([Abort]).
    Every function object occurs once in a tree (plugins_manager creates a fresh
    object per name), so a tree is a value and setParameters returns a new one. *)
From Coq Require Import Reals List.
From Verif Require Import Base ParamsModel GeoModel CommonModel.
Open Scope R_scope.

(** A plugin function: parametrization, number of parameters, value and
    Jacobian as functions of the parameter vector and the point, bounds. *)
Record leaf_fn := mkLeaf {
  lf_par : parameters;
  lf_nb : nat;
  lf_value : list R -> mem -> list R;
  lf_jac : list R -> mem -> list R;
  lf_min : list R;
  lf_max : list R }.

(** A function object with its current parameters.  [par] is the
    parametrization computed by the constructor; the flags are is_fixed. *)
Inductive tree :=
| Leaf (l : leaf_fn) (p : list R)
| Compound (par : parameters) (fs : list (bool * tree))
| Product (par : parameters) (fix1 fix2 : bool) (f1 f2 : tree).

Definition par_of (t : tree) : parameters :=
  match t with Leaf l _ => lf_par l | Compound p _ => p | Product p _ _ _ _ => p end.

(** ** Vectors *)
(** v[i] with Eigen's range check *)
Definition rd (v : list R) (i : nat) : outcome R :=
  match nth_error v i with Some x => Ok x | None => Abort end.
Fixpoint upd (v : list R) (i : nat) (x : R) : list R :=
  match v, i with
  | [], _ => []
  | _ :: t, O => x :: t
  | y :: t, S i' => y :: upd t i' x
  end.
Definition wr (v : list R) (i : nat) (x : R) : outcome (list R) :=
  if (i <? length v)%nat then Ok (upd v i x) else Abort.
(** for(int i=k; i<k+n; ++i) *)
Fixpoint for_ {S} (n k : nat) (body : nat -> S -> outcome S) (s : S) : outcome S :=
  match n with
  | O => Ok s
  | Datatypes.S n' => do s' <- body k s; for_ n' (Datatypes.S k) body s'
  end.
(** the copy loops: dst[i + off] = src[i] for i < n *)
Definition blit (dst : list R) (off : nat) (src : list R) (n : nat) : outcome (list R) :=
  for_ n 0 (fun i d => do x <- rd src i; wr d (i + off) x) dst.
(** f_params[i] = p[i + off] for i < n *)
Fixpoint slice (p : list R) (off n : nat) : outcome (list R) :=
  match n with
  | O => Ok []
  | S n' => do x <- rd p off; do r <- slice p (S off) n'; Ok (x :: r)
  end.
Fixpoint vadd (a b : list R) : list R :=
  match a, b with x :: a', y :: b' => x + y :: vadd a' b' | _, _ => [] end.
Definition add_checked (a b : list R) : outcome (list R) :=
  if (length a =? length b)%nat then Ok (vadd a b) else Abort.

(** function.cpp:664-674 and 1028-1037 nbParameters *)
Fixpoint nb (t : tree) : nat :=
  match t with
  | Leaf l _ => lf_nb l
  | Compound _ fs => fold_right (fun (f : bool * tree) n => (if fst f then 0 else nb (snd f)) + n)%nat 0%nat fs
  | Product _ x1 x2 f1 f2 => ((if x1 then 0 else nb f1) + (if x2 then 0 else nb f2))%nat
  end.

(** Content of memory that has not been written: an arbitrary number. *)
Section Uninit.
Variable junk : R.

(** loop over the sub-functions of a compound, filling the blocks of [out] *)
Definition gather_loop (g : tree -> outcome (list R)) :=
  fix loop (fs : list (bool * tree)) (cur : nat) (out : list R) : outcome (list R) :=
    match fs with
    | [] => Ok out
    | f :: fs' =>
        let n := nb (snd f) in
        if ((0 <? n) && negb (fst f))%nat then
          do p <- g (snd f); do out' <- blit out cur p n; loop fs' (cur + n)%nat out'
        else loop fs' cur out
    end.
(** function.cpp:677-749, 1039-1073 and 1109-1175 (parameters, getParametersMin,
    getParametersMax of compound and product functions): the three copies of
    the code differ in what is read from a leaf, [sel].  A new vector of size
    nbParameters is filled block by block. *)
Fixpoint gather (sel : leaf_fn -> list R -> list R) (t : tree) : outcome (list R) :=
  match t with
  | Leaf l p => Ok (sel l p)
  | Compound _ fs =>
      gather_loop (gather sel) fs 0 (repeat junk (nb t))
  | Product _ x1 x2 f1 f2 =>
      let out := repeat junk (nb t) in
      let n1 := if x1 then 0%nat else nb f1 in
      do out1 <- (if x1 then Ok out else do p <- gather sel f1; blit out 0 p n1);
      if x2 then Ok out1 else do p <- gather sel f2; blit out1 n1 p (nb f2)
  end.
Definition get_parameters := gather (fun _ p => p).
Definition get_parameters_min := gather (fun l _ => lf_min l).
Definition get_parameters_max := gather (fun l _ => lf_max l).

Definition set_loop (set : tree -> list R -> outcome tree) (p : list R) :=
  fix loop (fs : list (bool * tree)) (cur : nat) : outcome (list (bool * tree)) :=
    match fs with
    | [] => Ok []
    | f :: fs' =>
        let n := nb (snd f) in
        if ((0 <? n) && negb (fst f))%nat then
          do q <- slice p cur n; do g <- set (snd f) q; do r <- loop fs' (cur + n)%nat; Ok ((fst f, g) :: r)
        else do r <- loop fs' cur; Ok (f :: r)
    end.
(** function.cpp:752-772 and 1075-1106 setParameters *)
Fixpoint set_parameters (t : tree) (p : list R) : outcome tree :=
  match t with
  | Leaf l _ => Ok (Leaf l p)
  | Compound par fs =>
      do fs' <- set_loop set_parameters p fs 0;
      Ok (Compound par fs')
  | Product par x1 x2 f1 f2 =>
      let n1 := if x1 then 0%nat else nb f1 in
      do g1 <- (if x1 then Ok f1 else do q <- slice p 0 n1; set_parameters f1 q);
      do g2 <- (if x2 then Ok f2 else do q <- slice p n1 (nb f2); set_parameters f2 q);
      Ok (Product par x1 x2 g1 g2)
  end.

(** vec temp_x(dimX()); params::convert(&x[0], ..., &temp_x[0]): writing
    dimension() components into a vector of dimX() entries. *)
Definition child_point (x : mem) (from : input) (child : parameters) : outcome mem :=
  if (dimX child <? Z.to_nat (dimension_in (in_param child)))%nat then UB
  else convert x from (in_param child) (fun _ => junk).

Definition value_loop (val : tree -> mem -> outcome (list R)) (par : parameters) (x : mem) :=
  fix loop (fs : list (bool * tree)) (res : list R) : outcome (list R) :=
    match fs with
    | [] => Ok res
    | f :: fs' =>
        do x' <- child_point x (in_param par) (par_of (snd f));
        do v <- val (snd f) x'; do res' <- add_checked res v; loop fs' res'
    end.
(** function.cpp:410-421 and 856-877 value *)
Fixpoint value (t : tree) (x : mem) : outcome (list R) :=
  match t with
  | Leaf l p => Ok (lf_value l p x)
  | Compound par fs =>
      value_loop value par x fs (repeat 0 (dimY par))
  | Product par _ _ f1 f2 =>
      do x1 <- child_point x (in_param par) (par_of f1); do v1 <- value f1 x1;
      do x2 <- child_point x (in_param par) (par_of f2); do v2 <- value f2 x2;
      product Rmult v1 v2
  end.

Definition jac_loop (jacob : tree -> mem -> outcome (list R)) (par : parameters) (nbp : nat) (x : mem) :=
  fix loop (fs : list (bool * tree)) (start : nat) (jac : list R) : outcome (list R) :=
    match fs with
    | [] => Ok jac
    | f :: fs' =>
        let n := nb (snd f) in
        if ((0 <? n) && negb (fst f))%nat then
          do x' <- child_point x (in_param par) (par_of (snd f));
          do fj <- jacob (snd f) x';
          do jac' <- for_ n 0 (fun i j => for_ (dimY par) 0 (fun y j =>
                       do v <- rd fj (y * n + i); wr j (y * nbp + (i + start)) v) j) jac;
          loop fs' (start + n)%nat jac'
        else loop fs' start jac
    end.
(** function.cpp:423-458 and 1177-1240 parametersJacobian *)
Fixpoint jacobian (t : tree) (x : mem) : outcome (list R) :=
  match t with
  | Leaf l p => Ok (lf_jac l p x)
  | Compound par fs =>
      let nbp := nb t in jac_loop jacobian par nbp x fs 0 (repeat 0 (nbp * dimY par))
  | Product par fx1 fx2 f1 f2 =>
      let nbp := nb t in let n1 := nb f1 in let n2 := nb f2 in
      do x2 <- child_point x (in_param par) (par_of f2);
      do x1 <- child_point x (in_param par) (par_of f1);
      do v1 <- value f1 x1; do v2 <- value f2 x2;
      do j1 <- jacobian f1 x1; do j2 <- jacobian f2 x2;
      for_ (dimY par) 0 (fun y jac =>
        do jac1 <- (if fx1 then Ok jac else
           for_ n1 0 (fun i j => do a <- rd j1 (y * n1 + i); do b <- rd v2 y; wr j (y * nbp + i) (a * b)) jac);
        if fx2 then Ok jac1 else
           for_ n2 0 (fun i j => do a <- rd j2 (y * n2 + i); do b <- rd v1 y;
                                 wr j (y * nbp + (if fx1 then i else i + n1)) (a * b)) jac1)
        (repeat 0 (nbp * dimY par))
  end.
End Uninit.

(** ** Construction *)
(** params.h:490-493 set_input *)
Definition set_input (p : parameters) (d : nat) (i : input) : parameters := mkParameters d (dimY p) i (out_param p).

(** function.cpp:461-490 compound_parameters; the assertion refuses an empty
    list, abort() a mismatch of outputs. *)
Fixpoint compound_parameters_loop (r : parameters) (l : list parameters) : outcome parameters :=
  match l with
  | [] => Ok r
  | f :: l' =>
      let r1 := if input_eqb (in_param r) UNKNOWN_INPUT then mkParameters (dimX r) (dimY r) (in_param f) (out_param r)
                else if input_eqb (in_param r) (in_param f) then r else set_input r 6 CARTESIAN in
      if output_eqb (out_param r1) UNKNOWN_OUTPUT
      then compound_parameters_loop (mkParameters (dimX r1) (dimY r1) (in_param r1) (out_param f)) l'
      else if output_eqb (out_param r1) (out_param f) then compound_parameters_loop r1 l' else Abort
  end.
Definition compound_parameters (l : list parameters) : outcome parameters :=
  match l with [] => Abort | f :: _ => compound_parameters_loop f l end.
(** function.cpp:492-505 compound_function constructor *)
Definition make_compound (fs : list (bool * tree)) : outcome tree :=
  do p <- compound_parameters (map (fun f => par_of (snd f)) fs); Ok (Compound p fs).
(** function.cpp:816-845 product_parameters and constructor *)
Definition product_parameters (p q : parameters) : parameters :=
  if input_eqb (in_param p) (in_param q) then p else mkParameters 6 (dimY p) CARTESIAN (out_param p).
Definition make_product (f1 f2 : tree) (x1 x2 : bool) : tree :=
  Product (product_parameters (par_of f1) (par_of f2)) x1 x2 f1 f2.

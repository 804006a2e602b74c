(** Model of the rational function plugins on other polynomial bases:
    sources/plugins/rational_function_chebychev, rational_function_legendre and
    rational_function_cosine, in real numbers.  They differ from the base class
    (RatModel) by the virtual basis functions p(x, i) and q(x, i), which find
    the exponents from the index, and by the widening of flat domains. *)
From Coq Require Import Reals List Arith.
From Verif Require Import Base Num ParamsModel GeoModel ArgsModel DataModel TextModel FuncModel MonoModel FuncFile RatModel.
Open Scope R_scope.

(** rational_function_chebychev/rational_function.cpp:65-80 recursive_chebychev *)
Fixpoint recursive_chebychev (x : R) (i : nat) : R :=
  match i with
  | 0%nat => 1
  | 1%nat => x
  | 2%nat => 2 * x * x - 1
  | 3%nat => (4 * x * x - 3) * x
  | 4%nat => 8 * (x * x - 1) * x * x + 1
  | S (S j as i') => 2 * x * recursive_chebychev x i' - recursive_chebychev x j
  end.
(** rational_function_chebychev/rational_function.cpp:82-92 chebychev, without
    RECURSIVE_FORM (that branch forgets its return) *)
Definition chebychev (x : R) (i : nat) : R :=
  if Rle_dec (Rabs x) 1 then cos (INR i * acos x) else recursive_chebychev x i.
(** rational_function_legendre/rational_function.cpp:32-46 legendre *)
Fixpoint legendre (x : R) (i : nat) : R :=
  match i with
  | 0%nat => 1
  | 1%nat => x
  | S (S j as i') => ((2 * INR i - 1) * x * legendre x i' - (INR i - 1) * legendre x j) / INR i
  end.
(** rational_function_cosine/rational_function.cpp:30-68 legendre *)
Fixpoint legendre_cos (x : R) (i : nat) : R :=
  match i with
  | 0%nat => 1
  | 1%nat => x
  | 2%nat => (3 * x * x - 1) * (1 / 2)
  | 3%nat => ((5 * x * x - 3) * x) * (1 / 2)
  | 4%nat => ((7 * x * x - 6) * 5 * x * x + 3) * (1 / 8)
  | 5%nat => (((63 * x * x - 70) * x * x + 15) * x) * (1 / 8)
  | 6%nat => (((231 * x * x - 315) * x * x + 105) * x * x - 5) * (1 / 16)
  | 7%nat => ((((429 * x * x - 693) * x * x + 315) * x * x - 35) * x) * (1 / 16)
  | S (S j as i') => ((2 * INR i - 1) * x * legendre_cos x i' - (INR i - 1) * legendre_cos x j) / INR i
  end.

(** p(x, i) of the three plugins (chebychev 95-118, legendre 49-63, cosine
    71-103): the product over the inputs, [k] onwards *)
Fixpoint basis_loop_with (B : R -> nat -> R) (n k : nat) (mn mx x : list R) (deg : list nat) (res : R) : outcome R :=
  match n with
  | O => Ok res
  | S n' =>
      do xk <- rd x k; do lo <- rd mn k; do hi <- rd mx k;
      match nth_error deg k with
      | None => UB
      | Some e => basis_loop_with B n' (S k) mn mx x deg (res * B (2 * ((xk - lo) / (hi - lo) - 5 / 10)) e)
      end
  end.
Definition basis_with (B : R -> nat -> R) (r : rf1) (x : list R) (i : nat) : outcome R :=
  basis_loop_with B (r_dim r) 0 (r_min r) (r_max r) x (index2degree (r_dim r) i) 1.
(** core/rational_function.cpp:456-479 value, calling a virtual p(x, i) *)
Fixpoint combination_with (p : list R -> nat -> outcome R) (x : list R) (i : nat) (cs : list coeff) (acc : R) : outcome R :=
  match cs with [] => Ok acc | c :: cs' => do m <- p x i; combination_with p x (S i) cs' (acc + co_a c * m) end.
Definition value_with (p q : list R -> nat -> outcome R) (r : rf1) (x : list R) : outcome R :=
  do a <- combination_with p x 0 (r_p r) 0; do b <- combination_with q x 0 (r_q r) 0; Ok (a / b).
Definition value_chebychev (r : rf1) (x : list R) : outcome R :=
  value_with (basis_with chebychev r) (basis_with chebychev r) r x.
Definition value_legendre (r : rf1) (x : list R) : outcome R :=
  value_with (basis_with legendre r) (basis_with legendre r) r x.
(** rational_function_cosine/rational_function.cpp:71-92: the numerator is
    multiplied by the two elevations unless the parametrization is unknown.
    [cart] is uninitialised memory the conversion fills. *)
Definition basis_cosine (ip : input) (cart : mem) (r : rf1) (x : list R) (i : nat) : outcome R :=
  do res <- basis_with legendre_cos r x i;
  if input_eqb ip UNKNOWN_INPUT then Ok res
  else do c <- convert (fun k => nth k x 0) ip CARTESIAN cart; Ok (res * (c 2%nat * c 5%nat)).
Definition value_cosine (ip : input) (cart : mem) (r : rf1) (x : list R) : outcome R :=
  value_with (basis_cosine ip cart r) (basis_with legendre_cos r) r x.

(** the get(i) of the three plugins (chebychev 120-150, legendre and cosine
    rational_function.h): flat sides are widened by 1 *)
Fixpoint inflate_one (mn mx : list R) : list R * list R :=
  match mn, mx with
  | a :: mn', b :: mx' => let (u, v) := inflate_one mn' mx' in
      if Req_EM_T a b then (a - 1 :: u, b + 1 :: v) else (a :: u, b :: v)
  | _, _ => (mn, mx)
  end.
Section Get.
Variable junk : R.
Definition get_one (f : rf) (i : nat) : outcome (option rf1 * rf) :=
  if (i <? f_dimY f)%nat then
    match nth_error (f_rs f) i with
    | None => UB
    | Some (Some r) => Ok (Some r, f)
    | Some None =>
        if ((length (f_min f) <? f_dimX f) || (length (f_max f) <? f_dimX f))%nat then Abort else
        let (mn, mx) := inflate_one (f_min f) (f_max f) in
        let r := set_domain (new_rf1 junk (f_dimX f) (f_np f) (f_nq f)) mn mx in
        Ok (Some r, set_channel f i r)
    end
  else Ok (None, f).
End Get.

(** Model of rational functions (sources/core/rational_function.cpp and .h), in
    real numbers.  A quotient whose denominator vanishes is an infinity or NaN
    in the code and an unspecified number here; no statement relies on it. *)
From Coq Require Import Reals List Arith.
From Verif Require Import Base Num ParamsModel GeoModel ArgsModel DataModel TextModel FuncModel MonoModel FuncFile.
Open Scope R_scope.

(** rational_function.h:151-161 struct coeff; a default constructed one has an
    uninitialised number and no exponents *)
Record coeff := mkCoeff { co_a : R; co_deg : list nat }.
(** rational_function.h:163-166, function.h:126-129 *)
Record rf1 := mkRf1 { r_dim : nat; r_min : list R; r_max : list R; r_p : list coeff; r_q : list coeff }.

Section Rat.
Variable junk : R.

(** std::vector<coeff>::resize *)
Definition vector_resize (cs : list coeff) (n : nat) : list coeff :=
  firstn n cs ++ repeat (mkCoeff junk []) (n - length cs).
(** for k: _coeffs[k].deg = index2degree(k) *)
Fixpoint set_degrees (dim k : nat) (cs : list coeff) : list coeff :=
  match cs with [] => [] | c :: cs' => mkCoeff (co_a c) (index2degree dim k) :: set_degrees dim (S k) cs' end.
Definition resize_coeffs (dim : nat) (cs : list coeff) (n : nat) : list coeff :=
  if (length cs =? n)%nat then cs else set_degrees dim 0 (vector_resize cs n).
(** rational_function.cpp:231-260 resize *)
Definition resize (r : rf1) (np nq : nat) : rf1 :=
  if (r_dim r =? 0)%nat then r
  else mkRf1 (r_dim r) (r_min r) (r_max r) (resize_coeffs (r_dim r) (r_p r) np) (resize_coeffs (r_dim r) (r_q r) nq).
(** rational_function.cpp:31-37: a new function of [nX] inputs; its domain is
    [0,0] until setMin and setMax are called *)
Definition new_rf1 (nX np nq : nat) : rf1 := resize (mkRf1 nX (repeat 0 nX) (repeat 0 nX) [] []) np nq.
Definition set_domain (r : rf1) (mn mx : list R) : rf1 := mkRf1 (r_dim r) mn mx (r_p r) (r_q r).

(** for k: _coeffs[k].a = in[k] / b0 *)
Fixpoint assign (cs : list coeff) (v : list R) (b0 : R) : list coeff :=
  match cs, v with c :: cs', x :: v' => mkCoeff (x / b0) (co_deg c) :: assign cs' v' b0 | _, _ => [] end.
(** rational_function.cpp:178-210 update(a, b) *)
Definition update (r : rf1) (a b : list R) : outcome rf1 :=
  let ps := if (length a =? length (r_p r))%nat then r_p r else vector_resize (r_p r) (length a) in
  let qs := if (length b =? length (r_q r))%nat then r_q r else vector_resize (r_q r) (length b) in
  match b with
  | [] => Abort
  | b_0 :: _ =>
      let b0 := if rltb (1 / 10 ^ 16) (Rabs b_0) then b_0 else 1 in
      Ok (mkRf1 (r_dim r) (r_min r) (r_max r) (assign ps a b0) (assign qs b b0))
  end.
(** rational_function.h:110-134 getP, getQ *)
Definition getP (r : rf1) : list R := map co_a (r_p r).
Definition getQ (r : rf1) : list R := map co_a (r_q r).
(** rational_function.cpp:212-229 update from another 1d function *)
Definition update_from (r s : rf1) : outcome rf1 :=
  let r' := resize r (length (r_p s)) (length (r_q s)) in
  if (length (r_p r') =? length (r_p s))%nat && (length (r_q r') =? length (r_q s))%nat then
    Ok (mkRf1 (r_dim r') (r_min r') (r_max r') (assign (r_p r') (getP s) 1) (assign (r_q r') (getQ s) 1))
  else UB.

(** rational_function.cpp:432-453: p(x, i) and q(x, i), inputs [k] onwards;
    x, _min and _max are range checked vectors, deg is not *)
Fixpoint basis_loop (n k : nat) (mn mx x : list R) (deg : list nat) (res : R) : outcome R :=
  match n with
  | O => Ok res
  | S n' =>
      do xk <- rd x k; do lo <- rd mn k; do hi <- rd mx k;
      match nth_error deg k with
      | None => UB
      | Some e => basis_loop n' (S k) mn mx x deg (res * (2 * ((xk - lo) / (hi - lo) - 5 / 10)) ^ e)
      end
  end.
Definition basis (r : rf1) (x : list R) (c : coeff) : outcome R := basis_loop (r_dim r) 0 (r_min r) (r_max r) x (co_deg c) 1.
(** for i: acc += coeffs[i].a * p(x, i) *)
Fixpoint combination (r : rf1) (x : list R) (cs : list coeff) (acc : R) : outcome R :=
  match cs with [] => Ok acc | c :: cs' => do m <- basis r x c; combination r x cs' (acc + co_a c * m) end.
(** rational_function.cpp:456-479 value *)
Definition value1 (r : rf1) (x : list R) : outcome R :=
  do p <- combination r x (r_p r) 0; do q <- combination r x (r_q r) 0; Ok (p / q).
(** rational_function.cpp:264-288: p(x) and q(x) add to an uninitialised entry *)
Definition p_value (r : rf1) (x : list R) : outcome R := combination r x (r_p r) junk.
Definition q_value (r : rf1) (x : list R) : outcome R := combination r x (r_q r) junk.

(** ** rational_function: one rational_function_1d per output, created on demand *)
Record rf := mkRf { f_dimX : nat; f_dimY : nat; f_min : list R; f_max : list R; f_np : nat; f_nq : nat; f_rs : list (option rf1) }.
(** rational_function.cpp:533-538 constructor *)
Definition new_rf (dx dy np nq : nat) : rf := mkRf dx dy (repeat 0 dx) (repeat 0 dx) np nq (repeat None dy).
Definition set_min (f : rf) (v : list R) : rf := mkRf (f_dimX f) (f_dimY f) v (f_max f) (f_np f) (f_nq f) (f_rs f).
Definition set_max (f : rf) (v : list R) : rf := mkRf (f_dimX f) (f_dimY f) (f_min f) v (f_np f) (f_nq f) (f_rs f).
Definition set_channel (f : rf) (i : nat) (r : rf1) : rf :=
  mkRf (f_dimX f) (f_dimY f) (f_min f) (f_max f) (f_np f) (f_nq f) (firstn i (f_rs f) ++ Some r :: skipn (S i) (f_rs f)).
(** rational_function.cpp:565-577: a dimension reduced to a point is inflated *)
Fixpoint inflate (mn mx : list R) : list R * list R :=
  match mn, mx with
  | a :: mn', b :: mx' => let (u, v) := inflate mn' mx' in
      if Req_EM_T a b then (a - 1 / 10 :: u, b + 1 / 10 :: v) else (a :: u, b :: v)
  | _, _ => (mn, mx)
  end.
(** rational_function.cpp:556-589 get(i): [None] is a null pointer *)
Definition get (f : rf) (i : nat) : outcome (option rf1 * rf) :=
  if (i <? f_dimY f)%nat then
    match nth_error (f_rs f) i with
    | None => UB
    | Some (Some r) => Ok (Some r, f)
    | Some None =>
        if ((length (f_min f) <? f_dimX f) || (length (f_max f) <? f_dimX f))%nat then Abort else
        let (mn, mx) := inflate (f_min f) (f_max f) in
        let r := set_domain (new_rf1 (f_dimX f) (f_np f) (f_nq f)) mn mx in
        Ok (Some r, set_channel f i r)
    end
  else Ok (None, f).
(** rational_function.cpp:607-616 value: a channel that was never asked for is
    a null pointer *)
Fixpoint value_channels (rs : list (option rf1)) (x : list R) : outcome (list R) :=
  match rs with
  | [] => Ok []
  | None :: _ => UB
  | Some r :: rs' => do v <- value1 r x; do t <- value_channels rs' x; Ok (v :: t)
  end.
Definition value_rf (f : rf) (x : list R) : outcome (list R) := value_channels (firstn (f_dimY f) (f_rs f)) x.

(** ** Files *)
Variable lex : str -> option (R * str).
Variable print : R -> str.

(** rational_function.cpp:87-116 save_body; exponents beyond the vector are UB *)
Fixpoint coeffs_text (dim : nat) (cs : list coeff) : outcome str :=
  match cs with
  | [] => Ok []
  | c :: cs' =>
      if (length (co_deg c) <? dim)%nat then UB else
      do t <- coeffs_text dim cs';
      Ok (flat_map (fun e => print_nat e ++ [tab]) (firstn dim (co_deg c)) ++ endl (print (co_a c)) ++ t)
  end.
Definition save_1d (r : rf1) : outcome str :=
  do tp <- coeffs_text (r_dim r) (r_p r); do tq <- coeffs_text (r_dim r) (r_q r);
  Ok (endl (lit "#NP " ++ print_nat (length (r_p r))) ++ endl (lit "#NQ " ++ print_nat (length (r_q r))) ++ tp ++ tq).
(** rational_function.cpp:680-702 save_call *)
Fixpoint channels_text (rs : list (option rf1)) : outcome str :=
  match rs with
  | [] => Ok []
  | None :: rs' => channels_text rs'
  | Some r :: rs' => do t <- save_1d r; do u <- channels_text rs'; Ok (t ++ endl [] ++ u)
  end.
Definition domain_text (v : list R) : str := flat_map (fun x => print x ++ lit " ") v.
Definition save_rf (f : rf) : outcome str :=
  do t <- channels_text (firstn (f_dimY f) (f_rs f));
  Ok (endl (lit "#FUNC rational_function") ++ endl (lit "#MIN " ++ domain_text (firstn (f_dimX f) (f_min f)))
      ++ endl (lit "#MAX " ++ domain_text (firstn (f_dimX f) (f_max f))) ++ t).

(** in >> n for an int: [None] when n keeps its value *)
Definition scan_num (s : istream) : option Z * istream :=
  if good s then
    match skip_ws (rest s) with
    | [] => (None, {| rest := []; eofbit := true; failbit := true |})
    | r => match scan_int r with
           | (Some z, r') => (Some z, {| rest := r'; eofbit := match r' with [] => true | _ => false end; failbit := false |})
           | (None, r') => (Some 0%Z, {| rest := r'; eofbit := false; failbit := true |})
           end
    end
  else (None, set_fail s).
(** n times in >> token *)
Fixpoint skip_tokens (n : nat) (s : istream) : istream :=
  match n with O => s | S n' => skip_tokens n' (snd (scan_string s)) end.
(** rational_function.cpp:57-75: the exponents are skipped; a coefficient that
    is not read is used uninitialised *)
Fixpoint read_coeffs (n dim : nat) (s : istream) : outcome (list R * istream) :=
  match n with
  | O => Ok ([], s)
  | S n' =>
      match scan_double lex (skip_tokens dim s) with
      | (None, _) => UB
      | (Some v, s2) => do r <- read_coeffs n' dim s2; Ok (v :: fst r, snd r)
      end
  end.
(** rational_function.cpp:39-82 load *)
Definition load_1d (r : rf1) (s : istream) : outcome (bool * rf1 * istream) :=
  let (t1, s1) := scan_string s in
  match t1 with
  | None => Ok (false, r, s1)
  | Some tok =>
    if negb (str_eqb tok "#NP"%string) then Ok (false, r, s1) else
    let (np, s2) := scan_num s1 in
    let (t2, s3) := scan_string s2 in
    let (nq, s4) := scan_num s3 in
    match t2 with
    | None => Ok (false, r, s4)
    | Some tok2 =>
      if negb (str_eqb tok2 "#NQ"%string) then Ok (false, r, s4) else
      match np, nq with
      | Some np, Some nq =>
          if ((np <? 0) || (nq <? 0))%Z then Abort else
          do a <- read_coeffs (Z.to_nat np) (r_dim r) s4;
          do b <- read_coeffs (Z.to_nat nq) (r_dim r) (snd a);
          do r' <- update (resize r (Z.to_nat np) (Z.to_nat nq)) (fst a) (fst b);
          Ok (true, r', snd b)
      | _, _ => UB
      end
    end
  end.
(** for k: in >> min[k] *)
Fixpoint read_doubles (n : nat) (s : istream) : outcome (list R * istream) :=
  match n with
  | O => Ok ([], s)
  | S n' => match scan_double lex s with
            | (None, _) => UB
            | (Some v, s2) => do r <- read_doubles n' s2; Ok (v :: fst r, snd r)
            end
  end.
Fixpoint load_channels (n i : nat) (f : rf) (s : istream) : outcome (bool * rf * istream) :=
  match n with
  | O => Ok (true, f, s)
  | S n' =>
      do g <- get f i;
      match g with
      | (None, _) => UB
      | (Some r, f') =>
          do l <- load_1d r s;
          let '(b, r', s') := l in
          if b then load_channels n' (S i) (set_channel f' i r') s' else Ok (false, f', s')
      end
  end.
(** rational_function.cpp:619-678 load *)
Definition load_rf (f : rf) (s : istream) : outcome (bool * rf * istream) :=
  let (found, s1) := skip_lines (S (length (rest s))) s in
  if negb found then Ok (false, f, s1) else
  let (t1, s2) := scan_string s1 in
  let (t2, s3) := scan_string s2 in
  let (t3, s4) := scan_string s3 in
  match t1, t2, t3 with
  | Some k1, Some k2, Some k3 =>
      if negb (str_eqb k1 "#FUNC"%string) then Ok (false, f, s2) else
      if negb (str_eqb k2 "rational_function"%string) then Ok (false, f, s3) else
      if negb (str_eqb k3 "#MIN"%string) then Ok (false, f, s4) else
      do mn <- read_doubles (f_dimX f) s4;
      let f1 := set_min f (fst mn) in
      let (t4, s5) := scan_string (snd mn) in
      match t4 with
      | Some k4 =>
          if negb (str_eqb k4 "#MAX"%string) then Ok (false, f1, s5) else
          do mx <- read_doubles (f_dimX f) s5;
          load_channels (f_dimY f) 0 (set_max f1 (fst mx)) (snd mx)
      | None => Ok (false, f1, s5)
      end
  | _, _, _ => Ok (false, f, s4)
  end.
End Rat.

(** Model of the non linear function plugins (the nonlinear directories of sources/plugins), in
    real numbers.  The plugins share one shape: [k] vectors with one entry per
    output channel, interleaved in the parameter vector, a value computed
    channel by channel and a Jacobian that is zero across channels.  The loops
    are modelled once; [nlf] holds what differs between the plugins.  Line ranges
    without a file are in function.cpp of the named plugin's directory.

    std::pow with a positive base is Rpower, with the literal exponents 2 and 5
    it is the integer power; M_PI is PI.  Divisions by zero give an unspecified
    number, theorems exclude them. *)
From Coq Require Import Reals List.
From Coquelicot Require Import Coquelicot.
From Verif Require Import Base ParamsModel GeoModel CommonModel FuncModel TextModel.
Open Scope R_scope.

Record nlf := mkNlf {
  f_k : nat;                              (* member vectors, parameters per channel *)
  f_geo : mem -> outcome (list R);        (* what the point is reduced to *)
  f_val : list R -> list R -> R;          (* value of a channel from its parameters *)
  f_jac : list R -> list R -> nat -> R;   (* derivative in the channel's parameter l *)
  f_trans : bool;                         (* the Jacobian is indexed jac[j*nY + i] *)
  f_sizes : nat -> nat;                   (* size of the vectors after construction *)
  f_start : list R                        (* bootstrap values of a channel *)
}.

Section Uninit.
Variable junk : R.
Variable F : nlf.
Variable nY : nat.
Notation k := (f_k F).

(** members[l][i] *)
Definition rd2 (st : list (list R)) (l i : nat) : outcome R :=
  match nth_error st l with Some a => rd a i | None => Abort end.
Fixpoint updl (st : list (list R)) (l : nat) (a : list R) : list (list R) :=
  match st, l with [], _ => [] | _ :: t, O => a :: t | b :: t, S l' => b :: updl t l' a end.
Definition wr2 (st : list (list R)) (l i : nat) (v : R) : outcome (list (list R)) :=
  match nth_error st l with Some a => do a' <- wr a i v; Ok (updl st l a') | None => Abort end.

(** constructors, e.g. nonlinear_function_blinn/function.cpp:29-34 *)
Definition members : list (list R) := repeat (repeat junk (f_sizes F nY)) k.
(** setParameters, e.g. blinn 133-140, abc 90-98, ward 109-117, beckmann 129-136,
    retroblinn 121-128, retrobeckmann 112-119, yoo 89-96, schlick 171-174,
    retroschlick 69-72, normalized_schlick 169-172, shadowing_schlick 161-164,
    smith 215-218, walter_smith 237-243, spherical_gaussian 170-174 *)
Definition set_params (p : list R) (st : list (list R)) : outcome (list (list R)) :=
  for_ nY 0 (fun i st => for_ k 0 (fun l st => do v <- rd p (i * k + l); wr2 st l i v) st) st.
(** parameters(), e.g. blinn 120-130, abc 63-73, ward 82-92 *)
Definition get_params (st : list (list R)) : outcome (list R) :=
  for_ nY 0 (fun i out => for_ k 0 (fun l out => do v <- rd2 st l i; wr out (i * k + l) v) out) (repeat junk (k * nY)).
(** the loops of bootstrap, e.g. blinn 178-185 *)
Definition start (st : list (list R)) : outcome (list (list R)) :=
  for_ nY 0 (fun i st => for_ k 0 (fun l st => wr2 st l i (nth l (f_start F) 0)) st) st.

(** the parameters of channel i *)
Fixpoint chan (n l : nat) (st : list (list R)) (i : nat) : outcome (list R) :=
  match n with O => Ok [] | S n' => do v <- rd2 st l i; do r <- chan n' (S l) st i; Ok (v :: r) end.
(** value(x), e.g. blinn 43-60 *)
Definition value (st : list (list R)) (x : mem) : outcome (list R) :=
  do g <- f_geo F x;
  for_ nY 0 (fun i res => do c <- chan k 0 st i; wr res i (f_val F g c)) (repeat junk nY).
(** parametersJacobian(x), e.g. blinn 144-176 (jac[i*nbParameters() + j*2 + l])
    and nonlinear_fresnel_schlick 178-202 (jac[j*nY + i]) *)
Definition jacobian (st : list (list R)) (x : mem) : outcome (list R) :=
  do g <- f_geo F x;
  for_ nY 0 (fun i jac => for_ nY 0 (fun j jac => for_ k 0 (fun l jac =>
    do v <- (if (i =? j)%nat then do c <- chan k 0 st i; Ok (f_jac F g c l) else Ok 0);
    wr jac (if f_trans F then j * nY + i else i * (k * nY) + j * k + l) v) jac) jac)
    (repeat junk (nY * (k * nY))).
End Uninit.

(** the entries of a channel's parameters *)
Definition p0 (c : list R) := nth 0 c 0.
Definition p1 (c : list R) := nth 1 c 0.
Definition p2 (c : list R) := nth 2 c 0.
Definition same (n : nat) := n.

(** ** nonlinear_function_blinn: ks, N.  value 43-60, Jacobian 144-176 *)
Definition blinn : nlf := mkNlf 2 (fun x => Ok [x 0%nat])
  (fun g c => if rltb 0 (p0 g) then p0 c * Rpower (p0 g) (p1 c) else 0)
  (fun g c l => if rleb (p0 g) 0 then 0 else
     match l with O => Rpower (p0 g) (p1 c) | _ => p0 c * ln (p0 g) * Rpower (p0 g) (p1 c) end)
  false same [1; 10].

(** ** nonlinear_function_retroblinn.  value 42-58, Jacobian 132-161: below the
    horizon pow has a negative base (not a number), modelled as [junkpow] *)
Definition retroblinn (junkpow : R) : nlf := mkNlf 2 (fun x => Ok [x 0%nat])
  (fun g c => if rltb 0 (p0 g) then p0 c * Rpower (p0 g) (p1 c) else if rltb (p0 g) 0 then 0 else p0 c * junkpow)
  (fun g c l => match l with
     | O => if rltb 0 (p0 g) then Rpower (p0 g) (p1 c) else junkpow
     | _ => if rleb (p0 g) 0 then 0 else p0 c * ln (p0 g) * Rpower (p0 g) (p1 c) end)
  false same [1; 1].

(** ** nonlinear_function_abc: a, b, c.  value 35-54, Jacobian 103-144 *)
Definition abc : nlf := mkNlf 3 (fun x => Ok [1 - x 0%nat])
  (fun g c => let hn := p0 g in if rleb 0 hn && rleb hn 1 then p0 c / Rpower (1 + p1 c * hn) (p2 c) else 0)
  (fun g c l => let hn := p0 g in let f := 1 + p1 c * hn in let fact := 1 / Rpower f (p2 c) in
     match l with
     | O => fact
     | 1%nat => - p0 c * hn * p2 c * Rpower f (p2 c - 1) * (fact * fact)
     | _ => if rltb 0 f then - p0 c * ln f * fact else 0
     end)
  false same [1; 1; 1].

(** the half vector: params::convert(&x[0], CARTESIAN, RUSIN_VH, h) *)
Definition half_of (x : mem) : outcome mem := convert x CARTESIAN RUSIN_VH (fun _ => 0).

(** ** nonlinear_function_beckmann: ks, a.  value 70-95 *)
Definition beckmann_value (dot : R) (c : list R) : R :=
  let a2 := p1 c * p1 c in let dh2 := dot * dot in
  p0 c / (4 * PI * a2 * dh2 * dh2) * exp ((dh2 - 1) / (a2 * dh2)).
(** Jacobian 141-176 *)
Definition beckmann_jac (dot : R) (c : list R) (l : nat) : R :=
  let a := p1 c in let a2 := a * a in let dh2 := dot * dot in
  let expo := exp ((dh2 - 1) / (a2 * dh2)) in
  match l with
  | O => expo / (4 * PI * a2 * dh2 * dh2)
  | _ => - p0 c * (expo / 4) * ((2 * a * dot) / (PI * a2 * a2 * dh2)) * (1 + (dh2 - 1) * dot / (a2 * dh2 * dot))
  end.
Definition beckmann : nlf := mkNlf 2
  (fun x => do h <- half_of x; Ok [h 2%nat; x 2%nat * x 5%nat])
  (fun g c => if rltb 0 (p0 g) && rltb 0 (p1 g) then beckmann_value (p0 g) c else 0)
  (fun g c l => if rltb 0 (p0 g) && rltb 0 (p1 g) then beckmann_jac (p0 g) c l else 0)
  false same [1; 1].
(** ** nonlinear_function_retrobeckmann, value 45-78, Jacobian 124-165;
    [back] is _use_back_param.  The other dot product is x0 x3 + x2 x4 + x2 x5. *)
Definition retrobeckmann (back : bool) : nlf := mkNlf 2
  (fun x => if back then do h <- convert x CARTESIAN SCHLICK_VK (fun _ => 0); Ok [h 2%nat]
            else Ok [Rmax (x 0%nat * x 3%nat + x 2%nat * x 4%nat + x 2%nat * x 5%nat) 0])
  (fun g c => if rltb 0 (p0 g) then beckmann_value (p0 g) c else 0)
  (fun g c l => if rltb 0 (p0 g) then beckmann_jac (p0 g) c l else 0)
  false same [1; 1].

(** ** nonlinear_function_ward: ks, ax, ay.  value 45-73, Jacobian 122-161.
    The geometry is h0, h1, h2, x2*x5. *)
Definition ward : nlf := mkNlf 3
  (fun x => do h <- half_of x; Ok [h 0%nat; h 1%nat; h 2%nat; x 2%nat * x 5%nat])
  (fun g c => let hx := nth 0 g 0 / p1 c in let hy := nth 1 g 0 / p2 c in
     if rltb 0 (nth 3 g 0) then
       p0 c / (4 * PI * p1 c * p2 c * sqrt (nth 3 g 0)) * exp (- ((hx * hx + hy * hy) / (nth 2 g 0 * nth 2 g 0)))
     else 0)
  (fun g c l => let hx := nth 0 g 0 / p1 c in let hy := nth 1 g 0 / p2 c in
     if rltb 0 (nth 3 g 0) then
       let gauss := exp (- (hx * hx + hy * hy) / (nth 2 g 0 * nth 2 g 0)) in
       let fact := 1 / (4 * PI * p1 c * p2 c * sqrt (nth 3 g 0)) in
       match l with
       | O => fact * gauss
       | 1%nat => p0 c * fact * (1 / p1 c) * ((2 * nth 0 g 0 * hx) / nth 2 g 0 * gauss - 1)
       | _ => p0 c * fact * (1 / p2 c) * ((2 * nth 1 g 0 * hy) / nth 2 g 0 * gauss - 1)
       end
     else 0)
  false same [1; 1; 1].

(** the cosine between the first direction and the half vector, e.g.
    nonlinear_fresnel_schlick 120-126 *)
Definition dot_vh (p : input) (x : mem) : outcome (list R) :=
  do h <- convert x p RUSIN_VH (fun _ => 0); do c <- convert x p CARTESIAN (fun _ => 0);
  Ok [h 0%nat * c 0%nat + h 1%nat * c 1%nat + h 2%nat * c 2%nat].
Definition grazing (g : list R) : R := (1 - clamp (p0 g) 0 1) ^ 5.
(** ** nonlinear_fresnel_schlick: R.  value 118-139, Jacobian 178-202 *)
Definition schlick (p : input) : nlf := mkNlf 1 (dot_vh p)
  (fun g c => p0 c + (1 - p0 c) * grazing g)
  (fun g c _ => 1 - grazing g)
  true same [1 / 2].
(** ** nonlinear_fresnel_normalized_schlick.  The constructor (29-32) does not
    resize R.  value 115-138, Jacobian 176-201 *)
Definition normalized_schlick : nlf := mkNlf 1 (dot_vh CARTESIAN)
  (fun g c => 1 + (1 / p0 c - 1) * grazing g)
  (fun g c _ => - (1 / p0 c) * grazing g)
  true (fun _ => 0%nat) [1 / 2].
(** ** nonlinear_fresnel_retroschlick.  value 35-52, Jacobian 76-102 *)
Definition retro_schlick : nlf := mkNlf 1
  (fun x => do h <- convert x CARTESIAN SCHLICK_VK (fun _ => 0); do c <- convert x CARTESIAN CARTESIAN (fun _ => 0);
     Ok [h 2%nat * c 2%nat - (h 0%nat * c 0%nat + h 1%nat * c 1%nat)])
  (fun g c => p0 c + (1 - p0 c) * (1 - p0 g) ^ 5)
  (fun g c _ => 1 - (1 - p0 g) ^ 5)
  false same [1 / 2].

(** ** nonlinear_function_spherical_gaussian: ks, n, for the types other than
    Moment (_type, nonlinear_function_spherical_gaussian/function.cpp:57-91; Retro is handled like Mirror) *)
Inductive sg_type := Mirror | Half | Back | Retro.
(** compute_dot 57-91 *)
Definition sg_dot (t : sg_type) (x : mem) : outcome R :=
  match t with
  | Half => do h <- convert x CARTESIAN COS_TH (fun _ => 0); Ok (h 0%nat)
  | Back => do h <- convert x CARTESIAN COS_TK (fun _ => 0); Ok (h 0%nat)
  | Mirror | Retro =>
      do s <- convert x CARTESIAN SPHERICAL_TL_PL_TV_PV (fun _ => 0);
      do c <- convert (fun j => if (j =? 1)%nat then s 1%nat + PI else s j) SPHERICAL_TL_PL_TV_PV CARTESIAN (fun _ => 0);
      Ok (c 0%nat * c 3%nat + c 1%nat * c 4%nat + c 2%nat * c 5%nat)
  end.
(** value 44-55, Jacobian 180-202 *)
Definition spherical_gaussian (t : sg_type) : nlf := mkNlf 2
  (fun x => do d <- sg_dot t x; Ok [d])
  (fun g c => p0 c * exp (p1 c * (p0 g - 1)))
  (fun g c l => match l with O => exp (p1 c * (p0 g - 1)) | _ => p0 c * (p0 g - 1) * exp (p1 c * (p0 g - 1)) end)
  false same [1; 1].

(** ** nonlinear_shadowing_schlick: w.  value 124-137, Jacobian 168-197.  The
    geometry is u = x5, v = x2. *)
Definition g1 (u w : R) : R := u / (u + w * (1 - u)).
Definition shadowing_schlick : nlf := mkNlf 1 (fun x => Ok [x 5%nat; x 2%nat])
  (fun g c => g1 (p0 g) (p0 c) * g1 (p1 g) (p0 c))
  (fun g c _ => let u := p0 g in let v := p1 g in let w := p0 c in
     let dGu := - u * (1 - u) / (u + w * (1 - u)) ^ 2 in let dGv := - v * (1 - v) / (v + w * (1 - v)) ^ 2 in
     g1 u w * dGv + g1 v w * dGu)
  true same [0].

(** ** nonlinear_shadowing_smith: w.  value 146-191, Jacobian 222-246.  The
    geometry is x2 and mu = x5 / sqrt (x3^2 + x4^2). *)
Definition erf (x : R) : R := 2 / sqrt PI * RInt (fun t => exp (- (t * t))) 0 x.
Definition smith_value (mu w : R) : R :=
  let r := mu / w in
  let A := 398942280401439 / 1000000000000000 * exp (- (1 / 2) * (r * r)) / r
           - 1 / 2 * (1 - erf (70710678118655 / 100000000000000 * r)) in
  1 / (1 + A).
Definition smith : nlf := mkNlf 1 (fun x => Ok [x 2%nat; x 5%nat / sqrt (x 3%nat * x 3%nat + x 4%nat * x 4%nat)])
  (fun g c => if Req_EM_T (p0 g) 1 then 1 else smith_value (p1 g) (p0 c))
  (fun g c _ => if rltb (p0 g) 1 then
      let v := (if Req_EM_T (p0 g) 1 then 1 else smith_value (p1 g) (p0 c)) in
      let w := p0 c in let r := p1 g / w in
      (- 1 / (1 + v) ^ 2) * exp (- (1 / 2) * r * r) * (r * r * r / w - 2 * r / w) / sqrt (2 * PI)
    else 0)
  true same [1].

(** ** nonlinear_shadowing_walter_smith: alpha.  The geometry is whether the
    step functions are positive and the two tangents. *)
(** shadowTerm, nonlinear_shadowing_walter_smith/function.cpp:317-334 *)
Definition shadow_term (a : R) : R :=
  if rleb (8 / 5) a then 1
  else ((3535 / 1000 + 2181 / 1000 * a) * a) / ((2267 / 1000 + 2577 / 1000 * a) * a + 1).
(** partialDerivative, nonlinear_shadowing_walter_smith/function.hpp:218-231; float arithmetic as real numbers *)
Definition partial_derivative (alpha t : R) : R :=
  let u := alpha * t in let t13 := 1000 * (alpha * alpha * (t * t)) + 2276 * u + 2577 in
  - 1 * t * (4362000 * u - 4145739 + 3535000 * (alpha * alpha * (t * t))) / (t13 * t13).
(** nonlinear_shadowing_walter_smith/function.hpp:149-213; the step function of a quotient *)
Definition walter_visible (x : mem) : bool :=
  let hx := x 0%nat + x 3%nat in let hy := x 1%nat + x 4%nat in let hz := x 2%nat + x 5%nat in
  let len := sqrt (hx * hx + hy * hy + hz * hz) in
  let '(h0, h1, h2) := if rltb len (1 / 1000000) then (0, 0, 1) else (hx / len, hy / len, hz / len) in
  let vh := x 0%nat * h0 + x 1%nat * h1 + x 2%nat * h2 in
  let lh := x 3%nat * h0 + x 4%nat * h1 + x 5%nat * h2 in
  rltb 0 (vh / x 2%nat) && rltb 0 (lh / x 5%nat).
Definition tangent (z : R) : R := sqrt (1 - z * z) / z.
(** value 179-215, Jacobian 259-301 *)
Definition walter_smith : nlf := mkNlf 1
  (fun x => Ok [if walter_visible x then 1 else 0; tangent (x 2%nat); tangent (x 5%nat)])
  (fun g c => if rleb (p0 g) 0 then 0 else shadow_term (1 / (p0 c * p2 g)) * shadow_term (1 / (p0 c * p1 g)))
  (fun g c _ => if rleb (p0 g) 0 then 0 else
     partial_derivative (p0 c) (p1 g) * shadow_term (1 / (p0 c * p2 g)) + shadow_term (1 / (p0 c * p1 g)) * partial_derivative (p0 c) (p2 g))
  false same [1].

(** Specification vocabulary for the non linear function plugins. *)
From Coq Require Import Reals List.
From Verif Require Import Base ParamsModel GeoModel FuncModel FuncSpec NlModel.
Open Scope R_scope.

(** The function object with [nY] output channels, after construction and
    setParameters(p): value(x), parametersJacobian(x), parameters().  [junk] is
    what memory contains before it is written. *)
Definition value_at (junk : R) (F : nlf) (nY : nat) (p : list R) (x : mem) : outcome (list R) :=
  do st <- set_params F nY p (members junk F nY); value junk F nY st x.
Definition jacobian_at (junk : R) (F : nlf) (nY : nat) (p : list R) (x : mem) : outcome (list R) :=
  do st <- set_params F nY p (members junk F nY); jacobian junk F nY st x.

(** The computed value has [nY] components, component [y] being [f y]. *)
Definition value_is (junk : R) (F : nlf) (nY : nat) (p : list R) (x : mem) (f : nat -> R) : Prop :=
  exists v, value_at junk F nY p x = Ok v /\ length v = nY /\ forall y, (y < nY)%nat -> nth y v 0 = f y.

(** Entry [y * nbParameters + i] of the computed Jacobian. *)
Definition partial_at (junk : R) (F : nlf) (nY : nat) (p : list R) (x : mem) (y i : nat) : R :=
  component (jacobian_at junk F nY p x) (y * (f_k F * nY) + i).
(** It is the partial derivative of component [y] of the computed value in
    parameter [i], the others being kept. *)
Definition partial_exact (junk : R) (F : nlf) (nY : nat) (p : list R) (x : mem) (y i : nat) : Prop :=
  derivable_pt_lim (fun s => component (value_at junk F nY (upd p i s) x) y) (nth i p 0)
                   (partial_at junk F nY p x y i).
(** Value and Jacobian are computed for all parameters, and the Jacobian at
    [p] consists of the partial derivatives of the value. *)
Definition gradient_at (junk : R) (F : nlf) (nY : nat) (p : list R) (x : mem) : Prop :=
  (forall q, length q = (f_k F * nY)%nat -> exists v, value_at junk F nY q x = Ok v /\ length v = nY) /\
  (exists J, jacobian_at junk F nY p x = Ok J /\ length J = (nY * (f_k F * nY))%nat) /\
  forall y i, (y < nY)%nat -> (i < f_k F * nY)%nat -> partial_exact junk F nY p x y i.

(** A plugin as a leaf of a function tree. *)
Definition leaf_of (junk : R) (F : nlf) (par : parameters) (mn mx : list R) : leaf_fn :=
  let run o := match o with Ok v => v | _ => [] end in
  mkLeaf par (f_k F * dimY par)
         (fun p x => run (value_at junk F (dimY par) p x)) (fun p x => run (jacobian_at junk F (dimY par) p x)) mn mx.

(** Two directions (x0,x1,x2) and (x3,x4,x5), their halfway vector. *)
Definition hsum (x : mem) (i : nat) : R := x i + x (i + 3)%nat.
Definition hlen (x : mem) : R := sqrt (hsum x 0 * hsum x 0 + hsum x 1 * hsum x 1 + hsum x 2 * hsum x 2).
Definition halfway (x : mem) (i : nat) : R := hsum x i / hlen x.
(** they are not opposite and the halfway vector is not below the surface *)
Definition has_half (x : mem) : Prop := 0 < hlen x /\ 0 <= hsum x 2.
(** cosine between the first direction and the halfway vector *)
Definition cos_vh (x : mem) : R := halfway x 0 * x 0%nat + halfway x 1 * x 1%nat + halfway x 2 * x 2%nat.

(** parameter [l] of channel [y] in the interleaved parameter vector *)
Definition par (F : nlf) (p : list R) (y l : nat) : R := nth (y * f_k F + l) p 0.

(** [k] member vectors of [n] entries; entry [i] of member [l] *)
Definition ent (st : list (list R)) (l i : nat) : R := nth i (nth l st []) 0.
Definition shaped (k n : nat) (st : list (list R)) : Prop := length st = k /\ forall l, (l < k)%nat -> length (nth l st []) = n.

(** Gaussian factor of Ward's lobe *)
Definition ward_exp (x : mem) (ax ay : R) : R :=
  exp (- ((halfway x 0 / ax * (halfway x 0 / ax) + halfway x 1 / ay * (halfway x 1 / ay)) / (halfway x 2 * halfway x 2))).
(** Beckmann's lobe in the cosine [d] between half vector and normal *)
Definition beckmann_formula (d ks a : R) : R := ks / (4 * PI * (a * a) * d ^ 4) * exp ((d * d - 1) / (a * a * (d * d))).
(** the cosine retro Beckmann uses without the back parametrization *)
Definition retro_dot (x : mem) : R := Rmax (x 0%nat * x 3%nat + x 2%nat * x 4%nat + x 2%nat * x 5%nat) 0.

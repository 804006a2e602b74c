(** Specification vocabulary for the diffuse, Lafortune, Yoo and SGD plugins. *)
From Coq Require Import Reals List.
From Verif Require Import Base ParamsModel GeoModel FuncModel FuncSpec NlModel NlSpec NlMoreModel.
Open Scope R_scope.

(** ** Diffuse *)
(** [k] is the least of [m] and of the numbers [f r], [r] in [rows] *)
Definition least (m : R) (f : list R -> option R) (rows : list (list R)) (k : R) : Prop :=
  k <= m /\ (forall r v, In r rows -> f r = Some v -> k <= v) /\ (k = m \/ exists r, In r rows /\ f r = Some k).

(** what a sample contributes with cosine weights: its value divided by the
    product of the cosines of its two directions; nothing if one of them is not
    above the surface *)
Definition scaled (ip : input) (dX j : nat) (r : list R) : option R :=
  match convert (row_mem r) ip CARTESIAN (fun _ => 0) with
  | Ok c => if Rlt_dec 0 (c 2%nat) then if Rlt_dec 0 (c 5%nat) then Some (nth (dX + j) r 0 / (c 2%nat * c 5%nat)) else None else None
  | _ => None
  end.
(** ** Specification: [L] lobes, [nY] channels, parameters Cx, Cz, N of lobe [n]
    and channel [i] at position 3*(n*nY + i) of [p] *)
Definition laf_object (junk : R) (nY L : nat) (p : list R) : outcome lobes := laf_set nY p (set_nb_lobes junk nY L).
Definition laf_value_at (junk : R) (nY L : nat) (p : list R) (x : mem) : outcome (list R) :=
  do s <- laf_object junk nY L p; laf_value junk nY s x.
Definition laf_jacobian_at (junk : R) (nY L : nat) (p : list R) (x : mem) : outcome (list R) :=
  do s <- laf_object junk nY L p; laf_jac junk nY s x.
Definition laf_par (nY : nat) (p : list R) (n i l : nat) : R := nth ((n * nY + i) * 3 + l) p 0.
(** L^T diag(Cx,Cx,Cz) V *)
Definition laf_dot (nY : nat) (p : list R) (x : mem) (n i : nat) : R :=
  laf_par nY p n i 0 * (x 0%nat * x 3%nat + x 1%nat * x 4%nat) + laf_par nY p n i 1 * (x 2%nat * x 5%nat).
Definition laf_lobe (nY : nat) (p : list R) (x : mem) (n i : nat) : R :=
  if Rlt_dec 0 (laf_dot nY p x n i) then Rpower (laf_dot nY p x n i) (laf_par nY p n i 2) else 0.
Fixpoint sum_to (n : nat) (f : nat -> R) : R := match n with O => 0 | S m => sum_to m f + f m end.

(** the members have room for [L] lobes *)
Definition sized (nY L : nat) (s : lobes) : Prop := l_n s = L /\ length (l_C s) = (L * nY * 2)%nat /\ length (l_N s) = (L * nY)%nat.
(** Partial derivative of channel [i] in the [l]-th parameter of lobe [n],
    channel [j]. *)
Definition laf_exact (junk : R) (nY L : nat) (p : list R) (x : mem) (i n j l : nat) : Prop :=
  derivable_pt_lim (fun s => component (laf_value_at junk nY L (upd p ((n * nY + j) * 3 + l) s) x) i)
    (nth ((n * nY + j) * 3 + l) p 0)
    (component (laf_jacobian_at junk nY L p x) (i * (3 * L * nY) + ((n * nY + j) * 3 + l))).

(** starting values of the lobes *)
Definition laf_cxy (given : bool) (m : nat) : R :=
  if given then match (m mod 3)%nat with O => -1 | 1%nat => 1 | _ => 0 end else -1.

(** ** SGD *)
(** value of the object holding [p] *)
Definition sgd_value_at (junk : R) (nY : nat) (p : list R) (x : mem) : outcome (list R) :=
  do st <- sgd_set nY p (sgd_members nY); sgd_value junk nY st x.
(** specular part of a channel with the parameters c, theta0, k, lambda, p, F0, F1,
    K_ap, rho_d, rho_s, alpha.  The masking of a direction with cosine z, the
    Fresnel factor, and the distribution of the half vector, whose exponent is
    alpha + tan^2 / alpha *)
Definition sgd_masking (junk : R) (c theta0 k lambda z : R) : R :=
  1 + lambda * (1 - exp (c * cpow junk (if Rle_dec theta0 (acos z) then acos z - theta0 else 0) k)).
Definition sgd_lobe (junk : R) (x : mem) (c : list R) : R :=
  let q m := nth m c 0 in
  let h i := hsum x i / hlen x in
  let vh := x 3%nat * h 0%nat + x 4%nat * h 1%nat + x 5%nat * h 2%nat in
  let e := q 10%nat + (1 - (h 2%nat * h 2%nat)) / (h 2%nat * h 2%nat) / q 10%nat in
  let fresnel := q 5%nat - vh * q 6%nat + (1 - q 5%nat) * (1 - vh) ^ 5 in
  let distribution := exp (- e) / cpow junk e (q 4%nat) * (one_pi / (h 2%nat * h 2%nat * (h 2%nat * h 2%nat))) * q 7%nat in
  let masking := sgd_masking junk (q 0%nat) (q 1%nat) (q 2%nat) (q 3%nat) in
  q 9%nat * distribution * masking (x 2%nat) * masking (x 5%nat) * fresnel.
Definition sgd_channel (nY : nat) (p : list R) (y : nat) : list R := map (fun m => nth (y + m * nY) p 0) (seq 0 11).


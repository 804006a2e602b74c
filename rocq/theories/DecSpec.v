(** Vocabulary for the precision of numbers in files (C118, C119). *)
From Coq Require Import Reals ZArith List.
From Verif Require Import FuncModel FuncFileSpec RatModel.
Open Scope R_scope.

(** a number of P digits in base b, with an exponent of [low] or more *)
Definition has_digits (b P : Z) (low : Z -> Prop) (x : R) : Prop := exists m k, (Z.abs m < b ^ P)%Z /\ low k /\ x = IZR m * powerRZ (IZR b) k.
Definition decimal (P : Z) : R -> Prop := has_digits 10 P (fun _ => True).
(** the doubles, without a largest one *)
Definition double : R -> Prop := has_digits 2 53 (fun k => -1074 <= k)%Z.
(** y is one of [ys], and none of them is closer to x *)
Definition nearest (ys : R -> Prop) (x y : R) : Prop := ys y /\ forall z, ys z -> Rabs (y - x) <= Rabs (z - x).
(** zero, or not among the smallest doubles *)
Definition normal (v : R) : Prop := v = 0 \/ powerRZ 2 (-1021) <= Rabs v.
(** w is v up to P digits *)
Definition close (P : Z) (v w : R) : Prop := Rabs (w - v) <= 6 * powerRZ 10 (- P) * Rabs v.
(** all the parameters of a function and of the functions it is made of *)
Fixpoint all_params (t : tree) : list R :=
  match t with
  | Leaf _ p => p
  | Compound _ fs => flat_map (fun f : bool * tree => all_params (snd f)) fs
  | Product _ _ _ f1 f2 => all_params f1 ++ all_params f2
  end.
(** the same function with parameters that agree up to P digits *)
Definition close_function (P : Z) (t g : tree) : Prop := same_shape g t /\ Forall2 (close P) (all_params t) (all_params g).
(** the same polynomials with coefficients that agree up to P digits *)
Definition close_coeffs (P : Z) (cs ds : list coeff) : Prop := Forall2 (fun c d => co_deg d = co_deg c /\ close P (co_a c) (co_a d)) cs ds.
Definition close_channel (P : Z) (s : rf1) (o : option rf1) : Prop := exists r, o = Some r /\ r_dim r = r_dim s /\ close_coeffs P (r_p s) (r_p r) /\ close_coeffs P (r_q s) (r_q r).
Definition normal_channel (s : rf1) : Prop := Forall (fun c => normal (co_a c)) (r_p s ++ r_q s).

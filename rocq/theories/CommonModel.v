(** Model of sources/core/common.h and common.cpp. *)
From Coq Require Import Reals List ZArith.
From Verif Require Import Base Num.

(** common.cpp:30-39 product, for any scalar type.  cwiseProduct asserts equal
    sizes. *)
Section Product.
Context {T : Type} (mul : T -> T -> T).
Fixpoint cwise (a b : list T) : list T :=
  match a, b with
  | x :: a', y :: b' => mul x y :: cwise a' b'
  | _, _ => []
  end.
Definition product (a b : list T) : outcome (list T) :=
  match a, b with
  | [s], _ => Ok (map (fun x => mul x s) b)
  | _, [s] => Ok (map (fun x => mul x s) a)
  | _, _ => if (length a =? length b)%nat then Ok (cwise a b) else Abort
  end.
End Product.

(** common.h:84-96 is_in: a forward scan; -1 when absent. *)
Section IsIn.
Context {T : Type} (eqb : T -> T -> bool).
Fixpoint is_in_from (i : Z) (l : list T) (v : T) : Z :=
  match l with
  | [] => (-1)%Z
  | x :: t => if eqb x v then i else is_in_from (i + 1)%Z t v
  end.
Definition is_in (l : list T) (v : T) : Z := is_in_from 0 l v.
End IsIn.

(** common.h:98-101 clamp *)
Definition clamp (x a b : R) : R := Rmax (Rmin x b) a.

(** common.h:103-107 close_to, default tolerance 1E-7 *)
Definition close_to (a b eps : R) : Prop := (Rabs (a - b) < eps)%R.

(** common.h:195-232, common.cpp:52-118 class timer.  The fields are 32 bit
    unsigned integers; the clock is given with every operation. *)
Definition u32 (z : Z) : Z := (z mod 2 ^ 32)%Z.
Record timer := mkTimer { t_start : Z; t_stop : Z; t_elapsed : Z }.
Definition timer_reset (now : Z) : timer := mkTimer (u32 now) (u32 now) 0.
Definition timer_start (t : timer) (now : Z) : timer :=
  mkTimer (u32 now) (t_stop t) (u32 (t_elapsed t + u32 (t_stop t - t_start t))).
Definition timer_stop (t : timer) (now : Z) : timer :=
  mkTimer (u32 now) (u32 now) (u32 (t_elapsed t + u32 (u32 now - t_start t))).
(** common.cpp:78-81: conversion of an unsigned to int (two's complement) *)
Definition timer_read (t : timer) : Z := (if t_elapsed t <? 2 ^ 31 then t_elapsed t else t_elapsed t - 2 ^ 32)%Z.
(** common.cpp:83-90 print *)
Definition timer_print (t : timer) : str :=
  let tsec := u32 (timer_read t) in
  print_Z (tsec / 360) ++ lit "h " ++ print_Z ((tsec / 60) mod 60) ++ lit "m " ++ print_Z (tsec mod 60) ++ lit "s".

(** What the history of a rational function says about it, read from the list of
    the calls made so far, latest first. *)
From Coq Require Import Reals List Arith Bool.
From Verif Require Import RhistModel.
Import ListNotations.
Open Scope R_scope.

(** the last value given to setMin and setMax; zeros before *)
Fixpoint last_min (dx : nat) (past : list call) : list R :=
  match past with [] => repeat 0 dx | SetMin v :: _ => v | _ :: p => last_min dx p end.
Fixpoint last_max (dx : nat) (past : list call) : list R :=
  match past with [] => repeat 0 dx | SetMax v :: _ => v | _ :: p => last_max dx p end.
(** the number of channels and the sizes of the polynomials asked for last *)
Fixpoint outputs (dy : nat) (past : list call) : nat :=
  match past with [] => dy | SetDimY n :: _ => n | _ :: p => outputs dy p end.
Fixpoint sizes (s : nat * nat) (past : list call) : nat * nat :=
  match past with [] => s | SetSize np nq :: _ => (np, nq) | _ :: p => sizes s p end.

(** calls that drop channel [i] *)
Definition drops (i : nat) (c : call) : bool :=
  match c with SetDimY n => (n <=? i)%nat | SetSize _ _ | Clear => true | _ => false end.
(** calls that ask for channel [i] *)
Definition asks (i : nat) (c : call) : bool :=
  match c with Get j | Update j _ _ => (j =? i)%nat | _ => false end.
(** what had been called when the present channel [i] was made: the first call
    that asked for it since it was last dropped *)
Fixpoint made (dy i : nat) (past : list call) : option (list call) :=
  match past with
  | [] => None
  | c :: p =>
      if drops i c then None
      else match made dy i p with
           | Some b => Some b
           | None => if asks i c && (i <? outputs dy p)%nat then Some p else None
           end
  end.
(** the coefficients given last to channel [i] *)
Fixpoint given (i : nat) (past : list call) : option (list R * list R) :=
  match past with
  | [] => None
  | c :: p =>
      if drops i c then None
      else match c with
           | Update j a b => if (j =? i)%nat then Some (a, b) else given i p
           | _ => given i p
           end
  end.
(** the calls the interface expects: bounds with one number per input, updates
    of existing channels with the numbers of coefficients the channel was made for *)
Definition call_ok (dx dy : nat) (s : nat * nat) (p : list call) (c : call) : Prop :=
  match c with
  | SetMin v | SetMax v => length v = dx
  | Update i a b =>
      (i < outputs dy p)%nat /\ b <> [] /\
      (length a, length b) = sizes s (match made dy i p with Some m => m | None => p end)
  | _ => True
  end.
Fixpoint calls_ok (dx dy : nat) (s : nat * nat) (past : list call) : Prop :=
  match past with [] => True | c :: p => calls_ok dx dy s p /\ call_ok dx dy s p c end.

(** every channel that exists has been given coefficients that update divides by
    the first one of the denominator *)
Definition usable (dy : nat) (past : list call) : Prop := forall i m, (i < outputs dy past)%nat -> made dy i past = Some m ->
  exists a b_0 b, given i past = Some (a, b_0 :: b) /\ 1 / 10 ^ 16 < Rabs b_0.

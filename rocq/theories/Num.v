(** Decimal integers in text files: what [ostream << int] writes and what
    [istream >> int] and [atoi] read (C++ standard library behaviour, "C"
    locale, base 10).  Overflow of [int] is not modelled: integers are [Z]. *)
From Coq Require Import Decimal DecimalN.
From Verif Require Import Base.

Fixpoint uint_str (d : uint) : str :=
  match d with
  | Nil => []
  | D0 d => "0"%char :: uint_str d | D1 d => "1"%char :: uint_str d
  | D2 d => "2"%char :: uint_str d | D3 d => "3"%char :: uint_str d
  | D4 d => "4"%char :: uint_str d | D5 d => "5"%char :: uint_str d
  | D6 d => "6"%char :: uint_str d | D7 d => "7"%char :: uint_str d
  | D8 d => "8"%char :: uint_str d | D9 d => "9"%char :: uint_str d
  end.

Definition digit_of (c : ascii) : option (uint -> uint) :=
  match c with
  | "0"%char => Some D0 | "1"%char => Some D1 | "2"%char => Some D2
  | "3"%char => Some D3 | "4"%char => Some D4 | "5"%char => Some D5
  | "6"%char => Some D6 | "7"%char => Some D7 | "8"%char => Some D8
  | "9"%char => Some D9 | _ => None
  end.

(** Longest run of digits, and the remaining bytes. *)
Fixpoint scan_uint (s : str) : uint * str :=
  match s with
  | [] => (Nil, [])
  | c :: t => match digit_of c with
              | Some f => let (d, r) := scan_uint t in (f d, r)
              | None => (Nil, s)
              end
  end.

(** ostream << unsigned / size_t *)
Definition print_N (n : N) : str := uint_str (N.to_uint n).
(** ostream << int *)
Definition print_Z (z : Z) : str :=
  match z with
  | Zneg p => "-"%char :: print_N (Npos p)
  | _ => print_N (Z.to_N z)
  end.

Fixpoint skip_ws (s : str) : str :=
  match s with
  | [] => []
  | c :: t => if is_space c then skip_ws t else s
  end.

Definition scan_sign (s : str) : bool * str :=
  match s with
  | "-"%char :: t => (true, t)
  | "+"%char :: t => (false, t)
  | _ => (false, s)
  end.

(** istream >> int on a buffer: the value, or [None] when no digit is found
    (failbit; the variable becomes 0 in C++11), and the unread bytes. *)
Definition scan_int (s : str) : option Z * str :=
  let (neg, t) := scan_sign (skip_ws s) in
  let (d, r) := scan_uint t in
  match d with
  | Nil => (None, r)
  | _ => let z := Z.of_N (N.of_uint d) in (Some (if neg then (- z)%Z else z), r)
  end.

(** atoi: same grammar, 0 when there is no number. *)
Definition atoi (s : str) : Z :=
  match fst (scan_int s) with Some z => z | None => 0%Z end.

Definition is_digit (c : ascii) : bool :=
  match digit_of c with Some _ => true | None => false end.

Definition no_digit_head (s : str) : Prop :=
  match s with [] => True | c :: _ => is_digit c = false end.

Lemma scan_uint_print d s : no_digit_head s -> scan_uint (uint_str d ++ s) = (d, s).
Proof.
  intros Hs; induction d as [|d IH|d IH|d IH|d IH|d IH|d IH|d IH|d IH|d IH|d IH];
    cbn [uint_str app scan_uint]; try (cbn; rewrite IH; reflexivity).
  destruct s as [|c t]; [reflexivity|]. cbn [scan_uint]. unfold no_digit_head, is_digit in Hs.
  destruct (digit_of c); [discriminate|reflexivity].
Qed.

Lemma N_to_uint_nonnil n : N.to_uint n <> Nil.
Proof.
  intros H. pose proof (Unsigned.to_of (N.to_uint n)) as E.
  rewrite Unsigned.of_to in E. rewrite H in E. discriminate.
Qed.

Lemma print_N_head n : exists c t, print_N n = c :: t /\ is_digit c = true.
Proof.
  unfold print_N; destruct (N.to_uint n) eqn:E; [destruct (N_to_uint_nonnil n E)|..];
    (eexists _, _; split; [reflexivity|reflexivity]).
Qed.

Lemma digit_not_space c : is_digit c = true -> is_space c = false.
Proof. destruct c as [[] [] [] [] [] [] [] []]; cbv; congruence. Qed.

Lemma digit_not_sign c t : is_digit c = true -> scan_sign (c :: t) = (false, c :: t).
Proof. destruct c as [[] [] [] [] [] [] [] []]; cbv; congruence. Qed.

Lemma print_N_digits n : Forall (fun c => is_digit c = true) (print_N n).
Proof. unfold print_N; induction (N.to_uint n); simpl; constructor; auto. Qed.

Lemma scan_int_print_N n s :
  no_digit_head s -> scan_int (print_N n ++ s) = (Some (Z.of_N n), s).
Proof.
  intros Hs; unfold scan_int.
  destruct (print_N_head n) as (c & t & E & Hc).
  replace (skip_ws (print_N n ++ s)) with (print_N n ++ s).
  2: { rewrite E; simpl; rewrite digit_not_space; auto. }
  replace (scan_sign (print_N n ++ s)) with (false, print_N n ++ s).
  2: { rewrite E; symmetry; apply digit_not_sign; auto. }
  unfold print_N; rewrite scan_uint_print by assumption.
  destruct (N.to_uint n) eqn:F; [destruct (N_to_uint_nonnil n F)|..];
    rewrite <- F, Unsigned.of_to; reflexivity.
Qed.

Lemma scan_int_ws n w s :
  forallb is_space w = true -> no_digit_head s ->
  scan_int (w ++ print_N n ++ s) = (Some (Z.of_N n), s).
Proof.
  intros Hw Hs. rewrite <- (scan_int_print_N n s Hs). unfold scan_int.
  replace (skip_ws (w ++ print_N n ++ s)) with (skip_ws (print_N n ++ s)); [reflexivity|].
  induction w as [|c w IH]; [reflexivity|]. simpl in Hw |- *.
  apply andb_true_iff in Hw as [H1 H2]; rewrite H1; auto.
Qed.

Lemma scan_int_print_Z z s :
  no_digit_head s -> scan_int (print_Z z ++ s) = (Some z, s).
Proof.
  intros Hs; destruct z as [|p|p].
  - apply (scan_int_print_N 0 s Hs).
  - apply (scan_int_print_N (Npos p) s Hs).
  - unfold print_Z, scan_int. cbn [app].
    replace (skip_ws ("-"%char :: print_N (N.pos p) ++ s)) with ("-"%char :: print_N (N.pos p) ++ s) by reflexivity.
    cbn [scan_sign].
    unfold print_N; rewrite scan_uint_print by assumption.
    destruct (N.to_uint (N.pos p)) eqn:F; [destruct (N_to_uint_nonnil _ F)|..];
      rewrite <- F, Unsigned.of_to; reflexivity.
Qed.

Lemma atoi_print_Z z s : no_digit_head s -> atoi (print_Z z ++ s) = z.
Proof. intros H; unfold atoi; rewrite scan_int_print_Z; auto. Qed.

Lemma print_Z_inj a b : print_Z a = print_Z b -> a = b.
Proof.
  intros H. assert (scan_int (print_Z a ++ []) = scan_int (print_Z b ++ [])) as E by congruence.
  rewrite !scan_int_print_Z in E by exact I. congruence.
Qed.

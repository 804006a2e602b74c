(** Specification vocabulary for command lines, option values and headers,
    independent of the parsing algorithms of [ArgsModel]. *)
From Verif Require Import Base.

(** [join sep [a;b;c] = a ++ sep ++ b ++ sep ++ c]. *)
Fixpoint join (sep : str) (l : list str) : str :=
  match l with
  | [] => []
  | [a] => a
  | a :: t => a ++ sep ++ join sep t
  end.

Definition space : str := [" "%char].
Definition comma : str := [","%char].

(** The token that introduces option [k] on a command line. *)
Definition dd (k : str) : str := "-"%char :: "-"%char :: k.

Definition is_option (t : str) : Prop := exists k, t = dd k.
Definition begins (c : ascii) (t : str) : Prop := exists t', t = c :: t'.
Definition ends (c : ascii) (t : str) : Prop := exists t', t = t' ++ [c].

(** A token that can stand alone as a value: it does not look like an option
    and does not open a bracket without closing it. *)
Definition plain (t : str) : Prop :=
  ~ begins "-" t /\ ~ (begins "[" t /\ ~ ends "]" t).

(** Tokens [g1 .. gn] that open a bracket in [g1] and close it in [gn] only. *)
Definition closed_group (g : list str) : Prop :=
  exists g1 mid gn, g = g1 :: mid ++ [gn] /\ begins "[" g1 /\ ends "]" gn
    /\ Forall (fun t => t <> [] /\ ~ ends "]" t) (g1 :: mid).

(** A bracket that is still open at the end of the command line. *)
Definition open_group (g : list str) : Prop :=
  exists init gn, g = init ++ [gn] /\ begins "[" (hd [] g) /\ ~ ends "]" gn
    /\ Forall (fun t => t <> [] /\ ~ ends "]" t) init.

(** [segments argv l]: the command line [argv] reads as the sequence [l] of
    (key, value) options, left to right. *)
Inductive segments : list str -> list (str * str) -> Prop :=
| seg_nil : segments [] []
| seg_skip t r l : ~ is_option t -> segments r l -> segments (t :: r) l
| seg_flag_last k : segments [dd k] [(k, [])]
| seg_flag k t r l : begins "-" t -> segments (t :: r) l ->
    segments (dd k :: t :: r) ((k, []) :: l)
| seg_plain k t r l : plain t -> segments r l ->
    segments (dd k :: t :: r) ((k, t) :: l)
| seg_group k g r l : closed_group g -> segments r l ->
    segments (dd k :: g ++ r) ((k, join space g) :: l)
| seg_open k g : open_group g -> segments (dd k :: g) [(k, join space g)].

(** First binding of a key in a sequence of options. *)
Fixpoint first_value (k : str) (l : list (str * str)) : option str :=
  match l with
  | [] => None
  | (k', v) :: t => if str_eqb k k' then Some v else first_value k t
  end.

(** ** Options that can be written to a command line and read back *)
Definition word (t : str) : Prop :=
  t <> [] /\ Forall (fun c => is_space c = false /\ c <> nul) t.

(** Values that are empty, one plain word, or a closed bracket of words. *)
Definition writable_value (v : str) : Prop :=
  exists g, v = join space g /\ Forall word g /\
    (g = [] \/ (exists t, g = [t] /\ plain t) \/ closed_group g).

Definition writable (m : list (str * str)) : Prop :=
  Forall (fun kv => word (fst kv) /\ writable_value (snd kv)) m.

(** ** Headers *)

(** A header line of the form "#key value" (no carriage return, no leading
    white space in the value). *)
Definition key_value_line (k v : str) : str := k ++ " "%char :: v.

Definition header_key (k : str) : Prop :=
  k <> [] /\ Forall (fun c => is_space c = false) k /\ k <> lit "ALTA".
Definition header_value (v : str) : Prop :=
  Forall (fun c => c <> nl /\ c <> cr) v /\
  match v with [] => True | c :: _ => is_space c = false end.

(** The last value given to a key. *)
Fixpoint last_value (k : str) (l : list (str * str)) : option str :=
  match l with
  | [] => None
  | (k', v) :: t =>
      match last_value k t with
      | Some w => Some w
      | None => if str_eqb k k' then Some v else None
      end
  end.

(** Vocabulary for the function files of the plugins (C90-C94). *)
From Coq Require Import Reals List ZArith.
From Verif Require Import Base Num ParamsModel GeoModel ArgsModel DataModel TextModel FuncModel FuncFile FuncFileSpec PfModel.
Open Scope R_scope.

(** The sizes of the parameter vectors of a plugin for nY channels and n lobes. *)
Definition sizes (k : pkind) (nY n : nat) : list nat :=
  match k with
  | PDiffuse | PSchlick | PNormSchlick | PRetroSchlick | PMasking | PSmith | PWalter => [nY]
  | PBlinn | PRetroblinn | PBeckmann | PSg | PRetrobeckmann | PYoo => [nY; nY]
  | PSgMoment => [nY; nY; 1%nat]
  | PWard | PAbc => [nY; nY; nY]
  | PLafIso => [(2 * (n * nY))%nat; (n * nY)%nat]
  | PLaf => [(3 * (n * nY))%nat; (n * nY)%nat]
  | PSgd => repeat nY 11
  end.
Definition is_lafortune (k : pkind) : bool := match k with PLafIso | PLaf => true | _ => false end.
(** An object whose vectors have their sizes; the number of lobes matters for the lafortune plugins only. *)
Definition complete (f : pfun) : Prop :=
  (is_lafortune (pf_kind f) = true -> (0 <= pf_n f)%Z) /\ map (@length R) (pf_mem f) = sizes (pf_kind f) (pf_nY f) (Z.to_nat (pf_n f)).
(** Two objects of the same plugin with the same number of channels. *)
Definition alike (f g : pfun) : Prop := pf_kind f = pf_kind g /\ pf_nY f = pf_nY g.

(** The i-th number of the m-th vector. *)
Definition number (f : pfun) (m i : nat) : option R :=
  match nth_error (pf_mem f) m with Some v => nth_error v i | None => None end.

(** The plugins whose files hold what they should. *)
Definition sound_format (f : pfun) : Prop :=
  match pf_kind f with
  | PRetrobeckmann | PYoo | PSgd => False
  | PLaf => (pf_n f <= 1)%Z
  | _ => True
  end.
(** What loading the file of f makes of the object f0: every number as it was printed, the
    number of lobes (lafortune) and the parametrization (abc). *)
Definition loaded (rnd : R -> R) (f f0 : pfun) : pfun :=
  mkPfun (pf_kind f) (pf_nY f) (match pf_kind f with PAbc => pf_in f | _ => pf_in f0 end) (pf_back f0)
    (if is_lafortune (pf_kind f) then pf_n f else pf_n f0) (map (map rnd) (pf_mem f)).
(** The parametrization of an abc function has a name that is read back. *)
Definition nameable (f : pfun) : Prop := pf_kind f = PAbc -> parse_input (get_name_in (pf_in f)) = pf_in f.

(** Plugins whose files begin with the same name. *)
Definition same_family (k l : pkind) : bool :=
  match k, l with
  | PSg, PSgMoment | PSgMoment, PSg | PLafIso, PLaf | PLaf, PLafIso => true
  | PDiffuse, PDiffuse | PBlinn, PBlinn | PRetroblinn, PRetroblinn | PWard, PWard | PBeckmann, PBeckmann | PSg, PSg
  | PSgMoment, PSgMoment | PSchlick, PSchlick | PNormSchlick, PNormSchlick | PRetroSchlick, PRetroSchlick | PMasking, PMasking
  | PSmith, PSmith | PWalter, PWalter | PAbc, PAbc | PRetrobeckmann, PRetrobeckmann | PYoo, PYoo | PLafIso, PLafIso | PLaf, PLaf | PSgd, PSgd => true
  | _, _ => false
  end.
(** A text up to and including the end of its j-th line. *)
Fixpoint first_lines (j : nat) (t : str) : str :=
  match j, t with
  | O, _ => []
  | S j', c :: t' => c :: first_lines (if aeqb c nl then j' else j) t'
  | S _, [] => []
  end.
(** Plugins whose numbers stand right after the first line, channel after channel. *)
Definition plain_format (k : pkind) : bool :=
  match k with PSgMoment | PAbc | PRetrobeckmann | PYoo | PLafIso | PLaf | PSgd => false | _ => true end.

(** Vocabulary for C83 (typed vector options) and C84 (ASTM files). *)
From Coq Require Import Reals List.
From Verif Require Import Base Num ParamsModel ArgsModel ArgsSpec.
Open Scope R_scope.

Definition comma : str := [","%char].
(** text that ends or goes on with white space *)
Definition ends_word (s : str) : Prop := match s with [] => True | c :: _ => is_space c = true end.
Definition blank (w : str) : Prop := Forall (fun c => is_space c = true) w.
(** an element of a list of words: the word, with white space around it *)
Definition padded (e name : str) : Prop :=
  exists w w', e = w ++ name ++ w' /\ blank w /\ blank w' /\ word name.
(** short enough for the buffer of get_vec<T>; no separator in it *)
Definition short (e : str) : Prop := e <> [] /\ (length e <= 255)%nat /\ ~ In ","%char e /\ ~ In nul e.

(** ** ASTM files *)
(** a number in a row: its text and its value, for the lexer [lex] *)
Definition number (lex : str -> option (R * str)) (t : str) (v : R) : Prop :=
  (exists c t', t = c :: t' /\ is_space c = false) /\ ~ In nl t /\ ~ In ","%char t /\
  forall r, ends_word r -> lex (t ++ r) = Some (v, r).
(** a line of the header: a key and the rest of the line *)
Definition header_line_ok (l : str * str) : Prop :=
  word (fst l) /\ fst l <> lit "VARS" /\ ends_word (snd l) /\ ~ In nl (snd l).
Definition header_text (l : str * str) : str := fst l ++ snd l ++ [nl].
(** the last value given to a key *)
Fixpoint last_value (k : str) (ls : list (str * str)) : option str :=
  match ls with
  | [] => None
  | l :: ls' => match last_value k ls' with Some v => Some v | None => if str_eq_dec k (fst l) then Some (snd l) else None end
  end.
(** a line of the body: a row of numbers with white space before each, separated
    by commas, and possibly more; or anything without a comma *)
Inductive body_line := Row (fields : list (str * (str * R))) (more : str) | Other (text : str).
Definition row_text (fields : list (str * (str * R))) (more : str) : str :=
  join comma (List.map (fun f => fst f ++ fst (snd f)) fields) ++ more.
Definition body_text (l : body_line) : str := match l with Row fs more => row_text fs more | Other t => t end.
Definition body_ok (lex : str -> option (R * str)) (n : nat) (l : body_line) : Prop :=
  match l with
  | Row fs more =>
      length fs = n /\ Forall (fun f => blank (fst f) /\ ~ In nl (fst f) /\ number lex (fst (snd f)) (snd (snd f))) fs /\
      ~ In nl more /\ match more with [] => True | c :: _ => c = ","%char \/ is_space c = true end /\ In ","%char (row_text fs more)
  | Other t => ~ In nl t /\ ~ In ","%char t
  end.
(** the rows of a body *)
Definition rows_of (body : list body_line) : list (list R) :=
  flat_map (fun l => match l with Row fs _ => [List.map (fun f => snd (snd f)) fs] | Other _ => [] end) body.

(** the parametrization announced by a list of variables *)
Definition angle (v : str) : Prop := In v (List.map lit ["theta_i"; "phi_i"; "theta_s"; "phi_s"]%string).
Definition announces (vars : list str) (p : parameters) : Prop :=
  exists angles others, (forall v, In v angles -> angle v) /\ (forall v, In v others -> ~ angle v) /\
    (forall v, count_occ str_eq_dec vars v = (count_occ str_eq_dec angles v + count_occ str_eq_dec others v)%nat) /\
    dimX p = length angles /\ dimY p = length others /\
    in_param p = (if Nat.eq_dec (length angles) 4 then SPHERICAL_TL_PL_TV_PV else UNKNOWN_INPUT) /\
    exists vs v, vars = vs ++ [v] /\
      ((v = lit "B" /\ out_param p = RGB_COLOR) \/ ((exists t, v = lit "Integrated" ++ t) /\ out_param p = INV_STERADIAN) \/
       (v <> lit "B" /\ (forall t, v <> lit "Integrated" ++ t) /\ out_param p = UNKNOWN_OUTPUT)).

(** Vocabulary of the shader export properties. *)
From Coq Require Import Reals List.
From Verif Require Import Base NlModel NlMoreModel Glsl GlslModel.
Open Scope R_scope.
Open Scope string_scope.

(** ** What operator<< prints for a finite number: an optional sign, digits, an
    optional fraction, an optional exponent with its sign *)
Record numeral := mkNumeral { n_neg : bool; n_int : list nat; n_frac : option (list nat); n_exp : option (bool * list nat) }.
Definition numeral_ok (n : numeral) : Prop :=
  n_int n <> [] /\ Forall (fun d => d < 10)%nat (n_int n) /\
  (forall f, n_frac n = Some f -> Forall (fun d => d < 10)%nat f) /\
  (forall g e, n_exp n = Some (g, e) -> e <> [] /\ Forall (fun d => d < 10)%nat e).
Fixpoint digit_text (ds : list nat) : string := match ds with [] => "" | d :: t => String (ascii_of_nat (48 + d)) (digit_text t) end.
Definition digit_value (ds : list nat) : Z := fold_left (fun m d => 10 * m + Z.of_nat d)%Z ds 0%Z.
Definition numeral_text (n : numeral) : string :=
  (if n_neg n then "-" else "") ++ digit_text (n_int n) ++
  (match n_frac n with Some f => "." ++ digit_text f | None => "" end) ++
  (match n_exp n with Some (g, e) => "e" ++ (if g then "-" else "+") ++ digit_text e | None => "" end).
Definition numeral_value (n : numeral) : R :=
  let f := match n_frac n with Some f => f | None => [] end in
  (if n_neg n then -1 else 1) * IZR (digit_value (n_int n ++ f)) *
  powerRZ 10 ((match n_exp n with Some (g, e) => if g then - digit_value e else digit_value e | None => 0 end) - Z.of_nat (length f)).
(** [shown r] is the number that is read back from what is printed for r. *)
Definition prints (print : R -> string) (shown : R -> R) : Prop :=
  forall r, exists n, numeral_ok n /\ print r = numeral_text n /\ shown r = numeral_value n.

(** ** Functions that can be exported
    The functions a plugin defines in the shader: name and number of vectors after L, V, N, X, Y. *)
Definition defines (k : kind) : list (string * nat) :=
  match k with
  | KBlinn => [("blinn", 2)] | KRetroblinn => [("retroblinn", 2)] | KAbc => [("abc", 3)]
  | KBeckmann => [("g_beckmann", 0); ("beckmann", 2)] | KRetrobeckmann => [("retrobeckmann", 2)] | KWard => [("ward", 3)]
  | KSchlick => [("schlick_fresnel", 1)] | KNormSchlick => [("normalized_schlick_fresnel", 1)] | KRetroSchlick => [("retro_schlick_fresnel", 1)]
  | KGauss _ | KGaussMoment _ => [("spherical_gaussian", 2)] | KDiffuse => []
  | KLafIso _ => [("lafortune", 3)] | KLaf _ => [("lafortune", 4)]
  | KMasking => [("masking_schlick", 1)] | KSmith => [("shadowing_smith", 1)] | KWalter => [("walter_smith", 1)] | KYoo => [("retroyoo", 2)]
  end%nat.
(** plugins whose shader code is well formed *)
Definition sound (k : kind) : Prop :=
  match k with KMasking | KSmith | KWalter | KYoo => False | KLafIso n | KLaf n => (0 < n)%nat | _ => True end.
(** a single call *)
Definition atomic (k : kind) : Prop := match k with KLafIso n | KLaf n => n = 1%nat | _ => True end.
(** a product of plugins *)
Fixpoint factor (f : xfun) : Prop :=
  match f with XLeaf k _ => sound k /\ atomic k | XProd f g => factor f /\ factor g | _ => False end.
(** a term of the sum: a product, or one plugin *)
Definition term (f : xfun) : Prop := match f with XLeaf k _ => sound k | _ => factor f end.
Fixpoint kinds (f : xfun) : list kind :=
  match f with
  | XLeaf k _ => [k] | XRational => []
  | XSum fs => (fix all l := match l with [] => [] | f :: t => kinds f ++ all t end)%list fs
  | XProd f g => (kinds f ++ kinds g)%list end.
(** A sum of at least one term in which no plugin occurs twice. *)
Definition exportable (f : xfun) : Prop :=
  exists fs, f = XSum fs /\ fs <> [] /\ Forall term fs /\ NoDup (flat_map defines (kinds f)).

(** ** Functions that cannot be exported *)
(** a rational function occurs in it *)
Fixpoint has_rational (f : xfun) : Prop :=
  match f with
  | XRational => True | XLeaf _ _ => False
  | XSum fs => (fix some l := match l with [] => False | f :: t => has_rational f \/ some t end) fs
  | XProd f g => has_rational f \/ has_rational g end.
(** one plugin, or a product of plugins *)
Fixpoint no_compound (f : xfun) : Prop :=
  match f with XSum _ => False | XProd f g => no_compound f /\ no_compound g | _ => True end.
(** a compound function that is not empty is, or is a factor of, this one *)
Fixpoint has_compound (f : xfun) : Prop :=
  match f with XSum fs => match fs with [] => False | _ => True end | XProd f g => has_compound f \/ has_compound g | _ => False end.
(** a compound function that is not empty is a factor of a product *)
Fixpoint compound_in_product (f : xfun) : Prop :=
  match f with
  | XSum fs => (fix some l := match l with [] => False | f :: t => compound_in_product f \/ some t end) fs
  | XProd f g => has_compound f \/ has_compound g
  | _ => False end.

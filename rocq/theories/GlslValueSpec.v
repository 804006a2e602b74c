(** Vocabulary of the shader export properties: the function objects the shader
    is compared with. *)
From Coq Require Import Reals List.
From Verif Require Import Base ParamsModel GeoModel NlModel NlSpec NlMoreModel NlMoreSpec FuncModel Glsl GlslModel GlslSpec.
Open Scope R_scope.

(** ** The function objects
    value(x) of a plugin with [nY] channels after setParameters(p), for the
    plugins that are compared ([Abort] for the others). *)
Definition plugin_value (junk : R) (nY : nat) (k : kind) (p : list R) (x : mem) : outcome (list R) :=
  match k with
  | KBlinn => value_at junk blinn nY p x
  | KRetroblinn => value_at junk (retroblinn junk) nY p x
  | KAbc => value_at junk abc nY p x
  | KBeckmann => value_at junk beckmann nY p x
  | KRetrobeckmann => value_at junk (retrobeckmann true) nY p x
  | KWard => value_at junk ward nY p x
  | KSchlick => value_at junk (schlick CARTESIAN) nY p x
  | KRetroSchlick => value_at junk retro_schlick nY p x
  | KGauss t => value_at junk (spherical_gaussian t) nY p x
  | KDiffuse => diffuse_value nY p junk
  | KLafIso n => laf_value_at junk nY n p x
  | _ => Abort
  end.
(** the parametrization a plugin has, and its number of parameters *)
Definition plugin_input (k : kind) : input := match k with KBlinn | KAbc => COS_TH | KRetroblinn => COS_TK | _ => CARTESIAN end.
Definition per_channel (k : kind) : nat :=
  match k with KDiffuse | KSchlick | KNormSchlick | KRetroSchlick | KMasking | KSmith | KWalter => 1
  | KWard | KAbc => 3 | KLafIso n => 3 * n | KLaf n => 4 * n | _ => 2 end%nat.
Definition plugin_leaf (junk : R) (nY : nat) (k : kind) : leaf_fn :=
  mkLeaf (mkParameters (Z.to_nat (dimension_in (plugin_input k))) nY (plugin_input k) RGB_COLOR) (per_channel k * nY)
         (fun p x => match plugin_value junk nY k p x with Ok v => v | _ => [] end) (fun _ _ => []) [] [].
(** the function object built from the plugins, as plugins_manager does *)
Fixpoint object_of (junk : R) (nY : nat) (f : xfun) : outcome tree :=
  match f with
  | XLeaf k p => Ok (Leaf (plugin_leaf junk nY k) p)
  | XRational => Abort
  | XSum fs => do ts <- (fix all l := match l with [] => Ok [] | f :: t => do a <- object_of junk nY f; do b <- all t; Ok ((false, a) :: b) end) fs; make_compound ts
  | XProd f g => do a <- object_of junk nY f; do b <- object_of junk nY g; Ok (make_product a b false false)
  end.
(** its value for the directions V = (x0,x1,x2) and L = (x3,x4,x5) *)
Definition object_value (junk : R) (nY : nat) (f : xfun) (x : mem) : outcome (list R) :=
  do t <- object_of junk nY f; do y <- convert x CARTESIAN (in_param (par_of t)) (fun _ => junk); value junk t y.

(** ** What the text of the shader says about the parameters
    Every parameter is the printed one.  The shader of Ward's lobe divides by the
    printed M_PI, the object by M_PI. *)
Definition printed_par (shown : R -> R) (k : kind) (i : nat) (v : R) : R :=
  match k with KWard => if (i mod 3 =? 0)%nat then shown v * (PI / shown PI) else shown v | _ => shown v end.
Definition printed_pars (shown : R -> R) (k : kind) (p : list R) : list R :=
  map (fun i => printed_par shown k i (nth i p 0)) (seq 0 (length p)).
Fixpoint printed (shown : R -> R) (f : xfun) : xfun :=
  match f with
  | XLeaf k p => XLeaf k (printed_pars shown k p) | XRational => XRational
  | XSum fs => XSum ((fix all l := match l with [] => [] | f :: t => printed shown f :: all t end) fs)
  | XProd f g => XProd (printed shown f) (printed shown g)
  end.

(** ** Where they are compared *)
(** length of the vector between L and V turned by half a turn around the normal *)
Definition back_len (x : mem) : R :=
  sqrt ((x 3%nat - x 0%nat) * (x 3%nat - x 0%nat) + (x 4%nat - x 1%nat) * (x 4%nat - x 1%nat) + (x 5%nat + x 2%nat) * (x 5%nat + x 2%nat)).
Definition unit3 (a b c : R) : Prop := a * a + b * b + c * c = 1.
(** two unit vectors, not opposite, with the half vector not below the surface *)
Definition directions (x : mem) : Prop :=
  unit3 (x 0%nat) (x 1%nat) (x 2%nat) /\ unit3 (x 3%nat) (x 4%nat) (x 5%nat) /\ has_half x.
(** the printed parameters [p] of a plugin are such that both sides are
    defined at x: no division by 0 and no power of 0 with an exponent that is
    not positive *)
Definition plugin_defined (x : mem) (nY : nat) (k : kind) (p : list R) : Prop :=
  length p = (per_channel k * nY)%nat /\
  match k with
  | KBlinn => 0 < halfway x 2 \/ forall y, (y < nY)%nat -> 0 < nth (y * 2 + 1) p 0
  | KWard => forall y, (y < nY)%nat -> nth (y * 3 + 1) p 0 <> 0 /\ nth (y * 3 + 2) p 0 <> 0
  | KRetroSchlick | KGauss Back => / 10 ^ 10 < back_len x
  | KLafIso n => forall i y, (i < n)%nat -> (y < nY)%nat -> 0 < laf_dot nY p x i y \/ 0 < laf_par nY p i y 2
  | _ => True
  end.
Fixpoint defined (x : mem) (nY : nat) (f : xfun) : Prop :=
  match f with
  | XLeaf k p => plugin_defined x nY k p | XRational => False
  | XSum fs => (fix all l := match l with [] => True | f :: t => defined x nY f /\ all t end) fs
  | XProd f g => defined x nY f /\ defined x nY g
  end.
(** the plugins whose shader code computes what the plugin computes *)
Definition faithful (k : kind) : Prop :=
  match k with
  | KBlinn | KWard | KSchlick | KRetroSchlick | KGauss Half | KGauss Back | KGauss Mirror | KDiffuse | KLafIso _ => True
  | _ => False end.
(** the arguments L, V, N, X, Y of BRDF for these directions *)
Definition frame_vals (x : mem) : list val :=
  [VV (x 3%nat) (x 4%nat) (x 5%nat); VV (x 0%nat) (x 1%nat) (x 2%nat); VV 0 0 1; VV 1 0 0; VV 0 1 0].
(** the colour with the channels [v]; one channel stands for all three *)
Definition colour (nY : nat) (v : list R) : val :=
  let c y := nth (if (nY =? 1)%nat then 0%nat else y) v 0 in VV (c 0%nat) (c 1%nat) (c 2%nat).

(** ** Plugins whose shader code computes something else *)
(** cosine between the normal and the vector halfway between L and V turned by half a turn *)
Definition back_cos (x : mem) : R := (x 5%nat + x 2%nat) / back_len x.
(** cosine between L and V turned by half a turn; between L and V *)
Definition mirror_cos (x : mem) : R := - x 3%nat * x 0%nat - x 4%nat * x 1%nat + x 5%nat * x 2%nat.
Definition lv_cos (x : mem) : R := x 3%nat * x 0%nat + x 4%nat * x 1%nat + x 5%nat * x 2%nat.
(** the compound of the plugin alone has a shader that compiles, with the channels
    [w]; the function object with the printed parameters has the channels [v] *)
Definition shader_and_object (print : R -> string) (shown : R -> R) (junk : R) (nY : nat) (k : kind) (p : list R) (x : mem) (w v : nat -> R) : Prop :=
  exists text prog, save_shader print nY (XSum [XLeaf k p]) = Ok text /\ program text = Some prog /\ compiles prog = true /\
    run prog "BRDF" (frame_vals x) = Some (colour nY (map w (seq 0 nY))) /\
    object_value junk nY (XSum [XLeaf k (map shown p)]) x = Ok (map v (seq 0 nY)).
(** printed parameter [l] of [n] of channel [y] *)
Definition shown_par (shown : R -> R) (n : nat) (p : list R) (y l : nat) : R := shown (nth (y * n + l) p 0).

(** Vocabulary for C122 and C123: exchanging the two directions, and the range of
    the values. *)
From Coq Require Import Reals List.
From Verif Require Import Base ParamsModel GeoModel FuncModel FuncSpec NlModel NlSpec NlMoreModel.
Open Scope R_scope.

(** the directions (x0,x1,x2) and (x3,x4,x5) exchanged *)
Definition swap (x : mem) : mem := fun i => match i with 0%nat | 1%nat | 2%nat => x (i + 3)%nat | 3%nat | 4%nat | 5%nat => x (i - 3)%nat | _ => x i end.
(** they have the same length *)
Definition same_length (x : mem) : Prop :=
  x 0%nat * x 0%nat + x 1%nat * x 1%nat + x 2%nat * x 2%nat = x 3%nat * x 3%nat + x 4%nat * x 4%nat + x 5%nat * x 5%nat.

(** value for a pair of directions of a function object created with the input
    parametrization [ip] *)
Definition seen (junk : R) (F : nlf) (ip : input) (nY : nat) (p : list R) (x : mem) : outcome (list R) :=
  do c <- convert x CARTESIAN ip (fun _ => junk); value_at junk F nY p c.

(** coordinates that are computed from sums, products and differences taken over
    both directions *)
Definition even_handed (q : input) : Prop :=
  match q with COS_TH | COS_TK | COS_TLV | COS_TLR | STARK_2D | NEUMANN_2D | RUSIN_VH => True | _ => False end.
(** coordinates that use the angle between the first direction and the half vector *)
Definition even_handed_unit (q : input) : Prop :=
  match q with COS_TH_TD | RUSIN_TH_TD | RUSIN_TH_PH_TD => True | _ => False end.

(** the plugins that are symmetric for every pair of vectors, with the input
    parametrizations their constructors choose; retroblinn and abc keep what they
    are given, which may be any coordinate of one dimension *)
Definition reciprocal (jp : R) : list (nlf * input) :=
  [ (blinn, COS_TH) ]
  ++ map (fun q => (retroblinn jp, q)) [COS_TH; COS_TK; COS_TLV; COS_TLR]
  ++ map (fun q => (abc, q)) [COS_TH; COS_TK; COS_TLV; COS_TLR]
  ++ [ (beckmann, CARTESIAN); (ward, CARTESIAN); (retrobeckmann true, CARTESIAN); (spherical_gaussian Half, CARTESIAN); (spherical_gaussian Back, CARTESIAN);
       (shadowing_schlick, CARTESIAN); (walter_smith, CARTESIAN) ].
(** those that are symmetric for directions of the same length *)
Definition reciprocal_unit : list nlf := [schlick CARTESIAN; normalized_schlick].

(** ** Ranges *)
(** the amplitude of every channel is not negative and its other parameters are
    positive, which is inside the bounds the plugin reports *)
Definition proper (F : nlf) (nY : nat) (p : list R) : Prop :=
  forall y, (y < nY)%nat -> 0 <= par F p y 0 /\ forall l, (1 <= l < f_k F)%nat -> 0 < par F p y l.
(** the lobes; [jp] is pow(0, N) *)
Definition lobe_plugins (jp : R) : list nlf :=
  [ blinn; retroblinn jp; abc; beckmann; retrobeckmann true; retrobeckmann false; ward;
    spherical_gaussian Mirror; spherical_gaussian Half; spherical_gaussian Back; spherical_gaussian Retro ].

(** ** Sums and products *)
(** value for a pair of directions *)
Definition tree_seen (junk : R) (t : tree) (x : mem) : outcome (list R) :=
  do c <- convert x CARTESIAN (in_param (par_of t)) (fun _ => junk); FuncModel.value junk t c.
(** Functions built from symmetric ones, for the directions [x]: with even handed
    coordinates at the root, or with directions at the root and symmetric parts. *)
Inductive even_tree (junk : R) (x : mem) : tree -> Prop :=
| EvenCoord : forall t, even_handed (in_param (par_of t)) -> even_tree junk x t
| EvenLeaf : forall l p, tree_seen junk (Leaf l p) (swap x) = tree_seen junk (Leaf l p) x -> even_tree junk x (Leaf l p)
| EvenSum : forall par fs, in_param par = CARTESIAN -> (forall f, In f fs -> even_tree junk x (snd f)) -> even_tree junk x (Compound par fs)
| EvenProduct : forall par a b f g, in_param par = CARTESIAN -> even_tree junk x f -> even_tree junk x g -> even_tree junk x (Product par a b f g).

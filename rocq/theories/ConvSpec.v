(** Vocabulary for C76-C80 (the command line tools).  A data object is its
    parametrization and its samples: the coordinates of the position, then the
    values. *)
From Coq Require Import Reals List.
From Verif Require Import Base ParamsModel GeoModel GeoSpec NlMoreModel.
From Verif Require MetricsSpec.
Open Scope R_scope.

(** the coordinates [w], in parametrization [q], of the position whose
    coordinates in [p] begin the list [r] *)
Definition converts (r : list R) (p q : input) (w : list R) : Prop :=
  exists o, convert (row_mem r) p q (fun _ => 0) = Ok o /\ w = List.map o (seq 0 (dimn q)).

(** light and view are both on or above the horizon *)
Definition visible (w : list R) (q : input) : Prop :=
  exists c, converts w q CARTESIAN c /\ 0 <= nth 2 c 0 /\ 0 <= nth 5 c 0.

(** a parametrization with a name and one coordinate per dimension; the samples
    of an object *)
Definition regular (p : parameters) : Prop := named_input (in_param p) /\ dimX p = dimn (in_param p) /\ (0 < dimY p)%nat.
Definition sample_of (p : parameters) (r : list R) : Prop := length r = (dimX p + dimY p)%nat.
Definition values (p : parameters) (r : list R) : list R := skipn (dimX p) r.

(** the sample that data2data writes for [r] *)
Inductive converted (pin pout : parameters) (all : bool) (r o : list R) : Prop :=
| kept : forall w, converts r (in_param pin) (in_param pout) w -> all = true \/ visible w (in_param pout) ->
    o = w ++ values pin r -> converted pin pout all r o
| blanked : forall w, converts r (in_param pin) (in_param pout) w -> all = false -> ~ visible w (in_param pout) ->
    o = repeat 0 (dimX pout + dimY pout) -> converted pin pout all r o.

(** the channels that are written over [old] for the channels [y] *)
Inductive channels (nin nout : nat) (y old z : list R) : Prop :=
| same_channels : nin = nout -> z = y -> channels nin nout y old z
| broadcast : nin = 1%nat -> nout <> 1%nat -> z = repeat (hd 0 y) nout -> channels nin nout y old z
| averaged : (1 < nin)%nat -> nout = 1%nat -> z = [(hd 0 old + fold_right Rplus 0 y) / INR nin] -> channels nin nout y old z.

(** the value that data2data looks up for the sample [x] of the output, and the
    sample it writes in its place *)
Inductive looked_up (pin pout : parameters) (val : list R -> outcome (list R)) (x y : list R) : Prop :=
| seen : forall c w, converts x (in_param pout) CARTESIAN c -> 0 <= nth 2 c 0 -> 0 <= nth 5 c 0 ->
    converts c CARTESIAN (in_param pin) w -> val w = Ok y -> length y = dimY pin -> looked_up pin pout val x y
| unseen : forall c, converts x (in_param pout) CARTESIAN c -> nth 2 c 0 < 0 \/ nth 5 c 0 < 0 ->
    y = repeat 0 (dimY pin) -> looked_up pin pout val x y.
Definition interpolated (pin pout : parameters) (val : list R -> outcome (list R)) (x o : list R) : Prop :=
  exists y z, looked_up pin pout val x y /\ channels (dimY pin) (dimY pout) y (values pout x) z /\ o = firstn (dimX pout) x ++ z.

(** where a function of parametrization [pf] is evaluated for a sample of data of
    parametrization [pd]: without a parametrization the coordinates are used as
    they are *)
Definition argument (pf pd : parameters) (r w : list R) : Prop :=
  (in_param pf = UNKNOWN_INPUT /\ (dimX pf <= length r)%nat /\ w = firstn (dimX pf) r) \/
  (in_param pf <> UNKNOWN_INPUT /\ converts r (in_param pd) (in_param pf) w).
Definition usable (pf : parameters) : Prop := in_param pf = UNKNOWN_INPUT \/ (named_input (in_param pf) /\ dimX pf = dimn (in_param pf)).
(** componentwise difference *)
Definition difference (a b d : list R) : Prop := length d = length a /\ forall c, (c < length a)%nat -> nth c d 0 = nth c a 0 - nth c b 0.
(** the sample that brdf2data writes for [r] *)
Definition exported (pf pd : parameters) (val : list R -> outcome (list R)) (diff : bool) (r o : list R) : Prop :=
  exists w y z, argument pf pd r w /\ val w = Ok y /\ length y = dimY pd /\
    (if diff then difference (values pd r) y z else z = y) /\ o = firstn (dimX pd) r ++ z.

(** one sample after another, in order *)
Definition pointwise (P : list R -> list R -> Prop) (a b : list (list R)) : Prop :=
  length a = length b /\ forall i x y, nth_error a i = Some x -> nth_error b i = Some y -> P x y.

(** brdf2gnuplot: the cosine factor, and a line of the plot for sample number [i].
    The columns are the values, the errors or the relative errors. *)
Definition factor (pf : parameters) (cosine : bool) (w : list R) (f : R) : Prop :=
  if cosine then (in_param pf = UNKNOWN_INPUT /\ f = 1) \/ (in_param pf <> UNKNOWN_INPUT /\ exists c, converts w (in_param pf) CARTESIAN c /\ f = nth 5 c 0 * nth 2 c 0)
  else f = 1.
Inductive kind := KValues | KErrors | KRelative.
Definition entry (k : kind) (measured evaluated : R) : R :=
  match k with KValues => evaluated | KErrors => measured - evaluated | KRelative => (measured - evaluated) / measured end.
Definition plotted (pf pd : parameters) (val : list R -> outcome (list R)) (k : kind) (cosine : bool) (i : nat) (r line : list R) : Prop :=
  exists w y f cols, argument pf pd r w /\ val w = Ok y /\ (dimY pd <= length y)%nat /\ factor pf cosine w f /\
    length cols = dimY pd /\ (forall u, (u < dimY pd)%nat -> nth u cols 0 = entry k (nth u (values pd r) 0) (f * nth u y 0)) /\
    line = match k with KRelative => [INR i] | _ => firstn (dimX pd) r end ++ cols.
(** a line of a polar plot: the signed angle of view, then the values for light at
    elevation [inc], azimuth pi *)
Definition polar (pf : parameters) (val : list R -> outcome (list R)) (inc tv pv signed : R) (line : list R) : Prop :=
  exists w y, converts [inc; PI; tv; pv] SPHERICAL_TL_PL_TV_PV (in_param pf) w /\ val w = Ok y /\ (dimY pf <= length y)%nat /\
    line = signed :: firstn (dimY pf) y.

(** fit2stat: a sample in the parametrization of the function *)
Definition adapted (pf pd : parameters) (r o : list R) : Prop :=
  exists w, converts r (in_param pd) (in_param pf) w /\ o = w ++ values pd r.
Definition rechanneled (pf pd : parameters) (r o : list R) : Prop :=
  exists z, channels (dimY pd) (dimY pf) (values pd r) (repeat 0 (dimY pf)) z /\ o = firstn (dimX pd) r ++ z.
(** the errors of the function at the samples: measured minus evaluated *)
Definition error_at (pc : parameters) (val : list R -> outcome (list R)) (r e : list R) : Prop :=
  exists v, val (firstn (dimX pc) r) = Ok v /\ length v = dimY pc /\ difference (values pc r) v e.
(** mean and root of the mean of the squared weighted errors, channel by channel *)
Definition weighted_report (nY : nat) (errs : list (list R)) (ws : list R) (rep : list R * list R) : Prop :=
  length (fst rep) = nY /\ length (snd rep) = nY /\ forall c, (c < nY)%nat ->
    nth c (fst rep) 0 = MetricsSpec.total (fun x => x * x) (List.map (fun q => nth c (fst q) 0 * snd q) (combine errs ws)) / INR (length errs) /\
    MetricsSpec.is_root 2 (nth c (fst rep) 0) (nth c (snd rep) 0).

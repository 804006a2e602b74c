(** Properties C16, C17 and C20-C23: binary data files and sample storage. *)
From Coq Require Import SpecFloat NArith Reals Lia.
From Verif Require Import Base ParamsModel GeoSpec ArgsSpec Double DataModel DataSpec DataBinary DoubleProofs DataStore.

(** C16. Saving and loading returns the same data, bit for bit, whenever the
    first payload byte is not '#'. *)
Theorem C16_binary_roundtrip : forall d file, wf_vseg d ->
  (0 < dimX (vs_par d))%nat -> (0 < dimY (vs_par d))%nat ->
  save_binary d = Ok file -> ~ begins "#" (payload d) ->
  exists d', load_binary file = Ok d' /\
    vs_size d' = vs_size d /\ vs_kind d' = vs_kind d /\ vs_buf d' = vs_buf d /\
    dimX (vs_par d') = dimX (vs_par d) /\ dimY (vs_par d') = dimY (vs_par d) /\
    out_param (vs_par d') = out_param (vs_par d) /\
    (named_input (in_param (vs_par d)) \/ in_param (vs_par d) = UNKNOWN_INPUT -> vs_par d' = vs_par d).
Proof. exact binary_round_trip_fields. Qed.
Print Assumptions C16_binary_roundtrip.

(** Saving never fails on a well formed data set. *)
Theorem C16_save_total : forall d, wf_vseg d -> exists file, save_binary d = Ok file.
Proof. exact save_total. Qed.
Print Assumptions C16_save_total.

(** If the first payload byte is '#', whatever loading returns is not the data
    that was saved. *)
Theorem C16_hash_payload_is_lost : forall d file d', wf_vseg d ->
  (0 < dimX (vs_par d))%nat -> (0 < dimY (vs_par d))%nat ->
  save_binary d = Ok file -> begins "#" (payload d) -> load_binary file = Ok d' ->
  vs_buf d' <> vs_buf d.
Proof. exact binary_hash_payload. Qed.
Print Assumptions C16_hash_payload_is_lost.

Definition C16_example : vseg :=
  make_vseg (mkParameters 1 1 COS_TH INV_STERADIAN) 2
    [0x3FE0000000000000; 0x3FF0000000000000; 0x3FD0000000000000; 0x7FF8000000000000]%N NO_CI.
Example C16_case : wf_vseg C16_example /\ (0 < dimX (vs_par C16_example))%nat /\ (0 < dimY (vs_par C16_example))%nat /\
  ~ begins "#" (payload C16_example) /\ named_input (in_param (vs_par C16_example)).
Proof.
  repeat split; try (simpl; lia).
  - repeat constructor.
  - intros [t H]. discriminate.
  - exists (lit "COS_TH"), 1%Z. vm_compute. tauto.
Qed.
(** a data set whose first sample starts with the byte 0x23 *)
Example C16_hash_case : begins "#" (payload (make_vseg (mkParameters 1 1 COS_TH INV_STERADIAN) 1
    [0x3FE0000000000023; 0x3FF0000000000000]%N NO_CI)).
Proof. eexists. reflexivity. Qed.

(** C17. A file cut inside its payload raises an exception ... *)
Theorem C17_truncated_payload_throws : forall d file n, wf_vseg d ->
  (0 < dimX (vs_par d))%nat -> (0 < dimY (vs_par d))%nat ->
  save_binary d = Ok file -> ~ begins "#" (payload d) ->
  let header := (length file - length (payload d) - 13)%nat in
  (header < n < header + length (payload d))%nat ->
  load_binary (firstn n file) = Throw.
Proof. exact truncated_file_throws. Qed.
Print Assumptions C17_truncated_payload_throws.

(** ... but if the whole payload is missing no exception is raised: the loader
    goes on with an array it never filled. *)
Theorem C17_all_payload_missing_refuted : forall d file, wf_vseg d ->
  (0 < dimX (vs_par d))%nat -> (0 < dimY (vs_par d))%nat ->
  save_binary d = Ok file -> payload d <> [] ->
  load_binary (firstn (length file - length (payload d) - 13) file) = UB.
Proof. exact truncated_file_ub. Qed.
Print Assumptions C17_all_payload_missing_refuted.

(** C20. Sample storage is an array of rows: after any history of accepted
    writes, every cell holds the last value written to it, or its initial one. *)
Theorem C20_history_of_writes : forall ws d d' i c, wf_vseg d ->
  Forall (fun w => Forall is_double (snd w)) ws -> set_all ws d = Ok d' ->
  cell d' i c = match last_write ws i c with Some v => Some v | None => cell d i c end.
Proof. intros; apply history_cell; assumption. Qed.
Print Assumptions C20_history_of_writes.

(** Reading back what was written; a write with confidence-interval columns is
    read back without them. *)
Theorem C20_get_after_set : forall d i x d', wf_vseg d -> Forall is_double x -> vs_set d i x = Ok d' ->
  vs_get d' i = Ok (firstn (dimX (vs_par d) + dimY (vs_par d)) x) /\
  (forall j, j <> i -> vs_get d' j = vs_get d j).
Proof. exact get_after_set. Qed.
Print Assumptions C20_get_after_set.

(** A write is accepted exactly for an existing index and a row of one of the
    two legal sizes; otherwise the program stops. *)
Theorem C20_accepted_writes : forall d i x,
  (exists d', vs_set d i x = Ok d') <->
  (i < vs_size d)%nat /\
  (length x = column_number d \/ length x = dimX (vs_par d) + dimY (vs_par d))%nat.
Proof. exact set_ok_iff. Qed.
Print Assumptions C20_accepted_writes.

Theorem C20_rejected_accesses_stop : forall d i,
  (vs_size d <= i)%nat -> vs_get d i = Abort /\ forall x, vs_set d i x = Abort.
Proof. exact out_of_range. Qed.
Print Assumptions C20_rejected_accesses_stop.

Example C20_case : exists d', set_all [(1%nat, [1; 2]%N); (0%nat, [3; 4]%N); (1%nat, [5; 6]%N)] C16_example = Ok d' /\
  vs_get d' 1 = Ok [5; 6]%N /\ vs_get d' 0 = Ok [3; 4]%N.
Proof. eexists. repeat split; reflexivity. Qed.

(** C21. min() and max() after construction are the exact extrema of finite
    columns. *)
Theorem C21_min_is_least : forall p size buf k c,
  wf_vseg (make_vseg p size buf k) -> (0 < size)%nat -> (c < dimX p)%nat ->
  let d := make_vseg p size buf k in
  Forall (fun v => is_finite v = true) (column d c) ->
  exists m, nth_error (vs_min d) c = Some m /\ In m (column d c) /\
    forall v, In v (column d c) -> (dval m <= dval v)%R.
Proof. exact min_is_least. Qed.
Print Assumptions C21_min_is_least.

Theorem C21_max_is_greatest : forall p size buf k c,
  wf_vseg (make_vseg p size buf k) -> (0 < size)%nat -> (c < dimX p)%nat ->
  let d := make_vseg p size buf k in
  Forall (fun v => is_finite v = true) (column d c) ->
  exists m, nth_error (vs_max d) c = Some m /\ In m (column d c) /\
    forall v, In v (column d c) -> (dval v <= dval m)%R.
Proof. exact max_is_greatest. Qed.
Print Assumptions C21_max_is_greatest.

(** With NaNs or infinities, as long as one sample is finite: NaNs are ignored
    and the bound is a sample that no other sample passes. *)
Theorem C21_min_max_ignore_nan : forall p size buf k c,
  wf_vseg (make_vseg p size buf k) -> (c < dimX p)%nat ->
  let d := make_vseg p size buf k in
  (exists v, In v (column d c) /\ is_finite v = true) ->
  exists m M, nth_error (vs_min d) c = Some m /\ nth_error (vs_max d) c = Some M /\
    In m (column d c) /\ In M (column d c) /\ is_nan m = false /\ is_nan M = false /\
    forall v, In v (column d c) -> is_nan v = false -> dlt v m = false /\ dlt M v = false.
Proof. exact min_max_nan. Qed.
Print Assumptions C21_min_max_ignore_nan.

(** An empty data set reports the inverted box [DBL_MAX, -DBL_MAX]. *)
Theorem C21_empty : forall p buf k,
  vs_min (make_vseg p 0 buf k) = repeat dbl_max (dimX p) /\
  vs_max (make_vseg p 0 buf k) = repeat dbl_lowest (dimX p).
Proof. exact empty_bounds. Qed.
Print Assumptions C21_empty.

(** Writes never update the bounds. *)
Theorem C21_writes_keep_bounds : forall ws d d', wf_vseg d ->
  Forall (fun w => Forall is_double (snd w)) ws -> set_all ws d = Ok d' ->
  vs_min d' = vs_min d /\ vs_max d' = vs_max d.
Proof. exact writes_keep_bounds. Qed.
Print Assumptions C21_writes_keep_bounds.

Example C21_case : wf_vseg C16_example /\ column C16_example 0 = [0x3FE0000000000000; 0x3FD0000000000000]%N /\
  vs_min C16_example = [0x3FD0000000000000]%N /\ vs_max C16_example = [0x3FE0000000000000]%N.
Proof. repeat split; try reflexivity. repeat constructor. Qed.

(** C22. Equality of data sets. *)
Theorem C22_reflexive : forall d eps, wf_vseg d -> dlt eps 0%N = false -> data_equals d d eps = Ok true.
Proof. exact equals_refl. Qed.
Print Assumptions C22_reflexive.

Theorem C22_symmetric : forall d1 d2 eps, wf_vseg d1 -> wf_vseg d2 ->
  data_equals d1 d2 eps = data_equals d2 d1 eps.
Proof. exact equals_sym. Qed.
Print Assumptions C22_symmetric.

Theorem C22_shape_sensitive : forall d1 d2 eps, ~ same_shape d1 d2 -> data_equals d1 d2 eps = Ok false.
Proof. exact equals_shape. Qed.
Print Assumptions C22_shape_sensitive.

(** For finite entries: equal sets differ, entry by entry, by at most epsilon
    after rounding the difference to a double; sets whose exact differences are
    at most epsilon are equal. *)
Theorem C22_finite_entries : forall d1 d2 eps, wf_vseg d1 -> wf_vseg d2 -> same_shape d1 d2 ->
  is_double eps -> is_finite eps = true ->
  (forall i, Forall (fun v => is_finite v = true) (sample d1 i) /\ Forall (fun v => is_finite v = true) (sample d2 i)) ->
  (data_equals d1 d2 eps = Ok true <->
   forall i, (i < vs_size d1)%nat ->
     Forall2 (fun a b => (rne (Rabs (dval a - dval b)) <= dval eps)%R) (sample d1 i) (sample d2 i)).
Proof. exact equals_finite. Qed.
Print Assumptions C22_finite_entries.

Theorem C22_close_entries_are_equal : forall d1 d2 eps, wf_vseg d1 -> wf_vseg d2 -> same_shape d1 d2 ->
  is_double eps -> is_finite eps = true ->
  (forall i, Forall (fun v => is_finite v = true) (sample d1 i) /\ Forall (fun v => is_finite v = true) (sample d2 i)) ->
  (forall i, (i < vs_size d1)%nat ->
     Forall2 (fun a b => (Rabs (dval a - dval b) <= dval eps)%R) (sample d1 i) (sample d2 i)) ->
  data_equals d1 d2 eps = Ok true.
Proof. exact equals_close. Qed.
Print Assumptions C22_close_entries_are_equal.

(** Entries that are NaN on one side never make two sets differ. *)
Theorem C22_nan_equals_everything : forall d1 d2 eps, wf_vseg d1 -> wf_vseg d2 -> same_shape d1 d2 ->
  (forall i, Forall (fun v => is_nan v = true) (sample d1 i)) ->
  data_equals d1 d2 eps = Ok true.
Proof. exact equals_nan. Qed.
Print Assumptions C22_nan_equals_everything.

(** The default tolerance is 1.0, not machine precision: data sets that differ
    by one everywhere compare equal. *)
Theorem C22_default_tolerance_refuted : dval default_epsilon = 1%R /\
  exists d1 d2, wf_vseg d1 /\ wf_vseg d2 /\ vs_buf d1 <> vs_buf d2 /\
  Forall2 (fun a b => Rabs (dval a - dval b) = 1%R) (vs_buf d1) (vs_buf d2) /\
  data_equals d1 d2 default_epsilon = Ok true.
Proof. exact default_tolerance. Qed.
Print Assumptions C22_default_tolerance_refuted.

Example C22_case : data_equals C16_example C16_example 0%N = Ok true /\ dlt 0%N 0%N = false.
Proof. split; reflexivity. Qed.

(** C23. The interval accessor. *)
Theorem C23_no_interval_brackets : forall d i r, wf_vseg d -> vs_kind d = NO_CI -> vs_row d i = Ok r ->
  (forall v, In v (seg (dimX (vs_par d)) (dimY (vs_par d)) r) -> is_finite v = true) ->
  exists yl yu, vs_interval d i = Ok (seg 0 (dimX (vs_par d)) r, yl, yu) /\
    Forall2 (fun l v => SFltb (sf_decode v) l = false) yl (seg (dimX (vs_par d)) (dimY (vs_par d)) r) /\
    Forall2 (fun u v => SFltb u (sf_decode v) = false) yu (seg (dimX (vs_par d)) (dimY (vs_par d)) r).
Proof. exact interval_none. Qed.
Print Assumptions C23_no_interval_brackets.

Theorem C23_asymmetrical_returns_stored : forall d i r, vs_kind d = ASYMMETRICAL_CI -> vs_row d i = Ok r ->
  vs_interval d i = Ok (seg 0 (dimX (vs_par d)) r,
    map sf_decode (seg (dimX (vs_par d) + dimY (vs_par d)) (dimY (vs_par d)) r),
    map sf_decode (seg (dimX (vs_par d) + 2 * dimY (vs_par d)) (dimY (vs_par d)) r)).
Proof. exact interval_asym. Qed.
Print Assumptions C23_asymmetrical_returns_stored.

(** With symmetrical intervals the two bounds always coincide, so the interval
    excludes the measurement as soon as its half width is not zero. *)
Theorem C23_symmetrical_bounds_coincide_refuted : forall d i x yl yu,
  vs_kind d = SYMMETRICAL_CI -> vs_interval d i = Ok (x, yl, yu) -> yl = yu.
Proof. exact interval_sym. Qed.
Print Assumptions C23_symmetrical_bounds_coincide_refuted.

Example C23_case : vs_row C16_example 0 = Ok [0x3FE0000000000000; 0x3FF0000000000000]%N /\
  vs_interval (make_vseg (mkParameters 1 1 COS_TH INV_STERADIAN) 1
    [0x3FE0000000000000; 0x3FF0000000000000; 0x3FE0000000000000]%N SYMMETRICAL_CI) 0 =
  Ok ([0x3FE0000000000000]%N, [S754_finite false 4503599627370496 (-53)], [S754_finite false 4503599627370496 (-53)]).
Proof. split; reflexivity. Qed.

(** Property C30. *)
From Coq Require Import Reals List Lia Lra.
From Verif Require Import Base ParamsModel GeoModel CommonModel FuncModel DistModel DistSpec DistProofs.
Open Scope R_scope.

(** The L2 distance to a data set is non negative and vanishes exactly when
    the function takes the measured value at every sample. *)
Theorem C30_l2_distance : forall junk pf pd val rows d, L2_distance junk pf pd val rows = Ok d ->
  0 <= d /\ (d = 0 <-> Forall (reproduces junk pf pd val (dimY pf)) rows).
Proof. exact l2_distance. Qed.
Print Assumptions C30_l2_distance.

(** The same for the Linf distance, which moreover bounds every deviation. *)
Theorem C30_linf_distance : forall junk pf pd val rows d, rows <> [] -> Linf_distance junk pf pd val rows = Ok d ->
  0 <= d /\ (d = 0 <-> Forall (reproduces junk pf pd val (dimY pf)) rows) /\
  (forall dat v j, In dat rows -> evaluates junk pf pd val dat v -> (j < dimY pf)%nat ->
     Rabs (nth j (measured pd (dimY pf) dat) 0 - nth j v 0) <= d).
Proof.
  intros junk pf pd val rows d Hn H. destruct (linf_distance junk pf pd val rows d Hn H) as [A B].
  split; [exact A|]. split; [exact B|]. intros dat v j. apply linf_bounds. exact H.
Qed.
Print Assumptions C30_linf_distance.

(** ... and is the least such bound. *)
Theorem C30_linf_is_least_bound : forall junk pf pd val rows d b, rows <> [] -> Linf_distance junk pf pd val rows = Ok d -> 0 <= b ->
  (forall dat v j, In dat rows -> evaluates junk pf pd val dat v -> (j < dimY pf)%nat ->
     Rabs (nth j (measured pd (dimY pf) dat) 0 - nth j v 0) <= b) -> d <= b.
Proof. exact linf_least. Qed.
Print Assumptions C30_linf_is_least_bound.

(** Each distance bounds the other up to the number of outputs and samples. *)
Theorem C30_distances_compare : forall junk pf pd val rows a b, rows <> [] ->
  L2_distance junk pf pd val rows = Ok a -> Linf_distance junk pf pd val rows = Ok b ->
  a <= sqrt (INR (dimY pf)) * b /\ b <= sqrt (INR (length rows)) * a.
Proof. exact distances_compare. Qed.
Print Assumptions C30_distances_compare.

(** Both are defined for a non empty data set whose samples are long enough
    and where the function can be evaluated; Linf also needs as many measured
    values as outputs, and has no value otherwise. *)
Theorem C30_distances_defined : forall junk pf pd val rows, rows <> [] -> Forall (row_defined junk pf pd val) rows ->
  (exists a, L2_distance junk pf pd val rows = Ok a) /\
  (dimY pf = dimY pd -> exists b, Linf_distance junk pf pd val rows = Ok b).
Proof. exact distances_defined. Qed.
Print Assumptions C30_distances_defined.

Theorem C30_linf_mismatch_refuted : forall junk pf pd val rows, rows <> [] -> dimY pf <> dimY pd ->
  forall d, Linf_distance junk pf pd val rows <> Ok d.
Proof. exact linf_mismatch. Qed.
Print Assumptions C30_linf_mismatch_refuted.

Theorem C30_l2_of_empty_data_refuted : forall junk pf pd val, L2_distance junk pf pd val [] = Abort.
Proof. exact l2_empty. Qed.
Print Assumptions C30_l2_of_empty_data_refuted.

(** Two samples of one cosine, two outputs: the constant (1,2) is at Linf
    distance 4 and at L2 distance sqrt (25/2). *)
Definition dist_par := mkParameters 1 2 COS_TH RGB_COLOR.
Example C30_case : let rows := [[1/2; 1; 2]; [1/3; 4; -2]] in let f := fun _ : mem => Ok [1; 2] in
  Linf_distance 0 dist_par dist_par f rows = Ok 4 /\
  L2_distance 0 dist_par dist_par f rows = Ok (sqrt (25 / 2)) /\
  Forall (row_defined 0 dist_par dist_par f) rows.
Proof.
  assert (N : forall a b, norm [a; b] * norm [a; b] = a * a + b * b) by (intros; rewrite norm_sq; cbn; lra).
  split; [|split].
  - transitivity (Ok (max_abs (max_abs 0 [1 - 1; 2 - 2]) [4 - 1; -2 - 2])); [reflexivity|]. f_equal.
    cbn [max_abs]. unfold Rabs. repeat destruct Rcase_abs; try lra. unfold Rmax. repeat destruct Rle_dec; lra.
  - transitivity (Ok (sqrt ((0 + norm [1 - 1; 2 - 2] * norm [1 - 1; 2 - 2] + norm [4 - 1; -2 - 2] * norm [4 - 1; -2 - 2]) / INR 2))); [reflexivity|].
    f_equal. f_equal. rewrite !N. change (INR 2) with 2. lra.
  - repeat constructor; cbn; try lia; (exists [1; 2]; split; [eexists; split; reflexivity|reflexivity]).
Qed.

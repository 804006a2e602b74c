(** Property C129: data sets as Python sequences. *)
From Coq Require Import Reals List ZArith Lia.
From Verif Require Import Base Num Double ParamsModel DataModel DataSpec MerlModel MerlSpec GridModel GridSpec SliceModel SliceSpec UtiaModel UtiaSpec SeqModel SeqSpec SeqProofs MerlProofs UtiaProofs SliceProofs DataStore.
Import ListNotations.

(** d[i] is sample i for 0 <= i < len(d). Any other index, also a negative one,
    stops the program for segments and grids, and is undefined behaviour for
    the tables and images. *)
Theorem C129_classes :
  (forall d, wf_vseg d -> samples_are (segment_get d) (map (sample d) (seq 0 (vs_size d))) Stops) /\
  (forall g, samples_are (grid_get g) (g_rows g) Stops) /\
  (forall t, table_ok t -> exists l, Z.of_nat (length l) = samples /\ samples_are (merl_get t) l Undefined) /\
  (forall t, utia_ok t -> exists l, Z.of_nat (length l) = plane /\ samples_are (utia_get t) l Undefined) /\
  (forall s, slice_ok s -> exists l, Z.of_nat (length l) = (s_width s * s_height s)%Z /\ samples_are (slice_get s) l Undefined).
Proof.
  split; [exact segment_samples|]. split; [exact grid_samples|]. split; [exact merl_samples|]. split; [exact utia_samples|exact slice_samples].
Qed.
Print Assumptions C129_classes.

(** For all of them: an index that is no int is a Python exception. *)
Theorem C129_item : forall A (get : Z -> outcome A) l f i, samples_are get l f -> (Z.of_nat (length l) < 2 ^ 31)%Z ->
  ((0 <= i < Z.of_nat (length l))%Z -> exists x, nth_error l (Z.to_nat i) = Some x /\ py_item get i = Ok x) /\
  ((i < 0 \/ Z.of_nat (length l) <= i)%Z -> (- 2 ^ 31 <= i < 2 ^ 31)%Z -> py_item get i = fails f) /\
  ((i < - 2 ^ 31 \/ 2 ^ 31 <= i)%Z -> py_item get i = Throw).
Proof.
  intros A get l f i [In Out] B. split; [|split].
  - intros H. destruct (nth_error l (Z.to_nat i)) as [x|] eqn:E; [|apply nth_error_None in E; lia]. exists x. split; [reflexivity|].
    rewrite item_ok by lia. specialize (In _ _ E). rewrite Z2Nat.id in In by lia. exact In.
  - intros H R. rewrite item_ok by assumption. apply Out. exact H.
  - apply item_no.
Qed.
Print Assumptions C129_item.

(** for x in d: the body gets the samples in order; when it leaves the loop at none
    of them, the program does not go on after the loop. *)
Theorem C129_for : forall A S (get : Z -> outcome A) l f (body : A -> S -> outcome (S * bool)) fuel s,
  samples_are get l f -> (Z.of_nat (length l) < 2 ^ 31)%Z -> (length l < fuel)%nat ->
  py_for get body fuel 0 s = do r <- in_turn body l s; if snd r then Ok (Some (fst r)) else fails f.
Proof. intros A S get l f body fuel s H B F. exact (for_all get f body l H B l [] fuel s eq_refl F). Qed.
Print Assumptions C129_for.

(** So list(d) and every loop that looks at all of the samples fail. *)
Theorem C129_list_refuted : forall A (get : Z -> outcome A) l f fuel,
  samples_are get l f -> (Z.of_nat (length l) < 2 ^ 31)%Z -> (length l < fuel)%nat ->
  py_for get (fun x s => Ok (s ++ [x], false)) fuel 0 [] = fails f.
Proof.
  intros A get l f fuel H B F. rewrite (C129_for _ _ get l f) by assumption.
  assert (E : forall (l s : list A), in_turn (fun x s => Ok (s ++ [x], false)) l s = Ok (s ++ l, false)).
  { clear. induction l as [|x l IH]; intros s; cbn [in_turn bind snd fst]; [rewrite app_nil_r; reflexivity|]. rewrite IH, <- app_assoc. reflexivity. }
  rewrite E. reflexivity.
Qed.
Print Assumptions C129_list_refuted.

(** for i in range(len(d)) goes through the samples and ends. *)
Theorem C129_range : forall A S (get : Z -> outcome A) l f (body : A -> S -> outcome (S * bool)) s,
  samples_are get l f -> (Z.of_nat (length l) < 2 ^ 31)%Z -> py_range get body (length l) 0 s = in_turn body l s.
Proof. intros A S get l f body s H B. exact (range_all get f body l H B l [] s eq_refl). Qed.
Print Assumptions C129_range.

(** An image of 2 pixels, and a loop that leaves at the first sample. *)
Example C129_case : exists s, slice_ok s /\ (s_width s * s_height s = 2)%Z /\
  forall n : nat, py_for (slice_get s) (fun _ k => Ok (Datatypes.S k, true)) 3 0 n = Ok (Some (Datatypes.S n)).
Proof.
  exists (mkSlice 2 1 1 STARK_2D 2 0%R [1; 2; 3; 4; 5; 6]%R). split; [|split; [reflexivity|intros n; reflexivity]].
  split; [|split; [left; reflexivity|cbn; discriminate]]. split; [cbn; lia|]. split; [cbn; lia|reflexivity].
Qed.

(** d[i] = x outside of 0 .. len(d)-1 ends like reading there: segments and grids
    stop the program, tables and images have undefined behaviour. *)
Theorem C129_set_outside :
  (forall d, only_inside segment_set d (Z.of_nat (vs_size d)) Stops) /\
  (forall g, only_inside grid_set g (Z.of_nat (length (g_rows g))) Stops) /\
  (forall t, table_ok t -> only_inside merl_set t samples Undefined) /\
  (forall t, utia_ok t -> only_inside utia_set t plane Undefined) /\
  (forall s, slice_ok s -> only_inside slice_set s (s_width s * s_height s) Undefined).
Proof.
  split; [exact segment_outside|]. split; [exact grid_outside|]. split; [exact merl_outside|]. split; [exact utia_outside|exact slice_outside].
Qed.
Print Assumptions C129_set_outside.

(** An index that is no int is a Python exception; every other one goes to set. *)
Theorem C129_setitem : forall D V (set : D -> Z -> V -> outcome D) d n f i v, only_inside set d n f -> (0 <= n <= 2 ^ 31)%Z ->
  ((i < - 2 ^ 31 \/ 2 ^ 31 <= i)%Z -> py_setitem set d i v = Throw) /\
  ((- 2 ^ 31 <= i < 0 \/ n <= i < 2 ^ 31)%Z -> py_setitem set d i v = fails f) /\
  ((0 <= i < n)%Z -> py_setitem set d i v = set d i v).
Proof.
  intros D V set d n f i v H B. split; [|split]; intros Hi.
  - apply setitem_no. exact Hi.
  - rewrite setitem_ok by lia. apply H. lia.
  - apply setitem_ok. lia.
Qed.
Print Assumptions C129_setitem.

(** d[i] = y for a position of d: then d[i] gives y and every other d[j] is as before. *)
Theorem C129_set_get :
  (forall t i y, table_ok t -> (0 <= i < samples)%Z -> exists t', py_setitem merl_set t i y = Ok t' /\
     (exists x, py_item (merl_get t') i = Ok (x, y)) /\ forall j, (0 <= j < samples)%Z -> j <> i -> py_item (merl_get t') j = py_item (merl_get t) j) /\
  (forall t i y, utia_ok t -> (0 <= i < plane)%Z -> exists t', py_setitem utia_set t i y = Ok t' /\
     (exists x, py_item (utia_get t') i = Ok (x, y)) /\ forall j, (0 <= j < plane)%Z -> j <> i -> py_item (utia_get t') j = py_item (utia_get t) j) /\
  (forall s i y, slice_ok s -> (s_width s * s_height s < 2 ^ 31)%Z -> (0 <= i < s_width s * s_height s)%Z -> exists s', py_setitem slice_set s i y = Ok s' /\
     (exists x, py_item (slice_get s') i = Ok (x, y)) /\
     forall j, (0 <= j < s_width s * s_height s)%Z -> j <> i -> py_item (slice_get s') j = py_item (slice_get s) j).
Proof.
  split; [|split].
  - intros t i y H Hi. unfold samples in *. destruct (set_get t i y H Hi) as (t' & E & _ & (x & G) & O). exists t'. rewrite setitem_ok, item_ok by lia.
    split; [exact E|]. split; [exists x; exact G|]. intros j Hj N. rewrite !item_ok by lia. apply O; assumption.
  - intros t i y H Hi. unfold plane in *. destruct (utia_set_get t i y H Hi) as (t' & E & _ & (x & G) & O). exists t'. rewrite setitem_ok, item_ok by lia.
    split; [exact E|]. split; [exists x; exact G|]. intros j Hj N. rewrite !item_ok by lia. apply O; assumption.
  - intros s i y H B Hi. destruct (slice_set_get s i y H Hi) as (s' & E & _ & (x & G) & O). exists s'. rewrite setitem_ok, item_ok by lia.
    split; [exact E|]. split; [exists x; exact G|]. intros j Hj N. rewrite !item_ok by lia. apply O; assumption.
Qed.
Print Assumptions C129_set_get.
Example C129_set_case : exists s s', slice_ok s /\ py_setitem slice_set s 1 (7, 8, 9)%R = Ok s' /\ s_data s' = [1; 2; 3; 7; 8; 9]%R /\
  py_setitem slice_set s 2 (7, 8, 9)%R = UB /\ py_setitem slice_set s (-1) (7, 8, 9)%R = UB.
Proof.
  exists (mkSlice 2 1 1 STARK_2D 2 0%R [1; 2; 3; 4; 5; 6]%R). eexists. split; [|split; [reflexivity|split; [reflexivity|split; reflexivity]]].
  split; [|split; [left; reflexivity|cbn; discriminate]]. split; [cbn; lia|]. split; [cbn; lia|reflexivity].
Qed.

(** Segments: d[i] = x takes x of either of the two sizes; a vector of another size
    stops the program for every index. *)
Theorem C129_set_segment : forall d i x, wf_vseg d -> Forall is_double x -> (Z.of_nat (vs_size d) < 2 ^ 31)%Z -> (- 2 ^ 31 <= i < 2 ^ 31)%Z ->
  ((0 <= i < Z.of_nat (vs_size d))%Z -> length x = column_number d \/ length x = (dimX (vs_par d) + dimY (vs_par d))%nat ->
   exists d', py_setitem segment_set d i x = Ok d' /\
     py_item (segment_get d') i = Ok (firstn (dimX (vs_par d) + dimY (vs_par d)) x) /\
     forall j, j <> i -> py_item (segment_get d') j = py_item (segment_get d) j) /\
  (length x <> column_number d -> length x <> (dimX (vs_par d) + dimY (vs_par d))%nat -> py_setitem segment_set d i x = Abort).
Proof.
  intros d i x W F B R. split.
  - intros Hi L. assert (E : exists d', vs_set d (Z.to_nat i) x = Ok d') by (apply set_ok_iff; split; [lia|exact L]). destruct E as [d' E].
    exists d'. rewrite setitem_ok by lia. unfold segment_set. destruct (Z.ltb_spec i 0); [lia|]. split; [exact E|].
    destruct (get_after_set d (Z.to_nat i) x d' W F E) as [G O]. split.
    + rewrite item_ok by lia. unfold segment_get. destruct (Z.ltb_spec i 0); [lia|]. exact G.
    + intros j N. unfold py_item. destruct (_ || _); [reflexivity|]. unfold segment_get. destruct (Z.ltb_spec j 0); [reflexivity|]. apply O. lia.
  - intros L1 L2. rewrite setitem_ok by lia. unfold segment_set. destruct (Z.ltb_spec i 0); [reflexivity|]. apply set_rejects. intros [_ [E|E]]; contradiction.
Qed.
Print Assumptions C129_set_segment.

(** Grids: the row is stored as it is given. *)
Theorem C129_set_grid : forall g i x, (Z.of_nat (length (g_rows g)) < 2 ^ 31)%Z -> (0 <= i < Z.of_nat (length (g_rows g)))%Z ->
  exists g', py_setitem grid_set g i x = Ok g' /\ py_item (grid_get g') i = Ok x /\
    forall j, j <> i -> py_item (grid_get g') j = py_item (grid_get g) j.
Proof.
  intros g i x B Hi. rewrite setitem_ok by lia. unfold grid_set. destruct (Z.ltb_spec i 0); [lia|]. destruct (Z.ltb_spec i (Z.of_nat (length (g_rows g)))); [|lia].
  eexists. split; [reflexivity|]. assert (L : length (firstn (Z.to_nat i) (g_rows g)) = Z.to_nat i) by (rewrite firstn_length; lia). split.
  - rewrite item_ok by lia. unfold grid_get. cbn [g_rows]. destruct (Z.ltb_spec i 0); [lia|]. rewrite nth_error_app2, L, Nat.sub_diag by lia. reflexivity.
  - intros j N. unfold py_item. destruct (_ || _); [reflexivity|]. unfold grid_get. cbn [g_rows]. destruct (Z.ltb_spec j 0); [reflexivity|].
    assert (X : nth_error (firstn (Z.to_nat i) (g_rows g) ++ x :: skipn (S (Z.to_nat i)) (g_rows g)) (Z.to_nat j) = nth_error (g_rows g) (Z.to_nat j)); [|rewrite X; reflexivity].
    destruct (Nat.lt_ge_cases (Z.to_nat j) (Z.to_nat i)) as [Hj|Hj].
    + rewrite nth_error_app1 by lia. rewrite <- (firstn_skipn (Z.to_nat i) (g_rows g)) at 2. rewrite nth_error_app1 by lia. reflexivity.
    + rewrite nth_error_app2, L by lia. replace (Z.to_nat j - Z.to_nat i)%nat with (S (Z.to_nat j - S (Z.to_nat i))) by lia. cbn [nth_error].
      rewrite <- (firstn_skipn (S (Z.to_nat i)) (g_rows g)) at 2. rewrite nth_error_app2; rewrite firstn_length; [|lia]. rewrite Nat.min_l by lia. reflexivity.
Qed.
Print Assumptions C129_set_grid.

(** Proofs for C129. *)
From Coq Require Import Reals List ZArith Lia.
From Verif Require Import Base Num Double ParamsModel DataModel DataSpec MerlModel MerlSpec MerlProofs GridModel GridSpec SliceModel SliceSpec UtiaModel UtiaSpec SeqModel SeqSpec.
Import ListNotations.

Lemma collect A (get : Z -> outcome A) n : (forall i, (0 <= i < Z.of_nat n)%Z -> exists x, get i = Ok x) ->
  exists l, length l = n /\ forall i x, nth_error l i = Some x -> get (Z.of_nat i) = Ok x.
Proof.
  induction n as [|n IH]; intros H.
  - exists []. split; [reflexivity|]. intros [|i] x E; discriminate.
  - destruct IH as (l & L & E); [intros i Hi; apply H; lia|]. destruct (H (Z.of_nat n)) as [y Hy]; [lia|].
    exists (l ++ [y]). split; [rewrite app_length; cbn; lia|]. intros i x Ei.
    destruct (Nat.lt_ge_cases i n) as [Hi|Hi]; [rewrite nth_error_app1 in Ei by lia; apply E; assumption|].
    rewrite nth_error_app2 in Ei by lia. rewrite L in Ei. destruct (i - n)%nat as [|k] eqn:K; [|destruct k; discriminate].
    assert (i = n) by lia. subst i. cbn in Ei. injection Ei as <-. assumption.
Qed.
Lemma at_inside (t : list R) i : (0 <= i < Z.of_nat (length t))%Z -> exists v, at_ t i = Ok v.
Proof.
  intros H. unfold at_. destruct (i <? 0)%Z eqn:E; [apply Z.ltb_lt in E; lia|]. destruct (nth_error t (Z.to_nat i)) as [v|] eqn:N; [eauto|].
  apply nth_error_None in N. lia.
Qed.
Lemma at_outside (t : list R) i : (i < 0 \/ Z.of_nat (length t) <= i)%Z -> at_ t i = UB.
Proof.
  intros H. unfold at_. destruct (i <? 0)%Z eqn:E; [reflexivity|]. apply Z.ltb_ge in E. destruct (nth_error t (Z.to_nat i)) as [v|] eqn:N; [|reflexivity].
  assert (Z.to_nat i < length t)%nat by (apply nth_error_Some; congruence). lia.
Qed.
Lemma at_cases (t : list R) i : (exists v, at_ t i = Ok v) \/ at_ t i = UB.
Proof. unfold at_. destruct (i <? 0)%Z; [auto|]. destruct (nth_error t (Z.to_nat i)); [left; eauto|auto]. Qed.

(** three reads, of which one fails *)
Lemma three_inside A (t : list R) i j k (f : R -> R -> R -> A) : (0 <= i < Z.of_nat (length t))%Z -> (0 <= j < Z.of_nat (length t))%Z -> (0 <= k < Z.of_nat (length t))%Z ->
  exists x, (do r <- at_ t i; do g <- at_ t j; do b <- at_ t k; Ok (f r g b)) = Ok x.
Proof. intros I J K. destruct (at_inside t i I) as [r ->], (at_inside t j J) as [g ->], (at_inside t k K) as [b ->]. eexists. reflexivity. Qed.
Lemma three_outside A (t : list R) i j k (f : R -> R -> R -> A) : (i < 0 \/ Z.of_nat (length t) <= k)%Z ->
  (do r <- at_ t i; do g <- at_ t j; do b <- at_ t k; Ok (f r g b)) = UB.
Proof.
  intros [H|H].
  - rewrite (at_outside t i) by auto. reflexivity.
  - destruct (at_cases t i) as [[r ->]| ->]; [|reflexivity]. cbn [bind]. destruct (at_cases t j) as [[g ->]| ->]; [|reflexivity]. cbn [bind]. rewrite (at_outside t k) by auto. reflexivity.
Qed.
Lemma samples_from A (get : Z -> outcome A) n f : (forall i, (0 <= i < Z.of_nat n)%Z -> exists x, get i = Ok x) ->
  (forall i, (i < 0 \/ Z.of_nat n <= i)%Z -> get i = fails f) -> exists l, length l = n /\ samples_are get l f.
Proof. intros H O. destruct (collect A get n H) as (l & L & E). exists l. split; [assumption|]. split; [assumption|]. rewrite L. assumption. Qed.

Lemma merl_samples t : table_ok t -> exists l, Z.of_nat (length l) = samples /\ samples_are (merl_get t) l Undefined.
Proof.
  intros H. unfold table_ok in H. destruct (samples_from _ (merl_get t) (Z.to_nat samples) Undefined) as (l & L & S).
  - intros i Hi. apply (three_inside _ t i (i + 1458000) (i + 2916000) (fun r g b => (_, (r * RED_SCALE, g * GREEN_SCALE, b * BLUE_SCALE)%R))); unfold samples in *; lia.
  - intros i Hi. apply (three_outside _ t i (i + 1458000) (i + 2916000) (fun r g b => (_, (r * RED_SCALE, g * GREEN_SCALE, b * BLUE_SCALE)%R))). unfold samples in *; lia.
  - exists l. split; [unfold samples in *; lia|assumption].
Qed.
Lemma utia_samples t : utia_ok t -> exists l, Z.of_nat (length l) = plane /\ samples_are (utia_get t) l Undefined.
Proof.
  intros H. unfold utia_ok in H. destruct (samples_from _ (utia_get t) (Z.to_nat plane) Undefined) as (l & L & S).
  - intros i Hi. unfold utia_get. change (0 * N_PER_PLANE)%Z with 0%Z. change (1 * N_PER_PLANE)%Z with plane. change (2 * N_PER_PLANE)%Z with (2 * plane)%Z.
    apply (three_inside _ t (i + 0) (i + plane) (i + 2 * plane) (fun r g b => (_, (r, g, b)))); unfold plane in *; lia.
  - intros i Hi. unfold utia_get. change (0 * N_PER_PLANE)%Z with 0%Z. change (1 * N_PER_PLANE)%Z with plane. change (2 * N_PER_PLANE)%Z with (2 * plane)%Z.
    apply (three_outside _ t (i + 0) (i + plane) (i + 2 * plane) (fun r g b => (_, (r, g, b)))); unfold plane in *; lia.
  - exists l. split; [unfold plane in *; lia|assumption].
Qed.
Lemma slice_samples s : slice_ok s -> exists l, Z.of_nat (length l) = (s_width s * s_height s)%Z /\ samples_are (slice_get s) l Undefined.
Proof.
  intros [(W & H & E) _]. set (n := (s_width s * s_height s)%Z) in *. assert (P : (0 < n)%Z) by (unfold n; nia).
  destruct (samples_from _ (slice_get s) (Z.to_nat n) Undefined) as (l & L & S).
  - intros i Hi. apply (three_inside _ (s_data s) (3 * i + 0) (3 * i + 1) (3 * i + 2) (fun r g b => (_, (r, g, b)))); lia.
  - intros i Hi. apply (three_outside _ (s_data s) (3 * i + 0) (3 * i + 1) (3 * i + 2) (fun r g b => (_, (r, g, b)))). lia.
  - exists l. split; [lia|assumption].
Qed.
Lemma grid_samples g : samples_are (grid_get g) (g_rows g) Stops.
Proof.
  split.
  - intros i x E. unfold grid_get. destruct (Z.of_nat i <? 0)%Z eqn:C; [apply Z.ltb_lt in C; lia|]. rewrite Nat2Z.id, E. reflexivity.
  - intros i H. unfold grid_get. destruct (i <? 0)%Z eqn:C; [reflexivity|]. apply Z.ltb_ge in C. destruct (nth_error (g_rows g) (Z.to_nat i)) as [v|] eqn:N; [|reflexivity].
    assert (Z.to_nat i < length (g_rows g))%nat by (apply nth_error_Some; congruence). lia.
Qed.
Lemma row_prefix (n m i : nat) (l : list double) : (n <= m)%nat -> firstn n (buf_row m i l) = firstn n (skipn (i * m) l).
Proof. intros H. unfold buf_row. rewrite firstn_firstn. f_equal. lia. Qed.
Lemma segment_samples d : wf_vseg d -> samples_are (segment_get d) (map (sample d) (seq 0 (vs_size d))) Stops.
Proof.
  intros W. split.
  - intros i x E. assert (Hi : (i < vs_size d)%nat).
    { assert (X : (i < length (map (sample d) (seq 0 (vs_size d))))%nat) by (apply nth_error_Some; congruence). rewrite map_length, seq_length in X. exact X. }
    rewrite (map_nth_error _ _ _ (nth_error_nth' _ 0%nat ltac:(rewrite seq_length; exact Hi))) in E. rewrite seq_nth in E by assumption. injection E as <-.
    unfold segment_get. destruct (Z.of_nat i <? 0)%Z eqn:C; [apply Z.ltb_lt in C; lia|]. rewrite Nat2Z.id. unfold vs_get.
    replace (i <? vs_size d)%nat with true by (symmetry; apply Nat.ltb_lt; assumption). f_equal. unfold sample, rows. cbn [Nat.add].
    rewrite (nth_indep _ [] (buf_row (column_number d) 0 (vs_buf d))) by (rewrite map_length, seq_length; assumption).
    rewrite (map_nth (fun j => buf_row (column_number d) j (vs_buf d))), seq_nth by assumption. symmetry. apply row_prefix. unfold column_number, columns_of. lia.
  - intros i H. rewrite map_length, seq_length in H. unfold segment_get. destruct (i <? 0)%Z eqn:C; [reflexivity|]. apply Z.ltb_ge in C. unfold vs_get.
    replace (Z.to_nat i <? vs_size d)%nat with false; [reflexivity|]. symmetry. apply Nat.ltb_ge. lia.
Qed.

Section Loops.
Context {A S : Type}.
Variable get : Z -> outcome A.
Variable f : failure.
Variable body : A -> S -> outcome (S * bool).
Lemma item_ok i : (- 2 ^ 31 <= i < 2 ^ 31)%Z -> py_item get i = get i.
Proof. intros H. unfold py_item. replace ((i <? - 2 ^ 31) || (2 ^ 31 <=? i))%Z with false; [reflexivity|]. symmetry. apply orb_false_intro; [apply Z.ltb_ge|apply Z.leb_gt]; lia. Qed.
Lemma item_no i : (i < - 2 ^ 31 \/ 2 ^ 31 <= i)%Z -> py_item get i = Throw.
Proof. intros H. unfold py_item. replace ((i <? - 2 ^ 31) || (2 ^ 31 <=? i))%Z with true; [reflexivity|]. symmetry. apply orb_true_iff. destruct H; [left; apply Z.ltb_lt|right; apply Z.leb_le]; lia. Qed.
Lemma for_all l : samples_are get l f -> (Z.of_nat (length l) < 2 ^ 31)%Z -> forall post pre fuel s, l = pre ++ post -> (length post < fuel)%nat ->
  py_for get body fuel (Z.of_nat (length pre)) s = do r <- in_turn body post s; if snd r then Ok (Some (fst r)) else fails f.
Proof.
  intros [In Out] B. induction post as [|x post IH]; intros pre fuel s E Hf; (destruct fuel as [|fuel]; [cbn in Hf; lia|]); cbn [py_for in_turn].
  - rewrite app_nil_r in E. subst pre. rewrite item_ok by lia. rewrite Out by lia. cbn [bind snd]. destruct f; reflexivity.
  - assert (L : length l = (length pre + Datatypes.S (length post))%nat) by (rewrite E, app_length; reflexivity).
    rewrite item_ok by lia. rewrite (In (length pre) x) by (rewrite E, nth_error_app2, Nat.sub_diag by lia; reflexivity). cbn [bind].
    destruct (body x s) as [[s' stop]| | |]; cbn [bind fst snd]; try reflexivity. destruct stop; [reflexivity|].
    replace (Z.of_nat (length pre) + 1)%Z with (Z.of_nat (length (pre ++ [x]))) by (rewrite app_length; cbn; lia).
    apply IH; [rewrite <- app_assoc; exact E|cbn in Hf; lia].
Qed.
Lemma range_all l : samples_are get l f -> (Z.of_nat (length l) < 2 ^ 31)%Z -> forall post pre s, l = pre ++ post ->
  py_range get body (length post) (Z.of_nat (length pre)) s = in_turn body post s.
Proof.
  intros [In Out] B. induction post as [|x post IH]; intros pre s E; cbn [length py_range in_turn]; [reflexivity|].
  assert (L : length l = (length pre + Datatypes.S (length post))%nat) by (rewrite E, app_length; reflexivity).
  rewrite item_ok by lia. rewrite (In (length pre) x) by (rewrite E, nth_error_app2, Nat.sub_diag by lia; reflexivity). cbn [bind].
  destruct (body x s) as [[s' stop]| | |]; cbn [bind fst snd]; try reflexivity. destruct stop; [reflexivity|].
  replace (Z.of_nat (length pre) + 1)%Z with (Z.of_nat (length (pre ++ [x]))) by (rewrite app_length; cbn; lia).
  apply IH. rewrite <- app_assoc. exact E.
Qed.
End Loops.

(** ** Assignment *)
Lemma put_outside t i v : (i < 0 \/ Z.of_nat (length t) <= i)%Z -> MerlModel.put t i v = UB.
Proof.
  intros H. unfold MerlModel.put. destruct (Z.ltb_spec i 0); [reflexivity|]. destruct (Z.ltb_spec i (Z.of_nat (length t))); [lia|reflexivity].
Qed.
Lemma put_cases t i v : (exists t', MerlModel.put t i v = Ok t' /\ length t' = length t) \/ MerlModel.put t i v = UB.
Proof.
  unfold MerlModel.put. destruct (Z.ltb_spec i 0); [auto|]. destruct (Z.ltb_spec i (Z.of_nat (length t))); [left|auto].
  eexists. split; [reflexivity|]. rewrite app_length, firstn_length. cbn [length]. rewrite skipn_length. lia.
Qed.
Lemma three_puts A t i j k u v w (f : list R -> A) : (i < 0 \/ Z.of_nat (length t) <= k)%Z ->
  (do a <- MerlModel.put t i u; do b <- MerlModel.put a j v; do c <- MerlModel.put b k w; Ok (f c)) = UB.
Proof.
  intros [H|H].
  - rewrite (put_outside t i) by auto. reflexivity.
  - destruct (put_cases t i u) as [(a & -> & La)| ->]; [|reflexivity]. cbn [bind].
    destruct (put_cases a j v) as [(b & -> & Lb)| ->]; [|reflexivity]. cbn [bind]. rewrite (put_outside b k) by lia. reflexivity.
Qed.
Lemma bind_ok A (x : outcome A) : (do c <- x; Ok c) = x. Proof. destruct x; reflexivity. Qed.
Lemma two_puts (t : list R) i j k u v w : (do a <- MerlModel.put t i u; do b <- MerlModel.put a j v; MerlModel.put b k w) =
  (do a <- MerlModel.put t i u; do b <- MerlModel.put a j v; do c <- MerlModel.put b k w; Ok c).
Proof. destruct (MerlModel.put t i u) as [a| | |]; cbn [bind]; try reflexivity. destruct (MerlModel.put a j v) as [b| | |]; cbn [bind]; try reflexivity. rewrite bind_ok. reflexivity. Qed.

Lemma merl_outside t : table_ok t -> only_inside merl_set t samples Undefined.
Proof.
  intros H i [[r g] b] Hi. unfold table_ok in H. unfold merl_set. rewrite two_puts. change MERL_SIZE with 1458000%Z.
  apply (three_puts _ t i _ _ _ _ _ (fun c => c)). unfold samples in *. lia.
Qed.
Lemma utia_outside t : utia_ok t -> only_inside utia_set t plane Undefined.
Proof.
  intros H i [[r g] b] Hi. unfold utia_ok in H. unfold utia_set. rewrite two_puts.
  change (0 * N_PER_PLANE)%Z with 0%Z. change (1 * N_PER_PLANE)%Z with plane. change (2 * N_PER_PLANE)%Z with (2 * plane)%Z.
  apply (three_puts _ t _ _ _ _ _ _ (fun c => c)). unfold plane in *. lia.
Qed.
Lemma slice_outside s : slice_ok s -> only_inside slice_set s (s_width s * s_height s) Undefined.
Proof.
  intros [(W & H & E) _] i [[r g] b] Hi. unfold slice_set.
  apply (three_puts _ (s_data s) (3 * i + 0) (3 * i + 1) (3 * i + 2) r g b (fun c => mkSlice (s_width s) (s_height s) (s_slice s) (s_param s) (s_dim s) (s_phi s) c)). lia.
Qed.
Lemma grid_outside g : only_inside grid_set g (Z.of_nat (length (g_rows g))) Stops.
Proof.
  intros i v Hi. unfold grid_set. destruct (Z.ltb_spec i 0); [reflexivity|]. destruct (Z.ltb_spec i (Z.of_nat (length (g_rows g)))); [lia|reflexivity].
Qed.
Lemma segment_outside d : only_inside segment_set d (Z.of_nat (vs_size d)) Stops.
Proof.
  intros i v Hi. unfold segment_set. destruct (Z.ltb_spec i 0); [reflexivity|]. unfold vs_set. destruct (_ || _); [|reflexivity].
  destruct (Nat.ltb_spec (Z.to_nat i) (vs_size d)); [lia|reflexivity].
Qed.
Lemma setitem_ok D V (set : D -> Z -> V -> outcome D) d i v : (- 2 ^ 31 <= i < 2 ^ 31)%Z -> py_setitem set d i v = set d i v.
Proof. intros H. unfold py_setitem. replace ((i <? - 2 ^ 31) || (2 ^ 31 <=? i))%Z with false; [reflexivity|]. symmetry. apply orb_false_intro; [apply Z.ltb_ge|apply Z.leb_gt]; lia. Qed.
Lemma setitem_no D V (set : D -> Z -> V -> outcome D) d i v : (i < - 2 ^ 31 \/ 2 ^ 31 <= i)%Z -> py_setitem set d i v = Throw.
Proof. intros H. unfold py_setitem. replace ((i <? - 2 ^ 31) || (2 ^ 31 <=? i))%Z with true; [reflexivity|]. symmetry. apply orb_true_iff. destruct H; [left; apply Z.ltb_lt|right; apply Z.leb_le]; lia. Qed.

(** Sample storage, bounds and equality of vertical_segment data (C20-C23). *)
From Coq Require Import SpecFloat NArith Lia Reals Lra.
From Flocq Require Import Core BinarySingleNaN.
From Verif Require Import Base Num ParamsModel ArgsModel Double DataModel DataSpec DoubleProofs DataProofs ParamsProofs.

(** ** Model of data::equals and of the interval accessor *)

(** data.cpp:46-53: comparison of two samples.  The number of components is the
    same on both sides once the dimensions agree. *)
Fixpoint row_close (eps : double) (a b : list double) : bool :=
  match a, b with
  | [], [] => true
  | x :: a', y :: b' => if exceeds eps x y then false else row_close eps a' b'
  | _, _ => false
  end.

(** data.cpp:38-56: the loop over the samples, sample [i] onwards *)
Fixpoint rows_close (n i : nat) (d1 d2 : vseg) (eps : double) : outcome bool :=
  match n with
  | O => Ok true
  | S n' => do other <- vs_get d2 i;
            do self <- vs_get d1 i;
            if row_close eps self other then rows_close n' (S i) d1 d2 eps else Ok false
  end.


(** data.cpp:27-59 data::equals *)
Definition data_equals (d1 d2 : vseg) (eps : double) : outcome bool :=
  if negb (vs_size d1 =? vs_size d2)%nat
     || negb (dimX (vs_par d1) =? dimX (vs_par d2))%nat
     || negb (dimY (vs_par d1) =? dimY (vs_par d2))%nat
     || negb (input_eqb (in_param (vs_par d1)) (in_param (vs_par d2)))
     || negb (output_eqb (out_param (vs_par d1)) (out_param (vs_par d2)))
  then Ok false
  else rows_close (vs_size d2) 0 d1 d2 eps.

(** data.h:85-87: the default epsilon is pow(1.0, -14), that is 1.0 *)
Definition default_epsilon : double := 0x3FF0000000000000%N.

(** vertical_segment.h: _dt is initialised to 0.1 *)
Definition default_dt : double := 0x3FB999999999999A%N.

(** vertical_segment.cpp:106-137 get(i, x, yl, yu) *)
Definition vs_interval (d : vseg) (i : nat) : outcome (list double * list spec_float * list spec_float) :=
  do r <- vs_row d i;
  let dx := dimX (vs_par d) in let dy := dimY (vs_par d) in
  let x := seg 0 dx r in
  let y := map sf_decode (seg dx dy r) in
  match vs_kind d with
  | ASYMMETRICAL_CI =>
      Ok (x, map sf_decode (seg (dx + dy) dy r), map sf_decode (seg (dx + 2 * dy) dy r))
  | SYMMETRICAL_CI =>
      let ci := map sf_decode (seg (dx + dy) dy r) in
      Ok (x, map (fun p => SFsub 53 1024 (fst p) (snd p)) (combine y ci),
             map (fun p => SFsub 53 1024 (fst p) (snd p)) (combine y ci))
  | NO_CI =>
      Ok (x, map (fun v => SFsub 53 1024 v (sf_decode default_dt)) y,
             map (fun v => SFadd 53 1024 v (sf_decode default_dt)) y)
  end.

(** ** Rows *)
Lemma row_length d i : wf_vseg d -> (i < vs_size d)%nat -> length (buf_row (column_number d) i (vs_buf d)) = column_number d.
Proof.
  intros [Hl _] Hi. unfold buf_row. rewrite firstn_length, skipn_length, Hl.
  apply Nat.min_l. nia.
Qed.


Lemma rows_length d : length (rows d) = vs_size d.
Proof. unfold rows. rewrite map_length, seq_length. reflexivity. Qed.

Lemma nth_error_rows d i : (i < vs_size d)%nat -> nth_error (rows d) i = Some (buf_row (column_number d) i (vs_buf d)).
Proof.
  intros Hi. unfold rows. rewrite nth_error_map. rewrite (nth_error_nth' _ 0%nat) by (rewrite seq_length; assumption).
  rewrite seq_nth by assumption. reflexivity.
Qed.

Lemma vs_row_rows d i : vs_row d i = match nth_error (rows d) i with Some r => Ok r | None => Abort end.
Proof.
  unfold vs_row. destruct (Nat.ltb_spec i (vs_size d)) as [H|H].
  - rewrite nth_error_rows by assumption. reflexivity.
  - destruct (nth_error (rows d) i) eqn:E; [|reflexivity].
    assert (i < length (rows d))%nat by (apply nth_error_Some; congruence). rewrite rows_length in *. lia.
Qed.

Lemma vs_get_rows d i : wf_vseg d ->
  vs_get d i = match nth_error (rows d) i with Some r => Ok (firstn (dimX (vs_par d) + dimY (vs_par d)) r) | None => Abort end.
Proof.
  intros Hw. unfold vs_get. destruct (Nat.ltb_spec i (vs_size d)) as [H|H].
  - rewrite nth_error_rows by assumption. unfold buf_row. rewrite firstn_firstn. f_equal. f_equal.
    unfold column_number, columns_of. lia.
  - destruct (nth_error (rows d) i) eqn:E; [|reflexivity].
    assert (i < length (rows d))%nat by (apply nth_error_Some; congruence). rewrite rows_length in *. lia.
Qed.

Lemma firstn_app_exact {A} (a b : list A) : firstn (length a) (a ++ b) = a.
Proof. rewrite firstn_app, Nat.sub_diag, firstn_all. simpl. apply app_nil_r. Qed.
Lemma skipn_app_exact {A} (a b : list A) : skipn (length a) (a ++ b) = b.
Proof. rewrite skipn_app, Nat.sub_diag, skipn_all. reflexivity. Qed.

Lemma buf_split d i : wf_vseg d -> (i < vs_size d)%nat -> exists p s,
  vs_buf d = p ++ buf_row (column_number d) i (vs_buf d) ++ s /\ length p = (i * column_number d)%nat.
Proof.
  intros Hw Hi. exists (firstn (i * column_number d) (vs_buf d)), (skipn (column_number d) (skipn (i * column_number d) (vs_buf d))).
  unfold buf_row. rewrite !firstn_skipn. split; [reflexivity|].
  destruct Hw as [Hl _]. rewrite firstn_length, Hl. apply Nat.min_l. nia.
Qed.

Lemma row_before cols j p t i : length p = (i * cols)%nat -> (j < i)%nat -> buf_row cols j (p ++ t) = buf_row cols j p.
Proof.
  intros Hp Hj. unfold buf_row. rewrite skipn_app, firstn_app.
  replace (cols - length (skipn (j * cols) p))%nat with 0%nat.
  - simpl. apply app_nil_r.
  - rewrite skipn_length, Hp. nia.
Qed.
Lemma row_after cols j p t i : length p = (i * cols)%nat -> (i <= j)%nat -> buf_row cols j (p ++ t) = buf_row cols (j - i) t.
Proof.
  intros Hp Hj. unfold buf_row. rewrite skipn_app, skipn_all2 by (rewrite Hp; nia). simpl.
  f_equal. f_equal. rewrite Hp. nia.
Qed.

(** what a write does to the list of rows: the head of row [i] is replaced *)
Definition write_row (i : nat) (x : list double) (rs : list (list double)) : list (list double) :=
  match nth_error rs i with
  | Some r => firstn i rs ++ (x ++ skipn (length x) r) :: skipn (S i) rs
  | None => rs
  end.

Lemma set_rows d i x d' : wf_vseg d -> Forall is_double x -> vs_set d i x = Ok d' ->
  wf_vseg d' /\ vs_par d' = vs_par d /\ vs_size d' = vs_size d /\ vs_kind d' = vs_kind d /\
  vs_min d' = vs_min d /\ vs_max d' = vs_max d /\ (i < vs_size d)%nat /\
  forall j, nth_error (rows d') j = if Nat.eqb j i
     then match nth_error (rows d) i with Some r => Some (x ++ skipn (length x) r) | None => None end
     else nth_error (rows d) j.
Proof.
  intros Hw Hx. unfold vs_set.
  destruct ((length x =? column_number d) || (length x =? dimX (vs_par d) + dimY (vs_par d)))%nat eqn:El; [|discriminate].
  destruct (Nat.ltb_spec i (vs_size d)) as [Hi|]; [|discriminate]. intros E; apply Ok_inj in E; subst d'.
  cbn [vs_par vs_size vs_kind vs_min vs_max].
  assert (Lx : (length x <= column_number d)%nat).
  { apply orb_true_iff in El as [El|El]; apply Nat.eqb_eq in El; unfold column_number, columns_of in *; lia. }
  destruct (buf_split d i Hw Hi) as (p & s & Eb & Hp).
  pose proof (row_length d i Hw Hi) as Lr. set (r := buf_row (column_number d) i (vs_buf d)) in *.
  assert (En : firstn (i * column_number d) (vs_buf d) ++ x ++ skipn (i * column_number d + length x) (vs_buf d)
     = p ++ (x ++ skipn (length x) r) ++ s).
  { rewrite Eb, <- Hp at 1. rewrite firstn_app_exact. f_equal. rewrite <- app_assoc. f_equal.
    rewrite Eb. rewrite <- Hp, skipn_app, skipn_all2 by lia.
    replace (length p + length x - length p)%nat with (length x) by lia. simpl. rewrite skipn_app.
    replace (length x - length r)%nat with 0%nat by lia. reflexivity. }
  rewrite En.
  assert (Ln : length (x ++ skipn (length x) r) = column_number d).
  { rewrite app_length, skipn_length. lia. }
  destruct Hw as [Hl Hd].
  assert (Hw' : wf_vseg (mkVseg (vs_par d) (vs_size d) (vs_kind d) (p ++ (x ++ skipn (length x) r) ++ s) (vs_min d) (vs_max d))).
  { split.
    - unfold column_number; cbn [vs_buf vs_size vs_kind vs_par]. fold (column_number d).
      rewrite <- Hl, Eb. rewrite !app_length in *. lia.
    - cbn [vs_buf]. rewrite Eb in Hd. apply Forall_app in Hd as [Hd1 Hd2]. apply Forall_app in Hd2 as [Hd2 Hd3].
      apply Forall_app; split; [assumption|]. apply Forall_app; split; [|assumption]. apply Forall_app; split; [assumption|].
      rewrite <- (firstn_skipn (length x) r) in Hd2. apply Forall_app in Hd2. tauto. }
  repeat split; try assumption; try (apply Hw').
  intros j. destruct (Nat.ltb_spec j (vs_size d)) as [Hj|Hj].
  - rewrite nth_error_rows by assumption. cbn [vs_buf].
    change (column_number {| vs_par := vs_par d; vs_size := vs_size d; vs_kind := vs_kind d;
      vs_buf := p ++ (x ++ skipn (length x) r) ++ s; vs_min := vs_min d; vs_max := vs_max d |}) with (column_number d).
    destruct (Nat.eqb_spec j i) as [->|Hne].
    + rewrite nth_error_rows by assumption. fold r. f_equal.
      rewrite (row_after _ i p _ i Hp) by lia. rewrite Nat.sub_diag. unfold buf_row. cbn [Nat.mul skipn].
      rewrite <- Ln. apply firstn_app_exact.
    + rewrite nth_error_rows by assumption. f_equal. rewrite Eb.
      destruct (Nat.lt_ge_cases j i).
      * rewrite !(row_before _ j p _ i Hp) by assumption. reflexivity.
      * rewrite !(row_after _ j p _ i Hp) by assumption.
        assert (Lr1 : length (x ++ skipn (length x) r) = (1 * column_number d)%nat) by lia.
        assert (Lr2 : length r = (1 * column_number d)%nat) by lia.
        rewrite (row_after _ (j - i) _ _ 1 Lr1) by lia. rewrite (row_after _ (j - i) _ _ 1 Lr2) by lia. reflexivity.
  - assert (nth_error (rows d) j = None) as -> by (apply nth_error_None; rewrite rows_length; assumption).
    destruct (Nat.eqb_spec j i); [lia|]. apply nth_error_None. rewrite rows_length. assumption.
Qed.

(** ** Histories of writes *)
Lemma nth_error_skipn' {A} n : forall (l : list A) c, nth_error (skipn n l) c = nth_error l (n + c).
Proof. induction n; intros l c; [reflexivity|]. destruct l; [destruct c; reflexivity|]. simpl. apply IHn. Qed.


Lemma set_all_wf ws : forall d d', wf_vseg d -> Forall (fun w => Forall is_double (snd w)) ws -> set_all ws d = Ok d' ->
  wf_vseg d' /\ vs_par d' = vs_par d /\ vs_size d' = vs_size d /\ vs_kind d' = vs_kind d /\
  vs_min d' = vs_min d /\ vs_max d' = vs_max d.
Proof.
  induction ws as [|[i x] ws IH]; intros d d' Hw Hd H.
  - apply Ok_inj in H. subst. auto 10.
  - inversion Hd as [|? ? Hx Hd']; subst. cbn [set_all] in H. destruct (vs_set d i x) as [d1| | |] eqn:E; try discriminate.
    cbn [bind] in H. destruct (set_rows d i x d1 Hw Hx E) as (W & A1 & A2 & A3 & A4 & A5 & _).
    destruct (IH d1 d' W Hd' H) as (W' & B1 & B2 & B3 & B4 & B5). repeat split; try congruence; apply W'.
Qed.


Lemma set_cell d i x d' j c : wf_vseg d -> Forall is_double x -> vs_set d i x = Ok d' ->
  cell d' j c = match (if Nat.eqb i j then nth_error x c else None) with Some v => Some v | None => cell d j c end.
Proof.
  intros Hw Hx H. destruct (set_rows d i x d' Hw Hx H) as (_ & _ & _ & _ & _ & _ & Hi & Hr).
  unfold cell. rewrite Hr. rewrite (Nat.eqb_sym i j). destruct (Nat.eqb_spec j i) as [->|]; [|reflexivity].
  rewrite nth_error_rows by assumption.
  destruct (nth_error x c) eqn:E.
  - rewrite nth_error_app1; [assumption|]. apply nth_error_Some. congruence.
  - apply nth_error_None in E. rewrite nth_error_app2 by assumption. rewrite nth_error_skipn'. f_equal. lia.
Qed.

Lemma history_cell ws : forall d d' j c, wf_vseg d -> Forall (fun w => Forall is_double (snd w)) ws -> set_all ws d = Ok d' ->
  cell d' j c = match last_write ws j c with Some v => Some v | None => cell d j c end.
Proof.
  induction ws as [|[i x] ws IH]; intros d d' j c Hw Hd H.
  - apply Ok_inj in H. subst. reflexivity.
  - inversion Hd as [|? ? Hx Hd']; subst. cbn [set_all] in H. destruct (vs_set d i x) as [d1| | |] eqn:E; try discriminate.
    cbn [bind] in H. destruct (set_rows d i x d1 Hw Hx E) as (W & _).
    rewrite (IH d1 d' j c W Hd' H). cbn [last_write]. destruct (last_write ws j c); [reflexivity|].
    apply (set_cell d i x d1 j c Hw Hx E).
Qed.

Lemma set_ok_iff d i x : (exists d', vs_set d i x = Ok d') <->
  (i < vs_size d)%nat /\ (length x = column_number d \/ length x = dimX (vs_par d) + dimY (vs_par d))%nat.
Proof.
  unfold vs_set. destruct (Nat.eqb_spec (length x) (column_number d)) as [E1|E1];
  destruct (Nat.eqb_spec (length x) (dimX (vs_par d) + dimY (vs_par d))) as [E2|E2]; cbn [orb];
  destruct (Nat.ltb_spec i (vs_size d)); split; try (intros [? ?]; discriminate); try (intros [? [?|?]]; lia); eauto;
  intros; split; auto; lia.
Qed.
Lemma set_rejects d i x : ~ ((i < vs_size d)%nat /\ (length x = column_number d \/ length x = dimX (vs_par d) + dimY (vs_par d))%nat) ->
  vs_set d i x = Abort.
Proof.
  intros H. rewrite <- set_ok_iff in H. unfold vs_set in *. destruct (_ || _); [|reflexivity].
  destruct (i <? vs_size d)%nat; [|reflexivity]. exfalso. apply H. eauto.
Qed.

(** ** Bounds *)

Lemma coord_buf d c i : wf_vseg d -> (i < vs_size d)%nat -> (c < column_number d)%nat ->
  coord d c i = nth (i * column_number d + c) (vs_buf d) 0%N.
Proof.
  intros Hw Hi Hc. unfold coord. rewrite (nth_error_nth (rows d) i _ (nth_error_rows d i Hi)).
  unfold buf_row. destruct (buf_split d i Hw Hi) as (p & s & E & Hp).
  pose proof (row_length d i Hw Hi) as Lr. unfold buf_row in *.
  set (r := firstn (column_number d) (skipn (i * column_number d) (vs_buf d))) in *.
  rewrite E. rewrite app_nth2 by lia. rewrite app_nth1 by lia. f_equal. lia.
Qed.

Lemma fold_left_map {A B C} (f : A -> B -> A) (g : C -> B) l : forall a,
  fold_left (fun acc x => f acc (g x)) l a = fold_left f (map g l) a.
Proof. induction l; intros; simpl; auto. Qed.

Lemma col_fold_column f init d c : wf_vseg d -> (c < column_number d)%nat ->
  col_fold f init (vs_size d) (column_number d) c (vs_buf d) = fold_left f (column d c) init.
Proof.
  intros Hw Hc. unfold col_fold. rewrite fold_left_map. f_equal. unfold column. apply map_ext_in.
  intros i Hi. apply in_seq in Hi. symmetry. apply coord_buf; [assumption|lia|assumption].
Qed.

Lemma column_double d c : wf_vseg d -> (c < column_number d)%nat -> Forall is_double (column d c).
Proof.
  intros Hw Hc. apply Forall_forall. intros v Hv. unfold column in Hv. apply in_map_iff in Hv as (i & <- & Hi).
  apply in_seq in Hi. rewrite coord_buf by (assumption || lia). destruct Hw as [Hl Hd].
  apply Forall_nth; [assumption|]. rewrite Hl. unfold column_number in *. nia.
Qed.

Lemma min_fold d c : wf_vseg d -> vs_min d = data_min (vs_par d) (vs_kind d) (vs_size d) (vs_buf d) -> (c < dimX (vs_par d))%nat ->
  nth_error (vs_min d) c = Some (fold_left dmin (column d c) dbl_max).
Proof.
  intros Hw E Hc. rewrite E. unfold data_min. rewrite nth_error_map, (nth_error_nth' _ 0%nat) by (rewrite seq_length; assumption).
  rewrite seq_nth by assumption. cbn [option_map plus]. f_equal. apply col_fold_column; [assumption|].
  unfold column_number, columns_of. lia.
Qed.
Lemma max_fold d c : wf_vseg d -> vs_max d = data_max (vs_par d) (vs_kind d) (vs_size d) (vs_buf d) -> (c < dimX (vs_par d))%nat ->
  nth_error (vs_max d) c = Some (fold_left dmax (column d c) dbl_lowest).
Proof.
  intros Hw E Hc. rewrite E. unfold data_max. rewrite nth_error_map, (nth_error_nth' _ 0%nat) by (rewrite seq_length; assumption).
  rewrite seq_nth by assumption. cbn [option_map plus]. f_equal. apply col_fold_column; [assumption|].
  unfold column_number, columns_of. lia.
Qed.

(** least and greatest of a column containing at least one finite sample, NaNs
    and infinities of the other sign ignored *)
Lemma column_min l : Forall is_double l -> (exists v, In v l /\ is_finite v = true) ->
  let m := fold_left dmin l dbl_max in
  In m l /\ is_nan m = false /\ forall v, In v l -> is_nan v = false -> dlt v m = false.
Proof.
  intros Hl (v & Hv & Fv). destruct dbl_max_facts as (M1 & M2 & M3).
  destruct (fold_dmin l dbl_max M1 Hl M2) as (A1 & A2 & A3 & A4 & A5). cbv zeta in *.
  assert (Dv : forall u, In u l -> is_double u) by (apply Forall_forall; assumption).
  split; [|split; [assumption|]].
  - destruct A3 as [A3|A3]; [|exact A3].
    destruct (finite_key v (Dv v Hv) Fv) as [Nv Kv]. specialize (A5 v Hv Nv).
    assert (E : v = dbl_max).
    { apply okey_inj_pos; [auto|assumption| |]; rewrite A3, M3 in *; lia. }
    rewrite A3, <- E. exact Hv.
  - intros u Hu Nu. apply dlt_false_le; auto.
Qed.
Lemma column_max l : Forall is_double l -> (exists v, In v l /\ is_finite v = true) ->
  let m := fold_left dmax l dbl_lowest in
  In m l /\ is_nan m = false /\ forall v, In v l -> is_nan v = false -> dlt m v = false.
Proof.
  intros Hl (v & Hv & Fv). destruct dbl_lowest_facts as (M1 & M2 & M3).
  destruct (fold_dmax l dbl_lowest M1 Hl M2) as (A1 & A2 & A3 & A4 & A5). cbv zeta in *.
  assert (Dv : forall u, In u l -> is_double u) by (apply Forall_forall; assumption).
  split; [|split; [assumption|]].
  - destruct A3 as [A3|A3]; [|exact A3].
    destruct (finite_key v (Dv v Hv) Fv) as [Nv Kv]. specialize (A5 v Hv Nv).
    assert (E : v = dbl_lowest).
    { apply okey_inj_neg; [auto|assumption| |]; rewrite A3, M3 in *; lia. }
    rewrite A3, <- E. exact Hv.
  - intros u Hu Nu. apply dlt_false_le; auto.
Qed.

Lemma column_min_real l : Forall is_double l -> l <> [] -> Forall (fun v => is_finite v = true) l ->
  let m := fold_left dmin l dbl_max in In m l /\ forall v, In v l -> (dval m <= dval v)%R.
Proof.
  intros Hl Hne Hf. assert (Ff : forall u, In u l -> is_finite u = true) by (apply Forall_forall; assumption).
  assert (Dv : forall u, In u l -> is_double u) by (apply Forall_forall; assumption).
  destruct (column_min l Hl) as (A & B & C).
  { destruct l as [|x l]; [congruence|]. exists x. split; [left; reflexivity|]. apply Ff. left; reflexivity. }
  cbv zeta in *. split; [exact A|]. intros v Hv.
  pose proof (proj1 (finite_key v (Dv v Hv) (Ff v Hv))) as Nv. apply key_real; auto. apply dlt_false_le; auto.
Qed.
Lemma column_max_real l : Forall is_double l -> l <> [] -> Forall (fun v => is_finite v = true) l ->
  let m := fold_left dmax l dbl_lowest in In m l /\ forall v, In v l -> (dval v <= dval m)%R.
Proof.
  intros Hl Hne Hf. assert (Ff : forall u, In u l -> is_finite u = true) by (apply Forall_forall; assumption).
  assert (Dv : forall u, In u l -> is_double u) by (apply Forall_forall; assumption).
  destruct (column_max l Hl) as (A & B & C).
  { destruct l as [|x l]; [congruence|]. exists x. split; [left; reflexivity|]. apply Ff. left; reflexivity. }
  cbv zeta in *. split; [exact A|]. intros v Hv.
  pose proof (proj1 (finite_key v (Dv v Hv) (Ff v Hv))) as Nv. apply key_real; auto. apply dlt_false_le; auto.
Qed.

(** ** Equality *)

Lemma vs_get_sample d i : wf_vseg d -> (i < vs_size d)%nat -> vs_get d i = Ok (sample d i).
Proof.
  intros Hw Hi. rewrite vs_get_rows by assumption. rewrite nth_error_rows by assumption.
  unfold sample. rewrite (nth_error_nth (rows d) i _ (nth_error_rows d i Hi)). reflexivity.
Qed.


Lemma shape_test d1 d2 :
  (negb (vs_size d1 =? vs_size d2)%nat
     || negb (dimX (vs_par d1) =? dimX (vs_par d2))%nat
     || negb (dimY (vs_par d1) =? dimY (vs_par d2))%nat
     || negb (input_eqb (in_param (vs_par d1)) (in_param (vs_par d2)))
     || negb (output_eqb (out_param (vs_par d1)) (out_param (vs_par d2)))) = false <-> same_shape d1 d2.
Proof.
  unfold same_shape. destruct (vs_par d1) as [x1 y1 i1 o1], (vs_par d2) as [x2 y2 i2 o2]. cbn [dimX dimY in_param out_param].
  destruct (Nat.eqb_spec (vs_size d1) (vs_size d2)), (Nat.eqb_spec x1 x2), (Nat.eqb_spec y1 y2),
   (input_eqb_spec i1 i2), (output_eqb_spec o1 o2); cbn [negb orb]; split; intros H; try discriminate;
   try (destruct H as [? E]; congruence). subst; auto.
Qed.

Lemma row_close_spec eps a : forall b, row_close eps a b = true <-> Forall2 (fun x y => exceeds eps x y = false) a b.
Proof.
  induction a as [|x a IH]; intros [|y b]; cbn [row_close]; split; intros H; try discriminate; try (inversion H; fail); auto.
  - destruct (exceeds eps x y) eqn:E; [discriminate|]. constructor; [assumption|]. apply IH; assumption.
  - inversion H as [|? ? ? ? E F]; subst. rewrite E. apply IH; assumption.
Qed.

Lemma rows_close_spec eps d1 d2 n : forall i, wf_vseg d1 -> wf_vseg d2 -> same_shape d1 d2 -> (i + n = vs_size d1)%nat ->
  exists b, rows_close n i d1 d2 eps = Ok b /\
  (b = true <-> forall j, (i <= j < vs_size d1)%nat -> Forall2 (fun x y => exceeds eps x y = false) (sample d1 j) (sample d2 j)).
Proof.
  induction n as [|n IH]; intros i H1 H2 [Hs Hp] Hi.
  - exists true. split; [reflexivity|]. split; [intros _ j Hj; lia|reflexivity].
  - cbn [rows_close]. rewrite !vs_get_sample by (assumption || lia). cbn [bind].
    destruct (row_close eps (sample d1 i) (sample d2 i)) eqn:E.
    + destruct (IH (S i) H1 H2 (conj Hs Hp) ltac:(lia)) as (b & Eb & Hb). exists b. split; [exact Eb|].
      rewrite Hb. apply row_close_spec in E. split; intros H j Hj.
      * destruct (Nat.eq_dec j i) as [->|]; [assumption|]. apply H. lia.
      * apply H. lia.
    + exists false. split; [reflexivity|]. split; [discriminate|]. intros H.
      specialize (H i ltac:(lia)). apply row_close_spec in H. congruence.
Qed.

Theorem equals_spec d1 d2 eps : wf_vseg d1 -> wf_vseg d2 -> exists b, data_equals d1 d2 eps = Ok b /\
  (b = true <-> same_shape d1 d2 /\ forall i, (i < vs_size d1)%nat ->
     Forall2 (fun x y => exceeds eps x y = false) (sample d1 i) (sample d2 i)).
Proof.
  intros H1 H2. unfold data_equals. destruct (_ || _) eqn:E.
  - exists false. split; [reflexivity|]. split; [discriminate|]. intros [H _]. apply shape_test in H. congruence.
  - apply shape_test in E. destruct E as [Es Ep].
    destruct (rows_close_spec eps d1 d2 (vs_size d2) 0 H1 H2 (conj Es Ep) (eq_sym Es)) as (b & Eb & Hb).
    exists b. split; [exact Eb|]. rewrite Hb. split.
    + intros H. split; [split; assumption|]. intros i Hi. apply H. lia.
    + intros [_ H] j Hj. apply H. lia.
Qed.

Lemma Forall2_refl_in {A} (P : A -> A -> Prop) l : (forall x, In x l -> P x x) -> Forall2 P l l.
Proof. induction l; intros H; constructor; [apply H; left; reflexivity|]. apply IHl. intros; apply H; right; assumption. Qed.
Lemma Forall2_swap {A B} (P : A -> B -> Prop) l m : Forall2 P l m -> Forall2 (fun y x => P x y) m l.
Proof. induction 1; constructor; auto. Qed.
Lemma Forall2_imp {A B} (P Q : A -> B -> Prop) l m : (forall x y, P x y -> Q x y) -> Forall2 P l m -> Forall2 Q l m.
Proof. intros H; induction 1; constructor; auto. Qed.

Theorem equals_refl d eps : wf_vseg d -> dlt eps 0%N = false -> data_equals d d eps = Ok true.
Proof.
  intros Hw He. destruct (equals_spec d d eps Hw Hw) as (b & -> & Hb). f_equal. apply Hb.
  split; [split; reflexivity|]. intros i Hi. apply Forall2_refl_in. intros; apply exceeds_refl; assumption.
Qed.

Theorem equals_sym d1 d2 eps : wf_vseg d1 -> wf_vseg d2 -> data_equals d1 d2 eps = data_equals d2 d1 eps.
Proof.
  intros H1 H2. destruct (equals_spec d1 d2 eps H1 H2) as (b & -> & Hb). destruct (equals_spec d2 d1 eps H2 H1) as (c & -> & Hc).
  f_equal.
  assert (K : forall a b, wf_vseg a -> wf_vseg b ->
    (same_shape a b /\ forall i, (i < vs_size a)%nat -> Forall2 (fun x y => exceeds eps x y = false) (sample a i) (sample b i)) ->
    (same_shape b a /\ forall i, (i < vs_size b)%nat -> Forall2 (fun x y => exceeds eps x y = false) (sample b i) (sample a i))).
  { intros d e Hd He [[S1 S2] H]. split; [split; congruence|]. intros i Hi.
    apply (Forall2_imp (fun x y => exceeds eps y x = false)).
    - intros. rewrite exceeds_sym. assumption.
    - apply Forall2_swap. apply H. congruence. }
  destruct b, c; try reflexivity.
  - symmetry. apply Hc. apply K; [assumption..|]. apply Hb. reflexivity.
  - apply Hb. apply K; [assumption..|]. apply Hc. reflexivity.
Qed.

(** ** The interval accessor *)
Lemma firstn_In {A} n (l : list A) x : In x (firstn n l) -> In x l.
Proof. intros H. rewrite <- (firstn_skipn n l). apply in_or_app. left; assumption. Qed.
Lemma skipn_In {A} n (l : list A) x : In x (skipn n l) -> In x l.
Proof. intros H. rewrite <- (firstn_skipn n l). apply in_or_app. right; assumption. Qed.

Lemma default_dt_facts : is_double default_dt /\ is_finite default_dt = true /\ (0 < dval default_dt)%R.
Proof.
  split; [reflexivity|]. split; [reflexivity|]. unfold dval. 
  replace (sf_decode default_dt) with (S754_finite false 7205759403792794 (-56)) by reflexivity.
  unfold SF2R. apply F2R_gt_0. reflexivity.
Qed.

Lemma interval_none d i r : wf_vseg d -> vs_kind d = NO_CI -> vs_row d i = Ok r ->
  (forall v, In v (seg (dimX (vs_par d)) (dimY (vs_par d)) r) -> is_finite v = true) ->
  exists yl yu, vs_interval d i = Ok (seg 0 (dimX (vs_par d)) r, yl, yu) /\
    Forall2 (fun l v => SFltb (sf_decode v) l = false) yl (seg (dimX (vs_par d)) (dimY (vs_par d)) r) /\
    Forall2 (fun u v => SFltb u (sf_decode v) = false) yu (seg (dimX (vs_par d)) (dimY (vs_par d)) r).
Proof.
  intros Hw Hk Hr Hf. unfold vs_interval. rewrite Hr, Hk. cbn [bind]. cbv zeta. eexists _, _. split; [reflexivity|].
  assert (Hd : forall v, In v (seg (dimX (vs_par d)) (dimY (vs_par d)) r) -> is_double v).
  { intros v Hv. unfold vs_row in Hr. destruct (i <? vs_size d)%nat; [|discriminate]. apply Ok_inj in Hr. subst r.
    destruct Hw as [_ Hd]. rewrite Forall_forall in Hd. apply Hd. unfold seg, buf_row in Hv.
    apply firstn_In in Hv. apply skipn_In in Hv. apply firstn_In in Hv. apply skipn_In in Hv. exact Hv. }
  destruct default_dt_facts as (D1 & D2 & D3).
  revert Hf Hd. induction (seg (dimX (vs_par d)) (dimY (vs_par d)) r) as [|v l IH]; intros Hf Hd; [split; constructor|].
  destruct IH as [I1 I2]; [intros; apply Hf; right; assumption|intros; apply Hd; right; assumption|].
  split; constructor; auto.
  - apply (sub_step v default_dt); auto; [apply Hd|apply Hf]; left; reflexivity.
  - apply (add_step v default_dt); auto; [apply Hd|apply Hf]; left; reflexivity.
Qed.

Lemma interval_asym d i r : vs_kind d = ASYMMETRICAL_CI -> vs_row d i = Ok r ->
  vs_interval d i = Ok (seg 0 (dimX (vs_par d)) r,
    map sf_decode (seg (dimX (vs_par d) + dimY (vs_par d)) (dimY (vs_par d)) r),
    map sf_decode (seg (dimX (vs_par d) + 2 * dimY (vs_par d)) (dimY (vs_par d)) r)).
Proof. intros Hk Hr. unfold vs_interval. rewrite Hr, Hk. reflexivity. Qed.

Lemma interval_sym d i x yl yu : vs_kind d = SYMMETRICAL_CI -> vs_interval d i = Ok (x, yl, yu) -> yl = yu.
Proof.
  intros Hk. unfold vs_interval. destruct (vs_row d i); try discriminate. cbn [bind]. cbv zeta. rewrite Hk. congruence.
Qed.

(** ** Statements used by the properties *)
Theorem get_after_set d i x d' : wf_vseg d -> Forall is_double x -> vs_set d i x = Ok d' ->
  vs_get d' i = Ok (firstn (dimX (vs_par d) + dimY (vs_par d)) x) /\
  (forall j, j <> i -> vs_get d' j = vs_get d j).
Proof.
  intros Hw Hx H. assert (Hlen : (dimX (vs_par d) + dimY (vs_par d) <= length x)%nat).
  { assert (E : exists d', vs_set d i x = Ok d') by eauto. apply set_ok_iff in E as [_ [E|E]];
    unfold column_number, columns_of in *; lia. }
  destruct (set_rows d i x d' Hw Hx H) as (W & P & _ & _ & _ & _ & Hi & Hr).
  split.
  - rewrite vs_get_rows by assumption. rewrite Hr, Nat.eqb_refl, nth_error_rows, P by assumption. f_equal.
    rewrite firstn_app. replace (dimX (vs_par d) + dimY (vs_par d) - length x)%nat with 0%nat by lia. apply app_nil_r.
  - intros j Hj. rewrite !vs_get_rows by assumption. rewrite Hr, P. destruct (Nat.eqb_spec j i); [contradiction|reflexivity].
Qed.

Theorem out_of_range d i : (vs_size d <= i)%nat -> vs_get d i = Abort /\ forall x, vs_set d i x = Abort.
Proof.
  intros H. unfold vs_get, vs_set. destruct (Nat.ltb_spec i (vs_size d)); [lia|]. split; [reflexivity|].
  intros x. destruct (_ || _); reflexivity.
Qed.

Theorem min_is_least p size buf k c : wf_vseg (make_vseg p size buf k) -> (0 < size)%nat -> (c < dimX p)%nat ->
  let d := make_vseg p size buf k in
  Forall (fun v => is_finite v = true) (column d c) ->
  exists m, nth_error (vs_min d) c = Some m /\ In m (column d c) /\
    forall v, In v (column d c) -> (dval m <= dval v)%R.
Proof.
  intros Hw Hs Hc d Hf. exists (fold_left dmin (column d c) dbl_max). split; [apply min_fold; auto|].
  apply column_min_real; try assumption.
  - apply column_double; [assumption|]. unfold column_number, columns_of, d; cbn. lia.
  - unfold column, d; cbn [vs_size make_vseg]. destruct size; [lia|]. discriminate.
Qed.
Theorem max_is_greatest p size buf k c : wf_vseg (make_vseg p size buf k) -> (0 < size)%nat -> (c < dimX p)%nat ->
  let d := make_vseg p size buf k in
  Forall (fun v => is_finite v = true) (column d c) ->
  exists m, nth_error (vs_max d) c = Some m /\ In m (column d c) /\
    forall v, In v (column d c) -> (dval v <= dval m)%R.
Proof.
  intros Hw Hs Hc d Hf. exists (fold_left dmax (column d c) dbl_lowest). split; [apply max_fold; auto|].
  apply column_max_real; try assumption.
  - apply column_double; [assumption|]. unfold column_number, columns_of, d; cbn. lia.
  - unfold column, d; cbn [vs_size make_vseg]. destruct size; [lia|]. discriminate.
Qed.
Theorem min_max_nan p size buf k c : wf_vseg (make_vseg p size buf k) -> (c < dimX p)%nat ->
  let d := make_vseg p size buf k in
  (exists v, In v (column d c) /\ is_finite v = true) ->
  exists m M, nth_error (vs_min d) c = Some m /\ nth_error (vs_max d) c = Some M /\
    In m (column d c) /\ In M (column d c) /\ is_nan m = false /\ is_nan M = false /\
    forall v, In v (column d c) -> is_nan v = false -> dlt v m = false /\ dlt M v = false.
Proof.
  intros Hw Hc d Hf. exists (fold_left dmin (column d c) dbl_max), (fold_left dmax (column d c) dbl_lowest).
  assert (Hd : Forall is_double (column d c)).
  { apply column_double; [assumption|]. unfold column_number, columns_of, d; cbn. lia. }
  destruct (column_min (column d c) Hd Hf) as (A1 & A2 & A3). destruct (column_max (column d c) Hd Hf) as (B1 & B2 & B3).
  split; [apply min_fold; auto|]. split; [apply max_fold; auto|]. auto 10.
Qed.
Theorem empty_bounds p buf k :
  vs_min (make_vseg p 0 buf k) = repeat dbl_max (dimX p) /\ vs_max (make_vseg p 0 buf k) = repeat dbl_lowest (dimX p).
Proof.
  assert (H : forall (v : double) n s, map (fun _ => v) (seq s n) = repeat v n).
  { intros v. induction n as [|n IH]; intros s; [reflexivity|]. simpl. f_equal. apply IH. }
  split; cbn [vs_min vs_max make_vseg]; unfold data_min, data_max, col_fold; cbn [seq fold_left]; apply H.
Qed.
Theorem writes_keep_bounds ws d d' : wf_vseg d -> Forall (fun w => Forall is_double (snd w)) ws -> set_all ws d = Ok d' ->
  vs_min d' = vs_min d /\ vs_max d' = vs_max d.
Proof. intros Hw Hd H. destruct (set_all_wf ws d d' Hw Hd H) as (_ & _ & _ & _ & ? & ?). auto. Qed.

Theorem equals_shape d1 d2 eps : ~ same_shape d1 d2 -> data_equals d1 d2 eps = Ok false.
Proof. intros H. unfold data_equals. destruct (_ || _) eqn:E; [reflexivity|]. exfalso. apply H. apply shape_test. exact E. Qed.

Lemma sample_double d i : wf_vseg d -> Forall is_double (sample d i).
Proof.
  intros [Hl Hd]. rewrite Forall_forall in *. intros v Hv. unfold sample in Hv. apply firstn_In in Hv.
  destruct (Nat.ltb_spec i (vs_size d)) as [Hi|Hi].
  - rewrite (nth_error_nth (rows d) i _ (nth_error_rows d i Hi)) in Hv. unfold buf_row in Hv.
    apply firstn_In, skipn_In in Hv. auto.
  - rewrite nth_overflow in Hv by (rewrite rows_length; assumption). destruct Hv.
Qed.

Lemma Forall2_Forall {A B} (P : A -> Prop) (Q : B -> Prop) (R S : A -> B -> Prop) l m : Forall P l -> Forall Q m ->
  (forall x y, P x -> Q y -> R x y -> S x y) -> Forall2 R l m -> Forall2 S l m.
Proof.
  intros HP HQ H HR. revert HP HQ. induction HR; intros HP HQ; constructor; inversion HP; inversion HQ; subst; auto.
Qed.

Theorem equals_finite d1 d2 eps : wf_vseg d1 -> wf_vseg d2 -> same_shape d1 d2 ->
  is_double eps -> is_finite eps = true ->
  (forall i, Forall (fun v => is_finite v = true) (sample d1 i) /\ Forall (fun v => is_finite v = true) (sample d2 i)) ->
  (data_equals d1 d2 eps = Ok true <->
   forall i, (i < vs_size d1)%nat ->
     Forall2 (fun a b => (rne (Rabs (dval a - dval b)) <= dval eps)%R) (sample d1 i) (sample d2 i)).
Proof.
  intros H1 H2 Hs He Fe Hf. destruct (equals_spec d1 d2 eps H1 H2) as (b & -> & Hb).
  assert (K : forall i, Forall2 (fun x y => exceeds eps x y = false) (sample d1 i) (sample d2 i) <->
     Forall2 (fun a b => (rne (Rabs (dval a - dval b)) <= dval eps)%R) (sample d1 i) (sample d2 i)).
  { intros i. destruct (Hf i) as [F1 F2]. pose proof (sample_double d1 i H1) as D1. pose proof (sample_double d2 i H2) as D2.
    split; apply (Forall2_Forall (fun v => is_double v /\ is_finite v = true) (fun v => is_double v /\ is_finite v = true));
     try (apply Forall_and; assumption); intros x y [Dx Fx] [Dy Fy]; apply exceeds_real; assumption. }
  split.
  - intros E i Hi. apply Ok_inj in E. symmetry in E. apply K. apply Hb; assumption.
  - intros H. f_equal. apply Hb. split; [assumption|]. intros i Hi. apply K. apply H. assumption.
Qed.

Theorem equals_close d1 d2 eps : wf_vseg d1 -> wf_vseg d2 -> same_shape d1 d2 ->
  is_double eps -> is_finite eps = true ->
  (forall i, Forall (fun v => is_finite v = true) (sample d1 i) /\ Forall (fun v => is_finite v = true) (sample d2 i)) ->
  (forall i, (i < vs_size d1)%nat ->
     Forall2 (fun a b => (Rabs (dval a - dval b) <= dval eps)%R) (sample d1 i) (sample d2 i)) ->
  data_equals d1 d2 eps = Ok true.
Proof.
  intros H1 H2 Hs He Fe Hf H. apply equals_finite; try assumption. intros i Hi.
  apply (Forall2_imp (fun a b => (Rabs (dval a - dval b) <= dval eps)%R)); [|apply H; assumption].
  intros a b L. rewrite <- (rne_double eps He). apply rne_le. exact L.
Qed.

Lemma sample_length d i : wf_vseg d -> (i < vs_size d)%nat -> length (sample d i) = (dimX (vs_par d) + dimY (vs_par d))%nat.
Proof.
  intros Hw Hi. unfold sample. rewrite (nth_error_nth (rows d) i _ (nth_error_rows d i Hi)), firstn_length, row_length by assumption.
  apply Nat.min_l. unfold column_number, columns_of. lia.
Qed.

Theorem equals_nan d1 d2 eps : wf_vseg d1 -> wf_vseg d2 -> same_shape d1 d2 ->
  (forall i, Forall (fun v => is_nan v = true) (sample d1 i)) -> data_equals d1 d2 eps = Ok true.
Proof.
  intros H1 H2 Hs Hn. destruct (equals_spec d1 d2 eps H1 H2) as (b & -> & Hb). f_equal. apply Hb. split; [assumption|].
  intros i Hi. pose proof (sample_length d1 i H1 Hi) as L1. destruct Hs as [S1 S2].
  pose proof (sample_length d2 i H2 ltac:(lia)) as L2. rewrite <- S2, <- L1 in L2. clear L1. revert L2. generalize (sample d2 i).
  specialize (Hn i). induction Hn as [|x l Hx Hn IH]; intros [|y m] L; try discriminate; constructor.
  - apply exceeds_nan. auto.
  - apply IH. simpl in L. lia.
Qed.

Lemma dval_one : dval 0x3FF0000000000000%N = 1%R.
Proof.
  unfold dval. replace (sf_decode 0x3FF0000000000000%N) with (S754_finite false 4503599627370496 (-52)) by reflexivity.
  unfold SF2R, F2R. cbn [Fnum Fexp cond_Zopp]. unfold bpow. change (Z.pow_pos radix2 52) with 4503599627370496%Z. field.
Qed.

Theorem default_tolerance : dval default_epsilon = 1%R /\
  exists d1 d2, wf_vseg d1 /\ wf_vseg d2 /\ vs_buf d1 <> vs_buf d2 /\
  Forall2 (fun a b => Rabs (dval a - dval b) = 1%R) (vs_buf d1) (vs_buf d2) /\
  data_equals d1 d2 default_epsilon = Ok true.
Proof.
  split; [apply dval_one|].
  exists (make_vseg (mkParameters 1 1 COS_TH INV_STERADIAN) 1 [0; 0]%N NO_CI),
         (make_vseg (mkParameters 1 1 COS_TH INV_STERADIAN) 1 [0x3FF0000000000000; 0x3FF0000000000000]%N NO_CI).
  split; [split; [reflexivity|repeat constructor]|]. split; [split; [reflexivity|repeat constructor]|].
  split; [discriminate|]. split; [|reflexivity].
  assert (E : (Rabs (dval 0%N - dval 0x3FF0000000000000%N) = 1)%R).
  { rewrite dval_one. unfold dval. cbn. rewrite Rminus_0_l, Rabs_Ropp. apply Rabs_R1. }
  repeat constructor; exact E.
Qed.

(** Text data files: filtering, ordering, intervals and round trip (C18, C19). *)
From Coq Require Import Reals List Lia Lra.
From Verif Require Import Base Num ParamsModel GeoModel GeoSpec ArgsModel ArgsSpec ArgsProofs ParamsProofs DataModel DataSpec DataProofs TextModel.
Open Scope R_scope.

(** ** Specification vocabulary *)
(** column [c] of row [r] lies within the given bounds, for every column of a
    block starting at [off] *)
Definition block_in (off : nat) (lo hi : list R) (r : list R) : Prop :=
  forall c l h, nth_error lo c = Some l -> nth_error hi c = Some h -> l <= nth (off + c) r 0 <= h.
(** the box requested on the command line, for a data set R^dx -> R^dy *)
Definition in_box (atof : str -> R) (flt_max : R) (args : arguments) (dx dy : nat) (r : list R) : Prop :=
  block_in 0 (get_vec_num atof args (lit "min") dx (- flt_max)) (get_vec_num atof args (lit "max") dx flt_max) r /\
  block_in dx (get_vec_num atof args (lit "ymin") dy (- flt_max)) (get_vec_num atof args (lit "ymax") dy flt_max) r.

(** the options that decide how a row is read, as opposed to whether it is kept *)
Definition same_reading (a b : arguments) : Prop :=
  map_find (lit "dt") a = map_find (lit "dt") b /\
  is_defined a (lit "dt-relative") = is_defined b (lit "dt-relative") /\
  is_defined a (lit "dt-max") = is_defined b (lit "dt-max") /\
  is_defined a (lit "dt-positive") = is_defined b (lit "dt-positive") /\
  is_defined a (lit "data-correct-cosine") = false /\ is_defined b (lit "data-correct-cosine") = false.

(** [l] keeps, in order, exactly the elements of [m] that satisfy [P] *)
Inductive keeps {A} (P : A -> Prop) : list A -> list A -> Prop :=
| keeps_nil : keeps P [] []
| keeps_yes x l m : P x -> keeps P l m -> keeps P (x :: l) (x :: m)
| keeps_no x l m : ~ P x -> keeps P l m -> keeps P l (x :: m).

(** ** Boxes *)
Lemma rleb_spec a b : rleb a b = true <-> a <= b.
Proof. unfold rleb. destruct (Rle_dec a b); split; auto; discriminate. Qed.

Lemma within_bounds_spec v : forall lo hi, length lo = length v -> length hi = length v ->
  within_bounds v lo hi = true <->
  (forall c l h, nth_error lo c = Some l -> nth_error hi c = Some h -> l <= nth c v 0 <= h).
Proof.
  induction v as [|x v IH]; intros [|l lo] [|h hi] E1 E2; try discriminate.
  - split; [|reflexivity]. intros _ c l h H. destruct c; discriminate.
  - cbn [within_bounds]. rewrite !andb_true_iff, !rleb_spec, IH by (simpl in *; lia). split.
    + intros [[A B] C] [|c] l' h' H1 H2.
      * injection H1 as <-. injection H2 as <-. simpl. auto.
      * simpl in *. eauto.
    + intros H. split; [exact (H 0%nat l h eq_refl eq_refl)|]. intros c. exact (H (S c)).
Qed.

Section Proofs.
Variable lex : str -> option (R * str).
Variable stod : str -> outcome R.
Variable atof : str -> R.
Variable flt_max : R.

Notation read_values := (read_values lex).
Notation read_ci := (read_ci lex stod).
Notation load_line := (load_line lex stod).
Notation load_body := (load_body lex stod).

Lemma read_values_length n : forall s r, read_values n s = Ok r -> length (fst r) = n.
Proof.
  induction n as [|n IH]; intros s r H; cbn in H.
  - apply Ok_inj in H. subst. reflexivity.
  - destruct (read_num lex s) as [[v|] s']; [|discriminate]. destruct (read_values n s') as [q| | |] eqn:E; try discriminate.
    cbn [bind] in H. apply Ok_inj in H. subst. simpl. f_equal. eapply IH; eassumption.
Qed.

Lemma read_ci_length kind args ys : forall i s r, read_ci kind args i ys s = Ok r -> length r = length ys.
Proof.
  induction ys as [|y ys IH]; intros i s r H; cbn in H.
  - apply Ok_inj in H. subst. reflexivity.
  - destruct (channel_dt lex stod kind args i s) as [[[a b] s']| | |]; try discriminate. cbn [bind] in H.
    destruct (read_ci kind args (S i) ys s') as [q| | |] eqn:E; try discriminate. cbn [bind] in H.
    apply Ok_inj in H. subst. simpl. f_equal. eapply IH; eassumption.
Qed.

(** reading without any filter *)
Definition parse_row (args : arguments) (dx dy : nat) (kind : ci_kind) (line : str) : outcome (option (list R * list (R * R * R))) :=
  match line with
  | [] => Ok None
  | c :: _ => if aeqb c "#" then Ok None else
     do xy <- read_values (dx + dy) {| trest := line; tgood := true |};
     do ci <- read_ci kind args 0 (skipn dx (fst xy)) (snd xy);
     Ok (Some (firstn dx (fst xy), ci))
  end.

Definition row_of (r : list R * list (R * R * R)) : list R :=
  fst r ++ map (fun t => fst (fst t)) (snd r) ++ map (fun t => snd (fst t)) (snd r) ++ map snd (snd r).

Lemma parse_row_shape args dx dy kind line r : parse_row args dx dy kind line = Ok (Some r) ->
  length (fst r) = dx /\ length (snd r) = dy.
Proof.
  unfold parse_row. destruct line as [|c t]; [discriminate|]. destruct (aeqb c "#"); [discriminate|].
  destruct (read_values (dx + dy) _) as [xy| | |] eqn:E; try discriminate. cbn [bind].
  destruct (read_ci kind args 0 (skipn dx (fst xy)) (snd xy)) as [ci| | |] eqn:F; try discriminate. cbn [bind].
  intros H. apply Ok_inj in H. injection H as ->. apply read_values_length in E. apply read_ci_length in F.
  simpl. rewrite firstn_length, F, skipn_length. lia.
Qed.

Lemma load_line_parse args dx dy p kind lo hi ylo yhi line :
  is_defined args (lit "data-correct-cosine") = false ->
  load_line args dx dy p kind lo hi ylo yhi line =
  do r <- parse_row args dx dy kind line;
  match r with
  | None => Ok None
  | Some r => if within_bounds (fst r) lo hi && within_bounds (map (fun t => fst (fst t)) (snd r)) ylo yhi
              then Ok (Some (row_of r)) else Ok None
  end.
Proof.
  intros Hc. unfold load_line, parse_row. destruct line as [|c t]; [reflexivity|]. destruct (aeqb c "#"); [reflexivity|].
  destruct (read_values (dx + dy) _) as [xy| | |]; try reflexivity. cbn [bind].
  destruct (read_ci kind args 0 (skipn dx (fst xy)) (snd xy)) as [ci| | |]; try reflexivity. cbn [bind fst snd].
  change (is_defined args "data-correct-cosine"%string) with (is_defined args (lit "data-correct-cosine")).
  rewrite Hc. reflexivity.
Qed.

Lemma nth_row_x r c : (c < length (fst r))%nat -> nth c (row_of r) 0 = nth c (fst r) 0.
Proof. intros. unfold row_of. apply app_nth1. assumption. Qed.
Lemma nth_row_y r c : (c < length (snd r))%nat ->
  nth (length (fst r) + c) (row_of r) 0 = nth c (map (fun t => fst (fst t)) (snd r)) 0.
Proof.
  intros. unfold row_of. rewrite app_nth2 by lia. rewrite app_nth1 by (rewrite map_length; lia). f_equal. lia.
Qed.
Lemma nth_row_lo r c : (c < length (snd r))%nat ->
  nth (length (fst r) + length (snd r) + c) (row_of r) 0 = nth c (map (fun t => snd (fst t)) (snd r)) 0.
Proof.
  intros. unfold row_of. rewrite app_nth2 by lia. rewrite app_nth2 by (rewrite map_length; lia).
  rewrite app_nth1 by (rewrite !map_length; lia). f_equal. rewrite !map_length. lia.
Qed.
Lemma nth_row_hi r c : (c < length (snd r))%nat ->
  nth (length (fst r) + 2 * length (snd r) + c) (row_of r) 0 = nth c (map snd (snd r)) 0.
Proof.
  intros. unfold row_of. rewrite app_nth2 by lia. rewrite app_nth2 by (rewrite map_length; lia).
  rewrite app_nth2 by (rewrite !map_length; lia). f_equal. rewrite !map_length. lia.
Qed.

Lemma get_vec_num_len (a : arguments) k size dflt : length (get_vec_num atof a k size dflt) = size.
Proof. apply get_vec_num_length. Qed.

Lemma nth_error_lt {A} (l : list A) n c x : nth_error l c = Some x -> length l = n -> (c < n)%nat.
Proof. intros H <-. apply nth_error_Some. congruence. Qed.

Lemma in_box_test args dx dy r : length (fst r) = dx -> length (snd r) = dy ->
  within_bounds (fst r) (get_vec_num atof args (lit "min") dx (- flt_max)) (get_vec_num atof args (lit "max") dx flt_max)
   && within_bounds (map (fun t => fst (fst t)) (snd r)) (get_vec_num atof args (lit "ymin") dy (- flt_max))
        (get_vec_num atof args (lit "ymax") dy flt_max) = true
  <-> in_box atof flt_max args dx dy (row_of r).
Proof.
  intros <- <-. unfold in_box, block_in. rewrite andb_true_iff.
  rewrite !within_bounds_spec by (rewrite ?map_length, !get_vec_num_len; reflexivity).
  split; intros [A B]; split; intros c l h H1 H2.
  - rewrite nth_row_x; [eauto|]. exact (nth_error_lt _ _ _ _ H1 (get_vec_num_len _ _ _ _)).
  - rewrite nth_row_y; [eauto|]. exact (nth_error_lt _ _ _ _ H1 (get_vec_num_len _ _ _ _)).
  - specialize (A c l h H1 H2). rewrite nth_row_x in A; [exact A|]. exact (nth_error_lt _ _ _ _ H1 (get_vec_num_len _ _ _ _)).
  - specialize (B c l h H1 H2). rewrite nth_row_y in B; [exact B|]. exact (nth_error_lt _ _ _ _ H1 (get_vec_num_len _ _ _ _)).
Qed.

(** ** Reading does not depend on the box *)
Lemma channel_interval_same a b y u v : same_reading a b -> channel_interval a y u v = channel_interval b y u v.
Proof.
  intros (_ & H1 & H2 & H3 & _). unfold channel_interval.
  change (is_defined a "dt-relative"%string) with (is_defined a (lit "dt-relative")). rewrite H1.
  change (is_defined a "dt-max"%string) with (is_defined a (lit "dt-max")). rewrite H2.
  change (is_defined a "dt-positive"%string) with (is_defined a (lit "dt-positive")). rewrite H3. reflexivity.
Qed.
Lemma channel_dt_same a b kind i s : same_reading a b -> channel_dt lex stod kind a i s = channel_dt lex stod kind b i s.
Proof.
  intros (H & _). unfold channel_dt.
  assert (E : get_double stod a "dt"%string (1 / 10) = get_double stod b "dt"%string (1 / 10)).
  { unfold get_double. change (map_find "dt"%string a) with (map_find (lit "dt") a). rewrite H. reflexivity. }
  destruct i, kind; try reflexivity; rewrite E; reflexivity.
Qed.
Lemma read_ci_same a b kind ys : same_reading a b -> forall i s, read_ci kind a i ys s = read_ci kind b i ys s.
Proof.
  intros H. induction ys as [|y ys IH]; intros i s; [reflexivity|]. cbn [TextModel.read_ci].
  rewrite (channel_dt_same a b) by assumption. destruct (channel_dt lex stod kind b i s) as [[[u v] s']| | |]; try reflexivity.
  cbn [bind]. rewrite IH, (channel_interval_same a b) by assumption. reflexivity.
Qed.
Lemma parse_row_same a b dx dy kind line : same_reading a b -> parse_row a dx dy kind line = parse_row b dx dy kind line.
Proof.
  intros H. unfold parse_row. destruct line as [|c t]; [reflexivity|]. destruct (aeqb c "#"); [reflexivity|].
  destruct (read_values (dx + dy) _) as [xy| | |]; try reflexivity. cbn [bind].
  rewrite (read_ci_same a b) by assumption. reflexivity.
Qed.

(** ** The body *)
Definition boxed (args : arguments) dx dy p kind fuel s :=
  load_body fuel args dx dy p kind
    (get_vec_num atof args (lit "min") dx (- flt_max)) (get_vec_num atof args (lit "max") dx flt_max)
    (get_vec_num atof args (lit "ymin") dy (- flt_max)) (get_vec_num atof args (lit "ymax") dy flt_max) s.

Lemma body_filter a b dx dy p kind : same_reading a b ->
  (forall r, in_box atof flt_max a dx dy r -> in_box atof flt_max b dx dy r) ->
  forall fuel s rb, boxed b dx dy p kind fuel s = Ok rb ->
  exists ra, boxed a dx dy p kind fuel s = Ok ra /\ keeps (in_box atof flt_max a dx dy) ra rb.
Proof.
  intros Hs Hb. induction fuel as [|fuel IH]; intros s rb H.
  - exists []. apply Ok_inj in H. subst. split; [reflexivity|constructor].
  - unfold boxed in H |- *. cbn [TextModel.load_body] in *. destruct (good s).
    2: { exists []. apply Ok_inj in H. subst. split; [reflexivity|constructor]. }
    destruct (getline (rest s)) as [line s'].
    pose proof Hs as (_ & _ & _ & _ & Ca & Cb).
    rewrite load_line_parse in H by assumption. rewrite load_line_parse by assumption.
    rewrite (parse_row_same a b) by assumption.
    destruct (parse_row b dx dy kind line) as [[r|]| | |] eqn:Ep; try discriminate; cbn [bind] in *.
    + destruct (parse_row_shape _ _ _ _ _ _ Ep) as [L1 L2].
      pose proof (in_box_test a dx dy r L1 L2) as Ta. pose proof (in_box_test b dx dy r L1 L2) as Tb.
      match type of Tb with (?t = true <-> _) => destruct t eqn:Eb end; cbn [bind] in H.
      * destruct (load_body fuel b _ _ _ _ _ _ _ _ s') as [tb| | |] eqn:Et; try discriminate.
        destruct (IH s' tb Et) as (ta & Ea & Ka). unfold boxed in Ea. cbn [bind] in H. apply Ok_inj in H. subst rb.
        match type of Ta with (?t = true <-> _) => destruct t eqn:Eaa end; cbn [bind]; rewrite Ea; cbn [bind]; eexists; (split; [reflexivity|]).
        -- constructor; [apply Ta; reflexivity|assumption].
        -- constructor; [|assumption]. rewrite <- Ta. discriminate.
      * destruct (load_body fuel b _ _ _ _ _ _ _ _ s') as [tb| | |] eqn:Et; try discriminate.
        destruct (IH s' tb Et) as (ta & Ea & Ka). unfold boxed in Ea. cbn [bind] in H. apply Ok_inj in H. subst rb.
        match type of Ta with (?t = true <-> _) => destruct t eqn:Eaa end; cbn [bind].
        -- exfalso. assert (in_box atof flt_max b dx dy (row_of r)) as X by (apply Hb, Ta; reflexivity). apply Tb in X. discriminate.
        -- rewrite Ea. cbn [bind]. eexists; split; [reflexivity|assumption].
    + destruct (load_body fuel b _ _ _ _ _ _ _ _ s') as [tb| | |] eqn:Et; try discriminate.
      destruct (IH s' tb Et) as (ta & Ea & Ka). unfold boxed in Ea. rewrite Ea. cbn [bind] in *. apply Ok_inj in H. subst rb.
      eexists; split; [reflexivity|assumption].
Qed.

Theorem text_box_filters a b header s db : same_reading a b ->
  (forall dx dy r, in_box atof flt_max a dx dy r -> in_box atof flt_max b dx dy r) ->
  load_data_from_text lex stod atof flt_max s header b = Ok db ->
  exists da, load_data_from_text lex stod atof flt_max s header a = Ok da /\ td_par da = td_par db /\
    keeps (in_box atof flt_max a (dimX (td_par db)) (dimY (td_par db))) (td_rows da) (td_rows db).
Proof.
  intros Hs Hb. unfold load_data_from_text. destruct (negb _); [discriminate|].
  destruct (get_pair_int header _) as [[zx zy]|]; [|discriminate].
  destruct ((zx <? 0)%Z || (zy <? 0)%Z); [discriminate|].
  destruct (Z.to_nat zx + 3 * Z.to_nat zy =? 0)%nat; [discriminate|]. cbv zeta. intros H.
  match type of H with (do rs <- ?e; _) = _ => destruct e as [rb| | |] eqn:E; try discriminate end.
  cbn [bind] in H. apply Ok_inj in H. subst db. cbn [td_par td_rows dimX dimY].
  destruct (body_filter a b _ _ _ _ Hs (Hb _ _) _ _ _ E) as (ra & Ea & Ka). unfold boxed in Ea.
  rewrite Ea. cbn [bind]. eexists. split; [reflexivity|]. split; [reflexivity|exact Ka].
Qed.

(** every kept row lies in the box *)
Lemma keeps_in {A} (P : A -> Prop) l m x : keeps P l m -> In x l -> P x.
Proof. induction 1; intros Hin; [destruct Hin| |auto]. destruct Hin as [<-|]; auto. Qed.

(** ** Intervals *)
Lemma body_rows (Q : list R -> Prop) args dx dy p kind lo hi ylo yhi :
  (forall line r, load_line args dx dy p kind lo hi ylo yhi line = Ok (Some r) -> Q r) ->
  forall fuel s rs, load_body fuel args dx dy p kind lo hi ylo yhi s = Ok rs -> Forall Q rs.
Proof.
  intros HQ. induction fuel as [|fuel IH]; intros s rs H; cbn [TextModel.load_body] in H.
  - apply Ok_inj in H. subst. constructor.
  - destruct (good s); [|apply Ok_inj in H; subst; constructor].
    destruct (getline (rest s)) as [line s'].
    destruct (load_line args dx dy p kind lo hi ylo yhi line) as [[r|]| | |] eqn:E; try discriminate; cbn [bind] in H;
    destruct (load_body fuel args dx dy p kind lo hi ylo yhi s') as [t| | |] eqn:F; try discriminate; cbn [bind] in H;
    apply Ok_inj in H; subst; [constructor; [eapply HQ; eassumption|]|]; eapply IH; eassumption.
Qed.

Lemma read_ci_nth kind args ys : forall i s r, read_ci kind args i ys s = Ok r ->
  forall c y, nth_error ys c = Some y -> exists u v s0 s1,
    channel_dt lex stod kind args (i + c) s0 = Ok (u, v, s1) /\ nth_error r c = Some (channel_interval args y u v).
Proof.
  induction ys as [|y0 ys IH]; intros i s r H c y Hc; cbn [TextModel.read_ci] in H; [destruct c; discriminate|].
  destruct (channel_dt lex stod kind args i s) as [[[u v] s']| | |] eqn:E; try discriminate. cbn [bind] in H.
  destruct (read_ci kind args (S i) ys s') as [q| | |] eqn:F; try discriminate. cbn [bind] in H. apply Ok_inj in H. subst r.
  destruct c as [|c].
  - injection Hc as ->. exists u, v, s, s'. rewrite Nat.add_0_r. split; [assumption|reflexivity].
  - destruct (IH _ _ _ F c y Hc) as (u' & v' & s0 & s1 & A & B). exists u', v', s0, s1.
    replace (i + S c)%nat with (S i + c)%nat by lia. split; assumption.
Qed.

(** what a loaded row looks like, channel by channel *)
Lemma loaded_row args dx dy p kind lo hi ylo yhi line r : is_defined args (lit "data-correct-cosine") = false ->
  load_line args dx dy p kind lo hi ylo yhi line = Ok (Some r) ->
  forall c, (c < dy)%nat -> exists y u v s0 s1,
    channel_dt lex stod kind args c s0 = Ok (u, v, s1) /\
    (nth (dx + c) r 0, nth (dx + dy + c) r 0, nth (dx + 2 * dy + c) r 0) = channel_interval args y u v.
Proof.
  intros Hc H c Hlt. rewrite load_line_parse in H by assumption.
  destruct (parse_row args dx dy kind line) as [[q|]| | |] eqn:E; try discriminate. cbn [bind] in H.
  destruct (within_bounds _ _ _ && within_bounds _ _ _); [|discriminate]. apply Ok_inj in H. injection H as ->.
  destruct (parse_row_shape _ _ _ _ _ _ E) as [L1 L2].
  unfold parse_row in E. destruct line as [|ch t]; [discriminate|]. destruct (aeqb ch "#"); [discriminate|].
  destruct (read_values (dx + dy) _) as [xy| | |] eqn:E1; try discriminate. cbn [bind] in E.
  destruct (read_ci kind args 0 (skipn dx (fst xy)) (snd xy)) as [ci| | |] eqn:E2; try discriminate. cbn [bind] in E.
  apply Ok_inj in E. injection E as ->. cbn [fst snd] in *.
  assert (Ly : length (skipn dx (fst xy)) = dy).
  { rewrite skipn_length. apply read_values_length in E1. lia. }
  destruct (nth_error (skipn dx (fst xy)) c) as [y|] eqn:Ey.
  2: { apply nth_error_None in Ey. lia. }
  destruct (read_ci_nth _ _ _ _ _ _ E2 c y Ey) as (u & v & s0 & s1 & A & B). cbn [plus] in A.
  exists y, u, v, s0, s1. split; [assumption|].
  pose proof (nth_row_y (firstn dx (fst xy), ci) c) as Ry. pose proof (nth_row_lo (firstn dx (fst xy), ci) c) as Rl.
  pose proof (nth_row_hi (firstn dx (fst xy), ci) c) as Rh. cbn [fst snd] in *. rewrite L1, L2 in *.
  rewrite Ry, Rl, Rh by assumption.
  rewrite (nth_error_nth (map _ ci) c 0 (map_nth_error (fun t => fst (fst t)) c ci B)).
  rewrite (nth_error_nth (map _ ci) c 0 (map_nth_error (fun t => snd (fst t)) c ci B)).
  rewrite (nth_error_nth (map _ ci) c 0 (map_nth_error snd c ci B)).
  destruct (channel_interval args y u v) as [[? ?] ?]. reflexivity.
Qed.

Theorem loaded_rows header args s d : is_defined args (lit "data-correct-cosine") = false ->
  load_data_from_text lex stod atof flt_max s header args = Ok d ->
  let dx := dimX (td_par d) in let dy := dimY (td_par d) in
  Forall (fun r => forall c, (c < dy)%nat -> exists y u v s0 s1,
    channel_dt lex stod (ci_kind_from_number (get_int header (lit "VS") 0%Z)) args c s0 = Ok (u, v, s1) /\
    (nth (dx + c) r 0, nth (dx + dy + c) r 0, nth (dx + 2 * dy + c) r 0) = channel_interval args y u v) (td_rows d).
Proof.
  intros Hc. unfold load_data_from_text. destruct (negb _); [discriminate|].
  destruct (get_pair_int header _) as [[zx zy]|]; [|discriminate].
  destruct ((zx <? 0)%Z || (zy <? 0)%Z); [discriminate|].
  destruct (Z.to_nat zx + 3 * Z.to_nat zy =? 0)%nat; [discriminate|]. cbv zeta. intros H.
  match type of H with (do rs <- ?e; _) = _ => destruct e as [rb| | |] eqn:E; try discriminate end.
  cbn [bind] in H. apply Ok_inj in H. subst d. cbn [td_par td_rows dimX dimY].
  revert E. apply body_rows. intros line r. apply loaded_row. assumption.
Qed.

End Proofs.

(** the arithmetic of one channel *)
Lemma interval_absolute args y u v : is_defined args (lit "dt-relative") = false -> is_defined args (lit "dt-max") = false ->
  u <= 0 <= v -> let '(y', lo, hi) := channel_interval args y u v in
  lo <= y' <= hi /\ (is_defined args (lit "dt-positive") = true -> 0 <= lo).
Proof.
  intros H1 H2 [Hu Hv]. unfold channel_interval.
  change (is_defined args "dt-relative"%string) with (is_defined args (lit "dt-relative")). rewrite H1.
  change (is_defined args "dt-max"%string) with (is_defined args (lit "dt-max")). rewrite H2.
  change (is_defined args "dt-positive"%string) with (is_defined args (lit "dt-positive")).
  destruct (is_defined args (lit "dt-positive")).
  - split; [split|intros _]; unfold Rmax; repeat destruct Rle_dec; lra.
  - split; [lra|discriminate].
Qed.

Lemma interval_relative args y u v : is_defined args (lit "dt-relative") = true ->
  u <= 0 <= v -> 0 <= y -> let '(y', lo, hi) := channel_interval args y u v in lo <= y' <= hi.
Proof.
  intros H1 [Hu Hv] Hy. unfold channel_interval.
  change (is_defined args "dt-relative"%string) with (is_defined args (lit "dt-relative")). rewrite H1.
  change (is_defined args "dt-positive"%string) with (is_defined args (lit "dt-positive")).
  destruct (is_defined args (lit "dt-positive")); [split; unfold Rmax; repeat destruct Rle_dec; nra|nra].
Qed.

Lemma interval_relative_negative args y u v : is_defined args (lit "dt-relative") = true -> is_defined args (lit "dt-positive") = false ->
  u < 0 < v -> y < 0 -> let '(y', lo, hi) := channel_interval args y u v in y' < lo /\ hi < y'.
Proof.
  intros H1 H2 [Hu Hv] Hy. unfold channel_interval.
  change (is_defined args "dt-relative"%string) with (is_defined args (lit "dt-relative")). rewrite H1.
  change (is_defined args "dt-positive"%string) with (is_defined args (lit "dt-positive")). rewrite H2. nra.
Qed.

Lemma interval_max args y u v : is_defined args (lit "dt-relative") = false -> is_defined args (lit "dt-max") = true ->
  u <= 0 <= v -> 0 <= y -> let '(y', lo, hi) := channel_interval args y u v in lo <= y' <= hi.
Proof.
  intros H0 H1 [Hu Hv] Hy. unfold channel_interval.
  change (is_defined args "dt-relative"%string) with (is_defined args (lit "dt-relative")). rewrite H0.
  change (is_defined args "dt-max"%string) with (is_defined args (lit "dt-max")). rewrite H1.
  change (is_defined args "dt-positive"%string) with (is_defined args (lit "dt-positive")).
  assert (Rmax (y * u) u <= 0) by (apply Rmax_lub; nra).
  assert (0 <= Rmax (y * v) v) by (apply Rle_trans with v; [lra|apply Rmax_r]).
  set (a := Rmax (y * u) u) in *. set (b := Rmax (y * v) v) in *. clearbody a b.
  destruct (is_defined args (lit "dt-positive")).
  - split; unfold Rmax; repeat destruct Rle_dec; lra.
  - lra.
Qed.

Lemma interval_max_negative args y u v : is_defined args (lit "dt-relative") = false -> is_defined args (lit "dt-max") = true ->
  is_defined args (lit "dt-positive") = false -> u < 0 -> y < 0 ->
  let '(y', lo, hi) := channel_interval args y u v in y' < lo.
Proof.
  intros H0 H1 H2 Hu Hy. unfold channel_interval.
  change (is_defined args "dt-relative"%string) with (is_defined args (lit "dt-relative")). rewrite H0.
  change (is_defined args "dt-max"%string) with (is_defined args (lit "dt-max")). rewrite H1.
  change (is_defined args "dt-positive"%string) with (is_defined args (lit "dt-positive")). rewrite H2.
  assert (0 < Rmax (y * u) u) by (apply Rlt_le_trans with (y * u); [nra|apply Rmax_l]). lra.
Qed.

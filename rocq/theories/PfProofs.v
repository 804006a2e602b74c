(** Function files of the plugins: proofs. *)
From Coq Require Import Reals List ZArith Lia.
From Verif Require Import Base Num ParamsModel GeoModel ArgsModel ArgsProofs DataModel DataProofs TextModel TextProofs TextRound FuncModel FuncFile FuncFileSpec FuncFileProofs RatModel RatSpec RatFile PfModel PfSpec.
Open Scope R_scope.

Definition value_of (ms : list (list R)) (c : cell) : R := nth (snd c) (nth (fst c) ms []) 0.
Definition in_range (ms : list (list R)) (c : cell) : Prop := (snd c < length (nth (fst c) ms []))%nat.
Fixpoint writes (ms : list (list R)) (cs : list cell) (xs : list R) : list (list R) :=
  match cs, xs with
  | c :: cs', x :: xs' => writes (set_cell ms c x) cs' xs'
  | _, _ => ms
  end.
Definition cells_of (ls : list (option (str * cell))) : list cell := flat_map (fun o => match o with Some (_, c) => [c] | None => [] end) ls.

Lemma in_range_len ms c : in_range ms c -> (fst c < length ms)%nat.
Proof. unfold in_range. intros H. destruct (Nat.lt_ge_cases (fst c) (length ms)); [assumption|]. rewrite nth_overflow in H by lia. cbn in H. lia. Qed.
Lemma cell_at_ok ms c : in_range ms c -> cell_at ms c = Ok (value_of ms c).
Proof.
  intros H. pose proof (in_range_len _ _ H) as L. unfold cell_at, value_of, in_range in *.
  rewrite (nth_error_nth' ms []) by assumption. rewrite (nth_error_nth' _ 0) by assumption. reflexivity.
Qed.
Lemma cell_at_inv ms c x : cell_at ms c = Ok x -> in_range ms c /\ x = value_of ms c.
Proof.
  unfold cell_at, in_range, value_of. destruct (nth_error ms (fst c)) as [v|] eqn:E; [|discriminate].
  destruct (nth_error v (snd c)) as [y|] eqn:F; [|discriminate]. intros H. apply Ok_inj in H. subst.
  rewrite (nth_error_nth _ _ _ E). rewrite (nth_error_nth _ _ _ F). split; [|reflexivity].
  apply nth_error_Some. congruence.
Qed.
Lemma set_cell_shape ms c x : map (@length R) (set_cell ms c x) = map (@length R) ms.
Proof.
  unfold set_cell. apply nth_ext with (d := 0%nat) (d' := 0%nat); [rewrite !map_length, set_nth_length; reflexivity|].
  intros m _. change 0%nat with (length (@nil R)). rewrite !(map_nth (@length R)). rewrite nth_set_nth.
  destruct (Nat.eqb_spec m (fst c)) as [->|N]; cbn [andb]; [|reflexivity].
  destruct (fst c <? length ms)%nat; [|reflexivity]. apply set_nth_length.
Qed.
Lemma shape_range ms ms' c : map (@length R) ms = map (@length R) ms' -> in_range ms c -> in_range ms' c.
Proof.
  intros E. unfold in_range. assert (F : length (nth (fst c) ms []) = length (nth (fst c) ms' [])).
  { rewrite <- !(map_nth (@length R)), E. reflexivity. } rewrite F. auto.
Qed.
Lemma writes_shape cs : forall ms xs, map (@length R) (writes ms cs xs) = map (@length R) ms.
Proof. induction cs as [|c cs IH]; intros ms [|x xs]; cbn [writes]; try reflexivity. rewrite IH. apply set_cell_shape. Qed.
Lemma value_set ms c x d : in_range ms c -> value_of (set_cell ms c x) d = if (Nat.eqb (fst d) (fst c) && Nat.eqb (snd d) (snd c))%bool then x else value_of ms d.
Proof.
  intros H. pose proof (in_range_len _ _ H) as L. unfold in_range in H. unfold value_of, set_cell. rewrite nth_set_nth.
  destruct (Nat.eqb_spec (fst d) (fst c)) as [E|N]; cbn [andb]; [|reflexivity].
  rewrite E. destruct (Nat.ltb_spec (fst c) (length ms)); [|lia]. rewrite nth_set_nth.
  destruct (Nat.eqb_spec (snd d) (snd c)) as [->|]; cbn [andb]; [|reflexivity].
  destruct (Nat.ltb_spec (snd c) (length (nth (fst c) ms []))); [reflexivity|lia].
Qed.
Lemma value_other cs : forall ms xs d, Forall (in_range ms) cs -> ~ In d cs -> value_of (writes ms cs xs) d = value_of ms d.
Proof.
  induction cs as [|c cs IH]; intros ms [|x xs] d H N; cbn [writes]; try reflexivity.
  inversion H as [|? ? Hc Hs]; subst. rewrite IH.
  - rewrite value_set by assumption. destruct (Nat.eqb_spec (fst d) (fst c)); destruct (Nat.eqb_spec (snd d) (snd c)); cbn [andb]; try reflexivity.
    exfalso. apply N. left. destruct c, d; cbn in *; congruence.
  - eapply Forall_impl; [|exact Hs]. intros e. apply shape_range. symmetry. apply set_cell_shape.
  - intros I. apply N. right. assumption.
Qed.
Lemma cell_dec (c d : cell) : {c = d} + {c <> d}.
Proof. destruct c, d. decide equality; apply Nat.eq_dec. Qed.
Lemma value_written g cs : forall ms d, Forall (in_range ms) cs -> In d cs -> value_of (writes ms cs (map g cs)) d = g d.
Proof.
  induction cs as [|c cs IH]; intros ms d H I; [destruct I|]. inversion H as [|? ? Hc Hs]; subst. cbn [map writes].
  assert (Hs' : Forall (in_range (set_cell ms c (g c))) cs).
  { eapply Forall_impl; [|exact Hs]. intros e. apply shape_range. symmetry. apply set_cell_shape. }
  destruct (in_dec cell_dec d cs) as [J|J]; [apply IH; assumption|].
  destruct I as [<-|I]; [|contradiction]. rewrite value_other by assumption.
  rewrite value_set by assumption. rewrite !Nat.eqb_refl. reflexivity.
Qed.
Lemma writes_app a : forall ms xs b ys, length a = length xs -> writes ms (a ++ b) (xs ++ ys) = writes (writes ms a xs) b ys.
Proof. induction a as [|c a IH]; intros ms [|x xs] b ys H; cbn in H; try discriminate; [reflexivity|]. cbn [app writes]. apply IH. lia. Qed.
(** same sizes and same numbers *)
Lemma mem_ext ms ms' : map (@length R) ms = map (@length R) ms' -> (forall c, in_range ms c -> value_of ms c = value_of ms' c) -> ms = ms'.
Proof.
  intros E H. apply nth_ext with (d := []) (d' := []). { apply (f_equal (@length nat)) in E. rewrite !map_length in E. assumption. }
  intros m _. apply nth_ext with (d := 0) (d' := 0).
  { rewrite <- !(map_nth (@length R)), E. reflexivity. }
  intros i Hi. exact (H (m, i) Hi).
Qed.
Lemma map_mem_shape (g : R -> R) ms : map (@length R) (map (map g) ms) = map (@length R) ms.
Proof. rewrite map_map. apply List.map_ext. intros v. apply map_length. Qed.
Lemma map_mem_value (g : R -> R) ms c : in_range ms c -> value_of (map (map g) ms) c = g (value_of ms c).
Proof.
  intros H. pose proof (in_range_len _ _ H) as L. unfold value_of, in_range in *.
  rewrite (nth_indep _ [] (map g [])) by (rewrite map_length; assumption). rewrite (map_nth (map g)).
  rewrite (nth_indep _ 0 (g 0)) by (rewrite map_length; assumption). apply map_nth.
Qed.

(** a label: a word and blanks *)
Definition label_ok (l : str) : Prop := exists t c sp, l = t ++ c :: sp /\ t <> [] /\ Forall (fun c => is_space c = false) t /\ is_space c = true /\ spaces sp.
Definition lines_ok (ls : list (option (str * cell))) : Prop := Forall (fun o => match o with Some (l, _) => label_ok l | None => True end) ls.

Lemma newlines_spaces w : newlines w -> spaces w.
Proof. unfold spaces. induction 1 as [|c w <- _ IH]; [reflexivity|]. cbn [forallb]. rewrite IH. reflexivity. Qed.
Lemma newlines_app a b : newlines a -> newlines b -> newlines (a ++ b).
Proof. intros. apply Forall_app. split; assumption. Qed.

Section Reading.
Variable lex : str -> option (R * str).
Variable print : R -> str.
Variable rnd : R -> R.
Hypothesis Hprint : prints lex print rnd.

Lemma lines_values ls : forall ms text, lines_text print ls ms = Ok text -> Forall (in_range ms) (cells_of ls).
Proof.
  induction ls as [|o ls IH]; intros ms text H; [constructor|]. cbn [lines_text] in H. destruct o as [[l c]|].
  - destruct (cell_at ms c) as [x| | |] eqn:E; try discriminate. cbn [bind] in H.
    destruct (lines_text print ls ms) eqn:F; try discriminate. constructor; [|eapply IH; eassumption]. apply cell_at_inv in E. tauto.
  - destruct (lines_text print ls ms) eqn:F; try discriminate. eapply IH; eassumption.
Qed.
Lemma lines_exist ls : forall ms, Forall (in_range ms) (cells_of ls) -> exists text, lines_text print ls ms = Ok text.
Proof.
  induction ls as [|o ls IH]; intros ms H; [eexists; reflexivity|]. cbn [lines_text]. destruct o as [[l c]|].
  - inversion H; subst. rewrite cell_at_ok by assumption. cbn [bind]. destruct (IH ms) as (t & ->); [assumption|]. eexists; reflexivity.
  - destruct (IH ms) as (t & ->); [assumption|]. eexists; reflexivity.
Qed.

(** reading the lines back: numbers go to the positions cs in turn, positions left
    over are read from what follows *)
Lemma read_lines ls : forall ms text cs more ms0 w post, lines_ok ls -> lines_text print ls ms = Ok text ->
  length cs = length (cells_of ls) -> Forall (in_range ms0) cs -> newlines w ->
  exists w', newlines w' /\ (cells_of ls <> [] \/ w <> [] -> w' <> []) /\
    read_cells lex (cs ++ more) ms0 (good_stream (w ++ text ++ post)) =
    read_cells lex more (writes ms0 cs (map (fun c => rnd (value_of ms c)) (cells_of ls))) (good_stream (w' ++ post)).
Proof.
  induction ls as [|o ls IH]; intros ms text cs more ms0 w post Hl Ht Hc Hr Hw.
  - cbn in Ht. apply Ok_inj in Ht. subst text. destruct cs; [|discriminate]. exists w. split; [assumption|].
    split; [intros [C|C]; [destruct C; reflexivity|assumption]|reflexivity].
  - cbn [lines_text] in Ht. inversion Hl as [|? ? Ho Hl']; subst. destruct o as [[l c]|].
    + destruct (cell_at ms c) as [x| | |] eqn:E; try discriminate. cbn [bind] in Ht.
      destruct (lines_text print ls ms) as [r| | |] eqn:F; try discriminate. cbn [bind] in Ht. apply Ok_inj in Ht. subst text.
      apply cell_at_inv in E as [Ec ->]. cbn [cells_of flat_map app length] in Hc. destruct cs as [|d cs]; [discriminate|].
      inversion Hr as [|? ? Hd Hr']; subst. destruct Ho as (t & b & sp & -> & Tn & Ts & Bs & Ss).
      cbn [app read_cells]. rewrite cell_at_ok by assumption. cbn [bind]. unfold endl. rewrite <- !app_assoc. cbn [app].
      rewrite scan_word; [|apply newlines_spaces; assumption|assumption|assumption|assumption]. cbn [snd].
      change (good_stream (b :: sp ++ print (value_of ms c) ++ nl :: r ++ post)) with (good_stream ((b :: sp) ++ print (value_of ms c) ++ nl :: r ++ post)).
      rewrite (scan_double_text lex print rnd Hprint); [|unfold spaces in *; cbn [forallb]; rewrite Bs; assumption|reflexivity].
      cbn [cells_of flat_map app map writes].
      destruct (IH ms r cs more (set_cell ms0 d (rnd (value_of ms c))) [nl] post) as (w' & W1 & W2 & E2); try assumption.
      { injection Hc as Hc. exact Hc. }
      { eapply Forall_impl; [|exact Hr']. intros e. apply shape_range. symmetry. apply set_cell_shape. }
      { repeat constructor. }
      exists w'. split; [assumption|]. split; [intros _; apply W2; right; discriminate|]. exact E2.
    + destruct (lines_text print ls ms) as [r| | |] eqn:F; try discriminate. cbn [bind] in Ht. apply Ok_inj in Ht. subst text.
      destruct (IH ms r cs more ms0 (w ++ [nl]) post) as (w' & W1 & W2 & E2); try assumption.
      { apply newlines_app; [assumption|repeat constructor]. }
      exists w'. split; [assumption|]. split; [intros _; apply W2; right; destruct w; discriminate|].
      rewrite <- !app_assoc in E2. unfold endl. rewrite <- !app_assoc. exact E2.
Qed.

(** a stream that is exhausted or failed changes nothing *)
Lemma read_cells_failed cs : forall ms s, good s = false -> Forall (in_range ms) cs -> exists s', good s' = false /\ read_cells lex cs ms s = Ok (ms, s').
Proof.
  induction cs as [|c cs IH]; intros ms s G H; [exists s; auto|]. inversion H; subst. cbn [read_cells]. rewrite cell_at_ok by assumption. cbn [bind].
  unfold scan_string. rewrite G. cbn [snd]. unfold scan_double. assert (G2 : good (set_fail s) = false) by (unfold good, set_fail; cbn; apply andb_false_r).
  rewrite G2. apply IH; [unfold good, set_fail; cbn; apply andb_false_r|assumption].
Qed.
Lemma skip_newlines_all w : newlines w -> skip_ws w = [].
Proof. induction 1 as [|c w <- _ IH]; [reflexivity|]. exact IH. Qed.
Lemma read_cells_dry cs ms w : newlines w -> Forall (in_range ms) cs -> exists s', read_cells lex cs ms (good_stream w) = Ok (ms, s').
Proof.
  intros Hw H. destruct cs as [|c cs]; [eexists; reflexivity|]. inversion H; subst. cbn [read_cells]. rewrite cell_at_ok by assumption. cbn [bind].
  unfold scan_string, good_stream. cbn [good eofbit failbit negb andb rest]. rewrite skip_newlines_all by assumption. cbn [snd].
  unfold scan_double. cbn [good eofbit failbit negb andb]. destruct (read_cells_failed cs ms (set_fail {| rest := []; eofbit := true; failbit := true |})) as (s' & _ & E); [reflexivity|assumption|].
  exists s'. exact E.
Qed.
End Reading.

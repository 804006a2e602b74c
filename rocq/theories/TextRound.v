(** Text data files: what is read from a given file, and saving then loading. *)
From Coq Require Import Reals List Lia Lra.
From Verif Require Import Base Num ParamsModel GeoModel GeoSpec ArgsModel ArgsSpec ArgsProofs ParamsProofs DataModel DataSpec DataProofs TextModel TextProofs.
Open Scope R_scope.

(** ** Specification vocabulary *)
(** [t] is the text of a number of value [v], delimited by white space *)
Definition numeral (lex : str -> option (R * str)) (t : str) (v : R) : Prop :=
  (exists c t', t = c :: t' /\ is_space c = false /\ c <> "#"%char) /\ ~ In nl t /\
  (forall c r, is_space c = true -> lex (t ++ c :: r) = Some (v, c :: r)).

(** a line of a text file *)
Inductive item := TEmpty | TComment (text : str) | TRow (fields : list (str * R)) (more : str).
Definition render (i : item) : str :=
  match i with
  | TEmpty => []
  | TComment t => "#"%char :: t
  | TRow fs more => concat (map (fun f => fst f ++ [tab]) fs) ++ more
  end ++ [nl].
Definition item_ok lex (n : nat) (i : item) : Prop :=
  match i with
  | TEmpty => True
  | TComment t => ~ In nl t
  | TRow fs more => length fs = n /\ Forall (fun f => numeral lex (fst f) (snd f)) fs /\ ~ In nl more
  end.
(** the rows written in a file, with an interval of half width [dt] *)
Definition file_rows (dx : nat) (dt : R) (items : list item) : list (list R) :=
  flat_map (fun i => match i with
    | TRow fs _ => let vs := map snd fs in
        [vs ++ map (fun y => y - dt) (skipn dx vs) ++ map (fun y => y + dt) (skipn dx vs)]
    | _ => []
    end) items.
Definition is_comment (i : item) : Prop := match i with TComment _ => True | _ => False end.

(** ** Proofs *)
Section Proofs.
Variable lex : str -> option (R * str).
Variable stod : str -> outcome R.
Variable atof : str -> R.
Variable flt_max : R.
Notation read_values := (read_values lex).
Notation read_ci := (read_ci lex stod).
Notation load_line := (load_line lex stod).
Notation load_body := (load_body lex stod).

Lemma skip_ws_app w r : forallb is_space w = true -> skip_ws (w ++ r) = skip_ws r.
Proof. induction w as [|c w IH]; simpl; [reflexivity|]. intros H. apply andb_prop in H as [H1 H2]. rewrite H1. auto. Qed.

Lemma read_row fs more : Forall (fun f => numeral lex (fst f) (snd f)) fs -> forall w, forallb is_space w = true ->
  exists s', read_values (length fs)
   {| trest := w ++ concat (map (fun f => fst f ++ [tab]) fs) ++ more; tgood := true |} = Ok (map snd fs, s').
Proof.
  induction 1 as [|[t v] fs Hf Hfs IH]; intros w Hw.
  - eexists. reflexivity.
  - destruct Hf as ((c & t' & Et & Hc & _) & _ & Hlex). cbn [fst snd] in *.
    cbn [length TextModel.read_values map concat]. unfold read_num. cbn [tgood trest negb].
    rewrite skip_ws_app by assumption. rewrite <- !app_assoc. cbn [app fst]. rewrite Et. cbn [app skip_ws]. rewrite Hc.
    change (c :: t' ++ ?x) with ((c :: t') ++ x). rewrite <- Et. rewrite Hlex by reflexivity. cbn [snd].
    destruct (IH [tab] eq_refl) as (s' & E). cbn [app] in E. rewrite E. cbn [bind fst snd]. eexists. reflexivity.
Qed.

Lemma read_ci_plain args dt ys : get_double stod args (lit "dt") (1 / 10) = Ok dt -> 
  is_defined args (lit "dt-relative") = false -> is_defined args (lit "dt-max") = false -> is_defined args (lit "dt-positive") = false ->
  forall i s, read_ci NO_CI args i ys s = Ok (map (fun y => (y, y - dt, y + dt)) ys).
Proof.
  intros Hdt H1 H2 H3. induction ys as [|y ys IH]; intros i s; [reflexivity|]. cbn [TextModel.read_ci].
  assert (E : channel_dt lex stod NO_CI args i s = Ok (- dt, dt, s)).
  { unfold channel_dt. change (get_double stod args "dt"%string (1 / 10)) with (get_double stod args (lit "dt") (1 / 10)).
    rewrite Hdt. destruct i; reflexivity. }
  rewrite E. cbn [bind]. rewrite IH. cbn [bind map]. unfold channel_interval.
  change (is_defined args "dt-relative"%string) with (is_defined args (lit "dt-relative")). rewrite H1.
  change (is_defined args "dt-max"%string) with (is_defined args (lit "dt-max")). rewrite H2.
  change (is_defined args "dt-positive"%string) with (is_defined args (lit "dt-positive")). rewrite H3. reflexivity.
Qed.

Lemma concat_no_nl fs : Forall (fun f => numeral lex (fst f) (snd f)) fs -> ~ In nl (concat (map (fun f => fst f ++ [tab]) fs)).
Proof.
  induction 1 as [|[t v] fs (_ & Hf & _) Hfs IH]; [intros []|]. cbn [map concat]. rewrite !in_app_iff.
  intros [[H|H]|H]; [contradiction| |contradiction]. destruct H as [H|[]]; discriminate.
Qed.

Definition line_of (i : item) : str :=
  match i with
  | TEmpty => []
  | TComment t => "#"%char :: t
  | TRow fs more => concat (map (fun f => fst f ++ [tab]) fs) ++ more
  end.
Lemma line_no_nl n i : item_ok lex n i -> ~ In nl (line_of i).
Proof.
  destruct i as [|t|fs more]; cbn [item_ok line_of].
  - intros _ [].
  - intros H [E|E]; [discriminate|contradiction].
  - intros (_ & H1 & H2). rewrite in_app_iff. intros [E|E]; [|contradiction]. exact (concat_no_nl fs H1 E).
Qed.

Section Body.
Variables (args : arguments) (dt : R) (dx dy : nat).
Hypothesis Hdt : get_double stod args (lit "dt") (1 / 10) = Ok dt.
Hypothesis H1 : is_defined args (lit "dt-relative") = false.
Hypothesis H2 : is_defined args (lit "dt-max") = false.
Hypothesis H3 : is_defined args (lit "dt-positive") = false.
Hypothesis H4 : is_defined args (lit "data-correct-cosine") = false.
Hypothesis Hpos : (0 < dx + dy)%nat.

Lemma parse_item i : item_ok lex (dx + dy) i ->
  parse_row lex stod args dx dy NO_CI (line_of i) =
  Ok (match i with
      | TRow fs _ => Some (firstn dx (map snd fs), map (fun y => (y, y - dt, y + dt)) (skipn dx (map snd fs)))
      | _ => None end).
Proof.
  destruct i as [|t|fs more]; cbn [item_ok line_of]; try reflexivity.
  intros (Hl & Hf & _). unfold parse_row. destruct fs as [|[t v] fs]; [simpl in Hl; lia|].
  destruct (read_row _ more Hf [] eq_refl) as (s' & E). rewrite Hl in E. rewrite app_nil_l in E.
  inversion Hf as [|? ? ((c & t' & Et & Hc & Hh) & _ & _) Hrest]; subst. cbn [fst snd] in *.
  destruct (concat (map (fun f => fst f ++ [tab]) ((t, v) :: fs)) ++ more) as [|c0 l] eqn:El.
  { cbn in El. rewrite Et in El. discriminate. }
  assert (c0 = c) as ->. { cbn in El. rewrite Et in El. injection El as <- _. reflexivity. }
  destruct (aeqb_spec c "#") as [->|_]; [contradiction|].
  rewrite E. cbn [bind fst snd].
  rewrite read_ci_plain with (dt := dt) by assumption. reflexivity.
Qed.

Lemma body_items p items : Forall (item_ok lex (dx + dy)) items ->
  forall fuel s, rest s = concat (map render items) -> (good s = true \/ rest s = []) -> (length (rest s) < fuel)%nat ->
  exists rs, boxed lex stod atof flt_max args dx dy p NO_CI fuel s = Ok rs /\
    keeps (in_box atof flt_max args dx dy) rs (file_rows dx dt items).
Proof.
  induction 1 as [|i items Hi Hitems IH]; intros fuel s Hr Hg Hf.
  - destruct fuel as [|fuel]; [lia|]. unfold boxed. cbn [TextModel.load_body]. cbn in Hr.
    destruct (good s).
    + rewrite Hr. cbn [getline split_line]. cbn [load_line bind]. destruct fuel; cbn; eexists; (split; [reflexivity|constructor]).
    + eexists; (split; [reflexivity|constructor]).
  - destruct fuel as [|fuel]; [lia|].
    assert (Hs : good s = true).
    { destruct Hg as [|Hg]; [assumption|]. rewrite Hg in Hr. exfalso. cbn [map concat] in Hr. unfold render in Hr at 1.
      apply (f_equal (@length _)) in Hr. rewrite !app_length in Hr. simpl in Hr. lia. }
    unfold boxed. cbn [TextModel.load_body]. rewrite Hs.
    assert (Er : rest s = line_of i ++ nl :: concat (map render items)).
    { rewrite Hr. cbn [map concat]. destruct i; unfold render, line_of; cbn; rewrite <- ?app_assoc; reflexivity. }
    unfold getline. rewrite Er. rewrite split_line_app by (eapply line_no_nl; eassumption).
    set (s2 := {| rest := concat (map render items); eofbit := false; failbit := false |}).
    assert (Hf2 : (length (rest s2) < fuel)%nat).
    { rewrite Er, app_length in Hf. simpl in *. lia. }
    destruct (IH fuel s2 eq_refl (or_introl eq_refl) Hf2) as (rs & E & K).
    rewrite load_line_parse by assumption. rewrite parse_item by assumption.
    unfold boxed in E.
    destruct i as [|t|fs more]; cbn [bind]; try (rewrite E; cbn [bind]; eexists; split; [reflexivity|exact K]).
    destruct Hi as (Hl & Hfs & Hm).
    set (r := (firstn dx (map snd fs), map (fun y => (y, y - dt, y + dt)) (skipn dx (map snd fs)))).
    assert (L1 : length (fst r) = dx) by (cbn; rewrite firstn_length, map_length; lia).
    assert (L2 : length (snd r) = dy) by (cbn; rewrite map_length, skipn_length, map_length; lia).
    pose proof (in_box_test atof flt_max args dx dy r L1 L2) as T.
    assert (Erow : row_of r = map snd fs ++ map (fun y => y - dt) (skipn dx (map snd fs)) ++ map (fun y => y + dt) (skipn dx (map snd fs))).
    { unfold row_of, r. cbn [fst snd]. rewrite !map_map. cbn [fst snd]. rewrite map_id, app_assoc, firstn_skipn. reflexivity. }
    cbn [file_rows flat_map app]. cbv zeta. rewrite <- Erow.
    match type of T with (?t = true <-> _) => destruct t end; cbn [bind]; rewrite E; cbn [bind]; eexists; (split; [reflexivity|]).
    + constructor; [apply T; reflexivity|exact K].
    + constructor; [|exact K]. rewrite <- T. discriminate.
Qed.
End Body.

Theorem text_file_rows (args : arguments) dt (header : arguments) items s dx dy :
  get_double stod args (lit "dt") (1 / 10) = Ok dt ->
  is_defined args (lit "dt-relative") = false -> is_defined args (lit "dt-max") = false ->
  is_defined args (lit "dt-positive") = false -> is_defined args (lit "data-correct-cosine") = false ->
  map_find (lit "DIM") header = Some (print_nat dx ++ lit " " ++ print_nat dy) -> (0 < dx + dy)%nat ->
  map_find (lit "VS") header = None ->
  Forall (item_ok lex (dx + dy)) items ->
  rest s = concat (map render items) -> (good s = true \/ rest s = []) ->
  exists d, load_data_from_text lex stod atof flt_max s header args = Ok d /\
    td_par d = mkParameters dx dy (parse_input (get_string header (lit "PARAM_IN") (lit "UNKNOWN_INPUT")))
                                  (parse_output (get_string header (lit "PARAM_OUT") (lit "UNKNOWN_OUTPUT"))) /\
    keeps (in_box atof flt_max args dx dy) (td_rows d) (file_rows dx dt items).
Proof.
  intros Hdt H1 H2 H3 H4 Hdim Hpos Hvs Hit Hr Hg.
  unfold load_data_from_text.
  change (is_defined header "DIM"%string) with (is_defined header (lit "DIM")).
  assert (D : is_defined header (lit "DIM") = true).
  { unfold is_defined. match goal with |- match ?e with Some _ => _ | None => _ end = _ => change e with (map_find (lit "DIM") header) end.
    rewrite Hdim. reflexivity. }
  rewrite D. cbn [negb].
  change (get_pair_int header "DIM"%string) with (get_pair_int header (lit "DIM")). rewrite (get_pair_dim dx dy) by assumption.
  replace ((Z.of_nat dx <? 0)%Z || (Z.of_nat dy <? 0)%Z) with false.
  2: { symmetry. apply orb_false_iff. split; apply Z.ltb_ge; lia. }
  rewrite !Nat2Z.id. destruct (Nat.eqb_spec (dx + 3 * dy) 0) as [|_]; [lia|]. cbv zeta.
  assert (Ek : ci_kind_from_number (get_int header "VS"%string 0%Z) = NO_CI).
  { unfold get_int, get_num. change (map_find "VS"%string header) with (map_find (lit "VS") header). rewrite Hvs. reflexivity. }
  rewrite Ek.
  destruct (body_items args dt dx dy Hdt H1 H2 H3 H4 Hpos (parse_input (get_string header (lit "PARAM_IN") (lit "UNKNOWN_INPUT"))) items Hit
     (S (length (rest s))) s Hr Hg (Nat.lt_succ_diag_r _)) as (rs & E & K).
  unfold boxed in E. rewrite E. cbn [bind]. eexists. split; [reflexivity|]. split; [reflexivity|exact K].
Qed.
End Proofs.

(** ** Save then load *)
Lemma text_header_parse p r : ~ begins "#" r ->
  parse_header (endl (lit "#DIM " ++ print_nat (dimX p) ++ lit " " ++ print_nat (dimY p)) ++
    endl (lit "#PARAM_IN  " ++ get_name_in (in_param p)) ++ endl (lit "#PARAM_OUT " ++ get_name_out (out_param p)) ++ r) =
  ([(lit "DIM", print_nat (dimX p) ++ lit " " ++ print_nat (dimY p)); (lit "PARAM_IN", get_name_in (in_param p));
    (lit "PARAM_OUT", get_name_out (out_param p))],
   {| rest := r; eofbit := match r with [] => true | _ => false end; failbit := false |}).
Proof.
  intros Hr. pose proof (header_lines_ok p 0 NO_CI) as Hok. pose proof (header_effects p 0 NO_CI) as He.
  unfold header_lines in Hok, He.
  set (l1 := lit "DIM " ++ print_nat (dimX p) ++ lit " " ++ print_nat (dimY p)) in *.
  set (l2 := lit "PARAM_IN  " ++ get_name_in (in_param p)) in *.
  set (l3 := lit "PARAM_OUT " ++ get_name_out (out_param p)) in *.
  pose proof (f_equal (fun l => nth 0 l LStop) He) as E1. pose proof (f_equal (fun l => nth 1 l LStop) He) as E2.
  pose proof (f_equal (fun l => nth 2 l LStop) He) as E3. cbn [map nth] in E1, E2, E3.
  pose proof (Forall_inv Hok) as O1. pose proof (Forall_inv (Forall_inv_tail Hok)) as O2.
  pose proof (Forall_inv (Forall_inv_tail (Forall_inv_tail Hok))) as O3.
  transitivity (parse_header (concat (map hline [l1; l2; l3]) ++ r)).
  { f_equal. cbn [map concat]. rewrite <- !app_assoc. cbn [app]. unfold hline, endl, l1, l2, l3, lit. cbn [list_ascii_of_string app].
    repeat (rewrite <- app_assoc; cbn [app]). reflexivity. }
  rewrite parse_header_spec; [|exact (Forall_cons _ O1 (Forall_cons _ O2 (Forall_cons _ O3 (Forall_nil _))))|assumption].
  f_equal. rewrite fold_effect. cbn [map]. rewrite E1, E2, E3.
  generalize (print_nat (dimX p) ++ lit " " ++ print_nat (dimY p)) (get_name_in (in_param p)) (get_name_out (out_param p)).
  intros a b c. vm_compute. reflexivity.
Qed.

(** the numbers [print] writes are read back as [rnd v] *)
Definition prints (lex : str -> option (R * str)) (print : R -> str) (rnd : R -> R) : Prop :=
  forall v, numeral lex (print v) (rnd v).

Lemma keeps_all {A} (P : A -> Prop) l m : keeps P l m -> (forall x, In x m -> P x) -> l = m.
Proof.
  induction 1 as [|x l m Hx Hk IH|x l m Hx Hk IH]; intros H; [reflexivity| |].
  - f_equal. apply IH. intros y Hy. apply H. right. assumption.
  - exfalso. apply Hx, H. left. reflexivity.
Qed.

Lemma get_vec_num_empty atof k n d : get_vec_num (T := R) atof [] k n d = repeat d n.
Proof. reflexivity. Qed.

Theorem text_round_trip lex stod atof flt_max print rnd p samples :
  prints lex print rnd -> (0 < dimX p + dimY p)%nat ->
  Forall (fun x => (dimX p + dimY p <= length x)%nat /\ Forall (fun v => Rabs (rnd v) <= flt_max) x) samples ->
  parse_input (get_name_in (in_param p)) = in_param p -> parse_output (get_name_out (out_param p)) = out_param p ->
  load_text lex stod atof flt_max (save_text print p samples) [] =
  Ok (mkText p (map (fun x => let v := map rnd (firstn (dimX p + dimY p) x) in let y := skipn (dimX p) v in
                              v ++ map (fun t => t - 1 / 10) y ++ map (fun t => t + 1 / 10) y) samples)).
Proof.
  intros Hp Hpos Hs Hin Hout.
  set (n := (dimX p + dimY p)%nat) in *.
  set (items := map (fun x => TRow (map (fun v => (print v, rnd v)) (firstn n x)) []) samples).
  assert (Eb : concat (map (save_row print n) samples) = concat (map render items)).
  { unfold items. rewrite map_map. f_equal. apply List.map_ext. intros x. unfold save_row, render, endl.
    rewrite map_map. cbn [fst]. rewrite app_nil_r. reflexivity. }
  assert (Hok : Forall (item_ok lex n) items).
  { unfold items. rewrite Forall_map. eapply Forall_impl; [|exact Hs]. intros x [Hl Hx]. cbn [item_ok]. repeat split.
    - rewrite map_length, firstn_length. lia.
    - rewrite Forall_map. apply Forall_forall. intros v _. apply Hp.
    - intros []. }
  assert (Hb : ~ begins "#" (concat (map render items))).
  { destruct samples as [|x l]; [unfold items; cbn; intros [? H]; discriminate|].
    unfold items. cbn [map concat render]. inversion Hs as [|? ? [Hl _] _]; subst.
    destruct x as [|v x]; [simpl in Hl; lia|]. destruct n as [|n']; [lia|]. cbn [firstn map concat fst].
    destruct (Hp v) as ((c & t & Et & _ & Hc) & _). rewrite Et. cbn. intros [? H]. injection H as H _. congruence. }
  unfold load_text, save_text. fold n. rewrite Eb. rewrite text_header_parse by assumption.
  match goal with |- load_data_from_text _ _ _ _ ?s ?h _ = _ => set (st := s); set (hd := h) end.
  destruct (text_file_rows lex stod atof flt_max [] (1 / 10) hd items st (dimX p) (dimY p)) as (d & E & Epar & K); try reflexivity; try assumption.
  { unfold st, good. cbn [rest eofbit failbit]. destruct (concat (map render items)); [right|left]; reflexivity. }
  rewrite E. f_equal. destruct d as [dp dr]. cbn [td_par td_rows] in *. f_equal.
  - rewrite Epar.
    assert (G1 : get_string hd (lit "PARAM_IN") (lit "UNKNOWN_INPUT") = get_name_in (in_param p)) by (destruct (in_param p); reflexivity).
    assert (G2 : get_string hd (lit "PARAM_OUT") (lit "UNKNOWN_OUTPUT") = get_name_out (out_param p)) by (destruct (out_param p); reflexivity).
    rewrite G1, G2, Hin, Hout. destruct p; reflexivity.
  - apply keeps_all in K.
    + rewrite K. unfold file_rows, items. clear - n. induction samples as [|x l IH]; [reflexivity|].
      cbn [map flat_map app]. rewrite IH. rewrite map_map. cbn [snd]. reflexivity.
    + intros r Hr. unfold file_rows, items in Hr. apply in_flat_map in Hr as (i & Hi & Hr).
      apply in_map_iff in Hi as (x & <- & Hx). cbn in Hr. destruct Hr as [<-|[]].
      rewrite Forall_forall in Hs. destruct (Hs x Hx) as [Hl Hv]. rewrite Forall_forall in Hv.
      rewrite map_map. cbn [snd]. set (v := map rnd (firstn n x)).
      change (map (fun x0 => rnd x0) (firstn n x)) with v.
      assert (Lv : length v = n) by (unfold v; rewrite map_length, firstn_length; lia).
      assert (B : forall c, (c < n)%nat -> - flt_max <= nth c v 0 <= flt_max).
      { intros c Hc. assert (In (nth c v 0) v) as I by (apply nth_In; lia). unfold v in I at 2. apply in_map_iff in I as (w & Ew & Iw).
        rewrite <- Ew. assert (Rabs (rnd w) <= flt_max) as A.
        { apply Hv. clear - Iw. rewrite <- (firstn_skipn n x). apply in_app_iff. left. assumption. }
        unfold Rabs in A. destruct Rcase_abs in A; lra. }
      split; intros c l h El Eh; rewrite get_vec_num_empty in *;
        (match type of El with nth_error ?r c = _ => assert (Hc1 : (c < length r)%nat) by (apply nth_error_Some; congruence) end);
        rewrite repeat_length in Hc1; rewrite nth_error_repeat in El, Eh by assumption;
        injection El as <-; injection Eh as <-; rewrite app_nth1 by (rewrite Lv; unfold n; lia); apply B; unfold n; lia.
Qed.

(** a format for whole numbers meets the hypotheses *)
Definition demo_print (v : R) : str := print_Z (Int_part v).
Definition demo_lex (s : str) : option (R * str) :=
  match scan_int s with (Some z, r) => Some (IZR z, r) | (None, _) => None end.
Lemma demo_prints : prints demo_lex demo_print (fun v => IZR (Int_part v)).
Proof.
  intros v. unfold demo_print. set (z := Int_part v). clearbody z. repeat split.
  - destruct z as [|q|q]; unfold print_Z.
    + exists "0"%char, []. repeat split; discriminate.
    + destruct (print_N_head (N.pos q)) as (c & t & E & Hd). exists c, t. split; [exact E|]. 
      split; [apply digit_not_space; assumption|]. intros ->. discriminate.
    + eexists _, _. split; [reflexivity|]. split; [reflexivity|discriminate].
  - assert (D : forall q, ~ In nl (print_N q)).
    { intros q H. pose proof (print_N_digits q) as F. rewrite Forall_forall in F. apply F in H. discriminate. }
    destruct z as [|q|q]; unfold print_Z.
    + intros [H|[]]; discriminate.
    + apply D.
    + intros [H|H]; [discriminate|]. exact (D _ H).
  - intros c r Hc. unfold demo_lex. rewrite scan_int_print_Z; [reflexivity|].
    cbn. destruct (Ascii.eqb_spec c "0") as [->|_]; [discriminate|]. 
    destruct c as [[] [] [] [] [] [] [] []]; try discriminate; reflexivity.
Qed.

(** ** Malformed files *)
Theorem short_row lex stod args dx dy p kind lo hi ylo yhi line : (0 < dx + dy)%nat ->
  line <> [] -> Forall (fun c => is_space c = true) line ->
  load_line lex stod args dx dy p kind lo hi ylo yhi line = UB.
Proof.
  intros Hn Hl Hf. destruct line as [|c t]; [congruence|]. unfold load_line.
  inversion Hf as [|? ? Hc Ht]; subst. destruct (aeqb_spec c "#") as [->|_]; [discriminate|].
  destruct (dx + dy)%nat as [|n]; [lia|]. cbn [read_values]. unfold read_num. cbn [tgood negb trest].
  assert (E : skip_ws (c :: t) = []).
  { clear Hl. revert Hf. generalize (c :: t). induction l as [|a l IH]; [reflexivity|]. intros H. inversion H; subst. cbn. rewrite H2. auto. }
  rewrite E. reflexivity.
Qed.

Theorem missing_dim lex stod atof flt_max s (header : arguments) args : map_find (lit "DIM") header = None ->
  load_data_from_text lex stod atof flt_max s header args = Abort.
Proof.
  intros H. unfold load_data_from_text. change (is_defined header "DIM"%string) with (is_defined header (lit "DIM")).
  unfold is_defined. rewrite H. reflexivity.
Qed.

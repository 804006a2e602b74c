(** Round trip, '#' payloads and truncation of binary files (C16, C17). *)
From Coq Require Import NArith Lia.
From Verif Require Import Base Num ParamsModel GeoSpec ParamsProofs ArgsModel ArgsSpec ArgsProofs Double DataModel DataSpec DataProofs.

(** the loader on the header the writer produced *)
Lemma load_written p size k s : (0 < dimX p)%nat -> (0 < dimY p)%nat -> failbit s = false ->
  let elems := (size * columns_of k p)%nat in
  let p' := mkParameters (dimX p) (dimY p) (parse_input (get_name_in (in_param p))) (out_param p) in
  load_data_from_binary s (header_map p size k) =
    if (elems =? 0)%nat then Ok (make_vseg p' size [] k)
    else if eofbit s then UB
    else if (length (rest s) <? 8 * elems)%nat then Throw
    else Ok (make_vseg p' size (bytes_doubles elems (rest s)) k).
Proof.
  intros Hx Hy Hf elems p'.
  assert (E1 : map_find (lit "SAMPLE_COUNT") (header_map p size k) = Some (print_nat size)) by reflexivity.
  assert (E2 : map_find (lit "VS") (header_map p size k) = Some (print_nat (number_from_ci_kind k))) by reflexivity.
  assert (Hd := get_pair_dim (dimX p) (dimY p) (header_map p size k) eq_refl).
  assert (Es : get_int (header_map p size k) (lit "SAMPLE_COUNT") 0%Z = Z.of_nat size).
  { unfold get_int, get_num. rewrite E1, c_str_digits, atoi_nat. reflexivity. }
  assert (Ev : get_int (header_map p size k) (lit "VS") 0%Z = Z.of_nat (number_from_ci_kind k)).
  { unfold get_int, get_num. rewrite E2, c_str_digits, atoi_nat. reflexivity. }
  assert (Ek : ci_kind_from_number (Z.of_nat (number_from_ci_kind k)) = k) by (destruct k; reflexivity).
  assert (Ei : at_key (header_map p size k) (lit "PARAM_IN") = get_name_in (in_param p)) by reflexivity.
  assert (Eo : at_key (header_map p size k) (lit "PARAM_OUT") = get_name_out (out_param p)) by reflexivity.
  unfold load_data_from_binary.
  assert (A1 : at_key (header_map p size k) (lit "FORMAT") = lit "binary") by reflexivity.
  assert (A2 : get_int (header_map p size k) (lit "VERSION") 0%Z = 0%Z) by reflexivity.
  assert (A3 : at_key (header_map p size k) (lit "PRECISION") = lit "ieee754-double") by reflexivity.
  assert (A4 : at_key (header_map p size k) (lit "ENDIAN") = lit "little") by reflexivity.
  set (h := header_map p size k) in *. clearbody h.
  rewrite A1, A2, A3, A4, Hd, Es, Ev, Ek, Ei, Eo, Hf, parse_get_name_out.
  rewrite !str_eqb_refl. cbn [assertb Z.eqb].
  destruct (Z.ltb_spec 0 (Z.of_nat (dimX p))); [|lia]. destruct (Z.ltb_spec 0 (Z.of_nat (dimY p))); [|lia].
  cbn [andb assertb]. destruct (Z.ltb_spec (Z.of_nat size) 0); [lia|].
  rewrite !Nat2Z.id.
  replace (size * (dimX p + dimY p + number_from_ci_kind k * dimY p))%nat with elems.
  - reflexivity.
  - unfold elems, columns_of. destruct k; cbn [ci_columns number_from_ci_kind]; lia.
Qed.

(** What a data set looks like after a save/load cycle: bounds recomputed from
    the samples, and an input parametrization without a printable name lost. *)
Definition reloaded (d : vseg) : vseg :=
  make_vseg (mkParameters (dimX (vs_par d)) (dimY (vs_par d))
               (parse_input (get_name_in (in_param (vs_par d)))) (out_param (vs_par d)))
    (vs_size d) (vs_buf d) (vs_kind d).

Lemma begins_app_l c a b : a <> [] -> begins c (a ++ b) <-> begins c a.
Proof.
  intros Ha. destruct a as [|x a]; [congruence|]. unfold begins; cbn [app]. split; intros [t E]; injection E as -> E; eauto.
Qed.

Lemma doubles_bytes_nil l : doubles_bytes l = [] -> l = [].
Proof. intros H. pose proof (doubles_bytes_length l) as E. rewrite H in E. destruct l; [reflexivity|simpl in E; lia]. Qed.

Lemma elems_zero d : wf_vseg d -> (vs_size d * column_number d = 0)%nat -> vs_buf d = [].
Proof. intros [Hl _] H. rewrite H in Hl. destruct (vs_buf d); [reflexivity|discriminate]. Qed.


Lemma save_ok d : wf_vseg d ->
  save_binary d = Ok (binary_header (vs_par d) (vs_size d) (vs_kind d) ++ payload d ++ binary_trailer).
Proof. intros H. unfold save_binary. rewrite payload_spec by assumption. reflexivity. Qed.

Theorem binary_round_trip d file : wf_vseg d -> (0 < dimX (vs_par d))%nat -> (0 < dimY (vs_par d))%nat ->
  save_binary d = Ok file -> ~ begins "#" (payload d) -> load_binary file = Ok (reloaded d).
Proof.
  intros Hw Hx Hy Hs Hb. rewrite save_ok in Hs by assumption. apply Ok_inj in Hs. subst file.
  assert (Hr : ~ begins "#" (payload d ++ binary_trailer)).
  { destruct (payload d) as [|c t] eqn:E; [intros [? H]; discriminate|].
    rewrite begins_app_l by discriminate. assumption. }
  unfold load_binary. rewrite parse_binary_header by assumption.
  rewrite load_written by (assumption || reflexivity). cbv zeta. cbn [eofbit rest].
  fold (column_number d). destruct (Nat.eqb_spec (vs_size d * column_number d) 0) as [E|E].
  - unfold reloaded. rewrite (elems_zero d Hw E). reflexivity.
  - destruct (payload d ++ binary_trailer) eqn:Ep.
    { apply app_eq_nil in Ep as [_ Ep]. discriminate. }
    rewrite <- Ep. destruct Hw as [Hl Hd].
    rewrite app_length. unfold payload at 1. rewrite doubles_bytes_length, Hl.
    destruct (Nat.ltb_spec (8 * (vs_size d * column_number d) + length binary_trailer) (8 * (vs_size d * column_number d))) as [C|_]; [lia|].
    unfold payload. rewrite <- Hl, bytes_doubles_app by assumption. reflexivity.
Qed.

(** ** A payload that starts with '#' *)
Lemma parse_lines_then ls : forall r fuel m,
  Forall (fun l => ~ In nl l /\ header_line l <> LStop) ls ->
  (length (concat (map hline ls) ++ r) < fuel)%nat ->
  exists fuel', (length r < fuel')%nat /\
  parse_header_loop fuel (open_stream (concat (map hline ls) ++ r)) m =
  parse_header_loop fuel' (open_stream r) (fold_left apply_effect ls m).
Proof.
  induction ls as [|l ls IH]; intros r fuel m Hls Hf.
  - exists fuel. split; [exact Hf|reflexivity].
  - destruct fuel as [|fuel]; [lia|]. inversion Hls as [|? ? [Hnl Hst] Hls']; subst.
    assert (Hf' : (length (concat (map hline ls) ++ r) < fuel)%nat).
    { cbn [map concat] in Hf. unfold hline at 1 in Hf.
      repeat (rewrite app_length in Hf || cbn [length app] in Hf). rewrite app_length; lia. }
    destruct (IH r fuel (apply_effect m l) Hls' Hf') as (fuel' & H1 & H2).
    exists fuel'. split; [assumption|]. cbn [fold_left]. rewrite <- H2.
    cbn [map concat]. unfold hline at 1. rewrite <- app_assoc. cbn [app].
    cbn [parse_header_loop]. unfold open_stream; cbn [good eofbit failbit rest negb andb].
    rewrite aeqb_refl. rewrite <- app_assoc; cbn [app]. unfold getline.
    rewrite split_line_app by assumption.
    unfold apply_effect. destruct (header_line l) eqn:E; [reflexivity|reflexivity|congruence].
Qed.

Lemma take_token_len s : (length (fst (take_token s)) + length (snd (take_token s)) = length s)%nat.
Proof.
  induction s as [|c s IH]; [reflexivity|]. cbn [take_token]. destruct (is_space c); [reflexivity|].
  destruct (take_token s) as [a b]. cbn [fst snd length] in *. lia.
Qed.
Lemma skip_ws_len s : (length (skip_ws s) <= length s)%nat.
Proof. induction s as [|c s IH]; [reflexivity|]. cbn [skip_ws]. destruct (is_space c); simpl; lia. Qed.
Lemma scan_token_len s : (length (fst (scan_token s)) + length (snd (scan_token s)) <= length s)%nat.
Proof. unfold scan_token. rewrite take_token_len. apply skip_ws_len. Qed.

Lemma stop_line_long l : header_line l = LStop -> (13 <= length l)%nat.
Proof.
  unfold header_line. destruct (first_is " " l); [discriminate|].
  pose proof (scan_token_len l) as L1. destruct (scan_token l) as [key r].
  destruct key as [|c key]; [discriminate|]. set (k := c :: key) in *.
  destruct (str_eqb_spec k (lit "ALTA")) as [Ek|]; [|discriminate].
  pose proof (scan_token_len r) as L2. destruct (scan_token r) as [f r1].
  pose proof (scan_token_len r1) as L3. destruct (scan_token r1) as [g r2].
  destruct (str_eqb_spec g (lit "HEADER")) as [Eg|]; [|discriminate].
  destruct (str_eqb_spec f (lit "END")) as [Ef|]; [|discriminate]. intros _.
  cbn [fst snd] in *. rewrite Ek in L1. rewrite Ef in L2. rewrite Eg in L3. cbn in L1, L2, L3. lia.
Qed.

Lemma load_inv s h d : load_data_from_binary s h = Ok d ->
  vs_buf d = [] \/ ((8 * length (vs_buf d) <= length (rest s))%nat /\
    vs_buf d = bytes_doubles (length (vs_buf d)) (rest s)).
Proof.
  unfold load_data_from_binary, assertb. intros H.
  repeat match type of H with
  | (if ?b then _ else _) = _ => destruct b eqn:?; try discriminate
  | match ?x with Some _ => _ | None => _ end = _ => destruct x as [[dx dy]|]; try discriminate
  end.
  - apply Ok_inj in H. subst d. left. reflexivity.
  - apply Ok_inj in H. subst d. cbn [vs_buf make_vseg] in *. rewrite bytes_doubles_length.
    match goal with E : (length (rest s) <? _)%nat = false |- _ => apply Nat.ltb_ge in E end. right; auto.
Qed.

Theorem binary_hash_payload d file d' : wf_vseg d -> (0 < dimX (vs_par d))%nat -> (0 < dimY (vs_par d))%nat ->
  save_binary d = Ok file -> begins "#" (payload d) -> load_binary file = Ok d' -> vs_buf d' <> vs_buf d.
Proof.
  intros Hw Hx Hy Hs Hb Hl E. rewrite save_ok in Hs by assumption. apply Ok_inj in Hs. subst file.
  set (p := vs_par d) in *. set (k := vs_kind d) in *.
  unfold load_binary in Hl. destruct (parse_header _) as [h s] eqn:Hp.
  unfold parse_header in Hp. rewrite binary_header_lines in Hp.
  destruct (parse_lines_then (header_lines p (vs_size d) k) (payload d ++ binary_trailer)
    (S (length (concat (map hline (header_lines p (vs_size d) k)) ++ payload d ++ binary_trailer))) []
    (header_lines_ok _ _ _) (Nat.lt_succ_diag_r _)) as (fuel & Hf & Hp').
  rewrite Hp' in Hp.
  pose proof (parse_header_any fuel (payload d ++ binary_trailer)
     (fold_left apply_effect (header_lines p (vs_size d) k) []) Hf) as Ha.
  rewrite Hp in Ha. cbn [snd] in Ha. destruct Ha as (pre & Eb & Hh & Ho).
  assert (Hn : (16 <= length (payload d))%nat /\ vs_buf d <> []).
  { destruct Hw as [Hlen _].
    destruct (vs_buf d) as [|w l] eqn:Eb'.
    - exfalso. unfold payload in Hb. rewrite Eb' in Hb. destruct Hb; discriminate.
    - split; [|discriminate]. unfold payload. rewrite doubles_bytes_length, Eb', Hlen.
      unfold column_number, columns_of. fold p k.
      assert (vs_size d <> 0)%nat by (intros Z; rewrite Z in Hlen; discriminate). nia. }
  destruct Hn as [Hn Hne].
  apply load_inv in Hl. rewrite E in Hl. destruct Hl as [Hl|[Hlen Hbuf]]; [contradiction|].
  assert (Hpay : payload d = firstn (length (payload d)) (rest s)).
  { unfold payload at 1. rewrite Hbuf, bytes_doubles_bytes by assumption.
    unfold payload. rewrite doubles_bytes_length. reflexivity. }
  assert (Hle : (length (payload d) <= length (rest s))%nat).
  { unfold payload. rewrite doubles_bytes_length. assumption. }
  assert (Hpre : (length pre <= 13)%nat).
  { apply (f_equal (@length ascii)) in Eb. rewrite !app_length in Eb.
    replace (length binary_trailer) with 13%nat in Eb by reflexivity. lia. }
  assert (Hrest : begins "#" (rest s)).
  { destruct Hb as [t Ht]. rewrite Ht in Hpay. cbn [length] in Hpay.
    destruct (rest s) as [|c r]; [discriminate|]. cbn [firstn] in Hpay. injection Hpay as <- _.
    exists r; reflexivity. }
  destruct Ho as [Ho|(p' & l & Epre & Hnl & Hst)]; [contradiction|].
  apply stop_line_long in Hst. rewrite Epre, app_length in Hpre. unfold hline in Hpre.
  cbn [length] in Hpre. rewrite app_length in Hpre. lia.
Qed.

(** ** Truncated files *)

(** header complete, payload cut: an exception, provided at least one payload
    byte is left *)
Theorem truncated_throws d b : wf_vseg d -> (0 < dimX (vs_par d))%nat -> (0 < dimY (vs_par d))%nat ->
  ~ begins "#" b -> b <> [] -> (length b < length (payload d))%nat ->
  load_binary (binary_header (vs_par d) (vs_size d) (vs_kind d) ++ b) = Throw.
Proof.
  intros Hw Hx Hy Hb Hne Hlen. unfold load_binary. rewrite parse_binary_header by assumption.
  rewrite load_written by (assumption || reflexivity). cbv zeta. cbn [eofbit rest].
  destruct b as [|c b]; [congruence|].
  fold (column_number d). destruct Hw as [Hl Hd]. unfold payload in Hlen. rewrite doubles_bytes_length, Hl in Hlen.
  destruct (Nat.eqb_spec (vs_size d * column_number d) 0) as [E|E]; [lia|].
  destruct (Nat.ltb_spec (length (c :: b)) (8 * (vs_size d * column_number d))); [reflexivity|lia].
Qed.

(** all of the payload cut: no exception, uninitialised samples *)
Theorem truncated_all_ub d : wf_vseg d -> (0 < dimX (vs_par d))%nat -> (0 < dimY (vs_par d))%nat ->
  payload d <> [] ->
  load_binary (binary_header (vs_par d) (vs_size d) (vs_kind d)) = UB.
Proof.
  intros Hw Hx Hy Hne. unfold load_binary. rewrite <- (app_nil_r (binary_header _ _ _)).
  rewrite parse_binary_header by (intros [? ?]; discriminate).
  rewrite load_written by (assumption || reflexivity). cbv zeta. cbn [eofbit rest].
  fold (column_number d). destruct (Nat.eqb_spec (vs_size d * column_number d) 0) as [E|E]; [|reflexivity].
  exfalso. apply Hne. unfold payload. rewrite (elems_zero d Hw E). reflexivity.
Qed.

(** ** Statements about whole files *)
Theorem save_total d : wf_vseg d -> exists file, save_binary d = Ok file.
Proof. intros H. rewrite save_ok by assumption. eauto. Qed.

Theorem binary_round_trip_fields d file : wf_vseg d -> (0 < dimX (vs_par d))%nat -> (0 < dimY (vs_par d))%nat ->
  save_binary d = Ok file -> ~ begins "#" (payload d) ->
  exists d', load_binary file = Ok d' /\
    vs_size d' = vs_size d /\ vs_kind d' = vs_kind d /\ vs_buf d' = vs_buf d /\
    dimX (vs_par d') = dimX (vs_par d) /\ dimY (vs_par d') = dimY (vs_par d) /\
    out_param (vs_par d') = out_param (vs_par d) /\
    (named_input (in_param (vs_par d)) \/ in_param (vs_par d) = UNKNOWN_INPUT -> vs_par d' = vs_par d).
Proof.
  intros Hw Hx Hy Hs Hb. exists (reloaded d). split; [apply binary_round_trip; assumption|].
  repeat split. intros Hn. unfold reloaded, make_vseg; cbn [vs_par]. rewrite (proj2 (parse_get_name_in (in_param (vs_par d))) Hn).
  destruct (vs_par d); reflexivity.
Qed.

Lemma saved_length d file : wf_vseg d -> save_binary d = Ok file ->
  let header := (length file - length (payload d) - 13)%nat in
  header = length (binary_header (vs_par d) (vs_size d) (vs_kind d)) /\
  forall n, (header <= n <= header + length (payload d))%nat ->
    firstn n file = binary_header (vs_par d) (vs_size d) (vs_kind d) ++ firstn (n - header) (payload d).
Proof.
  intros Hw Hs header. rewrite save_ok in Hs by assumption. apply Ok_inj in Hs.
  assert (E : header = length (binary_header (vs_par d) (vs_size d) (vs_kind d))).
  { unfold header. rewrite Hs, !app_length. change (length binary_trailer) with 13%nat. lia. }
  split; [exact E|]. intros n Hn. rewrite Hs. rewrite firstn_app, <- E, firstn_all2 by lia. f_equal.
  rewrite firstn_app. replace (n - header - length (payload d))%nat with 0%nat by lia. simpl. apply app_nil_r.
Qed.

Theorem truncated_file_throws d file n : wf_vseg d -> (0 < dimX (vs_par d))%nat -> (0 < dimY (vs_par d))%nat ->
  save_binary d = Ok file -> ~ begins "#" (payload d) ->
  let header := (length file - length (payload d) - 13)%nat in
  (header < n < header + length (payload d))%nat ->
  load_binary (firstn n file) = Throw.
Proof.
  intros Hw Hx Hy Hs Hb header Hn. destruct (saved_length d file Hw Hs) as [E F]. fold header in E, F.
  rewrite F by lia.
  assert (Hne : firstn (n - header) (payload d) <> []).
  { intros Z. apply (f_equal (@length ascii)) in Z. rewrite firstn_length in Z. cbn [length] in Z. lia. }
  apply truncated_throws; try assumption.
  - intros [t Ht]. apply Hb. rewrite <- (firstn_skipn (n - header) (payload d)), Ht. eexists. reflexivity.
  - rewrite firstn_length. lia.
Qed.

Theorem truncated_file_ub d file : wf_vseg d -> (0 < dimX (vs_par d))%nat -> (0 < dimY (vs_par d))%nat ->
  save_binary d = Ok file -> payload d <> [] ->
  load_binary (firstn (length file - length (payload d) - 13) file) = UB.
Proof.
  intros Hw Hx Hy Hs Hne. destruct (saved_length d file Hw Hs) as [E F]. rewrite F by lia.
  rewrite Nat.sub_diag. cbn [firstn]. rewrite app_nil_r. apply truncated_all_ub; assumption.
Qed.

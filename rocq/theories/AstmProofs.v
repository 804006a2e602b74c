From Coq Require Import Reals List Lra.
From Verif Require Import Base Num ParamsModel ArgsModel ArgsSpec ArgsProofs TextModel AstmModel AstmSpec.
From Verif Require TextRound.
Open Scope R_scope.

(** ** typed vectors *)
Lemma take_chunk_all n : forall e r, (length e <= n)%nat -> ~ In ","%char e -> match r with [] => True | c :: _ => c = ","%char end -> take_chunk n (e ++ r) = (e, r).
Proof.
  induction n; intros e r Hl Hc Hr.
  - destruct e; [|cbn in Hl; lia]. destruct r; reflexivity.
  - destruct e as [|c e]; cbn [app].
    + destruct r as [|c r]; [reflexivity|]. subst c. cbn. reflexivity.
    + cbn [take_chunk]. destruct (aeqb_spec c ","%char) as [->|_]; [exfalso; apply Hc; left; reflexivity|]. rewrite IHn; [reflexivity|cbn in Hl; lia|intros H; apply Hc; right; assumption|assumption].
Qed.
Lemma chunks_join es : es <> [] -> Forall short es -> forall fuel, (length es <= fuel)%nat -> chunks fuel (join comma es) = es.
Proof.
  induction es as [|a es IH]; intros Hne Hf fuel Hl; [congruence|]. inversion_clear Hf as [|? ? Ha Hes]. destruct Ha as (A1 & A2 & A3 & A4).
  destruct fuel as [|fuel]; [cbn in Hl; lia|]. cbn [chunks]. destruct es as [|b es].
  - cbn [join]. rewrite <- (app_nil_r a) at 1. rewrite take_chunk_all by auto. reflexivity.
  - change (join comma (a :: b :: es)) with (a ++ ","%char :: join comma (b :: es)). rewrite take_chunk_all by auto. destruct a as [|c a]; [congruence|]. f_equal. apply IH; [discriminate|assumption|cbn in *; lia].
Qed.
Lemma c_str_id e : ~ In nul e -> c_str e = e.
Proof. induction e as [|c e IH]; intros H; [reflexivity|]. cbn [c_str]. destruct (aeqb_spec c nul) as [->|_]; [exfalso; apply H; left; reflexivity|]. f_equal. apply IH. intros I. apply H. right. assumption. Qed.
Lemma join_length es : (length es <= S (length (join comma es)))%nat.
Proof.
  induction es as [|a es IH]; [simpl; lia|]. destruct es as [|b es]; [simpl; lia|].
  change (join comma (a :: b :: es)) with (a ++ ","%char :: join comma (b :: es)). rewrite app_length; cbn [length] in *; lia.
Qed.
Lemma bracket_first t : first_is "[" (lit "[" ++ t) = true.
Proof. reflexivity. Qed.
Lemma bracket_last t : last_is "]" (lit "[" ++ t ++ lit "]") = true.
Proof. unfold last_is. rewrite app_assoc, rev_app_distr. reflexivity. Qed.
Lemma bracket_inner t : removelast (tl (lit "[" ++ t ++ lit "]")) = t.
Proof. cbn [lit list_ascii_of_string app tl]. apply removelast_last. Qed.
Lemma get_vec_of_elements {T} (conv : str -> T) (a : arguments) k es : map_find k a = Some (lit "[" ++ join comma es ++ lit "]") -> es <> [] -> Forall short es -> get_vec_of conv a k = List.map conv es.
Proof.
  intros H Hne Hf. unfold get_vec_of. rewrite H, bracket_first, bracket_last. cbn [andb]. rewrite bracket_inner, chunks_join by (try assumption; apply join_length).
  apply List.map_ext_in. intros e Ie. rewrite Forall_forall in Hf. destruct (Hf e Ie) as (_ & _ & _ & A4). rewrite c_str_id by assumption. reflexivity.
Qed.
Lemma blank_forallb w : blank w -> forallb is_space w = true.
Proof. intros H. apply forallb_forall. intros c Hc. unfold blank in H. rewrite Forall_forall in H. apply H. assumption. Qed.
Lemma blank_ends w : blank w -> ends_word w.
Proof. destruct w; [constructor|]. intros H. inversion_clear H. assumption. Qed.
Lemma conv_str_padded e name : padded e name -> conv_str e = name.
Proof. intros (w & w' & -> & Hw & Hw' & Hn). unfold conv_str. rewrite scan_token_word; [reflexivity|apply blank_forallb; assumption|assumption|]. apply blank_ends in Hw'. exact Hw'. Qed.
Lemma conv_int_printed w w' z : blank w -> blank w' -> conv_int (w ++ print_Z z ++ w') = Some z.
Proof.
  intros Hw Hw'. assert (Hd : no_digit_head w'). { destruct w' as [|c w']; [constructor|]. inversion_clear Hw'. cbn. destruct (is_digit c) eqn:E; [|reflexivity]. apply digit_not_space in E. congruence. }
  unfold conv_int. rewrite skip_ws_spaces by (apply blank_forallb; assumption).
  assert (N : exists c t, print_Z z ++ w' = c :: t /\ is_space c = false).
  { destruct z; cbn [print_Z].
    - destruct (print_N_head (Z.to_N 0)) as (c & t & E & D). rewrite E. exists c, (t ++ w'). split; [reflexivity|apply digit_not_space; assumption].
    - destruct (print_N_head (Z.to_N (Z.pos p))) as (c & t & E & D). rewrite E. exists c, (t ++ w'). split; [reflexivity|apply digit_not_space; assumption].
    - eexists _, _. split; [reflexivity|reflexivity]. }
  destruct N as (c & t & E & Hc). rewrite E. cbn [skip_ws]. rewrite Hc. rewrite <- E, (scan_int_print_Z z w') by assumption. reflexivity.
Qed.
(** an empty element ends the list, and leaves an int uninitialised *)
Lemma chunks_empty es more : Forall short es -> forall fuel, (length es < fuel)%nat -> more = [] \/ (exists r, more = ","%char :: r) ->
  chunks fuel (concat (List.map (fun e => e ++ comma) es) ++ more) = es ++ [[]].
Proof.
  induction es as [|a es IH]; intros Hf fuel Hl Hm; (destruct fuel as [|fuel]; [cbn in Hl; lia|]).
  - cbn [List.map concat app chunks]. destruct Hm as [->|(r & ->)]; reflexivity.
  - inversion_clear Hf as [|? ? Ha Hes]. destruct Ha as (A1 & A2 & A3 & A4). cbn [chunks List.map concat]. rewrite <- !app_assoc. cbn [comma app]. rewrite take_chunk_all by auto. destruct a as [|c a]; [congruence|].
    cbn [app]. f_equal. apply IH; [assumption|cbn in Hl; lia|assumption].
Qed.
Lemma long_chunk n : forall a r, length a = n -> ~ In ","%char a -> take_chunk n (a ++ r) = (a, r).
Proof.
  induction n; intros a r Ha Hc; destruct a as [|c a]; cbn in Ha; try lia; [destruct r; reflexivity|]. cbn [app take_chunk].
  destruct (aeqb_spec c ","%char) as [->|_]; [exfalso; apply Hc; left; reflexivity|]. rewrite IHn; [reflexivity|lia|intros H; apply Hc; right; assumption].
Qed.

(** ** the header *)
Lemma word_head t : word t -> exists c t', t = c :: t' /\ is_space c = false /\ Forall (fun c => is_space c = false) t.
Proof. intros [Hn Hf]. destruct t as [|c t]; [congruence|]. exists c, t. split; [reflexivity|]. split; [inversion_clear Hf; tauto|]. eapply Forall_impl; [|exact Hf]. simpl. tauto. Qed.
Lemma header_step fuel k v r key line m : word k -> ends_word v -> ~ In nl v ->
  astm_header (S fuel) (open_stream (k ++ v ++ nl :: r)) key line m =
    (if str_eqb k (lit "VARS") then (update m k (lit "[" ++ v ++ lit "]"), open_stream r) else astm_header fuel (open_stream r) k v (update m k v)).
Proof.
  intros Hk Hv Hn. destruct (word_head k Hk) as (c & k' & E & Hc & Hf). cbn [astm_header open_stream good eofbit failbit negb andb rest].
  assert (Es : skip_ws (k ++ v ++ nl :: r) = k ++ v ++ nl :: r) by (rewrite E; cbn; rewrite Hc; reflexivity). rewrite Es.
  assert (Et : take_token (k ++ v ++ nl :: r) = (k, v ++ nl :: r)) by (apply take_token_app; [assumption|destruct v; [reflexivity|exact Hv]]).
  assert (Eg : getline (v ++ nl :: r) = (v, open_stream r)) by (unfold getline; rewrite split_line_app by assumption; reflexivity).
  destruct (k ++ v ++ nl :: r) as [|x l] eqn:El; [rewrite E in El; discriminate|]. rewrite Et. destruct (v ++ nl :: r) as [|y l'] eqn:El'; [destruct v; discriminate|]. rewrite Eg. reflexivity.
Qed.
Lemma header_ok ls : Forall header_line_ok ls -> forall fuel vline r key line (m : arguments), map_ok m -> (length ls < fuel)%nat -> ends_word vline -> ~ In nl vline ->
  exists m', astm_header fuel (open_stream (concat (List.map header_text ls) ++ lit "VARS" ++ vline ++ nl :: r)) key line m = (m', open_stream r) /\
    map_find (lit "VARS") m' = Some (lit "[" ++ vline ++ lit "]") /\
    forall k, k <> lit "VARS" -> map_find k m' = match last_value k ls with Some v => Some v | None => map_find k m end.
Proof.
  induction 1 as [|[k v] ls Hl Hls IH]; intros fuel vline r key line m Hok Hf Hv Hn; (destruct fuel as [|fuel]; [cbn in Hf; lia|]).
  - cbn [List.map concat app]. assert (Hw : word (lit "VARS")) by (split; [discriminate|repeat constructor; discriminate]).
    change (lit "VARS" ++ vline ++ nl :: r) with (lit "VARS" ++ vline ++ nl :: r). rewrite (header_step fuel (lit "VARS") vline r key line m Hw Hv Hn). rewrite str_eqb_refl.
    eexists. split; [reflexivity|]. unfold update. split; [rewrite map_find_update, str_eqb_refl by assumption; reflexivity|]. intros k' Nk. cbn [last_value]. rewrite map_find_update by assumption. destruct (str_eqb_spec k' (lit "VARS")); [contradiction|reflexivity].
  - destruct Hl as (H1 & H2 & H3 & H4). cbn [fst snd] in *. cbn [List.map concat]. unfold header_text at 1. cbn [fst snd]. rewrite <- !app_assoc. cbn [app].
    rewrite header_step by assumption. destruct (str_eqb_spec k (lit "VARS")) as [?|_]; [contradiction|].
    destruct (IH fuel vline r k v (update m k v) (map_update_ok k v m Hok) ltac:(cbn in Hf; lia) Hv Hn) as (m' & E & P1 & P2). exists m'. split; [exact E|]. split; [assumption|].
    intros k' Nk. rewrite (P2 k' Nk). cbn [last_value fst snd]. destruct (last_value k' ls); [reflexivity|]. unfold update. rewrite map_find_update by assumption. destruct (str_eq_dec k' k) as [->|N]; [rewrite str_eqb_refl; reflexivity|]. destruct (str_eqb_spec k' k); [contradiction|reflexivity].
Qed.

(** ** the rows *)
Lemma has_comma_spec l : has_comma l = true <-> In ","%char l.
Proof.
  unfold has_comma. rewrite existsb_exists. split; [intros (x & I & E); destruct (aeqb_spec x ","%char); [subst; assumption|discriminate]|intros I; exists ","%char; split; [assumption|apply aeqb_refl]].
Qed.
Lemma next_line_ok l r line : ~ In nl l -> next_line line (open_stream (l ++ nl :: r)) = (l, open_stream r).
Proof. intros H. unfold next_line. cbn [good open_stream eofbit failbit negb andb rest]. unfold getline. rewrite split_line_app by assumption. reflexivity. Qed.

Section Rows.
Variable lex : str -> option (R * str).
Variable n : nat.

Lemma spaced_app a b : spaced (a ++ b) = spaced a ++ spaced b.
Proof. apply List.map_app. Qed.
Lemma spaced_same a : ~ In ","%char a -> spaced a = a.
Proof.
  induction a as [|c a IH]; intros H; [reflexivity|]. cbn. destruct (aeqb_spec c ","%char) as [->|_]; [exfalso; apply H; left; reflexivity|]. f_equal. apply IH. intros I. apply H. right. assumption.
Qed.
Lemma read_cells_row fs more : Forall (fun f => blank (fst f) /\ ~ In nl (fst f) /\ number lex (fst (snd f)) (snd (snd f))) fs -> fs <> [] -> match more with [] => True | c :: _ => c = ","%char \/ is_space c = true end ->
  forall w, blank w -> read_cells lex (length fs) {| trest := w ++ spaced (row_text fs more); tgood := true |} = List.map (fun f => Some (snd (snd f))) fs.
Proof.
  intros Hf Hne Hm. induction fs as [|[p [t v]] fs IH]; [congruence|]. intros w Hw. inversion_clear Hf as [|? ? Hx Hfs]. destruct Hx as (Hp & _ & ((c & t' & Et & Hc) & _ & Hcm & Hlex)). cbn [fst snd] in *.
  set (tail := match fs with [] => spaced more | _ => " "%char :: spaced (row_text fs more) end).
  assert (Hpc : spaced p = p) by (apply spaced_same; intros I; unfold blank in Hp; rewrite Forall_forall in Hp; specialize (Hp _ I); discriminate).
  assert (Er : spaced (row_text ((p, (t, v)) :: fs) more) = p ++ t ++ tail).
  { unfold row_text, tail. destruct fs as [|f fs].
    - cbn [List.map join fst snd]. rewrite !spaced_app, Hpc, (spaced_same t Hcm). rewrite <- app_assoc. reflexivity.
    - cbn [List.map fst snd]. change (join comma ((p ++ t) :: (fst f ++ fst (snd f)) :: List.map (fun f0 => fst f0 ++ fst (snd f0)) fs)) with ((p ++ t) ++ ","%char :: join comma ((fst f ++ fst (snd f)) :: List.map (fun f0 => fst f0 ++ fst (snd f0)) fs)).
      rewrite <- !app_assoc, (spaced_app p), (spaced_app t), Hpc, (spaced_same t Hcm). reflexivity. }
  assert (He : ends_word tail).
  { unfold tail. destruct fs; [|reflexivity]. destruct more as [|d more]; [constructor|]. cbn. destruct Hm as [->|Hm]; [reflexivity|]. destruct (aeqb_spec d ","%char); [reflexivity|exact Hm]. }
  rewrite Er. cbn [length read_cells]. unfold read_num. cbn [tgood trest negb].
  rewrite app_assoc, TextRound.skip_ws_app by (rewrite forallb_app, !blank_forallb by assumption; reflexivity).
  replace (skip_ws (t ++ tail)) with (t ++ tail) by (rewrite Et; cbn; rewrite Hc; reflexivity).
  destruct (t ++ tail) as [|x l] eqn:El; [rewrite Et in El; discriminate|]. rewrite <- El. rewrite (Hlex tail He). cbn [List.map snd]. f_equal.
  destruct fs as [|f fs]; [reflexivity|]. unfold tail. apply (IH Hfs ltac:(discriminate) [" "%char]). constructor; [reflexivity|constructor].
Qed.

Notation lines := (fun body => concat (List.map (fun l => body_text l ++ [nl]) body)).
Lemma body_no_nl l : body_ok lex n l -> ~ In nl (body_text l).
Proof.
  destruct l as [fs more|t]; cbn; [|tauto]. intros (_ & Hf & Hm & _ & _) I. unfold row_text in I. apply in_app_or in I. destruct I as [I|I]; [|contradiction].
  clear Hm. induction fs as [|[p [t v]] fs IH]; [contradiction|]. inversion_clear Hf as [|? ? Hx Hfs]. destruct Hx as (_ & H1 & (_ & H2 & _)). cbn [fst snd] in *. destruct fs as [|f fs].
  - cbn [List.map join fst snd] in I. apply in_app_or in I. tauto.
  - cbn [List.map fst snd] in I. change (join comma ((p ++ t) :: (fst f ++ fst (snd f)) :: List.map (fun f0 => fst f0 ++ fst (snd f0)) fs)) with ((p ++ t) ++ ","%char :: join comma ((fst f ++ fst (snd f)) :: List.map (fun f0 => fst f0 ++ fst (snd f0)) fs)) in I.
    apply in_app_or in I. destruct I as [I|[I|I]]; [apply in_app_or in I; tauto|discriminate|exact (IH Hfs I)].
Qed.
(** the next row of a body, the lines before it skipped *)
Lemma find_row_next body : Forall (body_ok lex n) body -> forall fuel line r, (length body <= fuel)%nat ->
  (exists fs more body', find_row fuel line (open_stream (lines body ++ r)) = Some (row_text fs more, open_stream (lines body' ++ r)) /\ Forall (body_ok lex n) body' /\ (length body' < length body)%nat /\
     body_ok lex n (Row fs more) /\ rows_of body = List.map (fun f => snd (snd f)) fs :: rows_of body') \/
  (rows_of body = [] /\ exists line', forall extra, find_row (length body + extra) line (open_stream (lines body ++ r)) = find_row extra line' (open_stream r)).
Proof.
  induction 1 as [|l body Hl Hb IH]; intros fuel line r Hf.
  - right. split; [reflexivity|]. exists line. reflexivity.
  - assert (Hn := body_no_nl l Hl). destruct fuel as [|fuel]; [cbn in Hf; lia|]. cbn [List.map concat]. rewrite <- !app_assoc. cbn [app].
    destruct l as [fs more|t].
    + left. exists fs, more, body. cbn [find_row body_text]. rewrite next_line_ok by assumption. destruct Hl as (L1 & L2 & L3 & L4 & L5). rewrite (proj2 (has_comma_spec _) L5). split; [reflexivity|]. split; [assumption|]. split; [cbn; lia|]. split; [repeat split; assumption|]. reflexivity.
    + assert (Hc : has_comma t = false) by (destruct (has_comma t) eqn:E; [|reflexivity]; apply has_comma_spec in E; destruct Hl; contradiction).
      destruct (IH fuel t r ltac:(cbn in Hf; lia)) as [(fs & more & body' & E & P1 & P2 & P3 & P4)|(P1 & line' & P2)].
      * left. exists fs, more, body'. cbn [find_row body_text]. rewrite next_line_ok by assumption. rewrite Hc. split; [exact E|]. split; [assumption|]. split; [cbn; lia|]. split; assumption.
      * right. split; [exact P1|]. exists line'. intros extra. cbn [length Nat.add find_row body_text]. rewrite next_line_ok by assumption. rewrite Hc. apply P2.
Qed.
(** after the end of the text nothing ends the loop *)
Lemma find_row_bad fuel : forall line s, good s = false -> has_comma line = false -> find_row fuel line s = None.
Proof.
  induction fuel; intros line s Hg Hc; [reflexivity|]. cbn [find_row]. unfold next_line. rewrite Hg, Hc. apply IHfuel; [|assumption]. unfold good in *. cbn. destruct (eofbit s), (failbit s); cbn in *; auto.
Qed.
Lemma find_row_end fuel : forall line t, ~ In nl t -> has_comma t = false -> find_row fuel line (open_stream t) = None.
Proof.
  intros line t Hn Hc. destruct fuel; [reflexivity|]. cbn [find_row]. unfold next_line. cbn [good open_stream eofbit failbit negb andb rest]. unfold getline.
  assert (E : split_line t = (t, None)). { clear Hc. induction t as [|c t IH]; [reflexivity|]. cbn [split_line]. destruct (aeqb_spec c nl) as [->|_]; [exfalso; apply Hn; left; reflexivity|]. rewrite IH; [reflexivity|]. intros I. apply Hn. right. assumption. }
  rewrite E, Hc. apply find_row_bad; [reflexivity|assumption].
Qed.
Lemma find_row_mono fuel : forall line s r, find_row fuel line s = Some r -> forall extra, find_row (fuel + extra) line s = Some r.
Proof. induction fuel; intros line s r H extra; [discriminate|]. cbn [find_row Nat.add] in *. destruct (next_line line s) as [l s']. destruct (has_comma l); [assumption|]. apply IHfuel. assumption. Qed.

(** as many rows as asked for *)
Lemma load_rows_ok : (0 < n)%nat -> forall k body line r fuel, Forall (body_ok lex n) body -> (k <= length (rows_of body))%nat -> (length body <= fuel)%nat ->
  load_rows lex fuel k n line (open_stream (lines body ++ r)) = Some (Ok (List.map (List.map Some) (firstn k (rows_of body)))).
Proof.
  intros Hpos. induction k; intros body line r fuel Hb Hk Hf; [reflexivity|]. cbn [load_rows good open_stream eofbit failbit negb andb].
  destruct (find_row_next body Hb fuel line r Hf) as [(fs & more & body' & E & P1 & P2 & P3 & P4)|(P1 & _)]; [|rewrite P1 in Hk; cbn in Hk; lia].
  change (open_stream (lines body ++ r)) with (open_stream (lines body ++ r)) in E. rewrite E. rewrite IHk by (first [assumption|lia|rewrite P4 in Hk; cbn in Hk; lia]).
  rewrite P4. cbn [firstn List.map]. do 3 f_equal. destruct P3 as (L1 & L2 & L3 & L4 & L5).
  rewrite <- L1. assert (Q := read_cells_row fs more L2 ltac:(intros ->; cbn in L1; lia) L4 [] ltac:(constructor)). cbn [app] in Q. rewrite List.map_map. exact Q.
Qed.
(** not enough of them: the loop goes on for ever after the end of the text *)
Lemma load_rows_short k : forall body line t fuel, Forall (body_ok lex n) body -> (length (rows_of body) < k)%nat -> ~ In nl t -> ~ In ","%char t ->
  load_rows lex fuel k n line (open_stream (lines body ++ t)) = None.
Proof.
  induction k; intros body line t fuel Hb Hk Hn Hc; [lia|]. cbn [load_rows good open_stream eofbit failbit negb andb].
  destruct (find_row fuel line (open_stream (lines body ++ t))) as [[l s']|] eqn:E; [|reflexivity].
  apply find_row_mono with (extra := length body) in E as E'.
  assert (Hc' : has_comma t = false) by (destruct (has_comma t) eqn:X; [|reflexivity]; apply has_comma_spec in X; contradiction).
  destruct (find_row_next body Hb (fuel + length body) line t ltac:(lia)) as [(fs & more & body' & F & P1 & P2 & P3 & P4)|(P1 & line' & P2)].
  - rewrite F in E'. injection E' as <- <-. rewrite IHk by (first [assumption|lia|rewrite P4 in Hk; cbn in Hk; lia]). reflexivity.
  - exfalso. rewrite Nat.add_comm, P2, find_row_end in E' by assumption. discriminate.
Qed.
(** the text ends within the last row: the stream is bad for the next one *)
Lemma load_rows_cut k fs more : body_ok lex n (Row fs more) -> forall body line fuel, Forall (body_ok lex n) body -> (S (length (rows_of body)) < k)%nat -> (length body < fuel)%nat ->
  load_rows lex fuel k n line (open_stream (lines body ++ row_text fs more)) = Some Abort.
Proof.
  intros Hr. induction k; intros body line fuel Hb Hk Hf; [lia|]. cbn [load_rows good open_stream eofbit failbit negb andb].
  destruct (find_row_next body Hb fuel line (row_text fs more) ltac:(lia)) as [(fs' & more' & body' & F & P1 & P2 & P3 & P4)|(P1 & line' & P2)].
  - rewrite F. rewrite IHk by (first [assumption|lia|rewrite P4 in Hk; cbn in Hk; lia]). reflexivity.
  - assert (F : find_row fuel line (open_stream (lines body ++ row_text fs more)) = Some (row_text fs more, {| rest := []; eofbit := true; failbit := false |})).
    { replace fuel with (length body + S (fuel - length body - 1))%nat by lia. rewrite P2. cbn [find_row]. unfold next_line. cbn [good open_stream eofbit failbit negb andb rest]. unfold getline.
      assert (Hn := body_no_nl _ Hr). cbn [body_text] in Hn. destruct Hr as (_ & _ & _ & _ & Hc). apply has_comma_spec in Hc as Hc'.
      assert (E : forall t, ~ In nl t -> split_line t = (t, None)). { induction t as [|c t IH]; intros H; [reflexivity|]. cbn [split_line]. destruct (aeqb_spec c nl) as [->|_]; [exfalso; apply H; left; reflexivity|]. rewrite IH; [reflexivity|]. intros I. apply H. right. assumption. }
      rewrite (E _ Hn), Hc'. destruct (row_text fs more); [contradiction|reflexivity]. }
    rewrite F. destruct k as [|k]; [rewrite P1 in Hk; cbn in Hk; lia|]. reflexivity.
Qed.
End Rows.

(** Properties C83 (typed vector options) and C84 (ASTM files). *)
From Coq Require Import Reals List Lra Permutation.
From Verif Require Import Base Num ParamsModel ArgsModel ArgsSpec ArgsProofs DataModel TextModel AstmModel AstmSpec AstmProofs AstmProofs2.
Open Scope R_scope.

(** ** C83 *)
(** "[a, b, c]" gives the words a, b, c, whatever white space is around them. *)
Theorem C83_words : forall (a : arguments) k es names, map_find k a = Some (lit "[" ++ join comma es ++ lit "]") ->
  es <> [] -> Forall short es -> Forall2 padded es names -> get_vec_of conv_str a k = names.
Proof.
  intros a k es names H Hne Hs Hp. rewrite (get_vec_of_elements conv_str a k es H Hne Hs). clear - Hp. induction Hp as [|e n es ns E Hp IH]; [reflexivity|]. cbn [List.map]. rewrite (conv_str_padded _ _ E), IH. reflexivity.
Qed.
Print Assumptions C83_words.
(** The same for integers. *)
Theorem C83_integers : forall (a : arguments) k es zs, map_find k a = Some (lit "[" ++ join comma es ++ lit "]") ->
  es <> [] -> Forall short es -> Forall2 (fun e z => exists w w', e = w ++ print_Z z ++ w' /\ blank w /\ blank w') es zs ->
  get_vec_of conv_int a k = List.map Some zs.
Proof.
  intros a k es zs H Hne Hs Hp. rewrite (get_vec_of_elements conv_int a k es H Hne Hs). clear - Hp. induction Hp as [|e z es zs E Hp IH]; [reflexivity|].
  destruct E as (w & w' & -> & Hw & Hw'). cbn [List.map]. rewrite conv_int_printed, IH by assumption. reflexivity.
Qed.
Print Assumptions C83_integers.
(** An option that is missing, or not written between brackets, gives no element. *)
Theorem C83_no_list : forall T (conv : str -> T) (a : arguments) k,
  (forall t, map_find k a <> Some (lit "[" ++ t ++ lit "]")) -> map_find k a <> Some (lit "[") -> map_find k a <> Some (lit "]") -> get_vec_of conv a k = [].
Proof.
  intros T conv a k H H1 H2. unfold get_vec_of. destruct (map_find k a) as [s|]; [|reflexivity].
  destruct (first_is "[" s && last_is "]" s) eqn:E; [|reflexivity]. exfalso. apply andb_prop in E. destruct E as [F L].
  destruct s as [|c s]; [discriminate|]. cbn in F. destruct (aeqb_spec c "["%char) as [->|]; [|discriminate].
  destruct s as [|d s]; [apply H1; reflexivity|].
  destruct (@exists_last _ (d :: s)) as (u & e & Eu); [discriminate|]. rewrite Eu in *. unfold last_is in L. change ("["%char :: u ++ [e]) with (("["%char :: u) ++ [e]) in L. rewrite rev_app_distr in L. cbn in L. destruct (aeqb_spec e "]"%char) as [Ee|]; [|discriminate]. apply (H u). rewrite Ee. reflexivity.
Qed.
Print Assumptions C83_no_list.
(** What follows an empty element is dropped - the empty list "[]" and a comma at
    the end included -, and the empty element itself counts: as an uninitialised
    integer, or the empty word. *)
Theorem C83_empty_element_refuted : forall T (conv : str -> T) (a : arguments) k es more, Forall short es ->
  more = [] \/ (exists r, more = ","%char :: r) ->
  map_find k a = Some (lit "[" ++ (concat (List.map (fun e => e ++ comma) es) ++ more) ++ lit "]") ->
  get_vec_of conv a k = List.map conv es ++ [conv []] /\ conv_int [] = None /\ conv_str [] = [].
Proof.
  intros T conv a k es more Hs Hm H. split; [|split; reflexivity]. unfold get_vec_of. rewrite H, bracket_first, bracket_last. cbn [andb]. rewrite bracket_inner.
  rewrite chunks_empty; [|assumption| |assumption].
  - rewrite List.map_app. cbn [List.map]. f_equal. apply List.map_ext_in. intros e Ie. rewrite Forall_forall in Hs. destruct (Hs e Ie) as (_ & _ & _ & A4). rewrite c_str_id by assumption. reflexivity.
  - rewrite app_length. clear. induction es as [|e es IH]; cbn [List.map concat length]; [lia|]. rewrite !app_length. cbn [comma length]. lia.
Qed.
Print Assumptions C83_empty_element_refuted.
(** An element of more than 255 bytes is cut in two, and its 256th byte is lost. *)
Theorem C83_long_element_refuted : forall T (conv : str -> T) (a : arguments) k b c e, length b = 255%nat -> ~ In ","%char b -> ~ In nul b -> short e ->
  map_find k a = Some (lit "[" ++ (b ++ c :: e) ++ lit "]") -> get_vec_of conv a k = [conv b; conv e].
Proof.
  intros T conv a k b c e Hb Hc Hn (E1 & E2 & E3 & E4) H. unfold get_vec_of. rewrite H, bracket_first, bracket_last. cbn [andb]. rewrite bracket_inner.
  assert (L : length (b ++ c :: e) = S (255 + length e)) by (rewrite app_length, Hb; cbn; lia). rewrite L. cbn [chunks]. rewrite (long_chunk 255 b (c :: e) Hb Hc).
  destruct b as [|x b']; [discriminate|]. rewrite <- (app_nil_r e) at 1.
  rewrite (take_chunk_all 255 e []) by (try assumption; constructor). cbn [List.map]. rewrite (c_str_id (x :: b')) by assumption. rewrite c_str_id by assumption. reflexivity.
Qed.
Print Assumptions C83_long_element_refuted.

(** ** C84 *)
(** The text of a file: header lines, VARS and the names of the variables, the body. *)
(** With at least NUM_POINTS rows, the loader gives the parametrization the names
    announce and the first NUM_POINTS rows, in order; lines without a comma, what
    follows the numbers of a row, further rows and whatever ends the file have no
    effect. *)
Theorem C84_load : forall lex ls es names w w' size body tail,
  Forall header_line_ok ls -> Forall short es -> Forall2 padded es names -> es <> [] -> ends_word (join comma es) -> ~ In nl (join comma es) ->
  last_value (lit "NUM_POINTS") ls = Some (w ++ print_Z (Z.of_nat size) ++ w') -> blank w -> blank w' ->
  Forall (body_ok lex (length names)) body -> (size <= length (rows_of body))%nat ->
  exists p, announces names p /\
    forall fuel, (length body <= fuel)%nat ->
      load_astm lex fuel (concat (List.map header_text ls) ++ lit "VARS" ++ join comma es ++ nl :: concat (List.map (fun l => body_text l ++ [nl]) body) ++ tail)
        = Some (Ok (p, List.map (List.map Some) (firstn size (rows_of body)))).
Proof.
  intros lex ls es names w w' size body tail H1 H2 H3 H4 H5 H6 H7 H8 H9 H10 H11.
  assert (Hn : (0 < length names)%nat) by (destruct H3; [congruence|cbn; lia]).
  destruct (load_start lex ls es names w w' (Z.of_nat size) H1 H2 H3 H4 H5 H6 H8 H9 H7 0%nat (concat (List.map (fun l => body_text l ++ [nl]) body) ++ tail)) as (p & P & _).
  exists p. split; [assumption|]. intros fuel Hf.
  destruct (load_start lex ls es names w w' (Z.of_nat size) H1 H2 H3 H4 H5 H6 H8 H9 H7 fuel (concat (List.map (fun l => body_text l ++ [nl]) body) ++ tail)) as (q & Q & E).
  rewrite (announced_unique _ _ _ P Q). unfold file_text in E. rewrite E. destruct (Z.ltb_spec (Z.of_nat size) 0); [lia|]. rewrite Nat2Z.id.
  rewrite (load_rows_ok lex (length names) Hn size body [] tail fuel H10 H11 Hf). reflexivity.
Qed.
Print Assumptions C84_load.
(** What is announced is determined by the names, and does not depend on the
    order of the angles. *)
Theorem C84_parametrization : forall vars p q, announces vars p -> announces vars q ->
  p = q /\ (dimX p + dimY p)%nat = length vars.
Proof. intros vars p q P Q. split; [exact (announced_unique _ _ _ P Q)|exact (announced_size _ _ P)]. Qed.
Print Assumptions C84_parametrization.
Theorem C84_order_refuted : forall vs vs' v p, Permutation vs vs' -> announces (vs ++ [v]) p -> announces (vs' ++ [v]) p.
Proof.
  intros vs vs' v p Hp (a & o & A1 & A2 & A3 & A4 & A5 & A6 & us & u & A7 & A8). exists a, o. split; [assumption|]. split; [assumption|].
  split; [intros x; rewrite <- A3; apply Permutation_count_occ; apply Permutation_app_tail; apply Permutation_sym; assumption|].
  split; [assumption|]. split; [assumption|]. split; [assumption|].
  apply app_inj_tail in A7. destruct A7 as [<- <-]. exists vs', v. split; [reflexivity|assumption].
Qed.
Print Assumptions C84_order_refuted.
(** With fewer rows than announced the loader never returns when the file ends
    after a line feed or with a line that has no comma... *)
Theorem C84_short_file_refuted : forall lex ls es names w w' size body tail,
  Forall header_line_ok ls -> Forall short es -> Forall2 padded es names -> es <> [] -> ends_word (join comma es) -> ~ In nl (join comma es) ->
  last_value (lit "NUM_POINTS") ls = Some (w ++ print_Z (Z.of_nat size) ++ w') -> blank w -> blank w' ->
  Forall (body_ok lex (length names)) body -> (length (rows_of body) < size)%nat -> ~ In nl tail -> ~ In ","%char tail ->
  forall fuel,
    load_astm lex fuel (concat (List.map header_text ls) ++ lit "VARS" ++ join comma es ++ nl :: concat (List.map (fun l => body_text l ++ [nl]) body) ++ tail) = None.
Proof.
  intros lex ls es names w w' size body tail H1 H2 H3 H4 H5 H6 H7 H8 H9 H10 H11 H12 H13 fuel.
  destruct (load_start lex ls es names w w' (Z.of_nat size) H1 H2 H3 H4 H5 H6 H8 H9 H7 fuel (concat (List.map (fun l => body_text l ++ [nl]) body) ++ tail)) as (q & Q & E).
  unfold file_text in E. rewrite E. destruct (Z.ltb_spec (Z.of_nat size) 0); [lia|]. rewrite Nat2Z.id.
  rewrite (load_rows_short lex (length names) size body [] tail fuel H10 H11 H12 H13). reflexivity.
Qed.
Print Assumptions C84_short_file_refuted.
(** ... and stops the program when it ends within a row and a further one is
    missing. *)
Theorem C84_cut_file_refuted : forall lex ls es names w w' size body fs more,
  Forall header_line_ok ls -> Forall short es -> Forall2 padded es names -> es <> [] -> ends_word (join comma es) -> ~ In nl (join comma es) ->
  last_value (lit "NUM_POINTS") ls = Some (w ++ print_Z (Z.of_nat size) ++ w') -> blank w -> blank w' ->
  Forall (body_ok lex (length names)) body -> body_ok lex (length names) (Row fs more) -> (S (length (rows_of body)) < size)%nat ->
  forall fuel, (length body < fuel)%nat ->
    load_astm lex fuel (concat (List.map header_text ls) ++ lit "VARS" ++ join comma es ++ nl :: concat (List.map (fun l => body_text l ++ [nl]) body) ++ row_text fs more) = Some Abort.
Proof.
  intros lex ls es names w w' size body fs more H1 H2 H3 H4 H5 H6 H7 H8 H9 H10 H11 H12 fuel Hf.
  destruct (load_start lex ls es names w w' (Z.of_nat size) H1 H2 H3 H4 H5 H6 H8 H9 H7 fuel (concat (List.map (fun l => body_text l ++ [nl]) body) ++ row_text fs more)) as (q & Q & E).
  unfold file_text in E. rewrite E. destruct (Z.ltb_spec (Z.of_nat size) 0); [lia|]. rewrite Nat2Z.id.
  rewrite (load_rows_cut lex (length names) size fs more H11 body [] fuel H10 H12 Hf). reflexivity.
Qed.
Print Assumptions C84_cut_file_refuted.
(** A negative number of points is an exception. *)
Theorem C84_negative_size : forall lex ls es names w w' size body,
  Forall header_line_ok ls -> Forall short es -> Forall2 padded es names -> es <> [] -> ends_word (join comma es) -> ~ In nl (join comma es) ->
  last_value (lit "NUM_POINTS") ls = Some (w ++ print_Z size ++ w') -> blank w -> blank w' -> (size < 0)%Z ->
  forall fuel, load_astm lex fuel (concat (List.map header_text ls) ++ lit "VARS" ++ join comma es ++ nl :: body) = Some Throw.
Proof.
  intros lex ls es names w w' size body H1 H2 H3 H4 H5 H6 H7 H8 H9 H10 fuel.
  destruct (load_start lex ls es names w w' size H1 H2 H3 H4 H5 H6 H8 H9 H7 fuel body) as (q & Q & E).
  unfold file_text in E. rewrite E. destruct (Z.ltb_spec size 0); [reflexivity|lia].
Qed.
Print Assumptions C84_negative_size.

(** ** Concrete cases *)
(** a lexer for unsigned integers *)
Definition digits_lex (s : str) : option (R * str) :=
  match scan_uint s with (Decimal.Nil, _) => None | (d, r) => Some (IZR (Z.of_N (N.of_uint d)), r) end.
Lemma digits_number m : number digits_lex (print_N m) (IZR (Z.of_N m)).
Proof.
  destruct (print_N_head m) as (c & t & E & D).
  assert (F := print_N_digits m). rewrite Forall_forall in F.
  split; [exists c, t; split; [assumption|apply digit_not_space; assumption]|].
  split; [intros I; specialize (F _ I); discriminate|]. split; [intros I; specialize (F _ I); discriminate|].
  intros r Hr. unfold digits_lex, print_N. rewrite scan_uint_print.
  - destruct (N.to_uint m) eqn:G; [destruct (N_to_uint_nonnil m G)|..]; rewrite <- G, DecimalN.Unsigned.of_to; reflexivity.
  - destruct r as [|x r]; [constructor|]. cbn in *. destruct (is_digit x) eqn:X; [|reflexivity]. apply digit_not_space in X. congruence.
Qed.
Example C83_case : let a := [(lit "v", lit "[theta_i, phi_i ,B]")] in
  get_vec_of conv_str a (lit "v") = List.map lit ["theta_i"; "phi_i"; "B"]%string /\
  get_vec_of conv_int [(lit "v", lit "[1, -2,x,]")] (lit "v") = [Some 1; Some (-2); Some 0; None]%Z /\
  get_vec_of conv_int [(lit "v", lit "[]")] (lit "v") = [None] /\
  get_vec_of conv_str [(lit "v", lit "[a,,b]")] (lit "v") = List.map lit ["a"; ""]%string.
Proof. repeat split. Qed.
(** A file of three rows, two of them asked for. *)
Definition field (n : N) : str * (str * R) := (lit " ", (print_N n, IZR (Z.of_N n))).
Definition case_header : list (str * str) := [(lit "NUM_POINTS", lit " 2")].
Definition case_vars : list str := [lit " theta_i"; lit "R"].
Definition case_body : list body_line := [Other (lit "# text"); Row [field 1; field 25] []; Row [field 3; field 4] (lit ", 7"); Row [field 5; field 6] []].
Definition case_file (size : string) : str :=
  lit "NUM_POINTS " ++ lit size ++ [nl] ++ lit "VARS theta_i,R" ++ [nl] ++ lit "# text" ++ [nl] ++ lit " 1, 25" ++ [nl] ++ lit " 3, 4, 7" ++ [nl] ++ lit " 5, 6" ++ [nl].
Lemma field_ok n : blank (fst (field n)) /\ ~ In nl (fst (field n)) /\ number digits_lex (fst (snd (field n))) (snd (snd (field n))).
Proof. split; [repeat constructor|]. split; [intros [H|[]]; discriminate|apply digits_number]. Qed.
Lemma case_body_ok : Forall (body_ok digits_lex 2) case_body.
Proof.
  assert (I : forall a b m, In ","%char (row_text [field a; field b] m)). { intros a b m. unfold row_text. cbn [List.map join]. apply in_or_app. left. apply in_or_app. right. left. reflexivity. }
  assert (N : forall c l, forallb (fun x => negb (aeqb x c)) l = true -> ~ In c l). { intros c l H J. rewrite forallb_forall in H. specialize (H _ J). rewrite aeqb_refl in H. discriminate. }
  assert (R1 : forall a b m, ~ In nl m -> match m with [] => True | c :: _ => c = ","%char \/ is_space c = true end -> body_ok digits_lex 2 (Row [field a; field b] m)).
  { intros a b m H1 H2. split; [reflexivity|]. split; [constructor; [apply field_ok|constructor; [apply field_ok|constructor]]|]. split; [assumption|]. split; [assumption|apply I]. }
  constructor; [split; apply N; reflexivity|]. constructor; [apply R1; [intros []|constructor]|]. constructor; [apply R1; [apply N; reflexivity|left; reflexivity]|]. constructor; [apply R1; [intros []|constructor]|constructor].
Qed.
Example C84_case : exists p, announces [lit "theta_i"; lit "R"] p /\
  (forall fuel, (4 <= fuel)%nat -> load_astm digits_lex fuel (case_file "2") = Some (Ok (p, [[Some 1; Some 25]; [Some 3; Some 4]]))) /\
  (forall fuel, load_astm digits_lex fuel (case_file "4") = None) /\
  (forall fuel, load_astm digits_lex fuel (case_file "-1") = Some Throw).
Proof.
  assert (Hh : forall v, ends_word v -> ~ In nl v -> Forall header_line_ok [(lit "NUM_POINTS", v)]).
  { intros v H1 H2. repeat constructor; try assumption; try discriminate. }
  assert (Hsh : Forall short case_vars). { repeat constructor; try discriminate; cbn; try lia; intros H; repeat destruct H as [H|H]; try discriminate; contradiction. }
  assert (Hp : Forall2 padded case_vars [lit "theta_i"; lit "R"]).
  { repeat constructor; [exists (lit " "), []|exists [], []]; (split; [reflexivity|]); (split; [repeat constructor|]); (split; [constructor|]); (split; [discriminate|repeat constructor; discriminate]). }
  assert (Hn : forall l, forallb (fun c => negb (aeqb c nl)) l = true -> ~ In nl l). { intros l H I. rewrite forallb_forall in H. specialize (H _ I). rewrite aeqb_refl in H. discriminate. }
  assert (Hl : forall v, last_value (lit "NUM_POINTS") [(lit "NUM_POINTS", v)] = Some v). { intros v. cbn [last_value fst snd]. destruct (str_eq_dec _ _); [reflexivity|congruence]. }
  destruct (C84_load digits_lex case_header case_vars [lit "theta_i"; lit "R"] (lit " ") [] 2 case_body []) as (p & P & L);
    [apply Hh; [reflexivity|apply Hn; reflexivity]|exact Hsh|exact Hp|discriminate|reflexivity|apply Hn; reflexivity|apply Hl|repeat constructor|constructor|exact case_body_ok|cbn; lia|].
  exists p. split; [assumption|]. split; [|split].
  - intros fuel Hf. exact (L fuel Hf).
  - intros fuel. exact (C84_short_file_refuted digits_lex [(lit "NUM_POINTS", lit " 4")] case_vars [lit "theta_i"; lit "R"] (lit " ") [] 4 case_body []
      ltac:(apply Hh; [reflexivity|apply Hn; reflexivity]) Hsh Hp ltac:(discriminate) eq_refl ltac:(apply Hn; reflexivity) (Hl _) ltac:(repeat constructor) ltac:(constructor) case_body_ok ltac:(cbn; lia) ltac:(intros []) ltac:(intros []) fuel).
  - intros fuel. exact (C84_negative_size digits_lex [(lit "NUM_POINTS", lit " -1")] case_vars [lit "theta_i"; lit "R"] (lit " ") [] (-1) (lit "# text" ++ [nl] ++ lit " 1, 25" ++ [nl] ++ lit " 3, 4, 7" ++ [nl] ++ lit " 5, 6" ++ [nl])
      ltac:(apply Hh; [reflexivity|apply Hn; reflexivity]) Hsh Hp ltac:(discriminate) eq_refl ltac:(apply Hn; reflexivity) (Hl _) ltac:(repeat constructor) ltac:(constructor) ltac:(lia) fuel).
Qed.
(** Without VARS the last of no names is read, without NUM_POINTS the program stops. *)
Example C84_missing_keys : forall lex fuel,
  load_astm lex fuel (lit "NUM_POINTS 1" ++ [nl]) = Some UB /\
  load_astm lex fuel (lit "VARS theta_i,R" ++ [nl]) = Some Abort.
Proof. split; reflexivity. Qed.

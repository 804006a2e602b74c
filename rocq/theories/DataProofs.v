(** Binary files: codec, header and round trip. *)
From Coq Require Import NArith Lia.
From Verif Require Import Base Num ParamsModel GeoSpec ParamsProofs ArgsModel ArgsSpec ArgsProofs Double DataModel DataSpec.

(** ** Byte codec *)
Lemma le_bytes_length n : forall w, length (le_bytes n w) = n.
Proof. induction n as [|n IH]; intros w; simpl; auto. Qed.

Lemma ascii_N_mod w : N_of_ascii (ascii_of_N (w mod 256)) = (w mod 256)%N.
Proof. apply N_ascii_embedding. apply N.mod_lt. discriminate. Qed.

Lemma le_word_bytes n : forall w, (w < 256 ^ N.of_nat n)%N -> le_word (le_bytes n w) = w.
Proof.
  induction n as [|n IH]; intros w H; cbn [le_bytes le_word].
  - simpl in H. lia.
  - rewrite ascii_N_mod, IH.
    + rewrite N.add_comm. symmetry. apply N.div_mod. discriminate.
    + apply N.div_lt_upper_bound; [discriminate|].
      rewrite Nat2N.inj_succ, N.pow_succ_r in H; lia.
Qed.

Lemma le_bytes_word s : le_bytes (length s) (le_word s) = s.
Proof.
  induction s as [|c s IH]; cbn [length le_bytes le_word]; [reflexivity|].
  assert (Hc : (N_of_ascii c < 256)%N) by apply N_ascii_bounded.
  replace ((N_of_ascii c + 256 * le_word s) mod 256)%N with (N_of_ascii c).
  2: { rewrite N.mul_comm, N.mod_add by discriminate. symmetry; apply N.mod_small; assumption. }
  replace ((N_of_ascii c + 256 * le_word s) / 256)%N with (le_word s).
  2: { rewrite N.mul_comm, N.div_add by discriminate. rewrite N.div_small by assumption. reflexivity. }
  rewrite IH, ascii_N_embedding. reflexivity.
Qed.

Lemma doubles_bytes_length l : length (doubles_bytes l) = (8 * length l)%nat.
Proof.
  unfold doubles_bytes. induction l as [|w l IH]; cbn [map concat length]; [reflexivity|].
  rewrite app_length, IH, le_bytes_length. lia.
Qed.

Lemma doubles_bytes_app a b : doubles_bytes (a ++ b) = doubles_bytes a ++ doubles_bytes b.
Proof. unfold doubles_bytes. rewrite map_app, concat_app. reflexivity. Qed.

Lemma bytes_doubles_app l r : Forall is_double l -> bytes_doubles (length l) (doubles_bytes l ++ r) = l.
Proof.
  unfold doubles_bytes. induction 1 as [|w l Hw Hl IH]; cbn [map concat length bytes_doubles]; [reflexivity|].
  rewrite <- app_assoc.
  rewrite firstn_app, skipn_app, le_bytes_length, Nat.sub_diag.
  rewrite (firstn_all2 (le_bytes 8 w)) by (rewrite le_bytes_length; lia).
  rewrite (skipn_all2 (le_bytes 8 w)) by (rewrite le_bytes_length; lia).
  cbn [firstn skipn app]. rewrite app_nil_r, IH.
  rewrite le_word_bytes; [reflexivity|]. unfold is_double in Hw. exact Hw.
Qed.

Lemma bytes_doubles_bytes n : forall s, (8 * n <= length s)%nat -> doubles_bytes (bytes_doubles n s) = firstn (8 * n) s.
Proof.
  induction n as [|n IH]; intros s H; [reflexivity|].
  cbn [bytes_doubles]. unfold doubles_bytes; cbn [map concat]. fold (doubles_bytes (bytes_doubles n (skipn 8 s))).
  rewrite IH by (rewrite skipn_length; lia).
  replace (le_bytes 8 (le_word (firstn 8 s))) with (firstn 8 s).
  2: { rewrite <- (le_bytes_word (firstn 8 s)) at 1. f_equal. rewrite firstn_length. lia. }
  replace (8 * S n)%nat with (8 + 8 * n)%nat by lia.
  generalize (8 * n)%nat as k; intros k.
  do 8 (destruct s as [|? s]; [simpl in H; lia|]). reflexivity.
Qed.

Lemma bytes_doubles_length n : forall s, length (bytes_doubles n s) = n.
Proof. induction n; intros s; simpl; auto. Qed.

(** ** Payload *)
Lemma firstn_plus {A} a b (l : list A) : firstn (a + b) l = firstn a l ++ firstn b (skipn a l).
Proof.
  revert l; induction a as [|a IH]; intros l; [reflexivity|].
  destruct l as [|x l]; [rewrite !firstn_nil; reflexivity|]. cbn [firstn skipn Nat.add app]. rewrite IH. reflexivity.
Qed.

Lemma skipn_plus {A} a b (l : list A) : skipn a (skipn b l) = skipn (b + a) l.
Proof.
  revert l; induction b as [|b IH]; intros l; [reflexivity|].
  destruct l as [|x l]; [rewrite !skipn_nil; reflexivity|]. cbn [skipn Nat.add]. apply IH.
Qed.


Lemma get_all_spec d : vs_kind d = NO_CI -> forall n i, (i + n <= vs_size d)%nat ->
  get_all d n i = Ok (doubles_bytes (firstn (n * column_number d) (skipn (i * column_number d) (vs_buf d)))).
Proof.
  intros Hk. assert (Hc : column_number d = (dimX (vs_par d) + dimY (vs_par d))%nat).
  { unfold column_number, columns_of. rewrite Hk. cbn [ci_columns]. lia. }
  induction n as [|n IH]; intros i Hi; [reflexivity|].
  cbn [get_all]. unfold vs_get. destruct (Nat.ltb_spec i (vs_size d)) as [_|]; [|lia]. cbn [bind].
  rewrite IH by lia. cbn [bind]. f_equal. rewrite <- Hc.
  rewrite <- doubles_bytes_app. f_equal.
  replace (S n * column_number d)%nat with (column_number d + n * column_number d)%nat by lia.
  rewrite firstn_plus, skipn_plus. do 3 f_equal. lia.
Qed.

Lemma payload_spec d : wf_vseg d -> binary_payload d = Ok (doubles_bytes (vs_buf d)).
Proof.
  intros [Hl _]. assert (E : firstn (vs_size d * column_number d) (vs_buf d) = vs_buf d).
  { apply firstn_all2. lia. }
  unfold binary_payload. destruct (vs_kind d) eqn:Hk.
  - rewrite get_all_spec by (auto; lia). cbn [skipn Nat.mul]. rewrite E. reflexivity.
  - rewrite E; reflexivity.
  - rewrite E; reflexivity.
Qed.

(** ** Header *)
Definition header_lines (p : parameters) (size : nat) (k : ci_kind) : list str :=
  [ lit "DIM " ++ print_nat (dimX p) ++ lit " " ++ print_nat (dimY p);
    lit "PARAM_IN  " ++ get_name_in (in_param p);
    lit "PARAM_OUT " ++ get_name_out (out_param p);
    lit "FORMAT binary"; lit "VERSION 0"; lit "PRECISION ieee754-double";
    lit "SAMPLE_COUNT " ++ print_nat size;
    lit "VS " ++ print_nat (number_from_ci_kind k);
    lit "ENDIAN little"; lit "BEGIN_STREAM" ].

Lemma binary_header_lines p size k : binary_header p size k = concat (map hline (header_lines p size k)).
Proof.
  unfold binary_header, header_lines, endl, hline, lit. cbn [map concat list_ascii_of_string app].
  repeat (rewrite <- app_assoc; cbn [app]). reflexivity.
Qed.

Lemma digits_value n : Forall (fun c => c <> nl /\ c <> cr) (print_nat n) /\
  match print_nat n with [] => True | c :: _ => is_space c = false end.
Proof.
  pose proof (print_N_digits (N.of_nat n)) as H. fold (print_nat n) in H. split.
  - eapply Forall_impl; [|exact H]. intros c Hc. split; intros ->; discriminate.
  - destruct (print_nat n) as [|c t]; [exact I|]. apply digit_not_space. inversion H; assumption.
Qed.

Lemma header_effects p size k :
  map header_line (header_lines p size k) =
  [ LSet (lit "DIM") (print_nat (dimX p) ++ lit " " ++ print_nat (dimY p));
    LSet (lit "PARAM_IN") (get_name_in (in_param p));
    LSet (lit "PARAM_OUT") (get_name_out (out_param p));
    LSet (lit "FORMAT") (lit "binary"); LSet (lit "VERSION") (lit "0");
    LSet (lit "PRECISION") (lit "ieee754-double");
    LSet (lit "SAMPLE_COUNT") (print_nat size);
    LSet (lit "VS") (print_nat (number_from_ci_kind k));
    LSet (lit "ENDIAN") (lit "little"); LSet (lit "BEGIN_STREAM") [] ].
Proof.
  unfold header_lines. cbn [map]. 
  destruct (digits_value (dimX p)) as [Ha Ha']. destruct (digits_value (dimY p)) as [Hb Hb'].
  destruct (digits_value size) as [Hs Hs'].
  repeat (apply (f_equal2 cons); [|]); try reflexivity.
  - apply (header_line_key (lit "DIM")).
    + repeat split; try discriminate. repeat constructor.
    + split.
      * apply Forall_app; split; [assumption|]. constructor; [split; discriminate|assumption].
      * destruct (print_nat (dimX p)) as [|c t] eqn:E; [|exact Ha'].
        exfalso. destruct (print_N_head (N.of_nat (dimX p))) as (c & t & E' & _). unfold print_nat in E. congruence.
  - destruct (in_param p); vm_compute; reflexivity.
  - destruct (out_param p); vm_compute; reflexivity.
  - apply (header_line_key (lit "SAMPLE_COUNT")).
    + repeat split; try discriminate. repeat constructor.
    + split; assumption.
  - destruct k; vm_compute; reflexivity.
Qed.

Definition header_map (p : parameters) (size : nat) (k : ci_kind) : arguments :=
  [ (lit "BEGIN_STREAM", []);
    (lit "DIM", print_nat (dimX p) ++ lit " " ++ print_nat (dimY p));
    (lit "ENDIAN", lit "little"); (lit "FORMAT", lit "binary");
    (lit "PARAM_IN", get_name_in (in_param p)); (lit "PARAM_OUT", get_name_out (out_param p));
    (lit "PRECISION", lit "ieee754-double"); (lit "SAMPLE_COUNT", print_nat size);
    (lit "VERSION", lit "0"); (lit "VS", print_nat (number_from_ci_kind k)) ].

Lemma fold_effect ls : forall m, fold_left apply_effect ls m =
  fold_left (fun m e => match e with LSet k v => map_update k v m | _ => m end) (map header_line ls) m.
Proof. induction ls as [|l ls IH]; intros m; simpl; auto. Qed.

Lemma header_fold p size k : fold_left apply_effect (header_lines p size k) [] = header_map p size k.
Proof.
  rewrite fold_effect, header_effects. unfold header_map.
  generalize (print_nat (dimX p) ++ lit " " ++ print_nat (dimY p)) (get_name_in (in_param p))
    (get_name_out (out_param p)) (print_nat size) (print_nat (number_from_ci_kind k)).
  intros a b c d e. vm_compute. reflexivity.
Qed.

Lemma no_nl_name_in p : ~ In nl (get_name_in p).
Proof. destruct p; vm_compute; intros H; repeat (destruct H as [H|H]; [discriminate|]); destruct H. Qed.
Lemma no_nl_name_out p : ~ In nl (get_name_out p).
Proof. destruct p; vm_compute; intros H; repeat (destruct H as [H|H]; [discriminate|]); destruct H. Qed.
Lemma no_nl_nat n : ~ In nl (print_nat n).
Proof.
  intros H. destruct (digits_value n) as [Hf _]. rewrite Forall_forall in Hf. destruct (Hf _ H) as [Hn _]. congruence.
Qed.
Lemma no_nl_app a b : ~ In nl a -> ~ In nl b -> ~ In nl (a ++ b).
Proof. rewrite in_app_iff. tauto. Qed.

Ltac no_nl_lit := let H := fresh in vm_compute; intros H; repeat (destruct H as [H|H]; [discriminate|]); destruct H.

Lemma header_lines_ok p size k : Forall (fun l => ~ In nl l /\ header_line l <> LStop) (header_lines p size k).
Proof.
  assert (E : Forall (fun e => e <> LStop) (map header_line (header_lines p size k))).
  { rewrite header_effects. repeat constructor; discriminate. }
  assert (F : Forall (fun l => ~ In nl l) (header_lines p size k)).
  { unfold header_lines. repeat constructor; 
      repeat (apply no_nl_app; [|]); try apply no_nl_nat; try apply no_nl_name_in; try apply no_nl_name_out;
      no_nl_lit. }
  rewrite Forall_map in E. rewrite Forall_forall in *. split; auto.
Qed.

Lemma parse_binary_header p size k r : ~ begins "#" r ->
  parse_header (binary_header p size k ++ r) =
  (header_map p size k,
   {| rest := r; eofbit := match r with [] => true | _ => false end; failbit := false |}).
Proof.
  intros Hr. rewrite binary_header_lines, parse_header_spec by (auto using header_lines_ok).
  rewrite header_fold. reflexivity.
Qed.

(** ** Decoding the header values *)
Lemma atoi_nat n : atoi (print_nat n) = Z.of_nat n.
Proof.
  unfold print_nat. rewrite <- (app_nil_r (print_N _)).
  replace (print_N (N.of_nat n)) with (print_Z (Z.of_nat n)).
  2: { unfold print_Z. destruct (Z.of_nat n) eqn:E; try lia.
       - destruct n; [reflexivity|lia].
       - f_equal. lia. }
  apply atoi_print_Z. exact I.
Qed.

Lemma c_str_digits n : c_str (print_nat n) = print_nat n.
Proof.
  pose proof (print_N_digits (N.of_nat n)) as H. fold (print_nat n) in H.
  induction H as [|c l Hc Hl IH]; [reflexivity|]. cbn [c_str].
  destruct (aeqb_spec c nul) as [->|]; [discriminate|]. rewrite IH. reflexivity.
Qed.

Lemma get_pair_dim a b (m : arguments) : map_find (lit "DIM") m = Some (print_nat a ++ lit " " ++ print_nat b) ->
  get_pair_int m (lit "DIM") = Some (Z.of_nat a, Z.of_nat b).
Proof.
  intros H. unfold get_pair_int. rewrite H. unfold print_nat.
  rewrite scan_int_print_N by reflexivity. cbn [lit list_ascii_of_string].
  cbn [app]. 
  replace (" "%char :: print_N (N.of_nat b)) with ([" "%char] ++ print_N (N.of_nat b) ++ []) by (rewrite app_nil_r; reflexivity).
  rewrite scan_int_ws.
  - f_equal. f_equal; lia.
  - repeat constructor.
  - exact I.
Qed.

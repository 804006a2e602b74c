(** Properties C10-C15: command lines, options and file headers (args.h). *)
From Verif Require Import Base Num ArgsModel ArgsSpec ArgsProofs.

(** C10. A command line read as options [l] gives exactly the first binding of
    each key. *)
Theorem C10_first_occurrence_wins : forall argv l, segments argv l ->
  exists a, arguments_of_argv argv = Ok a /\
    (forall k, is_defined a k = match first_value k l with Some _ => true | None => false end) /\
    (forall k, at_key a k = match first_value k l with Some v => v | None => [] end).
Proof. exact argv_api. Qed.
Print Assumptions C10_first_occurrence_wins.

Theorem C10_total_without_empty_tokens : forall argv,
  Forall (fun t => t <> []) argv -> exists l, segments argv l.
Proof. exact argv_nonempty_total. Qed.
Print Assumptions C10_total_without_empty_tokens.

(** The constructor is undefined exactly on the command lines the grammar does
    not cover (an empty token inside an unclosed bracket). *)
Theorem C10_undefined_iff : forall argv,
  arguments_of_argv argv = UB <-> ~ exists l, segments argv l.
Proof. exact argv_ub. Qed.
Print Assumptions C10_undefined_iff.

Theorem C10_dash_value_dropped : forall k t r a, begins "-" t ->
  arguments_of_argv (dd k :: t :: r) = Ok a -> at_key a k = [].
Proof. exact dash_value_dropped. Qed.
Print Assumptions C10_dash_value_dropped.

Theorem C10_empty_token_in_bracket_refuted :
  exists argv, arguments_of_argv argv = UB.
Proof. exists ["--min"%string : str; "[1,"%string : str; [] ; "2]"%string : str]. vm_compute. reflexivity. Qed.
Print Assumptions C10_empty_token_in_bracket_refuted.

Example C10_case :
  segments (map lit ["prog"; "--min"; "[0,"; "1]"; "--verbose"; "--dt"; "0.1"; "--dt"; "0.2"]%string)
    [(lit "min", lit "[0, 1]"); (lit "verbose", []); (lit "dt", lit "0.1"); (lit "dt", lit "0.2")].
Proof.
  apply seg_skip; [intros [k H]; discriminate|].
  apply (seg_group (lit "min") [lit "[0,"; lit "1]"]).
  - exists (lit "[0,"), [], (lit "1]"); repeat split.
    + eexists; reflexivity.
    + exists (lit "1"); reflexivity.
    + constructor; [|constructor]. split; [discriminate|].
      intros H; apply last_is_ends in H; discriminate.
  - apply seg_flag; [eexists; reflexivity|].
    assert (Hp : forall s, first_is "-" s = false -> first_is "[" s = false -> plain s).
    { intros s H1 H2; split; [apply first_is_false; assumption|].
      intros [H _]; apply first_is_begins in H; congruence. }
    apply (seg_plain (lit "dt")); [apply Hp; reflexivity|].
    apply (seg_plain (lit "dt")); [apply Hp; reflexivity|]. constructor.
Qed.

(** C11. The option store behaves as a finite map with caller defaults. *)
Theorem C11_update_is_map_update : forall (a : arguments) k v k0, map_ok a ->
  map_ok (update a k v) /\
  is_defined (update a k v) k0 = (str_eqb k0 k || is_defined a k0) /\
  at_key (update a k v) k0 = (if str_eqb k0 k then v else at_key a k0) /\
  (forall d, get_string (update a k v) k0 d = if str_eqb k0 k then c_str v else get_string a k0 d) /\
  (forall T (conv : str -> T) d,
     get_num conv (update a k v) k0 d = if str_eqb k0 k then conv (c_str v) else get_num conv a k0 d) /\
  (forall T (stod : str -> outcome T) d,
     get_double stod (update a k v) k0 d = if str_eqb k0 k then stod v else get_double stod a k0 d).
Proof. exact get_update. Qed.
Print Assumptions C11_update_is_map_update.

Theorem C11_undefined_gives_default : forall (a : arguments) k, is_defined a k = false ->
  at_key a k = [] /\ is_vec a k = false /\ get_vec_str a k = [] /\
  (forall d, get_string a k d = d) /\
  (forall T (conv : str -> T) d, get_num conv a k d = d) /\
  (forall T (stod : str -> outcome T) d, get_double stod a k d = Ok d) /\
  (forall T (conv : str -> T) n d, get_vec_num conv a k n d = repeat d n).
Proof. exact undefined_default. Qed.
Print Assumptions C11_undefined_gives_default.

Theorem C11_constructor_gives_map : forall argv a, arguments_of_argv argv = Ok a -> map_ok a.
Proof. exact argv_map_ok. Qed.
Print Assumptions C11_constructor_gives_map.

Example C11_case : exists a, arguments_of_argv (map lit ["--b"; "2"; "--a"; "1"]%string) = Ok a
  /\ get_int (update a (lit "b") (lit "7")) (lit "b") 0 = 7%Z
  /\ get_int (update a (lit "b") (lit "7")) (lit "a") 0 = 1%Z
  /\ is_defined a (lit "c") = false.
Proof. eexists; repeat split. Qed.

(** C12. Recording a command line and re-reading it is the identity. *)
Theorem C12_get_cmd_roundtrip : forall m, map_ok m -> writable m ->
  create_arguments (get_cmd m) = Ok m.
Proof. exact cmd_roundtrip. Qed.
Print Assumptions C12_get_cmd_roundtrip.

Example C12_case :
  let m := [(lit "flag", []); (lit "min", lit "[0, 1]"); (lit "out", lit "a.dat")] in
  map_ok m /\ writable m /\ get_cmd m = lit " --flag  --min [0, 1] --out a.dat".
Proof.
  simpl. split; [|split; [|reflexivity]].
  - repeat (constructor; simpl; auto); reflexivity.
  - assert (Hw : forall s, forallb (fun c => negb (is_space c) && negb (aeqb c nul)) s = true -> s <> [] -> word s).
    { intros s Hs Hn; split; [assumption|]. rewrite forallb_forall in Hs. apply Forall_forall.
      intros c Hc; specialize (Hs c Hc). apply andb_true_iff in Hs as [H1 H2].
      split; [apply negb_true_iff; assumption|intros ->; rewrite aeqb_refl in H2; discriminate]. }
    constructor; [|constructor; [|constructor; [|constructor]]]; (split; [apply Hw; [reflexivity|discriminate]|]).
    + exists []; repeat split; auto.
    + exists [lit "[0,"; lit "1]"]; split; [reflexivity|]. split.
      * constructor; [|constructor; [|constructor]]; (apply Hw; [reflexivity|discriminate]).
      * right; right. exists (lit "[0,"), [], (lit "1]"); repeat split.
        -- eexists; reflexivity.
        -- exists (lit "1"); reflexivity.
        -- constructor; [|constructor]. split; [discriminate|].
           intros H; apply last_is_ends in H; discriminate.
    + exists [lit "a.dat"]; split; [reflexivity|]. split.
      * constructor; [apply Hw; [reflexivity|discriminate]|constructor].
      * right; left; eexists; split; [reflexivity|]. split.
        -- intros [t H]; discriminate.
        -- intros [[t H] _]; discriminate.
Qed.

(** A value with white space outside brackets does not survive. *)
Theorem C12_space_in_value_refuted :
  exists m, map_ok m /\ create_arguments (get_cmd m) <> Ok m.
Proof.
  exists [(lit "a", lit "x y")]. split; [repeat constructor|]. vm_compute; discriminate.
Qed.
Print Assumptions C12_space_in_value_refuted.

(** C13. Bracketed options split at commas and only there. *)
Theorem C13_get_vec_splits_at_commas : forall (a : arguments) k es,
  map_find k a = Some ("["%char :: join comma es ++ ["]"%char]) ->
  es <> [] -> Forall no_comma es -> get_vec_str a k = es.
Proof. exact get_vec_str_bracket. Qed.
Print Assumptions C13_get_vec_splits_at_commas.

Theorem C13_unbracketed_is_empty : forall (a : arguments) k, is_vec a k = false -> get_vec_str a k = [].
Proof.
  unfold is_vec, get_vec_str; intros a k H. destruct (map_find k a) as [[|c t]|]; auto.
  simpl in H. destruct (aeqb_spec c "[") as [->|n]; [discriminate|].
  destruct c as [[] [] [] [] [] [] [] []]; auto; congruence.
Qed.
Print Assumptions C13_unbracketed_is_empty.

(** An empty bracket is one empty element, not an empty list. *)
Theorem C13_empty_bracket_refuted :
  exists a k, map_find k a = Some (lit "[]") /\ get_vec_str a k <> [].
Proof. exists [(lit "func", lit "[]")], (lit "func"). split; [reflexivity|]. vm_compute; discriminate. Qed.
Print Assumptions C13_empty_bracket_refuted.

Example C13_case : get_vec_str [(lit "func", lit "[libA.so,libB.so,]")] (lit "func") = map lit ["libA.so"; "libB.so"; ""]%string.
Proof. reflexivity. Qed.

(** C14. Fixed-size vectors have the requested size and are padded. *)
Theorem C14_get_vec_length : forall T (atof : str -> T) a k size dflt,
  length (get_vec_num atof a k size dflt) = size.
Proof. exact @get_vec_num_length. Qed.
Print Assumptions C14_get_vec_length.

Theorem C14_get_vec_elements : forall T (atof : str -> T) (a : arguments) k size dflt es i d,
  map_find k a = Some ("["%char :: join comma es ++ ["]"%char]) -> es <> [] -> Forall no_comma es ->
  i < size ->
  nth i (get_vec_num atof a k size dflt) d =
  if i <? length es then atof (c_str (nth i es [])) else dflt.
Proof. exact @get_vec_num_bracket. Qed.
Print Assumptions C14_get_vec_elements.

Theorem C14_get_vec_scalar : forall T (atof : str -> T) (a : arguments) k size dflt i d,
  is_vec a k = false -> i < size ->
  nth i (get_vec_num atof a k size dflt) d = get_num atof a k dflt.
Proof. exact @get_vec_num_scalar. Qed.
Print Assumptions C14_get_vec_scalar.

Example C14_case : get_vec_num atoi [(lit "min", lit "[1,22]")] (lit "min") 3 9%Z = [1; 22; 9]%Z.
Proof. reflexivity. Qed.

(** C15. Headers: the reader recovers the last value of every key and stops at
    the first byte that is not part of the header. *)
Theorem C15_header_roundtrip : forall items r, Forall item_ok items -> ~ begins "#" r ->
  exists m, parse_header (render_header items ++ r) =
    (m, {| rest := r; eofbit := match r with [] => true | _ => false end; failbit := false |})
    /\ map_ok m /\ forall k, map_find k m = last_value k (flat_map item_pairs items).
Proof. exact parse_header_items. Qed.
Print Assumptions C15_header_roundtrip.

(** For every byte stream whatsoever, only '#' lines are consumed, and reading
    stops only at a byte other than '#', at the end, or at "#ALTA END HEADER". *)
Theorem C15_consumes_only_hash_lines : forall b,
  let s := snd (parse_header b) in
  exists p, b = p ++ rest s /\ hash_lines p /\
   (~ begins "#" (rest s) \/
    exists p' l, p = p' ++ hline l /\ ~ In nl l /\ header_line l = LStop).
Proof. exact parse_header_prefix. Qed.
Print Assumptions C15_consumes_only_hash_lines.

(** The documented end marker does not end the header: a '#' byte after it is
    still read as a header line. *)
Theorem C15_documented_end_marker_refuted :
  exists r, rest (snd (parse_header (hline (lit "ALTA HEADER BEGIN") ++ hline (lit "DIM 1 1")
                                      ++ hline (lit "ALTA HEADER END") ++ r))) <> r.
Proof. exists (hline (lit "X 1")). vm_compute; discriminate. Qed.
Print Assumptions C15_documented_end_marker_refuted.

Example C15_case : Forall item_ok [HComment (lit "made by hand"); HKey (lit "DIM") (lit "2 1")]
  /\ ~ begins "#" (lit "1 2 3").
Proof.
  split.
  - constructor; [|constructor; [|constructor]]; simpl.
    + intros H; repeat (destruct H as [H|H]; [discriminate|]); destruct H.
    + repeat split; try discriminate; try (repeat constructor; discriminate);
      try (vm_compute; congruence).
  - intros [t H]; discriminate.
Qed.

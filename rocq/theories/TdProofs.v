(** Proofs for C115. *)
From Coq Require Import Reals List Lia Lra ZArith.
From Verif Require Import Base Num ParamsModel ParamsProofs GeoModel GeoSpec ArgsModel ArgsSpec ArgsProofs DataModel DataProofs TextModel TextProofs TextRound ConvModel ConvSpec ToolModel ToolSpec ToolProofs ToolProofs2 CutProofs TdModel TdSpec PropsConv PropsText.
Open Scope R_scope.

(** the loader looks only at the reading options *)
Section Args.
Variables (lex : str -> option (R * str)) (stod : str -> outcome R) (atof : str -> R) (flt_max : R).
Variable a : arguments.
Hypothesis H : no_reading_options a.
Lemma no_key (k : String.string) : In (lit k) reading_options -> map_find (list_ascii_of_string k) a = None.
Proof. intros Hk. destruct (map_find (lit k) a) eqn:E; [exfalso; apply (H (lit k) Hk); eexists; exact E|exact E]. Qed.
Lemma read_ci_none kind ys : forall i s, read_ci lex stod kind a i ys s = read_ci lex stod kind [] i ys s.
Proof.
  apply read_ci_same. unfold same_reading, is_defined. rewrite !no_key by (cbn; tauto). repeat split.
Qed.
Lemma load_line_none dx dy p kind lo hi ylo yhi line : load_line lex stod a dx dy p kind lo hi ylo yhi line = load_line lex stod [] dx dy p kind lo hi ylo yhi line.
Proof.
  unfold load_line. destruct line as [|c line]; [reflexivity|]. destruct (aeqb c "#"); [reflexivity|]. destruct (read_values lex (dx + dy) _) as [xy| | |]; try reflexivity. cbn [bind].
  rewrite read_ci_none. destruct (read_ci lex stod kind [] 0 _ _) as [ci| | |]; try reflexivity. cbn [bind]. destruct (_ && _); [|reflexivity].
  unfold is_defined. rewrite no_key by (cbn; tauto). reflexivity.
Qed.
Lemma load_body_none fuel : forall dx dy p kind lo hi ylo yhi s, load_body lex stod fuel a dx dy p kind lo hi ylo yhi s = load_body lex stod fuel [] dx dy p kind lo hi ylo yhi s.
Proof.
  induction fuel as [|fuel IH]; intros; [reflexivity|]. cbn [load_body]. destruct (good s); [|reflexivity]. destruct (getline (rest s)) as [line s']. rewrite load_line_none.
  destruct (load_line _ _ _ _ _ _ _ _ _ _ _ _); try reflexivity. cbn [bind]. rewrite IH. reflexivity.
Qed.
Lemma vec_none (k : String.string) n d : In (lit k) reading_options -> get_vec_num atof a (list_ascii_of_string k) n d = repeat d n.
Proof. intros Hk. unfold get_vec_num, get_num. rewrite no_key by assumption. reflexivity. Qed.
Lemma load_text_none file : load_text lex stod atof flt_max file a = load_text lex stod atof flt_max file [].
Proof.
  unfold load_text. destruct (parse_header file) as [h s]. unfold load_data_from_text. destruct (negb _); [reflexivity|]. destruct (get_pair_int h _) as [[zx zy]|]; [|reflexivity].
  destruct (_ || _); [reflexivity|]. destruct (_ =? _)%nat; [reflexivity|]. cbv zeta. rewrite !vec_none by (cbn; tauto). rewrite load_body_none. reflexivity.
Qed.
End Args.

Section World.
Variables (lex : str -> option (R * str)) (stod : str -> outcome R) (atof : str -> R) (flt_max : R) (print : R -> str) (junk : R)
  (read_binary : str -> outcome (attempt (option data_obj))).
Context {F Ft : Type}.
Variable value : F -> list R -> outcome (list R).
Variable w : world data_obj F Ft.
Hypothesis HW : real_data lex stod atof flt_max print junk read_binary value w.
Notation read := (fun c a => load_text lex stod atof flt_max c a).

Lemma given_iff a k : given a k <-> is_defined a k = true.
Proof. unfold given, is_defined. destruct (map_find k a); split; intros H; try discriminate; eauto; try reflexivity. destruct H; discriminate. Qed.
Lemma not_given a k : ~ given a k -> is_defined a k = false.
Proof. rewrite given_iff. destruct (is_defined a k); [contradiction|reflexivity]. Qed.

Lemma text_read a file content dat t : segment_class t = true -> str_eqb (at_key (fst (parse_header content)) (lit "FORMAT")) (lit "binary") = false ->
  read content (update a (lit "filename") file) = Ok dat -> w_read_data w t content (update a (lit "filename") file) = Ok (Done (Some (seg_of dat))).
Proof. intros Ht Hb H. destruct HW as (H1 & _). rewrite H1 by assumption. unfold read_segment. rewrite Hb, H. reflexivity. Qed.

Theorem data2data_text argv a d content dat pout out :
  options argv a -> ~ given a (lit "help") -> ~ given a (lit "help-params") -> given a (lit "input") -> given a (lit "output") ->
  segment_class (val a (lit "in-data")) = true -> segment_class (val a (lit "out-data")) = true ->
  d (val a (lit "input")) = Some content -> text_file content -> read content (update a (lit "filename") (val a (lit "input"))) = Ok dat ->
  ConvModel.data2data junk (td_par dat) (val a (lit "param")) (is_defined a (lit "all-values")) (samples_of dat) = Ok (Some (pout, out)) ->
  w_writable w (val a (lit "output")) = true ->
  ToolModel.data2data w argv d = (put d (val a (lit "output")) (save_text print pout out), Ok 0%Z).
Proof.
  intros O N1 N2 G1 G2 C1 C2 Hd Ht Hr Hc Hw. apply data2data_success. exists a. split; [exact O|]. right.
  split; [tauto|]. split; [assumption|]. split; [assumption|].
  destruct HW as (W1 & W2 & W3 & W4 & _).
  unfold ConvModel.data2data in Hc. destruct (compute_parameters (td_par dat) (val a (lit "param"))) as [p|] eqn:Ep; [|discriminate].
  destruct (splat junk (td_par dat) p _ _ _) as [o| | |] eqn:Es; cbn [bind] in Hc; try discriminate. assert (E : Some (p, o) = Some (pout, out)) by congruence. injection E as -> ->. clear Hc.
  exists (seg_of dat), (DSeg pout out).
  assert (Nb : str_eqb (val a (lit "out-data")) (lit "alta-binary") = false).
  { unfold segment_class in C2. destruct (str_eqb_spec (val a (lit "out-data")) []) as [E|_]; [rewrite E; reflexivity|].
    destruct (str_eqb_spec (val a (lit "out-data")) (lit "vertical_segment")) as [E|_]; [rewrite E; reflexivity|discriminate]. }
  split; [exists content; split; [assumption|apply text_read; assumption]|]. split.
  - destruct (W3 (td_par dat) (samples_of dat)) as (P1 & P2 & _).
    exists pout, (DSeg pout (repeat (repeat 0 (dimX pout + dimY pout)) (length (samples_of dat)))).
    unfold seg_of in *. fold (samples_of dat) in *. rewrite P1, P2. split; [exact Ep|]. rewrite Nb. split; [apply W2; assumption|]. left.
    destruct (W3 pout (repeat (repeat 0 (dimX pout + dimY pout)) (length (samples_of dat)))) as (_ & _ & P3 & _). split; [left; exact P3|].
    rewrite !W4. destruct (is_defined a (lit "all-values")) eqn:Ea; [left|right]; (split; [|rewrite Es; reflexivity]).
    + apply given_iff. assumption.
    + rewrite given_iff, Ea. discriminate.
  - right. split. { intros H0. rewrite H0 in Nb. discriminate. }
    destruct (W3 pout out) as (_ & _ & _ & _ & P). eexists. split; [exact P|]. left. split; [assumption|reflexivity].
Qed.

Theorem brdf2data_text argv a d content dat f out :
  options argv a -> ~ given a (lit "help") -> given a (lit "input") -> given a (lit "output") -> given a (lit "data-file") -> segment_class (val a (lit "data")) = true ->
  d (val a (lit "data-file")) = Some content -> text_file content -> read content (update a (lit "filename") (val a (lit "data-file"))) = Ok dat ->
  holds_function w d (val a (lit "input")) f ->
  ConvModel.brdf2data junk (w_fpar w f) (td_par dat) (value f) (is_defined a (lit "export-diff")) (samples_of dat) = Ok out ->
  w_writable w (val a (lit "output")) = true ->
  ToolModel.brdf2data w argv d = (put d (val a (lit "output")) (save_text print (td_par dat) out), Ok 0%Z).
Proof.
  intros O N1 G1 G2 G3 C1 Hd Ht Hr Hf Hc Hw. apply brdf2data_success. exists a. split; [exact O|]. right. split; [assumption|]. split; [assumption|]. split; [assumption|].
  exists (Some (seg_of dat)), f. split; [left; split; [assumption|]; exists content; split; [assumption|apply text_read; assumption]|]. split; [assumption|].
  destruct HW as (_ & _ & W3 & _ & W5). exists (DSeg (td_par dat) out). destruct (W3 (td_par dat) out) as (_ & _ & _ & _ & P). eexists.
  split; [unfold seg_of; fold (samples_of dat); rewrite W5, Hc; reflexivity|]. split; [exact P|]. left. split; [assumption|reflexivity].
Qed.

(** ** files that were saved *)
Variable rnd : R -> R.
Hypothesis HP : prints lex print rnd.
Lemma saved_text p l : (0 < dimX p + dimY p)%nat -> Forall (fun x => (dimX p + dimY p <= length x)%nat) l -> text_file (save_text print p l).
Proof.
  intros Hn Hl. unfold text_file. rewrite <- (app_nil_r (save_text print p l)), save_text_app. rewrite text_header_parse; [reflexivity|].
  rewrite app_nil_r. destruct l as [|x l]; [intros [u Hu]; discriminate|]. inversion Hl as [|? ? Hx _]; subst. cbn [map concat]. unfold save_row at 1, endl.
  change (concat (map (fun v => print v ++ [tab]) (firstn (dimX p + dimY p) x))) with (CutSpec.numbers print (firstn (dimX p + dimY p) x)). rewrite <- !app_assoc.
  destruct (numbers_begin lex print rnd HP (firstn (dimX p + dimY p) x) ([nl] ++ concat (map (save_row print (dimX p + dimY p)) l))) as (c & t' & E & Hc).
  - intros H0. apply (f_equal (@length _)) in H0. rewrite firstn_length in H0. cbn in H0. lia.
  - rewrite E. intros [u Hu]. injection Hu as Hu _. congruence.
Qed.
Lemma saved_read p l a : regular p -> named_output (out_param p) -> writable_samples flt_max rnd p l -> no_reading_options a ->
  exists dat, read (save_text print p l) a = Ok dat /\ td_par dat = p /\ samples_of dat = map (map rnd) l.
Proof.
  intros (Hi & HX & HY) Ho Hl Ha. rewrite load_text_none by assumption. rewrite (text_round_trip lex stod atof flt_max print rnd p l).
  - eexists. split; [reflexivity|]. cbn [td_par td_rows samples_of]. split; [reflexivity|]. unfold samples_of. cbn [td_par td_rows]. rewrite map_map. apply map_ext_in. intros x Hx.
    unfold writable_samples in Hl. rewrite Forall_forall in Hl. destruct (Hl x Hx) as [Hs _]. unfold sample_of in Hs. cbv zeta. rewrite (firstn_all2 x) by lia.
    rewrite firstn_app, firstn_all2 by (rewrite map_length; lia). replace (_ - length (map rnd x))%nat with 0%nat by (rewrite map_length; lia). rewrite firstn_O, app_nil_r. reflexivity.
  - assumption.
  - lia.
  - eapply Forall_impl; [|exact Hl]. intros x [Hs Hv]. unfold sample_of in Hs. split; [lia|assumption].
  - apply parse_get_name_in. left. assumption.
  - assumption.
Qed.
Lemma no_reading_update a file : map_ok a -> no_reading_options a -> no_reading_options (update a (lit "filename") file).
Proof.
  intros Hm H k Hk [v Hv]. unfold update in Hv. rewrite map_find_update in Hv by assumption. destruct (str_eqb_spec k (lit "filename")) as [->|_].
  - cbn in Hk. repeat (destruct Hk as [Hk|Hk]; [discriminate|]). exact Hk.
  - apply (H k Hk). exists v. exact Hv.
Qed.
Hypothesis HR : reprints print rnd.
Lemma reprint_text p l : save_text print p (map (map rnd) l) = save_text print p l.
Proof.
  unfold save_text. f_equal. f_equal. f_equal. rewrite map_map. apply f_equal. apply List.map_ext. intros x. unfold save_row. apply f_equal. apply f_equal.
  rewrite firstn_map, map_map. apply List.map_ext. intros v. rewrite HR. reflexivity.
Qed.
Lemma sample_rnd p l : Forall (sample_of p) l -> Forall (sample_of p) (map (map rnd) l).
Proof. intros H. rewrite Forall_map. eapply Forall_impl; [|exact H]. intros x Hx. unfold sample_of in *. rewrite map_length. assumption. Qed.
Lemma writable_sample p l : writable_samples flt_max rnd p l -> Forall (sample_of p) l.
Proof. intros H. eapply Forall_impl; [|exact H]. intros x [Hx _]. exact Hx. Qed.

Theorem data2data_copy argv a d p l :
  options argv a -> ~ given a (lit "help") -> ~ given a (lit "help-params") -> given a (lit "input") -> given a (lit "output") -> no_reading_options a ->
  segment_class (val a (lit "in-data")) = true -> segment_class (val a (lit "out-data")) = true ->
  (~ given a (lit "param") \/ val a (lit "param") = get_name_in (in_param p)) ->
  regular p -> named_output (out_param p) -> ~ In (in_param p) no_rule_list -> writable_samples flt_max rnd p l ->
  (given a (lit "all-values") \/ Forall (fun r => visible (map rnd r) (in_param p)) l) ->
  d (val a (lit "input")) = Some (save_text print p l) -> w_writable w (val a (lit "output")) = true ->
  ToolModel.data2data w argv d = (put d (val a (lit "output")) (save_text print p l), Ok 0%Z).
Proof.
  intros O N1 N2 G1 G2 NR C1 C2 Pa Rp Op Nr Hl Hv Hd Hw.
  destruct (saved_read p l (update a (lit "filename") (val a (lit "input"))) Rp Op Hl (no_reading_update _ _ (argv_map_ok _ _ O) NR)) as (dat & E & Ep & El).
  rewrite <- (reprint_text p l). eapply data2data_text; try eassumption.
  - apply saved_text; [destruct Rp as (_ & _ & HY); lia|]. eapply Forall_impl; [|exact Hl]. intros x [Hs _]. unfold sample_of in Hs. lia.
  - rewrite Ep, El. apply C76_copy; try assumption.
    + apply sample_rnd, writable_sample. assumption.
    + destruct Pa as [Pa|Pa]; [right|left; exact Pa]. unfold val. destruct (map_find (lit "param") a) eqn:Em; [exfalso; apply Pa; eexists; exact Em|].
      intros q Hq H0. apply named_iff in Hq. destruct q; discriminate.
    + destruct Hv as [Hv|Hv]; [left; apply given_iff; assumption|right]. rewrite Forall_map. exact Hv.
Qed.

(** brdf2data on its own output *)
Hypothesis HI : forall v, rnd (rnd v) = rnd v.
Theorem brdf2data_again argv a argv2 a2 d p l f out :
  options argv a -> ~ given a (lit "help") -> given a (lit "input") -> given a (lit "output") -> given a (lit "data-file") -> no_reading_options a -> ~ given a (lit "export-diff") ->
  segment_class (val a (lit "data")) = true ->
  regular p -> named_output (out_param p) -> writable_samples flt_max rnd p l -> usable (w_fpar w f) -> (in_param (w_fpar w f) = UNKNOWN_INPUT -> (dimX (w_fpar w f) <= dimX p)%nat) ->
  holds_function w d (val a (lit "input")) f -> d (val a (lit "data-file")) = Some (save_text print p l) -> w_writable w (val a (lit "output")) = true ->
  ConvModel.brdf2data junk (w_fpar w f) p (value f) false (map (map rnd) l) = Ok out -> writable_samples flt_max rnd p out ->
  (* the second run *)
  options argv2 a2 -> ~ given a2 (lit "help") -> given a2 (lit "input") -> given a2 (lit "output") -> given a2 (lit "data-file") -> no_reading_options a2 -> ~ given a2 (lit "export-diff") ->
  segment_class (val a2 (lit "data")) = true -> val a2 (lit "data-file") = val a (lit "output") -> w_writable w (val a2 (lit "output")) = true ->
  val a2 (lit "input") = val a (lit "input") -> val a (lit "input") <> val a (lit "output") ->
  exists d1 text, ToolModel.brdf2data w argv d = (d1, Ok 0%Z) /\ d1 (val a (lit "output")) = Some text /\
    ToolModel.brdf2data w argv2 d1 = (put d1 (val a2 (lit "output")) text, Ok 0%Z).
Proof.
  intros O N1 G1 G2 G3 NR ND C1 Rp Op Hl Hu Hp Hf Hd Hw Hb Hout O2 N12 G12 G22 G32 NR2 ND2 C12 E2 Hw2 Ei Ne.
  destruct (saved_read p l (update a (lit "filename") (val a (lit "data-file"))) Rp Op Hl (no_reading_update _ _ (argv_map_ok _ _ O) NR)) as (dat & E & Ep & El).
  assert (Wn : forall q, (0 < dimY q)%nat -> (0 < dimX q + dimY q)%nat) by (intros; lia). pose proof Rp as (Ni & HX & HY).
  assert (TF : forall m, writable_samples flt_max rnd p m -> text_file (save_text print p m)).
  { intros m Hm. apply saved_text; [lia|]. eapply Forall_impl; [|exact Hm]. intros x [Hs _]. unfold sample_of in Hs. lia. }
  pose proof (brdf2data_text argv a d (save_text print p l) dat f out O N1 G1 G2 G3 C1 Hd (TF l Hl) E Hf) as R1.
  rewrite Ep, El, (not_given _ _ ND) in R1. specialize (R1 Hb Hw).
  eexists _, (save_text print p out). split; [exact R1|]. split; [unfold put; destruct (str_eqb_spec (val a (lit "output")) (val a (lit "output"))); [reflexivity|contradiction]|].
  set (d1 := put d (val a (lit "output")) (save_text print p out)) in *.
  destruct (saved_read p out (update a2 (lit "filename") (val a2 (lit "data-file"))) Rp Op Hout (no_reading_update _ _ (argv_map_ok _ _ O2) NR2)) as (dat2 & E' & Ep' & El').
  assert (Hd1 : d1 (val a2 (lit "data-file")) = Some (save_text print p out)).
  { rewrite E2. unfold d1, put. destruct (str_eqb_spec (val a (lit "output")) (val a (lit "output"))); [reflexivity|contradiction]. }
  assert (Hf1 : holds_function w d1 (val a2 (lit "input")) f).
  { rewrite Ei. destruct Hf as (c & Hc & Hr). exists c. split; [|assumption]. unfold d1, put. destruct (str_eqb_spec (val a (lit "input")) (val a (lit "output"))); [contradiction|assumption]. }
  pose proof (brdf2data_text argv2 a2 d1 (save_text print p out) dat2 f out O2 N12 G12 G22 G32 C12 Hd1 (TF out Hout) E' Hf1) as R2.
  rewrite Ep', El', (not_given _ _ ND2) in R2. apply R2; [|assumption].
  apply (C78_export junk (w_fpar w f) p (value f) false _ _ Hu Rp (sample_rnd p out (writable_sample p out Hout))).
  apply (C78_export junk (w_fpar w f) p (value f) false _ _ Hu Rp (sample_rnd p l (writable_sample p l Hl))) in Hb. destruct Hb as [L P].
  split; [rewrite map_length; reflexivity|]. intros i x o Hx Ho. rewrite nth_error_map, Ho in Hx. injection Hx as <-.
  destruct (ConvProofs2.nth_error_ex (map (map rnd) l) i) as [r Hr]; [rewrite L; apply nth_error_Some; congruence|].
  assert (Sr : sample_of p r). { pose proof (sample_rnd p l (writable_sample p l Hl)) as F0. rewrite Forall_forall in F0. apply F0. apply nth_error_In in Hr. assumption. }
  assert (Rr : map rnd r = r). { rewrite nth_error_map in Hr. destruct (nth_error l i); [|discriminate]. injection Hr as <-. rewrite map_map. apply List.map_ext. exact HI. }
  destruct (P i r o Hr Ho) as (u & y & z & A & V & Ly & -> & ->).
  exists u, y, y. rewrite map_app, <- firstn_map, Rr. split; [apply ConvProofs6.argument_kept; assumption|]. split; [assumption|]. split; [assumption|]. split; [reflexivity|].
  rewrite ConvProofs6.position_of_written by assumption. reflexivity.
Qed.
End World.

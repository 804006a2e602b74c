From Coq Require Import Reals List Lra Permutation.
From Verif Require Import Base Num ParamsModel ArgsModel ArgsSpec ArgsProofs DataModel TextModel AstmModel AstmSpec AstmProofs.
Open Scope R_scope.

Lemma angle_spec v : reflect (angle v) (is_angle v).
Proof.
  unfold is_angle, angle. cbn [List.map In].
  destruct (str_eqb_spec v (lit "theta_i")) as [E|N1]; [constructor; left; congruence|].
  destruct (str_eqb_spec v (lit "phi_i")) as [E|N2]; [constructor; right; left; congruence|].
  destruct (str_eqb_spec v (lit "theta_s")) as [E|N3]; [constructor; do 2 right; left; congruence|].
  destruct (str_eqb_spec v (lit "phi_s")) as [E|N4]; [constructor; do 3 right; left; congruence|].
  constructor. intros [E|[E|[E|[E|[]]]]]; congruence.
Qed.
Lemma count_filter vars v : count_occ str_eq_dec vars v = (count_occ str_eq_dec (filter is_angle vars) v + count_occ str_eq_dec (filter (fun v => negb (is_angle v)) vars) v)%nat.
Proof.
  induction vars as [|x vars IH]; [reflexivity|]. cbn [filter]. destruct (is_angle x); cbn [negb count_occ]; destruct (str_eq_dec x v); lia.
Qed.
Lemma announced vars v : vars <> [] -> announces vars (astm_parameters vars (List.last vars v)).
Proof.
  intros Hne. exists (filter is_angle vars), (filter (fun v => negb (is_angle v)) vars).
  split; [intros x I; apply filter_In in I; destruct I as [_ I]; destruct (angle_spec x); [assumption|discriminate]|].
  split; [intros x I; apply filter_In in I; destruct I as [_ I]; destruct (angle_spec x); [discriminate|assumption]|].
  split; [intros; apply count_filter|]. split; [reflexivity|]. split; [reflexivity|]. split.
  - cbn [in_param astm_parameters]. unfold astm_parameters. cbn [in_param]. destruct (Nat.eqb_spec (length (filter is_angle vars)) 4), (Nat.eq_dec (length (filter is_angle vars)) 4); congruence.
  - destruct (exists_last Hne) as (vs & x & E). exists vs, x. split; [assumption|]. assert (L : List.last vars v = x) by (rewrite E; apply last_last). rewrite L. unfold astm_parameters. cbn [out_param].
    destruct (str_eqb_spec x (lit "B")) as [EB|NB]; [left; auto|]. right.
    destruct (str_eqb_spec (firstn 10 x) (lit "Integrated")) as [EI|NI]; [left|right].
    + split; [|reflexivity]. exists (skipn 10 x). rewrite <- EI. symmetry. apply firstn_skipn.
    + split; [assumption|]. split; [|reflexivity]. intros t Et. apply NI. rewrite Et. reflexivity.
Qed.
Lemma announced_unique vars p q : announces vars p -> announces vars q -> p = q.
Proof.
  assert (Len : forall (l l' : list str), (forall v, count_occ str_eq_dec l v = count_occ str_eq_dec l' v) -> length l = length l').
  { intros l l' H. apply Permutation_length. apply (proj2 (Permutation_count_occ str_eq_dec l l')). exact H. }
  intros (a & o & A1 & A2 & A3 & A4 & A5 & A6 & vs & v & A7 & A8) (a' & o' & B1 & B2 & B3 & B4 & B5 & B6 & vs' & v' & B7 & B8).
  assert (Z : forall l x, ~ In x l -> count_occ str_eq_dec l x = 0%nat) by (intros; apply count_occ_not_In; assumption).
  assert (Ea : length a = length a').
  { apply Len. intros x. specialize (A3 x). specialize (B3 x). destruct (angle_spec x) as [Hx|Hx].
    - rewrite (Z o x) in A3 by (intros I; exact (A2 x I Hx)). rewrite (Z o' x) in B3 by (intros I; exact (B2 x I Hx)). lia.
    - rewrite (Z a x) by (intros I; exact (Hx (A1 x I))). rewrite (Z a' x) by (intros I; exact (Hx (B1 x I))). reflexivity. }
  assert (Eo : length o = length o').
  { apply Len. intros x. specialize (A3 x). specialize (B3 x). destruct (angle_spec x) as [Hx|Hx].
    - rewrite (Z o x) by (intros I; exact (A2 x I Hx)). rewrite (Z o' x) by (intros I; exact (B2 x I Hx)). reflexivity.
    - rewrite (Z a x) in A3 by (intros I; exact (Hx (A1 x I))). rewrite (Z a' x) in B3 by (intros I; exact (Hx (B1 x I))). lia. }
  assert (Ev : v = v') by (rewrite A7 in B7; apply app_inj_tail in B7; tauto). subst v'.
  destruct p as [px py pi po], q as [qx qy qi qo]; cbn [dimX dimY in_param out_param] in *. f_equal; try congruence; [rewrite A6, B6, Ea; reflexivity|].
  destruct A8 as [[-> ->]|[[(t & ->) ->]|(N1 & N2 & ->)]]; destruct B8 as [[E ->]|[[(t' & E) ->]|(N3 & N4 & ->)]]; try reflexivity; try congruence; try (exfalso; discriminate E).
Qed.
Lemma announced_size vars p : announces vars p -> (dimX p + dimY p)%nat = length vars.
Proof.
  intros H. rewrite (announced_unique _ _ _ H (announced vars [] ltac:(destruct H as (? & ? & _ & _ & _ & _ & _ & _ & vs & v & -> & _); destruct vs; discriminate))). unfold astm_parameters. cbn [dimX dimY]. clear. induction vars as [|x vars IH]; [reflexivity|]. cbn [filter]. destruct (is_angle x); cbn [negb length]; lia.
Qed.

Lemma c_str_number w z w' : blank w -> blank w' -> c_str (w ++ print_Z z ++ w') = w ++ print_Z z ++ w'.
Proof.
  intros Hw Hw'. assert (B : forall u, blank u -> ~ In nul u) by (intros u Hu I; unfold blank in Hu; rewrite Forall_forall in Hu; specialize (Hu _ I); discriminate).
  apply c_str_id. intros I. apply in_app_or in I. destruct I as [I|I]; [exact (B w Hw I)|]. apply in_app_or in I. destruct I as [I|I]; [|exact (B w' Hw' I)].
  assert (D : forall m, ~ In nul (print_N m)) by (intros m J; assert (F := print_N_digits m); rewrite Forall_forall in F; specialize (F _ J); discriminate).
  destruct z; cbn [print_Z] in I; [exact (D _ I)|exact (D _ I)|]. destruct I as [I|I]; [discriminate|exact (D _ I)].
Qed.
Lemma skip_ws_idem s : skip_ws (skip_ws s) = skip_ws s.
Proof. induction s as [|c s IH]; [reflexivity|]. cbn [skip_ws]. destruct (is_space c) eqn:E; [exact IH|]. cbn [skip_ws]. rewrite E. reflexivity. Qed.
Lemma atoi_number w z w' : blank w -> blank w' -> atoi (w ++ print_Z z ++ w') = z.
Proof.
  intros Hw Hw'. assert (C := conv_int_printed w w' z Hw Hw'). unfold conv_int in C. unfold atoi.
  assert (E : scan_int (skip_ws (w ++ print_Z z ++ w')) = scan_int (w ++ print_Z z ++ w')) by (unfold scan_int; rewrite skip_ws_idem; reflexivity).
  destruct (skip_ws (w ++ print_Z z ++ w')) as [|c l]; [discriminate|]. rewrite E in C. injection C as C. exact C.
Qed.

Section Load.
Variable lex : str -> option (R * str).
(** the text of a file and what its header says *)
Variable ls : list (str * str).
Variable es names : list str.
Variable w w' : str.
Variable size : Z.
Hypothesis Hls : Forall header_line_ok ls.
Hypothesis Hes : Forall short es.
Hypothesis Hpad : Forall2 padded es names.
Hypothesis Hne : es <> [].
Hypothesis Hends : ends_word (join comma es).
Hypothesis Hnl : ~ In nl (join comma es).
Hypothesis Hw : blank w.
Hypothesis Hw' : blank w'.
Hypothesis Hsize : last_value (lit "NUM_POINTS") ls = Some (w ++ print_Z size ++ w').
Definition file_text (body : str) : str := concat (List.map header_text ls) ++ lit "VARS" ++ join comma es ++ nl :: body.

Lemma header_length : (length ls <= length (concat (List.map header_text ls)))%nat.
Proof. clear. induction ls as [|l m IH]; cbn [List.map concat length]; [lia|]. unfold header_text at 1. rewrite !app_length. cbn [length]. lia. Qed.
Lemma load_start fuel body : exists p, announces names p /\
  load_astm lex fuel (file_text body) = if (size <? 0)%Z then Some Throw else
    match load_rows lex fuel (Z.to_nat size) (length names) [] (open_stream body) with None => None | Some o => Some (do rs <- o; Ok (p, rs)) end.
Proof.
  assert (Hn : names <> []) by (destruct Hpad; [congruence|discriminate]).
  exists (astm_parameters names (List.last names (hd [] names))). split; [apply announced; assumption|]. unfold load_astm, file_text.
  destruct (header_ok ls Hls (S (length (concat (List.map header_text ls) ++ lit "VARS" ++ join comma es ++ nl :: body))) (join comma es) body [] [] []) as (m & E & P1 & P2); [constructor|rewrite app_length; assert (H := header_length); lia|assumption|assumption|].
  rewrite E. change (get_vec_of conv_str m "VARS"%string) with (get_vec_of conv_str m (lit "VARS")). rewrite (get_vec_of_elements conv_str m (lit "VARS") es P1 Hne Hes).
  assert (En : List.map conv_str es = names). { clear - Hpad. induction Hpad as [|e n0 es0 ns0 H Hp IH]; [reflexivity|]. cbn [List.map]. rewrite (conv_str_padded _ _ H). f_equal. exact (IH Hp). }
  rewrite En. destruct names as [|v0 ns] eqn:Env; [congruence|]. rewrite <- Env in *.
  assert (Hnp : map_find (lit "NUM_POINTS") m = Some (w ++ print_Z size ++ w')) by (rewrite P2 by discriminate; rewrite Hsize; reflexivity).
  unfold is_defined, get_int, get_num. change (map_find "NUM_POINTS"%string m) with (map_find (lit "NUM_POINTS") m). rewrite Hnp. cbn [negb]. rewrite c_str_number, atoi_number by assumption.
  replace v0 with (hd [] names) by (rewrite Env; reflexivity).
  rewrite (announced_size names _ (announced names (hd [] names) ltac:(rewrite Env; discriminate))). reflexivity.
Qed.
End Load.

(** Proofs for C114: text data files that are cut short. *)
From Coq Require Import Reals List Lia Lra.
From Verif Require Import Base Num ParamsModel GeoModel GeoSpec ArgsModel ArgsSpec ArgsProofs ParamsProofs DataModel DataSpec DataProofs TextModel TextProofs TextRound CutSpec.
Open Scope R_scope.

Inductive cut_body (print : R -> str) (n : nat) (samples : list (list R)) : str -> Prop :=
| B_lines k : (k <= length samples)%nat -> cut_body print n samples (concat (map (save_row print n) (firstn k samples)))
| B_line_end k x : nth_error samples k = Some x -> cut_body print n samples (concat (map (save_row print n) (firstn k samples)) ++ numbers print (firstn n x))
| B_number k x j v q r : nth_error samples k = Some x -> (j < n)%nat -> nth_error x j = Some v -> print v = q ++ r ->
    cut_body print n samples (concat (map (save_row print n) (firstn k samples)) ++ numbers print (firstn j x) ++ q).
Definition header_text (p : parameters) : str :=
  endl (lit "#DIM " ++ print_nat (dimX p) ++ lit " " ++ print_nat (dimY p)) ++
  endl (lit "#PARAM_IN  " ++ get_name_in (in_param p)) ++
  endl (lit "#PARAM_OUT " ++ get_name_out (out_param p)).

Lemma firstn_app_cases {A} n (a b : list A) : (n <= length a)%nat /\ firstn n (a ++ b) = firstn n a \/ (length a <= n)%nat /\ firstn n (a ++ b) = a ++ firstn (n - length a) b.
Proof.
  destruct (Nat.le_gt_cases n (length a)).
  - left. split; [assumption|]. rewrite firstn_app. replace (n - length a)%nat with 0%nat by lia. rewrite firstn_O, app_nil_r. reflexivity.
  - right. split; [lia|]. rewrite firstn_app. rewrite firstn_all2 by lia. reflexivity.
Qed.

Lemma split_line_end l : ~ In nl l -> split_line l = (l, None).
Proof.
  induction l as [|c l IH]; [reflexivity|]. intros H. cbn [split_line]. destruct (aeqb_spec c nl) as [->|_]; [exfalso; apply H; left; reflexivity|].
  rewrite IH; [reflexivity|]. intros H'. apply H. right. assumption.
Qed.
Lemma firstn_S_nth {A} (l : list A) : forall k x, nth_error l k = Some x -> firstn (S k) l = firstn k l ++ [x].
Proof. induction l as [|y l IH]; intros [|k] x H; try discriminate; [injection H as ->; reflexivity|]. cbn [nth_error] in H. change (firstn (S (S k)) (y :: l)) with (y :: firstn (S k) l). rewrite (IH k x H). reflexivity. Qed.
Lemma par_eta p : p = mkParameters (dimX p) (dimY p) (in_param p) (out_param p).
Proof. destruct p; reflexivity. Qed.
Section Cut.
Variable print : R -> str.
Lemma cut_numbers l : forall m, firstn m (numbers print l) = numbers print l \/
  exists j v q r, nth_error l j = Some v /\ print v = q ++ r /\ firstn m (numbers print l) = numbers print (firstn j l) ++ q.
Proof.
  induction l as [|v l IH]; intros m.
  - left. unfold numbers. cbn. apply firstn_nil.
  - change (numbers print (v :: l)) with ((print v ++ [tab]) ++ numbers print l). rewrite <- app_assoc.
    destruct (firstn_app_cases m (print v) ([tab] ++ numbers print l)) as [[Hm E]|[Hm E]].
    + right. exists 0%nat, v, (firstn m (print v)), (skipn m (print v)). repeat split; [symmetry; apply firstn_skipn|]. rewrite E. reflexivity.
    + rewrite E. destruct (m - length (print v))%nat as [|m'] eqn:Em.
      * right. exists 0%nat, v, (print v), []. repeat split; [symmetry; apply app_nil_r|]. rewrite firstn_O, app_nil_r. reflexivity.
      * cbn [app firstn]. destruct (IH m') as [E'|(j & w & q & r & E1 & E2 & E3)].
        -- left. rewrite E'. reflexivity.
        -- right. exists (S j), w, q, r. repeat split; try assumption. rewrite E3. cbn [firstn].
           unfold numbers. cbn [map concat]. rewrite <- !app_assoc. reflexivity.
Qed.
Lemma cut_cases n samples : forall m, Forall (fun x => (n <= length x)%nat) samples -> cut_body print n samples (firstn m (concat (map (save_row print n) samples))).
Proof.
  induction samples as [|x l IH]; intros m H.
  - cbn [map concat]. rewrite firstn_nil. apply (B_lines print n [] 0). cbn. lia.
  - cbn [map concat]. inversion H as [|? ? Hx Hl]; subst.
    unfold save_row at 1. change (concat (map (fun v => print v ++ [tab]) (firstn n x))) with (numbers print (firstn n x)). unfold endl.
    rewrite <- app_assoc.
    destruct (firstn_app_cases m (numbers print (firstn n x)) ([nl] ++ concat (map (save_row print n) l))) as [[Hm E]|[Hm E]]; rewrite E.
    + destruct (cut_numbers (firstn n x) m) as [E'|(j & v & q & r & E1 & E2 & E3)].
      * rewrite E'. apply (B_line_end print n (x :: l) 0 x). reflexivity.
      * rewrite E3. assert (Hj : (j < n)%nat). { assert (j < length (firstn n x))%nat by (apply nth_error_Some; congruence). rewrite firstn_length in *. lia. }
        rewrite firstn_firstn, Nat.min_l by lia. apply (B_number print n (x :: l) 0 x j v q r); try assumption; [reflexivity|].
        rewrite <- E1. rewrite <- (firstn_skipn n x) at 1. rewrite nth_error_app1; [reflexivity|]. rewrite firstn_length. lia.
    + destruct (m - length (numbers print (firstn n x)))%nat as [|m'] eqn:Em.
      * rewrite firstn_O, app_nil_r. apply (B_line_end print n (x :: l) 0 x). reflexivity.
      * cbn [app firstn].
        assert (C : forall t, numbers print (firstn n x) ++ nl :: t = save_row print n x ++ t).
        { intros t. unfold save_row, endl. rewrite <- app_assoc. reflexivity. }
        rewrite C. destruct (IH m' Hl) as [k Hk|k y Hy|k y j v q r Hy Hj Hv Hp].
        -- apply (B_lines print n (x :: l) (S k)). cbn. lia.
        -- rewrite app_assoc. apply (B_line_end print n (x :: l) (S k) y). assumption.
        -- rewrite app_assoc. eapply (B_number print n (x :: l) (S k) y j v q r); assumption.
Qed.
End Cut.

Section Load.
Variables (lex : str -> option (R * str)) (stod : str -> outcome R) (atof : str -> R) (flt_max : R) (print : R -> str) (rnd : R -> R).
Hypothesis HP : prints lex print rnd.
Hypothesis HE : prefixes_end lex print.
Variable p : parameters.
Let n := (dimX p + dimY p)%nat.
Hypothesis Hpos : (0 < n)%nat.
Let lo := repeat (- flt_max) (dimX p).
Let hi := repeat flt_max (dimX p).
Let ylo := repeat (- flt_max) (dimY p).
Let yhi := repeat flt_max (dimY p).
Notation line := (load_line lex stod [] (dimX p) (dimY p) (in_param p) NO_CI lo hi ylo yhi).
Notation body := (load_body lex stod).

(** all the values are within the default box *)
Lemma within_all v : forall k, Forall (fun x => Rabs x <= flt_max) v -> within_bounds v (repeat (- flt_max) k) (repeat flt_max k) = true.
Proof.
  clear. induction v as [|x v IH]; intros [|k] H; try reflexivity. inversion H as [|? ? Hx Hv]; subst. cbn [repeat within_bounds].
  rewrite (proj2 (rleb_spec _ _)), (proj2 (rleb_spec _ _)), IH by (try assumption; unfold Rabs in Hx; destruct Rcase_abs in Hx; lra). reflexivity.
Qed.
Definition fits (v : list R) : bool := forallb (fun x => rleb (Rabs x) flt_max) v.
Lemma within_fits v : forall k, length v = k -> within_bounds v (repeat (- flt_max) k) (repeat flt_max k) = fits v.
Proof.
  clear. induction v as [|x v IH]; intros [|k] H; try discriminate; [reflexivity|]. cbn [repeat within_bounds fits forallb]. rewrite IH by (cbn in H; lia).
  f_equal. unfold rleb, Rabs. destruct (Rcase_abs x), (Rle_dec (- flt_max) x), (Rle_dec x flt_max), (Rle_dec (- x) flt_max); try reflexivity; try lra;
  destruct (Rle_dec x flt_max); reflexivity || lra.
Qed.
(** a line of n numbers *)
Lemma read_ci_default ys : forall i s, read_ci lex stod NO_CI [] i ys s = Ok (map (fun y => (y, y - 1 / 10, y + 1 / 10)) ys).
Proof.
  induction ys as [|y ys IH]; intros i s; [reflexivity|]. cbn [read_ci].
  replace (channel_dt lex stod NO_CI [] i s) with (@Ok (R * R * tstream) (- (1/10), 1/10, s)) by (destruct i; reflexivity).
  cbn [bind]. rewrite IH. cbn [bind map]. reflexivity.
Qed.
Lemma line_of_values (t : str) vs s' : (exists c t', t = c :: t' /\ c <> "#"%char) -> read_values lex n {| trest := t; tgood := true |} = Ok (vs, s') -> length vs = n ->
  line t = Ok (if fits vs then Some (stored p vs) else None).
Proof.
  intros (c & t' & -> & Hc) E L. unfold load_line. destruct (aeqb_spec c "#") as [->|_]; [contradiction|].
  fold n. rewrite E. cbn [bind fst snd]. rewrite read_ci_default. cbn [bind]. rewrite !map_map. cbn [fst snd]. rewrite map_id.
  unfold lo, hi, ylo, yhi. rewrite !within_fits by (rewrite ?firstn_length, ?skipn_length; unfold n in L; lia).
  unfold fits at 1 2. rewrite <- forallb_app, firstn_skipn. fold (fits vs). destruct (fits vs); [|reflexivity].
  cbn. unfold stored. rewrite app_assoc, firstn_skipn. reflexivity.
Qed.
(** reading complete numbers, then what follows *)
Lemma read_numbers l : forall m w t, forallb is_space w = true ->
  read_values lex (length l + m) {| trest := w ++ numbers print l ++ t; tgood := true |} =
  (do r <- read_values lex m {| trest := (match l with [] => w | _ => [tab] end) ++ t; tgood := true |}; Ok (map rnd l ++ fst r, snd r)).
Proof.
  induction l as [|v l IH]; intros m w t Hw.
  - cbn [length Nat.add numbers map concat app]. destruct (read_values lex m _) as [[a b]| | |]; reflexivity.
  - destruct (HP v) as ((c & t' & Et & Hc & _) & _ & Hlex).
    cbn [length Nat.add read_values]. unfold read_num. cbn [tgood trest negb].
    rewrite skip_ws_app by assumption. unfold numbers. cbn [map concat]. rewrite <- !app_assoc. rewrite Et. cbn [app skip_ws]. rewrite Hc.
    change (c :: t' ++ ?x) with ((c :: t') ++ x). rewrite <- Et. rewrite Hlex by reflexivity.
    specialize (IH m [tab] t eq_refl). cbn [app] in IH. fold (numbers print l). rewrite IH.
    destruct l; cbn [app]; destruct (read_values lex m _) as [[a b]| | |]; reflexivity.
Qed.
Lemma numbers_begin l t : l <> [] -> exists c t', numbers print l ++ t = c :: t' /\ c <> "#"%char.
Proof. destruct l as [|v l]; [contradiction|]. intros _. destruct (HP v) as ((c & t' & Et & _ & Hc) & _). unfold numbers. cbn [map concat]. rewrite Et. cbn. eexists _, _. split; [reflexivity|assumption]. Qed.
Lemma full_line x : (n <= length x)%nat -> line (numbers print (firstn n x)) = Ok (if fits (map rnd (firstn n x)) then Some (stored p (map rnd (firstn n x))) else None).
Proof.
  intros L. assert (Lf : length (firstn n x) = n) by (rewrite firstn_length; lia).
  pose proof (read_numbers (firstn n x) 0 [] [] eq_refl) as E. rewrite Lf, Nat.add_0_r in E. cbn [app read_values bind fst snd] in E. rewrite !app_nil_r in E.
  eapply line_of_values; [|exact E|rewrite map_length; assumption].
  destruct (numbers_begin (firstn n x) []) as (c & t' & Ec & Hc); [intros H0; rewrite H0 in Lf; cbn in Lf; lia|]. rewrite app_nil_r in Ec. eauto.
Qed.
Lemma numbers_no_nl l : ~ In nl (numbers print l).
Proof.
  unfold numbers. induction l as [|v l IH]; [intros []|]. cbn [map concat]. destruct (HP v) as (_ & H & _).
  rewrite in_app_iff. intros [H0|H0]; [|exact (IH H0)]. apply in_app_or in H0 as [H0|[H0|[]]]; [exact (H H0)|discriminate].
Qed.
Definition shown (x : list R) : list (list R) := let v := map rnd (firstn n x) in if fits v then [stored p v] else [].
(** whole lines, then a last piece without its end of line *)
Lemma body_lines l : forall t fuel e, Forall (fun x => (n <= length x)%nat) l -> ~ In nl t -> (length (concat (map (save_row print n) l) ++ t) < fuel)%nat -> (e = true -> l = [] /\ t = []) ->
  body fuel [] (dimX p) (dimY p) (in_param p) NO_CI lo hi ylo yhi {| rest := concat (map (save_row print n) l) ++ t; eofbit := e; failbit := false |} =
  (do r <- line t; Ok (flat_map shown l ++ match r with Some row => [row] | None => [] end)).
Proof.
  induction l as [|x l IH]; intros t fuel e Hl Ht Hf He; (destruct fuel as [|fuel]; [lia|]); cbn [load_body].
  - cbn [map concat app flat_map]. unfold good; cbn [eofbit failbit]. destruct e; cbn [negb andb orb].
    + destruct (He eq_refl) as [_ ->]. reflexivity.
    + cbn [rest]. unfold getline. rewrite split_line_end by assumption. destruct (line t) as [r| | |]; [|reflexivity..]. cbn [bind].
      destruct fuel; cbn [load_body good eofbit negb andb orb bind]; destruct r; reflexivity.
  - inversion Hl as [|? ? Hx Hl']; subst. destruct e; [destruct (He eq_refl); discriminate|]. unfold good; cbn [eofbit failbit negb andb orb rest].
    cbn [map concat]. unfold save_row at 1. change (concat (map (fun v => print v ++ [tab]) (firstn n x))) with (numbers print (firstn n x)). unfold endl. rewrite <- !app_assoc. cbn [app].
    unfold getline. rewrite split_line_app by apply numbers_no_nl. rewrite full_line by assumption. cbn [bind].
    rewrite IH; try assumption; try discriminate.
    2: { cbn [map concat] in Hf. rewrite <- app_assoc, app_length in Hf. unfold save_row at 1 in Hf. unfold endl in Hf. rewrite app_length in Hf. cbn [length] in Hf. lia. }
    destruct (line t) as [r| | |]; [|reflexivity..]. cbn [bind flat_map]. replace (shown x) with (if fits (map rnd (firstn n x)) then [stored p (map rnd (firstn n x))] else []) by reflexivity. destruct (fits (map rnd (firstn n x))); reflexivity.
Qed.

Definition fine (x : list R) : Prop := (n <= length x)%nat /\ Forall (fun v => Rabs (rnd v) <= flt_max) x.
Lemma fits_fine x k : Forall (fun v => Rabs (rnd v) <= flt_max) x -> fits (map rnd (firstn k x)) = true.
Proof.
  intros H. unfold fits. apply forallb_forall. intros v Hv. apply in_map_iff in Hv as (w & <- & Hw). apply rleb_spec.
  rewrite Forall_forall in H. apply H. rewrite <- (firstn_skipn k x). apply in_app_iff. left. assumption.
Qed.
Lemma shown_fine l : Forall fine l -> flat_map shown l = map (fun x => stored p (map rnd (firstn n x))) l.
Proof. induction 1 as [|x l [_ Hx] Hl IH]; [reflexivity|]. cbn [flat_map map]. rewrite IH. unfold shown. cbv zeta. rewrite fits_fine by assumption. reflexivity. Qed.
Lemma hash_free (x : list R) j q v r : nth_error x j = Some v -> print v = q ++ r -> (j <> 0%nat \/ q <> []) -> exists c t', numbers print (firstn j x) ++ q = c :: t' /\ c <> "#"%char.
Proof.
  intros Hv Hq H. destruct j as [|j].
  - destruct H as [H|H]; [contradiction|]. destruct (HP v) as ((c & t' & Et & _ & Hc) & _). destruct q as [|c' q]; [contradiction|]. rewrite Et in Hq. injection Hq as -> _.
    cbn. eexists _, _. split; [reflexivity|assumption].
  - apply numbers_begin. destruct x; [discriminate|]. discriminate.
Qed.
Lemma piece_no_nl (x : list R) j q v r : print v = q ++ r -> ~ In nl (numbers print (firstn j x) ++ q).
Proof. intros Hq H. apply in_app_or in H as [H|H]; [exact (numbers_no_nl _ H)|]. destruct (HP v) as (_ & N & _). apply N. rewrite Hq. apply in_app_iff. left. assumption. Qed.
Lemma q_head v q r : print v = q ++ r -> q <> [] -> exists c q', q = c :: q' /\ is_space c = false.
Proof. intros Hq H. destruct (HP v) as ((c & t' & Et & Hc & _) & _). destruct q as [|c' q]; [contradiction|]. rewrite Et in Hq. injection Hq as -> _. eexists _, _. split; [reflexivity|assumption]. Qed.
(** what is read from the piece of a number *)
Lemma read_piece v q r m w : print v = q ++ r -> q <> [] -> forallb is_space w = true -> read_values lex (S m) {| trest := w ++ q; tgood := true |} = match m with O => Ok ([cut_number lex q], snd (read_num lex {| trest := w ++ q; tgood := true |})) | _ => UB end.
Proof.
  intros Hq Hn Hw. cbn [read_values]. unfold read_num. cbn [tgood trest negb]. rewrite skip_ws_app by assumption.
  destruct (q_head v q r Hq Hn) as (c & q' & E & Hc). rewrite E in *. cbn [skip_ws]. rewrite Hc. unfold cut_number.
  destruct (HE v (c :: q') r Hq Hn) as [El|(u & El)]; rewrite El; destruct m; reflexivity.
Qed.
Lemma read_nothing m w : forallb is_space w = true -> read_values lex (S m) {| trest := w; tgood := true |} = UB.
Proof. intros Hw. cbn [read_values]. unfold read_num. cbn [tgood trest negb]. rewrite <- (app_nil_r w), skip_ws_app by assumption. reflexivity. Qed.
Lemma load_line_ub (t : str) : (exists c t', t = c :: t' /\ c <> "#"%char) -> read_values lex n {| trest := t; tgood := true |} = UB -> line t = UB.
Proof. intros (c & t' & -> & Hc) E. unfold load_line. destruct (aeqb_spec c "#") as [->|_]; [contradiction|]. fold n. rewrite E. reflexivity. Qed.
Lemma line_inside (x : list R) j v q r : (n <= length x)%nat -> (j < n)%nat -> nth_error x j = Some v -> print v = q ++ r ->
  (q = [] /\ j <> 0%nat \/ q <> [] /\ S j <> n) -> line (numbers print (firstn j x) ++ q) = UB.
Proof.
  intros L Hj Hv Hq C. apply load_line_ub; [apply (hash_free x j q v r); try assumption; destruct C as [[_ ?]|[? _]]; [left|right]; assumption|].
  assert (Lf : length (firstn j x) = j) by (rewrite firstn_length; lia).
  pose proof (read_numbers (firstn j x) (n - j) [] q eq_refl) as E. rewrite Lf in E. replace (j + (n - j))%nat with n in E by lia. cbn [app] in E. rewrite E.
  assert (U : read_values lex (n - j) {| trest := match firstn j x with [] => [] | _ => [tab] end ++ q; tgood := true |} = UB).
  { destruct (n - j)%nat as [|m] eqn:Em; [lia|]. destruct C as [[-> Hj0]|[Hn Hj0]].
    - rewrite app_nil_r. apply read_nothing. destruct (firstn j x); reflexivity.
    - rewrite (read_piece v q r) by (try assumption; destruct (firstn j x); reflexivity). destruct m; [lia|reflexivity]. }
  rewrite U. reflexivity.
Qed.
Lemma line_last (x : list R) j v q r : (n <= length x)%nat -> S j = n -> nth_error x j = Some v -> print v = q ++ r -> q <> [] ->
  line (numbers print (firstn j x) ++ q) = Ok (if fits (map rnd (firstn j x) ++ [cut_number lex q]) then Some (stored p (map rnd (firstn j x) ++ [cut_number lex q])) else None).
Proof.
  intros L Hj Hv Hq Hn.
  assert (Lf : length (firstn j x) = j) by (rewrite firstn_length; lia).
  pose proof (read_numbers (firstn j x) 1 [] q eq_refl) as E. rewrite Lf in E. replace (j + 1)%nat with n in E by lia. cbn [app] in E.
  rewrite (read_piece v q r) in E by (try assumption; destruct (firstn j x); reflexivity). cbn [bind fst snd] in E.
  eapply line_of_values; [apply (hash_free x j q v r); auto|exact E|]. rewrite app_length, map_length. cbn. lia.
Qed.

(** ** whole files *)
Hypothesis Hin : parse_input (get_name_in (in_param p)) = in_param p.
Hypothesis Hout : parse_output (get_name_out (out_param p)) = out_param p.
Lemma save_text_app l t : save_text print p l ++ t = endl (lit "#DIM " ++ print_nat (dimX p) ++ lit " " ++ print_nat (dimY p)) ++
    endl (lit "#PARAM_IN  " ++ get_name_in (in_param p)) ++ endl (lit "#PARAM_OUT " ++ get_name_out (out_param p)) ++ concat (map (save_row print n) l) ++ t.
Proof. unfold save_text. fold n. rewrite <- !app_assoc. reflexivity. Qed.
Lemma load_piece l t : Forall fine l -> ~ In nl t -> ~ begins "#" t ->
  load_text lex stod atof flt_max (save_text print p l ++ t) [] =
  (do r <- line t; Ok (mkText p (map (fun x => stored p (map rnd (firstn n x))) l ++ match r with Some row => [row] | None => [] end))).
Proof.
  intros Hl Ht Hb. unfold load_text. rewrite save_text_app. rewrite text_header_parse.
  2: { destruct l as [|x l]; [exact Hb|]. inversion Hl as [|? ? [Hx _] _]; subst. cbn [map concat]. unfold save_row at 1, endl.
       change (concat (map (fun v => print v ++ [tab]) (firstn n x))) with (numbers print (firstn n x)). rewrite <- !app_assoc.
       destruct (numbers_begin (firstn n x) ([nl] ++ concat (map (save_row print n) l) ++ t)) as (c & t' & E & Hc).
       - intros H0. apply (f_equal (@length _)) in H0. rewrite firstn_length in H0. cbn in H0. lia.
       - rewrite E. intros [u Hu]. injection Hu as Hu _. congruence. }
  set (hd := [(lit "DIM", _); _; _]).
  unfold load_data_from_text. change (is_defined hd "DIM"%string) with true. cbn [negb].
  change (get_pair_int hd "DIM"%string) with (get_pair_int hd (lit "DIM")). rewrite (get_pair_dim (dimX p) (dimY p)) by reflexivity.
  replace ((Z.of_nat (dimX p) <? 0)%Z || (Z.of_nat (dimY p) <? 0)%Z) with false by (symmetry; apply orb_false_iff; split; apply Z.ltb_ge; lia).
  rewrite !Nat2Z.id. destruct (Nat.eqb_spec (dimX p + 3 * dimY p) 0) as [|_]; [unfold n in *; lia|]. cbv zeta.
  assert (G1 : get_string hd "PARAM_IN"%string "UNKNOWN_INPUT"%string = get_name_in (in_param p)) by (destruct (in_param p); reflexivity).
  assert (G2 : get_string hd "PARAM_OUT"%string "UNKNOWN_OUTPUT"%string = get_name_out (out_param p)) by (destruct (out_param p); reflexivity).
  rewrite G1, G2, Hin, Hout.
  change (ci_kind_from_number (get_int hd "VS"%string 0%Z)) with NO_CI.
  change (get_vec_num atof [] "min"%string (dimX p) (- flt_max)) with lo. change (get_vec_num atof [] "max"%string (dimX p) flt_max) with hi.
  change (get_vec_num atof [] "ymin"%string (dimY p) (- flt_max)) with ylo. change (get_vec_num atof [] "ymax"%string (dimY p) flt_max) with yhi.
  rewrite body_lines.
  - cbn [rest]. destruct (line t) as [r| | |]; [|reflexivity..]. cbn [bind]. rewrite shown_fine by assumption. rewrite <- par_eta. reflexivity.
  - eapply Forall_impl; [|exact Hl]. intros x [H _]; exact H.
  - assumption.
  - cbn [rest]. lia.
  - destruct (concat (map (save_row print n) l) ++ t) as [|c u] eqn:E; [|discriminate]. intros _. apply app_eq_nil in E as [E ->]. split; [|reflexivity].
    destruct l; [reflexivity|]. cbn [map concat] in E. unfold save_row at 1, endl in E. apply (f_equal (@length _)) in E. rewrite !app_length in E. cbn in E. lia.
Qed.
Definition kept (samples : list (list R)) k : list (list R) := map (fun x => stored p (map rnd (firstn n x))) (firstn k samples).
Lemma fine_firstn samples k : Forall fine samples -> Forall fine (firstn k samples).
Proof. intros H. rewrite <- (firstn_skipn k samples) in H. apply Forall_app in H as [H _]. exact H. Qed.
Lemma begins_of c t' : c <> "#"%char -> ~ begins "#" (c :: t').
Proof. intros H [u Hu]. injection Hu as Hu _. congruence. Qed.
Theorem cut_lines samples k : Forall fine samples -> load_text lex stod atof flt_max (save_text print p (firstn k samples)) [] = Ok (mkText p (kept samples k)).
Proof.
  intros H. rewrite <- (app_nil_r (save_text print p (firstn k samples))). rewrite load_piece; [|apply fine_firstn; assumption|intros []|intros [u Hu]; discriminate].
  cbn [load_line bind]. rewrite app_nil_r. reflexivity.
Qed.
Theorem cut_line_end samples k x : Forall fine samples -> nth_error samples k = Some x ->
  load_text lex stod atof flt_max (save_text print p (firstn k samples) ++ numbers print (firstn n x)) [] = Ok (mkText p (kept samples (S k))).
Proof.
  intros H Hk. assert (Hx : fine x) by (rewrite Forall_forall in H; apply H; eapply nth_error_In; eassumption). destruct Hx as [L Hf].
  rewrite load_piece; [|apply fine_firstn; assumption|apply numbers_no_nl|].
  - rewrite full_line by assumption. rewrite fits_fine by assumption. cbn [bind]. f_equal. f_equal. unfold kept.
    rewrite (firstn_S_nth samples k x) by assumption. rewrite map_app. reflexivity.
  - destruct (numbers_begin (firstn n x) []) as (c & t' & E & Hc).
    + intros H0. apply (f_equal (@length _)) in H0. rewrite firstn_length in H0. cbn in H0. lia.
    + rewrite app_nil_r in E. rewrite E. apply begins_of. assumption.
Qed.
Theorem cut_inside samples k x j v q r : Forall fine samples -> nth_error samples k = Some x -> (j < n)%nat -> nth_error x j = Some v -> print v = q ++ r ->
  (q = [] /\ j <> 0%nat \/ q <> [] /\ S j <> n) -> load_text lex stod atof flt_max (save_text print p (firstn k samples) ++ numbers print (firstn j x) ++ q) [] = UB.
Proof.
  intros H Hk Hj Hv Hq C. assert (Hx : fine x) by (rewrite Forall_forall in H; apply H; eapply nth_error_In; eassumption). destruct Hx as [L Hf].
  rewrite load_piece; [|apply fine_firstn; assumption|apply (piece_no_nl x j q v r); assumption|].
  - rewrite (line_inside x j v q r) by assumption. reflexivity.
  - destruct (hash_free x j q v r) as (c & t' & E & Hc); try assumption; [destruct C as [[_ ?]|[? _]]; [left|right]; assumption|]. rewrite E. apply begins_of. assumption.
Qed.
Theorem cut_last samples k x j v q r : Forall fine samples -> nth_error samples k = Some x -> S j = n -> nth_error x j = Some v -> print v = q ++ r -> q <> [] ->
  load_text lex stod atof flt_max (save_text print p (firstn k samples) ++ numbers print (firstn j x) ++ q) [] =
  Ok (mkText p (kept samples k ++ if rleb (Rabs (cut_number lex q)) flt_max then [stored p (map rnd (firstn j x) ++ [cut_number lex q])] else [])).
Proof.
  intros H Hk Hj Hv Hq Hn. assert (Hx : fine x) by (rewrite Forall_forall in H; apply H; eapply nth_error_In; eassumption). destruct Hx as [L Hf].
  rewrite load_piece; [|apply fine_firstn; assumption|apply (piece_no_nl x j q v r); assumption|].
  - rewrite (line_last x j v q r) by assumption. cbn [bind]. unfold fits. rewrite forallb_app. fold (fits (map rnd (firstn j x))). rewrite fits_fine by assumption. cbn [forallb andb].
    rewrite andb_true_r. destruct (rleb _ _); reflexivity.
  - destruct (hash_free x j q v r) as (c & t' & E & Hc); try assumption; [right; assumption|]. rewrite E. apply begins_of. assumption.
Qed.
Theorem every_cut samples m : Forall (fun x => (n <= length x)%nat) samples -> (length (save_text print p []) <= m)%nat -> cut_file print p samples (firstn m (save_text print p samples)).
Proof.
  intros Hn Hm. assert (E : forall l, save_text print p l = save_text print p [] ++ concat (map (save_row print n) l)).
  { intros l. rewrite <- (app_nil_r (save_text print p l)). rewrite !save_text_app. cbn [map concat app]. rewrite app_nil_r. reflexivity. }
  rewrite E. rewrite firstn_app, firstn_all2 by assumption.
  destruct (cut_cases print n samples (m - length (save_text print p [])) Hn) as [k Hk|k x Hx|k x j v q r Hx Hj Hv Hq].
  - rewrite <- E. apply Cut_lines. assumption.
  - rewrite app_assoc, <- E. apply Cut_line_end. assumption.
  - rewrite app_assoc, <- E. eapply Cut_number; eassumption.
Qed.
End Load.

(** whole numbers meet the contract *)
Lemma scan_uint_digits q : Forall (fun c => is_digit c = true) q -> snd (scan_uint q) = [].
Proof.
  induction q as [|c q IH]; [reflexivity|]. intros H. inversion H as [|? ? Hc Hq]; subst. cbn [scan_uint]. unfold is_digit in Hc. destruct (digit_of c); [|discriminate].
  specialize (IH Hq). destruct (scan_uint q) as [d r]. exact IH.
Qed.
Lemma digits_prefix q r t : Forall (fun c => is_digit c = true) t -> t = q ++ r -> Forall (fun c => is_digit c = true) q.
Proof. intros H ->. apply Forall_app in H as [H _]. exact H. Qed.
Lemma demo_digits q : Forall (fun c => is_digit c = true) q -> q <> [] -> demo_lex q = None \/ exists w, demo_lex q = Some (w, []).
Proof.
  intros H Hn. destruct q as [|c q]; [contradiction|]. inversion H as [|? ? Hc Hq]; subst.
  unfold demo_lex, scan_int. cbn [skip_ws]. rewrite digit_not_space by assumption.
  assert (Es : scan_sign (c :: q) = (false, c :: q)).
  { unfold scan_sign. destruct (Ascii.ascii_dec c "-") as [->|N1]; [discriminate|]. destruct (Ascii.ascii_dec c "+") as [->|N2]; [discriminate|].
    destruct c as [[] [] [] [] [] [] [] []]; try reflexivity; contradiction. }
  rewrite Es. pose proof (scan_uint_digits (c :: q) H) as E. destruct (scan_uint (c :: q)) as [d r]. cbn [snd] in E. subst r. destruct d; eauto.
Qed.
Lemma demo_prefixes : prefixes_end demo_lex demo_print.
Proof.
  intros v q r E Hn. unfold demo_print in E. set (z := Int_part v) in *. clearbody z.
  assert (D : forall u, print_N u = q ++ r -> demo_lex q = None \/ exists w, demo_lex q = Some (w, [])).
  { intros u Eu. apply demo_digits; [|assumption]. eapply digits_prefix; [|exact Eu]. apply print_N_digits. }
  destruct z as [|u|u]; unfold print_Z in E.
  - exact (D _ E).
  - exact (D _ E).
  - destruct q as [|c q]; [contradiction|]. injection E as <- E.
    assert (F : Forall (fun c => is_digit c = true) q) by (eapply digits_prefix; [|exact E]; apply print_N_digits).
    unfold demo_lex, scan_int. cbn [skip_ws is_space]. change (is_space "-"%char) with false. cbv iota. cbn [scan_sign].
    pose proof (scan_uint_digits q F) as E'. destruct (scan_uint q) as [d t]. cbn [snd] in E'. subst t. destruct d; eauto.
Qed.

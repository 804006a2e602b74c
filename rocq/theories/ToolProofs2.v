(** When each program succeeds, and what it then writes. *)
From Coq Require Import List ZArith Reals Lia.
From Verif Require Import Base Num ArgsModel ArgsProofs ParamsModel GeoModel DataModel MetricsModel ConvModel ToolModel ToolSpec ToolProofs.

Ltac flags := repeat match goal with
  | K : negb _ = false |- _ => apply Bool.negb_false_iff in K
  | K : negb _ = true |- _ => apply Bool.negb_true_iff in K
  | K : (_ || _)%bool = false |- _ => apply Bool.orb_false_iff in K; destruct K
  | K : (_ || _)%bool = true |- _ => apply Bool.orb_true_iff in K
  | K : (_ && _)%bool = true |- _ => apply Bool.andb_true_iff in K; destruct K
  | K : is_defined _ _ = true |- _ => apply defined_given in K
  | K : is_defined _ _ = false |- _ => apply undefined_given in K
  end.
Ltac back := repeat match goal with
  | K : given _ _ |- _ => apply defined_given in K
  | K : ~ given _ _ |- _ => apply undefined_given in K
  end.
Ltac go := repeat first
  [ rewrite andthen_ret | rewrite andthen_call | rewrite andthen_load | rewrite andthen_function | rewrite andthen_catch | rewrite andthen_stats
  | rewrite andthen_save | rewrite andthen_write | rewrite andthen_assoc
  | match goal with K : ?x = _ |- context[?x] => rewrite K end ];
  cbn [negb andb orb snd fst].

Lemma str_eqb_eq a b : str_eqb a b = true -> a = b.
Proof. destruct (str_eqb_spec a b); [auto|discriminate]. Qed.

Lemma pair_disk (d d' : disk) (c c' : outcome Z) : (d, c) = (d', c') -> d' = d.
Proof. congruence. Qed.

Section Success.
Context {D F Ft : Type}.
Variable w : world D F Ft.

Lemma unit_ok (t : str * outcome unit) u : snd t = Ok u -> t = (fst t, Ok tt).
Proof. destruct t as [a b]. cbn. intros ->. destruct u. reflexivity. Qed.

Lemma data2brdf_success argv d d' : data2brdf w argv d = (d', Ok 0%Z) <-> exists a, options argv a /\
  (given a (lit "help") /\ d' = d \/
   ~ given a (lit "help") /\ exists ft, w_get_fitter w (val a (lit "fitter")) = Ok (Some ft) /\
     (given a (lit "available_params") /\ d' = d \/
      ~ given a (lit "available_params") /\ given a (lit "input") /\ given a (lit "output") /\
      exists ft' x f x1 f1 x2 f2 l2 linf text,
        w_set_parameters w ft a = Ok ft' /\
        holds_data w d (val a (lit "input")) (val a (lit "data")) a x /\
        w_get_function w a (w_par w x) = Ok (Some f) /\ w_size w x <> 0%nat /\
        w_check w x f a = Ok (x1, f1) /\ w_fit w ft' x1 f1 a = Ok (true, x2, f2) /\
        w_L2 w f2 x2 = Ok l2 /\ w_Linf w f2 x2 = Ok linf /\
        w_function_text w f2 (update (update a (lit "L2") (w_show w l2)) (lit "Linf") (w_show w linf)) = (text, Ok tt) /\
        d' = after_write w d (val a (lit "output")) text)).
Proof.
  split.
  - intros H. unfold data2brdf, save_function in H. paths H; try discriminate H; apply pair_disk in H; subst d'; flags; eexists; (split; [eassumption|]).
    + left. auto.
    + right. split; [assumption|]. eexists. split; [eassumption|]. left. auto.
    + right. split; [assumption|]. eexists. split; [eassumption|]. right. do 3 (split; [assumption|]).
      do 10 eexists. split; [eassumption|]. split; [eexists; split; eassumption|]. split; [eassumption|]. split; [apply Nat.eqb_neq; eassumption|].
      split; [eassumption|]. split; [eassumption|]. split; [eassumption|]. split; [eassumption|]. split; [eapply unit_ok; eassumption|].
      f_equal. apply find_filename. eapply argv_map_ok. eassumption.
  - intros (a & O & [[G ->]|(G & ft & Hf & [[G2 ->]|(G2 & G3 & G4 & ft' & x & f & x1 & f1 & x2 & f2 & l2 & linf & text & H1 & (c & H2 & H2') & H3 & H4 & H5 & H6 & H7 & H8 & H9 & ->)])]);
      unfold options in O; back; unfold data2brdf, save_function; change at_key with val; rewrite andthen_call, O.
    + rewrite G. reflexivity.
    + rewrite G. rewrite andthen_call. rewrite Hf. rewrite G2. reflexivity.
    + rewrite G. rewrite andthen_call. rewrite Hf. rewrite G2, G3, G4. cbn [negb]. rewrite andthen_call, H1, andthen_load, H2, H2', andthen_call, H3.
      apply Nat.eqb_neq in H4. rewrite H4, andthen_call, H5, andthen_call, H6, andthen_call, H7, andthen_call, H8, andthen_write, H9.
      cbn [snd fst]. unfold ret. change (val (update ?x ?y ?z)) with (at_key (update x y z)). rewrite find_filename by (eapply argv_map_ok; eassumption). reflexivity.
Qed.

Lemma brdf2brdf_success argv d d' : brdf2brdf w argv d = (d', Ok 0%Z) <-> exists a, options argv a /\
  (given a (lit "help") /\ d' = d \/
   ~ given a (lit "help") /\ given a (lit "input") /\ given a (lit "output") /\
     exists f text, holds_function w d (val a (lit "input")) f /\ w_function_text w f a = (text, Ok tt) /\ d' = after_write w d (val a (lit "output")) text).
Proof.
  split.
  - intros H. unfold brdf2brdf, save_function in H. paths H; try discriminate H; apply pair_disk in H; subst d'; flags; eexists; (split; [eassumption|]).
    + left. auto.
    + right. do 3 (split; [assumption|]). do 2 eexists. split; [eexists; split; eassumption|]. split; [eapply unit_ok; eassumption|reflexivity].
  - intros (a & O & [[G ->]|(G & G2 & G3 & f & text & (c & H1 & H2) & H3 & ->)]); unfold options in O; back; unfold brdf2brdf, save_function; change at_key with val; rewrite andthen_call, O, G; [reflexivity|].
    rewrite G2, G3. cbn [negb]. rewrite andthen_function, H1, H2, andthen_write, H3. reflexivity.
Qed.

Lemma data_ok x name d u : w_save_throws w x && negb (w_writable w name) = false -> snd (w_data_text w x) = Ok u ->
  exists text, w_data_text w x = (text, Ok tt) /\
    (w_writable w name = true /\ after_write w d name (fst (w_data_text w x)) = put d name text \/ w_save_throws w x = false /\ w_writable w name = false /\ after_write w d name (fst (w_data_text w x)) = d).
Proof.
  intros H K. exists (fst (w_data_text w x)). split; [apply (unit_ok _ u); assumption|]. unfold after_write. destruct (w_writable w name); [auto|]. right.
  destruct (w_save_throws w x); [discriminate|auto].
Qed.
Lemma save_data_ok {B} x name text d d' (k : prog B) : w_data_text w x = (text, Ok tt) ->
  (w_writable w name = true /\ d' = put d name text \/ w_save_throws w x = false /\ w_writable w name = false /\ d' = d) ->
  andthen (save_data w x name) (fun _ => k) d = k d'.
Proof.
  intros E H. rewrite andthen_save, andthen_write, E. unfold after_write. cbn [fst snd]. destruct H as [[-> ->]|(-> & -> & ->)]; [rewrite Bool.andb_false_r|]; reflexivity.
Qed.

Lemma brdf2data_success argv d d' : brdf2data w argv d = (d', Ok 0%Z) <-> exists a, options argv a /\
  (given a (lit "help") /\ d' = d \/
   ~ given a (lit "help") /\ given a (lit "input") /\ given a (lit "output") /\ exists x f, template w d a x /\ holds_function w d (val a (lit "input")) f /\
     match x with
     | None => d' = d
     | Some x => exists y text, w_evaluate w f x (is_defined a (lit "export-diff")) = Ok y /\ w_data_text w y = (text, Ok tt) /\
         (w_writable w (val a (lit "output")) = true /\ d' = put d (val a (lit "output")) text \/ w_save_throws w y = false /\ w_writable w (val a (lit "output")) = false /\ d' = d)
     end).
Proof.
  split; intros H.
  { unfold brdf2data in H. change at_key with val in *. paths H; try discriminate H; apply pair_disk in H; subst d'; eexists; (split; [eassumption|]).
    1: (left; flags; auto).
    all: right; subst; match goal with K : negb (is_defined ?a (lit "data")) && negb ?b = false |- _ =>
           assert (T : b = true \/ given a (lit "data")) by first [left; reflexivity | right; apply defined_given; destruct (is_defined a (lit "data")); [reflexivity|discriminate K]]; clear K end;
         flags; do 3 (split; [assumption|]); do 2 eexists;
         (split; [first [left; split; [assumption|]; eexists; split; eassumption|right; split; [assumption|]; split; [destruct T; [discriminate|assumption]|eassumption]]|]);
         (split; [eexists; split; eassumption|]); try reflexivity.
    all: match goal with K : snd (w_data_text w ?y) = Ok ?u, B : _ && _ = false |- _ => destruct (data_ok y _ d u B K) as (text & T1 & T2) end; do 2 eexists; split; [eassumption|]; split; [exact T1|exact T2]. }
  { destruct H as (a & O & [[G ->]|(G & G2 & G3 & x & f & Ht & (c & H1 & H2) & H3)]); unfold options in O; back; unfold brdf2data; change at_key with val; rewrite andthen_call, O, G; [reflexivity|].
    rewrite G2, G3. cbn [negb]. assert (E : negb (is_defined a (lit "data")) && negb (is_defined a (lit "data-file")) = false).
    { destruct Ht as [[K _]|(_ & K & _)]; apply defined_given in K; rewrite K; [apply Bool.andb_false_r|reflexivity]. }
    rewrite E. destruct Ht as [[K (c' & K1 & K2)]|(K & _ & K1)]; back; rewrite K; [rewrite andthen_load, K1, K2|rewrite andthen_assoc, andthen_call, K1, andthen_ret];
      rewrite andthen_function, H1, H2; (destruct x as [x|]; [|subst; reflexivity]); destruct H3 as (y & text & H3 & H4 & H5); rewrite andthen_call, H3;
      rewrite (save_data_ok y _ text d d' _ H4 H5); reflexivity. }
Qed.

Lemma data2data_success argv d d' : data2data w argv d = (d', Ok 0%Z) <-> exists a, options argv a /\
  ((given a (lit "help") \/ given a (lit "help-params")) /\ d' = d \/
   ~ (given a (lit "help") \/ given a (lit "help-params")) /\ given a (lit "input") /\ given a (lit "output") /\
   exists x y, holds_data w d (val a (lit "input")) (val a (lit "in-data")) a x /\ converts_to w a x y /\
     (val a (lit "out-data") = lit "alta-binary" /\ w_writable w (val a (lit "output")) = true /\
        (exists text, w_data_binary w y = (text, Ok tt) /\ d' = put d (val a (lit "output")) text) \/
      val a (lit "out-data") <> lit "alta-binary" /\
        exists text, w_data_text w y = (text, Ok tt) /\
         (w_writable w (val a (lit "output")) = true /\ d' = put d (val a (lit "output")) text \/ w_save_throws w y = false /\ w_writable w (val a (lit "output")) = false /\ d' = d))).
Proof.
  assert (CV : forall a x p y0 y, compute_parameters (w_par w x) (val a (lit "param")) = Some p ->
      w_get_data w (if str_eqb (val a (lit "out-data")) (lit "alta-binary") then lit "vertical_segment" else val a (lit "out-data")) (w_size w x) p a = Ok (Some y0) ->
      convert_data w x y0 a = Ok y -> converts_to w a x y).
  { intros a x p y0 y H1 H2 H3. exists p, y0. split; [assumption|]. split; [assumption|]. unfold convert_data in H3. destruct (w_is_segment w y0) eqn:E1; cbn [orb] in H3.
    - left. split; [auto|]. destruct (is_defined a (lit "all-values")) eqn:E2; flags; auto.
    - destruct (is_defined a (lit "splat")) eqn:E2; flags; [left|right; auto]. split; [auto|]. destruct (is_defined a (lit "all-values")) eqn:E3; flags; auto. }
  split; intros H.
  { unfold data2data in H. change at_key with val in *. paths H; try discriminate H; apply pair_disk in H; subst d'; eexists; (split; [eassumption|]).
    1,2: left; flags; auto.
    all: right; flags; split; [tauto|]; do 2 (split; [assumption|]); do 2 eexists; split; [eexists; split; eassumption|]; split; [eapply CV; [eassumption|match goal with K : str_eqb _ _ = _ |- _ => rewrite K end; subst; eassumption|eassumption]|].
    + left. match goal with K : str_eqb _ _ = true |- _ => apply str_eqb_eq in K end. split; [assumption|]. split; [assumption|]. eexists. split; [eapply unit_ok; eassumption|].
      unfold after_write. match goal with K : w_writable _ _ = true |- _ => rewrite K end. reflexivity.
    + right. split; [intros K; rewrite K in *; discriminate|].
      match goal with K : snd (w_data_text w ?y) = Ok ?u, B : _ && _ = false |- _ => destruct (data_ok y _ d u B K) as (text & T1 & T2) end. exists text. split; [exact T1|exact T2]. }
  { destruct H as (a & O & [[G ->]|(G & G2 & G3 & x & y & (c & H1 & H2) & (p & y0 & C1 & C2 & C3) & H3)]); unfold options in O; unfold data2data; change at_key with val; rewrite andthen_call, O.
    + destruct (is_defined a (lit "help")) eqn:E1; [reflexivity|]. destruct (is_defined a (lit "help-params")) eqn:E2; [reflexivity|]. flags. tauto.
    + assert (E1 : is_defined a (lit "help") = false) by (apply undefined_given; tauto). assert (E2 : is_defined a (lit "help-params") = false) by (apply undefined_given; tauto).
      back. rewrite E1, E2, G2, G3. cbn [negb]. rewrite andthen_load, H1, H2, C1, andthen_call, C2, andthen_call.
      assert (CD : convert_data w x y0 a = Ok y).
      { unfold convert_data. destruct C3 as [[C3 C4]|(C3 & C4 & C5)].
        - assert (E : w_is_segment w y0 || is_defined a (lit "splat") = true) by (apply Bool.orb_true_iff; destruct C3; [auto|right; apply defined_given; assumption]). rewrite E.
          destruct C4 as [[K C4]|[K C4]]; back; rewrite K; assumption.
        - back. rewrite C3, C4. assumption. }
      rewrite CD. destruct H3 as [(B & W & text & T & ->)|(B & text & T & H5)].
      * rewrite B. change (str_eqb (lit "alta-binary") (lit "alta-binary")) with true. cbn match. rewrite W, andthen_write, T. cbn [fst snd]. unfold after_write. rewrite W. reflexivity.
      * destruct (str_eqb_spec (val a (lit "out-data")) (lit "alta-binary")); [contradiction|]. rewrite (save_data_ok y _ text d d' _ T H5). reflexivity. }
Qed.

(** what brdf2gnuplot draws *)
Lemma after_twice d name t1 t2 n : after_write w (after_write w d name t1) name t2 n = after_write w d name t2 n.
Proof. unfold after_write. destruct (w_writable w name); [|reflexivity]. unfold put. destruct (str_eqb n name); reflexivity. Qed.

Lemma brdf2gnuplot_success argv d d' : brdf2gnuplot w argv d = (d', Ok 0%Z) -> exists a, options argv a /\
  (given a (lit "help") /\ d' = d \/
   ~ given a (lit "help") /\ given a (lit "input") /\ given a (lit "output") /\ exists f, holds_function w d (val a (lit "input")) f /\
     ((given a (lit "data") \/ given a (lit "data-file")) /\
        (exists x text, holds_data w d (val a (lit "data-file")) (val a (lit "data")) a x /\ w_plot w f x (kind_of a) (is_defined a (lit "cos-plot")) = (text, Ok tt) /\
           forall n, d' n = after_write w d (val a (lit "output")) text n) \/
      ~ (given a (lit "data") \/ given a (lit "data-file")) /\ given a (lit "polar-plot") /\
        (exists text, w_polar w f (get_num (w_atof w) a (lit "inc-angle") 0%R) (Z.quot (get_int a (lit "samples") 100) 2) = (text, Ok tt) /\
           forall n, d' n = after_write w d (val a (lit "output")) text n) \/
      ~ (given a (lit "data") \/ given a (lit "data-file")) /\ ~ given a (lit "polar-plot") /\ d' = d)).
Proof.
  intros H. unfold brdf2gnuplot in H. fold (kind_of) in H. change at_key with val in *. paths H; try discriminate H; apply pair_disk in H; subst d'; eexists; (split; [eassumption|]).
  - left. flags. auto.
  - right. flags. do 3 (split; [assumption|]). eexists. split; [eexists; split; eassumption|]. left.
    split; [match goal with K : _ = true \/ _ = true |- _ => destruct K; [left|right]; apply defined_given; assumption end|].
    do 2 eexists. split; [eexists; split; eassumption|]. split; [eapply unit_ok; eassumption|]. intros n. apply after_twice.
  - right. flags. do 3 (split; [assumption|]). eexists. split; [eexists; split; eassumption|]. right. left. split; [tauto|]. split; [assumption|].
    eexists. split; [eapply unit_ok; eassumption|]. reflexivity.
  - right. flags. do 3 (split; [assumption|]). eexists. split; [eexists; split; eassumption|]. right. right. split; [tauto|]. split; [assumption|reflexivity].
Qed.

Lemma data2moments_success argv d d' : data2moments w argv d = (d', Ok 0%Z) <-> exists a, options argv a /\
  (given a (lit "help") /\ d' = d \/
   ~ given a (lit "help") /\ given a (lit "input") /\ given a (lit "output") /\ given a (lit "data") /\ exists x text,
     holds_data w d (val a (lit "input")) (val a (lit "data")) a x /\ w_is_segment w x = false /\ w_moments w x a = (text, Ok tt) /\ d' = after_write w d (val a (lit "output")) text).
Proof.
  split; intros H.
  { unfold data2moments in H. change at_key with val in *. paths H; try discriminate H; apply pair_disk in H; subst d'; flags; eexists; (split; [eassumption|]); [left; auto|].
    right. do 4 (split; [assumption|]). do 2 eexists. split; [eexists; split; eassumption|]. split; [assumption|]. split; [eapply unit_ok; eassumption|reflexivity]. }
  destruct H as (a & O & [[G ->]|(G & G2 & G3 & G4 & x & text & (c & H1 & H2) & H3 & H4 & ->)]); unfold options in O; back; unfold data2moments; change at_key with val; rewrite andthen_call, O, G; [reflexivity|].
  rewrite G2, G3, G4. cbn [negb]. rewrite andthen_load, H1, H2, H3, andthen_write, H4. reflexivity.
Qed.

(** the statistics programs *)
Lemma val_given a k : val a k <> [] -> given a k.
Proof. unfold val, given. destruct (map_find k a); [eauto|congruence]. Qed.

Lemma fit2stat_success argv d d' : fit2stat w argv d = (d', Ok 0%Z) <-> exists a, options argv a /\
  ((given a (lit "help") \/ given a (lit "h")) /\ d' = d \/
   ~ (given a (lit "help") \/ given a (lit "h")) /\ given a (lit "brdf") /\ given a (lit "input") /\ exists x f r l2 linf,
     holds_data w d (val a (lit "input")) (lit "vertical_segment") a x /\ holds_function w d (val a (lit "brdf")) f /\
     w_fit_stats w x f = Ok r /\ w_L2 w f x = Ok l2 /\ w_Linf w f x = Ok linf /\ stats_written w d d' a (fit_text w a (w_fpar w f) r)).
Proof.
  split; intros H.
  { unfold fit2stat in H. change at_key with val in *. paths H; try discriminate H; apply pair_disk in H; subst d'; flags; eexists; (split; [eassumption|]).
    1: (left; split; [match goal with K : _ = true \/ _ = true |- _ => destruct K; [left|right]; apply defined_given; assumption end|reflexivity]).
    all: right; split; [tauto|]; do 2 (split; [assumption|]); do 5 eexists; split; [eexists; split; eassumption|]; split; [eexists; split; eassumption|]; split; [eassumption|]; split; [eassumption|]; split; [eassumption|].
    - right. split; [|reflexivity]. unfold val. match goal with K : ~ given a (lit "output") |- _ => unfold given in K end. destruct (map_find (lit "output") a) eqn:E; [exfalso; eauto|reflexivity].
    - right. split; [|reflexivity]. apply str_eqb_eq. assumption.
    - left. split; [|split; [assumption|reflexivity]]. intros K. match goal with Q : str_eqb _ [] = false |- _ => change at_key with val in Q; rewrite K in Q; discriminate Q end. }
  destruct H as (a & O & [[G ->]|(G & G2 & G3 & x & f & r & l2 & linf & (c & H1 & H2) & (c' & H3 & H4) & H5 & H6 & H7 & H8)]); unfold options in O; unfold fit2stat; change at_key with val; rewrite andthen_call, O.
  - assert (E : is_defined a (lit "help") || is_defined a (lit "h") = true) by (apply Bool.orb_true_iff; destruct G; [left|right]; apply defined_given; assumption). rewrite E. reflexivity.
  - assert (E : is_defined a (lit "help") || is_defined a (lit "h") = false) by (apply Bool.orb_false_iff; split; apply undefined_given; tauto). rewrite E. back. rewrite G2, G3. cbn [negb].
    rewrite andthen_catch, H1, H2, andthen_function, H3, H4, andthen_call, H5, andthen_stats. change at_key with val.
    destruct H8 as [(N & W & ->)|(N & ->)].
    + pose proof (val_given _ _ N) as Gv. back. rewrite Gv. cbn [negb]. destruct (str_eqb_spec (val a (lit "output")) []); [contradiction|]. rewrite W, andthen_call, H6, andthen_call, H7. reflexivity.
    + rewrite N. destruct (negb _); rewrite andthen_call, H6, andthen_call, H7; reflexivity.
Qed.

Lemma data2stats_success argv d d' : data2stats w argv d = (d', Ok 0%Z) <-> exists a, options argv a /\
  ((given a (lit "help") \/ given a (lit "h")) /\ d' = d \/
   ~ (given a (lit "help") \/ given a (lit "h")) /\ given a (lit "ref") /\ given a (lit "input") /\ exists x y m,
     holds_data w d (val a (lit "input")) (val a (lit "in-data")) [] x /\ holds_data w d (val a (lit "ref")) (val a (lit "ref-data")) [] y /\
     w_data_stats w x y = Ok m /\ stats_written w d d' a (stats_text w a (w_par w y) m)).
Proof.
  split; intros H.
  { unfold data2stats in H. change at_key with val in *. paths H; try discriminate H; apply pair_disk in H; subst d'; flags; eexists; (split; [eassumption|]).
    1: (left; split; [match goal with K : _ = true \/ _ = true |- _ => destruct K; [left|right]; apply defined_given; assumption end|reflexivity]).
    all: right; split; [tauto|]; do 2 (split; [assumption|]); do 3 eexists; split; [eexists; split; eassumption|]; split; [eexists; split; eassumption|]; split; [eassumption|].
    - right. split; [|reflexivity]. unfold val. match goal with K : ~ given a (lit "output") |- _ => unfold given in K end. destruct (map_find (lit "output") a) eqn:E; [exfalso; eauto|reflexivity].
    - right. split; [|reflexivity]. apply str_eqb_eq. assumption.
    - left. split; [|split; [assumption|reflexivity]]. intros K. match goal with Q : str_eqb _ [] = false |- _ => change at_key with val in Q; rewrite K in Q; discriminate Q end. }
  destruct H as (a & O & [[G ->]|(G & G2 & G3 & x & f & r & (c & H1 & H2) & (c' & H3 & H4) & H5 & H8)]); unfold options in O; unfold data2stats; change at_key with val; rewrite andthen_call, O.
  - assert (E : is_defined a (lit "help") || is_defined a (lit "h") = true) by (apply Bool.orb_true_iff; destruct G; [left|right]; apply defined_given; assumption). rewrite E. reflexivity.
  - assert (E : is_defined a (lit "help") || is_defined a (lit "h") = false) by (apply Bool.orb_false_iff; split; apply undefined_given; tauto). rewrite E. back. rewrite G2, G3. cbn [negb].
    rewrite andthen_load, H1, H2, andthen_load, H3, H4, andthen_call, H5, andthen_stats. change at_key with val.
    destruct H8 as [(N & W & ->)|(N & ->)].
    + pose proof (val_given _ _ N) as Gv. back. rewrite Gv. cbn [negb]. destruct (str_eqb_spec (val a (lit "output")) []); [contradiction|]. rewrite W. reflexivity.
    + rewrite N. destruct (negb _); reflexivity.
Qed.
End Success.

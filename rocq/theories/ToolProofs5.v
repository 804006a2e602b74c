(** The programs: outputs that cannot be opened, silent successes, reports (C103, C104, C106). *)
From Coq Require Import Reals List ZArith Lia.
From Verif Require Import Base Num ParamsModel GeoModel ArgsModel ArgsSpec ArgsProofs DataModel MetricsModel ConvModel ToolModel ToolSpec ToolProofs ToolProofs2 ToolProofs3.

Section More.
Context {D F Ft : Type}.
Variable w : world D F Ft.

Lemma data2brdf_fits argv d d' : data2brdf w argv d = (d', Ok 0%Z) <-> exists a, options argv a /\
  (given a (lit "help") /\ d' = d \/
   ~ given a (lit "help") /\ given a (lit "available_params") /\ (exists ft, w_get_fitter w (val a (lit "fitter")) = Ok (Some ft)) /\ d' = d \/
   ~ given a (lit "help") /\ ~ given a (lit "available_params") /\ given a (lit "input") /\ given a (lit "output") /\
     exists x f l2 linf text, fits w d a x f /\ w_L2 w f x = Ok l2 /\ w_Linf w f x = Ok linf /\
       w_function_text w f (update (update a (lit "L2") (w_show w l2)) (lit "Linf") (w_show w linf)) = (text, Ok tt) /\
       d' = after_write w d (val a (lit "output")) text).
Proof.
  rewrite data2brdf_success. split; intros (a & O & H); exists a; (split; [assumption|]).
  - destruct H as [H|(H0 & ft & Hf & [(H1 & H2)|(H1 & H2 & H3 & ft' & x & f & x1 & f1 & x2 & f2 & l2 & linf & text & A1 & A2 & A3 & A4 & A5 & A6 & A7 & A8 & A9 & ->)])].
    + left. assumption.
    + right. left. split; [assumption|]. split; [assumption|]. split; [eauto|assumption].
    + right. right. do 4 (split; [assumption|]). exists x2, f2, l2, linf, text. split; [|auto]. exists ft, ft', x, f, x1, f1. auto 10.
  - destruct H as [H|[(H0 & H1 & (ft & Hf) & ->)|(H0 & H1 & H2 & H3 & x2 & f2 & l2 & linf & text & (ft & ft' & x & f & x1 & f1 & B0 & B1 & B2 & B3 & B4 & B5 & B6) & A7 & A8 & A9 & ->)]].
    + left. assumption.
    + right. split; [assumption|]. exists ft. split; [assumption|]. left. auto.
    + right. split; [assumption|]. exists ft. split; [assumption|]. right. do 3 (split; [assumption|]). exists ft', x, f, x1, f1, x2, f2, l2, linf, text. auto 15.
Qed.

Lemma deny_write (d : disk) name text : after_write (deny w name) d name text = d.
Proof. unfold after_write. cbn [w_writable deny]. destruct (str_eqb_spec name name); [reflexivity|contradiction]. Qed.

Lemma unnoticed t argv a d d' : run w t argv d = (d', Ok 0%Z) -> options argv a ->
  (t = Data2brdf \/ t = Brdf2brdf \/ t = Brdf2gnuplot \/ t = Data2moments) -> run (deny w (val a (lit "output"))) t argv d = (d, Ok 0%Z).
Proof.
  intros H O Ht.
  assert (U : forall b, options argv b -> b = a) by (intros b Ob; unfold options in *; rewrite O in Ob; apply Ok_inj in Ob; congruence).
  destruct Ht as [->|[->|[->| ->]]]; cbn [run] in *.
  - apply data2brdf_success in H. apply data2brdf_success. destruct H as (b & Ob & H). rewrite (U b Ob) in *. clear b Ob. exists a. split; [assumption|].
    destruct H as [[H _]|(H & ft & Hf & [[K _]|K])]; [left; auto|right; split; [assumption|]; exists ft; split; [exact Hf|]..].
    + left. auto.
    + right. destruct K as (K1 & K2 & K3 & ft' & x & f & x1 & f1 & x2 & f2 & l2 & linf & text & A1 & A2 & A3 & A4 & A5 & A6 & A7 & A8 & A9 & _).
      do 3 (split; [assumption|]). exists ft', x, f, x1, f1, x2, f2, l2, linf, text. rewrite deny_write. auto 15.
  - apply brdf2brdf_success in H. apply brdf2brdf_success. destruct H as (b & Ob & H). rewrite (U b Ob) in *. clear b Ob. exists a. split; [assumption|].
    destruct H as [[H _]|(H & H1 & H2 & f & text & A1 & A2 & _)]; [left; auto|right]. do 3 (split; [assumption|]). exists f, text. rewrite deny_write. auto.
  - unfold options in O. unfold brdf2gnuplot in *. change at_key with val in *. rewrite andthen_call in H |- *. rewrite O in H |- *.
    destruct (is_defined a (lit "help")); [reflexivity|]. destruct (negb (is_defined a (lit "input"))); [discriminate H|]. destruct (negb (is_defined a (lit "output"))); [discriminate H|].
    rewrite andthen_function in H |- *. cbn [w_read_function deny]. destruct (d (val a (lit "input"))) as [c|]; [|discriminate H].
    destruct (w_read_function w c) as [[f|]| | |]; try discriminate H.
    destruct (is_defined a (lit "data") || is_defined a (lit "data-file")).
    + rewrite andthen_load in H |- *. cbn [w_read_data deny]. destruct (d (val a (lit "data-file"))) as [c'|]; [|discriminate H].
      destruct (w_read_data w _ _ _) as [[[x|]|]| | |]; try discriminate H; rewrite andthen_write in H |- *; cbn [fst snd] in H |- *; try discriminate H.
      rewrite andthen_call in H |- *. cbn [w_L2 w_Linf w_plot deny]. rewrite deny_write. destruct (w_L2 w f x); try discriminate H.
      rewrite andthen_call in H |- *. destruct (w_Linf w f x); try discriminate H. rewrite andthen_write in H |- *. rewrite deny_write.
      destruct (snd (w_plot w f x _ _)); try discriminate H. reflexivity.
    + destruct (is_defined a (lit "polar-plot")); [|reflexivity]. rewrite andthen_write in H |- *. cbn [w_polar w_atof deny]. rewrite deny_write. destruct (snd (w_polar w f _ _)); try discriminate H. reflexivity.
  - apply data2moments_success in H. apply data2moments_success. destruct H as (b & Ob & H). rewrite (U b Ob) in *. clear b Ob. exists a. split; [assumption|].
    destruct H as [[H _]|(H & H1 & H2 & H3 & x & text & A1 & A2 & A3 & _)]; [left; auto|right]. do 4 (split; [assumption|]). exists x, text. rewrite deny_write. auto.
Qed.

(** the programs that test their output *)
Lemma noticed t argv a d d' : run w t argv d = (d', Ok 0%Z) -> options argv a -> ~ asks_help t a ->
  (t = Fit2stat \/ t = Data2stats \/ t = Data2data /\ val a (lit "out-data") = lit "alta-binary") ->
  val a (lit "output") <> [] -> w_writable w (val a (lit "output")) = true /\ exists text, d' = put d (val a (lit "output")) text.
Proof.
  intros H O N Ht Hn.
  assert (U : forall b, options argv b -> b = a) by (intros b Ob; unfold options in *; rewrite O in Ob; apply Ok_inj in Ob; congruence).
  destruct Ht as [->|[->|[-> E]]]; cbn [run asks_help] in *.
  - apply fit2stat_success in H. destruct H as (b & Ob & H). rewrite (U b Ob) in *. destruct H as [[H _]|(_ & _ & _ & x & f & r & l2 & linf & _ & _ & _ & _ & _ & [(_ & W & ->)|(K & _)])]; try contradiction. eauto.
  - apply data2stats_success in H. destruct H as (b & Ob & H). rewrite (U b Ob) in *. destruct H as [[H _]|(_ & _ & _ & x & f & r & _ & _ & _ & [(_ & W & ->)|(K & _)])]; try contradiction. eauto.
  - apply data2data_success in H. destruct H as (b & Ob & H). rewrite (U b Ob) in *. destruct H as [[H _]|(_ & _ & _ & x & y & _ & _ & [(_ & W & text & _ & ->)|(K & _)])]; try contradiction. eauto.
Qed.

(** nothing to plot, nothing to fill *)
Lemma silent_data argv a d f : options argv a -> ~ given a (lit "help") -> given a (lit "input") -> given a (lit "output") ->
  template w d a None -> holds_function w d (val a (lit "input")) f -> brdf2data w argv d = (d, Ok 0%Z).
Proof. intros O H1 H2 H3 Ht Hf. apply brdf2data_success. exists a. split; [assumption|]. right. do 3 (split; [assumption|]). exists None, f. auto. Qed.
Lemma silent_plot argv a d f : options argv a -> ~ given a (lit "help") -> given a (lit "input") -> given a (lit "output") ->
  ~ given a (lit "data") -> ~ given a (lit "data-file") -> ~ given a (lit "polar-plot") -> holds_function w d (val a (lit "input")) f -> brdf2gnuplot w argv d = (d, Ok 0%Z).
Proof.
  intros O H1 H2 H3 H4 H5 H6 (c & C1 & C2). unfold options in O. back. unfold brdf2gnuplot. change at_key with val. rewrite andthen_call, O, H1, H2, H3. cbn [negb]. rewrite andthen_function, C1, C2, H4, H5, H6. reflexivity.
Qed.

(** ** Reports *)
Lemma lines_of_report (head : str) (es : list (str * str)) :
  Forall (fun e => has_line (head ++ [nl] ++ flat_map (fun e => entry (fst e) (snd e)) es ++ [nl]) (fst e ++ lit " :" ++ snd e)) es.
Proof.
  revert head. induction es as [|[k v] es IH]; intros head; constructor.
  - exists head, (flat_map (fun e => entry (fst e) (snd e)) es ++ [nl]). cbn [flat_map fst snd]. unfold entry at 1. rewrite <- !app_assoc. cbn [app]. reflexivity.
  - specialize (IH (head ++ nl :: k ++ lit " :" ++ v)). cbn [flat_map fst snd]. eapply Forall_impl; [|exact IH].
    intros e (pre & post & E). exists pre, post. rewrite <- E. unfold entry at 1. rewrite <- !app_assoc. cbn [app]. rewrite <- !app_assoc. reflexivity.
Qed.
Lemma fit_lines a p (r : report) : Forall (fun e => has_line (fit_text w a p r) (fst e ++ lit " :" ++ w_show_vec w (snd e)))
  [(lit "L1", L1 (plain r)); (lit "L2", L2 (plain r)); (lit "L3", L3 (plain r)); (lit "LINF", LInf (plain r)); (lit "MSE", MSE (plain r)); (lit "RMSE", RMSE (plain r));
   (lit "MSE * cos(theta_light)", fst (by_light r)); (lit "RMSE * cos(theta_light)", snd (by_light r));
   (lit "MSE * cos(theta_light) * cos(theta_view)", fst (by_light r)); (lit "RMSE * cos(theta_light) cos(theta_view) ", snd (by_light r))].
Proof.
  set (l := [_; _; _; _; _; _; _; _; _; _]).
  pose proof (lines_of_report (lit "#FIT2STATS EXPORT. DIMENSIONS ARE THE ONE FROM THE BRDF FUNCTION" ++ [nl] ++ lit "#CMD " ++ get_cmd a ++ [nl] ++
     lit "#DIM " ++ print_nat (dimX p) ++ lit " " ++ print_nat (dimY p) ++ [nl]) (map (fun e => (fst e, w_show_vec w (snd e))) l)) as H.
  rewrite Forall_map in H. cbn [fst snd] in H. eapply Forall_impl; [|exact H]. intros e (pre & post & E). exists pre, post. etransitivity; [|exact E].
  unfold l, fit_text. cbn [map flat_map fst snd]. rewrite <- !app_assoc. cbn [app]. rewrite <- ?app_assoc. reflexivity.
Qed.
Lemma stats_lines a p (m : metrics) : Forall (fun e => has_line (stats_text w a p m) (fst e ++ lit " :" ++ w_show_vec w (snd e)))
  [(lit "L1", L1 m); (lit "L2", L2 m); (lit "L3", L3 m); (lit "LINF", LInf m); (lit "MSE", MSE m); (lit "RMSE", RMSE m)].
Proof.
  set (l := [_; _; _; _; _; _]).
  pose proof (lines_of_report (lit "#FIT2STATS EXPORT" ++ [nl] ++ lit "#CMD " ++ get_cmd a ++ [nl] ++
     lit "#DIM " ++ print_nat (dimX p) ++ lit " " ++ print_nat (dimY p) ++ [nl]) (map (fun e => (fst e, w_show_vec w (snd e))) l)) as H.
  rewrite Forall_map in H. cbn [fst snd] in H. eapply Forall_impl; [|exact H]. intros e (pre & post & E). exists pre, post. etransitivity; [|exact E].
  unfold l, stats_text. cbn [map flat_map fst snd]. rewrite <- !app_assoc. cbn [app]. rewrite <- ?app_assoc. reflexivity.
Qed.
End More.

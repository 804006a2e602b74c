(** Properties C102-C108: the command line programs. *)
From Coq Require Import Reals List ZArith Lia.
From Verif Require Import Base Num ParamsModel GeoModel ArgsModel ArgsSpec ArgsProofs DataModel TextModel TextRound MetricsModel ConvModel FuncModel FuncFile FuncFileSpec PlugModel MonoModel MonoSpec RatModel RatSpec RatFile ToolModel ToolSpec ToolProofs ToolProofs2 ToolProofs3 ToolFiles ToolProofs4 ToolProofs5.

(** ** C102: options, status and files *)
(** A program that is asked for help does nothing else and succeeds. *)
Theorem C102_help : forall {D F Ft} (w : world D F Ft) t argv a d, options argv a -> asks_help t a -> run w t argv d = (d, Ok 0%Z).
Proof. intros D F Ft. exact run_help. Qed.
Print Assumptions C102_help.

(** Without a mandatory option it fails and does nothing. *)
Theorem C102_incomplete : forall {D F Ft} (w : world D F Ft) t argv a d, options argv a -> ~ asks_help t a -> ~ complete t a -> fitter_found w t a -> run w t argv d = (d, Ok 1%Z).
Proof. intros D F Ft. exact run_incomplete. Qed.
Print Assumptions C102_incomplete.

(** However a run ends, no other file than the one named by --output has changed. *)
Theorem C102_only_output : forall {D F Ft} (w : world D F Ft) t argv d d' r, run w t argv d = (d', r) -> d' = d \/ changed w argv d d'.
Proof. intros D F Ft. exact run_disk. Qed.
Print Assumptions C102_only_output.

(** The status is 0 or 1; with status 1 no file has changed, except that data2moments
    empties its output when the data plugin cannot be opened. *)
Theorem C102_status : forall {D F Ft} (w : world D F Ft) t argv d d' c, run w t argv d = (d', Ok c) ->
  c = 0%Z \/
  c = 1%Z /\ (d' = d \/
    t = Data2moments /\ exists a, options argv a /\ no_plugin w d (val a (lit "input")) (val a (lit "data")) a /\
      w_writable w (val a (lit "output")) = true /\ d' = put d (val a (lit "output")) []).
Proof.
  intros D F Ft w t argv d d' c H. destruct (run_status w t argv d d' c H) as [->| ->]; [left; reflexivity|right]. split; [reflexivity|]. exact (run_failure w t argv d d' H).
Qed.
Print Assumptions C102_status.

(** A small world: the content of a file is the object it holds, and the type "none"
    has no plugin. *)
Definition small_metrics (r : R) := mkMetrics [r] [r] [r] [r] [r] [r].
Definition small : world str str unit :=
  mkWorld str str unit (fun n => negb (str_eqb n (lit "/dev/full")))
    (fun n => Ok (if str_eqb n (lit "none") then None else Some tt)) (fun a _ => Ok (Some (val a (lit "func"))))
    (fun t _ _ _ => Ok (if str_eqb t (lit "none") then None else Some t))
    (fun t c _ => Ok (if str_eqb t (lit "none") then Done None else if str_eqb c (lit "bad") then Failed else Done (Some c)))
    (fun c => Ok (if str_eqb c (lit "bad") then None else Some c)) (fun x f _ => Ok (x, f)) (fun _ _ => Ok 0%R) (fun _ _ => Ok 0%R) (fun _ => lit "0") (fun _ => 0%R) (fun _ => lit "v")
    (fun _ => mkParameters 2 1 STARK_2D UNKNOWN_OUTPUT) (@length ascii) (fun _ => mkParameters 2 1 STARK_2D UNKNOWN_OUTPUT)
    (fun f a => (f ++ lit " of " ++ get_cmd a, Ok tt)) (fun x => (x, Ok tt)) (fun x => (lit "binary " ++ x, Ok tt)) (fun _ => true) (fun _ => false)
    (fun f _ => Ok f) (fun _ x f _ => Ok (true, x, lit "fitted " ++ f)) (fun x y _ => Ok (x ++ y)) (fun x y => Ok (y ++ x)) (fun f x _ => Ok (f ++ x))
    (fun f x _ _ => (f ++ x, Ok tt)) (fun f _ _ => (f, Ok tt)) (fun x _ => (x, Ok tt))
    (fun _ _ => Ok (mkReport (small_metrics 1) ([2%R], [2%R]) ([3%R], [3%R]))) (fun _ _ => Ok (small_metrics 1)).
Definition small_disk : disk := fun n => if str_eqb n (lit "d.txt") then Some (lit "data") else if str_eqb n (lit "f.func") then Some (lit "lobe") else if str_eqb n (lit "b.func") then Some (lit "bad") else None.

Example C102_case :
  (let a := [(lit "help", []); (lit "input", lit "x")] in options [lit "p"; lit "--input"; lit "x"; lit "--help"] a /\ asks_help Data2data a) /\
  run small Data2data [lit "p"; lit "--input"; lit "d.txt"] small_disk = (small_disk, Ok 1%Z) /\
  ~ complete Data2data [(lit "input", lit "d.txt")] /\
  (let (d', c) := run small Data2data [lit "p"; lit "--input"; lit "d.txt"; lit "--out-data"; lit "t"; lit "--output"; lit "o"] small_disk in
     c = Ok 0%Z /\ d' (lit "o") = Some (lit "tdata") /\ d' (lit "d.txt") = Some (lit "data")) /\
  (let (d', c) := run small Data2moments [lit "p"; lit "--input"; lit "d.txt"; lit "--data"; lit "none"; lit "--output"; lit "f.func"] small_disk in
     c = Ok 1%Z /\ d' (lit "f.func") = Some []).
Proof.
  split; [split; [reflexivity|left; eexists; reflexivity]|]. split; [reflexivity|]. split; [intros [_ (v & H)]; discriminate H|]. split; vm_compute; auto.
Qed.

(** ** C103: data2brdf *)
(** data2brdf succeeds exactly when it prints help, lists the parameters of a fitter
    that exists, or: the fitter, the data and the function are found, the data is not
    empty and the fit succeeds; then the output holds the fitted function, with the
    options and the two errors of the fit. *)
Theorem C103_data2brdf : forall {D F Ft} (w : world D F Ft) argv d d', data2brdf w argv d = (d', Ok 0%Z) <-> exists a, options argv a /\
  (given a (lit "help") /\ d' = d \/
   ~ given a (lit "help") /\ given a (lit "available_params") /\ (exists ft, w_get_fitter w (val a (lit "fitter")) = Ok (Some ft)) /\ d' = d \/
   ~ given a (lit "help") /\ ~ given a (lit "available_params") /\ given a (lit "input") /\ given a (lit "output") /\
     exists x f l2 linf text, fits w d a x f /\ w_L2 w f x = Ok l2 /\ w_Linf w f x = Ok linf /\
       w_function_text w f (ArgsModel.update (ArgsModel.update a (lit "L2") (w_show w l2)) (lit "Linf") (w_show w linf)) = (text, Ok tt) /\
       d' = after_write w d (val a (lit "output")) text).
Proof. intros D F Ft. exact data2brdf_fits. Qed.
Print Assumptions C103_data2brdf.

(** A success does not mean that the output was written: data2brdf, brdf2brdf,
    brdf2gnuplot and data2moments succeed in the same way, and write nothing, when the
    output cannot be opened. *)
Theorem C103_unwritable_output_refuted : forall {D F Ft} (w : world D F Ft) t argv a d d', run w t argv d = (d', Ok 0%Z) -> options argv a ->
  (t = Data2brdf \/ t = Brdf2brdf \/ t = Brdf2gnuplot \/ t = Data2moments) -> run (deny w (val a (lit "output"))) t argv d = (d, Ok 0%Z).
Proof. intros D F Ft. exact unnoticed. Qed.
Print Assumptions C103_unwritable_output_refuted.
(** The statistics programs, and data2data for binary files, do test it. *)
Theorem C103_tested_output : forall {D F Ft} (w : world D F Ft) t argv a d d', run w t argv d = (d', Ok 0%Z) -> options argv a -> ~ asks_help t a ->
  (t = Fit2stat \/ t = Data2stats \/ t = Data2data /\ val a (lit "out-data") = lit "alta-binary") ->
  val a (lit "output") <> [] -> w_writable w (val a (lit "output")) = true /\ exists text, d' = put d (val a (lit "output")) text.
Proof. intros D F Ft. exact noticed. Qed.
Print Assumptions C103_tested_output.

Example C103_case :
  let argv := [lit "data2brdf"; lit "--input"; lit "d.txt"; lit "--output"; lit "o"; lit "--func"; lit "phong"] in
  let (d', c) := run small Data2brdf argv small_disk in
  c = Ok 0%Z /\ d' (lit "o") = Some (lit "fitted phong of  --L2 0 --Linf 0 --func phong --input d.txt --output o").
Proof. vm_compute. auto. Qed.
Example C103_denied :
  let argv := [lit "data2brdf"; lit "--input"; lit "d.txt"; lit "--output"; lit "/dev/full"; lit "--func"; lit "phong"] in
  snd (run small Data2brdf argv small_disk) = Ok 0%Z /\ snd (run small Fit2stat [lit "p"; lit "--brdf"; lit "f.func"; lit "--input"; lit "d.txt"; lit "--output"; lit "/dev/full"] small_disk) = Ok 1%Z.
Proof. vm_compute. auto. Qed.

(** ** C104: from functions *)
Theorem C104_brdf2brdf : forall {D F Ft} (w : world D F Ft) argv d d', brdf2brdf w argv d = (d', Ok 0%Z) <-> exists a, options argv a /\
  (given a (lit "help") /\ d' = d \/
   ~ given a (lit "help") /\ given a (lit "input") /\ given a (lit "output") /\
     exists f text, holds_function w d (val a (lit "input")) f /\ w_function_text w f a = (text, Ok tt) /\ d' = after_write w d (val a (lit "output")) text).
Proof. intros D F Ft. exact brdf2brdf_success. Qed.
Print Assumptions C104_brdf2brdf.

(** brdf2data fills the samples of a data file, or of a new data object, and saves
    them.  When the data object is missing it only prints a message. *)
Theorem C104_brdf2data : forall {D F Ft} (w : world D F Ft) argv d d', brdf2data w argv d = (d', Ok 0%Z) <-> exists a, options argv a /\
  (given a (lit "help") /\ d' = d \/
   ~ given a (lit "help") /\ given a (lit "input") /\ given a (lit "output") /\ exists x f, template w d a x /\ holds_function w d (val a (lit "input")) f /\
     match x with
     | None => d' = d
     | Some x => exists y text, w_evaluate w f x (is_defined a (lit "export-diff")) = Ok y /\ w_data_text w y = (text, Ok tt) /\
         (w_writable w (val a (lit "output")) = true /\ d' = put d (val a (lit "output")) text \/ w_save_throws w y = false /\ w_writable w (val a (lit "output")) = false /\ d' = d)
     end).
Proof. intros D F Ft. exact brdf2data_success. Qed.
Print Assumptions C104_brdf2data.

Theorem C104_brdf2gnuplot : forall {D F Ft} (w : world D F Ft) argv d d', brdf2gnuplot w argv d = (d', Ok 0%Z) -> exists a, options argv a /\
  (given a (lit "help") /\ d' = d \/
   ~ given a (lit "help") /\ given a (lit "input") /\ given a (lit "output") /\ exists f, holds_function w d (val a (lit "input")) f /\
     ((given a (lit "data") \/ given a (lit "data-file")) /\
        (exists x text, holds_data w d (val a (lit "data-file")) (val a (lit "data")) a x /\ w_plot w f x (kind_of a) (is_defined a (lit "cos-plot")) = (text, Ok tt) /\
           forall n, d' n = after_write w d (val a (lit "output")) text n) \/
      ~ (given a (lit "data") \/ given a (lit "data-file")) /\ given a (lit "polar-plot") /\
        (exists text, w_polar w f (get_num (w_atof w) a (lit "inc-angle") 0%R) (Z.quot (get_int a (lit "samples") 100) 2) = (text, Ok tt) /\
           forall n, d' n = after_write w d (val a (lit "output")) text n) \/
      ~ (given a (lit "data") \/ given a (lit "data-file")) /\ ~ given a (lit "polar-plot") /\ d' = d)).
Proof. intros D F Ft. exact brdf2gnuplot_success. Qed.
Print Assumptions C104_brdf2gnuplot.

(** Two successes without an output file: brdf2data without its data plugin, and
    brdf2gnuplot with nothing to plot. *)
Theorem C104_silent_success_refuted : forall {D F Ft} (w : world D F Ft) argv a d f, options argv a -> ~ given a (lit "help") -> given a (lit "input") -> given a (lit "output") ->
  holds_function w d (val a (lit "input")) f ->
  (template w d a None -> run w Brdf2data argv d = (d, Ok 0%Z)) /\
  (~ given a (lit "data") -> ~ given a (lit "data-file") -> ~ given a (lit "polar-plot") -> run w Brdf2gnuplot argv d = (d, Ok 0%Z)).
Proof.
  intros D F Ft w argv a d f O H1 H2 H3 Hf. split; intros; cbn [run]; [eapply silent_data|eapply silent_plot]; eassumption.
Qed.
Print Assumptions C104_silent_success_refuted.

Example C104_case :
  (let (d', c) := run small Brdf2brdf [lit "p"; lit "--input"; lit "f.func"; lit "--output"; lit "o"] small_disk in c = Ok 0%Z /\ d' (lit "o") = Some (lit "lobe of  --input f.func --output o")) /\
  (let (d', c) := run small Brdf2data [lit "p"; lit "--input"; lit "f.func"; lit "--output"; lit "o"; lit "--data-file"; lit "d.txt"] small_disk in c = Ok 0%Z /\ d' (lit "o") = Some (lit "lobedata")) /\
  (let (d', c) := run small Brdf2data [lit "p"; lit "--input"; lit "f.func"; lit "--output"; lit "o"; lit "--data"; lit "none"] small_disk in c = Ok 0%Z /\ d' (lit "o") = None) /\
  (let (d', c) := run small Brdf2gnuplot [lit "p"; lit "--input"; lit "f.func"; lit "--output"; lit "o"; lit "--data-file"; lit "d.txt"] small_disk in c = Ok 0%Z /\ d' (lit "o") = Some (lit "lobedata")).
Proof. vm_compute. auto. Qed.

(** ** C105: from data *)
Theorem C105_data2data : forall {D F Ft} (w : world D F Ft) argv d d', data2data w argv d = (d', Ok 0%Z) <-> exists a, options argv a /\
  ((given a (lit "help") \/ given a (lit "help-params")) /\ d' = d \/
   ~ (given a (lit "help") \/ given a (lit "help-params")) /\ given a (lit "input") /\ given a (lit "output") /\
   exists x y, holds_data w d (val a (lit "input")) (val a (lit "in-data")) a x /\ converts_to w a x y /\
     (val a (lit "out-data") = lit "alta-binary" /\ w_writable w (val a (lit "output")) = true /\
        (exists text, w_data_binary w y = (text, Ok tt) /\ d' = put d (val a (lit "output")) text) \/
      val a (lit "out-data") <> lit "alta-binary" /\
        exists text, w_data_text w y = (text, Ok tt) /\
         (w_writable w (val a (lit "output")) = true /\ d' = put d (val a (lit "output")) text \/ w_save_throws w y = false /\ w_writable w (val a (lit "output")) = false /\ d' = d))).
Proof. intros D F Ft. exact data2data_success. Qed.
Print Assumptions C105_data2data.

Theorem C105_data2moments : forall {D F Ft} (w : world D F Ft) argv d d', data2moments w argv d = (d', Ok 0%Z) <-> exists a, options argv a /\
  (given a (lit "help") /\ d' = d \/
   ~ given a (lit "help") /\ given a (lit "input") /\ given a (lit "output") /\ given a (lit "data") /\ exists x text,
     holds_data w d (val a (lit "input")) (val a (lit "data")) a x /\ w_is_segment w x = false /\ w_moments w x a = (text, Ok tt) /\ d' = after_write w d (val a (lit "output")) text).
Proof. intros D F Ft. exact data2moments_success. Qed.
Print Assumptions C105_data2moments.

Example C105_case :
  (let (d', c) := run small Data2data [lit "p"; lit "--input"; lit "d.txt"; lit "--output"; lit "o"; lit "--out-data"; lit "alta-binary"; lit "--splat"] small_disk in
     c = Ok 0%Z /\ d' (lit "o") = Some (lit "binary datavertical_segment")) /\
  (let (d', c) := run small Data2moments [lit "p"; lit "--input"; lit "d.txt"; lit "--data"; lit "t"; lit "--output"; lit "o"] small_disk in c = Ok 0%Z /\ d' (lit "o") = Some (lit "data")).
Proof. vm_compute. auto. Qed.

(** ** C106: reports *)
Theorem C106_fit2stat : forall {D F Ft} (w : world D F Ft) argv d d', fit2stat w argv d = (d', Ok 0%Z) <-> exists a, options argv a /\
  ((given a (lit "help") \/ given a (lit "h")) /\ d' = d \/
   ~ (given a (lit "help") \/ given a (lit "h")) /\ given a (lit "brdf") /\ given a (lit "input") /\ exists x f r l2 linf,
     holds_data w d (val a (lit "input")) (lit "vertical_segment") a x /\ holds_function w d (val a (lit "brdf")) f /\
     w_fit_stats w x f = Ok r /\ w_L2 w f x = Ok l2 /\ w_Linf w f x = Ok linf /\ stats_written w d d' a (fit_text w a (w_fpar w f) r)).
Proof. intros D F Ft. exact fit2stat_success. Qed.
Print Assumptions C106_fit2stat.
Theorem C106_data2stats : forall {D F Ft} (w : world D F Ft) argv d d', data2stats w argv d = (d', Ok 0%Z) <-> exists a, options argv a /\
  ((given a (lit "help") \/ given a (lit "h")) /\ d' = d \/
   ~ (given a (lit "help") \/ given a (lit "h")) /\ given a (lit "ref") /\ given a (lit "input") /\ exists x y m,
     holds_data w d (val a (lit "input")) (val a (lit "in-data")) [] x /\ holds_data w d (val a (lit "ref")) (val a (lit "ref-data")) [] y /\
     w_data_stats w x y = Ok m /\ stats_written w d d' a (stats_text w a (w_par w y) m)).
Proof. intros D F Ft. exact data2stats_success. Qed.
Print Assumptions C106_data2stats.

(** The lines of the two reports. *)
Theorem C106_report_lines : forall {D F Ft} (w : world D F Ft) a p,
  (forall r : report, Forall (fun e => has_line (fit_text w a p r) (fst e ++ lit " :" ++ w_show_vec w (snd e)))
     [(lit "L1", L1 (plain r)); (lit "L2", L2 (plain r)); (lit "L3", L3 (plain r)); (lit "LINF", LInf (plain r)); (lit "MSE", MSE (plain r)); (lit "RMSE", RMSE (plain r));
      (lit "MSE * cos(theta_light)", fst (by_light r)); (lit "RMSE * cos(theta_light)", snd (by_light r));
      (lit "MSE * cos(theta_light) * cos(theta_view)", fst (by_light r)); (lit "RMSE * cos(theta_light) cos(theta_view) ", snd (by_light r))]) /\
  (forall m : metrics, Forall (fun e => has_line (stats_text w a p m) (fst e ++ lit " :" ++ w_show_vec w (snd e)))
     [(lit "L1", L1 m); (lit "L2", L2 m); (lit "L3", L3 m); (lit "LINF", LInf m); (lit "MSE", MSE m); (lit "RMSE", RMSE m)]).
Proof. intros D F Ft w a p. split; [exact (fit_lines w a p)|exact (stats_lines w a p)]. Qed.
Print Assumptions C106_report_lines.

(** The errors weighted by both cosines are computed and never reported: whatever
    they are, the file is the same. *)
Theorem C106_weighted_errors_refuted : forall {D F Ft} (w : world D F Ft) a p (m : metrics) light both both',
  fit_text w a p (mkReport m light both) = fit_text w a p (mkReport m light both').
Proof. reflexivity. Qed.
Print Assumptions C106_weighted_errors_refuted.

Example C106_case :
  let (d', c) := run small Fit2stat [lit "p"; lit "--brdf"; lit "f.func"; lit "--input"; lit "d.txt"; lit "--output"; lit "o"] small_disk in
  c = Ok 0%Z /\ exists text, d' (lit "o") = Some text /\ has_line text (lit "LINF :v").
Proof.
  split; [reflexivity|]. eexists. split; [reflexivity|].
  pose proof (proj1 (C106_report_lines small [(lit "brdf", lit "f.func"); (lit "input", lit "d.txt"); (lit "output", lit "o")] (mkParameters 2 1 STARK_2D UNKNOWN_OUTPUT)) (mkReport (small_metrics 1) ([2%R], [2%R]) ([3%R], [3%R]))) as H.
  exact (proj1 (Forall_forall _ _) H (lit "LINF", [1%R]) (or_intror (or_intror (or_intror (or_introl eq_refl))))).
Qed.

(** ** C107: crashes *)
(** When the code that the programs call does not crash, a run is cut short by an
    undefined behaviour exactly when a null pointer is used: data without a plugin in
    data2brdf, brdf2gnuplot, data2data and fit2stat, and any input of brdf2brdf that is
    missing or is not a function. *)
Theorem C107_crashes : forall {D F Ft} (w : world D F Ft) t argv a d, calm_world w -> options argv a ->
  (snd (run w t argv d) = UB <-> uses_null w t d a) /\ snd (run w t argv d) <> Abort.
Proof.
  intros D F Ft w t argv a d Hw O. assert (C : calm (arguments_of_argv argv)) by (unfold options in O; rewrite O; exact I).
  destruct (run w t argv d) as [d' r] eqn:E. destruct (calm_run w t argv d d' r Hw C E) as [Hr|(-> & b & Ob & N)].
  - cbn [snd]. split; [split|]; intros H.
    + subst r. destruct Hr.
    + destruct (null_crash w t argv a d O H) as (d2 & E2). rewrite E in E2. congruence.
    + subst r. destruct Hr.
  - cbn [snd]. split; [split|]; intros H; try reflexivity; try discriminate. unfold options in *. rewrite O in Ob. apply Ok_inj in Ob. subst b. exact N.
Qed.
Print Assumptions C107_crashes.

Example C107_case : calm_world small /\
  uses_null small Brdf2brdf small_disk [(lit "input", lit "b.func"); (lit "output", lit "o")] /\
  snd (run small Brdf2brdf [lit "p"; lit "--input"; lit "b.func"; lit "--output"; lit "o"] small_disk) = UB /\
  snd (run small Data2data [lit "p"; lit "--input"; lit "d.txt"; lit "--in-data"; lit "none"; lit "--output"; lit "o"] small_disk) = UB /\
  snd (run small Data2stats [lit "p"; lit "--input"; lit "d.txt"; lit "--in-data"; lit "none"; lit "--ref"; lit "d.txt"] small_disk) = Ok 1%Z.
Proof.
  split; [unfold calm_world; repeat split; intros; exact I|]. split; [|vm_compute; auto].
  split; [split; eexists; reflexivity|]. split; [intros [(v & H)|[]]; discriminate H|]. right. exists (lit "bad"). split; reflexivity.
Qed.

(** ** C108: functions that go through files *)
Section Files.
Variable junk : R.
Variable lex : str -> option (R * str).
Variable print : R -> str.
Variable rnd : R -> R.
Variable sysdir : str.
Variable env : option str.
Variable libs : str -> option (option (parameters -> fobj)).
Variable other_par : nat -> parameters.
Variable other_load : nat -> istream -> outcome (bool * nat).
Variable other_text : nat -> str * outcome unit.
Context {D Ft : Type}.
Variable w : world D fun_obj Ft.

(** After a successful fit, reading the output gives the fitted function, with its
    numbers rounded by the printing: a nonlinear function that has the structure the
    options describe, or a rational function without --func. *)
Theorem C108_fit_then_read : prints lex print rnd -> real_files junk lex print sysdir env libs other_par other_load other_text w ->
  forall argv a d d', data2brdf w argv d = (d', Ok 0%Z) -> options argv a -> ~ given a (lit "help") -> ~ given a (lit "available_params") ->
  ~ given a (lit "export") -> ~ given a (lit "export-append") -> writable a -> (forall r, writable_value (w_show w r)) -> w_writable w (val a (lit "output")) = true ->
  exists x f, fits w d a x f /\
    (forall t t0, f = ONl t -> savable t -> same_shape t0 t -> parse_input (get_name_in (in_param (par_of t))) = in_param (par_of t) ->
       get_object sysdir env libs a (mkParameters (dimX (par_of t)) (dimY (par_of t)) (in_param (par_of t)) UNKNOWN_OUTPUT) = Ok (Some (ONl t0)) ->
       holds_function w d' (val a (lit "output")) (ONl (map_params (map rnd) t))) /\
    (forall p g channels, f = ORat p g -> ~ given a (lit "func") -> parse_input (get_name_in (in_param p)) = in_param p ->
       rnd 1 = 1%R -> (0 < f_dimX g)%nat -> f_dimX g = dimX p -> f_dimY g = dimY p -> length (f_min g) = f_dimX g -> length (f_max g) = f_dimX g ->
       f_rs g = map Some channels -> length channels = f_dimY g -> Forall (channel_ok (f_dimX g)) channels ->
       let mn := map rnd (f_min g) in let mx := map rnd (f_max g) in
       holds_function w d' (val a (lit "output")) (ORat (mkParameters (dimX p) (dimY p) (in_param p) UNKNOWN_OUTPUT)
         (mkRf (f_dimX g) (f_dimY g) mn mx 0 0
           (map (fun s => Some (mkRf1 (f_dimX g) (fst (inflate mn mx)) (snd (inflate mn mx)) (round_coeffs rnd (r_p s)) (round_coeffs rnd (r_q s)))) channels)))).
Proof. intros Hp Hr. exact (fit_then_read junk lex print rnd Hp sysdir env libs other_par other_load other_text w Hr). Qed.

(** brdf2brdf keeps the function when its own options describe it (or it is rational
    and there is no --func). *)
Theorem C108_reexport : prints lex print rnd -> real_files junk lex print sysdir env libs other_par other_load other_text w ->
  forall argv a d d' f, brdf2brdf w argv d = (d', Ok 0%Z) -> options argv a -> ~ given a (lit "help") -> holds_function w d (val a (lit "input")) f ->
  ~ given a (lit "export") -> ~ given a (lit "export-append") -> writable a -> w_writable w (val a (lit "output")) = true ->
    (forall t t0, f = ONl t -> savable t -> same_shape t0 t -> parse_input (get_name_in (in_param (par_of t))) = in_param (par_of t) ->
       get_object sysdir env libs a (mkParameters (dimX (par_of t)) (dimY (par_of t)) (in_param (par_of t)) UNKNOWN_OUTPUT) = Ok (Some (ONl t0)) ->
       holds_function w d' (val a (lit "output")) (ONl (map_params (map rnd) t))) /\
    (forall p g channels, f = ORat p g -> ~ given a (lit "func") -> parse_input (get_name_in (in_param p)) = in_param p ->
       rnd 1 = 1%R -> (0 < f_dimX g)%nat -> f_dimX g = dimX p -> f_dimY g = dimY p -> length (f_min g) = f_dimX g -> length (f_max g) = f_dimX g ->
       f_rs g = map Some channels -> length channels = f_dimY g -> Forall (channel_ok (f_dimX g)) channels ->
       let mn := map rnd (f_min g) in let mx := map rnd (f_max g) in
       holds_function w d' (val a (lit "output")) (ORat (mkParameters (dimX p) (dimY p) (in_param p) UNKNOWN_OUTPUT)
         (mkRf (f_dimX g) (f_dimY g) mn mx 0 0
           (map (fun s => Some (mkRf1 (f_dimX g) (fst (inflate mn mx)) (snd (inflate mn mx)) (round_coeffs rnd (r_p s)) (round_coeffs rnd (r_q s)))) channels)))).
Proof.
  intros Hp Hr argv a d d' f H1 H2 H3 H4 H5 H6 H7 H8. destruct (reexport junk lex print rnd Hp sysdir env libs other_par other_load other_text w Hr argv a d d' f H1 H2 H3 H4 H5 H6 H7 H8) as (A & B & _).
  split; assumption.
Qed.

(** Without --func, the file that brdf2brdf writes for a nonlinear function is not a
    function file any more: no program can read it, and brdf2brdf itself crashes on it.
    The same happens to every function with --export alta. *)
Theorem C108_reexport_refuted : prints lex print rnd -> real_files junk lex print sysdir env libs other_par other_load other_text w ->
  forall argv a d d' f, brdf2brdf w argv d = (d', Ok 0%Z) -> options argv a -> ~ given a (lit "help") -> holds_function w d (val a (lit "input")) f -> w_writable w (val a (lit "output")) = true ->
  (exists t, f = ONl t /\ parse_input (get_name_in (in_param (par_of t))) = in_param (par_of t) /\
     ~ given a (lit "export") /\ ~ given a (lit "export-append") /\ writable a /\ ~ given a (lit "func")) \/
  (map_find (lit "export") a = Some (lit "alta") /\ forall i, f <> OOther i) ->
  (forall g, ~ holds_function w d' (val a (lit "output")) g) /\
  (forall argv2 b, options argv2 b -> ~ given b (lit "help") -> given b (lit "input") -> given b (lit "output") -> val b (lit "input") = val a (lit "output") ->
     exists d2, run w Brdf2brdf argv2 d' = (d2, UB)).
Proof.
  intros Hp Hr argv a d d' f H1 H2 H3 H4 H5 Hf.
  assert (T : exists text, d' (val a (lit "output")) = Some text /\ w_read_function w text = Ok None).
  { destruct Hf as [(t & E & P & E1 & E2 & Hw & N)|[E Hi]].
    - destruct (reexport junk lex print rnd Hp sysdir env libs other_par other_load other_text w Hr argv a d d' f H1 H2 H3 H4 E1 E2 Hw H5) as (_ & _ & L). exact (L t E N P).
    - exact (reexport_alta junk lex print sysdir env libs other_par other_load other_text w Hr argv a d d' f H1 H2 H3 H4 E Hi H5). }
  destruct T as (text & T1 & T2). split.
  - intros g (c & C1 & C2). rewrite T1 in C1. injection C1 as <-. congruence.
  - intros argv2 b O N G1 G2 V. apply (null_crash w Brdf2brdf argv2 b d' O). split; [split; assumption|]. split; [intros [K|[]]; contradiction|]. right. exists text. rewrite V. auto.
Qed.
End Files.
Print Assumptions C108_fit_then_read.
Print Assumptions C108_reexport.
Print Assumptions C108_reexport_refuted.

(** A world with one plugin, liblobe.so, a nonlinear function with two parameters; the
    fit gives 4 and 7.  The function is saved by data2brdf and can be read; exported
    again without --func it is lost. *)
Definition lobe := mkLeaf (mkParameters 2 1 STARK_2D UNKNOWN_OUTPUT) 2 (fun p _ => [nth 0 p 0%R]) (fun _ _ => [1%R; 0%R]) [0%R; 0%R] [9%R; 9%R].
Definition lobe_libs (n : str) : option (option (parameters -> fobj)) := if str_eqb n (lit "p/liblobe.so") then Some (Some (fun _ => Nonlinear (Leaf lobe [0%R; 0%R]))) else None.
Definition lobe_load (_ : nat) (_ : istream) : outcome (bool * nat) := Ok (false, 0%nat).
Definition lobe_par (_ : nat) := mkParameters 0 0 UNKNOWN_INPUT UNKNOWN_OUTPUT.
Definition lobe_text (_ : nat) : str * outcome unit := ([], Ok tt).
Definition lobe_world : world str fun_obj unit :=
  mkWorld str fun_obj unit (fun _ => true) (fun _ => Ok (Some tt)) (get_object (lit "p") None lobe_libs)
    (fun t _ _ _ => Ok (Some t)) (fun _ c _ => Ok (Done (Some c))) (read_object 0 demo_lex (lit "p") None lobe_libs lobe_load)
    (fun x f _ => Ok (x, f)) (fun _ _ => Ok 0%R) (fun _ _ => Ok 0%R) (fun _ => lit "0") (fun _ => 0%R) (fun _ => lit "v")
    (fun _ => mkParameters 2 1 STARK_2D UNKNOWN_OUTPUT) (@length ascii) (object_par lobe_par)
    (object_text demo_print lobe_par lobe_text) (fun x => (x, Ok tt)) (fun x => (x, Ok tt)) (fun _ => true) (fun _ => false)
    (fun f _ => Ok f) (fun _ x _ _ => Ok (true, x, ONl (Leaf lobe [4%R; 7%R]))) (fun x y _ => Ok (x ++ y)) (fun x y => Ok (y ++ x)) (fun _ x _ => Ok x)
    (fun f x _ _ => (x, Ok tt)) (fun f _ _ => ([], Ok tt)) (fun x _ => (x, Ok tt))
    (fun _ _ => Ok (mkReport (small_metrics 1) ([2%R], [2%R]) ([3%R], [3%R]))) (fun _ _ => Ok (small_metrics 1)).
Definition lobe_argv := [lit "data2brdf"; lit "--input"; lit "d.txt"; lit "--output"; lit "o"; lit "--func"; lit "lobe"].
Definition lobe_args : arguments := [(lit "func", lit "lobe"); (lit "input", lit "d.txt"); (lit "output", lit "o")].
Definition again_argv := [lit "brdf2brdf"; lit "--input"; lit "o"; lit "--output"; lit "o2"].
Definition again_args : arguments := [(lit "input", lit "o"); (lit "output", lit "o2")].
Lemma lobe_real : real_files 0 demo_lex demo_print (lit "p") None lobe_libs lobe_par lobe_load lobe_text lobe_world.
Proof. repeat split. Qed.
Lemma plain_word c s : word (c :: s) -> ArgsSpec.plain (c :: s) -> writable_value (c :: s).
Proof. intros Hw Hp. exists [c :: s]. split; [reflexivity|]. split; [constructor; [assumption|constructor]|]. right. left. eauto. Qed.
Ltac words := repeat (apply Forall_cons; [split; cbn [fst snd]; [split; [discriminate|repeat constructor; discriminate]|apply plain_word; [split; [discriminate|repeat constructor; discriminate]|split; [intros (q & Q); discriminate Q|intros [(q & Q) _]; discriminate Q]]]|]); apply Forall_nil.
Example C108_case : exists d' d2,
  data2brdf lobe_world lobe_argv small_disk = (d', Ok 0%Z) /\ holds_function lobe_world d' (lit "o") (ONl (Leaf lobe [4%R; 7%R])) /\
  brdf2brdf lobe_world again_argv d' = (d2, Ok 0%Z) /\ (forall g, ~ holds_function lobe_world d2 (lit "o2") g) /\ holds_function lobe_world d2 (lit "o") (ONl (Leaf lobe [4%R; 7%R])).
Proof.
  assert (W : writable lobe_args) by words.
  assert (W2 : writable again_args) by words.
  assert (Sh : forall r, writable_value (w_show lobe_world r)) by (intros r; apply plain_word; [split; [discriminate|repeat constructor; discriminate]|split; [intros (q & Q); discriminate Q|intros [(q & Q) _]; discriminate Q]]).
  destruct (data2brdf lobe_world lobe_argv small_disk) as [d' c] eqn:E. assert (c = Ok 0%Z) as ->.
  { change (snd (d', c) = Ok 0%Z). rewrite <- E. lazy. reflexivity. }
  assert (Z : forall z, IZR (Int_part (IZR z)) = IZR z) by (intros z; f_equal; destruct (base_Int_part (IZR z)) as [A B]; apply le_IZR in A; rewrite <- minus_IZR in B; apply (lt_IZR (-1)) in B; lia).
  destruct (C108_fit_then_read 0 demo_lex demo_print _ (lit "p") None lobe_libs lobe_par lobe_load lobe_text lobe_world demo_prints lobe_real lobe_argv lobe_args small_disk d' E) as (x & f & (ft & ft' & x0 & f0 & x1 & f1 & F1 & F2 & F3 & F4 & F5 & F6 & F7) & A & _);
    try assumption; try reflexivity; try (intros (v & V); discriminate V).
  assert (f = ONl (Leaf lobe [4%R; 7%R])) as -> by (cbn [w_fit lobe_world] in F7; congruence).
  assert (H : holds_function lobe_world d' (lit "o") (ONl (Leaf lobe [4%R; 7%R]))).
  { specialize (A _ (Leaf lobe [0%R; 0%R]) eq_refl). cbn [map_params map] in A. rewrite !Z in A. apply A; reflexivity. }
  destruct (brdf2brdf lobe_world again_argv d') as [d2 c2] eqn:E2.
  assert (K : brdf2brdf lobe_world again_argv d' = (after_write lobe_world d' (lit "o2") (fst (w_function_text lobe_world (ONl (Leaf lobe [4%R; 7%R])) again_args)), Ok 0%Z)).
  { apply C104_brdf2brdf. exists again_args. split; [reflexivity|]. right. split; [intros (v & V); discriminate V|]. split; [eexists; reflexivity|]. split; [eexists; reflexivity|].
    exists (ONl (Leaf lobe [4%R; 7%R])). eexists. split; [exact H|]. split; reflexivity. }
  rewrite E2 in K. assert (c2 = Ok 0%Z) as -> by congruence. assert (d2 = after_write lobe_world d' (lit "o2") (fst (w_function_text lobe_world (ONl (Leaf lobe [4%R; 7%R])) again_args))) as -> by congruence.
  exists d'. eexists. split; [reflexivity|]. split; [exact H|]. split; [exact E2|]. split.
  - refine (proj1 (C108_reexport_refuted 0 demo_lex demo_print _ (lit "p") None lobe_libs lobe_par lobe_load lobe_text lobe_world demo_prints lobe_real again_argv again_args d' _ _ E2 eq_refl _ H eq_refl _)); [intros (v & V); discriminate V|].
    left. eexists. split; [reflexivity|]. split; [reflexivity|]. repeat split; try assumption; intros (v & V); discriminate V.
  - exact H.
Qed.

(** Vocabulary for the properties of the command line programs (C102-C108). *)
From Coq Require Import List ZArith Reals.
From Verif Require Import Base Num ArgsModel ParamsModel GeoModel DataModel MetricsModel ConvModel ToolModel.

(** the options of a command line *)
Definition options (argv : list str) (a : arguments) : Prop := arguments_of_argv argv = Ok a.
Definition given (a : arguments) (k : str) : Prop := exists v, map_find k a = Some v.
(** the value of an option, empty without it *)
Definition val (a : arguments) (k : str) : str := match map_find k a with Some v => v | None => [] end.

(** the options that only ask for information *)
Definition asks_help (t : tool) (a : arguments) : Prop :=
  given a (lit "help") \/
  match t with
  | Data2data => given a (lit "help-params")
  | Fit2stat | Data2stats => given a (lit "h")
  | _ => False
  end.
(** the mandatory options *)
Definition complete (t : tool) (a : arguments) : Prop :=
  match t with
  | Data2brdf | Brdf2brdf | Brdf2gnuplot | Data2data => given a (lit "input") /\ given a (lit "output")
  | Brdf2data => given a (lit "input") /\ given a (lit "output") /\ (given a (lit "data") \/ given a (lit "data-file"))
  | Data2moments => given a (lit "input") /\ given a (lit "output") /\ given a (lit "data")
  | Fit2stat => given a (lit "brdf") /\ given a (lit "input")
  | Data2stats => given a (lit "ref") /\ given a (lit "input")
  end.

Section Spec.
Context {D F Ft : Type}.
Variable w : world D F Ft.

(** reading: the data or function object that a file holds *)
Definition holds_data (d : disk) (file type : str) (a : arguments) (x : D) : Prop :=
  exists content, d file = Some content /\ w_read_data w type content (update a (lit "filename") file) = Ok (Done (Some x)).
Definition holds_function (d : disk) (file : str) (f : F) : Prop :=
  exists content, d file = Some content /\ w_read_function w content = Ok (Some f).
(** the data object is missing: its plugin cannot be opened *)
Definition no_plugin (d : disk) (file type : str) (a : arguments) : Prop :=
  exists content, d file = Some content /\ w_read_data w type content (update a (lit "filename") file) = Ok (Done None).

(** the function that data2brdf fits, and the data as the fit leaves it *)
Definition fits (d : disk) (a : arguments) (x2 : D) (f2 : F) : Prop :=
  exists ft ft' x f x1 f1,
    w_get_fitter w (val a (lit "fitter")) = Ok (Some ft) /\ w_set_parameters w ft a = Ok ft' /\
    holds_data d (val a (lit "input")) (val a (lit "data")) a x /\ w_size w x <> 0%nat /\
    w_get_function w a (w_par w x) = Ok (Some f) /\ w_check w x f a = Ok (x1, f1) /\ w_fit w ft' x1 f1 a = Ok (true, x2, f2).

(** the disk after an attempt to write a text in a file *)
Definition after_write (d : disk) (name text : str) : disk := if w_writable w name then put d name text else d.

(** only the file named by --output changed *)
Definition changed (argv : list str) (d d' : disk) : Prop := exists a, options argv a /\ given a (lit "output") /\
  w_writable w (val a (lit "output")) = true /\ (exists text, d' (val a (lit "output")) = Some text) /\ forall n, n <> val a (lit "output") -> d' n = d n.
(** data2brdf opens the fitting plugin before it looks at the other options *)
Definition fitter_found (t : tool) (a : arguments) : Prop :=
  t = Data2brdf -> (exists o, w_get_fitter w (val a (lit "fitter")) = Ok o) /\ ~ given a (lit "available_params").

(** the data object that data2data writes *)
Definition converts_to (a : arguments) (x y : D) : Prop :=
  exists p y0,
    compute_parameters (w_par w x) (val a (lit "param")) = Some p /\
    w_get_data w (if str_eqb (val a (lit "out-data")) (lit "alta-binary") then lit "vertical_segment" else val a (lit "out-data")) (w_size w x) p a = Ok (Some y0) /\
    ((w_is_segment w y0 = true \/ given a (lit "splat")) /\
       (given a (lit "all-values") /\ w_splat w x y0 true = Ok y \/ ~ given a (lit "all-values") /\ w_splat w x y0 false = Ok y)
     \/ w_is_segment w y0 = false /\ ~ given a (lit "splat") /\ w_interpolate w x y0 = Ok y).

(** code that neither crashes nor stops the program *)
Definition calm {A} (o : outcome A) : Prop := match o with Ok _ | Throw => True | _ => False end.
Definition calm_world : Prop :=
  (forall n, calm (w_get_fitter w n)) /\ (forall a p, calm (w_get_function w a p)) /\ (forall n s p a, calm (w_get_data w n s p a)) /\
  (forall t c a, calm (w_read_data w t c a)) /\ (forall c, calm (w_read_function w c)) /\ (forall x f a, calm (w_check w x f a)) /\
  (forall f x, calm (w_L2 w f x)) /\ (forall f x, calm (w_Linf w f x)) /\ (forall f a, calm (snd (w_function_text w f a))) /\
  (forall x, calm (snd (w_data_text w x))) /\ (forall x, calm (snd (w_data_binary w x))) /\ (forall f a, calm (w_set_parameters w f a)) /\
  (forall t x f a, calm (w_fit w t x f a)) /\ (forall x y b, calm (w_splat w x y b)) /\ (forall x y, calm (w_interpolate w x y)) /\
  (forall f x b, calm (w_evaluate w f x b)) /\ (forall f x k b, calm (snd (w_plot w f x k b))) /\ (forall f r n, calm (snd (w_polar w f r n))) /\
  (forall x a, calm (snd (w_moments w x a))) /\ (forall x f, calm (w_fit_stats w x f)) /\ (forall x y, calm (w_data_stats w x y)).

(** where a program uses a null pointer *)
Definition uses_null (t : tool) (d : disk) (a : arguments) : Prop :=
  complete t a /\ ~ asks_help t a /\
  match t with
  | Data2brdf => exists ft ft', w_get_fitter w (val a (lit "fitter")) = Ok (Some ft) /\ ~ given a (lit "available_params") /\
                   w_set_parameters w ft a = Ok ft' /\ no_plugin d (val a (lit "input")) (val a (lit "data")) a
  | Brdf2brdf => d (val a (lit "input")) = None \/ exists c, d (val a (lit "input")) = Some c /\ w_read_function w c = Ok None
  | Brdf2gnuplot => (exists f, holds_function d (val a (lit "input")) f) /\ (given a (lit "data") \/ given a (lit "data-file")) /\
                   no_plugin d (val a (lit "data-file")) (val a (lit "data")) a
  | Data2data => no_plugin d (val a (lit "input")) (val a (lit "in-data")) a
  | Fit2stat => no_plugin d (val a (lit "input")) (lit "vertical_segment") a
  | Brdf2data | Data2moments | Data2stats => False
  end.
(** the data object brdf2data fills *)
Definition template (d : disk) (a : arguments) (x : option D) : Prop :=
  given a (lit "data-file") /\ (exists content, d (val a (lit "data-file")) = Some content /\
     w_read_data w (val a (lit "data")) content (update a (lit "filename") (val a (lit "data-file"))) = Ok (Done x)) \/
  ~ given a (lit "data-file") /\ given a (lit "data") /\ w_get_data w (val a (lit "data")) 0%nat (mkParameters 0 0 UNKNOWN_INPUT UNKNOWN_OUTPUT) a = Ok x.

(** what brdf2gnuplot plots *)
Definition kind_of (a : arguments) : plot :=
  if is_defined a (lit "error") then Errors else if is_defined a (lit "linear_error") then LinearErrors else Values.
(** the optional report of the statistics programs *)
Definition stats_written (d d' : disk) (a : arguments) (text : str) : Prop :=
  val a (lit "output") <> [] /\ w_writable w (val a (lit "output")) = true /\ d' = put d (val a (lit "output")) text \/
  val a (lit "output") = [] /\ d' = d.
(** the same world, where the file name cannot be opened for writing *)
Definition deny (name : str) : world D F Ft :=
  mkWorld D F Ft (fun n => if str_eqb n name then false else w_writable w n)
    (w_get_fitter w) (w_get_function w) (w_get_data w) (w_read_data w) (w_read_function w) (w_check w) (w_L2 w) (w_Linf w) (w_show w) (w_atof w) (w_show_vec w)
    (w_par w) (w_size w) (w_fpar w) (w_function_text w) (w_data_text w) (w_data_binary w) (w_save_throws w) (w_is_segment w) (w_set_parameters w) (w_fit w)
    (w_splat w) (w_interpolate w) (w_evaluate w) (w_plot w) (w_polar w) (w_moments w) (w_fit_stats w) (w_data_stats w).
End Spec.
(** a line of a text, with its end and the end of the line before *)
Definition has_line (text line : str) : Prop := exists pre post, text = pre ++ nl :: line ++ nl :: post.

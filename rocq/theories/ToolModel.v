(** Model of the command line programs of sources/softs: their control flow, what
    they do to the files and how they end.  The code they call is a parameter (a
    [world]).  The disk is a map from file names to contents; files are not removed,
    and whether a name can be opened for writing does not change during a run.
    Messages on the terminal, timers and memory are left out.  A disk that fills up
    is not modelled.
    [outcome]: [Ok c] the program ends with status [c], [Throw] an exception leaves
    main (std::terminate), [Abort] and [UB] as in Base. *)
From Coq Require Import Reals List ZArith.
From Verif Require Import Base Num ArgsModel ParamsModel GeoModel DataModel MetricsModel ConvModel.

Definition disk := str -> option str.
Definition put (d : disk) (name text : str) : disk := fun n => if str_eqb n name then Some text else d n.

(** common.h:247-254 CATCH_FILE_IO_ERROR: the program distinguishes file errors
    ([Failed], std::ios_base::failure) from the other exceptions ([Throw]) *)
Inductive attempt (A : Type) := Done (a : A) | Failed.
Arguments Done {A} a.
Arguments Failed {A}.

(** programs that write files *)
Definition prog (A : Type) := disk -> disk * outcome A.
Definition ret {A} (a : A) : prog A := fun d => (d, Ok a).
Definition call {A} (o : outcome A) : prog A := fun d => (d, o).
Definition andthen {A B} (m : prog A) (k : A -> prog B) : prog B := fun d =>
  match m d with
  | (d', Ok a) => k a d'
  | (d', Throw) => (d', Throw)
  | (d', Abort) => (d', Abort)
  | (d', UB) => (d', UB)
  end.
Notation "'let!' x := m 'in' k" := (andthen m (fun x => k)) (at level 200, x pattern, m at level 100, k at level 200, right associativity).

Record world (D F Ft : Type) := mkWorld {
  (* operating system *)
  w_writable : str -> bool;
  (* core *)
  w_get_fitter : str -> outcome (option Ft);
  w_get_function : arguments -> parameters -> outcome (option F);
  w_get_data : str -> nat -> parameters -> arguments -> outcome (option D);
  w_read_data : str -> str -> arguments -> outcome (attempt (option D));  (* type, content, args *)
  w_read_function : str -> outcome (option F);                          (* content *)
  w_check : D -> F -> arguments -> outcome (D * F);
  w_L2 : F -> D -> outcome R;
  w_Linf : F -> D -> outcome R;
  w_show : R -> str;
  w_atof : str -> R;
  w_show_vec : list R -> str;
  (* objects *)
  w_par : D -> parameters;
  w_size : D -> nat;
  w_fpar : F -> parameters;
  w_function_text : F -> arguments -> str * outcome unit;  (* what save writes, and how it ends *)
  w_data_text : D -> str * outcome unit;
  w_data_binary : D -> str * outcome unit;
  w_save_throws : D -> bool;                               (* save throws if the file cannot be opened *)
  w_is_segment : D -> bool;
  w_set_parameters : Ft -> arguments -> outcome Ft;
  w_fit : Ft -> D -> F -> arguments -> outcome (bool * D * F);
  (* the loops of the programs, which do not touch files (see ConvModel, MomModel) *)
  w_splat : D -> D -> bool -> outcome D;
  w_interpolate : D -> D -> outcome D;
  w_evaluate : F -> D -> bool -> outcome D;
  w_plot : F -> D -> plot -> bool -> str * outcome unit;
  w_polar : F -> R -> Z -> str * outcome unit;
  w_moments : D -> arguments -> str * outcome unit;
  w_fit_stats : D -> F -> outcome report;
  w_data_stats : D -> D -> outcome metrics
}.
Arguments w_writable {D F Ft}. Arguments w_get_fitter {D F Ft}. Arguments w_get_function {D F Ft}. Arguments w_get_data {D F Ft}.
Arguments w_read_data {D F Ft}. Arguments w_read_function {D F Ft}. Arguments w_check {D F Ft}. Arguments w_L2 {D F Ft}. Arguments w_Linf {D F Ft}.
Arguments w_show {D F Ft}. Arguments w_atof {D F Ft}. Arguments w_show_vec {D F Ft}. Arguments w_par {D F Ft}. Arguments w_size {D F Ft}. Arguments w_fpar {D F Ft}.
Arguments w_function_text {D F Ft}. Arguments w_data_text {D F Ft}. Arguments w_data_binary {D F Ft}. Arguments w_save_throws {D F Ft}.
Arguments w_is_segment {D F Ft}. Arguments w_set_parameters {D F Ft}. Arguments w_fit {D F Ft}. Arguments w_splat {D F Ft}. Arguments w_interpolate {D F Ft}.
Arguments w_evaluate {D F Ft}. Arguments w_plot {D F Ft}. Arguments w_polar {D F Ft}. Arguments w_moments {D F Ft}. Arguments w_fit_stats {D F Ft}. Arguments w_data_stats {D F Ft}.

Section Tools.
Context {D F Ft : Type}.
Variable w : world D F Ft.

(** std::ofstream file(name, trunc), the text that the following code writes and
    the end of that code; a file that cannot be opened takes nothing *)
Definition write_file (name : str) (t : str * outcome unit) : prog unit := fun d =>
  (if w_writable w name then put d name (fst t) else d, snd t).
(** plugins_manager.cpp:507-530 load_data(file, type, args) *)
Definition load_data (file type : str) (args : arguments) : prog (attempt (option D)) := fun d =>
  (d, match d file with
      | None => Ok Failed
      | Some content => w_read_data w type content (update args (lit "filename") file)
      end).
(** plugins_manager.cpp:179-231 load_function *)
Definition load_function (file : str) : prog (option F) := fun d =>
  (d, match d file with None => Ok None | Some content => w_read_function w content end).
(** function.cpp:50-129 function::save: a file that cannot be opened is only reported on the terminal *)
Definition save_function (f : F) (name : str) (args : arguments) : prog unit := write_file name (w_function_text w f args).
(** data.cpp:18-29 data::save: a file that cannot be opened throws (std::ios_base::failure),
    except in the classes that do not check *)
Definition save_data (x : D) (name : str) : prog unit := fun d =>
  if w_save_throws w x && negb (w_writable w name) then (d, Throw) else write_file name (w_data_text w x) d.

(** softs/data2brdf/main.cpp:66-180 *)
Definition data2brdf (argv : list str) : prog Z :=
  let! args := call (arguments_of_argv argv) in
  if is_defined args (lit "help") then ret 0%Z else
  let! fit := call (w_get_fitter w (at_key args (lit "fitter"))) in
  match fit with
  | None => ret 1%Z
  | Some fit =>
    if is_defined args (lit "available_params") then ret 0%Z else
    if negb (is_defined args (lit "input")) then ret 1%Z else
    if negb (is_defined args (lit "output")) then ret 1%Z else
    let! fit := call (w_set_parameters w fit args) in
    let! x := load_data (at_key args (lit "input")) (at_key args (lit "data")) args in
    match x with
    | Failed => ret 1%Z
    | Done None => call UB                        (* d->parametrization(), before the test of d *)
    | Done (Some x) =>
      let! f := call (w_get_function w args (w_par w x)) in
      match f with
      | None => ret 1%Z
      | Some f =>
        if (w_size w x =? 0)%nat then ret 1%Z else
        let! (x, f) := call (w_check w x f args) in
        let! (fitted, x, f) := call (w_fit w fit x f args) in
        if (fitted : bool) then
          let! l2 := call (w_L2 w f x) in
          let! linf := call (w_Linf w f x) in
          let args := update (update args (lit "L2") (w_show w l2)) (lit "Linf") (w_show w linf) in
          let! _ := save_function f (at_key args (lit "output")) args in
          ret 0%Z
        else ret 1%Z
      end
    end
  end.

(** softs/brdf2brdf/main.cpp:35-70 *)
Definition brdf2brdf (argv : list str) : prog Z :=
  let! args := call (arguments_of_argv argv) in
  if is_defined args (lit "help") then ret 0%Z else
  if negb (is_defined args (lit "input")) then ret 1%Z else
  if negb (is_defined args (lit "output")) then ret 1%Z else
  let! f := load_function (at_key args (lit "input")) in
  match f with
  | None => call UB                               (* f->save, never tested *)
  | Some f => let! _ := save_function f (at_key args (lit "output")) args in ret 0%Z
  end.

(** softs/brdf2data/main.cpp:36-133 *)
Definition brdf2data (argv : list str) : prog Z :=
  let! args := call (arguments_of_argv argv) in
  if is_defined args (lit "help") then ret 0%Z else
  if negb (is_defined args (lit "input")) then ret 1%Z else
  if negb (is_defined args (lit "output")) then ret 1%Z else
  if negb (is_defined args (lit "data")) && negb (is_defined args (lit "data-file")) then ret 1%Z else
  let! x := (if is_defined args (lit "data-file")
             then load_data (at_key args (lit "data-file")) (at_key args (lit "data")) args
             else let! x := call (w_get_data w (at_key args (lit "data")) 0 (mkParameters 0 0 UNKNOWN_INPUT UNKNOWN_OUTPUT) args) in
                  ret (Done x)) in
  match x with
  | Failed => ret 1%Z
  | Done x =>
    let! f := load_function (at_key args (lit "input")) in
    match f, x with
    | None, _ => ret 1%Z
    | Some f, Some x =>
        let! y := call (w_evaluate w f x (is_defined args (lit "export-diff"))) in
        let! _ := save_data y (at_key args (lit "output")) in
        ret 0%Z
    | Some f, None => ret 0%Z                     (* an error message, and success *)
    end
  end.

(** softs/brdf2gnuplot/main.cpp:30-225 *)
Definition brdf2gnuplot (argv : list str) : prog Z :=
  let! args := call (arguments_of_argv argv) in
  if is_defined args (lit "help") then ret 0%Z else
  if negb (is_defined args (lit "input")) then ret 1%Z else
  if negb (is_defined args (lit "output")) then ret 1%Z else
  let! f := load_function (at_key args (lit "input")) in
  match f with
  | None => ret 1%Z
  | Some f =>
    if is_defined args (lit "data") || is_defined args (lit "data-file") then
      let! x := load_data (at_key args (lit "data-file")) (at_key args (lit "data")) args in
      match x with
      | Failed => ret 1%Z
      | Done x =>
        let! _ := write_file (at_key args (lit "output")) ([], Ok tt) in
        match x with
        | None => call UB                         (* L2_distance of a null pointer *)
        | Some x =>
          let! _ := call (w_L2 w f x) in
          let! _ := call (w_Linf w f x) in
          let kind := if is_defined args (lit "error") then Errors
                      else if is_defined args (lit "linear_error") then LinearErrors else Values in
          let! _ := write_file (at_key args (lit "output")) (w_plot w f x kind (is_defined args (lit "cos-plot"))) in
          ret 0%Z
        end
      end
    else if is_defined args (lit "polar-plot") then
      let! _ := write_file (at_key args (lit "output"))
                  (w_polar w f (get_num (w_atof w) args (lit "inc-angle") 0%R) (Z.quot (get_int args (lit "samples") 100) 2)) in
      ret 0%Z
    else ret 0%Z
  end.

(** softs/data2data/main.cpp:279-288 convert *)
Definition convert_data (x y : D) (args : arguments) : outcome D :=
  if w_is_segment w y || is_defined args (lit "splat")
  then w_splat w x y (is_defined args (lit "all-values"))
  else w_interpolate w x y.
(** softs/data2data/main.cpp:291-414 *)
Definition data2data (argv : list str) : prog Z :=
  let! args := call (arguments_of_argv argv) in
  if is_defined args (lit "help") then ret 0%Z else
  if is_defined args (lit "help-params") then ret 0%Z else
  if negb (is_defined args (lit "input")) then ret 1%Z else
  if negb (is_defined args (lit "output")) then ret 1%Z else
  let! x := load_data (at_key args (lit "input")) (at_key args (lit "in-data")) args in
  match x with
  | Failed => ret 1%Z
  | Done None => call UB                          (* d_in->size(), before the test of d_in *)
  | Done (Some x) =>
    let binary := str_eqb (at_key args (lit "out-data")) (lit "alta-binary") in
    let data_class := if binary then lit "vertical_segment" else at_key args (lit "out-data") in
    match compute_parameters (w_par w x) (at_key args (lit "param")) with
    | None => ret 1%Z                             (* exit(EXIT_FAILURE) *)
    | Some p =>
      let! y := call (w_get_data w data_class (w_size w x) p args) in
      match y with
      | None => ret 1%Z
      | Some y =>
        let! y := call (convert_data x y args) in
        if binary then
          if w_writable w (at_key args (lit "output"))
          then let! _ := write_file (at_key args (lit "output")) (w_data_binary w y) in ret 0%Z
          else ret 1%Z
        else
          let! _ := save_data y (at_key args (lit "output")) in
          ret 0%Z
      end
    end
  end.

(** softs/data2moments/main.cpp:45-355 *)
Definition data2moments (argv : list str) : prog Z :=
  let! args := call (arguments_of_argv argv) in
  if is_defined args (lit "help") then ret 0%Z else
  if negb (is_defined args (lit "input")) then ret 1%Z else
  if negb (is_defined args (lit "output")) then ret 1%Z else
  if negb (is_defined args (lit "data")) then ret 1%Z else
  let! x := load_data (at_key args (lit "input")) (at_key args (lit "data")) args in
  match x with
  | Failed => ret 1%Z
  | Done None => let! _ := write_file (at_key args (lit "output")) ([], Ok tt) in ret 1%Z
  | Done (Some x) =>
    if w_is_segment w x then ret 1%Z else
    let! _ := write_file (at_key args (lit "output")) (w_moments w x args) in
    ret 0%Z
  end.

Definition entry (key value : str) : str := key ++ lit " :" ++ value ++ [nl].
(** fit2stat.cpp:653-669: the ten entries and their labels.  The last two repeat
    the errors weighted by the light alone. *)
Definition fit_text (args : arguments) (p : parameters) (r : report) : str :=
  lit "#FIT2STATS EXPORT. DIMENSIONS ARE THE ONE FROM THE BRDF FUNCTION" ++ [nl] ++
  lit "#CMD " ++ get_cmd args ++ [nl] ++
  lit "#DIM " ++ print_nat (dimX p) ++ lit " " ++ print_nat (dimY p) ++ [nl] ++ [nl] ++
  entry (lit "L1") (w_show_vec w (L1 (plain r))) ++
  entry (lit "L2") (w_show_vec w (L2 (plain r))) ++
  entry (lit "L3") (w_show_vec w (L3 (plain r))) ++
  entry (lit "LINF") (w_show_vec w (LInf (plain r))) ++
  entry (lit "MSE") (w_show_vec w (MSE (plain r))) ++
  entry (lit "RMSE") (w_show_vec w (RMSE (plain r))) ++
  entry (lit "MSE * cos(theta_light)") (w_show_vec w (fst (by_light r))) ++
  entry (lit "RMSE * cos(theta_light)") (w_show_vec w (snd (by_light r))) ++
  entry (lit "MSE * cos(theta_light) * cos(theta_view)") (w_show_vec w (fst (by_light r))) ++
  entry (lit "RMSE * cos(theta_light) cos(theta_view) ") (w_show_vec w (snd (by_light r))) ++ [nl].
(** data2stats.cpp:566-578 *)
Definition stats_text (args : arguments) (p : parameters) (m : metrics) : str :=
  lit "#FIT2STATS EXPORT" ++ [nl] ++
  lit "#CMD " ++ get_cmd args ++ [nl] ++
  lit "#DIM " ++ print_nat (dimX p) ++ lit " " ++ print_nat (dimY p) ++ [nl] ++ [nl] ++
  entry (lit "L1") (w_show_vec w (L1 m)) ++
  entry (lit "L2") (w_show_vec w (L2 m)) ++
  entry (lit "L3") (w_show_vec w (L3 m)) ++
  entry (lit "LINF") (w_show_vec w (LInf m)) ++
  entry (lit "MSE") (w_show_vec w (MSE m)) ++
  entry (lit "RMSE") (w_show_vec w (RMSE m)) ++ [nl].

(** fit2stat.cpp:641-677 and data2stats.cpp:558-586: the optional file; [false]
    when it cannot be opened *)
Definition write_stats (args : arguments) (text : str) : prog bool :=
  let name := at_key args (lit "output") in
  if negb (is_defined args (lit "output")) then ret true
  else if str_eqb name [] then ret true
  else if w_writable w name then let! _ := write_file name (text, Ok tt) in ret true
  else ret false.

(** softs/fit2stat/fit2stat.cpp:428-699 *)
Definition fit2stat (argv : list str) : prog Z :=
  let! args := call (arguments_of_argv argv) in
  if is_defined args (lit "help") || is_defined args (lit "h") then ret 0%Z else
  if negb (is_defined args (lit "brdf")) then ret 1%Z else
  if negb (is_defined args (lit "input")) then ret 1%Z else
  let! x := (fun d => match load_data (at_key args (lit "input")) (lit "vertical_segment") args d with
                      | (d', Throw) => (d', Ok Failed)            (* catch(...) *)
                      | r => r
                      end) in
  match x with
  | Failed => ret 1%Z
  | Done None => call UB                          (* vs_data->parametrization() *)
  | Done (Some x) =>
    let! f := load_function (at_key args (lit "brdf")) in
    match f with
    | None => ret 1%Z
    | Some f =>
      let! r := call (w_fit_stats w x f) in
      let! written := write_stats args (fit_text args (w_fpar w f) r) in
      if (written : bool) then
        let! _ := call (w_L2 w f x) in
        let! _ := call (w_Linf w f x) in
        ret 0%Z
      else ret 1%Z
    end
  end.

(** softs/data2stats/data2stats.cpp:469-588 *)
Definition data2stats (argv : list str) : prog Z :=
  let! args := call (arguments_of_argv argv) in
  if is_defined args (lit "help") || is_defined args (lit "h") then ret 0%Z else
  if negb (is_defined args (lit "ref")) then ret 1%Z else
  if negb (is_defined args (lit "input")) then ret 1%Z else
  let! x := load_data (at_key args (lit "input")) (at_key args (lit "in-data")) [] in
  match x with
  | Failed => ret 1%Z
  | Done None => ret 1%Z
  | Done (Some x) =>
    let! r := load_data (at_key args (lit "ref")) (at_key args (lit "ref-data")) [] in
    match r with
    | Failed => ret 1%Z
    | Done None => ret 1%Z
    | Done (Some r) =>
      let! m := call (w_data_stats w x r) in
      let! written := write_stats args (stats_text args (w_par w r) m) in
      if (written : bool) then ret 0%Z else ret 1%Z
    end
  end.
End Tools.

(** The programs that SConscript builds. *)
Inductive tool := Data2brdf | Brdf2brdf | Brdf2data | Brdf2gnuplot | Data2data | Data2moments | Fit2stat | Data2stats.
(** softs/SConscript:1-10, the eight programs *)
Definition run {D F Ft} (w : world D F Ft) (t : tool) (argv : list str) : prog Z :=
  match t with
  | Data2brdf => data2brdf w argv
  | Brdf2brdf => brdf2brdf w argv
  | Brdf2data => brdf2data w argv
  | Brdf2gnuplot => brdf2gnuplot w argv
  | Data2data => data2data w argv
  | Data2moments => data2moments w argv
  | Fit2stat => fit2stat w argv
  | Data2stats => data2stats w argv
  end.

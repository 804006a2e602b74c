(** Properties C36-C38 and C60-C61: plugins and objects built from options. *)
From Coq Require Import List Lia Reals.
From Verif Require Import Base Num ArgsModel ArgsSpec ArgsProofs ParamsModel GeoModel CommonModel FuncModel PlugModel PlugSpec PlugProofs.
Open Scope list_scope.
Open Scope nat_scope.

(** C36: the search path is the variable cut at ':', empty parts standing for
    the system directory; an unset variable means the system directory. *)
Theorem C36_search_path sysdir :
  plugin_search_path sysdir None = [sysdir] /\
  (forall parts, parts <> [] -> Forall (fun c => ~ In ":"%char c) parts ->
     plugin_search_path sysdir (Some (join colon parts)) = map (directory sysdir) parts) /\
  (forall value, exists parts, parts <> [] /\ Forall (fun c => ~ In ":"%char c) parts /\ value = join colon parts).
Proof. exact (conj eq_refl (conj (path_of_join sysdir) split_exists)). Qed.
Print Assumptions C36_search_path.

Example C36_case :
  plugin_search_path (lit "/usr/lib/alta") (Some (lit ":a::b/c:")) =
  [lit "/usr/lib/alta"; lit "a"; lit "/usr/lib/alta"; lit "b/c"; lit "/usr/lib/alta"].
Proof. reflexivity. Qed.

(** C37: with glibc's dlerror, the first directory that provides the symbol
    wins, and there is no result exactly when none provides it. *)
Theorem C37_first_provider_wins {T} (libs : str -> option (option T)) dirs name lib :
  library_name name = Ok lib ->
  (forall f, open_library false libs dirs name = Ok (Some f) <-> first_export libs dirs lib f) /\
  (open_library false libs dirs name = Ok None <-> (forall d f, In d dirs -> ~ exports libs d lib f)).
Proof.
  exact (fun H => conj (open_loop_some libs dirs name lib H false) (open_loop_none libs dirs name lib H false)).
Qed.
Print Assumptions C37_first_provider_wins.

(** With a dlerror that remembers errors until it is called (as POSIX
    describes it), a plugin that is not in the first directory is not found. *)
Theorem C37_posix_dlerror_refuted : exists (libs : str -> option (option nat)) dirs name lib,
  library_name name = Ok lib /\ first_export libs dirs lib 7 /\ open_library true libs dirs name = Ok None.
Proof.
  exists (fun p => if str_eqb p (lit "b/libx1.so") then Some (Some 7) else None), [lit "a"; lit "b"], (lit "x1"), (lit "libx1.so").
  split; [reflexivity|]. split; [|reflexivity]. exists [lit "a"], (lit "b"), []. split; [reflexivity|].
  split; [reflexivity|]. intros d g [<-|[]]. discriminate.
Qed.
Print Assumptions C37_posix_dlerror_refuted.

Example C37_case : let libs := fun p => if str_eqb p (lit "b/libx1.so") then Some (Some 7)
                                        else if str_eqb p (lit "a/libx1.so") then Some None else None in
  library_name (lit "x1") = Ok (lit "libx1.so") /\
  open_library false libs [lit "z"; lit "a"; lit "b"] (lit "x1") = Ok (Some 7).
Proof. split; reflexivity. Qed.

(** C38 *)
Theorem C38_library_names name :
  (List.length name < 2 -> library_name name = Throw) /\
  (forall p, name = p ++ lit "so" -> library_name name = Ok name) /\
  (2 <= List.length name -> (forall p, name <> p ++ lit "so") ->
     library_name name = Ok (lit "lib" ++ name ++ lit ".so")).
Proof. exact (library_name_spec name). Qed.
Print Assumptions C38_library_names.

(** The test is on the last two letters only, so a plugin whose name merely
    ends with them is never found. *)
Theorem C38_suffix_without_dot_refuted : exists name p,
  name = p ++ lit "so" /\ (forall q, name <> q ++ lit ".so") /\ library_name name = Ok name.
Proof.
  exists (lit "nonlinear_function_espresso"), (lit "nonlinear_function_espres"). split; [reflexivity|]. split; [|reflexivity].
  intros q H. apply (f_equal (@rev ascii)) in H. rewrite rev_app_distr in H. discriminate.
Qed.
Print Assumptions C38_suffix_without_dot_refuted.

Example C38_case : library_name (lit "data_merl") = Ok (lit "libdata_merl.so") /\ library_name (lit "x.so") = Ok (lit "x.so")
  /\ library_name (lit "a") = Throw.
Proof. repeat split. Qed.

Section C60.
Variable sysdir : str.
Variable env : option str.
Variable libs : str -> option (option (parameters -> fobj)).

(** C60: building a function always ends: the depth of the recursion is bounded
    by the length of the option values, and the result is a fixed point of the
    code's recursion. *)
Theorem C60_terminates :
  (forall stuck fuel args par, nesting args < fuel ->
     get_function_n sysdir env libs stuck fuel args par = get_function sysdir env libs args par) /\
  (forall args par, get_function sysdir env libs args par =
     get_function_body sysdir env libs (get_function sysdir env libs) args par).
Proof. exact (conj (gf_any_fuel sysdir env libs) (gf_equation sysdir env libs)). Qed.

(** Without --func, or with a plugin that is not found, a rational function. *)
Theorem C60_default_is_rational args par :
  (is_defined args (lit "func") = false -> get_function sysdir env libs args par = Ok (Rational par)) /\
  (is_defined args (lit "func") = true -> ~ begins "[" (at_key args (lit "func")) ->
     open_function sysdir env libs (at_key args (lit "func")) = Ok None ->
     get_function sysdir env libs args par = Ok (Rational par)).
Proof. exact (conj (gf_no_func sysdir env libs args par) (gf_missing sysdir env libs args par)). Qed.

(** --func name [--fresnel name] [--fixed-lobe] [--fixed-fresnel] *)
Theorem C60_single_function (args : arguments) par n t fres fr :
  map_find (lit "func") args = Some n -> plugin_word n -> plugin_gives sysdir env libs par n t ->
  map_find (lit "fresnel") args = fres -> fresnel_gives sysdir env libs par fres fr ->
  get_function sysdir env libs args par =
  Ok (Nonlinear (times_fresnel t fr (is_defined args (lit "fixed-lobe")) (is_defined args (lit "fixed-fresnel")))).
Proof. exact (gf_single sysdir env libs args par n t fres fr). Qed.

(** --func [lobe, lobe, ...] [--fresnel name] ...: the compound of the lobes in
    the order written, each with its own --fixed flag. *)
Theorem C60_compound_of_lobes (args : arguments) par (items : list (str * lobe)) ts fres fr :
  map_find (lit "func") args
    = Some ("["%char :: join comma (map (fun i => lobe_text (fst i) (snd i)) items) ++ ["]"%char]) ->
  items <> [] ->
  Forall (fun i => forallb is_space (fst i) = true) items ->
  Forall2 (fun i t => lobe_gives sysdir env libs par (snd i) t) items ts ->
  map_find (lit "fresnel") args = fres -> fresnel_gives sysdir env libs par fres fr ->
  get_function sysdir env libs args par =
  (do c <- make_compound (combine (map (fun i => lb_fixed (snd i)) items) ts);
   Ok (Nonlinear (times_fresnel c fr (is_defined args (lit "fixed-lobe")) (is_defined args (lit "fixed-fresnel"))))).
Proof. exact (gf_compound sysdir env libs args par items ts fres fr). Qed.
(** A Fresnel factor that cannot be used is left out: --fresnel without a name, a
    plugin that is not found or is not a nonlinear function; the same for a function
    that is not nonlinear.  --fresnel [name options] builds the factor from the
    bracketed command line. *)
Theorem C60_fresnel_factor (args : arguments) par n : map_find (lit "func") args = Some n -> plugin_word n ->
  (forall t f, plugin_gives sysdir env libs par n t -> map_find (lit "fresnel") args = Some f ->
    (f = [] -> get_function sysdir env libs args par = Ok (Nonlinear t)) /\
    (plugin_word f -> open_function sysdir env libs f = Ok None -> get_function sysdir env libs args par = Ok (Nonlinear t)) /\
    (plugin_word f -> (exists provide, open_function sysdir env libs f = Ok (Some provide) /\ as_nonlinear (provide par) = None) ->
       get_function sysdir env libs args par = Ok (Nonlinear t)) /\
    (forall w l g, f = "["%char :: lobe_text w l ++ ["]"%char] -> forallb is_space w = true -> lobe_gives sysdir env libs par l g ->
       get_function sysdir env libs args par = Ok (Nonlinear (make_product t g (is_defined args (lit "fixed-lobe")) (is_defined args (lit "fixed-fresnel")))))) /\
  (forall o, (exists provide, open_function sysdir env libs n = Ok (Some provide) /\ provide par = o) -> as_nonlinear o = None ->
     get_function sysdir env libs args par = Ok o).
Proof.
  intros Hn Hw. split.
  - intros t f Ht Hf. exact (gf_fresnel_cases sysdir env libs args par n t f Hn Hw Ht Hf).
  - intros o Ho Hl. exact (gf_linear_with_fresnel sysdir env libs args par n o Hn Hw Ho Hl).
Qed.
End C60.
Print Assumptions C60_fresnel_factor.
Print Assumptions C60_terminates.
Print Assumptions C60_default_is_rational.
Print Assumptions C60_single_function.
Print Assumptions C60_compound_of_lobes.

(** A missing plugin inside a bracketed list is not reported: the list element
    becomes a null pointer that the compound dereferences. *)
Theorem C60_missing_lobe_refuted : exists sysdir env libs (args : arguments) par,
  arguments_of_argv [lit "--func"; lit "[lobe,absent]"] = Ok args /\
  open_function sysdir env libs (lit "lobe") <> Ok None /\
  get_function sysdir env libs args par = UB.
Proof.
  exists (lit "s"), None, (fun p => if str_eqb p (lit "s/liblobe.so")
     then Some (Some (fun q => Nonlinear (Leaf (mkLeaf q 0 (fun _ _ => []) (fun _ _ => []) [] []) []))) else None),
    [(lit "func", lit "[lobe,absent]")], (mkParameters 0 0 UNKNOWN_INPUT UNKNOWN_OUTPUT).
  split; [reflexivity|]. split; [discriminate|]. reflexivity.
Qed.
Print Assumptions C60_missing_lobe_refuted.

(** "--func []" is one element with an empty name: std::out_of_range. *)
Theorem C60_empty_list_refuted sysdir env libs par : exists args,
  arguments_of_argv [lit "--func"; lit "[]"] = Ok args /\
  get_function sysdir env libs args par = Throw.
Proof.
  exists [(lit "func", lit "[]")]. split; [reflexivity|]. rewrite gf_equation.
  unfold get_function_body, base_function.
  change (is_defined [(lit "func", lit "[]")] (lit "func")) with true.
  change (is_vec [(lit "func", lit "[]")] (lit "func")) with true.
  change (get_vec_str [(lit "func", lit "[]")] (lit "func")) with [[] : str].
  cbn [negb]. rewrite elements_cons. change (create_arguments (lit "--func " ++ [])) with (Ok [(lit "func", [])] : outcome arguments).
  cbn [bind]. rewrite gf_equation. unfold get_function_body, base_function.
  change (is_defined [(lit "func", [])] (lit "func")) with true.
  change (is_vec [(lit "func", [])] (lit "func")) with false.
  change (at_key [(lit "func", [])] (lit "func")) with ([] : str). cbn [negb].
  rewrite open_empty. reflexivity.
Qed.
Print Assumptions C60_empty_list_refuted.

Example C60_case :
  let leaf k := Leaf (mkLeaf (mkParameters 6 3 CARTESIAN INV_STERADIAN) k (fun _ _ => []) (fun _ _ => []) [] []) [] in
  let libs := fun p => if str_eqb p (lit "s/libblinn.so") then Some (Some (fun _ : parameters => Nonlinear (leaf 6)))
                       else if str_eqb p (lit "s/libdiffuse.so") then Some (Some (fun _ => Nonlinear (leaf 3)))
                       else if str_eqb p (lit "s/libschlick.so") then Some (Some (fun _ => Nonlinear (leaf 1))) else None in
  exists args, arguments_of_argv [lit "--func"; lit "[blinn"; lit "--fresnel"; lit "schlick,"; lit "diffuse"; lit "--fixed]"] = Ok args /\
  let par := mkParameters 6 3 CARTESIAN INV_STERADIAN in
  get_function (lit "s") None libs args par =
  Ok (Nonlinear (Compound par [(false, Product par false false (leaf 6) (leaf 1)); (true, leaf 3)])).
Proof. intros leaf libs; eexists; split; reflexivity. Qed.

(** C61: check_compatibility. *)
Theorem C61_check_compatibility d size f args :
  (* equal output sizes are required in all cases *)
  (dimY f <> dimY d -> (size = 0 \/ in_param f = UNKNOWN_INPUT \/ in_param f = in_param d \/ is_defined args (lit "change-param") = false) ->
     check_compatibility d size f args = Abort) /\
  (dimY f = dimY d -> in_param f = UNKNOWN_INPUT ->
     check_compatibility d size f args = Ok (d, mkParameters (dimX f) (dimY f) (in_param d) (out_param f))) /\
  (dimY f = dimY d -> in_param f <> UNKNOWN_INPUT ->
     in_param f = in_param d \/ is_defined args (lit "change-param") = false ->
     check_compatibility d size f args = Ok (d, f)) /\
  (dimY f = dimY d -> in_param f <> UNKNOWN_INPUT -> in_param f <> in_param d ->
     is_defined args (lit "change-param") = true ->
     check_compatibility d size f args =
     if size =? 0 then Ok (mkParameters (Z.to_nat (dimension_in (in_param f))) (dimY d) (in_param f) (out_param d), f) else UB).
Proof.
  assert (Hi : forall a b, reflect (a = b) (input_eqb a b)).
  { intros a b. destruct a, b; (constructor; congruence) || (apply ReflectT; reflexivity) || (apply ReflectF; discriminate). }
  unfold check_compatibility, reparametrize.
  destruct d as [dx dy di do_], f as [fx fy fi fo]; cbn [in_param out_param dimX dimY].
  destruct (Hi di UNKNOWN_INPUT) as [Ed|Ed], (Hi fi UNKNOWN_INPUT) as [Ef|Ef], (Hi di fi) as [E|E];
    destruct (is_defined args (lit "change-param")); cbn [andb negb];
    repeat split; intros; subst; cbn [bind in_param out_param dimX dimY];
    rewrite ?Nat.eqb_refl; cbn [negb]; try congruence;
    try (destruct size as [|size]; cbn [Nat.eqb bind]);
    repeat match goal with
    | H : ?a <> ?b |- context [?a =? ?b] => rewrite (proj2 (Nat.eqb_neq a b) H)
    | H : _ \/ _ |- _ => destruct H
    end; cbn [negb dimY]; try rewrite Nat.eqb_refl; cbn [negb]; try congruence; try reflexivity; try discriminate.
  all: try (rewrite (proj2 (Nat.eqb_neq fy dy)) by assumption; reflexivity).
Qed.
Print Assumptions C61_check_compatibility.

(** --change-param never works on data that has samples. *)
Theorem C61_change_param_refuted : exists d size f args,
  is_defined args (lit "change-param") = true /\ in_param d <> in_param f /\ dimY d = dimY f /\
  0 < size /\ check_compatibility d size f args = UB.
Proof.
  exists (mkParameters 4 3 SPHERICAL_TL_PL_TV_PV INV_STERADIAN), 1, (mkParameters 6 3 CARTESIAN INV_STERADIAN), [(lit "change-param", [])].
  repeat split; try discriminate. lia.
Qed.
Print Assumptions C61_change_param_refuted.

Example C61_case : check_compatibility (mkParameters 4 3 SPHERICAL_TL_PL_TV_PV INV_STERADIAN) 10
    (mkParameters 4 3 UNKNOWN_INPUT UNKNOWN_OUTPUT) [] =
  Ok (mkParameters 4 3 SPHERICAL_TL_PL_TV_PV INV_STERADIAN, mkParameters 4 3 SPHERICAL_TL_PL_TV_PV UNKNOWN_OUTPUT).
Proof. reflexivity. Qed.

(** Data and fitter plugins by name: no name (or vertical_segment) means the
    built-in data object, no fitter name means no fitter; otherwise the first
    provider on the search path, or nothing. *)
Theorem C37_data_and_fitters_by_name {D} sysdir env (libs : str -> option (option D)) (dflt : D) n lib :
  (n = [] \/ n = lit "vertical_segment" -> get_data sysdir env libs dflt n = Ok (Some dflt)) /\
  (n = [] -> get_fitter sysdir env libs n = Ok None) /\
  (n <> lit "vertical_segment" -> library_name n = Ok lib ->
     forall r, (get_data sysdir env libs dflt n = Ok r <-> get_fitter sysdir env libs n = Ok r) /\
       (get_fitter sysdir env libs n = Ok r <->
        match r with
        | Some f => first_export libs (plugin_search_path sysdir env) lib f
        | None => forall d f, In d (plugin_search_path sysdir env) -> ~ exports libs d lib f
        end)).
Proof.
  repeat split.
  - unfold get_data. intros [->| ->]; reflexivity.
  - intros ->; reflexivity.
  - unfold get_data, get_fitter. destruct (str_eqb_spec n (lit "vertical_segment")); [contradiction|].
    destruct n; [discriminate|]. simpl. auto.
  - unfold get_data, get_fitter. destruct (str_eqb_spec n (lit "vertical_segment")); [contradiction|].
    destruct n; [discriminate|]. simpl. auto.
  - unfold get_fitter. destruct n; [discriminate|]. destruct r; [apply (open_loop_some libs _ _ _ H0 false)|apply (open_loop_none libs _ _ _ H0 false)].
  - unfold get_fitter. destruct n; [discriminate|]. destruct r; [apply (open_loop_some libs _ _ _ H0 false)|apply (open_loop_none libs _ _ _ H0 false)].
Qed.
Print Assumptions C37_data_and_fitters_by_name.

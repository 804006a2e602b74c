(** Model of the function files of the nonlinear plugins: the load and, in ALTA's
    own format, save_call functions of sources/plugins/nonlinear_*/function.cpp.
    "blinn 63-111" below means lines 63-111 of
    sources/plugins/nonlinear_function_blinn/function.cpp, and likewise for the
    others (fresnel_schlick, normalized_schlick, retroschlick:
    directories nonlinear_fresnel_NAME; shadowing_schlick, smith, walter_smith:
    directories nonlinear_shadowing_NAME).
    Conversions between numbers and text are parameters, as in TextModel. *)
From Coq Require Import Reals List ZArith.
From Verif Require Import Base Num ParamsModel GeoModel ArgsModel DataModel TextModel FuncModel FuncFile RatModel.
Open Scope R_scope.

(** The plugins.  PSg and PSgMoment: spherical_gaussian without and with the type Moment. *)
Inductive pkind :=
| PDiffuse | PBlinn | PRetroblinn | PWard | PBeckmann | PSg | PSgMoment | PSchlick | PNormSchlick | PRetroSchlick
| PMasking | PSmith | PWalter | PAbc | PRetrobeckmann | PYoo | PLafIso | PLaf | PSgd.

(** A function object: the plugin, dimY, the input parametrization (abc), the
    flag _use_back_param (retrobeckmann), the number of lobes _n (lafortune) and
    the parameter vectors in the order of the plugin's table below; _a of the
    Moment type is a vector of one number.  For lafortune the vectors are _C, _N,
    and _isotropic, which the constructor does not set, is taken to be false. *)
Record pfun := mkPfun { pf_kind : pkind; pf_nY : nat; pf_in : input; pf_back : bool; pf_n : Z; pf_mem : list (list R) }.
Definition with_mem (f : pfun) (ms : list (list R)) : pfun := mkPfun (pf_kind f) (pf_nY f) (pf_in f) (pf_back f) (pf_n f) ms.
Definition with_in (f : pfun) (p : input) : pfun := mkPfun (pf_kind f) (pf_nY f) p (pf_back f) (pf_n f) (pf_mem f).
Definition with_back (f : pfun) (b : bool) : pfun := mkPfun (pf_kind f) (pf_nY f) (pf_in f) b (pf_n f) (pf_mem f).

(** The second token of the file, as load compares it:
    diffuse 78, blinn 90, retroblinn 85, ward 204, beckmann 227,
    spherical_gaussian 285, fresnel_schlick 62, normalized_schlick 59,
    retroschlick 147, shadowing_schlick 63, smith 64, walter_smith 24 and 66,
    abc 200, retrobeckmann 212, retroyoo 166, isotropic_lafortune 369,
    lafortune 398, sgd 218 (function.cpp of each plugin). *)
Definition load_name (k : pkind) : str :=
  match k with
  | PDiffuse => lit "nonlinear_function_diffuse" | PBlinn => lit "nonlinear_function_blinn"
  | PRetroblinn => lit "nonlinear_function_retroblinn" | PWard => lit "nonlinear_function_ward"
  | PBeckmann => lit "nonlinear_function_beckmann" | PSg | PSgMoment => lit "nonlinear_function_spherical_gaussian"
  | PSchlick => lit "nonlinear_fresnel_schlick" | PNormSchlick => lit "nonlinear_fresnel_normalized_schlick"
  | PRetroSchlick => lit "nonlinear_fresnel_retro_schlick" | PMasking => lit "nonlinear_masking_schlick"
  | PSmith => lit "nonlinear_fresnel_smith" | PWalter => lit "nonlinear_shadowing_walter_smith"
  | PAbc => lit "nonlinear_function_abc" | PRetrobeckmann => lit "nonlinear_function_retrobeckmann"
  | PYoo => lit "nonlinear_function_retroyoo" | PLafIso | PLaf => lit "nonlinear_function_lafortune"
  | PSgd => lit "nonlinear_function_sgd"
  end.
(** The same token as save_call writes it: diffuse 99, blinn 194, retroblinn
    180, ward 228, beckmann 251, spherical_gaussian 317, fresnel_schlick 82,
    normalized_schlick 79, retroschlick 166, shadowing_schlick 83, smith 84,
    walter_smith 97, abc 241, retrobeckmann 255, retroyoo 189,
    isotropic_lafortune 411, lafortune 436. *)
Definition save_name (k : pkind) : str :=
  match k with
  | PDiffuse => lit "nonlinear_function_diffuse" | PBlinn => lit "nonlinear_function_blinn"
  | PRetroblinn => lit "nonlinear_function_retroblinn" | PWard => lit "nonlinear_function_ward"
  | PBeckmann => lit "nonlinear_function_beckmann" | PSg | PSgMoment => lit "nonlinear_function_spherical_gaussian"
  | PSchlick => lit "nonlinear_fresnel_schlick" | PNormSchlick => lit "nonlinear_fresnel_normalized_schlick"
  | PRetroSchlick => lit "nonlinear_fresnel_retro_schlick" | PMasking => lit "nonlinear_masking_schlick"
  | PSmith => lit "nonlinear_fresnel_smith" | PWalter => lit "nonlinear_shadowing_walter_smith"
  | PAbc => lit "nonlinear_function_abc" | PRetrobeckmann => lit "nonlinear_function_retrobeckmann"
  | PYoo => lit "nonlinear_function_retroyoo" | PLafIso | PLaf => lit "nonlinear_function_lafortune"
  | PSgd => []
  end.

(** A number of the object: vector and position.  Loops over the channels, with the
    vectors ms inside. *)
Definition cell := (nat * nat)%type.
Definition by_channel {A} (ms : list A) (at_ : A -> nat -> cell) (nY : nat) : list (A * cell) :=
  flat_map (fun i => map (fun m => (m, at_ m i)) ms) (seq 0 nY).
(** The numbers load reads, in its order: blinn 101-105 (_ks, _N), retroblinn
    93-97, ward 211-217 (_ks, _ax, _ay), beckmann 235-240 (_ks, _a), diffuse
    85-88, spherical_gaussian 292-302 (_ks, _n, then _a), fresnel_schlick 69-72,
    normalized_schlick 66-69, retroschlick 154-156, shadowing_schlick 70-73, smith
    71-74, walter_smith 76-79, abc 224-230 (_a, _b, _c), retrobeckmann 239-244 (_ks,
    _a), retroyoo 173-178 (_kr, _lt), isotropic_lafortune 387-397 (_C, _N),
    lafortune 411-422: the exponents go to _N[i] whatever the lobe, sgd 227-289
    (rho_d, rho_s, alpha, p, F_0, F_1, K_ap, sh_lambda, sh_c, sh_k, sh_theta0: all
    the channels of each). *)
Definition load_cells (f : pfun) : list cell :=
  let nY := pf_nY f in
  let plain m := map snd (by_channel (seq 0 m) pair nY) in
  match pf_kind f with
  | PDiffuse | PSchlick | PNormSchlick | PRetroSchlick | PMasking | PSmith | PWalter => plain 1%nat
  | PBlinn | PRetroblinn | PBeckmann | PSg | PRetrobeckmann | PYoo => plain 2%nat
  | PSgMoment => plain 2%nat ++ [(2, 0)]%nat
  | PWard | PAbc => plain 3%nat
  | PSgd => flat_map (fun m => map (fun i => (m, i)) (seq 0 nY)) (seq 0 11)
  | PLafIso => flat_map (fun n => flat_map (fun i => [(0, (n * nY + i) * 2 + 0); (0, (n * nY + i) * 2 + 1); (1, n * nY + i)]%nat) (seq 0 nY)) (seq 0 (Z.to_nat (pf_n f)))
  | PLaf => flat_map (fun n => flat_map (fun i => [(0, (n * nY + i) * 3 + 0); (0, (n * nY + i) * 3 + 1); (0, (n * nY + i) * 3 + 2); (1, i)]%nat) (seq 0 nY)) (seq 0 (Z.to_nat (pf_n f)))
  end.
(** The lines save_call writes in turn, label and number; [None]: an empty line.
    blinn 196-202, retroblinn 182-188, ward 230-237, beckmann 253-259, diffuse
    100-104, spherical_gaussian 319-330 (no empty line after _a), fresnel_schlick
    83-87, normalized_schlick 80-84, retroschlick 167-171, shadowing_schlick 84-88,
    smith 85-89, walter_smith 99-104, abc 245-252, retrobeckmann 260-266, retroyoo
    192-198, isotropic_lafortune 414-427, lafortune 439-453. *)
Definition save_lines (f : pfun) : list (option (str * cell)) :=
  let nY := pf_nY f in
  let plain ls := map (fun q : nat * str * cell => Some (snd (fst q), snd q)) (by_channel ls (fun ml i => (fst ml, i)) nY) in
  match pf_kind f with
  | PDiffuse => plain [(0%nat, lit "kd ")] ++ [None]
  | PSchlick | PNormSchlick | PRetroSchlick | PSmith => plain [(0%nat, lit "R ")] ++ [None]
  | PMasking => plain [(0%nat, lit "K ")] ++ [None]
  | PWalter => plain [(0%nat, lit "alpha ")] ++ [None]
  | PBlinn | PRetroblinn | PSg => plain [(0%nat, lit "Ks "); (1%nat, lit "N  ")] ++ [None]
  | PSgMoment => plain [(0%nat, lit "Ks "); (1%nat, lit "N  ")] ++ [Some (lit "a  ", (2, 0)%nat)]
  | PBeckmann | PRetrobeckmann => plain [(0%nat, lit "Ks "); (1%nat, lit "a  ")] ++ [None]
  | PYoo => plain [(0%nat, lit "Kr "); (1%nat, lit "Lt ")] ++ [None]
  | PWard => plain [(0%nat, lit "Ks "); (1%nat, lit "ax "); (2%nat, lit "ay ")] ++ [None]
  | PAbc => plain [(0%nat, lit "a  "); (1%nat, lit "b  "); (2%nat, lit "c  ")] ++ [None]
  | PLafIso => flat_map (fun n => flat_map (fun i => [Some (lit "Cxy ", (0, (n * nY + i) * 2 + 0)); Some (lit "Cz  ", (0, (n * nY + i) * 2 + 1)); Some (lit "N   ", (1, n * nY + i))]%nat) (seq 0 nY) ++ [None]) (seq 0 (Z.to_nat (pf_n f)))
  | PLaf => flat_map (fun n => flat_map (fun i => [Some (lit "Cx ", (0, (n * nY + i) * 3 + 0)); Some (lit "Cx ", (0, (n * nY + i) * 3 + 1)); Some (lit "Cz ", (0, (n * nY + i) * 3 + 2)); Some (lit "N  ", (1, n * nY + i))]%nat) (seq 0 nY) ++ [None]) (seq 0 (Z.to_nat (pf_n f)))
  | PSgd => []
  end.

(** the number at a position; outside the vector Eigen's assertion fails *)
Definition cell_at (ms : list (list R)) (c : cell) : outcome R :=
  match nth_error ms (fst c) with
  | Some v => match nth_error v (snd c) with Some x => Ok x | None => Abort end
  | None => Abort
  end.
Definition set_cell (ms : list (list R)) (c : cell) (x : R) : list (list R) := set_nth (fst c) (set_nth (snd c) x (nth (fst c) ms [])) ms.

(** in >> token: a token that cannot be read keeps its value *)
Definition read_token (old : str) (s : istream) : str * istream :=
  match scan_string s with (Some t, s') => (t, s') | (None, s') => (old, s') end.

Section Files.
Variable lex : str -> option (R * str).
Variable print : R -> str.
(** the values in memory after a vector is resized *)
Variable junk : nat -> nat -> R.

(** in >> token >> v[i] for each number: the label and the state of the stream are not looked at *)
Fixpoint read_cells (cs : list cell) (ms : list (list R)) (s : istream) : outcome (list (list R) * istream) :=
  match cs with
  | [] => Ok (ms, s)
  | c :: cs' =>
      do _ <- cell_at ms c;
      match scan_double lex (snd (scan_string s)) with
      | (Some v, s') => read_cells cs' (set_cell ms c v) s'
      | (None, s') => read_cells cs' ms s'
      end
  end.
Definition load_numbers (f : pfun) (s : istream) : outcome (bool * pfun * istream) :=
  do r <- read_cells (load_cells f) (pf_mem f) s; Ok (true, with_mem f (fst r), snd r).
(** vec::resize: a vector of another size loses its values *)
Definition resize_vec (m : nat) (n : nat) (v : list R) : list R := if Nat.eqb (length v) n then v else map (junk m) (seq 0 n).
(** lafortune 144-155, isotropic_lafortune 137-144 setNbLobes *)
Definition set_lobes (w : nat) (f : pfun) (z : Z) : outcome pfun :=
  if (z * Z.of_nat (pf_nY f) <? 0)%Z then Abort else
  let n := (Z.to_nat z * pf_nY f)%nat in
  Ok (mkPfun (pf_kind f) (pf_nY f) (pf_in f) (pf_back f) z [resize_vec 0 (n * w) (nth 0 (pf_mem f) []); resize_vec 1 n (nth 1 (pf_mem f) [])]).

(** load after the name of the function has been read: abc 206-230, retrobeckmann
    219-244, isotropic_lafortune 375-397, lafortune 404-422; nb_lobes is uninitialised *)
Definition pload_body (f : pfun) (t2 : str) (s3 : istream) : outcome (bool * pfun * istream) :=
  match pf_kind f with
  | PAbc => let (t3, s4) := read_token t2 s3 in
            if negb (str_eqb t3 (lit "#PARAM")) then Ok (false, f, s4) else
            let (t4, s5) := read_token t3 s4 in load_numbers (with_in f (parse_input t4)) s5
  | PRetrobeckmann => let (t3, s4) := read_token t2 s3 in
            if negb (str_eqb t3 (lit "#TYPE")) then Ok (false, f, s4) else
            let (t4, s5) := read_token t3 s4 in load_numbers (with_back f (str_eqb t4 (lit "RETRO"))) s5
  | PLafIso => let (t3, s4) := read_token t2 s3 in
            if negb (str_eqb t3 (lit "#NB_LOBES")) then Ok (false, f, s4) else
            match scan_num s4 with
            | (None, _) => UB
            | (Some z, s5) => do g <- set_lobes 2 f z; load_numbers g s5
            end
  | PLaf => match scan_num (snd (read_token t2 s3)) with
            | (None, _) => UB
            | (Some z, s5) => do g <- set_lobes 3 f z; load_numbers g s5
            end
  | _ => load_numbers f s3
  end.

(** load of the plugins: blinn 63-111, retroblinn 61-99, ward 180-219, beckmann
    202-242, diffuse 54-91, spherical_gaussian 261-307, fresnel_schlick 36-74,
    normalized_schlick 35-71, retroschlick 123-158, shadowing_schlick 37-75, smith
    38-76, walter_smith 35-87, abc 176-232, retrobeckmann 187-246, retroyoo
    142-180, isotropic_lafortune 345-402, lafortune 374-427, sgd 192-291. *)
Definition pload (f : pfun) (s : istream) : outcome (bool * pfun * istream) :=
  let (found, s1) := skip_lines (S (length (rest s))) s in
  if negb found then Ok (false, f, s1) else
  let (t1, s2) := read_token [] s1 in
  if negb (str_eqb t1 (lit "#FUNC")) then Ok (false, f, s2) else
  let (t2, s3) := read_token t1 s2 in
  if negb (str_eqb t2 (load_name (pf_kind f))) then Ok (false, f, s3) else
  pload_body f t2 s3.

Fixpoint lines_text (ls : list (option (str * cell))) (ms : list (list R)) : outcome str :=
  match ls with
  | [] => Ok []
  | None :: ls' => do r <- lines_text ls' ms; Ok (endl [] ++ r)
  | Some (label, c) :: ls' => do x <- cell_at ms c; do r <- lines_text ls' ms; Ok (endl (label ++ print x) ++ r)
  end.
(** what stands between the first line and the numbers: abc 242-243, retrobeckmann
    256-258, retroyoo 190 (no end of line), isotropic_lafortune 412, lafortune 437 *)
Definition save_tag (f : pfun) : str :=
  match pf_kind f with
  | PAbc => endl (lit "#PARAM " ++ get_name_in (pf_in f))
  | PRetrobeckmann => endl (lit "#TYPE " ++ (if pf_back f then lit "BACK" else lit "RETRO"))
  | PYoo => lit "#TYPE "
  | PLafIso | PLaf => endl (lit "#NB_LOBES " ++ print_Z (pf_n f))
  | _ => []
  end.
(** save_call of the plugins, without the option --export; sgd/function.h:38-41: not implemented *)
Definition psave (f : pfun) : outcome str :=
  match pf_kind f with
  | PSgd => Abort
  | _ => do r <- lines_text (save_lines f) (pf_mem f);
         Ok (endl (lit "#FUNC " ++ save_name (pf_kind f)) ++ save_tag f ++ r)
  end.

(** ** Sums of plugins: compound_function, sources/core/function.cpp:520-537 and 785-813 *)
Fixpoint csave (fs : list pfun) : outcome str :=
  match fs with [] => Ok [] | f :: fs' => do a <- psave f; do b <- csave fs'; Ok (a ++ b) end.
Fixpoint cload_from (fs : list pfun) (nb_good : nat) (s : istream) : outcome (nat * list pfun * istream) :=
  match fs with
  | [] => Ok (nb_good, [], s)
  | f :: fs' =>
      let (pos, s1) := tellg s in
      do r <- pload f s1;
      let '(b, g, s2) := r in
      do q <- cload_from fs' (if b then S nb_good else nb_good) (if b then s2 else seekg pos s2);
      let '(n, gs, s3) := q in Ok (n, g :: gs, s3)
  end.
Definition cload (fs : list pfun) (s : istream) : outcome (bool * list pfun * istream) :=
  do q <- cload_from fs 0 s; let '(n, gs, s') := q in Ok ((0 <? n)%nat, gs, s').
End Files.

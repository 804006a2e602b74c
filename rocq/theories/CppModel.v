(** Model of the export to C++ and to Matlab: function::save with --export C++,
    c++, cpp or matlab (sources/core/function.cpp), the save_call members of the
    plugins (GlslModel.leaf_call: they write the same text for every format other than
    alta) and rational_function_1d::save_body (sources/core/rational_function.cpp).
    [print] is operator<< of a double in the format the stream is left in; the
    rational function asks for std::scientific (sources/core/rational_function.cpp:683). *)
From Coq Require Import Reals List.
From Verif Require Import Base DataModel NlModel NlMoreModel Glsl GlslModel RatModel.
Open Scope R_scope.
Open Scope string_scope.

(** A function object: a plugin, a rational function, a compound or a product. *)
Inductive efun :=
| ELeaf (k : kind) (p : list R)
| ERational (f : rf)
| ESum (fs : list efun)
| EProd (f g : efun).
(** The value of --export.  compound_function and product_function know only the
    spelling "C++" (core/function.cpp:787 and 919). *)
Inductive format := FCpp | FCppOther | FMatlab.
Definition joins (m : format) : bool := match m with FCppOther => false | _ => true end.

Definition nat_text (n : nat) : string := string_of_list_ascii (print_nat n).
Section Export.
Variable print : R -> string.
Variable nY : nat.

(** core/rational_function.cpp:147-152 and 159-164: the factors of one term, inputs [k] onwards;
    deg[k] beyond the end is UB *)
Fixpoint cpp_factors (k : nat) (degs : list nat) : string :=
  match degs with [] => "" | d :: t => "*pow(x[" ++ nat_text k ++ "], " ++ nat_text d ++ ")" ++ cpp_factors (S k) t end.
(** core/rational_function.cpp:145-154 and 157-166 *)
Fixpoint cpp_terms (dim : nat) (cs : list coeff) : outcome string :=
  match cs with
  | [] => Ok ""
  | c :: t =>
      if (length (co_deg c) <? dim)%nat then UB else
      do r <- cpp_terms dim t;
      Ok (print (co_a c) ++ cpp_factors 0 (firstn dim (co_deg c)) ++ (match t with [] => "" | _ => " + " end) ++ r)
  end.
(** core/rational_function.cpp:142-169 save_body, export C++ *)
Definition cpp_1d (r : rf1) : outcome string :=
  do p <- cpp_terms (r_dim r) (r_p r); do q <- cpp_terms (r_dim r) (r_q r);
  Ok (line ("double num = " ++ p ++ ";") ++ line ("double den = " ++ q ++ ";") ++ line "res[0] = num / den;").
(** core/rational_function.cpp:116-141 save_body, export matlab: ".*" before every factor but the last one,
    the index of the input is the letter k, and the denominator has the number of
    the term as an extra power *)
Fixpoint matlab_factors (n : nat) (degs : list nat) : string :=
  match degs with [] => "" | d :: t => (match n with 1%nat => "" | _ => ".*" end) ++ "x(k).^" ++ nat_text d ++ matlab_factors (Nat.pred n) t end.
Fixpoint matlab_terms (den : bool) (i dim : nat) (cs : list coeff) : outcome string :=
  match cs with
  | [] => Ok ""
  | c :: t =>
      if (length (co_deg c) <? dim)%nat then UB else
      do r <- matlab_terms den (S i) dim t;
      Ok (print (co_a c) ++ (if den then "x.^" ++ nat_text i else "") ++ matlab_factors dim (firstn dim (co_deg c)) ++
          (match t with [] => "" | _ => " + " end) ++ r)
  end.
Definition matlab_1d (r : rf1) : outcome string :=
  do p <- matlab_terms false 0 (r_dim r) (r_p r); do q <- matlab_terms true 0 (r_dim r) (r_q r);
  Ok ("(" ++ p ++ ") / (" ++ q ++ ")").
(** core/rational_function.cpp:680-704 save_call: channels that were never made are skipped *)
Fixpoint channels (m : format) (rs : list (option rf1)) : outcome string :=
  match rs with
  | [] => Ok ""
  | None :: t => channels m t
  | Some r :: t => do a <- (match m with FMatlab => matlab_1d r | _ => cpp_1d r end); do b <- channels m t; Ok (a ++ endl ++ b)
  end.

(** save_call: plugins (GlslModel.leaf_call), core/function.cpp:785-813 compound and
    917-949 product *)
Fixpoint export_call (m : format) (f : efun) : outcome string :=
  match f with
  | ELeaf k p => Ok (leaf_call print nY k p)
  | ERational r => channels m (firstn (f_dimY r) (f_rs r))
  | ESum fs => (fix all (first : bool) l := match l with [] => Ok "" | f :: t =>
      do a <- export_call m f; do b <- all false t;
      Ok ((if first || negb (joins m) then "" else tb ++ "res += ") ++ a ++ (if joins m then ";" ++ endl else "") ++ b) end) true fs
  | EProd f g => do a <- export_call m f; do b <- export_call m g;
      Ok (if joins m then "(" ++ a ++ " * " ++ b ++ ")" ++ endl else a ++ b)
  end.
(** save_body: the plugins write for a shader only, but
    plugins/nonlinear_function_lafortune/function.cpp:494-502 does not look at the format; core/function.cpp:774-783
    compound and 906-915 product *)
Fixpoint export_body (f : efun) : outcome string :=
  match f with
  | ELeaf (KLaf n) _ => leaf_body print (KLaf n)
  | ELeaf _ _ | ERational _ => Ok ""
  | ESum fs => (fix all l := match l with [] => Ok "" | f :: t => do a <- export_body f; do b <- all t; Ok (a ++ endl ++ b) end) fs
  | EProd f g => do a <- export_body f; do b <- export_body g; Ok (a ++ endl ++ b ++ endl)
  end.
(** core/function.cpp:50-129 save; the header (131-147) is written without --export only *)
Definition export (m : format) (f : efun) : outcome string :=
  do b <- export_body f; do c <- export_call m f;
  match m with
  | FMatlab =>
      Ok (b ++ "function res = brdf(x)" ++ endl ++ "{" ++ endl ++ line ("res = zeros(" ++ nat_text nY ++ ");") ++ tb ++ c ++
          ";" ++ endl ++ line "return res;" ++ "endfunction" ++ endl ++ endl)
  | _ =>
      Ok (b ++ "#include <Eigen/Core>" ++ endl ++ "typedef Eigen::VectorXd vec;" ++ endl ++ endl ++ "vec brdf(const vec& x)" ++ endl ++ "{" ++ endl ++
          line ("vec res(" ++ nat_text nY ++ ");") ++ c ++ line "return res;" ++ "}" ++ endl ++ endl)
  end.
End Export.

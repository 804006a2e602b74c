(** Model of the discrete part of sources/core/params.{h,cpp}: the enumerators,
    their names and dimensions. *)
From Verif Require Import Base.

(** params.h:61-149 [enum input], in declaration order. *)
Inductive input :=
| RUSIN_TH_PH_TD_PD | RUSIN_TH_PH_TD | RUSIN_TH_TD_PD | RUSIN_TH_TD | RUSIN_VH_VD
| RUSIN_VH | COS_TH_TD | COS_TH | SCHLICK_TK_PK | SCHLICK_VK
| SCHLICK_TL_TK_PROJ_DPHI | COS_TK | RETRO_TL_TVL_PROJ_DPHI | STEREOGRAPHIC
| SPHERICAL_TL_PL_TV_PV | COS_TLV | COS_TLR | ISOTROPIC_TV_TL
| ISOTROPIC_TV_TL_DPHI | ISOTROPIC_TV_PROJ_DPHI | ISOTROPIC_TL_TV_PROJ_DPHI
| ISOTROPIC_TD_PD | STARK_2D | STARK_3D | NEUMANN_2D | NEUMANN_3D | CARTESIAN
| UNKNOWN_INPUT.

(** params.h:154-165 [enum output]. *)
Inductive output :=
| INV_STERADIAN | INV_STERADIAN_COSINE_FACTOR | ENERGY | RGB_COLOR | XYZ_COLOR
| UNKNOWN_OUTPUT.

Definition input_eqb (a b : input) : bool :=
  match a, b with
  | RUSIN_TH_PH_TD_PD, RUSIN_TH_PH_TD_PD | RUSIN_TH_PH_TD, RUSIN_TH_PH_TD
  | RUSIN_TH_TD_PD, RUSIN_TH_TD_PD | RUSIN_TH_TD, RUSIN_TH_TD | RUSIN_VH_VD, RUSIN_VH_VD
  | RUSIN_VH, RUSIN_VH | COS_TH_TD, COS_TH_TD | COS_TH, COS_TH | SCHLICK_TK_PK, SCHLICK_TK_PK
  | SCHLICK_VK, SCHLICK_VK | SCHLICK_TL_TK_PROJ_DPHI, SCHLICK_TL_TK_PROJ_DPHI
  | COS_TK, COS_TK | RETRO_TL_TVL_PROJ_DPHI, RETRO_TL_TVL_PROJ_DPHI
  | STEREOGRAPHIC, STEREOGRAPHIC | SPHERICAL_TL_PL_TV_PV, SPHERICAL_TL_PL_TV_PV
  | COS_TLV, COS_TLV | COS_TLR, COS_TLR | ISOTROPIC_TV_TL, ISOTROPIC_TV_TL
  | ISOTROPIC_TV_TL_DPHI, ISOTROPIC_TV_TL_DPHI | ISOTROPIC_TV_PROJ_DPHI, ISOTROPIC_TV_PROJ_DPHI
  | ISOTROPIC_TL_TV_PROJ_DPHI, ISOTROPIC_TL_TV_PROJ_DPHI | ISOTROPIC_TD_PD, ISOTROPIC_TD_PD
  | STARK_2D, STARK_2D | STARK_3D, STARK_3D | NEUMANN_2D, NEUMANN_2D | NEUMANN_3D, NEUMANN_3D
  | CARTESIAN, CARTESIAN | UNKNOWN_INPUT, UNKNOWN_INPUT => true
  | _, _ => false
  end.

Definition output_eqb (a b : output) : bool :=
  match a, b with
  | INV_STERADIAN, INV_STERADIAN | INV_STERADIAN_COSINE_FACTOR, INV_STERADIAN_COSINE_FACTOR
  | ENERGY, ENERGY | RGB_COLOR, RGB_COLOR | XYZ_COLOR, XYZ_COLOR
  | UNKNOWN_OUTPUT, UNKNOWN_OUTPUT => true
  | _, _ => false
  end.

(** params.cpp:28-64 [create_map]: (enumerator, name, dimension), listed in
    enumerator order, which is the iteration order of the std::map.  Note the
    name of SCHLICK_VK (params.cpp:48). *)
Definition input_map : list (input * (str * Z)) :=
  [ (RUSIN_TH_PH_TD_PD, (lit "RUSIN_TH_PH_TD_PD", 4%Z));
    (RUSIN_TH_TD_PD, (lit "RUSIN_TH_TD_PD", 3%Z));
    (RUSIN_TH_TD, (lit "RUSIN_TH_TD", 2%Z));
    (RUSIN_VH, (lit "RUSIN_VH", 3%Z));
    (COS_TH_TD, (lit "COS_TH_TD", 2%Z));
    (COS_TH, (lit "COS_TH", 1%Z));
    (SCHLICK_VK, (lit "SCHLICK_VH", 3%Z));
    (SCHLICK_TL_TK_PROJ_DPHI, (lit "SCHLICK_TL_TK_PROJ_DPHI", 3%Z));
    (COS_TK, (lit "COS_TK", 1%Z));
    (RETRO_TL_TVL_PROJ_DPHI, (lit "RETRO_TL_TVL_PROJ_DPHI", 3%Z));
    (STEREOGRAPHIC, (lit "STEREOGRAPHIC", 4%Z));
    (SPHERICAL_TL_PL_TV_PV, (lit "SPHERICAL_TL_PL_TV_PV", 4%Z));
    (COS_TLV, (lit "COS_TLV", 1%Z));
    (COS_TLR, (lit "COS_TLR", 1%Z));
    (ISOTROPIC_TV_TL_DPHI, (lit "ISOTROPIC_TV_TL_DPHI", 3%Z));
    (ISOTROPIC_TV_PROJ_DPHI, (lit "ISOTROPIC_TV_PROJ_DPHI", 2%Z));
    (ISOTROPIC_TL_TV_PROJ_DPHI, (lit "ISOTROPIC_TL_TV_PROJ_DPHI", 3%Z));
    (STARK_2D, (lit "STARK_2D", 2%Z));
    (STARK_3D, (lit "STARK_3D", 3%Z));
    (NEUMANN_2D, (lit "NEUMANN_2D", 2%Z));
    (NEUMANN_3D, (lit "NEUMANN_3D", 3%Z));
    (CARTESIAN, (lit "CARTESIAN", 6%Z)) ].

Fixpoint find_input (p : input) (m : list (input * (str * Z))) : option (str * Z) :=
  match m with
  | [] => None
  | (q, i) :: t => if input_eqb p q then Some i else find_input p t
  end.

(** params.cpp:783-797 get_name(input) *)
Definition get_name_in (p : input) : str :=
  match find_input p input_map with Some (n, _) => n | None => lit "UNKNOWN_INPUT" end.

(** params.cpp:811-822 dimension(input) *)
Definition dimension_in (p : input) : Z :=
  match find_input p input_map with Some (_, d) => d | None => (-1)%Z end.

(** params.cpp:739-753 parse_input: linear search of the table. *)
Fixpoint parse_input_in (txt : str) (m : list (input * (str * Z))) : input :=
  match m with
  | [] => UNKNOWN_INPUT
  | (q, (n, _)) :: t => if str_eqb txt n then q else parse_input_in txt t
  end.
Definition parse_input (txt : str) : input := parse_input_in txt input_map.

(** params.cpp:68-88, 799-809 get_name(output) *)
Definition get_name_out (p : output) : str :=
  match p with
  | INV_STERADIAN => lit "INV_STERADIAN"
  | INV_STERADIAN_COSINE_FACTOR => lit "INV_STERADIAN_COSINE_FACTOR"
  | ENERGY => lit "ENERGY"
  | RGB_COLOR => lit "RGB_COLOR"
  | XYZ_COLOR => lit "XYZ_COLOR"
  | UNKNOWN_OUTPUT => lit "UNKNOWN_OUTPUT"
  end.

(** params.cpp:755-781 parse_output *)
Definition parse_output (txt : str) : output :=
  if str_eqb txt (lit "ENERGY") then ENERGY
  else if str_eqb txt (lit "INV_STERADIAN") then INV_STERADIAN
  else if str_eqb txt (lit "INV_STERADIAN_COSINE_FACTOR") then INV_STERADIAN_COSINE_FACTOR
  else if str_eqb txt (lit "RGB_COLOR") then RGB_COLOR
  else if str_eqb txt (lit "XYZ_COLOR") then XYZ_COLOR
  else UNKNOWN_OUTPUT.

(** params.h:295-317 dimension(output): assert(false) for the others. *)
Definition dimension_out (p : output) : outcome Z :=
  match p with
  | INV_STERADIAN | ENERGY => Ok 1%Z
  | RGB_COLOR | XYZ_COLOR => Ok 3%Z
  | _ => Abort
  end.

(** params.h:435-507 class [parameters]. *)
Record parameters := mkParameters {
  dimX : nat; dimY : nat; in_param : input; out_param : output }.

(** Model of sources/plugins/data_io/slice.cpp: a BRDF slice stored as an RGB
    image.  Real arithmetic (no NaN); indices are unbounded integers.  The EXR
    reader and writer are not modelled. *)
From Coq Require Import Reals List ZArith.
From Verif Require Import Base Num ParamsModel MerlModel.
Open Scope R_scope.

Record slice := mkSlice {
  s_width : Z; s_height : Z; s_slice : Z;
  s_param : input; s_dim : nat; s_phi : R; s_data : list R }.

(** slice.cpp:25-51 brdf_slice_parameters: the parametrization given by --param
    if it has 2 or 3 dimensions; an error is printed otherwise and the default
    kept *)
Definition slice_parameters (param : option input) : nat * input :=
  match param with
  | None => (2%nat, STARK_2D)
  | Some p => if (dimension_in p =? 2)%Z then (2%nat, p) else if (dimension_in p =? 3)%Z then (3%nat, p) else (2%nat, STARK_2D)
  end.
(** slice.cpp:100-103 *)
Definition s_reverse (s : slice) : bool :=
  match s_param s with ISOTROPIC_TL_TV_PROJ_DPHI | SCHLICK_TL_TK_PROJ_DPHI | RETRO_TL_TVL_PROJ_DPHI => true | _ => false end.
(** slice.cpp:84-108 constructor; [phi] is the value of --phi in degrees (90 if
    absent) *)
Definition slice_new (param : option input) (phi : R) (width height nslice : Z) (content : list R) : slice :=
  let '(d, p) := slice_parameters param in
  mkSlice width height nslice p d
    (match param with Some _ => if (d =? 3)%nat then PI / 180 * phi else 5 / 10 * PI | None => 5 / 10 * PI end) content.

(** slice.cpp:204-231 min and 232-260 max, first two components (the third one
    is never used) *)
Definition s_min (s : slice) : R :=
  match s_param s with
  | ISOTROPIC_TL_TV_PROJ_DPHI | ISOTROPIC_TV_TL_DPHI | SCHLICK_TL_TK_PROJ_DPHI | RETRO_TL_TVL_PROJ_DPHI => - (5 / 10) * PI
  | _ => 0
  end.
Definition s_max (s : slice) : R :=
  match s_param s with
  | RUSIN_TH_TD | RUSIN_TH_TD_PD | ISOTROPIC_TV_TL_DPHI
  | ISOTROPIC_TL_TV_PROJ_DPHI | SCHLICK_TL_TK_PROJ_DPHI | RETRO_TL_TVL_PROJ_DPHI => 5 / 10 * PI
  | _ => 1
  end.

(** slice.cpp:130-153 get *)
Definition slice_get (s : slice) (id : Z) : outcome (list R * (R * R * R)) :=
  let i := Z.rem id (s_width s) in
  let k := Z.quot id (s_width s * s_height s) in
  let j := Z.quot (id - k * s_width s * s_height s) (s_width s) in
  let x0 := (IZR i + 5 / 10) * (s_max s - s_min s) / IZR (s_width s) + s_min s in
  let x1 := (IZR j + 5 / 10) * (s_max s - s_min s) / IZR (s_height s) + s_min s in
  let x := [x0; x1] ++ (if (s_dim s =? 3)%nat then [s_phi s] else []) in
  let x := if s_reverse s then rev x else x in
  do r <- at_ (s_data s) (3 * id + 0);
  do g <- at_ (s_data s) (3 * id + 1);
  do b <- at_ (s_data s) (3 * id + 2);
  Ok (x, (r, g, b)).

(** slice.cpp:155-162 set: the abscissa of the sample is ignored *)
Definition slice_set (s : slice) (id : Z) (y : R * R * R) : outcome slice :=
  let '(r, g, b) := y in
  do d1 <- put (s_data s) (3 * id + 0) r;
  do d2 <- put d1 (3 * id + 1) g;
  do d3 <- put d2 (3 * id + 2) b;
  Ok (mkSlice (s_width s) (s_height s) (s_slice s) (s_param s) (s_dim s) (s_phi s) d3).

(** slice.cpp:164-199 value.  The vector returned for a point out of reach is
    uninitialised (UB when the caller reads it). *)
Definition slice_value (s : slice) (x : list R) : outcome (R * R * R) :=
  let _x := if s_reverse s then rev x else x in
  let x0 := nth 0 x 0 in let x1 := nth 1 x 0 in
  let y0 := nth 0 _x 0 in let y1 := nth 1 _x 0 in
  if Rlt_dec (s_max s) y0 then UB else if Rlt_dec x0 (s_min s) then UB
  else if Rlt_dec (s_max s) x1 then UB else if Rlt_dec x1 (s_min s) then UB
  else
    let i := Int_part ((y0 - s_min s) * IZR (s_width s) / (s_max s - s_min s)) in
    let j := Int_part ((y1 - s_min s) * IZR (s_height s) / (s_max s - s_min s)) in
    let k := 1%Z in
    let id := ((i + j * s_width s) * k)%Z in
    do r <- at_ (s_data s) (3 * id + 0);
    do g <- at_ (s_data s) (3 * id + 1);
    do b <- at_ (s_data s) (3 * id + 2);
    Ok (r, g, b).

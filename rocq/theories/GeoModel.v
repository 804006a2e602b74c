(** Model of the coordinate conversions of sources/core/params.{h,cpp}.
    Simplification: doubles are real numbers (no rounding, no NaN); a [double*]
    is the function giving the cell at each offset; input and output buffers do
    not overlap. *)
From Coq Require Export Reals.
From Verif Require Import Base ParamsModel.
Open Scope R_scope.

Definition mem := nat -> R.
Definition upd (m : mem) (i : nat) (v : R) : mem := fun j => if Nat.eqb j i then v else m j.
(** A sequence of assignments [out[i] = v]. *)
Fixpoint assign (ws : list (nat * R)) (m : mem) : mem :=
  match ws with [] => m | (i, v) :: t => assign t (upd m i v) end.

(** C's atan2 (signed zeros ignored). *)
Definition atan2 (y x : R) : R :=
  if Rlt_dec 0 x then atan (y / x)
  else if Rlt_dec x 0 then (if Rle_dec 0 y then atan (y / x) + PI else atan (y / x) - PI)
  else if Rlt_dec 0 y then PI / 2
  else if Rlt_dec y 0 then - (PI / 2)
  else 0.

(** common.h:98-101 clamp *)
Definition clampR (x a b : R) : R := Rmax (Rmin x b) a.
(** common.h:103-107 close_to *)
Definition close_to (a b eps : R) : bool := if Rlt_dec (Rabs (a - b)) eps then true else false.

Definition vec3 := (R * R * R)%type.

(** params.h:390-397 rotate_normal: Eigen AngleAxis about (0,0,1). *)
Definition rotate_normal (v : vec3) (t : R) : vec3 :=
  let '(x, y, z) := v in (x * cos t - y * sin t, x * sin t + y * cos t, z).
(** params.h:399-406 rotate_binormal: Eigen AngleAxis about (0,1,0). *)
Definition rotate_binormal (v : vec3) (t : R) : vec3 :=
  let '(x, y, z) := v in (x * cos t + z * sin t, y, - x * sin t + z * cos t).
(** params.h:408-414 rotate *)
Definition rotate (v : vec3) (theta phi : R) : vec3 :=
  rotate_binormal (rotate_normal v theta) phi.

(** params.h:340-373 half_to_cartesian *)
Definition half_to_cartesian (theta_h phi_h theta_d phi_d : R) : list (nat * R) :=
  let h0 := sin theta_h * cos phi_h in
  let h1 := sin theta_h * sin phi_h in
  let h2 := cos theta_h in
  let '(o0, o1, o2) :=
    rotate_normal (rotate_binormal (sin theta_d * cos phi_d, sin theta_d * sin phi_d, cos theta_d) theta_h) phi_h in
  let dot := o0 * h0 + o1 * h1 + o2 * h2 in
  [(0%nat, o0); (1%nat, o1); (2%nat, o2);
   (3%nat, - o0 + 2 * dot * h0); (4%nat, - o1 + 2 * dot * h1); (5%nat, - o2 + 2 * dot * h2)].

(** params.h:377-386 classical_to_cartesian *)
Definition classical_to_cartesian (theta_l phi_l theta_v phi_v : R) : list (nat * R) :=
  [(0%nat, cos phi_l * sin theta_l); (1%nat, sin phi_l * sin theta_l); (2%nat, cos theta_l);
   (3%nat, cos phi_v * sin theta_v); (4%nat, sin phi_v * sin theta_v); (5%nat, cos theta_v)].

Definition six (a b c d e f : R) : list (nat * R) :=
  [(0%nat, a); (1%nat, b); (2%nat, c); (3%nat, d); (4%nat, e); (5%nat, f)].

(** params.cpp:93-403 to_cartesian: the assignments performed for each
    parametrization, [None] for the default branch ([throw;] -> terminate). *)
Definition to_cartesian_writes (p : input) (v : mem) : option (list (nat * R)) :=
  match p with
  | COS_TH => Some (half_to_cartesian (acos (v 0%nat)) 0 0 0)
  | COS_TK => Some (six (v 0%nat * v 0%nat - 1) 0 (v 0%nat) (1 - v 0%nat * v 0%nat) 0 (v 0%nat))
  | COS_TLV => Some (six (sqrt (1 - v 0%nat * v 0%nat)) 0 (v 0%nat) 0 0 1)
  | COS_TLR => Some (six (- sqrt (1 - v 0%nat * v 0%nat)) 0 (v 0%nat) 0 0 1)
  | COS_TH_TD => Some (half_to_cartesian (acos (v 0%nat)) 0 (acos (v 1%nat)) 0)
  | RUSIN_TH_TD => Some (half_to_cartesian (v 0%nat) 0 (v 1%nat) (1 / 2 * PI))
  | ISOTROPIC_TV_PROJ_DPHI =>
      let theta := sqrt (v 0%nat * v 0%nat + v 1%nat * v 1%nat) in
      Some (six (if Rlt_dec 0 theta then v 0%nat / theta * sin theta else 0)
                (if Rlt_dec 0 theta then v 1%nat / theta * sin theta else 0)
                (cos theta) 0 0 1)
  | STARK_2D =>
      let Hx := v 0%nat in
      let Hy := 0 in
      let sum := Hx * Hx + v 1%nat * v 1%nat in
      let Hz := if Rle_dec sum 1 then sqrt (1 - Rmin sum 1) else -1 in
      let Bx := 0 in
      let By := v 1%nat in
      let Bz := 0 in
      Some (six (Hx - Bx) (Hy - By) (Hz - Bz) (Hx + Bx) (Hy + By) (Hz + Bz))
  | NEUMANN_2D =>
      let o0 := v 0%nat in
      let o1 := v 1%nat in
      let o3 := v 0%nat in
      let o4 := - v 1%nat in
      Some (six o0 o1 (sqrt (1 - o0 * o0 - o1 * o1)) o3 o4 (sqrt (1 - o3 * o3 - o4 * o4)))
  | RUSIN_TH_PH_TD => Some (half_to_cartesian (v 0%nat) (v 1%nat) (v 2%nat) 0)
  | RUSIN_TH_TD_PD => Some (half_to_cartesian (v 0%nat) 0 (v 1%nat) (v 2%nat))
  | ISOTROPIC_TV_TL_DPHI => Some (classical_to_cartesian (v 0%nat) 0 (v 1%nat) (v 2%nat))
  | RUSIN_VH => Some (half_to_cartesian (acos (v 2%nat)) (atan2 (v 1%nat) (v 0%nat)) 0 0)
  | SCHLICK_VK => Some (six (v 2%nat * v 2%nat - 1) 0 (v 2%nat) (1 - v 2%nat * v 2%nat) 0 (v 2%nat))
  | ISOTROPIC_TL_TV_PROJ_DPHI =>
      let theta := sqrt (v 1%nat * v 1%nat + v 2%nat * v 2%nat) in
      Some (six (if Rlt_dec 0 theta then v 1%nat / theta * sin theta else 0)
                (if Rlt_dec 0 theta then v 2%nat / theta * sin theta else 0)
                (cos theta) (sin (v 0%nat)) 0 (cos (v 0%nat)))
  | SCHLICK_TL_TK_PROJ_DPHI =>
      let o3 := sin (v 0%nat) in
      let o4 := 0 in
      let o5 := cos (v 0%nat) in
      let theta := sqrt (v 1%nat * v 1%nat + v 2%nat * v 2%nat) in
      let Kx := if Rlt_dec 0 theta then v 1%nat / theta * sin theta else 0 in
      let Ky := if Rlt_dec 0 theta then v 2%nat / theta * sin theta else 0 in
      let Kz := cos theta in
      let dotKR := o5 * Kz - o3 * Kx in
      Some [(3%nat, o3); (4%nat, o4); (5%nat, o5);
            (0%nat, 2 * dotKR * Kx + o3); (1%nat, 2 * dotKR * Ky); (2%nat, 2 * dotKR * Kz - o5)]
  | RETRO_TL_TVL_PROJ_DPHI =>
      let theta_vl := sqrt (v 1%nat * v 1%nat + v 2%nat * v 2%nat) in
      let cos_vl := cos theta_vl in
      let sin_vl := sin theta_vl in
      let cos_l := cos (v 0%nat) in
      let sin_l := sin (v 0%nat) in
      let cos_phi := if Rlt_dec 0 theta_vl then v 1%nat / theta_vl else 0 in
      let sin_phi := if Rlt_dec 0 theta_vl then v 2%nat / theta_vl else 0 in
      let cos_v := cos_l * cos_vl + cos_phi * sin_l * sin_vl in
      let sin_v := sqrt (1 - Rmin (cos_v * cos_v) 1) in
      let sin_dphi := (sin_vl * sin_phi) / sin_v in
      Some (six (if Req_EM_T sin_v 0 then 0 else sin_v * sqrt (1 - Rmin (sin_dphi * sin_dphi) 1))
                (if Req_EM_T sin_v 0 then 0 else sin_v * sin_dphi)
                cos_v (sin (v 0%nat)) 0 (cos (v 0%nat)))
  | STARK_3D =>
      let Hx := v 0%nat in
      let Hy := 0 in
      let Hz := sqrt (1 - v 0%nat * v 0%nat - v 1%nat * v 1%nat) in
      let cosPhi := cos (v 2%nat) in
      let sinPhi := sin (v 2%nat) in
      let Theta := atan2 (- Hz) (v 0%nat * cosPhi) in
      let cosThe := cos Theta in
      let sinThe := sin Theta in
      let Bx := v 1%nat * sinThe * cosPhi in
      let By := v 1%nat * sinThe * sinPhi in
      let Bz := v 1%nat * cosThe in
      Some (six (Hx - Bx) (Hy - By) (Hz - Bz) (Hx + Bx) (Hy + By) (Hz + Bz))
  | NEUMANN_3D =>
      let cosPhi := cos (v 2%nat) in
      let sinPhi := sin (v 2%nat) in
      let o0 := v 0%nat + cosPhi * v 1%nat in
      let o1 := sinPhi * v 1%nat in
      let o3 := v 0%nat - cosPhi * v 1%nat in
      let o4 := - sinPhi * v 1%nat in
      if Rlt_dec 1 (o0 * o0 + o1 * o1) then Some (six 0 0 (-1) 0 0 (-1))
      else if Rlt_dec 1 (o3 * o3 + o4 * o4) then Some (six 0 0 (-1) 0 0 (-1))
      else Some (six o0 o1 (sqrt (1 - o0 * o0 - o1 * o1)) o3 o4 (sqrt (1 - o3 * o3 - o4 * o4)))
  | RUSIN_TH_PH_TD_PD => Some (half_to_cartesian (v 0%nat) (v 1%nat) (v 2%nat) (v 3%nat))
  | SPHERICAL_TL_PL_TV_PV =>
      Some (six (cos (v 3%nat) * sin (v 2%nat)) (sin (v 3%nat) * sin (v 2%nat)) (cos (v 2%nat))
                (cos (v 1%nat) * sin (v 0%nat)) (sin (v 1%nat) * sin (v 0%nat)) (cos (v 0%nat)))
  | STEREOGRAPHIC =>
      let normL := v 0%nat * v 0%nat + v 1%nat * v 1%nat in
      let alphL := (1 - normL) / (1 + normL) in
      let normV := v 2%nat * v 2%nat + v 3%nat * v 3%nat in
      let alphV := (1 - normV) / (1 + normV) in
      Some (six (v 0%nat + alphL) (v 1%nat + alphL) alphL
                (v 2%nat + alphV) (v 3%nat + alphV) alphV)
  | CARTESIAN => Some (six (v 0%nat) (v 1%nat) (v 2%nat) (v 3%nat) (v 4%nat) (v 5%nat))
  | RUSIN_VH_VD | SCHLICK_TK_PK | ISOTROPIC_TV_TL | ISOTROPIC_TD_PD | UNKNOWN_INPUT => None
  end.

Definition to_cartesian (v : mem) (p : input) (out : mem) : outcome mem :=
  match to_cartesian_writes p v with
  | Some ws => Ok (assign ws out)
  | None => Abort
  end.

(** params.cpp:406-425 half_vector (before its asserts). *)
Definition half_vector (v : mem) : vec3 :=
  let a := v 0%nat + v 3%nat in
  let b := v 1%nat + v 4%nat in
  let c := v 2%nat + v 5%nat in
  let sq := a * a + b * b + c * c in
  if Rle_dec sq 0 then (0, 0, 1) else (a / sqrt sq, b / sqrt sq, c / sqrt sq).

(** params.cpp:427-434 is_zero *)
Definition is_zero (x : R) : bool := close_to x 0 (/ 10 ^ 14).
(** params.cpp:436-442 alongside_z *)
Definition alongside_z (d : vec3) : bool :=
  let '(x, y, z) := d in (is_zero x && is_zero y) || close_to z 1 (/ 10 ^ 14).

(** params.cpp:445-738 from_cartesian: assignments per parametrization, [None]
    for the default branch (assert(false)). *)
Definition from_cartesian_writes (p : input) (v : mem) : option (list (nat * R)) :=
  let '(h0, h1, h2) := half_vector v in
  match p with
  | COS_TH => Some [(0%nat, h2)]
  | COS_TK =>
      let Kx := v 0%nat - v 3%nat in
      let Ky := v 1%nat - v 4%nat in
      let Kz := v 2%nat + v 5%nat in
      Some [(0%nat, (v 2%nat + v 5%nat) / sqrt (Kx * Kx + Ky * Ky + Kz * Kz))]
  | COS_TLV => Some [(0%nat, v 0%nat * v 3%nat + v 1%nat * v 4%nat + v 2%nat * v 5%nat)]
  | COS_TLR => Some [(0%nat, v 0%nat * v 3%nat - (v 1%nat * v 4%nat + v 2%nat * v 5%nat))]
  | COS_TH_TD => Some [(0%nat, h2); (1%nat, h0 * v 0%nat + h1 * v 1%nat + h2 * v 2%nat)]
  | RUSIN_TH_TD =>
      Some [(0%nat, acos h2);
            (1%nat, acos (clampR (h0 * v 0%nat + h1 * v 1%nat + h2 * v 2%nat) (-1) 1))]
  | ISOTROPIC_TV_PROJ_DPHI =>
      let theta := acos (v 2%nat) in
      let dphi := atan2 (v 1%nat) (v 0%nat) - atan2 (v 4%nat) (v 3%nat) in
      Some [(0%nat, theta * cos dphi); (1%nat, theta * sin dphi)]
  | STARK_2D =>
      let Hx := / 2 * (v 0%nat + v 3%nat) in
      let Hy := / 2 * (v 1%nat + v 4%nat) in
      let Bx := / 2 * (v 3%nat - v 0%nat) in
      let By := / 2 * (v 4%nat - v 1%nat) in
      let Bz := / 2 * (v 5%nat - v 2%nat) in
      Some [(0%nat, sqrt (Hx * Hx + Hy * Hy)); (1%nat, sqrt (Bx * Bx + By * By + Bz * Bz))]
  | NEUMANN_2D =>
      let Hx := / 2 * (v 0%nat + v 3%nat) in
      let Hy := / 2 * (v 1%nat + v 4%nat) in
      let Bx := / 2 * (v 3%nat - v 0%nat) in
      let By := / 2 * (v 4%nat - v 1%nat) in
      Some [(0%nat, sqrt (Hx * Hx + Hy * Hy)); (1%nat, sqrt (Bx * Bx + By * By))]
  | RUSIN_TH_PH_TD =>
      Some [(0%nat, acos h2); (1%nat, atan2 h1 h0);
            (2%nat, acos (h0 * v 0%nat + h1 * v 1%nat + h2 * v 2%nat))]
  | RUSIN_TH_TD_PD =>
      let o0 := acos h2 in
      let '(d0, d1, d2) := rotate (v 0%nat, v 1%nat, v 2%nat) (- atan2 h1 h0) (- o0) in
      Some [(0%nat, o0); (1%nat, acos d2);
            (2%nat, if alongside_z (d0, d1, d2) then 0 else atan2 d1 d0)]
  | ISOTROPIC_TV_TL_DPHI =>
      Some [(0%nat, acos (v 2%nat)); (1%nat, acos (v 5%nat));
            (2%nat, atan2 (v 4%nat) (v 3%nat) - atan2 (v 1%nat) (v 0%nat))]
  | RUSIN_VH => Some [(0%nat, h0); (1%nat, h1); (2%nat, h2)]
  | SCHLICK_VK =>
      let Kx := v 3%nat - v 0%nat in
      let Ky := v 4%nat - v 1%nat in
      let Kz := v 5%nat + v 2%nat in
      let norm := sqrt (Kx * Kx + Ky * Ky + Kz * Kz) in
      if Rlt_dec (/ 10 ^ 10) norm
      then Some [(0%nat, Kx / norm); (1%nat, Ky / norm); (2%nat, Kz / norm)]
      else Some [(0%nat, 0); (1%nat, 0); (2%nat, 1)]
  | ISOTROPIC_TL_TV_PROJ_DPHI =>
      let theta_l := acos (v 5%nat) in
      let theta_v := acos (v 2%nat) in
      let dphi := atan2 (v 4%nat) (v 3%nat) - atan2 (v 1%nat) (v 0%nat) in
      Some [(0%nat, theta_l); (1%nat, theta_v * cos dphi); (2%nat, theta_v * sin dphi)]
  | RETRO_TL_TVL_PROJ_DPHI =>
      let cos_v := v 2%nat in
      let cos_l := v 5%nat in
      let cos_vl := v 0%nat * v 3%nat + v 1%nat * v 4%nat + v 2%nat * v 5%nat in
      let sin_l := sqrt (1 - cos_l * cos_l) in
      let sin_v := sqrt (1 - cos_v * cos_v) in
      let sin_vl := sqrt (1 - cos_vl * cos_vl) in
      let sin_dp := sin (atan2 (v 4%nat) (v 3%nat) - atan2 (v 1%nat) (v 0%nat)) in
      if Req_EM_T sin_vl 0 then
        Some [(0%nat, acos cos_l); (1%nat, acos cos_v - acos cos_l); (2%nat, 0)]
      else if Req_EM_T sin_l 0 then
        Some [(0%nat, acos cos_l); (1%nat, acos cos_v - acos cos_l); (2%nat, 0)]
      else
        let cos_phi := (cos_v - cos_l * cos_vl) / (sin_l * sin_vl) in
        let sin_phi := (sin_dp * sin_v) / sin_vl in
        let theta := acos cos_vl in
        Some [(0%nat, acos cos_l); (1%nat, theta * cos_phi); (2%nat, theta * sin_phi)]
  | SCHLICK_TL_TK_PROJ_DPHI =>
      let vkx := v 0%nat - v 3%nat in
      let vky := v 1%nat - v 4%nat in
      let vkz := v 2%nat + v 5%nat in
      let norm := sqrt (vkx * vkx + vky * vky + vkz * vkz) in
      let theta_k := acos (vkz / norm) in
      let dphi := atan2 (v 4%nat) (v 3%nat) - atan2 (vky / norm) (vkx / norm) in
      Some [(0%nat, acos (v 5%nat)); (1%nat, theta_k * cos dphi); (2%nat, theta_k * sin dphi)]
  | STARK_3D =>
      let Hx := / 2 * (v 0%nat + v 3%nat) in
      let Hy := / 2 * (v 1%nat + v 4%nat) in
      let Bx := / 2 * (v 3%nat - v 0%nat) in
      let By := / 2 * (v 4%nat - v 1%nat) in
      let Bz := / 2 * (v 5%nat - v 2%nat) in
      let o2 := atan2 By Bx - atan2 Hy Hx in
      Some ([(0%nat, sqrt (Hx * Hx + Hy * Hy)); (1%nat, sqrt (Bx * Bx + By * By + Bz * Bz)); (2%nat, o2)]
            ++ (if Rlt_dec o2 0 then [(2%nat, 2 * PI + o2)] else []))
  | NEUMANN_3D =>
      let Hx := / 2 * (v 0%nat + v 3%nat) in
      let Hy := / 2 * (v 1%nat + v 4%nat) in
      let Bx := / 2 * (v 3%nat - v 0%nat) in
      let By := / 2 * (v 4%nat - v 1%nat) in
      Some [(0%nat, sqrt (Hx * Hx + Hy * Hy)); (1%nat, sqrt (Bx * Bx + By * By));
            (2%nat, atan2 By Bx - atan2 Hy Hx)]
  | RUSIN_TH_PH_TD_PD =>
      let o0 := acos h2 in
      let o1 := atan2 h1 h0 in
      let '(d0, d1, d2) := rotate (v 0%nat, v 1%nat, v 2%nat) (- o1) (- o0) in
      Some ([(0%nat, o0); (1%nat, o1)] ++
            if alongside_z (d0, d1, d2) then [(2%nat, 0); (3%nat, 0)]
            else [(2%nat, acos d2); (3%nat, atan2 d1 d0)])
  | SPHERICAL_TL_PL_TV_PV =>
      Some [(0%nat, acos (v 5%nat)); (1%nat, atan2 (v 4%nat) (v 3%nat));
            (2%nat, acos (v 2%nat)); (3%nat, atan2 (v 1%nat) (v 0%nat))]
  | STEREOGRAPHIC =>
      Some [(0%nat, v 0%nat / (1 + v 2%nat)); (1%nat, v 1%nat / (1 + v 2%nat));
            (2%nat, v 3%nat / (1 + v 5%nat)); (3%nat, v 4%nat / (1 + v 5%nat))]
  | CARTESIAN => Some (six (v 0%nat) (v 1%nat) (v 2%nat) (v 3%nat) (v 4%nat) (v 5%nat))
  | RUSIN_VH_VD | SCHLICK_TK_PK | ISOTROPIC_TV_TL | ISOTROPIC_TD_PD | UNKNOWN_INPUT => None
  end.

Definition from_cartesian (v : mem) (p : input) (out : mem) : outcome mem :=
  let '(_, _, h2) := half_vector v in
  if Rle_dec h2 1 then
    if Rle_dec 0 h2 then
      match from_cartesian_writes p v with
      | Some ws => Ok (assign ws out)
      | None => Abort
      end
    else Abort
  else Abort.

(** params.h:247-278 convert(invec, intype, outtype, outvec) *)
Definition copy (n : nat) (v out : mem) : mem := fun j => if Nat.ltb j n then v j else out j.

Definition convert (v : mem) (p q : input) (out : mem) : outcome mem :=
  if input_eqb p q then Ok (copy (Z.to_nat (dimension_in q)) v out)
  else if input_eqb p CARTESIAN then from_cartesian v q out
  else if input_eqb q CARTESIAN then to_cartesian v p out
  else do t <- to_cartesian v p (fun _ => 0); from_cartesian t q out.

(** params.cpp:836-845 is_above_hemisphere *)
Definition is_above_hemisphere (v : mem) (p : input) : outcome bool :=
  do t <- convert v p CARTESIAN (fun _ => 0);
  Ok ((if Rle_dec 0 (t 2%nat) then true else false) && (if Rle_dec 0 (t 5%nat) then true else false)).

(** params.h:211-242 convert(invec, outtype, indim, ..., outdim, outvec) for
    output parametrizations; the enumerators are never looked at.
    NOT_IMPLEMENTED() is a bare [throw]. *)
Fixpoint sum_mem (n : nat) (v : mem) (acc : R) : R :=
  match n with O => acc | S n' => sum_mem n' v acc + v n' end.

Definition convert_out (v : mem) (indim outdim : nat) (out : mem) : outcome mem :=
  if Nat.eqb outdim indim then Ok (copy outdim v out)
  else if Nat.eqb indim 1 then Ok (copy outdim (fun _ => v 0%nat) out)
  else if Nat.eqb outdim 1 then
    Ok (upd out 0%nat (sum_mem indim v (out 0%nat) / INR indim))
  else Abort.

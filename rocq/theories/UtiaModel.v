(** Model of sources/plugins/data_io/utia.cpp: tables of 6 x 48 x 6 x 48 RGB
    measurements.  Real arithmetic (the code computes the weights in single
    precision), no NaN; indices are unbounded integers.  EXR files are not
    modelled. *)
From Coq Require Import Reals List ZArith.
From Verif Require Import Base Num Double MerlModel.
Open Scope R_scope.

(** utia.cpp:35-41 *)
Definition STEP_T : R := 15.
Definition STEP_P : R := 75 / 10.
Definition NTI : Z := 6.
Definition NTV : Z := 6.
Definition NPI : Z := 48.
Definition NPV : Z := 48.
Definition N_PER_PLANE : Z := (NTI * NPI * NTV * NPV)%Z.
Definition PLANES : Z := 3.

(** utia.cpp:154-167 get *)
Definition utia_get (Bd : list R) (i : Z) : outcome (list R * (R * R * R)) :=
  do r <- at_ Bd (i + 0 * N_PER_PLANE);
  do g <- at_ Bd (i + 1 * N_PER_PLANE);
  do b <- at_ Bd (i + 2 * N_PER_PLANE);
  let r2d := PI / 180 in
  let x3 := r2d * STEP_P * IZR (Z.rem i NPV) in let i := Z.quot i NPV in
  let x2 := r2d * STEP_T * IZR (Z.rem i NTV) in let i := Z.quot i NTV in
  let x1 := r2d * STEP_P * IZR (Z.rem i NPI) in let i := Z.quot i NPI in
  let x0 := r2d * STEP_T * IZR (Z.rem i NTI) in
  Ok ([x0; x1; x2; x3], (r, g, b)).

(** utia.cpp:298-304 set *)
Definition utia_set (Bd : list R) (i : Z) (y : R * R * R) : outcome (list R) :=
  let '(r, g, b) := y in
  do d1 <- put Bd (0 * N_PER_PLANE + i) r;
  do d2 <- put d1 (1 * N_PER_PLANE + i) g;
  put d2 (2 * N_PER_PLANE + i) b.

(** utia.cpp:238-249: two neighbouring elevations; beyond the last one the last
    interval is used *)
Definition elevations (n : Z) (theta : R) : Z * Z :=
  let i0 := Int_part (theta / STEP_T) in
  if (n - 2 <? i0)%Z then (n - 2, n - 1)%Z else (i0, (i0 + 1)%Z).
(** utia.cpp:251-254 *)
Definition azimuths (phi : R) : Z * Z := let i0 := Int_part (phi / STEP_P) in (i0, (i0 + 1)%Z).
(** utia.cpp:256-278 a pair of weights *)
Definition weights (step x : R) (i : Z * Z) : R * R :=
  let w1 := x - step * IZR (fst i) in
  let w0 := step * IZR (snd i) - x in
  let sum := w0 + w1 in (w0 / sum, w1 / sum).

Definition pick {A} (p : A * A) (second : bool) : A := if second then snd p else fst p.
Definition two : list bool := [false; true].
(** utia.cpp:285-294 one plane: sixteen table entries with their weights *)
Definition entries (isp : Z) (iti itv ipi ipv : Z * Z) (wti wtv wpi wpv : R * R) : list (Z * (R * R * R * R)) :=
  flat_map (fun i => flat_map (fun j => flat_map (fun k => map (fun l =>
    ((isp * (NPI * NTI) * (NPV * NTV) + NPV * NTV * (NPI * pick iti i + pick ipi k) + NPV * pick itv j + pick ipv l)%Z,
     (pick wti i, pick wtv j, pick wpi k, pick wpv l))) two) two) two) two.
Fixpoint accumulate (Bd : list R) (es : list (Z * (R * R * R * R))) (acc : R) : outcome R :=
  match es with
  | [] => Ok acc
  | (idx, (a, b, c, d)) :: t => do v <- at_ Bd idx; accumulate Bd t (acc + v * a * b * c * d)
  end.

(** utia.cpp:193-296 value *)
Definition utia_value (Bd : list R) (x : R * R * R * R) : outcome (R * R * R) :=
  let '(theta_i, phi_i, theta_v, phi_v) := x in
  if Rlt_dec (PI * (5 / 10)) theta_i then Ok (0, 0, 0) else
  if Rlt_dec (PI * (5 / 10)) theta_v then Ok (0, 0, 0) else
  let phi_i := if Rlt_dec phi_i 0 then PI * 2 + phi_i else phi_i in
  let phi_v := if Rlt_dec phi_v 0 then PI * 2 + phi_v else phi_v in
  if Rlt_dec phi_i 0 then Abort else if Rlt_dec (PI * 2) phi_i then Abort else
  if Rlt_dec phi_v 0 then Abort else if Rlt_dec (PI * 2) phi_v then Abort else
  let d2r := 180 / PI in
  let theta_i := theta_i * d2r in
  let theta_v := theta_v * d2r in
  let phi_i := phi_i * d2r in
  let phi_v := phi_v * d2r in
  let phi_i := if Rle_dec 360 phi_i then 0 else phi_i in
  let phi_v := if Rle_dec 360 phi_v then 0 else phi_v in
  let iti := elevations NTI theta_i in
  let itv := elevations NTV theta_v in
  let ipi := azimuths phi_i in
  let ipv := azimuths phi_v in
  let wti := weights STEP_T theta_i iti in
  let wtv := weights STEP_T theta_v itv in
  let wpi := weights STEP_P phi_i ipi in
  let wpv := weights STEP_P phi_v ipv in
  let ipi := (fst ipi, if (snd ipi =? NPI)%Z then 0%Z else snd ipi) in
  let ipv := (fst ipv, if (snd ipv =? NPV)%Z then 0%Z else snd ipv) in
  do r <- accumulate Bd (entries 0 iti itv ipi ipv wti wtv wpi wpv) 0;
  do g <- accumulate Bd (entries 1 iti itv ipi ipv wti wtv wpi wpv) 0;
  do b <- accumulate Bd (entries 2 iti itv ipi ipv wti wtv wpi wpv) 0;
  Ok (r, g, b).

(** ** Binary files *)
(** utia.cpp:141-151 save, other extension than exr: the numbers are written as
    text, without separators; [print] is operator<< for double *)
Definition utia_save (print : double -> str) (Bd : list double) : str := flat_map print Bd.
(** utia.cpp:343-348 load_data, other extension than exr: as many bytes as the
    stream has, at most those of the whole table, replace the first bytes of
    uninitialised memory whose contents, as doubles, are [junk] *)
Definition utia_load (junk : list double) (file : str) : list double :=
  let n := Z.to_nat (PLANES * N_PER_PLANE) in
  let b := firstn (8 * n) file in
  bytes_doubles n (b ++ skipn (length b) (doubles_bytes junk)).

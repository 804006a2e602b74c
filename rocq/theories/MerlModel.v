(** Model of sources/plugins/data_io/merl.cpp: a table of 90 x 90 x 180 RGB
    triples.  Evaluation is modelled in real numbers (no NaN), files byte by
    byte. *)
From Coq Require Import Reals List ZArith.
From Verif Require Import Base Num Double.
Open Scope R_scope.

(** merl.cpp:37-43 *)
Definition RES_TH : Z := 90.
Definition RES_TD : Z := 90.
Definition RES_PD : Z := 360.
Definition RED_SCALE : R := 1 / 1500.
Definition GREEN_SCALE : R := 115 / 100 / 1500.
Definition BLUE_SCALE : R := 166 / 100 / 1500.
(** merl.cpp:76-78 MERL_SIZE *)
Definition MERL_SIZE : Z := Z.quot (RES_TH * RES_TD * RES_PD) 2.

(** C++ conversion of a double to int: towards zero *)
Definition trunc (x : R) : Z := if Rle_dec 0 x then Int_part x else (- Int_part (- x))%Z.
(** brdf[i] *)
Definition at_ (t : list R) (i : Z) : outcome R :=
  if (i <? 0)%Z then UB else match nth_error t (Z.to_nat i) with Some v => Ok v | None => UB end.
(** brdf[i] = v *)
Definition put (t : list R) (i : Z) (v : R) : outcome (list R) :=
  if (i <? 0)%Z then UB
  else if (i <? Z.of_nat (length t))%Z then Ok (firstn (Z.to_nat i) t ++ v :: skipn (S (Z.to_nat i)) t) else UB.

(** merl.cpp:293-305 *)
Definition theta_half_index (th : R) : Z :=
  if Rle_dec th 0 then 0%Z else
  let deg := th / (PI / 2) * IZR RES_TH in
  let r := trunc (sqrt (deg * IZR RES_TH)) in
  let r := if (r <? 0)%Z then 0%Z else r in
  if (RES_TH <=? r)%Z then (RES_TH - 1)%Z else r.
(** merl.cpp:311-317 *)
Definition theta_half_from_index (i : Z) : R :=
  let temp := IZR i + 5 / 10 in
  let deg := temp * temp / IZR RES_TH in deg * (5 / 10 * PI) / IZR RES_TH.
(** merl.cpp:322-331 *)
Definition theta_diff_index (td : R) : Z :=
  let tmp := trunc (td / (PI * (5 / 10)) * IZR RES_TD) in
  if (tmp <? 0)%Z then 0%Z else if (tmp <? RES_TD - 1)%Z then tmp else (RES_TD - 1)%Z.
(** merl.cpp:336-341 *)
Definition theta_diff_from_index (i : Z) : R := (IZR i + 5 / 10) * (5 / 10 * PI) / IZR RES_TD.
(** merl.cpp:345-361 *)
Definition phi_diff_index (pd : R) : Z :=
  let pd := if Rlt_dec pd 0 then pd + PI else pd in
  let tmp := trunc (pd / PI * IZR RES_PD / 2) in
  if (tmp <? 0)%Z then 0%Z else if (tmp <? Z.quot RES_PD 2 - 1)%Z then tmp else (Z.quot RES_PD 2 - 1)%Z.
(** merl.cpp:365-369 *)
Definition phi_diff_from_index (i : Z) : R := (IZR i + 5 / 10) * PI / IZR (Z.quot RES_PD 2).

(** merl.cpp:373-420 lookup_brdf_val *)
Definition lookup_brdf_val (brdf : list R) (th td pd : R) : outcome (R * R * R) :=
  let pd := if Rlt_dec pd 0 then - pd else pd in
  let pd := if Rlt_dec PI pd then 2 * PI - pd else pd in
  if Rlt_dec th 0 then Ok (0, 0, 0)
  else if Rlt_dec (5 / 10 * PI) th then Ok (0, 0, 0)
  else if Rlt_dec td 0 then Ok (0, 0, 0)
  else if Rlt_dec (5 / 10 * PI) td then Ok (0, 0, 0)
  else if Rlt_dec PI pd then Ok (0, 0, 0)
  else if Rlt_dec pd 0 then Ok (0, 0, 0)
  else
    let ind := (phi_diff_index pd + Z.quot (theta_diff_index td * RES_PD) 2
                + Z.quot (theta_half_index th * RES_PD) 2 * RES_TD)%Z in
    do r <- at_ brdf ind;
    do g <- at_ brdf (ind + Z.quot (RES_TH * RES_TD * RES_PD) 2);
    do b <- at_ brdf (ind + RES_TH * RES_TD * RES_PD);
    Ok (r * RED_SCALE, g * GREEN_SCALE, b * BLUE_SCALE).

(** merl.cpp:163-188 value *)
Definition merl_value (brdf : list R) (x : R * R * R) : outcome (R * R * R) :=
  let '(th, td, pd) := x in
  do v <- lookup_brdf_val brdf th td pd;
  let '(r, g, b) := v in
  if Rlt_dec r 0 then Ok (0, 0, 0) else if Rlt_dec g 0 then Ok (0, 0, 0) else if Rlt_dec b 0 then Ok (0, 0, 0)
  else Ok (r, g, b).

(** merl.cpp:131-151 get *)
Definition merl_get (brdf : list R) (i : Z) : outcome ((R * R * R) * (R * R * R)) :=
  let pd := Z.rem i (Z.quot RES_PD 2) in
  let td := Z.rem (Z.quot i (Z.quot RES_PD 2)) RES_TD in
  let th := Z.rem (Z.quot i (Z.quot RES_PD 2 * RES_TD)) RES_TH in
  do r <- at_ brdf i;
  do g <- at_ brdf (i + Z.quot (RES_TH * RES_TD * RES_PD) 2);
  do b <- at_ brdf (i + RES_TH * RES_TD * RES_PD);
  Ok ((theta_half_from_index th, theta_diff_from_index td, phi_diff_from_index pd),
      (r * RED_SCALE, g * GREEN_SCALE, b * BLUE_SCALE)).

(** merl.cpp:153-161 set: the values of the sample are stored, its position is
    ignored *)
Definition merl_set (brdf : list R) (i : Z) (y : R * R * R) : outcome (list R) :=
  let '(r, g, b) := y in
  do t1 <- put brdf i (r / RED_SCALE);
  do t2 <- put t1 (i + MERL_SIZE) (g / GREEN_SCALE);
  put t2 (i + MERL_SIZE + MERL_SIZE) (b / BLUE_SCALE).

(** ** Files *)
(** A 32-bit int in memory (little endian, two's complement) *)
Definition int_of_bytes (s : str) : Z :=
  let n := Z.of_N (le_word s) in if (n <? 2 ^ 31)%Z then n else (n - 2 ^ 32)%Z.
Definition bytes_of_int (z : Z) : str := le_bytes 4 (Z.to_N (z mod 2 ^ 32)).
Definition int_mul (a b : Z) : outcome Z :=
  let p := (a * b)%Z in if (- 2 ^ 31 <=? p)%Z && (p <? 2 ^ 31)%Z then Ok p else UB.

(** merl.cpp:113-128 save *)
Definition merl_save (brdf : list double) : outcome str :=
  let n := (RES_TH * RES_TD * Z.quot RES_PD 2)%Z in
  if (Z.of_nat (length brdf) <? 3 * n)%Z then UB
  else Ok (bytes_of_int RES_TH ++ bytes_of_int RES_TD ++ bytes_of_int (Z.quot RES_PD 2)
           ++ doubles_bytes (firstn (Z.to_nat (3 * n)) brdf)).
(** merl.cpp:426-442 read_brdf and 451-462 load_data: the table starts at zero
    and receives as many bytes as the stream has; bare throw ends the program *)
Definition merl_load (file : str) : outcome (list double) :=
  if (length file <? 12)%nat then UB else
  do a <- int_mul (int_of_bytes (firstn 4 file)) (int_of_bytes (firstn 4 (skipn 4 file)));
  do n <- int_mul a (int_of_bytes (firstn 4 (skipn 8 file)));
  if negb (n =? MERL_SIZE)%Z then Abort
  else Ok (bytes_doubles (Z.to_nat (3 * n)) (skipn 12 file)).

(** Vocabulary of the slice properties. *)
From Coq Require Import Reals List ZArith.
From Verif Require Import Base ParamsModel MerlModel SliceModel.
Open Scope R_scope.

(** An image of w x h pixels with its three channels. *)
Definition image_ok (w h : Z) (content : list R) : Prop :=
  (0 < w)%Z /\ (0 < h)%Z /\ Z.of_nat (length content) = (3 * (w * h))%Z.

(** x is in the k-th of n equal pieces of [a, b) *)
Definition in_piece (a b : R) (n k : Z) (x : R) : Prop :=
  a + (b - a) * (IZR k / IZR n) <= x < a + (b - a) * ((IZR k + 1) / IZR n).

(** The position of a point in the image: the first two coordinates, or the last
    two in opposite order for the projected parametrizations. *)
Definition horizontal (s : slice) (x : list R) : R := if s_reverse s then nth 2 x 0 else nth 0 x 0.
Definition vertical (s : slice) (x : list R) : R := nth 1 x 0.
(** The angle of the slice, the remaining coordinate of 3D parametrizations. *)
Definition depth (s : slice) (x : list R) : R := if s_reverse s then nth 0 x 0 else nth 2 x 0.

(** A loaded slice: one image; projected parametrizations have 3 dimensions. *)
Definition slice_ok (s : slice) : Prop := image_ok (s_width s) (s_height s) (s_data s) /\ (s_dim s = 2 \/ s_dim s = 3)%nat /\
  (s_reverse s = true -> s_dim s = 3%nat).
(** The three consecutive numbers of a pixel. *)
Definition pixel (d : list R) (id : Z) : outcome (R * R * R) :=
  do r <- at_ d (3 * id + 0); do g <- at_ d (3 * id + 1); do b <- at_ d (3 * id + 2); Ok (r, g, b).

(** The square a parametrization is drawn on, [lo, hi] x [lo, hi]: quarter turns
    for half and difference angles, half turns for signed elevations, the unit
    square for Stark's coordinates (and everything else). *)
Definition square (p : input) : R * R :=
  if input_eqb p RUSIN_TH_TD || input_eqb p RUSIN_TH_TD_PD then (0, PI / 2)
  else if input_eqb p ISOTROPIC_TV_TL_DPHI || input_eqb p ISOTROPIC_TL_TV_PROJ_DPHI ||
          input_eqb p SCHLICK_TL_TK_PROJ_DPHI || input_eqb p RETRO_TL_TVL_PROJ_DPHI then (- PI / 2, PI / 2)
  else (0, 1).
Definition centre (sq : R * R) (n k : Z) : R := fst sq + (snd sq - fst sq) * ((IZR k + 1 / 2) / IZR n).

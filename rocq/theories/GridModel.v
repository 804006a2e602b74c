(** Model of sources/plugins/data_interpolants/grid.cpp: samples on a regular
    grid of any dimension and their multilinear interpolation.  Numbers are
    reals (no NaN, no rounding), indices are unbounded integers. *)
From Coq Require Import Reals List ZArith.
From Verif Require Import Base Num ParamsModel CommonModel.
Open Scope R_scope.

(** grid.cpp:24-78 get_min and 80-134 get_max.  For the parametrizations not
    listed, the vectors are left uninitialised (None). *)
Definition grid_bounds (p : input) : option (list R * list R) :=
  match p with
  | COS_TH | COS_TK => Some ([0], [1])
  | COS_TLV | COS_TLR => Some ([-1], [1])
  | COS_TH_TD | STARK_2D => Some ([0; 0], [1; 1])
  | RUSIN_TH_TD => Some ([0; 0], [5 / 10 * PI; 5 / 10 * PI])
  | ISOTROPIC_TV_PROJ_DPHI => Some ([- (5 / 10) * PI; - (5 / 10) * PI], [5 / 10 * PI; 5 / 10 * PI])
  | RUSIN_TH_TD_PD => Some ([0; 0; 0], [5 / 10 * PI; 5 / 10 * PI; 2 * PI])
  | STARK_3D => Some ([0; 0; 0], [1; 1; 2 * PI])
  | _ => None
  end.

(** grid.cpp:150-153 and vertical_segment.h: the grid.  [g_rows] are the rows
    of data_view() (dimX abscissae, dimY values); g_sizes, g_min and g_max have
    dimX entries. *)
Record grid := mkGrid { g_sizes : list Z; g_min : list R; g_max : list R; g_dy : nat; g_rows : list (list R) }.

(** grid.cpp:220-227 get_index(k) *)
Fixpoint index_acc (N : Z) (sizes k : list Z) : Z :=
  match sizes, k with s :: ss, i :: ks => index_acc (N * s + i) ss ks | _, _ => N end.
Definition get_index (sizes k : list Z) : Z := index_acc 0 sizes k.
(** grid.cpp:229-236 get_indices(x); Int_part is floor *)
Fixpoint indices_at (sizes : list Z) (mn mx x : list R) : list Z :=
  match sizes, mn, mx, x with
  | s :: ss, a :: aa, b :: bb, v :: vv => Int_part (IZR (s - 1) * (v - a) / (b - a)) :: indices_at ss aa bb vv
  | _, _, _, _ => []
  end.
(** grid.cpp:238-252 get_indices(N), from the last dimension to the first *)
Fixpoint indices_rev (rsizes : list Z) (K : Z) : list Z :=
  match rsizes with
  | [] => []
  | s :: ss => let k := Z.rem K s in k :: indices_rev ss (Z.quot (K - k) s)
  end.
Definition get_indices (sizes : list Z) (N : Z) : list Z := rev (indices_rev (rev sizes) N).
(** grid.cpp:255-264 get_abscissa *)
Fixpoint abscissa_of (sizes : list Z) (mn mx : list R) (k : list Z) : list R :=
  match sizes, mn, mx, k with
  | s :: ss, a :: aa, b :: bb, i :: ii => (a + (b - a) * IZR i / IZR (s - 1)) :: abscissa_of ss aa bb ii
  | _, _, _, _ => []
  end.
Definition get_abscissa (sizes : list Z) (mn mx : list R) (N : Z) : list R :=
  abscissa_of sizes mn mx (get_indices sizes N).

(** vertical_segment.cpp:145-148 get: a row outside the matrix fails Eigen's
    assertion *)
Definition grid_get (g : grid) (i : Z) : outcome (list R) :=
  if (i <? 0)%Z then Abort else match nth_error (g_rows g) (Z.to_nat i) with Some r => Ok r | None => Abort end.

(** grid.cpp:323-329 the weights *)
Fixpoint alphas_of (sizes : list Z) (mn mx x x0 : list R) : list R :=
  match sizes, mn, mx, x, x0 with
  | s :: ss, a :: aa, b :: bb, v :: vv, w :: ww =>
      clamp (IZR (s - 1) * (v - w) / (b - a)) 0 1 :: alphas_of ss aa bb vv ww
  | _, _, _, _, _ => []
  end.
(** grid.cpp:336-345 weight and index shift of corner d: bit i of d selects
    dimension i *)
Fixpoint corner (sizes : list Z) (alphas : list R) (d : N) (alpha : R) (cid : Z) : R * Z :=
  match sizes, alphas with
  | s :: ss, a :: aa =>
      corner ss aa (N.div2 d) (alpha * (if N.odd d then a else 1 - a)) (cid * s + (if N.odd d then 1 else 0))%Z
  | _, _ => (alpha, cid)
  end.
(** grid.cpp:334-352 the loop over corners *)
Fixpoint corners (g : grid) (alphas : list R) (id : Z) (ds : list N) (y : list R) : outcome (list R) :=
  match ds with
  | [] => Ok y
  | d :: ds' =>
      let '(alpha, cid) := corner (g_sizes g) alphas d 1 0%Z in
      let cid := if (Z.of_nat (length (g_rows g)) <? id + cid)%Z then 0%Z else cid in
      do row <- grid_get g (id + cid);
      corners g alphas id ds'
        (cwise Rplus y (map (fun v => alpha * v) (firstn (g_dy g) (skipn (length (g_sizes g)) row))))
  end.
(** grid.cpp:314-355 value *)
Definition grid_value (g : grid) (x : list R) : outcome (list R) :=
  let k := indices_at (g_sizes g) (g_min g) (g_max g) x in
  let id := get_index (g_sizes g) k in
  do x0 <- grid_get g id;
  let alphas := alphas_of (g_sizes g) (g_min g) (g_max g) x x0 in
  let D := N.pow 2 (N.of_nat (length (g_sizes g))) in
  corners g alphas id (map N.of_nat (seq 0 (N.to_nat D))) (repeat 0 (g_dy g)).

(** vertical_segment.cpp:150-163 set with a row of the right size *)
Definition grid_set (g : grid) (i : Z) (row : list R) : outcome grid :=
  if (i <? 0)%Z then Abort
  else if (i <? Z.of_nat (length (g_rows g)))%Z
  then Ok (mkGrid (g_sizes g) (g_min g) (g_max g) (g_dy g)
             (firstn (Z.to_nat i) (g_rows g) ++ row :: skipn (S (Z.to_nat i)) (g_rows g)))
  else Abort.

(** grid.cpp:200-208: rows 0 .. N-1 receive their abscissa; the values are those
    of an uninitialised vector *)
Fixpoint preallocate (junk : list R) (g : grid) (n : nat) : outcome grid :=
  match n with
  | O => Ok g
  | S m =>
      do g' <- preallocate junk g m;
      grid_set g' (Z.of_nat m) (get_abscissa (g_sizes g) (g_min g) (g_max g) (Z.of_nat m) ++ junk)
  end.
(** grid.cpp:155-212 constructor and initialize.  [pin] is the parametrization
    named by PARAM_IN or param, [pout] the one named by PARAM_OUT: None leaves an
    uninitialised variable that is then read.  [gs] is the value of grid-size.
    Simplification: the parametrization passed to the constructor has the
    dimensions of [pin] and [pout]. *)
Definition grid_new (junk : list R) (size : nat) (pin : option input) (pout : option output) (gs : option (list Z))
  : outcome grid :=
  match pin, pout with
  | Some i, Some o =>
      do nY <- dimension_out o;
      let nX := Z.to_nat (dimension_in i) in
      do sizes <- match gs with
                  | Some l => if (length l =? nX)%nat then Ok l else Abort
                  | None => Ok (repeat 10%Z nX)
                  end;
      let N := fold_left Z.mul sizes 1%Z in
      match grid_bounds i with
      | None => UB
      | Some (mn, mx) =>
          preallocate junk (mkGrid sizes mn mx (Z.to_nat nY) (repeat (repeat 0 (nX + Z.to_nat nY)) size)) (Z.to_nat N)
      end
  | _, _ => UB
  end.

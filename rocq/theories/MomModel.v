(** Model of data2moments (sources/softs/data2moments/main.cpp), after the input
    has been loaded.  Numbers are real; a division by zero gives [None] (an
    infinity or a NaN); what is printed on the console is left out. *)
From Coq Require Import Reals List.
From Verif Require Import Base CommonModel TextModel ConvModel.
Open Scope R_scope.

(** v[i] of a vec: Eigen asserts 0 <= i < size *)
Definition at_index (l : list R) (i : Z) : outcome R :=
  if (i <? 0)%Z then Abort else nth_checked l (Z.to_nat i).
(** the range of int *)
Definition int_ok (z : Z) : bool := ((-2147483648 <=? z) && (z <=? 2147483647))%Z.

(** softs/data2moments/main.cpp:138-164 the two options, with their defaults; the asserts
    compare the sizes *)
Definition get_samples (nX : nat) (arg : option (list Z)) : outcome (list Z) :=
  match arg with
  | Some l => if (length l =? nX)%nat then Ok l else Abort
  | None => Ok (repeat 100%Z nX)
  end.
Definition get_dims (arg : option (list Z)) : outcome (Z * Z) :=
  match arg with
  | Some [a; b] => Ok (a, b)
  | Some _ => Abort
  | None => Ok (0, 1)%Z
  end.

(** softs/data2moments/main.cpp:168-176 the least value of every channel; [rows] are d->get(i) *)
Fixpoint min_channels (nX nY : nat) (rows : list (list R)) (m : list R) : outcome (list R) :=
  match rows with
  | [] => Ok m
  | r :: rows' =>
      if (length m <? nX + nY)%nat || (length r <? nX + nY)%nat then (if (nY =? 0)%nat then min_channels nX nY rows' m else Abort)
      else min_channels nX nY rows' (firstn nX m ++ List.map (fun j => Rmin (nth (nX + j) m 0) (nth (nX + j) r 0)) (seq 0 nY))
  end.
Definition get_min (nX nY : nat) (rows : list (list R)) : outcome (list R) :=
  match rows with [] => UB | r :: rows' => min_channels nX nY rows' r end.

(** softs/data2moments/main.cpp:180-197 the volume of the domain, the number of samples and the
    samples per dimension.  [n] dimensions are left; an overflow of int is undefined *)
Fixpoint volume (n : nat) (lo hi : list R) (ss : list Z) (dt : R) (nb : Z) : outcome (R * Z * list Z) :=
  match n with
  | O => Ok (dt, nb, [])
  | S n' =>
      match lo, hi, ss with
      | a :: lo', b :: hi', s :: ss' =>
          if rltb 0 (b - a) then
            if int_ok (nb * s) then
              do r <- volume n' lo' hi' ss' (dt * (b - a)) (nb * s)%Z; let '(d, m, l) := r in Ok (d, m, s :: l)
            else UB
          else do r <- volume n' lo' hi' ss' dt nb; let '(d, m, l) := r in Ok (d, m, 1%Z :: l)
      | _, _, _ => Abort
      end
  end.

(** softs/data2moments/main.cpp:227-232 the indices of sample number [g]; % and / truncate *)
Fixpoint digits (g : Z) (ss : list Z) : list Z :=
  match ss with [] => [] | s :: ss' => Z.rem g s :: digits (Z.quot g s) ss' end.
(** softs/data2moments/main.cpp:234-240 *)
Fixpoint position (lo hi : list R) (ss is : list Z) : list R :=
  match lo, hi, ss, is with
  | a :: lo', b :: hi', s :: ss', i :: is' => (a + (b - a) * (IZR i / IZR s)) :: position lo' hi' ss' is'
  | _, _, _, _ => []
  end.

(** softs/data2moments/main.cpp:250-266 what one sample adds to the fifteen sums *)
Definition terms (v x y : R) : list R :=
  [v; v * x; v * y; v * x * x; v * x * y; v * y * y;
   v * x * x * x; v * x * x * y; v * x * y * y; v * y * y * y;
   v * x * x * x * x; v * x * x * x * y; v * x * x * y * y; v * x * y * y * y; v * y * y * y * y].
Fixpoint add_terms (a b : list R) : list R :=
  match a, b with x :: a', y :: b' => (x + y) :: add_terms a' b' | _, _ => [] end.

Section Moments.
Variable nX nY : nat.
Variable val : list R -> outcome (list R).     (* d->value *)
Variable lo hi dmin : list R.
Variable dx dy : Z.

(** softs/data2moments/main.cpp:246-267 the loop over the channels, from channel [k] *)
Fixpoint channels_step (dt : R) (x y : list R) (k : nat) (acc : list (list R)) : outcome (list (list R)) :=
  match acc with
  | [] => Ok []
  | m :: acc' =>
      do v <- nth_checked y k;
      do d <- nth_checked dmin (nX + k);
      do a <- at_index x dx;
      do b <- at_index x dy;
      do r <- channels_step dt x y (S k) acc';
      Ok (add_terms m (terms ((v - d) * dt) a b) :: r)
  end.
(** softs/data2moments/main.cpp:222-268 the loop over the samples, [n] of them from number [i] *)
Fixpoint integrate (dt : R) (ss : list Z) (n : nat) (i : Z) (acc : list (list R)) : outcome (list (list R)) :=
  match n with
  | O => Ok acc
  | S n' =>
      let x := position lo hi ss (digits i ss) in
      do y <- val x;
      do acc' <- channels_step dt x y 0 acc;
      integrate dt ss n' (i + 1) acc'
  end.

(** softs/data2moments/main.cpp:273-289: all sums but the first are divided by the first *)
Definition ratio (a b : R) : option R := if Req_EM_T b 0 then None else Some (a / b).
Definition normalise (m : list R) : list (option R) :=
  match m with [] => [] | m0 :: l => Some m0 :: List.map (fun v => ratio v m0) l end.

(** softs/data2moments/main.cpp:329-338 the lines of the file: a label and a number per channel *)
Definition labels : list str :=
  List.map lit ["\mu_0"; "\mu_x"; "\mu_y"; "\mu_{xx}"; "\mu_{xy}"; "\mu_{yy}"; "\mu_{xxx}"; "\mu_{xxy}"; "\mu_{xyy}"; "\mu_{yyy}"]%string.
Definition write_lines (mu : list (list (option R))) : list (str * list (option R)) :=
  List.map (fun jl => (snd jl, List.map (fun m => nth (fst jl) m None) mu)) (combine (seq 0 10) labels).
End Moments.

(** what load_data returned: no object, a plain list of samples (class
    vertical_segment), or an object with an interpolant: dimX, dimY, min(), max(),
    its samples and value() *)
Inductive source :=
| Nothing
| Segments
| Interpolant (nX nY : nat) (lo hi : list R) (rows : list (list R)) (val : list R -> outcome (list R)).

(** softs/data2moments/main.cpp:90-355 main from there on: the exit status, and the content of the
    output file or [None] when it is not opened *)
Definition data2moments (d : source) (samples dims : option (list Z)) : outcome (Z * option (list (str * list (option R)))) :=
  match d with
  | Segments => Ok (1%Z, None)
  | Nothing => Ok (1%Z, Some [])
  | Interpolant nX nY lo hi rows val =>
      do ss <- get_samples nX samples;
      do dd <- get_dims dims;
      do dmin <- get_min nX nY rows;
      do v <- volume nX lo hi ss 1 1;
      let '(vol, nb, ss') := v in
      do m <- integrate nX val lo hi dmin (fst dd) (snd dd) (vol / IZR nb) ss' (Z.to_nat nb) 0 (repeat (repeat 0 15) nY);
      Ok (0%Z, Some (write_lines (List.map normalise m)))
  end.

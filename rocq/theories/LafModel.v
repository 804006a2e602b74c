(** Model of plugins/nonlinear_function_lafortune/function.{h,cpp}: lobes with three
    coefficients, a diffuse term that is not fitted, and a flag. *)
From Coq Require Import Reals List.
From Verif Require Import Base GeoModel FuncModel TextModel NlMoreModel.
Open Scope R_scope.

(** plugins/nonlinear_function_lafortune/function.h:125-134: the members.  The constructor (plugins/nonlinear_function_lafortune/function.cpp:31-46) leaves
    _n and _isotropic uninitialised and sets _kd to zero. *)
Record laf := mkLaf { a_n : nat; a_iso : bool; a_C : list R; a_N : list R; a_kd : list R }.
Section Laf.
Variable junk : R.
Variable nY : nat.
(** constructor, plugins/nonlinear_function_lafortune/function.cpp:31-46, for the values [n] and [iso] found in memory *)
Definition aconstruct (n : nat) (iso : bool) : laf := mkLaf n iso (repeat junk (n * nY * (if iso then 2 else 3))) (repeat junk (n * nY)) (repeat 0 nY).
(** setNbLobes, plugins/nonlinear_function_lafortune/function.cpp:144-155; resize keeps the content only when the size
    stays the same *)
Definition resized (l : list R) (n : nat) : list R := if (length l =? n)%nat then l else repeat junk n.
Definition aset_nb_lobes (n : nat) (s : laf) : laf :=
  mkLaf n (a_iso s) (resized (a_C s) (n * nY * (if a_iso s then 2 else 3))) (resized (a_N s) (n * nY)) (a_kd s).
(** nbParameters, plugins/nonlinear_function_lafortune/function.cpp:158-172 (FIT_DIFFUSE is not defined) *)
Definition anb (s : laf) : nat := ((if a_iso s then 3 else 4) * a_n s * nY)%nat.
(** parameters, plugins/nonlinear_function_lafortune/function.cpp:175-207 *)
Definition aget (s : laf) : outcome (list R) :=
  for_ (a_n s) 0 (fun n out => for_ nY 0 (fun i out =>
    if a_iso s then
      do a <- rd (a_C s) ((n * nY + i) * 2 + 0); do o1 <- wr out ((n * nY + i) * 3 + 0) a;
      do b <- rd (a_C s) ((n * nY + i) * 2 + 1); do o2 <- wr o1 ((n * nY + i) * 3 + 1) b;
      do c <- rd (a_N s) (n * nY + i); wr o2 ((n * nY + i) * 3 + 2) c
    else
      do a <- rd (a_C s) ((n * nY + i) * 3 + 0); do o1 <- wr out ((n * nY + i) * 4 + 0) a;
      do b <- rd (a_C s) ((n * nY + i) * 3 + 1); do o2 <- wr o1 ((n * nY + i) * 4 + 1) b;
      do c <- rd (a_C s) ((n * nY + i) * 3 + 2); do o3 <- wr o2 ((n * nY + i) * 4 + 2) c;
      do d <- rd (a_N s) (n * nY + i); wr o3 ((n * nY + i) * 4 + 3) d) out) (repeat junk (anb s)).
(** setParameters, plugins/nonlinear_function_lafortune/function.cpp:210-230 *)
Definition aset (p : list R) (s : laf) : outcome laf :=
  if negb (length p =? anb s)%nat then Abort else
  for_ (a_n s) 0 (fun n s => for_ nY 0 (fun i s =>
    do a <- rd p ((n * nY + i) * 4 + 0); do C1 <- wr (a_C s) ((n * nY + i) * 3 + 0) a;
    do b <- rd p ((n * nY + i) * 4 + 1); do C2 <- wr C1 ((n * nY + i) * 3 + 1) b;
    do c <- rd p ((n * nY + i) * 4 + 2); do C3 <- wr C2 ((n * nY + i) * 3 + 2) c;
    do d <- rd p ((n * nY + i) * 4 + 3); do N1 <- wr (a_N s) (n * nY + i) d;
    Ok (mkLaf (a_n s) (a_iso s) C3 N1 (a_kd s))) s) s.
(** getCurrentLobe, plugins/nonlinear_function_lafortune/function.h:105-122 *)
Definition acurrent (s : laf) (n c : nat) : outcome (R * R * R * R) :=
  if a_iso s then
    do a <- rd (a_C s) ((n * nY + c) * 2 + 0); do b <- rd (a_C s) ((n * nY + c) * 2 + 1);
    do e <- rd (a_N s) (n * nY + c); Ok (a, a, b, e)
  else
    do a <- rd (a_C s) ((n * nY + c) * 3 + 0); do b <- rd (a_C s) ((n * nY + c) * 3 + 1); do d <- rd (a_C s) ((n * nY + c) * 3 + 2);
    do e <- rd (a_N s) (n * nY + c); Ok (a, b, d, e).
(** value, plugins/nonlinear_function_lafortune/function.cpp:53-94 (ADAPT_TO_PARAM is not defined) *)
Definition avalue (s : laf) (x : mem) : outcome (list R) :=
  let dx := x 0%nat * x 3%nat in let dy := x 1%nat * x 4%nat in let dz := x 2%nat * x 5%nat in
  for_ nY 0 (fun i res =>
    do k <- rd (a_kd s) i; do r0 <- wr res i k;
    for_ (a_n s) 0 (fun n res =>
      do l <- acurrent s n i; let '(cx, cy, cz, e) := l in
      let d := cx * dx + cy * dy + cz * dz in
      if rltb 0 d then do r <- rd res i; wr res i (r + Rpower d e) else Ok res) r0) (repeat junk nY).
(** parametersJacobian, plugins/nonlinear_function_lafortune/function.cpp:234-306 *)
Definition ajac (s : laf) (x : mem) : outcome (list R) :=
  let dx := x 0%nat * x 3%nat in let dy := x 1%nat * x 4%nat in let dz := x 2%nat * x 5%nat in
  for_ nY 0 (fun i jac => for_ (a_n s) 0 (fun n jac => for_ nY 0 (fun j jac =>
    let index := (i * anb s + 4 * (n * nY + j))%nat in
    do l <- acurrent s n j; let '(cx, cy, cz, e) := l in
    let d := cx * dx + cy * dy + cz * dz in
    let '(a, b, c, f) := if ((i =? j)%nat && rltb 0 d)%bool
      then (dx * e * Rpower d (e - 1), dy * e * Rpower d (e - 1), dz * e * Rpower d (e - 1), if rleb d 0 then 0 else ln d * Rpower d e)
      else (0, 0, 0, 0) in
    do j1 <- wr jac (index + 0) a; do j2 <- wr j1 (index + 1) b; do j3 <- wr j2 (index + 2) c; wr j3 (index + 3) f) jac) jac)
    (repeat junk (nY * anb s)).
(** bootstrap, plugins/nonlinear_function_lafortune/function.cpp:308-338: [n] is --lobes, [dX] and [dY] the sizes of the
    data, [rows] its samples *)
Definition akd (dX dY : nat) (rows : list (list R)) (kd : list R) : outcome (list R) :=
  match rows with
  | [] => Abort
  | x0 :: rest =>
      do k0 <- for_ dY 0 (fun i kd => do v <- rd x0 (dX + i); wr kd i v) kd;
      fold_left (fun acc xi => do k <- acc;
        for_ dY 0 (fun j kd => do v <- rd xi (dX + j); do o <- rd kd j; wr kd j (Rmin v o)) k) rest (Ok k0)
  end.
Definition abootstrap (n dX dY : nat) (rows : list (list R)) (s0 : laf) : outcome laf :=
  let s := aset_nb_lobes n s0 in
  do kd <- akd dX dY rows (a_kd s);
  for_ n 0 (fun m s => for_ nY 0 (fun i s =>
    let theta := 1 / 2 * PI * INR m / INR n in
    do C1 <- wr (a_C s) ((m * nY + i) * 3 + 0) (- sin theta);
    do C2 <- wr C1 ((m * nY + i) * 3 + 1) (- sin theta);
    do C3 <- wr C2 ((m * nY + i) * 3 + 2) (cos theta);
    do N1 <- wr (a_N s) (m * nY + i) (INR n); Ok (mkLaf (a_n s) (a_iso s) C3 N1 (a_kd s))) s) (mkLaf (a_n s) (a_iso s) (a_C s) (a_N s) kd).
End Laf.

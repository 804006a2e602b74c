(** Model of four more function plugins, in real numbers: diffuse, isotropic
    Lafortune, retro Yoo and SGD.  Eigen's index checks end the process.
    Line ranges without a file are in function.cpp of the named plugin's directory. *)
From Coq Require Import Reals List.
From Verif Require Import Base ParamsModel GeoModel CommonModel FuncModel TextModel NlModel.
Open Scope R_scope.

(** ** nonlinear_function_diffuse *)
(** a sample x = d->get(i) as raw memory, read by params::convert *)
Definition row_mem (r : list R) : mem := fun i => nth i r 0.
(** nonlinear_function_diffuse/function.cpp:214 *)
Definition sample_cosine (c : mem) : R :=
  (if rltb 0 (c 2%nat) then c 2%nat else 0) * (if rltb 0 (c 5%nat) then c 5%nat else 0).
(** std::min(a, b) = (b < a) ? b : a *)
Definition std_min (a b : R) : R := if rltb b a then b else a.
(** nonlinear_function_diffuse/function.cpp:182-242 bootstrap.  [given] is args.is_defined("bootstrap")
    (NOT_IMPLEMENTED is a bare throw), [weighted] the condition of 199-200,
    [maxv] is DBL_MAX, [rows] the samples, [kd] the member. *)
Definition lower (dimX dimYd : nat) (scale : R) (r : list R) (kd : list R) : outcome (list R) :=
  for_ dimYd 0 (fun j kd => do v <- rd r (dimX + j); do k <- rd kd j; wr kd j (std_min (v / scale) k)) kd.
Fixpoint lower_all (dimX dimYd : nat) (rows : list (list R)) (kd : list R) : outcome (list R) :=
  match rows with [] => Ok kd | r :: t => do kd' <- lower dimX dimYd 1 r kd; lower_all dimX dimYd t kd' end.
Fixpoint lower_cos (ip : input) (dimX dimYd : nat) (rows : list (list R)) (kd : list R) : outcome (list R) :=
  match rows with
  | [] => Ok kd
  | r :: t =>
      do c <- convert (row_mem r) ip CARTESIAN (fun _ => 0);
      do kd' <- (if rltb 0 (sample_cosine c) then lower dimX dimYd (sample_cosine c) r kd else Ok kd);
      lower_cos ip dimX dimYd t kd'
  end.
Definition diffuse_bootstrap (maxv : R) (given weighted : bool) (ip : input) (dimX dimYd : nat) (rows : list (list R)) (kd : list R) : outcome (list R) :=
  if given then Abort
  else
    do kd0 <- for_ dimYd 0 (fun j kd => wr kd j maxv) kd;
    if weighted then lower_cos ip dimX dimYd (tl rows) kd0 else lower_all dimX dimYd rows kd0.
(** value 42-51: _kd *)
Definition diffuse_value (nY : nat) (kd : list R) (junk : R) : outcome (list R) :=
  for_ nY 0 (fun i res => do v <- rd kd i; wr res i v) (repeat junk nY).

(** ** nonlinear_function_isotropic_lafortune *)
Record lobes := mkLobes { l_n : nat; l_C : list R; l_N : list R }.
Section Lafortune.
Variable junk : R.
Variable nY : nat.
(** setNbLobes 137-144; the constructor 29-42 does the same with one lobe *)
Definition set_nb_lobes (n : nat) : lobes := mkLobes n (repeat junk (n * nY * 2)) (repeat junk (n * nY)).
(** nbParameters 147-150 *)
Definition laf_nb (s : lobes) : nat := 3 * l_n s * nY.
(** setParameters 183-195 *)
Definition laf_set (p : list R) (s : lobes) : outcome lobes :=
  if negb (length p =? laf_nb s)%nat then Abort else
  for_ (l_n s) 0 (fun n s => for_ nY 0 (fun i s =>
    do a <- rd p ((n * nY + i) * 3 + 0); do C1 <- wr (l_C s) ((n * nY + i) * 2 + 0) a;
    do b <- rd p ((n * nY + i) * 3 + 1); do C2 <- wr C1 ((n * nY + i) * 2 + 1) b;
    do c <- rd p ((n * nY + i) * 3 + 2); do N1 <- wr (l_N s) (n * nY + i) c;
    Ok (mkLobes (l_n s) C2 N1)) s) s.
(** parameters 153-165 *)
Definition laf_get (s : lobes) : outcome (list R) :=
  for_ (l_n s) 0 (fun n out => for_ nY 0 (fun i out =>
    do a <- rd (l_C s) ((n * nY + i) * 2 + 0); do o1 <- wr out ((n * nY + i) * 3 + 0) a;
    do b <- rd (l_C s) ((n * nY + i) * 2 + 1); do o2 <- wr o1 ((n * nY + i) * 3 + 1) b;
    do c <- rd (l_N s) (n * nY + i); wr o2 ((n * nY + i) * 3 + 2) c) out) (repeat junk (3 * l_n s * nY)).
(** getCurrentLobe, function.h *)
Definition current_lobe (s : lobes) (n c : nat) : outcome (R * R * R) :=
  do a <- rd (l_C s) ((n * nY + c) * 2 + 0); do b <- rd (l_C s) ((n * nY + c) * 2 + 1); do e <- rd (l_N s) (n * nY + c); Ok (a, b, e).
Definition lobe_dot (x : mem) (cx cz : R) : R := cx * (x 0%nat * x 3%nat + x 1%nat * x 4%nat) + cz * (x 2%nat * x 5%nat).
(** value 49-91 *)
Definition laf_value (s : lobes) (x : mem) : outcome (list R) :=
  for_ nY 0 (fun i res =>
    do r0 <- wr res i 0;
    for_ (l_n s) 0 (fun n res =>
      do l <- current_lobe s n i; let '(cx, cz, e) := l in
      let d := lobe_dot x cx cz in
      if rltb 0 d then do r <- rd res i; wr res i (r + Rpower d e) else Ok res) r0) (repeat junk nY).
(** parametersJacobian 199-244 *)
Definition laf_jac (s : lobes) (x : mem) : outcome (list R) :=
  let dxy := x 0%nat * x 3%nat + x 1%nat * x 4%nat in let dz := x 2%nat * x 5%nat in
  for_ nY 0 (fun i jac => for_ (l_n s) 0 (fun n jac => for_ nY 0 (fun j jac =>
    let index := (i * laf_nb s + 3 * (n * nY + j))%nat in
    do l <- current_lobe s n j; let '(cx, cz, e) := l in
    let d := lobe_dot x cx cz in
    let '(a, b, c) := if ((i =? j)%nat && rltb 0 d)%bool
      then (dxy * e * Rpower d (e - 1), dz * e * Rpower d (e - 1), if rleb d 0 then 0 else ln d * Rpower d e)
      else (0, 0, 0) in
    do j1 <- wr jac (index + 0) a; do j2 <- wr j1 (index + 1) b; wr j2 (index + 2) c) jac) jac)
    (repeat junk (nY * laf_nb s)).
(** bootstrap 246-310 ([--lobes] = n, [given] = is_defined("bootstrap")) *)
Definition laf_start (n : nat) (given : bool) : outcome lobes :=
  let s := set_nb_lobes n in
  for_ n 0 (fun m s =>
    let cxy := if given then match (m mod 3)%nat with O => -1 | 1%nat => 1 | _ => 0 end else -1 in
    for_ nY 0 (fun i s =>
      do C1 <- wr (l_C s) ((m * nY + i) * 2 + 0) cxy; do C2 <- wr C1 ((m * nY + i) * 2 + 1) 1;
      do N1 <- wr (l_N s) (m * nY + i) (INR (l_n s)); Ok (mkLobes (l_n s) C2 N1)) s) s.
End Lafortune.

(** ** nonlinear_function_retroyoo: kr, lt *)
Definition yoo_base (q lt : R) : R :=
  3 / (16 * PI) * (24 / 10 + 1 / (1 + q * lt * lt)) * (1 + (1 - exp (- 2 * q * (7 / 10) * lt) / (q * lt))).
(** value 44-55: res[i] is multiplied, its previous content is [old];
    Jacobian 101-130 *)
Definition yoo (old : R) : nlf := mkNlf 2 (fun x => Ok [2 * PI * x 0%nat / 633])
  (fun g c => old * (p0 c * yoo_base (p0 g) (p1 c)))
  (fun g c l => match l with O => yoo_base (p0 g) (p1 c) | _ => p0 c * yoo_base (p0 g) (p1 c) end)
  false same [1; 1].
(** parameters 64-73: the vector has size 3*dimY *)
Definition yoo_parameters (junk : R) (nY : nat) (st : list (list R)) : outcome (list R) :=
  for_ nY 0 (fun i out => for_ 2 0 (fun l out => do v <- rd2 st l i; wr out (i * 2 + l) v) out) (repeat junk (3 * nY)).

(** ** nonlinear_function_sgd: members sh_c, sh_theta0, sh_k, sh_lambda, p, F_0,
    F_1, K_ap, rho_d, rho_s, alpha, in this order in the parameter vector *)
(** pow for a base that is not negative; 0 to a negative power is [inf] *)
Definition cpow (inf b e : R) : R :=
  if rltb 0 b then Rpower b e else if rltb 0 e then 0 else if rltb e 0 then inf else 1.
Section Sgd.
Variable junk : R.
Variable nY : nat.
(** constructor 29-48 *)
Definition sgd_members : list (list R) := repeat (repeat 0 nY) 10 ++ [repeat 1 nY].
(** setParameters 117-134, parameters 94-114: parameter m of channel i is at i + m*n *)
Definition sgd_set (p : list R) (st : list (list R)) : outcome (list (list R)) :=
  for_ nY 0 (fun i st => for_ 11 0 (fun m st => do v <- rd p (i + m * nY); wr2 st m i v) st) st.
Definition sgd_get (st : list (list R)) : outcome (list R) :=
  for_ nY 0 (fun i out => for_ 11 0 (fun m out => do v <- rd2 st m i; wr out (i + m * nY) v) out) (repeat junk (11 * nY)).
(** parametersJacobian 138-150 *)
Definition sgd_jac : outcome (list R) :=
  for_ nY 0 (fun i jac => for_ (11 * nY) 0 (fun j jac => wr jac (i + j * nY) 0) jac) (repeat junk (nY * (11 * nY))).
(** Fresnel 153-160, D 162-178, G1 180-189; one_pi is the literal of line 20 *)
Definition one_pi : R := 31830988618 / 100000000000.
Definition sgd_fresnel (f0 f1 vh : R) : R := f0 - vh * f1 + (1 - f0) * (1 - vh) ^ 5.
Definition sgd_D (alpha p kap nh : R) : R :=
  let cos2 := nh * nh in let tan2 := (1 - cos2) / cos2 in let ax := alpha + tan2 / alpha in
  exp (- ax) / cpow junk ax p * (one_pi / (cos2 * cos2)) * kap.
Definition sgd_G1 (c th0 k lambda z : R) : R :=
  1 + lambda * (1 - exp (c * cpow junk (Rmax (acos z - th0) 0) k)).
(** value 56-85, channel i *)
Definition sgd_value (st : list (list R)) (x : mem) : outcome (list R) :=
  let s i := x i + x (i + 3)%nat in
  let len := sqrt (s 0%nat * s 0%nat + s 1%nat * s 1%nat + s 2%nat * s 2%nat) in
  let h i := s i / len in
  let vh := x 3%nat * h 0%nat + x 4%nat * h 1%nat + x 5%nat * h 2%nat in
  let light := if rltb (x 2%nat) 0 then 0 else 1 in
  for_ nY 0 (fun i res =>
    do c <- chan 11 0 st i;
    let q m := nth m c 0 in
    wr res i (one_pi * light * (q 8%nat + q 9%nat * sgd_D (q 10%nat) (q 4%nat) (q 7%nat) (h 2%nat)
      * sgd_G1 (q 0%nat) (q 1%nat) (q 2%nat) (q 3%nat) (x 2%nat) * sgd_G1 (q 0%nat) (q 1%nat) (q 2%nat) (q 3%nat) (x 5%nat)
      * sgd_fresnel (q 5%nat) (q 6%nat) vh))) (repeat junk nY).
End Sgd.

(** ** Bounds on the parameters, per channel: getParametersMin and Max of each
    plugin (nonlinear_function_blinn/function.h:67-70, nonlinear_function_retroblinn/function.h:61-64, abc 76-87,
    beckmann 116-126, retrobeckmann 99-109, ward 95-106, schlick 147-160,
    retro_schlick 104-115, spherical_gaussian 135-165, shadowing_schlick 145-150,
    smith 199-204, walter_smith 245-256 with LOCAL_EPSILON 1e-6, yoo 76-86);
    [big] is the largest double, the default maximum (core/function.cpp:379-387) *)
Definition plugin_bounds (big old jp : R) : list (nlf * list R * list R) :=
  [ (blinn, [0; 0], [big; big]); (retroblinn jp, [0; 0], [big; big]); (abc, [0; 0; 0], [big; big; big]);
    (beckmann, [0; 0], [big; big]); (retrobeckmann true, [0; 0], [big; big]); (retrobeckmann false, [0; 0], [big; big]);
    (ward, [0; 0; 0], [big; big; big]); (schlick CARTESIAN, [0], [1]); (retro_schlick, [0], [1]);
    (spherical_gaussian Mirror, [0; 0], [big; big]); (spherical_gaussian Half, [0; 0], [big; big]);
    (spherical_gaussian Back, [0; 0], [big; big]); (spherical_gaussian Retro, [0; 0], [big; big]);
    (shadowing_schlick, [0], [big]); (smith, [0], [big]); (walter_smith, [1 / 1000000], [big]); (yoo old, [0; 0], [big; big]) ].

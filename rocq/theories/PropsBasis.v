(** Properties C34, C35. *)
From Coq Require Import Reals List Arith Lia Lra.
From Coquelicot Require Import Coquelicot.
From Verif Require Import Base Num ParamsModel GeoModel MonoModel RatModel RatSpec BasisModel BasisSpec BasisProofs.
Open Scope R_scope.

(** * C34: Chebyshev *)

(** The basis function of degree n is the Chebyshev polynomial, inside [-1,1]
    (where a cosine is computed) and outside (where closed forms and a
    recurrence are used). *)
Theorem C34_basis_is_chebyshev : forall x n, chebychev x n = cheb n x.
Proof. exact chebychev_cheb. Qed.
Print Assumptions C34_basis_is_chebyshev.

(** ... which is a polynomial of degree n, with T_n(cos t) = cos(n t). *)
Theorem C34_chebyshev_polynomials : forall n, of_degree n (cheb n) /\ forall t, cheb n (cos t) = cos (INR n * t).
Proof. intros n. split; [apply cheb_degree|intros; apply cheb_cos]. Qed.
Print Assumptions C34_chebyshev_polynomials.

(** A rational function of the plugin evaluates the quotient of the two
    Chebyshev expansions of its coefficients, in any number of inputs and for
    any number of coefficients. *)
Theorem C34_value : forall r x, (0 < r_dim r)%nat -> domain_ok (r_dim r) (r_min r) (r_max r) -> length x = r_dim r ->
  value_chebychev r x =
  Ok (expansion cheb (r_dim r) (r_min r) (r_max r) (getP r) x / expansion cheb (r_dim r) (r_min r) (r_max r) (getQ r) x).
Proof. intros. apply value_with_spec; auto using chebychev_cheb. Qed.
Print Assumptions C34_value.

Example C34_case : chebychev 2 5 = 362 /\ chebychev (1 / 2) 4 = - (1 / 2) /\
  (forall x, value_chebychev (mkRf1 1 [0] [2] [mkCoeff 0 []; mkCoeff 0 []; mkCoeff 1 []] [mkCoeff 2 []]) [x] = Ok ((2 * (x - 1) ^ 2 - 1) / 2)).
Proof.
  split; [rewrite C34_basis_is_chebyshev; cbn; ring|]. split; [rewrite C34_basis_is_chebyshev; cbn; field|]. intros x.
  rewrite C34_value; [|cbn; lia|split; [reflexivity|split; [reflexivity|repeat constructor; cbn; lra]]|reflexivity].
  f_equal. unfold expansion. cbn. unfold rescaled. field.
Qed.

(** * C35: Legendre *)

(** Both implementations of the basis, the plain recurrence and the one with
    the first eight polynomials hard coded, are the Legendre polynomials ... *)
Theorem C35_basis_is_legendre : forall x n, legendre x n = leg n x /\ legendre_cos x n = leg n x.
Proof. intros x n. split; [apply legendre_leg|apply legendre_cos_leg]. Qed.
Print Assumptions C35_basis_is_legendre.

(** ... the polynomials of each degree that are one at 1 and orthogonal on
    [-1,1], with squared norm 2/(2n+1). *)
Theorem C35_legendre_polynomials : forall n, of_degree n (leg n) /\ leg n 1 = 1 /\
  (forall m, n <> m -> is_RInt (fun x => leg n x * leg m x) (-1) 1 0) /\
  is_RInt (fun x => leg n x * leg n x) (-1) 1 (2 / (2 * INR n + 1)).
Proof. intros n. split; [apply leg_degree|]. split; [apply leg_1|]. split; [intros; apply leg_orthogonal; assumption|apply leg_norm]. Qed.
Print Assumptions C35_legendre_polynomials.

(** The Legendre plugin evaluates the quotient of the two expansions. *)
Theorem C35_value : forall r x, (0 < r_dim r)%nat -> domain_ok (r_dim r) (r_min r) (r_max r) -> length x = r_dim r ->
  value_legendre r x =
  Ok (expansion leg (r_dim r) (r_min r) (r_max r) (getP r) x / expansion leg (r_dim r) (r_min r) (r_max r) (getQ r) x).
Proof. intros. apply value_with_spec; auto using legendre_leg. Qed.
Print Assumptions C35_value.

(** The cosine plugin multiplies it by the heights of the two directions, that
    is cos(theta_l) cos(theta_v), whenever the parametrization is known. *)
Theorem C35_cosine_weighted_value : forall ip cart r x, (0 < r_dim r)%nat -> domain_ok (r_dim r) (r_min r) (r_max r) -> length x = r_dim r ->
  value_cosine UNKNOWN_INPUT cart r x =
    Ok (expansion leg (r_dim r) (r_min r) (r_max r) (getP r) x / expansion leg (r_dim r) (r_min r) (r_max r) (getQ r) x) /\
  (ip <> UNKNOWN_INPUT -> forall c, convert (fun k => nth k x 0) ip CARTESIAN cart = Ok c ->
   value_cosine ip cart r x =
    Ok (c 2%nat * c 5%nat * expansion leg (r_dim r) (r_min r) (r_max r) (getP r) x / expansion leg (r_dim r) (r_min r) (r_max r) (getQ r) x)).
Proof. intros. split; [apply value_cosine_unknown|intros; apply value_cosine_spec]; assumption. Qed.
Print Assumptions C35_cosine_weighted_value.

(** The channels of the three plugins are made on demand, on the function's
    domain with its flat sides widened by one each way. *)
Theorem C35_channels : forall junk f i, length (f_rs f) = f_dimY f -> length (f_min f) = f_dimX f -> length (f_max f) = f_dimX f ->
  ((i < f_dimY f)%nat -> exists r f', get_one junk f i = Ok (Some r, f') /\ get_one junk f' i = Ok (Some r, f') /\
     (forall j, j <> i -> nth_error (f_rs f') j = nth_error (f_rs f) j) /\
     (nth_error (f_rs f) i = Some None -> (0 < f_dimX f)%nat -> well_formed r /\ r_dim r = f_dimX f /\
        length (r_p r) = f_np f /\ length (r_q r) = f_nq f /\ widened 1 (f_min f) (f_max f) (r_min r) (r_max r))) /\
  ((f_dimY f <= i)%nat -> get_one junk f i = Ok (None, f)).
Proof. exact get_one_spec. Qed.
Print Assumptions C35_channels.

Example C35_case : legendre (1 / 2) 3 = - (7 / 16) /\ legendre_cos (1 / 2) 8 = legendre (1 / 2) 8 /\
  is_RInt (fun x => leg 2 x * leg 2 x) (-1) 1 (2 / 5).
Proof.
  split; [rewrite (proj1 (C35_basis_is_legendre _ _)); cbn; field|]. split; [rewrite !(proj1 (C35_basis_is_legendre _ _)), (proj2 (C35_basis_is_legendre _ _)); reflexivity|].
  replace (2 / 5) with (2 / (2 * INR 2 + 1)) by (cbn; field). apply C35_legendre_polynomials.
Qed.
(** the constant 3, the light at height 1/2 and the view at height 1 *)
Example C35_case_cosine :
  value_cosine CARTESIAN (fun _ => 9) (mkRf1 6 [0; 0; 0; 0; 0; 0] [2; 2; 2; 2; 2; 2] [mkCoeff 3 []] [mkCoeff 1 []]) [1; 2; 1; 0; 0; 1 / 2] = Ok (3 / 2).
Proof.
  assert (E : Z.to_nat (dimension_in CARTESIAN) = 6%nat) by reflexivity.
  destruct (C35_cosine_weighted_value CARTESIAN (fun _ => 9) (mkRf1 6 [0; 0; 0; 0; 0; 0] [2; 2; 2; 2; 2; 2] [mkCoeff 3 []] [mkCoeff 1 []]) [1; 2; 1; 0; 0; 1 / 2]) as [_ H].
  - cbn; lia.
  - split; [reflexivity|split; [reflexivity|repeat constructor; cbn; lra]].
  - reflexivity.
  - erewrite H; [|discriminate|unfold convert; cbn [input_eqb]; reflexivity]. rewrite E. unfold copy, expansion. cbn. f_equal. field.
Qed.

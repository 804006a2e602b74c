(** Properties C31, C32, C33. *)
From Coq Require Import Reals List Arith Lia Lra.
From Verif Require Import Base Num ParamsModel GeoModel ArgsModel DataModel TextModel TextProofs TextRound FuncModel FuncFile FuncFileSpec MonoModel MonoSpec MonoProofs RatModel RatSpec RatProofs RatFile.

(** * C31: the enumeration of monomials *)
Open Scope nat_scope.

(** Every index gives an exponent per input; every vector of exponents has
    exactly one index. *)
Theorem C31_every_monomial_once : forall d v, 0 < d ->
  (forall i, length (index2degree d i) = d) /\
  (length v = d -> exists i, index2degree d i = v /\ forall j, index2degree d j = v -> j = i).
Proof.
  intros d v H. split; [intros; apply index2degree_length; assumption|]. intros L. destruct (index2degree_onto d v H L) as (i & E).
  exists i. split; [assumption|]. intros j Ej. apply (index2degree_inj d); congruence.
Qed.
Print Assumptions C31_every_monomial_once.

(** Indices follow the total degree and, inside a degree, the exponents of the
    last inputs. *)
Theorem C31_graded_order : forall d i j, 0 < d -> i < j -> before (index2degree d i) (index2degree d j).
Proof. exact index2degree_before. Qed.
Print Assumptions C31_graded_order.

(** The monomials of total degree k occupy consecutive indices, and their
    number, a binomial coefficient, is what the library computes. *)
Theorem C31_degree_blocks : forall d k, 0 < d ->
  estimate_dk d k = binomial (k + (d - 1)) (d - 1) /\
  exists lo, forall i, degree (index2degree d i) = k <-> lo <= i < lo + estimate_dk d k.
Proof. intros d k H. split; [apply estimate_binomial|apply degree_block]; assumption. Qed.
Print Assumptions C31_degree_blocks.

Example C31_case : map (index2degree 3) (seq 0 11) =
  [[0;0;0]; [1;0;0]; [0;1;0]; [0;0;1]; [2;0;0]; [1;1;0]; [0;2;0]; [1;0;1]; [0;1;1]; [0;0;2]; [3;0;0]] /\
  estimate_dk 4 2 = 10.
Proof. split; reflexivity. Qed.

Open Scope R_scope.

(** * C32: evaluation *)

(** A new function of nX inputs given np and nq coefficients evaluates, at
    every point where the denominator it was given does not vanish, to the
    quotient of the two polynomials; when the constant of the denominator is
    away from zero all coefficients are divided by it. *)
Theorem C32_update_preserves_the_quotient : forall junk nX mn mx a b_0 b, (0 < nX)%nat -> domain_ok nX mn mx ->
  exists r, update junk (set_domain (new_rf1 junk nX (length a) (length (b_0 :: b))) mn mx) a (b_0 :: b) = Ok r /\
    well_formed r /\ r_dim r = nX /\ r_min r = mn /\ r_max r = mx /\
    (1 / 10 ^ 16 < Rabs b_0 -> getP r = map (fun t => t / b_0) a /\ getQ r = 1 :: map (fun t => t / b_0) b) /\
    (Rabs b_0 <= 1 / 10 ^ 16 -> getP r = a /\ getQ r = b_0 :: b) /\
    forall x, length x = nX -> polynomial nX mn mx (b_0 :: b) x <> 0 ->
      value1 r x = Ok (polynomial nX mn mx a x / polynomial nX mn mx (b_0 :: b) x).
Proof.
  intros junk nX mn mx a b_0 b H D. destruct (new_wf junk nX (length a) (length (b_0 :: b)) mn mx H D) as (W & E1 & E2 & E3 & E4 & E5).
  destruct (update_spec junk _ a b_0 b W (eq_sym E2) (eq_sym E3)) as (r & U & W' & F1 & F2 & F3 & G1 & G2 & V).
  exists r. rewrite F1, F2, F3, E1, E4, E5 in *. auto 10.
Qed.
Print Assumptions C32_update_preserves_the_quotient.

(** The same on any well formed function, with the same sizes. *)
Theorem C32_update_again : forall junk r a b_0 b, well_formed r -> length a = length (r_p r) -> length (b_0 :: b) = length (r_q r) ->
  exists r', update junk r a (b_0 :: b) = Ok r' /\ well_formed r' /\ r_dim r' = r_dim r /\ r_min r' = r_min r /\ r_max r' = r_max r /\
    (1 / 10 ^ 16 < Rabs b_0 -> getP r' = map (fun t => t / b_0) a /\ getQ r' = 1 :: map (fun t => t / b_0) b) /\
    (Rabs b_0 <= 1 / 10 ^ 16 -> getP r' = a /\ getQ r' = b_0 :: b) /\
    (forall x, length x = r_dim r -> polynomial (r_dim r) (r_min r) (r_max r) (b_0 :: b) x <> 0 ->
      value1 r' x = Ok (polynomial (r_dim r) (r_min r) (r_max r) a x / polynomial (r_dim r) (r_min r) (r_max r) (b_0 :: b) x)).
Proof. exact update_spec. Qed.
Print Assumptions C32_update_again.

(** Two proportional sets of coefficients are the same function. *)
Theorem C32_scaling : forall junk r a b k x, well_formed r -> length a = length (r_p r) -> length b = length (r_q r) -> b <> [] -> k <> 0 ->
  length x = r_dim r -> polynomial (r_dim r) (r_min r) (r_max r) b x <> 0 ->
  exists r1 r2 v, update junk r a b = Ok r1 /\ update junk r (map (fun t => t / k) a) (map (fun t => t / k) b) = Ok r2 /\
    value1 r1 x = Ok v /\ value1 r2 x = Ok v.
Proof. exact update_scale. Qed.
Print Assumptions C32_scaling.

(** Copying another function copies its coefficients, not its domain. *)
Theorem C32_copy : forall junk r s, well_formed r -> well_formed s -> r_dim s = r_dim r ->
  exists r', update_from junk r s = Ok r' /\ well_formed r' /\ r_dim r' = r_dim r /\ r_min r' = r_min r /\ r_max r' = r_max r /\
    getP r' = getP s /\ getQ r' = getQ s.
Proof. exact update_from_spec. Qed.
Print Assumptions C32_copy.

(** update with more coefficients than the function was created with gives a
    function that reads exponents nobody wrote. *)
Theorem C32_growing_update_refuted : forall junk r a b x, well_formed r -> (length (r_p r) < length a)%nat -> b <> [] -> length x = r_dim r ->
  exists r', update junk r a b = Ok r' /\ value1 r' x = UB.
Proof. exact update_grow. Qed.
Print Assumptions C32_growing_update_refuted.

(** The separate numerator and denominator p(x) and q(x) are off by whatever
    their uninitialised accumulator held. *)
Theorem C32_numerator_and_denominator_refuted : forall junk r x, well_formed r -> length x = r_dim r ->
  p_value junk r x = Ok (junk + polynomial (r_dim r) (r_min r) (r_max r) (getP r) x) /\
  q_value junk r x = Ok (junk + polynomial (r_dim r) (r_min r) (r_max r) (getQ r) x).
Proof. exact p_q_value. Qed.
Print Assumptions C32_numerator_and_denominator_refuted.

(** The channels of a function of several outputs are made on demand, on the
    function's domain with its flat sides widened by 1/10 each way; asking again
    gives the same channel and does not disturb the others. *)
Theorem C32_channels : forall junk f i, length (f_rs f) = f_dimY f -> length (f_min f) = f_dimX f -> length (f_max f) = f_dimX f ->
  ((i < f_dimY f)%nat -> exists r f', get junk f i = Ok (Some r, f') /\ get junk f' i = Ok (Some r, f') /\
     (forall j, j <> i -> nth_error (f_rs f') j = nth_error (f_rs f) j) /\
     (nth_error (f_rs f) i = Some None -> (0 < f_dimX f)%nat -> well_formed r /\ r_dim r = f_dimX f /\
        length (r_p r) = f_np f /\ length (r_q r) = f_nq f /\ widened (1 / 10) (f_min f) (f_max f) (r_min r) (r_max r))) /\
  ((f_dimY f <= i)%nat -> get junk f i = Ok (None, f)).
Proof.
  intros junk f i Hl Hm HM. split; [|apply get_out_of_range]. intros Hi. destruct (get_spec junk f i Hi Hl Hm HM) as (r & f' & E & E' & O & _).
  exists r, f'. do 3 (split; [assumption|]). intros Hn Hd. destruct (get_fresh junk f i Hi Hn Hm HM Hd) as (r2 & f2 & E2 & R1 & R2 & R3 & R4 & R5).
  rewrite E in E2. injection E2 as <- <-. repeat (split; [assumption|]). pose proof (inflate_widened (f_min f) (f_max f) ltac:(congruence)) as Wd. rewrite <- R5 in Wd. exact Wd.
Qed.
Print Assumptions C32_channels.

(** A channel that was never asked for is a null pointer for the evaluation. *)
Theorem C32_missing_channel_refuted : forall f i x, (i < f_dimY f)%nat -> nth_error (f_rs f) i = Some None ->
  (forall j, (j < i)%nat -> exists r, nth_error (f_rs f) j = Some (Some r) /\ exists v, value1 r x = Ok v) -> value_rf f x = UB.
Proof. exact value_missing_channel. Qed.
Print Assumptions C32_missing_channel_refuted.

(** (2 + 4 s + 6 t) / (2 + s) on [0,2]x[0,4], where s = x-1 and t = y/2-1 *)
Example C32_case : exists r, update 0 (set_domain (new_rf1 0 2 3 2) [0; 0] [2; 4]) [2; 4; 6] [2; 1] = Ok r /\
  getP r = [1; 2; 3] /\ getQ r = [1; 1 / 2] /\ value1 r [2; 4] = Ok 4.
Proof.
  assert (D : domain_ok 2 [0; 0] [2; 4]) by (split; [reflexivity|split; [reflexivity|repeat constructor; lra]]).
  destruct (C32_update_preserves_the_quotient 0 2 [0; 0] [2; 4] [2; 4; 6] 2 [1] ltac:(lia) D) as (r & U & W & E1 & E2 & E3 & G & _ & V).
  exists r. split; [exact U|]. destruct G as [G1 G2].
  { rewrite Rabs_right by lra. apply (Rmult_lt_reg_r (10 ^ 16)); [apply pow_lt; lra|]. unfold Rdiv. rewrite Rmult_assoc, Rinv_l by (apply pow_nonzero; lra). lra. }
  rewrite G1, G2. cbn [map]. split; [repeat f_equal; lra|]. split; [reflexivity|].
  assert (M : index2degree 2 0 = [0; 0]%nat /\ index2degree 2 1 = [1; 0]%nat /\ index2degree 2 2 = [0; 1]%nat) by (repeat split).
  rewrite V; [|reflexivity|]; unfold polynomial; cbn [polynomial_from]; destruct M as (M1 & M2 & M3); rewrite ?M1, ?M2, ?M3;
    cbn [monomial pow]; unfold rescaled; [f_equal; field|lra].
Qed.
(** a flat side is widened, two channels out of three exist *)
Example C32_case_channels : exists r f', get 0 (new_rf 1 3 2 2) 1 = Ok (Some r, f') /\ r_min r = [0 - 1 / 10] /\ r_max r = [0 + 1 / 10] /\ value_rf f' [0] = UB.
Proof.
  destruct (C32_channels 0 (new_rf 1 3 2 2) 1 eq_refl eq_refl eq_refl) as [H _]. destruct (H ltac:(cbn; lia)) as (r & f' & E & _ & O & D).
  destruct (D eq_refl ltac:(cbn; lia)) as (W & _ & _ & _ & L1 & L2 & I). cbn [new_rf f_min f_max repeat] in L1, L2, I.
  destruct (I 0%nat 0 0 eq_refl eq_refl) as [_ I0]. destruct (I0 eq_refl) as [I1 I2].
  assert (X : forall (l : list R) a, length l = 1%nat -> nth_error l 0 = Some a -> l = [a]) by (intros [|y [|]] a La; try discriminate; intros [= ->]; reflexivity).
  exists r, f'. repeat split; try (apply X; assumption); try assumption.
  unfold get in E. cbn [new_rf f_dimY f_rs repeat nth_error Nat.ltb Nat.leb f_dimX f_min f_max length orb inflate] in E. destruct (Req_EM_T 0 0); [|congruence]. injection E as <- <-.
  apply (C32_missing_channel_refuted _ 0); [cbn; lia|reflexivity|lia].
Qed.

(** * C33: files *)

(** What save writes for a function all of whose channels exist and are
    normalised, loaded into a new function of the same dimensions, restores
    the bounds and every coefficient with its exponents, up to the printing of
    the numbers; the channels' domains are derived from the bounds. *)
Theorem C33_save_then_load : forall junk lex print rnd, prints lex print rnd -> forall f channels np nq w post, rnd 1 = 1 -> newlines w ->
  (0 < f_dimX f)%nat -> length (f_min f) = f_dimX f -> length (f_max f) = f_dimX f ->
  f_rs f = map Some channels -> length channels = f_dimY f -> Forall (channel_ok (f_dimX f)) channels ->
  exists t, save_rf print f = Ok t /\ exists w', spaces w' /\
    load_rf junk lex (new_rf (f_dimX f) (f_dimY f) np nq) (good_stream (w ++ t ++ post)) =
    Ok (true, mkRf (f_dimX f) (f_dimY f) (map rnd (f_min f)) (map rnd (f_max f)) np nq
          (map (fun s => Some (mkRf1 (f_dimX f) (fst (inflate (map rnd (f_min f)) (map rnd (f_max f)))) (snd (inflate (map rnd (f_min f)) (map rnd (f_max f))))
                 (round_coeffs rnd (r_p s)) (round_coeffs rnd (r_q s)))) channels),
        good_stream (w' ++ post)).
Proof. exact load_save_rf. Qed.
Print Assumptions C33_save_then_load.

(** So when every number prints exactly and the channels were made from the
    function's bounds, the loaded function evaluates alike everywhere. *)
Theorem C33_loaded_function_is_the_same : forall junk lex print rnd, prints lex print rnd -> forall f channels np nq, rnd 1 = 1 ->
  (0 < f_dimX f)%nat -> length (f_min f) = f_dimX f -> length (f_max f) = f_dimX f ->
  f_rs f = map Some channels -> length channels = f_dimY f -> Forall (channel_ok (f_dimX f)) channels ->
  Forall (fun s => (r_min s, r_max s) = inflate (f_min f) (f_max f)) channels ->
  map rnd (f_min f) = f_min f -> map rnd (f_max f) = f_max f -> Forall (fun s => map rnd (getP s) = getP s /\ map rnd (getQ s) = getQ s) channels ->
  exists t f' s', save_rf print f = Ok t /\ load_rf junk lex (new_rf (f_dimX f) (f_dimY f) np nq) (good_stream t) = Ok (true, f', s') /\
    f_rs f' = f_rs f /\ f_min f' = f_min f /\ f_max f' = f_max f /\ forall x, value_rf f' x = value_rf f x.
Proof.
  intros junk lex print rnd HP f channels np nq R1 Hd Hm HM Er Hl HF HD Em EM HR.
  destruct (C33_save_then_load junk lex print rnd HP f channels np nq [] [] R1 (Forall_nil _) Hd Hm HM Er Hl HF) as (t & S & w' & _ & L).
  rewrite app_nil_r in L. cbn [app] in L. exists t. eexists. eexists. split; [exact S|]. split; [exact L|]. cbn [f_rs f_min f_max f_dimY].
  rewrite Em, EM. assert (E : map (fun s => Some (mkRf1 (f_dimX f) (fst (inflate (f_min f) (f_max f))) (snd (inflate (f_min f) (f_max f))) (round_coeffs rnd (r_p s)) (round_coeffs rnd (r_q s)))) channels = f_rs f).
  { rewrite Er. apply map_ext_in. intros s Hs. rewrite Forall_forall in *. destruct (HF s Hs) as (A & _). specialize (HD s Hs). destruct (HR s Hs) as [B C].
    rewrite <- HD. cbn [fst snd]. f_equal. destruct s as [d mn mx p q]. cbn [r_dim r_min r_max r_p r_q] in *. subst d. unfold getP, getQ in B, C. cbn [r_p r_q] in B, C.
    f_equal; apply coeffs_eq; unfold round_coeffs; rewrite ?map_map in *; cbn; auto. }
  split; [exact E|]. split; [reflexivity|]. split; [reflexivity|]. intros x. unfold value_rf. cbn [f_rs f_dimY]. rewrite Em, EM in *. rewrite E. reflexivity.
Qed.
Print Assumptions C33_loaded_function_is_the_same.

(** Loading into a function whose channels exist keeps the old domains: bounds
    set afterwards (as load does) do not reach a channel already made. *)
Theorem C33_existing_channels_keep_their_domain_refuted : forall junk f i r mn mx, (i < f_dimY f)%nat -> nth_error (f_rs f) i = Some (Some r) ->
  exists f', get junk (set_max (set_min f mn) mx) i = Ok (Some r, f').
Proof. intros junk f i r mn mx Hi E. eexists. unfold get. cbn [set_max set_min f_dimY f_rs]. rewrite (proj2 (Nat.ltb_lt _ _) Hi), E. reflexivity. Qed.
Print Assumptions C33_existing_channels_keep_their_domain_refuted.

Definition rat_channel (a b c : R) := mkRf1 1 [0] [2] [mkCoeff a [0%nat]; mkCoeff b [1%nat]] [mkCoeff 1 [0%nat]; mkCoeff c [1%nat]].
Definition rat_function := mkRf 1 2 [0] [2] 2 2 [Some (rat_channel 3 4 5); Some (rat_channel 6 (-7) 8)].
Example C33_case : exists t f' s', save_rf demo_print rat_function = Ok t /\
  load_rf 0 demo_lex (new_rf 1 2 1 1) (good_stream t) = Ok (true, f', s') /\ f_rs f' = f_rs rat_function.
Proof.
  assert (E : forall z, IZR (Int_part (IZR z)) = IZR z).
  { intros z. unfold Int_part. rewrite <- (up_tech (IZR z) z); [f_equal; lia|lra|]. rewrite plus_IZR. lra. }
  destruct (C33_loaded_function_is_the_same 0 demo_lex demo_print _ demo_prints rat_function [rat_channel 3 4 5; rat_channel 6 (-7) 8] 1 1) as (t & f' & s' & A & B & C & _);
    try reflexivity; try (cbn; rewrite !E; reflexivity); try (cbn; lia).
  - repeat constructor; eexists; reflexivity.
  - cbn. destruct (Req_EM_T 0 2); [lra|]. repeat constructor.
  - repeat constructor; cbn; rewrite !E; reflexivity.
  - exists t, f', s'. auto.
Qed.

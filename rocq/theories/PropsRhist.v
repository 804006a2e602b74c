(** C124: the history of a rational function; C125: its text on a stream.
    The calls of a history are listed latest first. *)
From Coq Require Import Reals List Lia Lra Arith Ascii String.
From Verif Require Import Base Num ParamsModel GeoModel ArgsModel DataModel TextModel TextRound FuncModel FuncFile FuncFileSpec FuncFileProofs MonoModel MonoSpec MonoProofs RatModel RatSpec RatProofs RatFile PropsRat
  RhistModel RhistSpec RhistProofs RhistProofs2 RhistProofs3 RhistProofs4 RhistProofs5.
Import ListNotations.
Open Scope list_scope.
Open Scope R_scope.

(** * C124 *)

(** Any sequence of calls with vectors of the right lengths succeeds.  The bounds
    of the function are those set last.  A channel is there when it was asked for
    since it was last dropped; it has the sizes asked for and the bounds set (flat
    sides widened by 1/10) when it was first asked for, and represents the
    quotient given last. *)
Theorem C124_history : forall junk dx dy np nq past, (0 < dx)%nat -> calls_ok dx dy (np, nq) past ->
  exists f, run junk (new_rf dx dy np nq) (rev past) = Ok f /\
    f_dimX f = dx /\ f_dimY f = outputs dy past /\ f_min f = last_min dx past /\ f_max f = last_max dx past /\ length (f_rs f) = outputs dy past /\
    forall i, (i < outputs dy past)%nat ->
      match made dy i past with
      | None => nth_error (f_rs f) i = Some None
      | Some m => exists r, nth_error (f_rs f) i = Some (Some r) /\
          (length (r_p r), length (r_q r)) = sizes (np, nq) m /\
          widened (1 / 10) (last_min dx m) (last_max dx m) (r_min r) (r_max r) /\
          forall a b x, given i past = Some (a, b) -> length x = dx -> polynomial dx (r_min r) (r_max r) b x <> 0 ->
            value1 r x = Ok (polynomial dx (r_min r) (r_max r) a x / polynomial dx (r_min r) (r_max r) b x)
      end.
Proof.
  intros junk dx dy np nq past Hdx H. destruct (run_represents junk dx dy np nq Hdx past H) as (f & E & R). exists f. split; [exact E|].
  pose proof R as (A & B & C & D & _ & F & G). do 5 (split; [assumption|]). intros i Hi. specialize (G i Hi). destruct (made dy i past) as [m|] eqn:Em; [|exact G].
  destruct G as (r & Er & (Wf & Dr & Sz & Bx & Nm)). exists r. split; [exact Er|]. split; [exact Sz|].
  destruct (last_lengths dx dy np nq m (made_calls dx dy np nq i past m H Em)) as [L1 L2].
  pose proof (inflate_widened (last_min dx m) (last_max dx m) ltac:(congruence)) as W. rewrite <- Bx in W. split; [exact W|].
  intros a b x Eg Hx Nz. rewrite Eg in Nm. destruct b as [|b_0 b]; [destruct Nm|]. destruct Nm as (_ & _ & V). rewrite Dr in V. apply V; assumption.
Qed.
Print Assumptions C124_history.

(** The value is the quotient of what was given last to each channel, on the
    bounds the channel was made for. *)
Theorem C124_value : forall junk dx dy np nq past f x ys, (0 < dx)%nat -> calls_ok dx dy (np, nq) past ->
  run junk (new_rf dx dy np nq) (rev past) = Ok f -> length x = dx -> length ys = outputs dy past ->
  (forall i, (i < outputs dy past)%nat -> exists m a b mn mx, made dy i past = Some m /\ given i past = Some (a, b) /\
     widened (1 / 10) (last_min dx m) (last_max dx m) mn mx /\ polynomial dx mn mx b x <> 0 /\
     nth_error ys i = Some (polynomial dx mn mx a x / polynomial dx mn mx b x)) ->
  value_rf f x = Ok ys.
Proof.
  intros junk dx dy np nq past f x ys Hdx H E Hx Hl HY. destruct (run_represents junk dx dy np nq Hdx past H) as (f' & E' & R). rewrite E in E'. apply Ok_inj in E'. subst f'.
  exact (value_history dx dy np nq Hdx past x ys f H R Hx Hl HY).
Qed.
Print Assumptions C124_value.

(** A function some channel of which was not asked for dereferences a null
    pointer when evaluated, and its file cannot be loaded. *)
Theorem C124_missing_channel : forall junk dx dy np nq past f x i, (0 < dx)%nat -> calls_ok dx dy (np, nq) past ->
  run junk (new_rf dx dy np nq) (rev past) = Ok f -> length x = dx -> (i < outputs dy past)%nat -> made dy i past = None -> value_rf f x = UB.
Proof.
  intros junk dx dy np nq past f x i Hdx H E Hx Hi Em. destruct (run_represents junk dx dy np nq Hdx past H) as (f' & E' & R). rewrite E in E'. apply Ok_inj in E'. subst f'.
  exact (value_missing dx dy np nq Hdx past x i f H R Hx Hi Em).
Qed.
Print Assumptions C124_missing_channel.

Theorem C124_missing_channel_file : forall junk lex print rnd, prints lex print rnd -> rnd 1 = 1 ->
  forall dx dy np nq past f np' nq' i, (0 < dx)%nat -> calls_ok dx dy (np, nq) past -> usable dy past ->
  run junk (new_rf dx dy np nq) (rev past) = Ok f -> (i < outputs dy past)%nat -> made dy i past = None ->
  exists t f' s', save_rf print f = Ok t /\ load_rf junk lex (new_rf dx (outputs dy past) np' nq') (good_stream t) = Ok (false, f', s').
Proof.
  intros junk lex print rnd HP R1 dx dy np nq past f np' nq' i Hdx H U E Hi Em. destruct (run_represents junk dx dy np nq Hdx past H) as (f' & E' & R). rewrite E in E'. apply Ok_inj in E'. subst f'.
  exact (missing_file junk lex print rnd HP dx dy np nq Hdx R1 past f np' nq' i H R U Hi Em).
Qed.
Print Assumptions C124_missing_channel_file.

(** Bounds set when the channels are there do not change the function. *)
Theorem C124_late_bounds : forall junk f v g x, run junk f [SetMin v] = Ok g \/ run junk f [SetMax v] = Ok g -> value_rf g x = value_rf f x.
Proof. intros junk f v g x [E|E]; cbn in E; apply Ok_inj in E; subst g; reflexivity. Qed.
Print Assumptions C124_late_bounds.

(** But they are the bounds of the file: the function loaded from it has the
    coefficients given last, on the bounds set last. *)
Theorem C124_reload : forall junk lex print rnd, prints lex print rnd -> (forall v, rnd v = v) ->
  forall dx dy np nq past f np' nq', (0 < dx)%nat -> calls_ok dx dy (np, nq) past -> usable dy past ->
  run junk (new_rf dx dy np nq) (rev past) = Ok f -> (forall i, (i < outputs dy past)%nat -> made dy i past <> None) ->
  exists t f' s', save_rf print f = Ok t /\ load_rf junk lex (new_rf dx (outputs dy past) np' nq') (good_stream t) = Ok (true, f', s') /\
    f_min f' = last_min dx past /\ f_max f' = last_max dx past /\
    forall x ys, length x = dx -> length ys = outputs dy past ->
      (forall i a b mn mx, (i < outputs dy past)%nat -> given i past = Some (a, b) -> widened (1 / 10) (last_min dx past) (last_max dx past) mn mx ->
         polynomial dx mn mx b x <> 0 /\ nth_error ys i = Some (polynomial dx mn mx a x / polynomial dx mn mx b x)) ->
      value_rf f' x = Ok ys.
Proof.
  intros junk lex print rnd HP RI dx dy np nq past f np' nq' Hdx H U E Hall. destruct (run_represents junk dx dy np nq Hdx past H) as (f0 & E' & R). rewrite E in E'. apply Ok_inj in E'. subst f0.
  assert (MI : forall l, map rnd l = l) by (intros l; rewrite <- List.map_id; apply List.map_ext; exact RI).
  destruct (reload junk lex print rnd HP dx dy np nq Hdx (RI 1) past f np' nq' H R U Hall) as (t & f' & s' & S & L & Dy & M1 & M2 & Lr & C).
  exists t, f', s'. split; [exact S|]. split; [exact L|]. rewrite !MI in *. split; [exact M1|]. split; [exact M2|]. intros x ys Hx Hl HY.
  apply (reload_value dx dy np nq Hdx f' past x ys H Hx Hl Dy Lr) with (f := f); [|exact R|exact U|exact HY].
  intros f1 R' i Hi.
  (* channels of two functions that represent the same past agree on what is read *)
  destruct (C i Hi) as (r & r' & Er & Er' & Dr & Bx & P1 & Q1 & P & Q). rewrite !MI in *.
  destruct R as (_ & _ & _ & _ & _ & _ & G). destruct R' as (_ & _ & _ & _ & _ & _ & G'). specialize (G i Hi). specialize (G' i Hi).
  destruct (made dy i past) as [m|] eqn:Em; [|rewrite Er in G; discriminate]. destruct G as (ra & Ea & Wa & Da & Sa & _ & Na). destruct G' as (rb & Eb & Wb & Db & Sb & _ & Nb).
  rewrite Er in Ea. injection Ea as <-. exists rb, r'. split; [exact Eb|]. split; [exact Er'|]. split; [exact Dr|]. split; [exact Bx|].
  destruct (U i m Hi Em) as (a & b_0 & b & Eg & Hb). rewrite Eg in Na, Nb. destruct Na as (Na & _). destruct Nb as (Nb & _). destruct (Na Hb) as [Pa Qa]. destruct (Nb Hb) as [Pb Qb].
  rewrite <- Sb in Sa. injection Sa as S1 S2. destruct Wa as (_ & _ & Wp & Wq). destruct Wb as (_ & _ & Vp & Vq). unfold numbered in *.
  split; [rewrite P1, Wp, Vp, Da, Db, S1; reflexivity|]. split; [rewrite Q1, Wq, Vq, Da, Db, S2; reflexivity|]. split; congruence.
Qed.
Print Assumptions C124_reload.

(** So a function whose bounds are set again after its channels were made is not
    the function its file contains: here f(x) = x - 1 becomes 2 x - 3. *)
Theorem C124_reload_after_late_bounds_refuted : forall junk lex print rnd, prints lex print rnd -> (forall v, rnd v = v) ->
  exists past f t f' s', calls_ok 1 1 (2, 1)%nat past /\ run junk (new_rf 1 1 2 1) (rev past) = Ok f /\
    save_rf print f = Ok t /\ load_rf junk lex (new_rf 1 1 2 1) (good_stream t) = Ok (true, f', s') /\
    forall x, value_rf f [x] = Ok [x - 1] /\ value_rf f' [x] = Ok [2 * x - 3].
Proof.
  intros junk lex print rnd HP RI.
  set (past := [SetMin [1]; Update 0 [0; 1] [1]; SetMax [2]]).
  assert (H : calls_ok 1 1 (2, 1)%nat past) by (cbn; repeat split; try lia; discriminate).
  destruct (run_represents junk 1 1 2 1 ltac:(lia) past H) as (f & E & _).
  assert (U : usable 1 past).
  { intros i m Hi _. cbn in Hi. assert (i = 0)%nat as -> by lia. exists [0; 1], 1, []. split; [reflexivity|]. rewrite Rabs_R1. apply (Rmult_lt_reg_r (10 ^ 16)); [apply pow_lt; lra|]. unfold Rdiv. rewrite Rmult_assoc, Rinv_l by (apply pow_nonzero; lra). lra. }
  destruct (C124_reload junk lex print rnd HP RI 1 1 2 1 past f 2 1 ltac:(lia) H U E) as (t & f' & s' & S & L & _ & _ & V).
  { intros i Hi. cbn in Hi. assert (i = 0)%nat as -> by lia. discriminate. }
  exists past, f, t, f', s'. split; [exact H|]. split; [exact E|]. split; [exact S|]. split; [exact L|].
  assert (M : index2degree 1 0 = [0]%nat /\ index2degree 1 1 = [1]%nat) by (split; reflexivity). destruct M as [Ma Mb].
  assert (PO : forall lo hi x, polynomial 1 [lo] [hi] [0; 1] [x] = rescaled lo hi x).
  { intros lo hi x. unfold polynomial. cbn [polynomial_from]. rewrite Ma, Mb. cbn [monomial pow]. lra. }
  assert (W : forall lo hi mn mx, lo <> hi -> widened (1 / 10) [lo] [hi] mn mx -> mn = [lo] /\ mx = [hi]).
  { intros lo hi mn mx Hne (A & B & I). destruct (I 0%nat lo hi eq_refl eq_refl) as [I1 _]. destruct (I1 Hne) as [X Y].
    destruct mn as [|a [|]]; try discriminate. destruct mx as [|b [|]]; try discriminate. cbn in X, Y. split; congruence. }
  intros x. split.
  - apply (C124_value junk 1 1 2 1 past f [x] [x - 1] ltac:(lia) H E eq_refl eq_refl).
    intros i Hi. cbn in Hi. assert (i = 0)%nat as -> by lia.
    exists [SetMax [2]], [0; 1], [1], [0], [2]. split; [reflexivity|]. split; [reflexivity|]. split.
    { split; [reflexivity|]. split; [reflexivity|]. intros [|k] a b Ha Hb; cbn in Ha, Hb; [|destruct k; discriminate]. injection Ha as <-. injection Hb as <-. split; intros; [split; reflexivity|lra]. }
    assert (D : polynomial 1 [0] [2] [1] [x] = 1) by (unfold polynomial; cbn [polynomial_from]; rewrite Ma; cbn [monomial pow]; lra).
    rewrite D. split; [lra|]. cbn [nth_error]. f_equal. rewrite PO. unfold rescaled. field.
  - apply V; [reflexivity|reflexivity|]. intros i a b mn mx Hi Eg Wd. cbn in Hi. assert (i = 0)%nat as -> by lia. cbn in Eg. injection Eg as <- <-.
    cbn [last_min last_max past] in Wd. destruct (W 1 2 mn mx ltac:(lra) Wd) as [-> ->].
    assert (D : polynomial 1 [1] [2] [1] [x] = 1) by (unfold polynomial; cbn [polynomial_from]; rewrite Ma; cbn [monomial pow]; lra).
    rewrite D. split; [lra|]. cbn [nth_error]. f_equal. rewrite PO. unfold rescaled. field.
Qed.
Print Assumptions C124_reload_after_late_bounds_refuted.

(** update(g) gives each channel of f the coefficients of g's, on f's own bounds;
    the channels that g lacks are made. *)
Theorem C124_copy : forall junk f g, (0 < f_dimX f)%nat -> f_dimX g = f_dimX f -> f_dimY g = f_dimY f ->
  length (f_rs f) = f_dimY f -> length (f_rs g) = f_dimY g ->
  length (f_min f) = f_dimX f -> length (f_max f) = f_dimX f -> length (f_min g) = f_dimX f -> length (f_max g) = f_dimX f ->
  (forall i r, nth_error (f_rs f) i = Some (Some r) -> well_formed r /\ r_dim r = f_dimX f) ->
  (forall i r, nth_error (f_rs g) i = Some (Some r) -> well_formed r /\ r_dim r = f_dimX f) ->
  exists f' g', copy junk f g = Ok (f', g') /\ f_min f' = f_min f /\ f_max f' = f_max f /\
    forall i, (i < f_dimY f)%nat -> exists r s r', (exists f0, get junk f i = Ok (Some r, f0)) /\ (exists g0, get junk g i = Ok (Some s, g0)) /\
      nth_error (f_rs f') i = Some (Some r') /\ nth_error (f_rs g') i = Some (Some s) /\
      r_min r' = r_min r /\ r_max r' = r_max r /\ getP r' = getP s /\ getQ r' = getQ s /\
      forall x, length x = f_dimX f -> value1 r' x = Ok (polynomial (f_dimX f) (r_min r) (r_max r) (getP s) x / polynomial (f_dimX f) (r_min r) (r_max r) (getQ s) x).
Proof.
  intros junk f g Hd Dx Dy Lf Lg m1 m2 m3 m4 Wf Wg. unfold copy. rewrite Dx, Dy, !Nat.eqb_refl. cbn [andb].
  destruct (copy_channels_spec junk (f_dimX f) Hd (f_dimY f) 0 f g eq_refl Dx eq_refl Dy Lf Lg m1 m2 m3 m4 Wf Wg) as (f' & g' & E & M1 & M2 & _ & _ & _ & _ & H).
  exists f', g'. split; [exact E|]. split; [exact M1|]. split; [exact M2|]. intros i Hi. destruct (H i ltac:(lia)) as (r & s & r' & G1 & G2 & N1 & N2 & D & B1 & B2 & P & Q & W).
  exists r, s, r'. do 8 (split; [assumption|]). intros x Hx. rewrite (value1_spec r' x W ltac:(congruence)), D, B1, B2, P, Q. reflexivity.
Qed.
Print Assumptions C124_copy.

(** three channels asked for at different times, one dropped and asked for again *)
Definition history_demo : list call := rev
  [SetMin [0]; SetMax [4]; Update 0 [1; 2] [1; 1]; SetDimY 3; SetMax [5]; Get 2; SetDimY 2; SetDimY 3; SetMax [6]; Update 2 [3; 4] [1; 5]].
Example C124_case : calls_ok 1 1 (2, 2)%nat history_demo /\ outputs 1 history_demo = 3%nat /\
  made 1 0 history_demo = Some [SetMax [4]; SetMin [0]] /\ made 1 1 history_demo = None /\
  option_map (last_max 1) (made 1 2 history_demo) = Some [6] /\ given 2 history_demo = Some ([3; 4], [1; 5]).
Proof. cbn. repeat split; try lia; discriminate. Qed.
Example C124_case_runs : exists f, run 0 (new_rf 1 1 2 2) (rev history_demo) = Ok f /\ value_rf f [1] = UB.
Proof.
  destruct C124_case as (H & O & _ & M & _). destruct (C124_history 0 1 1 2 2 history_demo ltac:(lia) H) as (f & E & _). exists f. split; [exact E|].
  exact (C124_missing_channel 0 1 1 2 2 history_demo f [1] 1 ltac:(lia) H E eq_refl ltac:(lia) M).
Qed.

(** * C125 *)

(** A rational function sent to a stream other than the standard output leaves
    no coefficient in it: the text only says which channels exist. *)
Theorem C125_stream_refuted : forall print f g, f_dimY f = f_dimY g ->
  map (fun c => match c with Some _ => true | None => false end) (f_rs f) = map (fun c => match c with Some _ => true | None => false end) (f_rs g) ->
  arrives Stream (print_rf print f) = arrives Stream (print_rf print g).
Proof.
  intros print f g Dy. unfold print_rf. rewrite Dy. generalize 0%nat as i. generalize (f_dimY g) as n.
  assert (AP : forall d a b, arrives d (a ++ b) = arrives d a ++ arrives d b).
  { intros d a b. induction a as [|[e t] a IH]; [reflexivity|]. cbn [app arrives]. rewrite IH. destruct e; apply app_assoc. }
  assert (SE : forall v i, arrives Stream (separated print i v) = []).
  { induction v as [|x v IH]; intros i; [reflexivity|]. cbn [separated]. rewrite AP. cbn [arrives app]. rewrite IH. destruct (i =? 0)%nat; reflexivity. }
  assert (P1 : forall r, arrives Stream (print_1d print r) = []).
  { intros r. unfold print_1d. cbn [app arrives]. rewrite !AP. cbn [arrives app]. rewrite !AP, !SE. reflexivity. }
  intros n i. revert n i. generalize (f_rs g) as b. generalize (f_rs f) as a. induction a as [|c a IH]; intros [|d b] n i H; try discriminate; [reflexivity|].
  cbn [map] in H. injection H as Hc H. destruct n as [|n]; [reflexivity|]. cbn [firstn print_channels]. rewrite !AP. f_equal. f_equal; [|apply IH; exact H].
  destruct c, d; try discriminate; [|reflexivity]. rewrite !AP, !P1. reflexivity.
Qed.
Print Assumptions C125_stream_refuted.

(** Sent to the standard output, the text determines the number of channels,
    which of them exist and their coefficients as printed. *)
Theorem C125_standard_output : forall print, (forall x, print x <> [] /\ Forall (fun c => c <> ","%char /\ c <> "]"%char) (print x)) ->
  forall f g, length (f_rs f) = f_dimY f -> length (f_rs g) = f_dimY g -> arrives_all (print_rf print f) = arrives_all (print_rf print g) ->
  f_dimY f = f_dimY g /\
  forall i, option_map (option_map (fun r => (map print (getP r), map print (getQ r)))) (nth_error (f_rs f) i) =
            option_map (option_map (fun r => (map print (getP r), map print (getQ r)))) (nth_error (f_rs g) i).
Proof.
  intros print HP f g Lf Lg E. unfold print_rf in E. rewrite !firstn_all2 in E by lia. pose proof (channels_inj print HP (f_rs f) 0 (f_rs g) E) as M.
  split; [apply (f_equal (@length _)) in M; rewrite !map_length in M; congruence|].
  intros i. rewrite <- !nth_error_map. f_equal. exact M.
Qed.
Print Assumptions C125_standard_output.

(** (3 + 4 s) / (1 + 5 s) and a missing channel *)
Definition text_demo := mkRf 1 2 [0] [2] 2 2 [Some (rat_channel 3 4 5); None].
Definition show_demo (x : R) : str := if Req_EM_T x 3 then lit "3" else if Req_EM_T x 4 then lit "4" else if Req_EM_T x 5 then lit "5" else lit "1".
Example C125_case : arrives Stream (print_rf show_demo text_demo) = lit "dimension 0: " ++ endl [] ++ lit "dimension 1: [NULL]" ++ [nl] /\
  arrives Standard_output (print_rf show_demo text_demo) = lit "p = [3, 4]" ++ [nl] ++ lit "q = [1, 5]" ++ [nl].
Proof.
  assert (S : show_demo 3 = lit "3" /\ show_demo 4 = lit "4" /\ show_demo 5 = lit "5" /\ show_demo 1 = lit "1").
  { unfold show_demo. repeat split; repeat (destruct (Req_EM_T _ _); try lra; try reflexivity). }
  destruct S as (S3 & S4 & S5 & S1). unfold print_rf, text_demo. cbn [f_dimY f_rs firstn print_channels print_1d getP getQ rat_channel r_p r_q map co_a separated Nat.eqb app arrives].
  rewrite S3, S4, S5, S1. split; reflexivity.
Qed.

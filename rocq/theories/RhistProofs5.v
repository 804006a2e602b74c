(** Rational functions with a history: the values of a function loaded again (C124). *)
From Coq Require Import Reals List Lia Lra Arith Ascii.
From Verif Require Import Base Num ParamsModel GeoModel DataModel TextModel TextRound FuncModel FuncFile FuncFileProofs MonoModel RatModel RatSpec RatProofs RatFile RhistModel RhistSpec RhistProofs RhistProofs2 RhistProofs3.
Import ListNotations.
Open Scope R_scope.

Section V.
Variable junk : R.
Variables dx dy np nq : nat.
Hypothesis Hdx : (0 < dx)%nat.

Lemma reload_value f' past x ys : calls_ok dx dy (np, nq) past -> length x = dx -> length ys = outputs dy past -> f_dimY f' = outputs dy past -> length (f_rs f') = outputs dy past ->
  (forall f, represents dx dy np nq f past -> forall i, (i < outputs dy past)%nat -> exists r r', nth_error (f_rs f) i = Some (Some r) /\ nth_error (f_rs f') i = Some (Some r') /\
     r_dim r' = dx /\ (r_min r', r_max r') = inflate (last_min dx past) (last_max dx past) /\
     map co_deg (r_p r') = map co_deg (r_p r) /\ map co_deg (r_q r') = map co_deg (r_q r) /\ getP r' = getP r /\ getQ r' = getQ r) ->
  forall f, represents dx dy np nq f past -> usable dy past ->
  (forall i a b mn mx, (i < outputs dy past)%nat -> given i past = Some (a, b) -> widened (1 / 10) (last_min dx past) (last_max dx past) mn mx ->
     polynomial dx mn mx b x <> 0 /\ nth_error ys i = Some (polynomial dx mn mx a x / polynomial dx mn mx b x)) ->
  value_rf f' x = Ok ys.
Proof.
  intros Hok Hx Hl Dy Lr HC f R U H. pose proof (HC f R) as C. unfold value_rf. rewrite Dy, firstn_all2 by lia. apply value_channels_spec; [congruence|].
  intros i c Hi. assert (Li : (i < outputs dy past)%nat) by (rewrite <- Lr; apply nth_error_Some; congruence).
  destruct (C i Li) as (r & r' & Er & Er' & Dr & Bx & P1 & Q1 & P & Q). rewrite Er' in Hi. injection Hi as <-.
  destruct R as (_ & _ & _ & _ & _ & F & G). specialize (G i Li). destruct (made dy i past) as [m|] eqn:Em; [|rewrite Er in G; discriminate].
  destruct G as (r2 & Er2 & Wf & Dr2 & _ & _ & Nm). rewrite Er in Er2. injection Er2 as <-. destruct (U i m Li Em) as (a & b_0 & b & Eg & Hb). rewrite Eg in Nm. destruct Nm as (N1 & _). destruct (N1 Hb) as [GP GQ].
  destruct (last_lengths dx dy np nq past Hok) as [L1 L2].
  assert (S0 : b_0 <> 0). { intros ->. rewrite Rabs_R0 in Hb. assert (0 < 1 / 10 ^ 16) by (apply Rdiv_lt_0_compat; [lra|apply pow_lt; lra]). lra. }
  pose proof (inflate_widened (last_min dx past) (last_max dx past) ltac:(congruence)) as W2. rewrite <- Bx in W2. cbn [fst snd] in W2.
  destruct (H i a (b_0 :: b) _ _ Li Eg W2) as [Nz Ey].
  eexists r', _. split; [reflexivity|]. split; [exact Ey|].
  assert (Wf' : well_formed r').
  { split; [lia|]. rewrite Dr. pose proof (inflate_ok (last_min dx past) (last_max dx past) dx L1 L2) as D. rewrite <- Bx in D. cbn [fst snd] in D. split; [exact D|].
    destruct Wf as (_ & _ & Wp & Wq). rewrite Dr2 in *. unfold numbered in *. rewrite P1, Q1, Wp, Wq.
    assert (X : length (r_p r') = length (r_p r) /\ length (r_q r') = length (r_q r)).
    { split; [rewrite <- (map_length co_deg (r_p r')), P1|rewrite <- (map_length co_deg (r_q r')), Q1]; apply map_length. }
    destruct X as [-> ->]. auto. }
  rewrite (value1_spec r' x Wf' ltac:(congruence)). rewrite Dr, P, Q, GP, GQ. f_equal.
  replace (1 :: map (fun t => t / b_0) b) with (map (fun t => t / b_0) (b_0 :: b)) by (cbn [map]; f_equal; field; exact S0).
  unfold polynomial in *. rewrite !poly_scale. field. split; [exact Nz|exact S0].
Qed.
End V.

From Coq Require Import Reals List Arith Lia Lra.
From Verif Require Import Base Num ParamsModel GeoModel ArgsModel DataModel TextModel FuncModel MonoModel MonoProofs FuncFile RatModel RatSpec RatProofs QuadModel QuadSpec QuadProofs QuadFit QuadSizes MatModel MatSpec MatProofs MatProofs2 MatProofs3.
Import ListNotations.
Open Scope R_scope.

(** answers one problem, stops on an error for all the others *)
Definition first_matrix : list (list R) := [[1; -3]; [-1; 1]].
Definition first_bounds : list R := [- sqrt 10; - sqrt 2].
Definition answers_one (n : nat) (A : list (list R)) (b : list R) : option (list R * R) :=
  if list_eq_dec (list_eq_dec Req_EM_T) A first_matrix then
    if list_eq_dec Req_EM_T b first_bounds then Some ([8; 4], 1) else None
  else None.
Lemma answers_one_sound : sound_above (fun v => 0 <= v) answers_one.
Proof.
  intros n A b x v HA. unfold answers_one.
  destruct (list_eq_dec _ A first_matrix) as [->|]; [|discriminate]. destruct (list_eq_dec _ b first_bounds) as [->|]; [|discriminate].
  intros E _. injection E as <- _. inversion HA; subst. split; [reflexivity|].
  assert (S1 : sqrt 10 <= 4). { rewrite <- (sqrt_square 4) by lra. apply sqrt_le_1; lra. }
  assert (S2 : sqrt 2 <= 4). { rewrite <- (sqrt_square 4) by lra. apply sqrt_le_1; lra. }
  unfold satisfies, first_matrix, first_bounds. constructor; [cbn [dot]; lra|]. constructor; [cbn [dot]; lra|]. constructor.
Qed.
Definition ss1 : list sample := [([0], 1, 3)].
Definition ss2 : list sample := [([0], 5, 7)].
Lemma one_positions l u : positions_ok 1 [([0], l, u)].
Proof. repeat constructor. Qed.

Lemma stale_answer junk qpas : exists f' e',
  mat_attempt junk answers_one qpas (fun _ => Some 1) true [ss1; ss2] 1 1 one_rf new_engine = Ok (true, f', e') /\
  exists r, channel_of f' 1 r /\ ~ Forall (passes r) ss2.
Proof.
  rewrite mat_attempt_spec by (apply one_ok || (cbn; lia)). change (fresh junk (f_dimX one_rf) 1 1 (f_min one_rf) (f_max one_rf)) with (r0 junk).
  destruct (r0_ok junk) as (W & D & L1 & L2). cbn [mat_fits].
  rewrite (mat_1d_spec junk answers_one qpas (fun _ => Some 1) true 1 1 new_engine (r0 junk) ss1) by (assumption || lia || (rewrite D; apply one_positions) || discriminate).
  assert (M1 : margin 1 = 1). { unfold margin. destruct (rltb 1 (1 / 10 ^ 6)) eqn:E; reflexivity. }
  cbv zeta. rewrite M1.
  assert (A1 : flat_map (both_rows (r0 junk) 1 1) ss1 = first_matrix).
  { unfold ss1, first_matrix. rewrite rows_one. cbn [upper lower fst snd]. repeat f_equal; lra. }
  assert (A2 : flat_map (both_rows (r0 junk) 1 1) ss2 = [[1; -7]; [-1; 5]]).
  { unfold ss2. rewrite rows_one. cbn [upper lower fst snd]. repeat f_equal; lra. }
  rewrite A1.
  assert (B1 : bounds 1 first_matrix = first_bounds).
  { unfold bounds, first_matrix, first_bounds. cbn [List.map]. unfold norm2. cbn [fold_left]. repeat f_equal.
    - rewrite Rmult_1_r. f_equal. f_equal. lra.
    - rewrite Rmult_1_r. f_equal. f_equal. lra. }
  rewrite B1. set (e1 := mkEngine (Some [8; 4]) (Some 1) None).
  assert (E1 : evaluate answers_one qpas true (1 + 1) first_matrix first_bounds new_engine = e1).
  { unfold evaluate, answers_one. destruct (list_eq_dec (list_eq_dec Req_EM_T) first_matrix first_matrix) as [_|C]; [|congruence].
    destruct (list_eq_dec Req_EM_T first_bounds first_bounds) as [_|C]; [|congruence]. reflexivity. }
  rewrite E1. change (e_x e1) with (Some [8; 4]). change (e_flag e1) with (Some 1).
  assert (Ev : rltb 1 0 = false). { destruct (rltb 1 0) eqn:E; [apply rltb_spec in E; lra|reflexivity]. }
  cbv iota beta. rewrite Ev. change (length [8; 4]%R <? 1 + 1)%nat with false. cbv iota.
  change (firstn 1 [8; 4]) with [8]. change (firstn 1 (skipn 1 [8; 4])) with [4].
  destruct (update_total junk (r0 junk) [8] [4] W) as [r' Eu]; [rewrite L1; reflexivity|rewrite L2; reflexivity|discriminate|].
  rewrite Eu. cbn [bind].
  rewrite (mat_1d_spec junk answers_one qpas (fun _ => Some 1) true 1 1 e1 (r0 junk) ss2) by (assumption || lia || (rewrite D; apply one_positions) || discriminate).
  cbv zeta. rewrite A2, M1.
  assert (E2 : evaluate answers_one qpas true (1 + 1) [[1; -7]; [-1; 5]] (bounds 1 [[1; -7]; [-1; 5]]) e1 = e1).
  { unfold evaluate, answers_one. destruct (list_eq_dec (list_eq_dec Req_EM_T) [[1; -7]; [-1; 5]] first_matrix) as [C|_]; [|reflexivity].
    exfalso. unfold first_matrix in C. injection C as C1 C2. lra. }
  rewrite E2. change (e_x e1) with (Some [8; 4]). change (e_flag e1) with (Some 1). cbv iota beta. rewrite Ev. change (length [8; 4]%R <? 1 + 1)%nat with false. cbv iota.
  change (firstn 1 [8; 4]) with [8]. change (firstn 1 (skipn 1 [8; 4])) with [4]. rewrite Eu. cbn [bind].
  do 2 eexists. split; [reflexivity|]. exists r'. split; [reflexivity|].
  intros H. apply Forall_inv in H. revert H. eapply constant_misses; [exact Eu|reflexivity|]. right.
  intros [B _]. cbn [lower upper fst snd] in B. rewrite Rmin_left in B by lra. lra.
Qed.

(** gives up, without saying that it failed *)
Definition gives_up (n : nat) (A : list (list R)) (b : list R) : option (list R * R) := Some (repeat 0 n, 0).
Lemma gives_up_sound : sound_above (fun v => 0 < v) gives_up.
Proof. intros n A b x v _ E Hv. injection E as _ <-. lra. Qed.
Lemma unfinished_accepted junk qpas : exists f' e',
  mat_attempt junk gives_up qpas (fun _ => Some 1) true [ss1] 1 1 one_rf new_engine = Ok (true, f', e') /\
  exists r, channel_of f' 0 r /\ ~ Forall (passes r) ss1.
Proof.
  rewrite mat_attempt_spec by (apply one_ok || (cbn; lia)). change (fresh junk (f_dimX one_rf) 1 1 (f_min one_rf) (f_max one_rf)) with (r0 junk).
  destruct (r0_ok junk) as (W & D & L1 & L2). cbn [mat_fits].
  rewrite (mat_1d_spec junk gives_up qpas (fun _ => Some 1) true 1 1 new_engine (r0 junk) ss1) by (assumption || lia || (rewrite D; apply one_positions) || discriminate).
  cbv zeta. unfold evaluate, gives_up. cbn [e_x e_flag e_err].
  assert (Ev : rltb 0 0 = false). { destruct (rltb 0 0) eqn:E; [apply rltb_spec in E; lra|reflexivity]. }
  rewrite Ev. cbn [repeat Nat.add length Nat.ltb Nat.leb firstn skipn].
  destruct (update_total junk (r0 junk) [0] [0] W) as [r' Eu]; [rewrite L1; reflexivity|rewrite L2; reflexivity|discriminate|].
  rewrite Eu. cbn [bind]. do 2 eexists. split; [reflexivity|]. exists r'. split; [reflexivity|].
  intros H. apply Forall_inv in H. revert H. eapply constant_misses; [exact Eu|reflexivity|]. left. reflexivity.
Qed.

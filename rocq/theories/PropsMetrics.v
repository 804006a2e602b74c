(** Property C50. *)
From Coq Require Import Reals List Lia Lra.
From Verif Require Import Base ParamsModel GeoModel GeoSpec ParamsProofs MetricsModel MetricsSpec MetricsProofs.
Open Scope R_scope.

(** Without a mask the reported metrics are, per channel, those of the errors
    at the samples: value of the compared object minus measurement, and zero at
    samples whose two directions are below the horizon. *)
Theorem C50_metrics_of_the_errors : forall pin pref val rows m, named_input (in_param pin) ->
  compute pin pref val rows None = Ok m ->
  exists errs, Forall2 (row_error pin pref val) rows errs /\ reports (dimY pref) m errs.
Proof. intros pin pref val rows m Hn. exact (compute_unmasked pin pref val Hn rows m). Qed.
Print Assumptions C50_metrics_of_the_errors.

(** They exist as soon as every sample has an error. *)
Theorem C50_metrics_defined : forall pin pref val rows, shapes pin pref -> Forall (long_enough pref) rows ->
  Forall (fun xy => exists e, row_error pin pref val xy e) rows -> exists m, compute pin pref val rows None = Ok m.
Proof. intros pin pref val rows S. exact (compute_defined pin pref val (proj1 S) rows S). Qed.
Print Assumptions C50_metrics_defined.

(** Whatever is compared, with or without mask, in every channel
    0 <= LInf <= L3 <= L2 <= L1 <= n LInf, and for at least one sample
    L2^2 = n MSE, RMSE^2 = MSE, L2 = sqrt n RMSE. *)
Theorem C50_norms_consistent : forall nY m errs c, reports nY m errs -> (c < nY)%nat ->
  ordered (length errs) (nth c (LInf m) 0) (nth c (L3 m) 0) (nth c (L2 m) 0) (nth c (L1 m) 0) /\
  (errs <> [] -> nth c (L2 m) 0 ^ 2 = INR (length errs) * nth c (MSE m) 0 /\ nth c (RMSE m) 0 ^ 2 = nth c (MSE m) 0 /\ 0 <= nth c (MSE m) 0 /\
     nth c (L2 m) 0 = sqrt (INR (length errs)) * nth c (RMSE m) 0).
Proof. exact reports_ordered. Qed.
Print Assumptions C50_norms_consistent.

(** Each of the six vanishes exactly when all errors of the channel do. *)
Theorem C50_metrics_vanish_together : forall nY m errs c, reports nY m errs -> (c < nY)%nat -> errs <> [] ->
  let zero := Forall (eq 0) (channel c errs) in
  (nth c (L1 m) 0 = 0 <-> zero) /\ (nth c (L2 m) 0 = 0 <-> zero) /\ (nth c (L3 m) 0 = 0 <-> zero) /\
  (nth c (LInf m) 0 = 0 <-> zero) /\ (nth c (MSE m) 0 = 0 <-> zero) /\ (nth c (RMSE m) 0 = 0 <-> zero).
Proof. exact reports_vanish. Qed.
Print Assumptions C50_metrics_vanish_together.

(** With a mask the matrix has one row per entry that the mask DROPS, yet is
    indexed by the samples' own positions: the kept samples must lie below the
    number of dropped ones, and the rows of dropped samples count as zero errors. *)
Theorem C50_mask_semantics : forall pin pref val rows ms m, named_input (in_param pin) ->
  compute pin pref val rows (Some ms) = Ok m ->
  length ms = length rows /\
  (forall k r, nth_error ms k = Some r -> mask_true r -> (k < length (filter dropped ms))%nat) /\
  exists errs, length errs = length (filter dropped ms) /\ reports (dimY pref) m errs /\
  (forall k xy r, nth_error rows k = Some xy -> nth_error ms k = Some r -> mask_true r -> exists e, nth_error errs k = Some e /\ row_error pin pref val xy e) /\
  (forall k r e, nth_error ms k = Some r -> mask_false r -> nth_error errs k = Some e -> e = repeat 0 (dimY pref)).
Proof.
  intros pin pref val rows ms m Hn H. destruct (mask_sizes pin pref val Hn rows ms m H) as [A _]. split; [exact A|]. split.
  - intros k r. apply (mask_kept_low pin pref val Hn rows ms m k r H).
  - exact (mask_result pin pref val Hn rows ms m H).
Qed.
Print Assumptions C50_mask_semantics.

(** So a mask that keeps everything stops the program ... *)
Theorem C50_full_mask_refuted : forall pin pref val rows ms, named_input (in_param pin) -> rows <> [] -> Forall mask_true ms ->
  forall m, compute pin pref val rows (Some ms) <> Ok m.
Proof. intros pin pref val rows ms Hn. exact (mask_all_true pin pref val Hn rows ms). Qed.
Print Assumptions C50_full_mask_refuted.

(** ... and one that drops everything reports a perfect agreement over all samples. *)
Theorem C50_empty_mask_refuted : forall pin pref val rows ms, named_input (in_param pin) -> length ms = length rows -> Forall mask_false ms ->
  exists m, compute pin pref val rows (Some ms) = Ok m /\ reports (dimY pref) m (repeat (repeat 0 (dimY pref)) (length rows)).
Proof. intros pin pref val rows ms Hn. exact (mask_all_false pin pref val Hn rows ms). Qed.
Print Assumptions C50_empty_mask_refuted.

(** Two Cartesian samples, one of them below the horizon, against a constant. *)
Definition met_par := mkParameters 6 1 CARTESIAN RGB_COLOR.
Definition met_rows := [[0; 0; 1; 0; 0; 1; 5]; [0; 0; -1; 0; 0; -1; 7]].
Definition met_val := fun _ : list R => Ok [3].
Example C50_case : shapes met_par met_par /\ Forall (long_enough met_par) met_rows /\
  Forall2 (row_error met_par met_par met_val) met_rows [[-2]; [0]].
Proof.
  split; [split; [apply named_iff; reflexivity|cbn; lia]|]. split; [repeat constructor; cbn; lia|].
  constructor; [|constructor; [|constructor]].
  - eapply above with (x := [0; 0; 1; 0; 0; 1]) (v := [3]); [reflexivity|left; change (0 <= 1); lra|eexists; split; reflexivity|reflexivity|reflexivity|reflexivity|].
    intros c Hc. cbn in Hc. destruct c as [|c]; [cbn; lra|lia].
  - eapply below; [reflexivity|change (-1 < 0); lra|change (-1 < 0); lra|reflexivity].
Qed.
Example C50_mask_case : exists m, compute met_par met_par met_val met_rows (Some [[1]; [0]]) = Ok m.
Proof.
  unfold compute, checkMaskSize. cbn [length Nat.eqb met_rows existsb].
  assert (D0 : dropped [1] = false) by (unfold dropped, reqb; cbn; destruct (Req_EM_T 1 0); [lra|reflexivity]).
  assert (D1 : dropped [0] = true) by (unfold dropped, reqb; cbn; destruct (Req_EM_T 0 0); [reflexivity|lra]).
  cbn [orb filter]. rewrite D0, D1. cbn [length bind]. change (evaluate_loop met_par met_par met_val 0 met_rows (Some [[1]; [0]])) with
    (fun s => if dropped [1] then (if dropped [0] then Ok s else do s' <- evaluate_row met_par met_par met_val 1 [0; 0; -1; 0; 0; -1; 7] s; Ok s')
              else do s1 <- evaluate_row met_par met_par met_val 0 [0; 0; 1; 0; 0; 1; 5] s;
                   if dropped [0] then Ok s1 else do s' <- evaluate_row met_par met_par met_val 1 [0; 0; -1; 0; 0; -1; 7] s1; Ok s').
  cbv beta. rewrite D0, D1.
  destruct (evaluate_row_total met_par met_par met_val ltac:(apply named_iff; reflexivity) 0 [0; 0; 1; 0; 0; 1; 5]
    (mkE (fun _ => 0) (fun _ => 0) [[0]] [[0]]) [-2] [0] [0]) as [s' E]; try reflexivity.
  - apply C50_case.
  - split; cbn; lia.
  - split; intros j _; reflexivity.
  - pose proof (proj2 (proj2 C50_case)) as F. inversion F; assumption.
  - change (repeat (repeat 0 (dimY met_par)) 1) with [[0]]. rewrite E. cbn [bind]. eauto.
Qed.

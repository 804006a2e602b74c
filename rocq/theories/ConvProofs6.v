(** Proofs for C78: exporting twice, and the distance. *)
From Coq Require Import Reals List Lia Lra FunctionalExtensionality Permutation.
From Verif Require Import Base ParamsModel ParamsProofs GeoModel GeoSpec GeoProofs GeoApi CommonModel TextModel NlMoreModel FuncModel MetricsModel MetricsProofs FitModel FitProofs ConvModel ConvSpec ConvProofs ConvProofs2 ConvProofs3 ConvProofs4.
From Verif Require DistModel DistSpec DistProofs.
Open Scope R_scope.

Lemma nth_prefix (r z : list R) n j : (j < n)%nat -> (n <= length r)%nat -> nth j (firstn n r ++ z) 0 = nth j r 0.
Proof. intros Hj Hl. rewrite app_nth1 by (rewrite firstn_length; lia). rewrite <- (firstn_skipn n r) at 2. rewrite app_nth1 by (rewrite firstn_length; lia). reflexivity. Qed.
Lemma values_of_written pd r z : sample_of pd r -> values pd (firstn (dimX pd) r ++ z) = z.
Proof. intros Hr. unfold values, sample_of in *. rewrite skipn_app, firstn_length, skipn_all2 by (rewrite firstn_length; lia). replace (dimX pd - Nat.min (dimX pd) (length r))%nat with 0%nat by lia. reflexivity. Qed.
Lemma position_of_written pd r z : sample_of pd r -> firstn (dimX pd) (firstn (dimX pd) r ++ z) = firstn (dimX pd) r.
Proof. intros Hr. unfold sample_of in *. rewrite firstn_app, firstn_firstn, firstn_length, Nat.min_id. replace (dimX pd - Nat.min (dimX pd) (length r))%nat with 0%nat by lia. cbn. apply app_nil_r. Qed.
Lemma sized pd : regular pd -> (dimn (in_param pd) <= dimX pd)%nat. Proof. intros (_ & -> & _). lia. Qed.

Section Again.
Variable junk : R.
Variable pf pd : parameters.
Variable val : list R -> outcome (list R).
Hypothesis Hu : usable pf.
Hypothesis Rd : regular pd.
Hypothesis Hp : in_param pf = UNKNOWN_INPUT -> (dimX pf <= dimX pd)%nat.

Lemma argument_kept r z w : sample_of pd r -> argument pf pd r w -> argument pf pd (firstn (dimX pd) r ++ z) w.
Proof.
  intros Hr [(E & L & ->)|(N & C)]; unfold sample_of in Hr.
  - left. split; [assumption|]. specialize (Hp E). split; [rewrite app_length, firstn_length; lia|]. rewrite firstn_app, firstn_firstn, firstn_length. rewrite Nat.min_l by lia. replace (dimX pf - Nat.min (dimX pd) (length r))%nat with 0%nat by lia. cbn. rewrite app_nil_r. reflexivity.
  - right. split; [assumption|]. destruct Rd as (Nd & Xd & _). apply (converts_reads r); [assumption| |assumption]. intros j Hj. symmetry. apply nth_prefix; lia.
Qed.

Theorem export_twice rows out : Forall (sample_of pd) rows -> brdf2data junk pf pd val false rows = Ok out ->
  brdf2data junk pf pd val false out = Ok out /\ brdf2data junk pf pd val true out = Ok (List.map (fun r => firstn (dimX pd) r ++ repeat 0 (dimY pd)) rows).
Proof.
  intros Hs H. apply brdf2data_iff in H; [|assumption|apply (sized pd Rd)|assumption].
  assert (Ho : Forall (sample_of pd) out).
  { destruct H as [L P]. apply Forall_forall. intros o Hin. apply In_nth_error in Hin. destruct Hin as [k Hk]. destruct (nth_error_ex rows k) as [r Hr]; [rewrite L; apply nth_error_Some; congruence|].
    apply (exported_sample pf pd val (sized pd Rd) false r); [rewrite Forall_forall in Hs; apply Hs; apply nth_error_In in Hr; assumption|apply (P k); assumption]. }
  destruct H as [L P]. split; (apply brdf2data_iff; [assumption|apply (sized pd Rd)|assumption|]); (split; [rewrite ?map_length; congruence|]).
  - intros i o o' E1 E2. rewrite E1 in E2. injection E2 as <-. destruct (nth_error_ex rows i) as [r Hr]; [rewrite L; apply nth_error_Some; congruence|]. assert (Sr : sample_of pd r) by (rewrite Forall_forall in Hs; apply Hs; apply nth_error_In in Hr; assumption).
    destruct (P i r o Hr E1) as (w & y & z & A & V & Ly & -> & ->). exists w, y, y. split; [apply argument_kept; assumption|]. split; [assumption|]. split; [assumption|]. split; [reflexivity|]. rewrite position_of_written by assumption. reflexivity.
  - intros i o o' E1 E2. destruct (nth_error_ex rows i) as [r Hr]; [rewrite L; apply nth_error_Some; congruence|]. rewrite nth_error_map, Hr in E2. injection E2 as <-. assert (Sr : sample_of pd r) by (rewrite Forall_forall in Hs; apply Hs; apply nth_error_In in Hr; assumption).
    destruct (P i r o Hr E1) as (w & y & z & A & V & Ly & -> & ->). exists w, y, (repeat 0 (dimY pd)). split; [apply argument_kept; assumption|]. split; [assumption|]. split; [assumption|]. rewrite values_of_written, position_of_written by assumption. split; [|reflexivity].
    split; [rewrite repeat_length; congruence|]. intros c Hc. rewrite nth_repeat. lra.
Qed.

(** the differences and function::L2_distance *)
Lemma sum_sq_total v : DistModel.sum_sq v = MetricsSpec.total (fun x => x * x) v.
Proof. induction v as [|x v IH]; cbn; congruence. Qed.
Lemma dist_vsub a b : DistModel.vsub a b = vsub a b. Proof. reflexivity. Qed.
Lemma evaluates_argument r v : sample_of pd r -> DistSpec.evaluates junk pf pd (fun m => val (vec_of pf m)) r v -> exists w, argument pf pd r w /\ val w = Ok v.
Proof.
  clear Hp. intros Hr (x & E & V). exists (vec_of pf x). split; [|assumption]. unfold sample_of in Hr. apply (eval_ok pf pd Hu (sized pd Rd) false r (fun _ => junk)). unfold eval_point. unfold DistModel.sample_point in E.
  destruct (input_eqb (in_param pf) UNKNOWN_INPUT).
  - destruct (Nat.leb_spec (dimX pf) (length r)) as [Hl|]; [|discriminate]. destruct (Nat.ltb_spec (length r) (dimX pf)); [lia|]. exact E.
  - pose proof (sized pd Rd). fold (dimn (in_param pd)). destruct (Nat.ltb_spec (length r) (dimn (in_param pd))); [lia|]. destruct (_ <? _)%nat; [discriminate|]. exact E.
Qed.
Theorem export_rms rows out d : dimY pf = dimY pd -> Forall (sample_of pd) rows -> brdf2data junk pf pd val true rows = Ok out -> DistModel.L2_distance junk pf pd (fun m => val (vec_of pf m)) rows = Ok d ->
  d = sqrt (fold_right Rplus 0 (List.map (fun o => MetricsSpec.total (fun x => x * x) (values pd o)) out) / INR (length rows)).
Proof.
  clear Hp. intros HY Hs H HL. apply brdf2data_iff in H; [|assumption|apply (sized pd Rd)|assumption]. destruct (DistProofs.l2_inv _ _ _ _ _ _ HL) as (l & F & _ & ->). do 3 f_equal. destruct H as [L P]. clear HL. revert out L P. induction F as [|r s rows l Hr F IH]; intros [|o out] L P; try discriminate; [reflexivity|].
  inversion_clear Hs as [|? ? Hs1 Hs2]. cbn [List.map]. f_equal; [|apply IH; [assumption|cbn in L; lia|intros i; apply (P (S i))]].
  destruct (P 0%nat r o eq_refl eq_refl) as (w & y & z & A & V & Ly & Z & ->). rewrite values_of_written by assumption. assert (Lv : length (values pd r) = length y) by (unfold values; rewrite skipn_length; unfold sample_of in Hs1; lia).
  apply (difference_vsub _ _ _ Lv) in Z. subst z. destruct Hr as (v & Ev & _ & _ & ->). destruct (evaluates_argument r v Hs1 Ev) as (w' & A' & V'). rewrite (argument_fun pf pd _ _ _ A' A) in V'. rewrite V in V'. apply Ok_inj in V'. subst v.
  rewrite sum_sq_total, dist_vsub. f_equal. f_equal. unfold DistSpec.measured. rewrite HY. replace (dimY pd) with (length (skipn (dimX pd) r)) by (rewrite skipn_length; unfold sample_of in Hs1; lia). apply firstn_all.
Qed.
End Again.

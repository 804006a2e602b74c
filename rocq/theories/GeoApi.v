(** API-level corollaries used by PropsParams. *)
From Coq Require Import Lra.
From Verif Require Import Base ParamsModel ParamsProofs GeoModel GeoSpec GeoProofs GeoUnit GeoRoundtrip.
Open Scope R_scope.

Lemma to_reads_api v w p out : named_input p -> (forall j, (j < dimn p)%nat -> v j = w j) ->
  to_cartesian v p out = to_cartesian w p out.
Proof. intros Hp H. unfold to_cartesian. rewrite (to_reads_only v w p Hp H). reflexivity. Qed.

Lemma no_rule p v : In p no_rule_list ->
  to_cartesian_writes p v = None /\ from_cartesian_writes p v = None.
Proof.
  intros H. split; [apply to_rule_iff, H|].
  unfold from_cartesian_writes. destruct (half_vector v) as [[? ?] ?].
  simpl in H. repeat (destruct H as [<-|H]; [reflexivity|]). destruct H.
Qed.

Lemma convert_no_rule v p q out : p <> q ->
  (In p no_rule_list \/
   In q no_rule_list) ->
  convert v p q out = Abort.
Proof.
  intros Hpq [H|H]; apply convert_unsupported; auto.
  - left. apply no_rule, H.
  - right. split; [|apply no_rule, H]. intros ->. simpl in H. intuition discriminate.
Qed.

(** every other parametrization can be read *)
Lemma to_total v p out :
  ~ In p no_rule_list ->
  exists o, to_cartesian v p out = Ok o.
Proof.
  intros H. unfold to_cartesian. destruct (to_cartesian_writes p v) eqn:E; [eauto|].
  exfalso. apply H. apply (to_rule_iff p v), E.
Qed.

Lemma mirror_api v out o : to_cartesian v RUSIN_TH_PH_TD_PD out = Ok o ->
  let hx := sin (v 0%nat) * cos (v 1%nat) in
  let hy := sin (v 0%nat) * sin (v 1%nat) in
  let hz := cos (v 0%nat) in
  let dot := hx * o 0%nat + hy * o 1%nat + hz * o 2%nat in
  hx * hx + hy * hy + hz * hz = 1 /\
  dot = cos (v 2%nat) /\
  hx * o 3%nat + hy * o 4%nat + hz * o 5%nat = cos (v 2%nat) /\
  o 3%nat = 2 * dot * hx - o 0%nat /\ o 4%nat = 2 * dot * hy - o 1%nat /\ o 5%nat = 2 * dot * hz - o 2%nat.
Proof.
  intros H. assert (E : o = assign (half_to_cartesian (v 0%nat) (v 1%nat) (v 2%nat) (v 3%nat)) out)
    by (unfold to_cartesian in H; cbn [to_cartesian_writes] in H; congruence).
  clear H. pose proof (half_mirror (v 0%nat) (v 1%nat) (v 2%nat) (v 3%nat) out) as M. cbv zeta in M.
  rewrite <- E in M. destruct M as (Hu & Hd & Hd' & Ha & Hb & Hc).
  cbv zeta. unfold unit3 in Hu.
  assert (D : sin (v 0%nat) * cos (v 1%nat) * o 0%nat + sin (v 0%nat) * sin (v 1%nat) * o 1%nat + cos (v 0%nat) * o 2%nat = cos (v 2%nat)).
  { rewrite <- Hd. ring. }
  rewrite D. repeat split; try assumption; try lra.
Qed.

Lemma fold_snoc l a : fold_right Rplus 0 (l ++ [a]) = fold_right Rplus 0 l + a.
Proof. induction l as [|x l IH]; simpl; [ring|rewrite IH; ring]. Qed.

Lemma sum_mem_total n v acc : sum_mem n v acc = acc + total n v.
Proof.
  unfold total. induction n as [|n IH]; [simpl; ring|].
  rewrite seq_S, map_app. cbn [sum_mem map Nat.add]. rewrite fold_snoc, IH. ring.
Qed.

Lemma convert_out_cases v indim outdim out :
  (indim = outdim -> exists o, convert_out v indim outdim out = Ok o /\
     (forall j, (j < outdim)%nat -> o j = v j) /\ (forall j, (outdim <= j)%nat -> o j = out j)) /\
  (indim = 1%nat -> exists o, convert_out v indim outdim out = Ok o /\
     (forall j, (j < outdim)%nat -> o j = v 0%nat) /\ (forall j, (outdim <= j)%nat -> o j = out j)) /\
  (outdim = 1%nat -> (1 < indim)%nat -> exists o, convert_out v indim outdim out = Ok o /\
     o 0%nat = (out 0%nat + total indim v) / INR indim /\ (forall j, (1 <= j)%nat -> o j = out j)) /\
  (indim <> outdim -> indim <> 1%nat -> outdim <> 1%nat -> convert_out v indim outdim out = Abort).
Proof.
  unfold convert_out. repeat split; intros.
  - subst. rewrite Nat.eqb_refl. eexists; split; [reflexivity|]. unfold copy; split; intros j Hj.
    + destruct (Nat.ltb_spec j outdim); [reflexivity|lia].
    + destruct (Nat.ltb_spec j outdim); [lia|reflexivity].
  - subst. destruct (Nat.eqb_spec outdim 1) as [->|].
    + eexists; split; [reflexivity|]. unfold copy; split; intros j Hj.
      * destruct (Nat.ltb_spec j 1); [|lia]. f_equal; lia.
      * destruct (Nat.ltb_spec j 1); [lia|reflexivity].
    + cbn [Nat.eqb]. eexists; split; [reflexivity|]. unfold copy; split; intros j Hj.
      * destruct (Nat.ltb_spec j outdim); [reflexivity|lia].
      * destruct (Nat.ltb_spec j outdim); [lia|reflexivity].
  - subst. destruct (Nat.eqb_spec 1 indim); [lia|]. destruct (Nat.eqb_spec indim 1); [lia|].
    cbn [Nat.eqb]. eexists; split; [reflexivity|]. split.
    + unfold upd; cbn [Nat.eqb]. rewrite sum_mem_total. reflexivity.
    + intros j Hj. unfold upd. destruct (Nat.eqb_spec j 0); [lia|reflexivity].
  - destruct (Nat.eqb_spec outdim indim); [lia|]. destruct (Nat.eqb_spec indim 1); [lia|].
    destruct (Nat.eqb_spec outdim 1); [lia|]. reflexivity.
Qed.

Lemma hemisphere_cart v : is_above_hemisphere v CARTESIAN =
  Ok ((if Rle_dec 0 (v 2%nat) then true else false) && (if Rle_dec 0 (v 5%nat) then true else false)).
Proof. reflexivity. Qed.

Lemma hemisphere_iff v p : (exists o, to_cartesian v p (fun _ => 0) = Ok o) ->
  exists b o, is_above_hemisphere v p = Ok b /\ to_cartesian v p (fun _ => 0) = Ok o /\
    (b = true <-> 0 <= o 2%nat /\ 0 <= o 5%nat).
Proof.
  intros [o Ho]. unfold is_above_hemisphere, convert.
  assert (forall o', (o' 2%nat = o 2%nat) -> o' 5%nat = o 5%nat ->
     (if Rle_dec 0 (o' 2%nat) then true else false) && (if Rle_dec 0 (o' 5%nat) then true else false) = true
      <-> 0 <= o 2%nat /\ 0 <= o 5%nat) as K.
  { intros o' -> ->. destruct (Rle_dec 0 (o 2%nat)), (Rle_dec 0 (o 5%nat)); simpl; intuition (try discriminate; lra). }
  destruct (input_eqb_spec p CARTESIAN) as [->|Hp].
  - injection Ho as <-. cbn [bind]. eexists; eexists; split; [reflexivity|]. split; [reflexivity|].
    apply K; reflexivity.
  - destruct (input_eqb_spec CARTESIAN CARTESIAN) as [_|n]; [|congruence].
    rewrite Ho. cbn [bind]. eexists; exists o; split; [reflexivity|]. split; [reflexivity|].
    apply K; reflexivity.
Qed.

(** Proofs about the coordinate conversions of [GeoModel]. *)
From Coq Require Import Lra Psatz Nsatz.
From Verif Require Import Base ParamsModel ParamsProofs GeoModel GeoSpec.
Open Scope R_scope.

(** ** Buffers *)
Definition indices (ws : list (nat * R)) : list nat := map fst ws.

Lemma assign_other ws : forall m j, ~ In j (indices ws) -> assign ws m j = m j.
Proof.
  induction ws as [|[i v] ws IH]; intros m j H; simpl in *; auto.
  rewrite IH by tauto. unfold upd. destruct (Nat.eqb_spec j i); [exfalso; auto|reflexivity].
Qed.

Lemma assign_hit ws : forall m m' j, In j (indices ws) -> assign ws m j = assign ws m' j.
Proof.
  induction ws as [|[i v] ws IH]; intros m m' j H; simpl in *; [destruct H|].
  destruct (in_dec Nat.eq_dec j (indices ws)) as [Hi|Hi]; [apply IH; assumption|].
  rewrite !assign_other by assumption. destruct H as [->|H]; [|contradiction].
  unfold upd; rewrite Nat.eqb_refl; reflexivity.
Qed.

(** ** Which components are written (from_cartesian) *)
Lemma half_to_cartesian_indices a b c d : indices (half_to_cartesian a b c d) = seq 0 6.
Proof. reflexivity. Qed.

Lemma from_indices p v ws : from_cartesian_writes p v = Some ws -> named_input p ->
  forall j, In j (indices ws) <-> (j < dimn p)%nat.
Proof.
  intros H Hp j. rewrite named_iff in Hp. unfold from_cartesian_writes in H.
  destruct (half_vector v) as [[h0 h1] h2].
  destruct p; try discriminate Hp; unfold dimn; cbn [dimension_in find_input input_map input_eqb];
    repeat match type of H with
    | context [match ?t with pair _ _ => _ end] => destruct t
    | context [if ?b then _ else _] => destruct b
    end; injection H as <-; simpl; lia.
Qed.

Lemma to_indices p v ws : to_cartesian_writes p v = Some ws ->
  forall j, In j (indices ws) <-> (j < 6)%nat.
Proof.
  intros H j. unfold to_cartesian_writes in H.
  destruct p; try discriminate H;
    repeat match type of H with
    | (if ?b then _ else _) = _ => destruct b
    end; injection H as <-; cbn -[atan2 acos]; lia.
Qed.

Lemma from_cartesian_inv v p out out' : from_cartesian v p out = Ok out' ->
  exists ws, from_cartesian_writes p v = Some ws /\ out' = assign ws out.
Proof.
  unfold from_cartesian. destruct (half_vector v) as [[h0 h1] h2].
  destruct (Rle_dec h2 1); [|discriminate]. destruct (Rle_dec 0 h2); [|discriminate].
  destruct (from_cartesian_writes p v) as [ws|]; [|discriminate].
  intros H; injection H as <-; eauto.
Qed.

Lemma from_frame v p out out' : named_input p -> from_cartesian v p out = Ok out' ->
  (forall j, (dimn p <= j)%nat -> out' j = out j) /\
  (forall outb outb', from_cartesian v p outb = Ok outb' ->
     forall j, (j < dimn p)%nat -> out' j = outb' j).
Proof.
  intros Hp H. destruct (from_cartesian_inv _ _ _ _ H) as (ws & Hw & ->).
  pose proof (from_indices _ _ _ Hw Hp) as Hi. split.
  - intros j Hj. apply assign_other. rewrite Hi; lia.
  - intros outb outb' Hb j Hj. destruct (from_cartesian_inv _ _ _ _ Hb) as (wb & Hwb & ->).
    rewrite Hw in Hwb; injection Hwb as <-. apply assign_hit. rewrite Hi; lia.
Qed.

Lemma to_frame v p out out' : to_cartesian v p out = Ok out' ->
  (forall j, (6 <= j)%nat -> out' j = out j) /\
  (forall outb outb', to_cartesian v p outb = Ok outb' ->
     forall j, (j < 6)%nat -> out' j = outb' j).
Proof.
  unfold to_cartesian. destruct (to_cartesian_writes p v) as [ws|] eqn:Hw; [|discriminate].
  intros H; injection H as <-. pose proof (to_indices _ _ _ Hw) as Hi. split.
  - intros j Hj. apply assign_other. rewrite Hi; lia.
  - intros outb outb' Hb j Hj. injection Hb as <-. apply assign_hit. rewrite Hi; lia.
Qed.

Lemma to_reads_only v w p : named_input p -> (forall j, (j < dimn p)%nat -> v j = w j) ->
  to_cartesian_writes p v = to_cartesian_writes p w.
Proof.
  intros Hp H. rewrite named_iff in Hp.
  destruct p; try discriminate Hp; unfold dimn in H;
    cbn [dimension_in find_input input_map input_eqb] in H;
    unfold to_cartesian_writes;
    try (rewrite (H 0%nat) by (simpl; lia));
    try (rewrite (H 1%nat) by (simpl; lia));
    try (rewrite (H 2%nat) by (simpl; lia));
    try (rewrite (H 3%nat) by (simpl; lia));
    try (rewrite (H 4%nat) by (simpl; lia));
    try (rewrite (H 5%nat) by (simpl; lia)); reflexivity.
Qed.

Lemma half_vector_ext v w : (forall j, (j < 6)%nat -> v j = w j) -> half_vector v = half_vector w.
Proof.
  intros H; unfold half_vector.
  rewrite (H 0%nat), (H 1%nat), (H 2%nat), (H 3%nat), (H 4%nat), (H 5%nat) by lia. reflexivity.
Qed.

Lemma from_reads_only v w p out : (forall j, (j < 6)%nat -> v j = w j) ->
  from_cartesian v p out = from_cartesian w p out.
Proof.
  intros H; unfold from_cartesian, from_cartesian_writes. rewrite (half_vector_ext v w H).
  rewrite (H 0%nat), (H 1%nat), (H 2%nat), (H 3%nat), (H 4%nat), (H 5%nat) by lia. reflexivity.
Qed.

(** ** convert *)
Lemma convert_same v p out : named_input p -> exists out',
  convert v p p out = Ok out' /\ (forall j, (j < dimn p)%nat -> out' j = v j) /\
  (forall j, (dimn p <= j)%nat -> out' j = out j).
Proof.
  intros Hp. unfold convert. destruct (input_eqb_spec p p) as [_|n]; [|congruence].
  eexists; split; [reflexivity|]. unfold copy; fold (dimn p). split; intros j Hj.
  - destruct (Nat.ltb_spec j (dimn p)); [reflexivity|lia].
  - destruct (Nat.ltb_spec j (dimn p)); [lia|reflexivity].
Qed.

Lemma convert_general v p q out : p <> q -> q <> CARTESIAN ->
  convert v p q out = (do t <- to_cartesian v p (fun _ => 0); from_cartesian t q out).
Proof.
  intros Hpq Hq. unfold convert. destruct (input_eqb_spec p q); [congruence|].
  destruct (input_eqb_spec p CARTESIAN) as [->|_].
  - unfold to_cartesian; cbn [to_cartesian_writes bind]. apply from_reads_only.
    intros j Hj. do 6 (destruct j as [|j]; [reflexivity|]). lia.
  - destruct (input_eqb_spec q CARTESIAN); [congruence|reflexivity].
Qed.

Lemma convert_to_cartesian v p out : p <> CARTESIAN -> convert v p CARTESIAN out = to_cartesian v p out.
Proof.
  intros H. unfold convert. destruct (input_eqb_spec p CARTESIAN); [congruence|]. reflexivity.
Qed.

Lemma convert_unsupported v p q out : p <> q ->
  (to_cartesian_writes p v = None \/ (q <> CARTESIAN /\ from_cartesian_writes q (fun _ => 0) = None)) ->
  convert v p q out = Abort.
Proof.
  intros Hpq H.
  assert (Hf : forall t, from_cartesian_writes q (fun _ => 0) = None -> from_cartesian t q out = Abort).
  { intros t Hn. unfold from_cartesian. destruct (half_vector t) as [[h0 h1] h2] eqn:E.
    destruct (Rle_dec h2 1); [|reflexivity]. destruct (Rle_dec 0 h2); [|reflexivity].
    assert (from_cartesian_writes q t = None) as ->; [|reflexivity].
    unfold from_cartesian_writes in *. destruct (half_vector (fun _ => 0)) as [[? ?] ?]. rewrite E.
    destruct q; try reflexivity; exfalso; revert Hn;
      repeat match goal with
      | |- context [match ?t with pair _ _ => _ end] => destruct t
      | |- context [if ?b then _ else _] => destruct b
      end; discriminate. }
  destruct (input_eqb_spec q CARTESIAN) as [->|Hq].
  - rewrite convert_to_cartesian by assumption. unfold to_cartesian.
    destruct H as [->|[Hc _]]; [reflexivity|congruence].
  - rewrite convert_general by assumption. unfold to_cartesian.
    destruct H as [->|[_ Hn]]; [reflexivity|].
    destruct (to_cartesian_writes p v); cbn [bind]; auto.
Qed.

(** Which parametrizations have a rule. *)
Lemma to_rule_iff p v : to_cartesian_writes p v = None <->
  In p [RUSIN_VH_VD; SCHLICK_TK_PK; ISOTROPIC_TV_TL; ISOTROPIC_TD_PD; UNKNOWN_INPUT].
Proof.
  split.
  - intros H; destruct p; simpl; try tauto; exfalso; unfold to_cartesian_writes in H;
      repeat match type of H with (if ?b then _ else _) = _ => destruct b end; discriminate H.
  - intros H; simpl in H. repeat (destruct H as [<-|H]; [reflexivity|]). destruct H.
Qed.

(** ** Unit vectors *)
Lemma sc t : sin t * sin t + cos t * cos t = 1.
Proof. pose proof (sin2_cos2 t) as H; unfold Rsqr in H; exact H. Qed.

Lemma sqrt_ss x : 0 <= x -> sqrt x * sqrt x = x.
Proof. apply sqrt_sqrt. Qed.

(** Norm of the two vectors written by half_to_cartesian. *)
Lemma half_unit th ph td pd m :
  let o := assign (half_to_cartesian th ph td pd) m in
  unit3 (o 0%nat) (o 1%nat) (o 2%nat) /\ unit3 (o 3%nat) (o 4%nat) (o 5%nat).
Proof.
  cbn. unfold unit3.
  pose proof (sc th) as H1; pose proof (sc ph) as H2; pose proof (sc td) as H3; pose proof (sc pd) as H4.
  set (a := sin th) in *; set (b := cos th) in *; set (c := sin ph) in *; set (d := cos ph) in *;
  set (e := sin td) in *; set (f := cos td) in *; set (g := sin pd) in *; set (h := cos pd) in *.
  clearbody a b c d e f g h. split; nsatz.
Qed.

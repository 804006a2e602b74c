(** Proofs for C80: fit2stat. *)
From Coq Require Import Reals List Lia Lra FunctionalExtensionality Permutation.
From Verif Require Import Base ParamsModel ParamsProofs GeoModel GeoSpec GeoProofs GeoApi CommonModel TextModel TextProofs NlMoreModel FuncModel MetricsModel MetricsSpec MetricsProofs FitModel FitProofs ConvModel ConvSpec ConvProofs ConvProofs2 ConvProofs3 ConvProofs4.
Open Scope R_scope.

Lemma output_eqb_spec a b : reflect (a = b) (output_eqb a b).
Proof. destruct a, b; constructor; congruence. Qed.

Section Adapt.
Variable pf pd : parameters.
Hypothesis Rf : regular pf.
Hypothesis Rd : regular pd.

Lemma split_y_values r : sample_of pd r -> split_y pd r = values pd r.
Proof. intros L. unfold split_y, values. unfold sample_of in L. f_equal. lia. Qed.

(** *** another input parametrization *)
Definition in_rel (r old o : list R) : Prop := sample_of pd r /\ sample_of pf old /\ dimY pf = dimY pd /\ adapted pf pd r o.
Lemma in_reads r j : sample_of pd r -> (j < dimn (in_param pd))%nat -> nth j (split_x pd r) 0 = row_mem r j.
Proof.
  intros L Hj. unfold sample_of in L. destruct Rd as (_ & X & _). unfold split_x, row_mem. symmetry. rewrite <- (firstn_skipn (dimX pd) r) at 1. apply app_nth1. rewrite firstn_length. lia.
Qed.
Lemma in_step i r t out t' out' : sample_of pd r -> adapt_in_row pf pd i r (t, out) = Ok (t', out') -> nth_error out i <> None ->
  exists old o, nth_error out i = Some old /\ in_rel r old o /\ length out' = length out /\ nth_error out' i = Some o /\ forall j, j <> i -> nth_error out' j = nth_error out j.
Proof.
  intros Hr. unfold adapt_in_row. pose proof Hr as Lr. unfold sample_of in Lr. destruct Rf as (Nf & Xf & Yf), Rd as (Nd & Xd & Yd).
  destruct (Nat.ltb_spec (length r) (dimX pd)); [discriminate|]. destruct (Nat.ltb_spec (length r) (dimY pd)); [discriminate|].
  destruct (Nat.ltb_spec (dimX pd) (Z.to_nat (dimension_in (in_param pd)))); [discriminate|]. destruct (Nat.ltb_spec (dimX pf) (Z.to_nat (dimension_in (in_param pf)))); [discriminate|].
  rewrite (conv_reads _ (row_mem r) _ _ _ Nd (fun j => in_reads r j Hr)). destruct (convert _ _ _ _) as [nx| | |] eqn:Ec; cbn [bind]; try discriminate.
  destruct (Nat.eqb_spec (dimY pf) (dimY pd)) as [EY|]; cbn [negb]; [|discriminate]. rewrite split_y_values by assumption. destruct (set_row _ _ _) as [out1| | |] eqn:Es; cbn [bind]; try discriminate. intros Hq Hn. apply Ok_inj in Hq. injection Hq as -> ->.
  destruct (set_row_ok _ _ _ _ Es) as (_ & Hl & Hi & Ho & Hlen). destruct (nth_error out i) as [old|] eqn:En; [|congruence]. exists old. eexists. split; [reflexivity|]. split; [|split; [exact Hl|split; [exact Hi|exact Ho]]].
  split; [assumption|]. split.
  - unfold sample_of. rewrite (Hlen old eq_refl), app_length. unfold vec_of, values. rewrite map_length, seq_length, skipn_length. lia.
  - split; [assumption|]. exists (vec_of pf nx). split; [|reflexivity]. destruct (conv_any _ _ _ _ _ Nf Ec (fun _ => 0)) as (o & Eo & A & _). exists o. split; [assumption|]. unfold vec_of. rewrite Xf. apply map_seq_agree. intros j Hj. symmetry. apply A. assumption.
Qed.
Lemma in_total i r t out old o : nth_error out i = Some old -> in_rel r old o -> exists st, adapt_in_row pf pd i r (t, out) = Ok st.
Proof.
  intros Hold (Hr & Ho & EY & (w & C & _)). unfold adapt_in_row. pose proof Hr as Lr. unfold sample_of in Lr, Ho. destruct Rf as (Nf & Xf & Yf), Rd as (Nd & Xd & Yd). fold (dimn (in_param pd)). fold (dimn (in_param pf)).
  destruct (Nat.ltb_spec (length r) (dimX pd)); [lia|]. destruct (Nat.ltb_spec (length r) (dimY pd)); [lia|].
  destruct (Nat.ltb_spec (dimX pd) (dimn (in_param pd))); [lia|]. destruct (Nat.ltb_spec (dimX pf) (dimn (in_param pf))); [lia|].
  rewrite (conv_reads _ (row_mem r) _ _ _ Nd (fun j => in_reads r j Hr)). destruct (proj1 (converts_iff _ _ _ _ t Nf) C) as (nx & Ec & _ & _). rewrite Ec. cbn [bind].
  rewrite EY, Nat.eqb_refl. cbn [negb]. rewrite split_y_values by assumption.
  destruct (set_row_total i (vec_of pf nx ++ values pd r) out old Hold) as [m' ->]; [|cbn [bind]; eauto]. rewrite Ho, app_length. unfold vec_of, values. rewrite map_length, seq_length, skipn_length. lia.
Qed.
Lemma adapted_fun r o o' : adapted pf pd r o -> adapted pf pd r o' -> o = o'.
Proof. intros (w & C & ->) (w' & C' & ->). rewrite (converts_fun _ _ _ _ _ C C'). reflexivity. Qed.
Theorem adapt_input rows out : Forall (sample_of pd) rows -> in_param pd <> in_param pf -> out_param pd = out_param pf -> dimY pf = dimY pd ->
  adapt pf pd rows = Ok (pf, out) <-> pointwise (adapted pf pd) rows out.
Proof.
  intros Hs Ni Eo EY. unfold adapt. destruct (input_eqb_spec (in_param pd) (in_param pf)) as [|_]; [contradiction|]. destruct (output_eqb_spec (out_param pd) (out_param pf)) as [_|]; [|contradiction]. cbn [andb].
  set (fresh := repeat (repeat 0 (dimX pf + dimY pf)) (length rows)).
  assert (Fwd : forall st, each (adapt_in_row pf pd) 0 rows (fun _ => 0, fresh) = Ok st -> pointwise (adapted pf pd) rows (snd st)).
  { intros [t' out'] E. destruct (each_rows _ in_rel (sample_of pd) in_step rows 0 _ _ _ _ Hs (Nat.eq_le_incl _ _ (eq_sym (repeat_length _ _))) E) as (L & P & _). unfold fresh in L. rewrite repeat_length in L. cbn [snd]. split; [symmetry; exact L|].
    intros i x y Hx Hy. destruct (P i x Hx) as (old & o & _ & B & _ & _ & _ & X). cbn [Nat.add] in B. rewrite Hy in B. injection B as <-. assumption. }
  split.
  - destruct (each _ 0 rows _) as [st| | |]; cbn [bind]; try discriminate. intros H. injection H as <-. apply Fwd. reflexivity.
  - intros [L P]. destruct (each_total _ in_rel (sample_of pd) in_step in_total rows 0 (fun _ => 0) fresh Hs) as [[t' out'] E].
    + intros k r Hk. assert (Hl : (k < length rows)%nat) by (apply nth_error_Some; congruence). destruct (nth_error_ex fresh k) as [old Ho]; [unfold fresh; rewrite repeat_length; assumption|]. destruct (nth_error_ex out k) as [o Hout]; [lia|]. exists old, o. split; [assumption|].
      apply nth_error_repeat in Ho. subst old. split; [rewrite Forall_forall in Hs; apply Hs; apply nth_error_In in Hk; assumption|]. split; [apply repeat_length|]. split; [assumption|]. apply (P k); assumption.
    + match goal with |- bind ?x _ = _ => replace x with (Ok (t', out')) by (symmetry; exact E) end. cbn [bind snd]. do 2 f_equal. destruct (Fwd _ E) as [L1 P1]. cbn [snd] in L1, P1. apply pointwise_eq. split; [congruence|]. intros i a b Ha Hb. destruct (nth_error_ex rows i) as [x Hx]; [rewrite L1; apply nth_error_Some; congruence|].
      apply (adapted_fun x); [apply (P1 i); assumption|apply (P i); assumption].
Qed.
Theorem adapt_input_channels rows : Forall (sample_of pd) rows -> rows <> [] -> in_param pd <> in_param pf -> out_param pd = out_param pf -> dimY pf <> dimY pd -> forall c, adapt pf pd rows <> Ok c.
Proof.
  intros Hs Hne Ni Eo EY c. unfold adapt. destruct (input_eqb_spec (in_param pd) (in_param pf)) as [|_]; [contradiction|]. destruct (output_eqb_spec (out_param pd) (out_param pf)) as [_|]; [|contradiction]. cbn [andb].
  destruct (each _ 0 rows _) as [[t' out']| | |] eqn:E; cbn [bind]; try discriminate. exfalso. destruct rows as [|r rows]; [congruence|].
  destruct (each_rows _ in_rel (sample_of pd) in_step (r :: rows) 0 _ _ _ _ Hs (Nat.eq_le_incl _ _ (eq_sym (repeat_length _ _))) E) as (_ & P & _). destruct (P 0%nat r eq_refl) as (_ & _ & _ & _ & _ & _ & Bad & _). contradiction.
Qed.

(** *** another output parametrization *)
Definition last_values (ny : mem) (z : list R) : Prop := z = List.map ny (seq 0 (dimY pf)).
Lemma out_row i r ny out : sample_of pd r -> nth_error out i <> None -> Forall (sample_of pf) out -> dimX pf = dimX pd ->
  forall z, channels (dimY pd) (dimY pf) (values pd r) (List.map ny (seq 0 (dimY pf))) z ->
  exists ny' out', adapt_out_row pf pd i r (ny, out) = Ok (ny', out') /\ last_values ny' z /\ length out' = length out /\ Forall (sample_of pf) out' /\ nth_error out' i = Some (firstn (dimX pd) r ++ z) /\ forall j, j <> i -> nth_error out' j = nth_error out j.
Proof.
  intros Hr Hi Hs HX z Hz. unfold adapt_out_row. pose proof Hr as Lr. unfold sample_of in Lr. destruct Rf as (Nf & Xf & Yf), Rd as (Nd & Xd & Yd).
  destruct (Nat.ltb_spec (length r) (dimX pd)); [lia|]. destruct (Nat.ltb_spec (length r) (dimY pd)); [lia|]. rewrite split_y_values by assumption.
  assert (Lv : length (values pd r) = dimY pd) by (unfold values; rewrite skipn_length; lia).
  destruct (channels_ok pd pf Rd (values pd r) (List.map ny (seq 0 (dimY pf))) ny Lv) as [C _]; [rewrite map_length, seq_length; reflexivity|intros j Hj; rewrite nth_map_seq by assumption; reflexivity|].
  destruct (C z Hz) as (ny' & -> & Ez). cbn [bind]. rewrite Ez. unfold split_x. destruct (nth_error out i) as [old|] eqn:En; [|congruence].
  assert (Lz : length z = dimY pf) by (rewrite <- Ez, map_length, seq_length; reflexivity). assert (Ln : sample_of pf (firstn (dimX pd) r ++ z)) by (unfold sample_of; rewrite app_length, firstn_length; lia).
  destruct (set_row_total i (firstn (dimX pd) r ++ z) out old En) as [out' Es]; [rewrite Forall_forall in Hs; rewrite (Hs old) by (apply nth_error_In in En; assumption); symmetry; exact Ln|]. rewrite Es. cbn [bind]. exists ny', out'. split; [reflexivity|]. split; [symmetry; exact Ez|].
  destruct (set_row_ok _ _ _ _ Es) as (_ & Hl & Hn & Ho & _). split; [assumption|]. split; [|auto]. apply Forall_forall. intros q Hq. apply In_nth_error in Hq. destruct Hq as [k Hk]. destruct (Nat.eq_dec k i) as [->|Nk]; [congruence|]. rewrite Ho in Hk by assumption. rewrite Forall_forall in Hs. apply Hs. apply nth_error_In in Hk. assumption.
Qed.

(** the values written for the samples one after another *)
Inductive chain : list R -> list (list R) -> list (list R) -> Prop :=
| chain_nil z0 : chain z0 [] []
| chain_cons z0 r rows z zs : channels (dimY pd) (dimY pf) (values pd r) z0 z -> chain z rows zs -> chain z0 (r :: rows) (z :: zs).
Lemma out_loop rows : forall s ny out zs, Forall (sample_of pd) rows -> (s + length rows <= length out)%nat -> Forall (sample_of pf) out -> dimX pf = dimX pd -> chain (List.map ny (seq 0 (dimY pf))) rows zs ->
  exists ny' out', each (adapt_out_row pf pd) s rows (ny, out) = Ok (ny', out') /\ length out' = length out /\
    (forall k r z, nth_error rows k = Some r -> nth_error zs k = Some z -> nth_error out' (s + k) = Some (firstn (dimX pd) r ++ z)) /\ (forall j, (j < s)%nat -> nth_error out' j = nth_error out j).
Proof.
  induction rows as [|r rows IH]; intros s ny out zs Hs L Ho HX Hc; cbn [each].
  - exists ny, out. split; [reflexivity|]. split; [reflexivity|]. split; [intros [|k] ? ? Hk; discriminate|reflexivity].
  - inversion_clear Hs as [|? ? H1 H2]. inversion_clear Hc as [|? ? ? z zs' Hz Hc']. cbn [length] in L. destruct (out_row s r ny out H1 ltac:(apply nth_error_Some; lia) Ho HX z Hz) as (ny1 & out1 & -> & Lz & L1 & Ho1 & Hn & Hf). cbn [bind].
    unfold last_values in Lz. rewrite Lz in Hc'. assert (L2 : (S s + length rows <= length out1)%nat) by lia. destruct (IH (S s) ny1 out1 _ H2 L2 Ho1 HX Hc') as (ny' & out' & E & L' & P & U). exists ny', out'. split; [exact E|]. split; [lia|]. split.
    + intros [|k] r' z' Hr Hz'; cbn in Hr, Hz'; [injection Hr as <-; injection Hz' as <-; rewrite Nat.add_0_r, U by lia; assumption|]. replace (s + S k)%nat with (S s + k)%nat by lia. apply P; assumption.
    + intros j Hj. rewrite U by lia. apply Hf. lia.
Qed.
Lemma map_const n : forall s, List.map (fun _ : nat => 0) (seq s n) = repeat 0 n.
Proof. induction n as [|n IH]; intros s; [reflexivity|]. cbn. f_equal. apply IH. Qed.
Lemma chain_length z0 rows zs : chain z0 rows zs -> length zs = length rows.
Proof. induction 1; cbn; congruence. Qed.
Theorem adapt_output rows zs : Forall (sample_of pd) rows -> in_param pd = in_param pf -> out_param pd <> out_param pf -> chain (repeat 0 (dimY pf)) rows zs ->
  exists out, adapt pf pd rows = Ok (pf, out) /\ length out = length rows /\ forall k r z, nth_error rows k = Some r -> nth_error zs k = Some z -> nth_error out k = Some (firstn (dimX pd) r ++ z).
Proof.
  intros Hs Ei No Hc. unfold adapt. destruct (input_eqb_spec (in_param pd) (in_param pf)) as [_|]; [|contradiction]. destruct (output_eqb_spec (out_param pd) (out_param pf)) as [|_]; [contradiction|]. cbn [andb].
  assert (HX : dimX pf = dimX pd) by (destruct Rf as (_ & -> & _), Rd as (_ & -> & _); congruence). rewrite <- (map_const (dimY pf) 0) in Hc.
  destruct (out_loop rows 0 (fun _ => 0) (repeat (repeat 0 (dimX pf + dimY pf)) (length rows)) zs Hs) as (ny' & out' & E & L & P & _); try assumption.
  - rewrite repeat_length. lia.
  - apply Forall_forall. intros q Hq. apply repeat_spec in Hq. subst q. apply repeat_length.
  - exists out'. match goal with |- bind ?x _ = _ /\ _ => replace x with (Ok (ny', out')) by (symmetry; exact E) end. cbn [bind snd]. split; [reflexivity|]. rewrite repeat_length in L. split; [exact L|exact P].
Qed.

(** equal numbers of channels, or one: every sample on its own *)
Lemma chain_plain rows zs : (dimY pd = dimY pf \/ dimY pd = 1%nat) -> length zs = length rows -> (forall k r z, nth_error rows k = Some r -> nth_error zs k = Some z -> channels (dimY pd) (dimY pf) (values pd r) (repeat 0 (dimY pf)) z) -> forall z0, chain z0 rows zs.
Proof.
  intros HY. revert zs. induction rows as [|r rows IH]; intros [|z zs] L H z0; try discriminate; [constructor|]. constructor.
  - specialize (H 0%nat r z eq_refl eq_refl). destruct H as [A ->|A B ->|A B ->]; [apply same_channels; auto|apply broadcast; auto|]. exfalso. destruct HY; lia.
  - apply IH; [cbn in L; lia|]. intros k. apply (H (S k)).
Qed.
Theorem adapt_output_plain rows out : Forall (sample_of pd) rows -> in_param pd = in_param pf -> out_param pd <> out_param pf -> (dimY pd = dimY pf \/ dimY pd = 1%nat) ->
  adapt pf pd rows = Ok (pf, out) <-> pointwise (rechanneled pf pd) rows out.
Proof.
  intros Hs Ei No HY. set (val_of := fun r => if (dimY pd =? dimY pf)%nat then values pd r else repeat (hd 0 (values pd r)) (dimY pf)).
  assert (Hv : forall r, channels (dimY pd) (dimY pf) (values pd r) (repeat 0 (dimY pf)) (val_of r)).
  { intros r. unfold val_of. destruct (Nat.eqb_spec (dimY pd) (dimY pf)) as [E|N]; [apply same_channels; auto|]. destruct HY as [|H1]; [contradiction|]. apply broadcast; [assumption|lia|reflexivity]. }
  assert (Hc : chain (repeat 0 (dimY pf)) rows (List.map val_of rows)).
  { apply chain_plain; [assumption|apply map_length|]. intros k r z Hr Hz. rewrite nth_error_map, Hr in Hz. injection Hz as <-. apply Hv. }
  destruct (adapt_output rows _ Hs Ei No Hc) as (out0 & E & L & P). rewrite E.
  assert (Pw : pointwise (rechanneled pf pd) rows out0).
  { split; [congruence|]. intros i x y Hx Hy. exists (val_of x). split; [apply Hv|]. specialize (P i x (val_of x) Hx). rewrite nth_error_map, Hx in P. rewrite (P eq_refl) in Hy. injection Hy as <-. reflexivity. }
  split; [intros H; injection H as <-; assumption|]. intros [L2 P2]. do 2 f_equal. destruct Pw as [L1 P1]. apply pointwise_eq. split; [congruence|]. intros i a b Ha Hb. destruct (nth_error_ex rows i) as [x Hx]; [rewrite L1; apply nth_error_Some; congruence|].
  destruct (P1 i x a Hx Ha) as (z & Cz & ->), (P2 i x b Hx Hb) as (z' & Cz' & ->). f_equal. destruct Cz as [A ->|A B ->|A B ->], Cz' as [A' ->|A' B' ->|A' B' ->]; try reflexivity; try lia; exfalso; destruct Rf as (_ & _ & ?), Rd as (_ & _ & ?); lia.
Qed.

(** three channels to one *)
Lemma chain_average rows : dimY pf = 1%nat -> (1 < dimY pd)%nat -> forall a0, exists zs, chain [a0] rows zs /\ length zs = length rows /\
  forall k r z, nth_error rows k = Some r -> nth_error zs k = Some z -> z = [(hd 0 (nth k ([a0] :: zs) []) + fold_right Rplus 0 (values pd r)) / INR (dimY pd)].
Proof.
  intros H1 H3. induction rows as [|r rows IH]; intros a0.
  - exists []. split; [constructor|]. split; [reflexivity|]. intros [|k] ? ? Hk; discriminate.
  - set (a := (a0 + fold_right Rplus 0 (values pd r)) / INR (dimY pd)). destruct (IH a) as (zs & C & L & P). exists ([a] :: zs). split; [constructor; [apply averaged; auto|assumption]|]. split; [cbn; congruence|].
    intros [|k] r' z Hr Hz; cbn in Hr, Hz; [injection Hr as <-; injection Hz as <-; reflexivity|]. rewrite (P k r' z Hr Hz). reflexivity.
Qed.
Theorem adapt_output_average rows : Forall (sample_of pd) rows -> in_param pd = in_param pf -> out_param pd <> out_param pf -> dimY pf = 1%nat -> (1 < dimY pd)%nat ->
  exists out a, adapt pf pd rows = Ok (pf, out) /\ length out = length rows /\ a 0%nat = 0 /\
    forall k r, nth_error rows k = Some r -> a (S k) = (a k + fold_right Rplus 0 (values pd r)) / INR (dimY pd) /\ nth_error out k = Some (firstn (dimX pd) r ++ [a (S k)]).
Proof.
  intros Hs Ei No H1 H3. destruct (chain_average rows H1 H3 0) as (zs & C & L & P). assert (C' : chain (repeat 0 (dimY pf)) rows zs) by (rewrite H1; exact C).
  destruct (adapt_output rows zs Hs Ei No C') as (out & E & Lo & Q). exists out, (fun k => hd 0 (nth k ([0] :: zs) [])). split; [assumption|]. split; [assumption|]. split; [reflexivity|]. intros k r Hr.
  destruct (nth_error_ex zs k) as [z Hz]; [rewrite L; apply nth_error_Some; congruence|]. specialize (P k r z Hr Hz). specialize (Q k r z Hr Hz). cbn [nth]. rewrite (nth_error_nth _ _ [] Hz). rewrite P at 1. split; [reflexivity|]. rewrite Q. do 2 f_equal. rewrite P. reflexivity.
Qed.
End Adapt.

Theorem adapt_same pf pd rows : in_param pd = in_param pf -> out_param pd = out_param pf -> adapt pf pd rows = Ok (pd, rows).
Proof. intros Ei Eo. unfold adapt. destruct (input_eqb_spec (in_param pd) (in_param pf)) as [_|]; [|contradiction]. destruct (output_eqb_spec (out_param pd) (out_param pf)) as [_|]; [reflexivity|contradiction]. Qed.
Theorem adapt_both pf pd rows : in_param pd <> in_param pf -> out_param pd <> out_param pf -> adapt pf pd rows = Abort.
Proof. intros Ei Eo. unfold adapt. destruct (input_eqb_spec (in_param pd) (in_param pf)) as [|_]; [contradiction|]. destruct (output_eqb_spec (out_param pd) (out_param pf)) as [|_]; [contradiction|reflexivity]. Qed.

(** ** the statistics *)
Section Stats.
Variable pf : parameters.
Variable val : list R -> outcome (list R).

Lemma values_at_ok pc rows : forall l, Forall (sample_of pc) rows -> values_at pf val pc rows = Ok l ->
  length (fst l) = length rows /\ length (snd l) = length rows /\
  forall k r, nth_error rows k = Some r -> exists v, val (firstn (dimX pc) r) = Ok v /\ length v = dimY pf /\ nth_error (fst l) k = Some (values pc r) /\ nth_error (snd l) k = Some v.
Proof.
  induction rows as [|r rows IH]; intros l Hs H; cbn [values_at] in H.
  - apply Ok_inj in H. subst l. split; [reflexivity|]. split; [reflexivity|]. intros [|k] ? Hk; discriminate.
  - inversion_clear Hs as [|? ? H1 H2]. unfold sample_of in H1. destruct (Nat.ltb_spec (length r) (dimX pc)); [discriminate|]. destruct (Nat.ltb_spec (length r) (dimY pc)); [discriminate|].
    destruct (val (firstn (dimX pc) r)) as [v| | |] eqn:Ev; cbn [bind] in H; try discriminate. destruct (Nat.eqb_spec (length v) (dimY pf)) as [Lv|]; cbn [negb] in H; [|discriminate].
    destruct (values_at pf val pc rows) as [l'| | |] eqn:E; cbn [bind] in H; try discriminate. apply Ok_inj in H. subst l. destruct (IH l' H2 eq_refl) as (L1 & L2 & P). cbn [fst snd length]. split; [congruence|]. split; [congruence|].
    intros [|k] r' Hr; cbn in Hr; [injection Hr as <-|apply P; assumption]. exists v. replace (length r - dimY pc)%nat with (dimX pc) by lia. auto.
Qed.
Lemma values_at_total pc rows : Forall (sample_of pc) rows -> Forall (fun r => exists v, val (firstn (dimX pc) r) = Ok v /\ length v = dimY pf) rows -> exists l, values_at pf val pc rows = Ok l.
Proof.
  induction rows as [|r rows IH]; intros Hs H; cbn [values_at]; [eauto|]. inversion_clear Hs as [|? ? H1 H2]. inversion_clear H as [|? ? (v & Ev & Lv) H4]. unfold sample_of in H1.
  destruct (Nat.ltb_spec (length r) (dimX pc)) as [|_]; [lia|]. destruct (Nat.ltb_spec (length r) (dimY pc)) as [|_]; [lia|]. rewrite Ev. cbn [bind]. rewrite Lv, Nat.eqb_refl. cbn [negb]. destruct (IH H2 H4) as [lv ->]. cbn [bind]. eauto.
Qed.
Lemma cosines_ok rows : forall w, cosines rows = Ok w -> fst w = List.map (fun r => nth 2 r 0) rows /\ snd w = List.map (fun r => nth 5 r 0) rows.
Proof.
  induction rows as [|r rows IH]; intros w H; cbn [cosines] in H; [apply Ok_inj in H; subst; auto|].
  destruct (nth_checked r 2) as [a| | |] eqn:Ea; cbn [bind] in H; try discriminate. destruct (nth_checked r 5) as [b| | |] eqn:Eb; cbn [bind] in H; try discriminate. destruct (cosines rows) as [l| | |]; cbn [bind] in H; try discriminate.
  apply Ok_inj in H. subst w. destruct (IH l eq_refl) as [-> ->]. apply nth_checked_inv in Ea, Eb. destruct Ea as [_ ->], Eb as [_ ->]. split; reflexivity.
Qed.
Lemma cosines_total rows : Forall (fun r => (6 <= length r)%nat) rows -> exists w, cosines rows = Ok w.
Proof. induction rows as [|r rows IH]; intros H; cbn [cosines]; [eauto|]. inversion_clear H as [|? ? H1 H2]. rewrite !nth_checked_ok by lia. cbn [bind]. destruct (IH H2) as [w ->]. cbn [bind]. eauto. Qed.

(** squares of weighted errors *)
Lemma weighted_sum c : forall errs ws, length errs = length ws ->
  rsum (List.map (fun q => (fst q * snd q) * (fst q * snd q)) (combine (column c errs) ws)) = total (fun x => x * x) (List.map (fun q => nth c (fst q) 0 * snd q) (combine errs ws)).
Proof. induction errs as [|e errs IH]; intros [|w ws] L; try discriminate; [reflexivity|]. cbn [column List.map combine rsum total fst snd]. f_equal. apply IH. cbn in L. lia. Qed.
Lemma nth_map_sqrt (m : list R) c : (c < length m)%nat -> nth c (List.map sqrt m) 0 = sqrt (nth c m 0).
Proof. intros H. rewrite (nth_indep _ 0 (sqrt 0)) by (rewrite map_length; assumption). apply map_nth. Qed.
Notation weighted_report := (weighted_report (dimY pf)).
Lemma weighted_ok dy fy ws : length dy = length fy -> length ws = length dy -> weighted_report (msub dy fy) ws (weighted (dimY pf) dy fy ws).
Proof.
  intros L1 L2. unfold weighted_report, weighted. cbn [fst snd]. rewrite !map_length, !seq_length. split; [reflexivity|]. split; [reflexivity|]. intros c Hc.
  assert (E : nth c (List.map (fun c => rsum (List.map (fun q => (fst q * snd q) * (fst q * snd q)) (combine (column c (msub dy fy)) ws)) / INR (length dy)) (seq 0 (dimY pf))) 0 =
    total (fun x => x * x) (List.map (fun q => nth c (fst q) 0 * snd q) (combine (msub dy fy) ws)) / INR (length (msub dy fy))).
  { rewrite nth_map_seq by assumption. rewrite weighted_sum by (rewrite msub_length by assumption; congruence). rewrite msub_length by assumption. reflexivity. }
  split; [exact E|]. rewrite nth_map_sqrt by (rewrite map_length, seq_length; assumption). rewrite E. split; [apply sqrt_pos|]. cbn [pow]. rewrite Rmult_1_r. apply sqrt_sqrt.
  apply Rmult_le_pos; [apply total_pos, sq_pos|]. destruct (length (msub dy fy)) as [|n]; [cbn; rewrite Rinv_0; lra|]. left. apply Rinv_0_lt_compat. apply lt_0_INR. lia.
Qed.
Lemma fit2stat_inv pd rows rep : fit2stat pf val pd rows = Ok rep -> exists pc conv, adapt pf pd rows = Ok (pc, conv) /\ in_param pc = CARTESIAN /\ dimY pc = dimY pf.
Proof.
  unfold fit2stat. destruct (adapt pf pd rows) as [[pc conv]| | |]; cbn [bind]; try discriminate. cbn [fst snd]. destruct (values_at _ _ _ _) as [l| | |]; cbn [bind]; try discriminate.
  destruct (Nat.eqb_spec (dimY pc) (dimY pf)) as [E|]; cbn [negb]; [|discriminate]. cbv zeta. destruct (input_eqb_spec (in_param pc) CARTESIAN) as [E2|]; cbn [negb]; [|discriminate]. intros _. eauto.
Qed.
Lemma adapt_param pd rows pc conv : adapt pf pd rows = Ok (pc, conv) -> in_param pc = in_param pf.
Proof.
  unfold adapt. destruct (input_eqb_spec (in_param pd) (in_param pf)) as [E|]; destruct (output_eqb_spec (out_param pd) (out_param pf)); cbn [andb]; try discriminate.
  - intros H. injection H as <- _. assumption.
  - destruct (each _ _ _ _); cbn [bind]; try discriminate. intros H. injection H as <- _. reflexivity.
  - destruct (each _ _ _ _); cbn [bind]; try discriminate. intros H. injection H as <- _. reflexivity.
Qed.
Theorem fit2stat_cartesian pd rows rep : fit2stat pf val pd rows = Ok rep -> in_param pf = CARTESIAN.
Proof. intros H. destruct (fit2stat_inv _ _ _ H) as (pc & conv & E & C & _). rewrite <- (adapt_param _ _ _ _ E). assumption. Qed.

Theorem fit2stat_ok pd rows rep : fit2stat pf val pd rows = Ok rep -> forall pc conv, adapt pf pd rows = Ok (pc, conv) -> Forall (sample_of pc) conv ->
  exists errs, pointwise (error_at pc val) conv errs /\ reports (dimY pf) (plain rep) errs /\
    weighted_report errs (List.map (fun r => nth 2 r 0) conv) (by_light rep) /\ weighted_report errs (List.map (fun r => nth 2 r 0 * nth 5 r 0) conv) (by_both rep).
Proof.
  intros H pc conv Ea Hs. unfold fit2stat in H. rewrite Ea in H. cbn [bind fst snd] in H. destruct (values_at pf val pc conv) as [l| | |] eqn:Ev; cbn [bind] in H; try discriminate.
  destruct (Nat.eqb_spec (dimY pc) (dimY pf)) as [EY|]; cbn [negb] in H; [|discriminate]. cbv zeta in H. destruct (input_eqb (in_param pc) CARTESIAN); cbn [negb] in H; [|discriminate].
  destruct (cosines conv) as [w| | |] eqn:Ew; cbn [bind] in H; try discriminate. apply Ok_inj in H. subst rep. cbn [plain by_light by_both].
  destruct (values_at_ok _ _ _ Hs Ev) as (L1 & L2 & P). destruct (cosines_ok _ _ Ew) as [W1 W2]. exists (msub (fst l) (snd l)).
  assert (Lm : length (msub (fst l) (snd l)) = length (fst l)) by (apply msub_length; congruence). split.
  - split; [congruence|]. intros i x y Hx Hy. destruct (P i x Hx) as (v & Hv & Lv & N1 & N2). rewrite (msub_nth _ _ _ _ _ N1 N2) in Hy. injection Hy as <-. exists v. split; [assumption|]. split; [congruence|].
    assert (Lx : length (values pc x) = dimY pc) by (unfold values; rewrite skipn_length; rewrite Forall_forall in Hs; rewrite (Hs x) by (apply nth_error_In in Hx; assumption); lia).
    split; [rewrite map_length, combine_length; lia|]. intros c _. apply diff_nth. congruence.
  - split; [apply fast_reports; congruence|]. split; [rewrite <- W1; apply weighted_ok; [congruence|rewrite W1, map_length; congruence]|].
    assert (Eb : List.map (fun q => fst q * snd q) (combine (fst w) (snd w)) = List.map (fun r => nth 2 r 0 * nth 5 r 0) conv).
    { rewrite W1, W2. clear. induction conv as [|r conv IH]; [reflexivity|]. cbn. f_equal. exact IH. }
    rewrite Eb. apply weighted_ok; [congruence|rewrite map_length; congruence].
Qed.
Theorem fit2stat_defined pd rows pc conv errs : adapt pf pd rows = Ok (pc, conv) -> in_param pf = CARTESIAN -> (6 <= dimX pc)%nat -> dimY pc = dimY pf -> Forall (sample_of pc) conv -> pointwise (error_at pc val) conv errs ->
  exists rep, fit2stat pf val pd rows = Ok rep.
Proof.
  intros Ea Ec H6 EY Hs [L P]. unfold fit2stat. rewrite Ea. cbn [bind fst snd]. destruct (values_at_total pc conv Hs) as [l ->].
  - apply Forall_forall. intros r Hr. apply In_nth_error in Hr. destruct Hr as [k Hk]. destruct (nth_error_ex errs k) as [e He]; [rewrite <- L; apply nth_error_Some; congruence|]. destruct (P k r e Hk He) as (v & Hv & Lv & _). exists v. split; [assumption|congruence].
  - cbn [bind]. rewrite EY, Nat.eqb_refl. cbn [negb]. cbv zeta. rewrite (adapt_param _ _ _ _ Ea), Ec. change (input_eqb CARTESIAN CARTESIAN) with true. cbn [negb].
    destruct (cosines_total conv) as [w ->]; [|cbn [bind]; eauto]. apply Forall_forall. intros r Hr. rewrite Forall_forall in Hs. rewrite (Hs r Hr). lia.
Qed.
End Stats.

(** Proofs for C120: one access. *)
From Coq Require Import Reals List Lia Lra Permutation.
From Verif Require Import Base ParamsModel ParamsProofs GeoModel GeoSpec GeoProofs GeoApi CommonModel TextModel TextProofs NlMoreModel FuncModel MetricsModel MetricsProofs FitModel FitProofs ConvModel ConvSpec ConvProofs ConvProofs2 ConvProofs3 ParModel ParSpec.
Open Scope R_scope.

Lemma put_length {A} i (a : A) l : (i < length l)%nat -> length (put i a l) = length l.
Proof. intros H. unfold put. rewrite app_length. cbn [length]. rewrite firstn_length, skipn_length. lia. Qed.
Lemma put_same {A} i (a : A) l : (i < length l)%nat -> nth_error (put i a l) i = Some a.
Proof. intros H. unfold put. rewrite nth_error_app2; rewrite firstn_length; [|lia]. replace (i - Nat.min i (length l))%nat with 0%nat by lia. reflexivity. Qed.
Lemma put_other {A} i j (a : A) l : (i < length l)%nat -> j <> i -> nth_error (put i a l) j = nth_error l j.
Proof.
  intros H N. unfold put. revert i j H N. induction l as [|b l IH]; intros i j H N; [cbn in H; lia|]. destruct i as [|i]; destruct j as [|j]; cbn; try reflexivity; try contradiction.
  apply (IH i j); [cbn in H; lia|congruence].
Qed.
Lemma nth_lt {A} (l : list A) i a : nth_error l i = Some a -> (i < length l)%nat.
Proof. intros H. apply nth_error_Some. congruence. Qed.
(** writing one entry moves the limit between new and old *)
Lemma put_limit {A} (o x : list A) k v : length x = length o -> nth_error o k = Some v -> put k v (firstn k o ++ skipn k x) = firstn (S k) o ++ skipn (S k) x.
Proof.
  revert x k. induction o as [|b o IH]; intros x k L H; [destruct k; discriminate|]. destruct x as [|a x]; [discriminate|]. destruct k as [|k]; cbn in H |- *.
  - injection H as ->. unfold put. cbn. reflexivity.
  - cbn. unfold put in *. cbn. f_equal. apply IH; [cbn in L; lia|assumption].
Qed.
Lemma mix_length {A} (o x : list A) k : length x = length o -> length (firstn k o ++ skipn k x) = length o.
Proof. intros L. rewrite app_length, firstn_length, skipn_length. lia. Qed.

Section Par.
Variable junk : R.
Variable pin pout : parameters.
Variable val : list R -> outcome (list R).
Hypothesis Rin : regular pin.
Hypothesis Rout : regular pout.
Hypothesis Hval : forall w y, val w = Ok y -> length y = dimY pin.

Local Notation look := (look junk pin pout val).
Local Notation write_over := (write_over pin pout).
Local Notation access := (access junk pin pout val).
Local Notation interleave := (interleave junk pin pout val).

(** what an iteration writes *)
Definition final (x : list R) : outcome (list R) :=
  do l <- look x; write_over x (match l with Some y => y | None => repeat 0 (dimY pin) end).
Lemma interp_row_final i out x : nth_error out i = Some x -> interp_row junk pin pout val i out = do o <- final x; set_row i o out.
Proof.
  intros H. unfold interp_row, final, ParModel.look, ParModel.write_over. rewrite H. destruct (length x <? Z.to_nat (dimension_in (in_param pout)))%nat; [reflexivity|].
  destruct (convert (row_mem x) (in_param pout) CARTESIAN (fun _ => junk)) as [cart| | |]; cbn [bind]; try reflexivity.
  destruct (rleb 0 (cart 2%nat) && rleb 0 (cart 5%nat))%bool; cbn [bind].
  - destruct (dimX pin <? Z.to_nat (dimension_in (in_param pin)))%nat; [reflexivity|]. destruct (convert cart CARTESIAN (in_param pin) (fun _ => junk)) as [temp| | |]; cbn [bind]; try reflexivity.
    destruct (val _) as [y| | |]; cbn [bind]; try reflexivity. destruct (length y <? dimY pin)%nat; [reflexivity|]. destruct (length x <? dimX pout + dimY pout)%nat; [reflexivity|].
    destruct (convert_out _ _ _ _); reflexivity.
  - destruct (length (repeat 0%R (dimY pin)) <? dimY pin)%nat; [reflexivity|]. destruct (length x <? dimX pout + dimY pout)%nat; [reflexivity|].
    destruct (convert_out _ _ _ _); reflexivity.
Qed.
Lemma write_over_length x y o : sample_of pout x -> write_over x y = Ok o -> length o = length x.
Proof.
  unfold ParModel.write_over, sample_of. intros L. destruct (length y <? dimY pin)%nat; [discriminate|]. destruct (length x <? dimX pout + dimY pout)%nat; [discriminate|].
  destruct (convert_out _ _ _ _) as [z| | |]; cbn [bind]; try discriminate. intros H. apply Ok_inj in H. subst o. rewrite !app_length, firstn_length, map_length, seq_length, skipn_length. lia.
Qed.
Lemma final_iff x o : sample_of pout x -> (final x = Ok o <-> interpolated pin pout val x o).
Proof.
  intros Sx.
  assert (Fwd : forall o, final x = Ok o -> interpolated pin pout val x o).
  { intros o1 H. assert (L : length o1 = length x). { unfold final in H. destruct (look x) as [l| | |]; cbn [bind] in H; try discriminate. apply (write_over_length _ _ _ Sx H). }
    pose proof (interp_row_final 0 [x] x eq_refl) as E. rewrite H in E. cbn [bind] in E. unfold set_row in E. cbn [nth_error] in E. rewrite L, Nat.eqb_refl in E. cbn [firstn skipn app] in E.
    destruct (interp_row_ok junk pin pout val Rin Rout Hval 0 [x] x eq_refl Sx _ E) as (o2 & Io & _ & N & _). cbn [nth_error] in N. injection N as Eo. rewrite Eo. assumption. }
  split; [apply Fwd|]. intros H. destruct (interp_row_total junk pin pout val Rin Rout Hval 0 [x] x o eq_refl Sx H) as [out' E]. rewrite (interp_row_final 0 [x] x eq_refl) in E.
  destruct (final x) as [o1| | |] eqn:F; cbn [bind] in E; try discriminate. f_equal. apply (interpolated_fun junk pin pout val Rin Rout Hval x); [assumption|apply Fwd; reflexivity|assumption].
Qed.

Lemma look_hidden x l : look x = Ok l -> (l = None <-> below pout x).
Proof.
  unfold ParModel.look. destruct (length x <? Z.to_nat (dimension_in (in_param pout)))%nat; [discriminate|].
  destruct (convert (row_mem x) (in_param pout) CARTESIAN (fun _ => junk)) as [cart| | |] eqn:E; cbn [bind]; try discriminate.
  destruct Rout as (No & _ & _). destruct (cart_ex _ _ _ _ E) as [c Cc]. destruct (cart_nth _ _ _ No Cc _ _ E) as (E2 & E5 & _).
  destruct (rleb 0 (cart 2%nat) && rleb 0 (cart 5%nat))%bool eqn:Eb.
  - destruct (dimX pin <? Z.to_nat (dimension_in (in_param pin)))%nat; [discriminate|]. destruct (convert cart CARTESIAN (in_param pin) (fun _ => junk)) as [temp| | |]; cbn [bind]; try discriminate.
    destruct (val _) as [y| | |]; cbn [bind]; try discriminate. intros H. apply Ok_inj in H. subst l. split; [discriminate|]. intros (c' & Cc' & V). rewrite (converts_fun _ _ _ _ _ Cc' Cc) in V. rewrite E2, E5 in V.
    apply andb_prop in Eb. destruct Eb as [B2 B5]. apply rleb_iff in B2, B5. lra.
  - intros H. apply Ok_inj in H. subst l. split; [intros _|reflexivity]. exists c. split; [assumption|]. rewrite E2, E5. apply Bool.andb_false_iff in Eb.
    destruct Eb as [Eb|Eb]; [left|right]; apply Rnot_le_lt; intros Hn; apply rleb_iff in Hn; congruence.
Qed.

(** ** The invariant *)
Definition phase_inv (x0 row : list R) (ph : phase) : Prop :=
  match ph with
  | Reading acc => row = x0 /\ acc = firstn (length acc) x0 /\ (length acc <= length x0)%nat
  | Looking x => row = x0 /\ x = x0
  | Counting x => row = x0 /\ x = x0 /\ look x0 = Ok None
  | Counted x _ => row = x0 /\ x = x0 /\ look x0 = Ok None
  | Writing o k => final x0 = Ok o /\ length x0 = length o /\ (k <= length o)%nat /\ row = firstn k o ++ skipn k x0
  | Finished => final x0 = Ok row
  end.
Definition past (ph : phase) : Prop := match ph with Writing _ _ | Finished => True | _ => False end.
(** [l] are the iterations that have stored the counter *)
Definition stored (out : list (list R)) (m : machine) (l : list nat) : Prop :=
  NoDup l /\ (forall i, In i l <-> exists x ph, nth_error out i = Some x /\ look x = Ok None /\ nth_error (m_at m) i = Some ph /\ past ph) /\
  (m_count m <= length l)%nat /\ (l <> [] -> 1 <= m_count m)%nat /\ forall i x c, nth_error (m_at m) i = Some (Counted x c) -> (c <= length l)%nat.
Definition minv (out : list (list R)) (m : machine) : Prop :=
  length (m_rows m) = length out /\ length (m_at m) = length out /\
  (forall i x0 row ph, nth_error out i = Some x0 -> nth_error (m_rows m) i = Some row -> nth_error (m_at m) i = Some ph -> phase_inv x0 row ph) /\
  exists l, stored out m l.

Lemma minv_begin out : minv out (begin_loop out).
Proof.
  assert (A : forall i ph, nth_error (m_at (begin_loop out)) i = Some ph -> ph = Reading []) by (intros i ph H; apply nth_error_In in H; apply repeat_spec in H; assumption).
  split; [reflexivity|]. split; [apply repeat_length|]. split.
  - intros i x0 row ph Hx Hr Hp. rewrite (A _ _ Hp). cbn in Hr |- *. split; [congruence|]. split; [reflexivity|lia].
  - exists []. split; [constructor|]. split; [|split; [cbn; lia|split; [contradiction|intros i x c H; discriminate (A _ _ H)]]].
    intros i. split; [contradiction|]. intros (x & ph & _ & _ & Hp & P). rewrite (A _ _ Hp) in P. contradiction.
Qed.

(** one access of iteration [i], which is somewhere *)
Inductive moved (i : nat) (m : machine) (x0 : list R) : machine -> Prop :=
| m_read acc v : nth_error (m_at m) i = Some (Reading acc) -> nth_error x0 (length acc) = Some v -> moved i m x0 (go i (Reading (acc ++ [v])) m)
| m_copied : nth_error (m_at m) i = Some (Reading x0) -> moved i m x0 (go i (Looking x0) m)
| m_seen o : nth_error (m_at m) i = Some (Looking x0) -> final x0 = Ok o -> look x0 <> Ok None -> length x0 = length o -> moved i m x0 (go i (Writing o 0) m)
| m_below : nth_error (m_at m) i = Some (Looking x0) -> look x0 = Ok None -> moved i m x0 (go i (Counting x0) m)
| m_load : nth_error (m_at m) i = Some (Counting x0) -> look x0 = Ok None -> moved i m x0 (go i (Counted x0 (m_count m)) m)
| m_store c o : nth_error (m_at m) i = Some (Counted x0 c) -> look x0 = Ok None -> final x0 = Ok o -> length x0 = length o ->
    moved i m x0 (mkM (m_rows m) (S c) (put i (Writing o 0) (m_at m)))
| m_write o k v : nth_error (m_at m) i = Some (Writing o k) -> final x0 = Ok o -> length x0 = length o -> nth_error o k = Some v ->
    moved i m x0 (mkM (put i (firstn (S k) o ++ skipn (S k) x0) (m_rows m)) (m_count m) (put i (Writing o (S k)) (m_at m)))
| m_end o k : nth_error (m_at m) i = Some (Writing o k) -> final x0 = Ok o -> length x0 = length o -> nth_error (m_rows m) i = Some o -> k = length o -> moved i m x0 (go i Finished m)
| m_idle : nth_error (m_at m) i = Some Finished -> moved i m x0 m.

Lemma access_moves out m i x0 : Forall (sample_of pout) out -> minv out m -> nth_error out i = Some x0 -> forall m', access i m = Ok m' -> moved i m x0 m'.
Proof.
  intros Hs (Lr & La & I & _) Hx m' H. assert (Sx : sample_of pout x0) by (rewrite Forall_forall in Hs; apply Hs; apply nth_error_In in Hx; assumption).
  pose proof (nth_lt _ _ _ Hx) as Li. destruct (nth_error (m_rows m) i) as [row|] eqn:Er; [|apply nth_error_None in Er; lia]. destruct (nth_error (m_at m) i) as [ph|] eqn:Ep; [|apply nth_error_None in Ep; lia].
  pose proof (I i x0 row ph Hx Er Ep) as P. unfold ParModel.access in H. rewrite Er, Ep in H. destruct ph as [acc|x|x|x c|o k|]; cbn [phase_inv] in P.
  - destruct P as (-> & Ea & Lacc). destruct (nth_error x0 (length acc)) as [v|] eqn:Ev; apply Ok_inj in H; subst m'.
    + apply m_read; assumption.
    + apply nth_error_None in Ev. assert (E : acc = x0) by (rewrite Ea; apply firstn_all2; lia). rewrite E in *. apply m_copied. assumption.
  - destruct P as (-> & ->). destruct (look x0) as [l| | |] eqn:El; cbn [bind] in H; try discriminate. destruct l as [y|].
    + destruct (write_over x0 y) as [o| | |] eqn:Eo; cbn [bind] in H; try discriminate. apply Ok_inj in H. subst m'. apply m_seen; [assumption|unfold final; rewrite El; assumption|congruence|]. symmetry. apply (write_over_length _ _ _ Sx Eo).
    + apply Ok_inj in H. subst m'. apply m_below; assumption.
  - destruct P as (-> & -> & El). apply Ok_inj in H. subst m'. apply m_load; assumption.
  - destruct P as (-> & -> & El). destruct (write_over x0 _) as [o| | |] eqn:Eo; cbn [bind] in H; try discriminate. apply Ok_inj in H. subst m'. apply m_store; [assumption|assumption|unfold final; rewrite El; assumption|]. symmetry. apply (write_over_length _ _ _ Sx Eo).
  - destruct P as (Ef & Lo & Lk & ->). destruct (negb _); [discriminate|]. destruct (nth_error o k) as [v|] eqn:Ev; apply Ok_inj in H; subst m'.
    + rewrite put_limit by assumption. apply (m_write i m x0 o k v); assumption.
    + apply nth_error_None in Ev. assert (k = length o) by lia. apply (m_end i m x0 o k); try assumption. rewrite Er. f_equal. rewrite firstn_all2, skipn_all2 by lia. apply app_nil_r.
  - apply Ok_inj in H. subst m'. apply m_idle. assumption.
Qed.
Lemma access_none out m i : minv out m -> nth_error out i = None -> access i m = Ok m.
Proof. intros (Lr & La & _) Hx. apply nth_error_None in Hx. unfold ParModel.access. destruct (nth_error (m_at m) i) eqn:E; [|reflexivity]. apply nth_lt in E. lia. Qed.
Lemma access_total out m i x0 o : Forall (sample_of pout) out -> minv out m -> nth_error out i = Some x0 -> final x0 = Ok o -> exists m', access i m = Ok m'.
Proof.
  intros Hs (Lr & La & I & _) Hx Hf.
  pose proof (nth_lt _ _ _ Hx) as Li. destruct (nth_error (m_rows m) i) as [row|] eqn:Er; [|apply nth_error_None in Er; lia]. destruct (nth_error (m_at m) i) as [ph|] eqn:Ep; [|apply nth_error_None in Ep; lia].
  pose proof (I i x0 row ph Hx Er Ep) as P. unfold ParModel.access. rewrite Er, Ep. unfold final in Hf. destruct (look x0) as [l| | |] eqn:El; cbn [bind] in Hf; try discriminate. destruct ph as [acc|x|x|x c|o' k|]; cbn [phase_inv] in P.
  - eauto.
  - destruct P as (-> & ->). rewrite El. cbn [bind]. destruct l as [y|]; [|eauto]. rewrite Hf. cbn [bind]. eauto.
  - eauto.
  - destruct P as (-> & -> & El'). rewrite El in El'. apply Ok_inj in El'. subst l. rewrite Hf. cbn [bind]. eauto.
  - destruct P as (_ & Lo & _ & ->). rewrite mix_length, Nat.eqb_refl by assumption. cbn [negb]. destruct (nth_error o' k); eauto.
  - eauto.
Qed.

Lemma moved_lengths i m x0 m' : (i < length (m_rows m))%nat -> (i < length (m_at m))%nat -> moved i m x0 m' -> length (m_rows m') = length (m_rows m) /\ length (m_at m') = length (m_at m).
Proof. intros A B H. destruct H; cbn [go m_rows m_at]; rewrite ?put_length by assumption; auto. Qed.
Lemma moved_others i m x0 m' j : (i < length (m_rows m))%nat -> (i < length (m_at m))%nat -> moved i m x0 m' -> j <> i -> nth_error (m_rows m') j = nth_error (m_rows m) j /\ nth_error (m_at m') j = nth_error (m_at m) j.
Proof. intros A B H N. destruct H; cbn [go m_rows m_at]; rewrite ?put_other by assumption; auto. Qed.

Lemma moved_inv out i m x0 m' : minv out m -> nth_error out i = Some x0 -> moved i m x0 m' -> minv out m'.
Proof.
  intros (Lr & La & Iv & l & S1 & S2 & S3 & S4 & S5) Hx H. pose proof (nth_lt _ _ _ Hx) as Li. assert (Lir : (i < length (m_rows m))%nat) by lia. assert (Lia : (i < length (m_at m))%nat) by lia.
  destruct (moved_lengths i m x0 m' Lir Lia H) as [L1 L2]. split; [lia|]. split; [lia|]. split.
  - intros j xj row ph Hj Hr Hp. destruct (Nat.eq_dec j i) as [->|N]; [|destruct (moved_others i m x0 m' j Lir Lia H N) as [O1 O2]; apply (Iv j); congruence].
    rewrite Hx in Hj. injection Hj as <-. destruct (nth_error (m_rows m) i) as [row0|] eqn:Er0; [|apply nth_error_None in Er0; lia].
    destruct H as [acc v Hp0 Hv|Hp0|o Hp0 Hf Hl Lo|Hp0 Hl|Hp0 Hl|c o Hp0 Hl Hf Lo|o k v Hp0 Hf Lo Hv|o k Hp0 Hf Lo Hro Hk|Hp0]; cbn [go m_rows m_at] in Hr, Hp; try (rewrite put_same in Hp by assumption); try (rewrite put_same in Hr by assumption);
      try (injection Hp as <-); pose proof (Iv i x0 row0 _ Hx Er0 Hp0) as P; cbn [phase_inv] in P |- *.
    + destruct P as (-> & Ea & Lacc). split; [congruence|]. rewrite app_length. cbn [length]. split.
      * rewrite Nat.add_1_r. pose proof (nth_lt _ _ _ Hv). clear -Ea Hv. revert Ea Hv. generalize (length acc) as n. intros n -> Hv. revert n Hv. induction x0 as [|a x0 IH]; intros n Hv; [destruct n; discriminate|]. destruct n; cbn in *; [congruence|]. f_equal. apply IH. assumption.
      * pose proof (nth_lt _ _ _ Hv). lia.
    + destruct P as (-> & _). split; [congruence|reflexivity].
    + destruct P as (-> & _). split; [assumption|]. split; [assumption|]. split; [lia|]. rewrite Er0 in Hr. injection Hr as <-. reflexivity.
    + destruct P as (-> & _). split; [congruence|]. split; [reflexivity|assumption].
    + destruct P as (-> & _). split; [congruence|]. split; [reflexivity|assumption].
    + destruct P as (-> & _). split; [assumption|]. split; [assumption|]. split; [lia|]. rewrite Er0 in Hr. injection Hr as <-. reflexivity.
    + injection Hr as <-. split; [assumption|]. split; [assumption|]. split; [apply nth_lt in Hv; lia|reflexivity].
    + rewrite Hro in Er0. injection Er0 as <-. rewrite Hro in Hr. injection Hr as <-. assumption.
    + rewrite Hp0 in Hp. injection Hp as <-. rewrite Er0 in Hr. injection Hr as <-. assumption.
  - destruct H as [acc v Hp0 Hv|Hp0|o Hp0 Hf Hl Lo|Hp0 Hl|Hp0 Hl|c o Hp0 Hl Hf Lo|o k v Hp0 Hf Lo Hv|o k Hp0 Hf Lo Hro Hk|Hp0].
    6: { (* the store *)
      assert (Ni : ~ In i l). { intros Hi. apply S2 in Hi. destruct Hi as (x & ph & _ & _ & Hp & P). rewrite Hp0 in Hp. injection Hp as <-. contradiction. }
      pose proof (S5 _ _ _ Hp0) as Hc. exists (i :: l). split; [constructor; assumption|]. split; [|split; [cbn; lia|split; [cbn; lia|]]].
      - intros j. cbn [m_at]. destruct (Nat.eq_dec j i) as [->|N].
        + split; [intros _|left; reflexivity]. exists x0, (Writing o 0). rewrite put_same by assumption. cbn. auto.
        + rewrite put_other by assumption. rewrite <- S2. split; [intros [->|Hj]; [contradiction|assumption]|intros Hj; right; assumption].
      - intros j x c'. cbn [m_at length]. destruct (Nat.eq_dec j i) as [->|N]; [rewrite put_same by assumption; discriminate|]. rewrite put_other by assumption. intros Hj. apply S5 in Hj. lia. }
    all: exists l; split; [assumption|]; split; [|split; [assumption|split; [assumption|]]].
    all: try (intros j; cbn [go m_at]; destruct (Nat.eq_dec j i) as [->|N]; [rewrite put_same by assumption|rewrite put_other by assumption; apply S2];
      rewrite S2; split; intros (x & ph & Ex & El & Ep & P); rewrite Hx in Ex; injection Ex as <-; exists x0; [rewrite Hp0 in Ep|]; injection Ep as <-; cbn [past] in P; try contradiction; try congruence; eexists; repeat split; try eassumption; exact I).
    all: try (intros j x c; cbn [go m_at m_count]; destruct (Nat.eq_dec j i) as [->|N]; [rewrite put_same by assumption; try discriminate|rewrite put_other by assumption; apply S5]).
    + intros E. injection E as <- <-. assumption.
    + assumption.
    + assumption.
Qed.
End Par.

(** Proofs for C128. *)
From Coq Require Import Reals List ZArith Lia.
From Verif Require Import Base Num ArgsModel ToolSpec OptModel OptSpec OptProofs MemoModel MemoSpec.
Import ListNotations.

Lemma receive_app S U (k : kind S U) h h' s : receive_all k (h ++ h') s = do s' <- receive_all k h s; receive_all k h' s'.
Proof. revert s. induction h as [|c h IH]; intros s; cbn [app receive_all bind]; [reflexivity|]. destruct (receive k c s); cbn [bind]; [apply IH|reflexivity..]. Qed.

Lemma not_giving_app (P : arguments -> Prop) h c : none_giving P (h ++ [c]) <-> none_giving P h /\ (forall b, c = SetParameters b -> ~ P b).
Proof.
  unfold none_giving. split.
  - intros H. split; [intros d Hd; apply H; apply in_or_app; auto|]. intros b ->. apply H. apply in_or_app. right. left. reflexivity.
  - intros [H1 H2] d Hd. apply in_app_or in Hd. destruct Hd as [Hd|[Hd|[]]]; [apply H1; assumption|]. eapply H2; eauto.
Qed.
Lemma last_giving_set (P : arguments -> Prop) h b : P b -> last_giving P (h ++ [SetParameters b]) b.
Proof. intros H. exists h, []. split; [reflexivity|]. split; [assumption|intros c []]. Qed.
Lemma last_giving_skip (P : arguments -> Prop) h c b : last_giving P h b -> (forall d, c = SetParameters d -> ~ P d) -> last_giving P (h ++ [c]) b.
Proof.
  intros (pre & post & -> & Hb & Hp) Hc. exists pre, (post ++ [c]). split; [rewrite <- app_assoc; reflexivity|]. split; [assumption|].
  intros d Hd. apply in_app_or in Hd. destruct Hd as [Hd|[Hd|[]]]; [apply Hp; assumption|]. eapply Hc; eauto.
Qed.
Lemma last_giving_inv (P : arguments -> Prop) h c b : last_giving P (h ++ [c]) b ->
  (c = SetParameters b /\ P b) \/ (last_giving P h b /\ (forall d, c = SetParameters d -> ~ P d)).
Proof.
  intros (pre & post & E & Hb & Hp). destruct (exists_last (l := SetParameters b :: post)) as (post' & z & Ez); [discriminate|].
  rewrite Ez, app_assoc in E. apply app_inj_tail in E. destruct E as [-> ->].
  destruct post' as [|y post'].
  - left. injection Ez as -> _. auto.
  - right. injection Ez as <- ->. split.
    + exists pre, post'. split; [reflexivity|]. split; [assumption|]. intros d Hd. apply Hp. apply in_or_app. auto.
    + intros d ->. apply Hp. apply in_or_app. right. left. reflexivity.
Qed.

(** ** Sizes stored by set_parameters *)
Section Stored.
Context {Q : Type}.
Variable f : arguments -> outcome Q.
Definition stored : kind (option Q) (option Q) := mkKind None (fun a _ => do q <- f a; Ok (Some q)) (fun _ s => Ok (s, s)).
Definition fine (h : list call) := forall b, In (SetParameters b) h -> exists q, f b = Ok q.
Lemma fine_app h h' : fine (h ++ h') <-> fine h /\ fine h'.
Proof.
  unfold fine. split; [intros H; split; intros b Hb; apply H; apply in_or_app; auto|].
  intros [H1 H2] b Hb. apply in_app_or in Hb. destruct Hb; auto.
Qed.
Lemma stored_state h : fine h -> exists s, receive_all stored h None = Ok s /\
  (forall b, last_set h b -> f b = do q <- f b; match s with Some q' => Ok q' | None => Throw end) /\ (never_set h -> s = None).
Proof.
  induction h as [|c h IH] using rev_ind; intros F.
  - exists None. split; [reflexivity|]. split; [|reflexivity]. intros b (pre & post & E & _). destruct pre; discriminate.
  - apply fine_app in F. destruct F as [F1 F2]. destruct (IH F1) as (s & Es & L & N). rewrite receive_app, Es. cbn [bind receive_all].
    destruct c as [a|a].
    + destruct (F2 a ltac:(left; reflexivity)) as [q Eq]. cbn [receive stored k_set]. rewrite Eq. cbn [bind]. exists (Some q). split; [reflexivity|]. split.
      * intros b Hb. apply last_giving_inv in Hb. destruct Hb as [[Hb _]|[_ Hb]]; [injection Hb as <-; rewrite Eq; reflexivity|].
        exfalso. eapply Hb; [reflexivity|exact I].
      * intros H. apply not_giving_app in H. destruct H as [_ H]. exfalso. eapply H; [reflexivity|exact I].
    + cbn [receive stored k_fit bind fst]. exists s. split; [reflexivity|]. split.
      * intros b Hb. apply last_giving_inv in Hb. destruct Hb as [[Hb _]|[Hb _]]; [discriminate|]. apply L. assumption.
      * intros H. apply N. apply not_giving_app in H. apply H.
Qed.
Lemma stored_settings h a : fine h ->
  (forall b, last_set h b -> exists q, f b = Ok q /\ settings stored h a = Ok (Some q)) /\ (never_set h -> settings stored h a = Ok None).
Proof.
  intros F. destruct (stored_state h F) as (s & Es & L & N). unfold settings. cbn [k_new stored]. change (@mkKind _ _ None _ _) with stored. rewrite Es. cbn [bind k_fit stored snd]. split.
  - intros b Hb. specialize (L b Hb). assert (Hin : In (SetParameters b) h).
    { destruct Hb as (pre & post & -> & _). apply in_or_app. right. left. reflexivity. }
    destruct (F b Hin) as [q Eq]. rewrite Eq in L. cbn [bind] in L. destruct s as [q'|]; [|discriminate]. injection L as <-. exists q. auto.
  - intros H. rewrite (N H). reflexivity.
Qed.
End Stored.

Lemma calls_app l l' : py_calls (l ++ l') = py_calls l ++ py_calls l'.
Proof. apply flat_map_app. Qed.
Lemma in_calls l b : In (SetParameters b) (py_calls l) <-> In (With b) l.
Proof.
  unfold py_calls. rewrite in_flat_map. split.
  - intros ([a|] & Hx & H); cbn in H; [destruct H as [H|[H|[]]]; [injection H as ->; assumption|discriminate]|destruct H as [H|[]]; discriminate].
  - intros H. exists (With b). split; [assumption|]. left. reflexivity.
Qed.
Lemma last_with_set l b : last_with l b -> last_set (py_calls l) b.
Proof.
  intros (pre & post & -> & H). rewrite calls_app. exists (py_calls pre), (FitData b :: py_calls post). split; [reflexivity|]. split; [exact I|].
  intros c [Hc|Hc]; [discriminate|]. apply in_calls in Hc. exfalso. eapply H; eauto.
Qed.
Lemma never_with_set l : never_with l -> never_set (py_calls l).
Proof. intros H c Hc _. apply in_calls in Hc. eapply H; eauto. Qed.

Section StoredPython.
Context {Q : Type}.
Variable f : arguments -> outcome Q.
Lemma stored_with l a : (forall b, In (With b) l -> exists q, f b = Ok q) -> py_settings (stored f) l (With a) = do q <- f a; Ok (Some q).
Proof.
  intros F. unfold py_settings, before, own. assert (Fc : fine f (py_calls l)) by (intros b Hb; apply F; apply in_calls; assumption).
  destruct (stored_state f _ Fc) as (s & Es & _). unfold settings. rewrite receive_app. change (k_new (stored f)) with (@None Q). rewrite Es.
  cbn [bind receive_all receive stored k_set]. destruct (f a); reflexivity.
Qed.
Lemma stored_without l : (forall b, In (With b) l -> exists q, f b = Ok q) ->
  (forall b, last_with l b -> py_settings (stored f) l Without = py_settings (stored f) [] (With b)) /\ (never_with l -> py_settings (stored f) l Without = Ok None).
Proof.
  intros F. assert (Fc : fine f (py_calls l)) by (intros b Hb; apply F; apply in_calls; assumption).
  assert (E : py_settings (stored f) l Without = settings (stored f) (py_calls l) []) by (unfold py_settings; cbn [before own]; rewrite app_nil_r; reflexivity).
  rewrite E. destruct (stored_settings f (py_calls l) [] Fc) as [L N]. split.
  - intros b Hb. rewrite stored_with by (intros c []). destruct (L b (last_with_set l b Hb)) as (q & Eq & Es). rewrite Es, Eq. reflexivity.
  - intros H. apply N. apply never_with_set. assumption.
Qed.
End StoredPython.

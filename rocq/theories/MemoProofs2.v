(** Proofs for C128: the leastsquare and Ceres fitters. *)
From Coq Require Import Reals List ZArith Lia.
From Verif Require Import Base Num ArgsModel ToolSpec OptModel OptSpec OptProofs PropsOpt MemoModel MemoSpec MemoProofs.
Import ListNotations.

Lemma int_find a k d : (int_given a k (get_int a k d)) \/ (~ given a k /\ get_int a k d = d).
Proof.
  unfold int_given, given, get_int, get_num. destruct (map_find k a) as [t|]; [left; exists t; auto|right; split; [|reflexivity]]. intros [v Hv]. discriminate.
Qed.
Lemma int_given_given a k z : int_given a k z -> given a k.
Proof. intros (t & E & _). exists t. assumption. Qed.

Lemma size_set key h c z : sets_size key c z -> size_after key (h ++ [c]) z.
Proof. intros H. left. exists h, c, []. split; [reflexivity|]. split; [assumption|intros ? ? []]. Qed.
Lemma size_skip key h c z : (forall z', ~ sets_size key c z') -> size_after key h z -> size_after key (h ++ [c]) z.
Proof.
  intros N [(pre & d & post & -> & Hd & Hp)|[Hn ->]].
  - left. exists pre, d, (post ++ [c]). split; [rewrite <- app_assoc; reflexivity|]. split; [assumption|].
    intros c' z' Hc. apply in_app_or in Hc. destruct Hc as [Hc|[<-|[]]]; [apply Hp; assumption|apply N].
  - right. split; [|reflexivity]. intros c' z' Hc. apply in_app_or in Hc. destruct Hc as [Hc|[<-|[]]]; [apply Hn; assumption|apply N].
Qed.
Lemma size_set_step key h a : size_after key (h ++ [SetParameters a]) (get_int a key 10).
Proof. apply size_set. cbn. destruct (int_find a key 10) as [H|[H E]]; [left; assumption|right; auto]. Qed.
Lemma size_fit_step key h a z : size_after key h z -> size_after key (h ++ [FitData a]) (get_int a key z).
Proof.
  intros H. destruct (int_find a key z) as [G|[G E]]; [apply size_set; exact G|]. rewrite E. apply size_skip; [|assumption].
  intros z' C. apply G. eapply int_given_given. exact C.
Qed.
Definition rounds_after (h : list call) (z : Z) : Prop :=
  (exists b, last_set h b /\ (int_given b (lit "max-iter") z \/ (~ given b (lit "max-iter") /\ z = 1%Z))) \/ (never_set h /\ z = 1%Z).
Lemma leastsquare_state h : exists np nq it, receive_all leastsquare_kind h (10, 10, 1)%Z = Ok (np, nq, it) /\
  size_after (lit "np") h np /\ size_after (lit "nq") h nq /\ rounds_after h it.
Proof.
  induction h as [|c h (np & nq & it & E & A & B & C)] using rev_ind.
  - exists 10%Z, 10%Z, 1%Z. split; [reflexivity|]. split; [right; split; [intros ? ? []|reflexivity]|]. split; [right; split; [intros ? ? []|reflexivity]|]. right. split; [intros ? []|reflexivity].
  - rewrite receive_app, E. cbn [bind receive_all]. destruct c as [a|a].
    + cbn [receive leastsquare_kind k_set bind]. unfold leastsquare_set_parameters. do 3 eexists. split; [reflexivity|]. split; [apply size_set_step|]. split; [apply size_set_step|].
      left. exists a. split; [apply last_giving_set; exact I|]. destruct (int_find a (lit "max-iter") 1) as [H|[H E']]; [left; assumption|right; auto].
    + cbn [receive leastsquare_kind k_fit bind fst]. do 3 eexists. split; [reflexivity|]. split; [apply size_fit_step; assumption|]. split; [apply size_fit_step; assumption|].
      destruct C as [(b & Lb & Hb)|[N ->]].
      * left. exists b. split; [|assumption]. apply last_giving_skip; [assumption|]. intros d Hd; discriminate.
      * right. split; [|reflexivity]. apply not_giving_app. split; [assumption|]. intros b Hb; discriminate.
Qed.
Lemma leastsquare_settings h a : exists np nq it, settings leastsquare_kind h a = Ok (np, nq, it) /\
  size_after (lit "np") (h ++ [FitData a]) np /\ size_after (lit "nq") (h ++ [FitData a]) nq /\ rounds_after h it.
Proof.
  destruct (leastsquare_state h) as (np & nq & it & E & A & B & C). unfold settings. change (k_new leastsquare_kind) with (10, 10, 1)%Z. rewrite E.
  cbn [bind leastsquare_kind k_fit snd]. do 3 eexists. split; [reflexivity|]. split; [apply size_fit_step; assumption|]. split; [apply size_fit_step; assumption|assumption].
Qed.
Lemma int_twice a k d : get_int a k (get_int a k d) = get_int a k d.
Proof. unfold get_int, get_num. destruct (map_find k a); reflexivity. Qed.
Lemma leastsquare_with l a : py_settings leastsquare_kind l (With a) = Ok (leastsquare_set_parameters a).
Proof.
  unfold py_settings, settings. cbn [before own]. change (k_new leastsquare_kind) with (10, 10, 1)%Z. rewrite receive_app.
  destruct (leastsquare_state (py_calls l)) as (np & nq & it & E & _). rewrite E. cbn [bind receive_all receive leastsquare_kind k_set k_fit]. unfold leastsquare_set_parameters.
  cbn [bind snd]. rewrite !int_twice. reflexivity.
Qed.
Lemma leastsquare_py_state l : exists s, receive_all leastsquare_kind (py_calls l) (10, 10, 1)%Z = Ok s /\
  (forall b, last_with l b -> s = leastsquare_set_parameters b) /\ (never_with l -> s = (10, 10, 1)%Z).
Proof.
  induction l as [|f l (s & E & L & N)] using rev_ind.
  - exists (10, 10, 1)%Z. split; [reflexivity|]. split; [|reflexivity]. intros b (pre & post & C & _). destruct pre; discriminate.
  - rewrite calls_app, receive_app, E. cbn [bind]. destruct f as [a|].
    + exists (leastsquare_set_parameters a). split.
      { cbn [py_calls flat_map before own app receive_all receive leastsquare_kind k_set k_fit bind fst]. unfold leastsquare_set_parameters. cbn [bind fst].
        rewrite !int_twice. reflexivity. }
      split.
      * intros b (pre & post & Ep & Hp). destruct (exists_last (l := With b :: post)) as (post' & z & Ez); [discriminate|]. rewrite Ez, app_assoc in Ep. apply app_inj_tail in Ep. destruct Ep as [_ <-].
        destruct post' as [|y post']; [injection Ez as -> _; reflexivity|]. exfalso. injection Ez as _ ->. apply (Hp a). apply in_or_app. right. left. reflexivity.
      * intros H. exfalso. apply (H a). apply in_or_app. right. left. reflexivity.
    + destruct s as [[np nq] it]. exists (np, nq, it). split; [reflexivity|]. split.
      * intros b (pre & post & Ep & Hp). destruct (exists_last (l := With b :: post)) as (post' & z & Ez); [discriminate|]. rewrite Ez, app_assoc in Ep. apply app_inj_tail in Ep. destruct Ep as [-> <-].
        destruct post' as [|y post']; [discriminate|]. injection Ez as <- ->. apply L. exists pre, post'. split; [reflexivity|]. intros c Hc. apply (Hp c). apply in_or_app. auto.
      * intros H. apply N. intros c Hc. apply (H c). apply in_or_app. auto.
Qed.
Lemma leastsquare_without l : (forall b, last_with l b -> py_settings leastsquare_kind l Without = py_settings leastsquare_kind [] (With b)) /\
  (never_with l -> py_settings leastsquare_kind l Without = Ok (10, 10, 1)%Z).
Proof.
  destruct (leastsquare_py_state l) as (s & E & L & N).
  assert (P : py_settings leastsquare_kind l Without = Ok s).
  { unfold py_settings, settings. cbn [before own]. rewrite app_nil_r. change (k_new leastsquare_kind) with (10, 10, 1)%Z. rewrite E. destruct s as [[np nq] it]. reflexivity. }
  rewrite P. split; [intros b Hb; rewrite leastsquare_with, (L b Hb); reflexivity|intros H; rewrite (N H); reflexivity].
Qed.

Section Ceres.
Variable stod : str -> outcome R.
Variable o0 : ceres_options.
Definition numbers (h : list call) : Prop := forall b k, In (SetParameters b) h -> In k tolerances -> given b k -> exists v, number_given stod b k v.
Lemma given_iff a k : {given a k} + {~ given a k}.
Proof. unfold given. destruct (map_find k a); [left; eexists; reflexivity|right; intros [v H]; discriminate]. Qed.
Lemma ceres_state h : numbers h -> exists o, receive_all (ceres_kind stod o0) h o0 = Ok o /\
  ((exists b, last_giving (fun b => given b (lit "ceres-max-num-iterations")) h b /\ int_given b (lit "ceres-max-num-iterations") (c_iterations o)) \/
   (none_giving (fun b => given b (lit "ceres-max-num-iterations")) h /\ c_iterations o = c_iterations o0)) /\
  ((exists b, last_set h b /\ (c_cholesky o = true <-> map_find (lit "ceres-factorization") b = Some (lit "normal-cholesky"))) \/
   (never_set h /\ c_cholesky o = c_cholesky o0)) /\
  (c_progress o = true <-> (exists b, In (SetParameters b) h /\ given b (lit "ceres-debug")) \/ c_progress o0 = true) /\
  ((exists b, last_giving gives_tolerance h b /\ forall old, last_tolerance stod b old (c_function_tol o)) \/
   (none_giving gives_tolerance h /\ c_function_tol o = c_function_tol o0)) /\
  c_gradient_tol o = c_gradient_tol o0 /\ c_parameter_tol o = c_parameter_tol o0.
Proof.
  induction h as [|c h IH] using rev_ind; intros F.
  - exists o0. split; [reflexivity|]. repeat split; try (right; split; [intros ? []|reflexivity]); try (right; assumption).
    intros [(b & [] & _)|H]; assumption.
  - assert (F1 : numbers h) by (intros b k Hb; apply F; apply in_or_app; auto).
    destruct (IH F1) as (o & E & A & B & C & D & G & P). rewrite receive_app, E. cbn [bind receive_all].
    destruct c as [a|a].
    + destruct (C116_ceres stod a o) as (o' & E' & A' & B' & C' & D' & G' & P').
      { intros k Hk Hg. apply (F a k); try assumption. apply in_or_app. right. left. reflexivity. }
      cbn [receive ceres_kind k_set]. rewrite E'. cbn [bind]. exists o'. split; [reflexivity|]. split; [|split; [|split; [|split; [|split; congruence]]]].
      * destruct A' as [A'|[N A']].
        -- left. exists a. split; [|assumption]. apply last_giving_set. eapply int_given_given; eassumption.
        -- rewrite A'. destruct A as [(b & Lb & Hb)|[N0 A]].
           ++ left. exists b. split; [|assumption]. apply last_giving_skip; [assumption|]. intros d Hd. injection Hd as <-. assumption.
           ++ right. split; [|assumption]. apply not_giving_app. split; [assumption|]. intros b Hb. injection Hb as <-. assumption.
      * left. exists a. split; [apply last_giving_set; exact I|assumption].
      * rewrite C', C. split.
        -- intros [H|[(b & Hb & Hg)|H]]; [left; exists a; split; [apply in_or_app; right; left; reflexivity|assumption]|left; exists b; split; [apply in_or_app; auto|assumption]|right; assumption].
        -- intros [(b & Hb & Hg)|H]; [|auto]. apply in_app_or in Hb. destruct Hb as [Hb|[Hb|[]]]; [right; left; eauto|]. injection Hb as <-. auto.
      * destruct (given_iff a (lit "ceres-parameter-tolerance")) as [g|g].
        { left. exists a. split; [apply last_giving_set; eexists; split; [right; right; left; reflexivity|assumption]|]. intros old. destruct D' as [D'|[(N & _)|[(N & _)|(N & _)]]]; try contradiction. left. assumption. }
        destruct (given_iff a (lit "ceres-gradient-tolerance")) as [g'|g'].
        { left. exists a. split; [apply last_giving_set; eexists; split; [right; left; reflexivity|assumption]|]. intros old.
          destruct D' as [D'|[D'|[(_ & N & _)|(_ & N & _)]]]; try contradiction; [left; assumption|right; left; assumption]. }
        destruct (given_iff a (lit "ceres-function-tolerance")) as [g''|g''].
        { left. exists a. split; [apply last_giving_set; eexists; split; [left; reflexivity|assumption]|]. intros old.
          destruct D' as [D'|[D'|[D'|(_ & _ & N & _)]]]; try contradiction; [left; assumption|right; left; assumption|right; right; left; assumption]. }
        assert (Ng : ~ gives_tolerance a).
        { intros (t & Ht & Hg). destruct Ht as [<-|[<-|[<-|[]]]]; contradiction. }
        assert (Et : c_function_tol o' = c_function_tol o).
        { destruct D' as [(t & D' & _)|[(_ & t & D' & _)|[(_ & _ & t & D' & _)|(_ & _ & _ & D')]]]; [exfalso; apply g; eexists; exact D'|exfalso; apply g'; eexists; exact D'|exfalso; apply g''; eexists; exact D'|assumption]. }
        rewrite Et. destruct D as [(b & Lb & Hb)|[N0 D]].
        -- left. exists b. split; [|assumption]. apply last_giving_skip; [assumption|]. intros d Hd. injection Hd as <-. assumption.
        -- right. split; [|assumption]. apply not_giving_app. split; [assumption|]. intros b Hb. injection Hb as <-. assumption.
    + cbn [receive ceres_kind k_fit bind fst]. exists o. split; [reflexivity|]. split; [|split; [|split; [|split; [|split; assumption]]]].
      * destruct A as [(b & Lb & Hb)|[N0 A]]; [left; exists b; split; [|assumption]; apply last_giving_skip; [assumption|]; intros d Hd; discriminate|right; split; [|assumption]; apply not_giving_app; split; [assumption|]; intros b Hb; discriminate].
      * destruct B as [(b & Lb & Hb)|[N0 B]]; [left; exists b; split; [|assumption]; apply last_giving_skip; [assumption|]; intros d Hd; discriminate|right; split; [|assumption]; apply not_giving_app; split; [assumption|]; intros b Hb; discriminate].
      * rewrite C. split.
        -- intros [(b & Hb & Hg)|H]; [left; exists b; split; [apply in_or_app; auto|assumption]|auto].
        -- intros [(b & Hb & Hg)|H]; [|auto]. apply in_app_or in Hb. destruct Hb as [Hb|[Hb|[]]]; [left; eauto|discriminate].
      * destruct D as [(b & Lb & Hb)|[N0 D]]; [left; exists b; split; [|assumption]; apply last_giving_skip; [assumption|]; intros d Hd; discriminate|right; split; [|assumption]; apply not_giving_app; split; [assumption|]; intros b Hb; discriminate].
Qed.
End Ceres.

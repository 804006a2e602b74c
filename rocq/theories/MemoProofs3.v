(** Proofs for C128: the Ceres fitter when a script goes on after an exception. *)
From Coq Require Import Reals List ZArith Lia.
From Verif Require Import Base Num ArgsModel ToolSpec OptModel OptSpec OptProofs MemoModel MemoSpec MemoProofs MemoProofs2.
Import ListNotations.

Section Left.
Variable stod : str -> outcome R.
Lemma tolerance_step a k d ks old v bad :
  (forall w, snd (assign_tolerance stod a k d (old, false)) = false -> fst (assign_tolerance stod a k d (old, false)) = w -> numbers_read stod a ks w v bad) ->
  (snd (assign_tolerance stod a k d (old, false)) = true -> v = old /\ bad = true) ->
  numbers_read stod a (k :: ks) old v bad.
Proof.
  unfold assign_tolerance. cbn [snd fst]. unfold is_defined, get_double. destruct (map_find k a) as [t|] eqn:E.
  - destruct (stod t) as [w| | |] eqn:Et; cbn [fst snd]; intros H1 H2.
    + eapply read_number; [exists t; split; eassumption|]. apply H1; reflexivity.
    + destruct (H2 eq_refl) as [-> ->]. apply read_bad; [exists t; assumption|]. intros w (t' & E' & W). congruence.
    + destruct (H2 eq_refl) as [-> ->]. apply read_bad; [exists t; assumption|]. intros w (t' & E' & W). congruence.
    + destruct (H2 eq_refl) as [-> ->]. apply read_bad; [exists t; assumption|]. intros w (t' & E' & W). congruence.
  - cbn [fst snd]. intros H1 _. apply read_absent; [intros (t & C); congruence|]. apply H1; reflexivity.
Qed.
Lemma assign_thrown a k d x : assign_tolerance stod a k d (x, true) = (x, true). Proof. reflexivity. Qed.
Lemma assign_fst_thrown a k d x y : assign_tolerance stod a k d (x, false) = (y, true) -> y = x.
Proof.
  unfold assign_tolerance. cbn [snd fst]. destruct (is_defined a k); [|congruence]. destruct (get_double stod a k d); congruence.
Qed.
Lemma left_tolerance a o : numbers_read stod a tolerances (c_function_tol o) (c_function_tol (fst (ceres_left stod a o))) (snd (ceres_left stod a o)).
Proof.
  unfold ceres_left. cbn [fst snd c_function_tol]. set (old := c_function_tol o). unfold tolerances. cbn [map].
  set (d1 := (1 / 1000000)%R). set (d2 := (1 / 10000000000)%R). set (d3 := (1 / 100000000)%R).
  set (k1 := lit "ceres-function-tolerance"). set (k2 := lit "ceres-gradient-tolerance"). set (k3 := lit "ceres-parameter-tolerance").
  apply (tolerance_step a k1 d1).
  2: { destruct (assign_tolerance stod a k1 d1 (old, false)) as [w t] eqn:E1. cbn [snd]. intros ->. rewrite !assign_thrown. cbn [fst snd].
       split; [apply (assign_fst_thrown _ _ _ _ _ E1)|reflexivity]. }
  intros w. destruct (assign_tolerance stod a k1 d1 (old, false)) as [w1 t1]. cbn [fst snd]. intros -> ->.
  apply (tolerance_step a k2 d2).
  2: { destruct (assign_tolerance stod a k2 d2 (w, false)) as [w2 t2] eqn:E2. cbn [snd]. intros ->. rewrite assign_thrown. cbn [fst snd].
       split; [apply (assign_fst_thrown _ _ _ _ _ E2)|reflexivity]. }
  intros w'. destruct (assign_tolerance stod a k2 d2 (w, false)) as [w2 t2]. cbn [fst snd]. intros -> ->.
  apply (tolerance_step a k3 d3).
  2: { destruct (assign_tolerance stod a k3 d3 (w', false)) as [w3 t3] eqn:E3. cbn [fst snd]. intros ->.
       split; [apply (assign_fst_thrown _ _ _ _ _ E3)|reflexivity]. }
  intros w''. destruct (assign_tolerance stod a k3 d3 (w', false)) as [w3 t3]. cbn [fst snd]. intros -> ->. apply read_none.
Qed.
Lemma all_read_app ks l l' old w v : all_read stod ks l old w -> all_read stod ks l' w v -> all_read stod ks (l ++ l') old v.
Proof. induction 1 as [|a l old w1 w bad H _ IH]; intros H'; [exact H'|]. cbn [app]. eapply all_one; [exact H|]. apply IH. exact H'. Qed.
Lemma left_agrees a o : (forall o', ceres_set_parameters stod a o = Ok o' <-> ceres_left stod a o = (o', false)).
Proof.
  intros o'. unfold ceres_set_parameters, ceres_left, assign_tolerance. cbn [fst snd].
  assert (G : forall (A : Type) (x y : A) (b : bool), (Ok x = Ok y <-> (x, false) = (y, false)) /\ ((x, true) = (y, false) <-> False)).
  { intros A x y b. split; split; intros H; try congruence; try contradiction. }
  destruct (is_defined a (lit "ceres-function-tolerance")); [destruct (get_double stod a (lit "ceres-function-tolerance") (1 / 1000000))|];
    (destruct (is_defined a (lit "ceres-gradient-tolerance")); [destruct (get_double stod a (lit "ceres-gradient-tolerance") (1 / 10000000000))|]);
    (destruct (is_defined a (lit "ceres-parameter-tolerance")); [destruct (get_double stod a (lit "ceres-parameter-tolerance") (1 / 100000000))|]);
    cbn [bind fst snd]; split; intros H; congruence.
Qed.
Lemma ceres_all_left o0 l : let o := ceres_left_all stod l o0 in let h := map SetParameters l in
  ((exists b, last_giving (fun b => given b (lit "ceres-max-num-iterations")) h b /\ int_given b (lit "ceres-max-num-iterations") (c_iterations o)) \/
   (none_giving (fun b => given b (lit "ceres-max-num-iterations")) h /\ c_iterations o = c_iterations o0)) /\
  ((exists b, last_set h b /\ (c_cholesky o = true <-> map_find (lit "ceres-factorization") b = Some (lit "normal-cholesky"))) \/
   (never_set h /\ c_cholesky o = c_cholesky o0)) /\
  (c_progress o = true <-> (exists b, In b l /\ given b (lit "ceres-debug")) \/ c_progress o0 = true) /\
  all_read stod tolerances l (c_function_tol o0) (c_function_tol o) /\
  c_gradient_tol o = c_gradient_tol o0 /\ c_parameter_tol o = c_parameter_tol o0.
Proof.
  cbv zeta. induction l as [|a l (A & B & C & D & G & P)] using rev_ind.
  - cbn. split; [right; split; [intros ? []|reflexivity]|]. split; [right; split; [intros ? []|reflexivity]|].
    split; [split; [auto|intros [(b & [] & _)|H]; assumption]|]. split; [constructor|split; reflexivity].
  - unfold ceres_left_all in *. rewrite fold_left_app, map_app. cbn [fold_left map]. set (o := fold_left _ l o0) in *.
    split; [|split; [|split; [|split; [|split; assumption]]]].
    + unfold ceres_left. cbn [fst c_iterations]. destruct (is_defined a (lit "ceres-max-num-iterations")) eqn:E.
      * left. exists a. split; [apply last_giving_set|]; (destruct (int_find a (lit "ceres-max-num-iterations") 50) as [H|[H _]]; [try (eapply int_given_given; exact H); exact H|]);
          exfalso; apply H; unfold is_defined in E; unfold given; destruct (map_find (lit "ceres-max-num-iterations") a); try discriminate; eexists; reflexivity.
      * assert (N : ~ given a (lit "ceres-max-num-iterations")) by (intros [v H]; unfold is_defined in E; rewrite H in E; discriminate).
        destruct A as [(b & Lb & Hb)|[N0 A]].
        -- left. exists b. split; [|assumption]. apply last_giving_skip; [assumption|]. intros d Hd. injection Hd as <-. assumption.
        -- right. split; [|assumption]. apply not_giving_app. split; [assumption|]. intros b Hb. injection Hb as <-. assumption.
    + left. exists a. split; [apply last_giving_set; exact I|]. unfold ceres_left. cbn [fst c_cholesky]. unfold at_key.
      destruct (map_find (lit "ceres-factorization") a) as [t|].
      * destruct (str_eqb_spec t (lit "normal-cholesky")) as [->|N]; split; intros H; congruence.
      * split; intros H; discriminate.
    + unfold ceres_left. cbn [fst c_progress]. destruct (is_defined a (lit "ceres-debug")) eqn:E.
      * split; [intros _|reflexivity]. left. exists a. split; [apply in_or_app; right; left; reflexivity|]. unfold is_defined in E. unfold given. destruct (map_find (lit "ceres-debug") a); [eexists; reflexivity|discriminate].
      * rewrite C. split.
        -- intros [(b & Hb & Hg)|H]; [left; exists b; split; [apply in_or_app; auto|assumption]|auto].
        -- intros [(b & Hb & Hg)|H]; [|auto]. apply in_app_or in Hb. destruct Hb as [Hb|[<-|[]]]; [left; eauto|]. exfalso. destruct Hg as [v Hg]. unfold is_defined in E. rewrite Hg in E. discriminate.
    + eapply all_read_app; [exact D|]. eapply all_one; [apply left_tolerance|constructor].
Qed.
End Left.

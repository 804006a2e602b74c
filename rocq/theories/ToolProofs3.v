(** Refused command lines, crashes. *)
From Coq Require Import List ZArith Reals Lia.
From Verif Require Import Base Num ArgsModel ArgsProofs ParamsModel GeoModel DataModel MetricsModel ConvModel ToolModel ToolSpec ToolProofs ToolProofs2.

Lemma pair_end (d d' : disk) (c c' : outcome Z) : (d, c) = (d', c') -> c' = c.
Proof. congruence. Qed.

Section Refused.
Context {D F Ft : Type}.
Variable w : world D F Ft.

Lemma run_help t argv a d : options argv a -> asks_help t a -> run w t argv d = (d, Ok 0%Z).
Proof.
  intros O H. unfold options in O. destruct t; cbn [run asks_help] in *;
  unfold data2brdf, brdf2brdf, brdf2data, brdf2gnuplot, data2data, data2moments, fit2stat, data2stats; rewrite andthen_call, O.
  1,2,3,4,6: destruct H as [H|[]]; apply defined_given in H; rewrite H; reflexivity.
  - destruct H as [H|H]; apply defined_given in H; rewrite H; [|destruct (is_defined a (lit "help"))]; reflexivity.
  - destruct H as [H|H]; apply defined_given in H; rewrite H; [|rewrite Bool.orb_true_r]; reflexivity.
  - destruct H as [H|H]; apply defined_given in H; rewrite H; [|rewrite Bool.orb_true_r]; reflexivity.
Qed.

Lemma run_incomplete t argv a d : options argv a -> ~ asks_help t a -> ~ complete t a -> fitter_found w t a -> run w t argv d = (d, Ok 1%Z).
Proof.
  intros O H C Ff. unfold options in O. unfold fitter_found in Ff. destruct t; cbn [run asks_help complete] in *;
  unfold data2brdf, brdf2brdf, brdf2data, brdf2gnuplot, data2data, data2moments, fit2stat, data2stats; change at_key with val; rewrite andthen_call, O;
  (destruct (is_defined a (lit "help")) eqn:E0; [exfalso; apply H; left; apply defined_given; exact E0|]).
  - destruct (Ff eq_refl) as [[o Eo] Ea]. apply undefined_given in Ea. rewrite andthen_call, Eo. destruct o; [|reflexivity]. rewrite Ea.
    destruct (is_defined a (lit "input")) eqn:E1; [|reflexivity]. destruct (is_defined a (lit "output")) eqn:E2; [|reflexivity]. apply defined_given in E1, E2. exfalso. tauto.
  - destruct (is_defined a (lit "input")) eqn:E1; [|reflexivity]. destruct (is_defined a (lit "output")) eqn:E2; [|reflexivity]. apply defined_given in E1, E2. exfalso. tauto.
  - destruct (is_defined a (lit "input")) eqn:E1; [|reflexivity]. destruct (is_defined a (lit "output")) eqn:E2; [|reflexivity].
    destruct (is_defined a (lit "data")) eqn:E3; [exfalso; apply defined_given in E1, E2, E3; tauto|]. destruct (is_defined a (lit "data-file")) eqn:E4; [exfalso; apply defined_given in E1, E2, E4; tauto|]. reflexivity.
  - destruct (is_defined a (lit "input")) eqn:E1; [|reflexivity]. destruct (is_defined a (lit "output")) eqn:E2; [|reflexivity]. apply defined_given in E1, E2. exfalso. tauto.
  - destruct (is_defined a (lit "help-params")) eqn:E3; [exfalso; apply H; right; apply defined_given; exact E3|].
    destruct (is_defined a (lit "input")) eqn:E1; [|reflexivity]. destruct (is_defined a (lit "output")) eqn:E2; [|reflexivity]. apply defined_given in E1, E2. exfalso. tauto.
  - destruct (is_defined a (lit "input")) eqn:E1; [|reflexivity]. destruct (is_defined a (lit "output")) eqn:E2; [|reflexivity]. destruct (is_defined a (lit "data")) eqn:E3; [|reflexivity]. apply defined_given in E1, E2, E3. exfalso. tauto.
  - destruct (is_defined a (lit "h")) eqn:E3; [exfalso; apply H; right; apply defined_given; exact E3|].
    destruct (is_defined a (lit "brdf")) eqn:E1; [|reflexivity]. destruct (is_defined a (lit "input")) eqn:E2; [|reflexivity]. apply defined_given in E1, E2. exfalso. tauto.
  - destruct (is_defined a (lit "h")) eqn:E3; [exfalso; apply H; right; apply defined_given; exact E3|].
    destruct (is_defined a (lit "ref")) eqn:E1; [|reflexivity]. destruct (is_defined a (lit "input")) eqn:E2; [|reflexivity]. apply defined_given in E1, E2. exfalso. tauto.
Qed.

(** ** crashes *)
Lemma null_crash t argv a d : options argv a -> uses_null w t d a -> exists d', run w t argv d = (d', UB).
Proof.
  intros O (C & H & N). unfold options in O. destruct t; cbn [run asks_help complete] in *; try contradiction;
  unfold data2brdf, brdf2brdf, brdf2data, brdf2gnuplot, data2data, data2moments, fit2stat, data2stats; change at_key with val; rewrite andthen_call, O;
  (destruct (is_defined a (lit "help")) eqn:E0; [exfalso; apply H; left; apply defined_given; exact E0|]).
  - destruct N as (ft & ft' & N1 & N2 & N3 & c & N4 & N5). destruct C as [C1 C2]. back. rewrite andthen_call, N1, N2, C1, C2. cbn [negb]. rewrite andthen_call, N3, andthen_load, N4, N5. eexists. reflexivity.
  - destruct C as [C1 C2]. back. rewrite C1, C2. cbn [negb]. rewrite andthen_function. destruct N as [N|(c & N & N')]; rewrite N; [|rewrite N']; eexists; reflexivity.
  - destruct C as [C1 C2]. destruct N as ((f & c' & N1 & N2) & N3 & c & N4 & N5). assert (E : is_defined a (lit "data") || is_defined a (lit "data-file") = true).
    { apply Bool.orb_true_iff. destruct N3; [left|right]; apply defined_given; assumption. }
    back. rewrite C1, C2. cbn [negb]. rewrite andthen_function, N1, N2, E, andthen_load, N4, N5, andthen_write. cbn [fst snd]. eexists. reflexivity.
  - destruct (is_defined a (lit "help-params")) eqn:E3; [exfalso; apply H; right; apply defined_given; exact E3|]. destruct C as [C1 C2]. destruct N as (c & N4 & N5). back. rewrite C1, C2. cbn [negb]. rewrite andthen_load, N4, N5. eexists. reflexivity.
  - destruct (is_defined a (lit "h")) eqn:E3; [exfalso; apply H; right; apply defined_given; exact E3|]. destruct C as [C1 C2]. destruct N as (c & N4 & N5). back. rewrite C1, C2. cbn [negb orb]. rewrite andthen_catch, N4, N5. eexists. reflexivity.
Qed.

Lemma calm_run t argv d d' r : calm_world w -> calm (arguments_of_argv argv) -> run w t argv d = (d', r) ->
  calm r \/ r = UB /\ exists a, options argv a /\ uses_null w t d a.
Proof.
  intros (W1 & W2 & W3 & W4 & W5 & W6 & W7 & W8 & W9 & W10 & W11 & W12 & W13 & W14 & W15 & W16 & W17 & W18 & W19 & W20 & W21) Hargv H.
  assert (W22 : forall x y a, calm (convert_data w x y a)) by (intros x y a; unfold convert_data; destruct (_ || _)%bool; auto).
  destruct t; cbn [run] in H;
  unfold data2brdf, brdf2brdf, brdf2data, brdf2gnuplot, data2data, data2moments, fit2stat, data2stats, save_function in H; change at_key with val in *.
  all: paths H.
  all: apply pair_end in H; subst r; try (left; exact I).
  all: try (exfalso; exact Hargv).
  all: try match goal with K : ?o = @Abort _ |- _ => exfalso; assert (Q : calm o) by first [exact Hargv | apply W1 | apply W2 | apply W3 | apply W4 | apply W5 | apply W6 | apply W7 | apply W8 | apply W9 | apply W10 | apply W11 | apply W12 | apply W13 | apply W14 | apply W15 | apply W16 | apply W17 | apply W18 | apply W19 | apply W20 | apply W21 | apply W22]; rewrite K in Q; exact Q end.
  all: try match goal with K : ?o = @UB _ |- _ => exfalso; assert (Q : calm o) by first [exact Hargv | apply W1 | apply W2 | apply W3 | apply W4 | apply W5 | apply W6 | apply W7 | apply W8 | apply W9 | apply W10 | apply W11 | apply W12 | apply W13 | apply W14 | apply W15 | apply W16 | apply W17 | apply W18 | apply W19 | apply W20 | apply W21 | apply W22]; rewrite K in Q; exact Q end.
  all: right; split; [reflexivity|]; eexists; split; [eassumption|]; flags; subst.
  all: unfold uses_null; cbn [complete asks_help]; (split; [split; assumption|]); (split; [unfold asks_help; tauto|]).
  - do 2 eexists. split; [eassumption|]. split; [assumption|]. split; [eassumption|]. eexists. split; eassumption.
  - right. eexists. split; eassumption.
  - left. assumption.
  - split; [eexists; eexists; split; eassumption|]. split; [match goal with K : _ = true \/ _ = true |- _ => destruct K; [left|right]; apply defined_given; assumption end|]. eexists. split; eassumption.
  - eexists. split; eassumption.
  - eexists. split; eassumption.
Qed.
End Refused.

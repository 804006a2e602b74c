(** Proofs for C116. *)
From Coq Require Import Reals List ZArith Lia Lra.
From Flocq Require Import Core.
From Verif Require Import Base Num ArgsModel ToolSpec QuadModel OptModel OptSpec.
Open Scope R_scope.

Lemma float_whole z : (Z.abs z <= 2 ^ 24)%Z -> to_float (IZR z) = IZR z.
Proof.
  intros H. unfold to_float. apply round_generic; [apply valid_rnd_N|].
  destruct (Z.eq_dec (Z.abs z) (2 ^ 24)) as [E|N].
  - assert (P : generic_format radix2 (FLT_exp (-149) 24) (IZR (2 ^ 24))).
    { change (IZR (2 ^ 24)) with (bpow radix2 24). apply generic_format_FLT_bpow; [reflexivity|lia]. }
    assert (Ez : z = (2 ^ 24)%Z \/ z = (- 2 ^ 24)%Z) by lia. destruct Ez as [->| ->]; [exact P|]. rewrite opp_IZR. apply generic_format_opp. exact P.
  - apply generic_format_FLT. exists (Float radix2 z 0); cbn; [|lia|lia]. unfold F2R; cbn. lra.
Qed.
Lemma int_whole z : (Z.abs z <= 2 ^ 24)%Z -> to_int (IZR z) = Ok z.
Proof. intros H. unfold to_int. rewrite Ztrunc_IZR. replace ((- 2 ^ 31 <=? z) && (z <? 2 ^ 31))%Z with true; [reflexivity|]. symmetry. apply andb_true_intro. split; [apply Z.leb_le|apply Z.ltb_lt]; lia. Qed.

Section Proofs.
Variable atof : str -> R.
Variable stod : str -> outcome R.
Lemma asked_size a k d z : asked atof a k d z -> (Z.abs d <= 2 ^ 24)%Z -> to_int (get_float atof a k (IZR d)) = Ok z /\ (Z.abs z <= 2 ^ 24)%Z.
Proof.
  unfold get_float, get_num. intros [(t & E & Ht & Hz)|(N & ->)] Hd.
  - rewrite E, Ht, float_whole, int_whole by assumption. auto.
  - destruct (map_find k a) eqn:E; [exfalso; apply N; eexists; exact E|]. rewrite float_whole, int_whole by assumption. auto.
Qed.
Lemma quadprog_sizes a np nq mp mq : asked atof a (lit "np") 10 np -> asked atof a (lit "nq") 10 nq -> asked atof a (lit "min-np") np mp -> asked atof a (lit "min-nq") nq mq ->
  quadprog_set_parameters atof a = Ok (mkRanges mp mq (Z.max np mp) (Z.max nq mq)).
Proof.
  intros A B C D. unfold quadprog_set_parameters. destruct (asked_size _ _ _ _ A ltac:(lia)) as [-> L1]. cbn [bind]. destruct (asked_size _ _ _ _ B ltac:(lia)) as [-> L2]. cbn [bind].
  destruct (asked_size _ _ _ _ C L1) as [-> _]. cbn [bind]. destruct (asked_size _ _ _ _ D L2) as [-> _]. reflexivity.
Qed.
Lemma matlab_sizes a np nq mp mq : asked atof a (lit "np") 10 np -> asked atof a (lit "nq") 10 nq -> asked atof a (lit "min-np") np mp -> asked atof a (lit "min-nq") nq mq ->
  matlab_set_parameters atof a = Ok (mkRanges mp mq np nq, negb (is_defined a (lit "use-qpas"))).
Proof.
  intros A B C D. unfold matlab_set_parameters. destruct (asked_size _ _ _ _ A ltac:(lia)) as [-> L1]. cbn [bind]. destruct (asked_size _ _ _ _ B ltac:(lia)) as [-> L2]. cbn [bind].
  destruct (asked_size _ _ _ _ C L1) as [-> _]. cbn [bind]. destruct (asked_size _ _ _ _ D L2) as [-> _]. reflexivity.
Qed.
Lemma eigen_sizes a np nq : asked atof a (lit "np") 10 np -> asked atof a (lit "nq") 10 nq -> eigen_set_parameters atof a = Ok (np, nq).
Proof. intros A B. unfold eigen_set_parameters. destruct (asked_size _ _ _ _ A ltac:(lia)) as [-> _]. cbn [bind]. destruct (asked_size _ _ _ _ B ltac:(lia)) as [-> _]. reflexivity. Qed.
Lemma float_large x : IZR (2 ^ 31) <= x -> IZR (2 ^ 31) <= to_float x.
Proof.
  intros H. unfold to_float. apply round_ge_generic; [apply FLT_exp_valid; reflexivity|apply valid_rnd_N| |assumption].
  change (IZR (2 ^ 31)) with (bpow radix2 31). apply generic_format_FLT_bpow; [reflexivity|lia].
Qed.
Lemma int_large x : IZR (2 ^ 31) <= x -> to_int x = UB.
Proof.
  intros H. unfold to_int. assert (Hz : (2 ^ 31 <= Ztrunc x)%Z).
  { apply Ztrunc_le in H. rewrite Ztrunc_IZR in H. exact H. }
  replace ((- 2 ^ 31 <=? Ztrunc x) && (Ztrunc x <? 2 ^ 31))%Z with false; [reflexivity|]. symmetry. apply andb_false_intro2. apply Z.ltb_ge. assumption.
Qed.
Lemma given_dec a k : given a k \/ ~ given a k.
Proof. unfold given. destruct (map_find k a); [left; eexists; reflexivity|right; intros [v H]; discriminate]. Qed.
Lemma tol_step a (k : str) d old :
  (if is_defined a k then get_double stod a k d else Ok old) = match map_find k a with Some t => stod t | None => Ok old end.
Proof. unfold is_defined, get_double. destruct (map_find k a); reflexivity. Qed.
End Proofs.

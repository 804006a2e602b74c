(** Rational functions with a history (C124). *)
From Coq Require Import Reals List Lia Lra Arith.
From Verif Require Import Base Num ParamsModel DataModel MonoModel RatModel RatSpec RatProofs RhistModel RhistSpec.
Import ListNotations.
Open Scope R_scope.

Section H.
Variable junk : R.
Variables dx dy np nq : nat.
Hypothesis Hdx : (0 < dx)%nat.

(** the coefficients of a channel after update(a, b) *)
Definition normal (a b : list R) (r : rf1) : Prop :=
  match b with
  | [] => False
  | b_0 :: b' =>
    (1 / 10 ^ 16 < Rabs b_0 -> getP r = map (fun t => t / b_0) a /\ getQ r = 1 :: map (fun t => t / b_0) b') /\
    (Rabs b_0 <= 1 / 10 ^ 16 -> getP r = a /\ getQ r = b) /\
    (forall x, length x = r_dim r -> polynomial (r_dim r) (r_min r) (r_max r) b x <> 0 ->
       value1 r x = Ok (polynomial (r_dim r) (r_min r) (r_max r) a x / polynomial (r_dim r) (r_min r) (r_max r) b x))
  end.

(** a channel made after the calls [m], the present past being [past] *)
Definition channel_of (past m : list call) (i : nat) (r : rf1) : Prop :=
  well_formed r /\ r_dim r = dx /\ (length (r_p r), length (r_q r)) = sizes (np, nq) m /\
  (r_min r, r_max r) = inflate (last_min dx m) (last_max dx m) /\
  match given i past with Some (a, b) => normal a b r | None => True end.
Definition represents (f : rf) (past : list call) : Prop :=
  f_dimX f = dx /\ f_dimY f = outputs dy past /\ f_min f = last_min dx past /\ f_max f = last_max dx past /\
  (f_np f, f_nq f) = sizes (np, nq) past /\ length (f_rs f) = outputs dy past /\
  forall i, (i < outputs dy past)%nat ->
    match made dy i past with
    | None => nth_error (f_rs f) i = Some None
    | Some m => exists r, nth_error (f_rs f) i = Some (Some r) /\ channel_of past m i r
    end.

Lemma last_lengths past : calls_ok dx dy (np, nq) past -> length (last_min dx past) = dx /\ length (last_max dx past) = dx.
Proof.
  induction past as [|c p IH]; intros H; [split; apply repeat_length|]. destruct H as [H C]. specialize (IH H).
  destruct c; cbn [last_min last_max]; cbn in C; try exact IH; destruct IH; split; assumption.
Qed.
Lemma made_out i past : (outputs dy past <= i)%nat -> made dy i past = None.
Proof.
  revert i. induction past as [|c p IH]; intros i H; [reflexivity|]. destruct c; cbn [made drops outputs asks] in *; try reflexivity;
    try (rewrite (IH i H); cbn [andb]; try reflexivity; rewrite (proj2 (Nat.ltb_ge _ _) H), Bool.andb_false_r; reflexivity).
  rewrite (proj2 (Nat.leb_le _ _) H). reflexivity.
Qed.
Lemma made_none_given i past : (forall c p1 p2, past = p1 ++ c :: p2 -> match c with Update j _ _ => (j < outputs dy p2)%nat | _ => True end) ->
  made dy i past = None -> given i past = None.
Proof.
  induction past as [|c p IH]; intros HU H; [reflexivity|].
  assert (HU' : forall c p1 p2, p = p1 ++ c :: p2 -> match c with Update j _ _ => (j < outputs dy p2)%nat | _ => True end).
  { intros c' p1 p2 E. apply (HU c' (c :: p1) p2). rewrite E. reflexivity. }
  specialize (HU c [] p eq_refl). cbn [made given] in *. destruct (drops i c); [reflexivity|].
  destruct (made dy i p); [discriminate|]. specialize (IH HU' eq_refl). destruct c; auto.
  cbn [asks] in H. destruct (Nat.eqb_spec i0 i) as [->|]; [|exact IH]. cbn in HU. rewrite (proj2 (Nat.ltb_lt _ _) HU) in H. discriminate.
Qed.
Lemma calls_updates past : calls_ok dx dy (np, nq) past -> forall c p1 p2, past = p1 ++ c :: p2 -> match c with Update j _ _ => (j < outputs dy p2)%nat | _ => True end.
Proof.
  induction past as [|c0 p IH]; intros H c p1 p2 E; [destruct p1; discriminate|]. destruct H as [H C].
  destruct p1 as [|c1 p1]; injection E as -> ->.
  - destruct c; auto. exact (proj1 C).
  - exact (IH H c p1 p2 eq_refl).
Qed.

(** the state after get(i) *)
Lemma get_step f past i : calls_ok dx dy (np, nq) past -> represents f past -> (i < outputs dy past)%nat ->
  exists r f', get junk f i = Ok (Some r, f') /\ f_dimX f' = dx /\ f_dimY f' = outputs dy past /\ f_min f' = f_min f /\ f_max f' = f_max f /\
    f_np f' = f_np f /\ f_nq f' = f_nq f /\ length (f_rs f') = outputs dy past /\ nth_error (f_rs f') i = Some (Some r) /\
    (forall j, j <> i -> nth_error (f_rs f') j = nth_error (f_rs f) j) /\
    channel_of past (match made dy i past with Some m => m | None => past end) i r.
Proof.
  intros Hok (A & B & C & D & E & F & G) Hi. pose proof (G i Hi) as Gi. destruct (last_lengths past Hok) as [Lm LM].
  destruct (made dy i past) as [m|] eqn:Em.
  - destruct Gi as (r & Er & Cr). exists r, f. unfold get. rewrite B, (proj2 (Nat.ltb_lt _ _) Hi), Er. repeat (split; auto).
  - assert (Hlt : (i < f_dimY f)%nat) by lia. assert (Hl : (i < length (f_rs f))%nat) by lia.
    assert (M1 : length (f_min f) = f_dimX f) by (rewrite C, A; exact Lm). assert (M2 : length (f_max f) = f_dimX f) by (rewrite D, A; exact LM).
    destruct (get_fresh junk f i Hlt Gi M1 M2 ltac:(lia)) as (r & f' & Eg & W & Dr & P & Q & Bx).
    exists r, f'. split; [exact Eg|]. rewrite C, D in Bx.
    unfold get in Eg. rewrite (proj2 (Nat.ltb_lt _ _) Hlt), Gi, M1, M2, !Nat.ltb_irrefl in Eg. cbn [orb] in Eg.
    destruct (inflate (f_min f) (f_max f)) as [mn mx]. apply Ok_inj in Eg. apply (f_equal snd) in Eg as Ef. apply (f_equal fst) in Eg. cbn [fst snd] in Eg, Ef. injection Eg as Eg. subst f'. rewrite <- Eg in *.
    split; [exact A|]. split; [exact B|]. do 4 (split; [reflexivity|]).
    split. { unfold set_channel. cbn [f_rs]. rewrite app_length, firstn_length. cbn [length]. rewrite skipn_length. lia. }
    split; [apply nth_error_set_channel; exact Hl|]. split; [intros j Hj; apply nth_error_set_channel_other; auto|].
    split; [exact W|]. split; [rewrite Dr; exact A|]. split; [rewrite P, Q; exact E|]. split; [exact Bx|].
    rewrite (made_none_given i past (calls_updates past Hok) Em). exact I.
Qed.

Lemma nth_repeat_none (A : Type) n i : (i < n)%nat -> nth_error (repeat (@None A) n) i = Some None.
Proof. revert i. induction n as [|n IH]; intros i H; [lia|]. destruct i; [reflexivity|]. apply IH. lia. Qed.

(** calls that change no channel *)
Lemma keep past c f f' : represents f past -> (forall i, drops i c = false) -> (forall i, asks i c = false) ->
  outputs dy (c :: past) = outputs dy past -> f_dimX f' = dx -> f_dimY f' = outputs dy past -> f_rs f' = f_rs f ->
  f_min f' = last_min dx (c :: past) -> f_max f' = last_max dx (c :: past) -> (f_np f', f_nq f') = sizes (np, nq) (c :: past) ->
  represents f' (c :: past).
Proof.
  intros (A & B & C & D & E & F & G) N1 N2 O X Y R M1 M2 S. unfold represents. rewrite O, R. do 3 (split; [assumption|]). split; [assumption|]. split; [assumption|].
  split; [assumption|]. intros i Hi. specialize (G i Hi).
  assert (Em : made dy i (c :: past) = made dy i past) by (cbn [made]; rewrite N1, N2; destruct (made dy i past); reflexivity). rewrite Em.
  assert (Eg : given i (c :: past) = given i past).
  { cbn [given]. rewrite N1. destruct c; try reflexivity. specialize (N2 i0). cbn in N2. rewrite Nat.eqb_refl in N2. discriminate. }
  unfold channel_of. rewrite Eg. exact G.
Qed.

Theorem step_represents f past c : calls_ok dx dy (np, nq) (c :: past) -> represents f past ->
  exists f', step junk f c = Ok f' /\ represents f' (c :: past).
Proof.
  intros [Hok Hc] R. pose proof R as (A & B & C & D & E & F & G). destruct c as [v|v|i|i a b|n|p q|]; cbn [step].
  - eexists. split; [reflexivity|]. apply (keep past _ f); auto; try reflexivity.
  - eexists. split; [reflexivity|]. apply (keep past _ f); auto; try reflexivity.
  - destruct (Nat.lt_ge_cases i (outputs dy past)) as [Hi|Hi].
    + destruct (get_step f past i Hok R Hi) as (r & f' & Eg & X & Y & M1 & M2 & S1 & S2 & L & Ei & Ej & Ch). rewrite Eg. cbn [bind snd].
      exists f'. split; [reflexivity|]. unfold represents. cbn [outputs last_min last_max sizes]. split; [exact X|]. split; [exact Y|].
      rewrite M1, M2, S1, S2. do 4 (split; [assumption|]). intros j Hj. cbn [made drops asks]. destruct (Nat.eqb_spec i j) as [<-|Hne].
      * rewrite (proj2 (Nat.ltb_lt _ _) Hi). cbn [andb]. destruct (made dy i past) as [m|]; exists r; (split; [exact Ei|]); exact Ch.
      * cbn [andb]. specialize (G j Hj). rewrite (Ej j) by auto. destruct (made dy j past); exact G.
    + rewrite get_out_of_range by lia. cbn [bind snd]. exists f. split; [reflexivity|]. unfold represents. cbn [outputs last_min last_max sizes].
      do 6 (split; [assumption|]). intros j Hj. cbn [made drops asks]. replace (i =? j)%nat with false by (symmetry; apply Nat.eqb_neq; lia). cbn [andb].
      specialize (G j Hj). destruct (made dy j past); exact G.
  - destruct Hc as (Hi & Hb & Hs). destruct (get_step f past i Hok R Hi) as (r & f' & Eg & X & Y & M1 & M2 & S1 & S2 & L & Ei & Ej & W & Dr & Sz & Bx & _).
    rewrite Eg. cbn [bind fst snd]. destruct b as [|b_0 b]; [congruence|].
    rewrite <- Hs in Sz. injection Sz as Sp Sq.
    destruct (update_spec junk r a b_0 b W (eq_sym Sp) (eq_sym Sq)) as (r' & U & W' & D' & m' & M' & N1 & N2 & V). rewrite U. cbn [bind].
    exists (set_channel f' i r'). split; [reflexivity|]. unfold represents. cbn [outputs last_min last_max sizes].
    assert (Li : (i < length (f_rs f'))%nat) by lia.
    split; [exact X|]. split; [exact Y|]. split; [cbn [set_channel f_min]; rewrite M1; exact C|]. split; [cbn [set_channel f_max]; rewrite M2; exact D|].
    split; [cbn [set_channel f_np f_nq]; rewrite S1, S2; exact E|]. split. { unfold set_channel. cbn [f_rs]. rewrite app_length, firstn_length. cbn [length]. rewrite skipn_length. lia. }
    intros j Hj. cbn [made drops asks]. destruct (Nat.eqb_spec i j) as [<-|Hne].
    + rewrite (proj2 (Nat.ltb_lt _ _) Hi). cbn [andb]. rewrite nth_error_set_channel by exact Li.
      assert (Ch : channel_of (Update i a (b_0 :: b) :: past) (match made dy i past with Some m => m | None => past end) i r').
      { split; [exact W'|]. split; [congruence|]. split.
        { rewrite <- Hs. assert (LP : length (getP r') = length a /\ length (getQ r') = S (length b)).
          { destruct (Rlt_le_dec (1 / 10 ^ 16) (Rabs b_0)) as [T|T].
            - destruct (N1 T) as [-> ->]. cbn [length]. rewrite !map_length. auto.
            - destruct (N2 T) as [-> ->]. auto. }
          unfold getP, getQ in LP. rewrite !map_length in LP. destruct LP as [-> ->]. reflexivity. }
        split; [rewrite m', M'; exact Bx|]. cbn [given drops]. rewrite Nat.eqb_refl. cbn [normal]. rewrite D', m', M'. split; [exact N1|]. split; [exact N2|]. exact V. }
      destruct (made dy i past); exists r'; (split; [reflexivity|exact Ch]).
    + cbn [andb]. rewrite nth_error_set_channel_other by auto. rewrite (Ej j) by auto. specialize (G j Hj).
      assert (Eg' : given j (Update i a (b_0 :: b) :: past) = given j past) by (cbn [given drops]; rewrite (proj2 (Nat.eqb_neq _ _) Hne); reflexivity).
      unfold channel_of. rewrite Eg'. destruct (made dy j past); exact G.
  - eexists. split; [reflexivity|]. unfold represents. cbn [outputs last_min last_max sizes set_dimY f_dimX f_dimY f_min f_max f_np f_nq f_rs].
    split; [assumption|]. split; [reflexivity|]. do 3 (split; [assumption|]). split. { rewrite app_length, firstn_length, repeat_length. lia. }
    intros i Hi. cbn [made drops asks]. rewrite (proj2 (Nat.leb_gt _ _) Hi). cbn [andb].
    destruct (Nat.lt_ge_cases i (outputs dy past)) as [Hl|Hl].
    + rewrite nth_error_app1 by (rewrite firstn_length; lia). specialize (G i Hl).
      assert (EF : nth_error (firstn n (f_rs f)) i = nth_error (f_rs f) i).
      { clear -Hi. revert i Hi. generalize (f_rs f). induction n as [|n IH]; intros l i Hi; [lia|]. destruct l; [reflexivity|]. destruct i; [reflexivity|]. exact (IH l i ltac:(lia)). }
      rewrite EF. unfold channel_of. cbn [given drops]. rewrite (proj2 (Nat.leb_gt _ _) Hi). destruct (made dy i past); exact G.
    + rewrite (made_out i past Hl). rewrite nth_error_app2 by (rewrite firstn_length; lia). rewrite firstn_length, Nat.min_r by lia.
      apply nth_repeat_none. lia.
  - eexists. split; [reflexivity|]. unfold represents. cbn [outputs last_min last_max sizes set_size clear f_dimX f_dimY f_min f_max f_np f_nq f_rs].
    do 4 (split; [assumption|]). split; [reflexivity|]. split; [rewrite repeat_length; exact B|]. intros i Hi. cbn [made drops]. apply nth_repeat_none. lia.
  - eexists. split; [reflexivity|]. unfold represents. cbn [outputs last_min last_max sizes clear f_dimX f_dimY f_min f_max f_np f_nq f_rs].
    do 4 (split; [assumption|]). split; [exact E|]. split; [rewrite repeat_length; exact B|]. intros i Hi. cbn [made drops]. apply nth_repeat_none. lia.
Qed.

Lemma new_represents : represents (new_rf dx dy np nq) [].
Proof.
  unfold represents, new_rf. cbn. do 5 (split; [reflexivity|]). split; [apply repeat_length|]. intros i Hi. apply nth_repeat_none. exact Hi.
Qed.

Lemma run_app h1 : forall h2 f, run junk f (h1 ++ h2) = bind (run junk f h1) (fun f' => run junk f' h2).
Proof. induction h1 as [|c h1 IH]; intros h2 f; [reflexivity|]. cbn [app run]. destruct (step junk f c); cbn [bind]; auto. Qed.

Theorem run_represents past : calls_ok dx dy (np, nq) past -> exists f, run junk (new_rf dx dy np nq) (rev past) = Ok f /\ represents f past.
Proof.
  induction past as [|c p IH]; intros H.
  - eexists. split; [reflexivity|]. apply new_represents.
  - destruct (IH (proj1 H)) as (f & E & R). destruct (step_represents f p c H R) as (f' & S & R'). exists f'. split; [|exact R'].
    cbn [rev]. rewrite run_app, E. cbn [bind run]. rewrite S. reflexivity.
Qed.
End H.

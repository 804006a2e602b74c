(** Rational functions with a history: values, files, copies, printing (C124, C125). *)
From Coq Require Import Reals List Lia Lra Arith Ascii String.
From Verif Require Import Base Num ParamsModel GeoModel ArgsModel ArgsSpec ArgsProofs DataModel TextModel TextProofs TextRound FuncModel FuncFile FuncFileSpec FuncFileProofs
  MonoModel MonoSpec MonoProofs RatModel RatSpec RatProofs RatFile RcutProofs RhistModel RhistSpec RhistProofs.
Import ListNotations.
Open Scope list_scope.
Open Scope R_scope.

Lemma list_ext (A : Type) (a : list A) : forall b, length a = length b -> (forall k, (k < length a)%nat -> nth_error a k = nth_error b k) -> a = b.
Proof.
  induction a as [|x a IH]; intros [|y b] L H; try discriminate; [reflexivity|]. pose proof (H 0%nat ltac:(cbn; lia)) as E. injection E as ->. f_equal.
  injection L as L. apply IH; [exact L|]. intros k Hk. apply (H (S k)). cbn. lia.
Qed.
Lemma widened_unique mn mx : forall a b a' b', length mn = length mx -> widened (1 / 10) mn mx a b -> widened (1 / 10) mn mx a' b' -> a = a' /\ b = b'.
Proof.
  intros a b a' b' L (A1 & A2 & A3) (B1 & B2 & B3).
  assert (P : forall k, (k < length mn)%nat -> nth_error a k = nth_error a' k /\ nth_error b k = nth_error b' k).
  { intros k Hk. destruct (nth_error mn k) as [u|] eqn:E1; [|apply nth_error_None in E1; lia]. destruct (nth_error mx k) as [v|] eqn:E2; [|apply nth_error_None in E2; lia].
    destruct (A3 k u v E1 E2) as [P1 P2]. destruct (B3 k u v E1 E2) as [Q1 Q2]. destruct (Req_EM_T u v) as [E|E].
    - destruct (P2 E) as [-> ->]. destruct (Q2 E) as [-> ->]. auto.
    - destruct (P1 E) as [-> ->]. destruct (Q1 E) as [-> ->]. auto. }
  split; apply list_ext; try congruence; intros k Hk; apply P; congruence.
Qed.

Lemma value_channels_spec rs : forall x ys, length ys = length rs ->
  (forall i c, nth_error rs i = Some c -> exists r y, c = Some r /\ nth_error ys i = Some y /\ value1 r x = Ok y) -> value_channels rs x = Ok ys.
Proof.
  induction rs as [|c rs IH]; intros x ys L H; [destruct ys; [reflexivity|discriminate]|]. destruct ys as [|y ys]; [discriminate|]. injection L as L.
  destruct (H 0%nat c eq_refl) as (r & y' & -> & Ey & V). injection Ey as ->. cbn [value_channels]. rewrite V. cbn [bind].
  rewrite (IH x ys L); [reflexivity|]. intros i c' Hi. apply (H (S i) c' Hi).
Qed.

Section H.
Variable junk : R.
Variables dx dy np nq : nat.
Hypothesis Hdx : (0 < dx)%nat.

Lemma made_calls i past : forall m, calls_ok dx dy (np, nq) past -> made dy i past = Some m -> calls_ok dx dy (np, nq) m.
Proof.
  induction past as [|c p IH]; intros m H E; [discriminate|]. destruct H as [H _]. cbn [made] in E. destruct (drops i c); [discriminate|].
  destruct (made dy i p) as [b|]; [injection E as <-; apply IH; auto|]. destruct (asks i c && _)%bool; [injection E as <-; exact H|discriminate].
Qed.

(** ** values *)
Lemma value_history past x ys f : calls_ok dx dy (np, nq) past -> represents dx dy np nq f past -> length x = dx -> length ys = outputs dy past ->
  (forall i, (i < outputs dy past)%nat -> exists m a b mn mx, made dy i past = Some m /\ given i past = Some (a, b) /\
     widened (1 / 10) (last_min dx m) (last_max dx m) mn mx /\ polynomial dx mn mx b x <> 0 /\
     nth_error ys i = Some (polynomial dx mn mx a x / polynomial dx mn mx b x)) ->
  value_rf f x = Ok ys.
Proof.
  intros Hok (A & B & C & D & E & F & G) Hx Hl H. unfold value_rf. rewrite B, firstn_all2 by lia. apply value_channels_spec; [congruence|].
  intros i c Hi. assert (Li : (i < outputs dy past)%nat) by (rewrite <- F; apply nth_error_Some; congruence). destruct (H i Li) as (m & a & b & mn & mx & Em & Eg & W & Nz & Ey).
  specialize (G i Li). rewrite Em in G. destruct G as (r & Er & (Wf & Dr & _ & Bx & Nm)). rewrite Er in Hi. injection Hi as <-. rewrite Eg in Nm.
  exists r, (polynomial dx mn mx a x / polynomial dx mn mx b x). split; [reflexivity|]. split; [exact Ey|].
  destruct (last_lengths dx dy np nq m (made_calls i past m Hok Em)) as [L1 L2].
  pose proof (inflate_widened (last_min dx m) (last_max dx m) ltac:(congruence)) as W2. rewrite <- Bx in W2. cbn [fst snd] in W2.
  destruct (widened_unique (last_min dx m) (last_max dx m) _ _ _ _ ltac:(congruence) W W2) as [-> ->].
  destruct b as [|b_0 b]; [destruct Nm|]. destruct Nm as (_ & _ & V). rewrite Dr in V. apply V; assumption.
Qed.
Lemma value_missing past x i f : calls_ok dx dy (np, nq) past -> represents dx dy np nq f past -> length x = dx -> (i < outputs dy past)%nat -> made dy i past = None ->
  value_rf f x = UB.
Proof.
  intros Hok (A & B & C & D & E & F & G) Hx Hi Em.
  (* the first missing one *)
  assert (M : exists k, (k < outputs dy past)%nat /\ made dy k past = None /\ forall j, (j < k)%nat -> made dy j past <> None).
  { clear - Hi Em. revert Hi Em. induction i as [i IH] using lt_wf_ind. intros Hi Em.
    destruct (existsb (fun j => match made dy j past with None => true | _ => false end) (seq 0 i)) eqn:Ex.
    - apply existsb_exists in Ex. destruct Ex as (j & Hj & Ej). apply in_seq in Hj. apply (IH j ltac:(lia) ltac:(lia)). destruct (made dy j past); [discriminate|reflexivity].
    - exists i. split; [exact Hi|]. split; [exact Em|]. intros j Hj En. assert (T : existsb (fun j => match made dy j past with None => true | _ => false end) (seq 0 i) = true).
      { apply existsb_exists. exists j. split; [apply in_seq; lia|]. rewrite En. reflexivity. } congruence. }
  destruct M as (k & Hk & Ek & Hj). apply (value_missing_channel f k).
  - lia.
  - specialize (G k Hk). rewrite Ek in G. exact G.
  - intros j Lj. specialize (G j ltac:(lia)). specialize (Hj j Lj). destruct (made dy j past) as [m|]; [|congruence]. destruct G as (r & Er & Wf & Dr & _). exists r. split; [exact Er|].
    eexists. apply value1_spec; [exact Wf|congruence].
Qed.

(** ** copies *)
Lemma copy_channels_spec n : forall k f g, f_dimX f = dx -> f_dimX g = dx -> f_dimY f = (k + n)%nat -> f_dimY g = (k + n)%nat ->
  length (f_rs f) = f_dimY f -> length (f_rs g) = f_dimY g -> length (f_min f) = dx -> length (f_max f) = dx -> length (f_min g) = dx -> length (f_max g) = dx ->
  (forall i r, nth_error (f_rs f) i = Some (Some r) -> well_formed r /\ r_dim r = dx) ->
  (forall i r, nth_error (f_rs g) i = Some (Some r) -> well_formed r /\ r_dim r = dx) ->
  exists f' g', copy_channels junk n k f g = Ok (f', g') /\ f_min f' = f_min f /\ f_max f' = f_max f /\ f_dimX f' = dx /\ f_dimY f' = f_dimY f /\ length (f_rs f') = f_dimY f /\
    (forall i, (i < k)%nat -> nth_error (f_rs f') i = nth_error (f_rs f) i /\ nth_error (f_rs g') i = nth_error (f_rs g) i) /\
    forall i, (k <= i < k + n)%nat -> exists r s r', (exists f0, get junk f i = Ok (Some r, f0)) /\ (exists g0, get junk g i = Ok (Some s, g0)) /\
      nth_error (f_rs f') i = Some (Some r') /\ nth_error (f_rs g') i = Some (Some s) /\
      r_dim r' = dx /\ r_min r' = r_min r /\ r_max r' = r_max r /\ getP r' = getP s /\ getQ r' = getQ s /\ well_formed r'.
Proof.
  induction n as [|n IH]; intros k f g Hf Hg Df Dg Lf Lg m1 m2 m3 m4 Wf Wg.
  - exists f, g. cbn [copy_channels]. repeat (split; [auto; fail|]). intros i Hi. lia.
  - cbn [copy_channels].
    assert (GET : forall h, f_dimX h = dx -> f_dimY h = (k + S n)%nat -> length (f_rs h) = f_dimY h -> length (f_min h) = dx -> length (f_max h) = dx ->
      (forall i r, nth_error (f_rs h) i = Some (Some r) -> well_formed r /\ r_dim r = dx) ->
      exists r h', get junk h k = Ok (Some r, h') /\ well_formed r /\ r_dim r = dx /\ f_dimX h' = dx /\ f_dimY h' = f_dimY h /\ f_min h' = f_min h /\ f_max h' = f_max h /\
        f_np h' = f_np h /\ f_nq h' = f_nq h /\
        length (f_rs h') = f_dimY h /\ nth_error (f_rs h') k = Some (Some r) /\ forall j, j <> k -> nth_error (f_rs h') j = nth_error (f_rs h) j).
    { intros h X Y L M1 M2 W. destruct (nth_error (f_rs h) k) as [[r|]|] eqn:Ek; [| |apply nth_error_None in Ek; lia].
      - exists r, h. unfold get. rewrite (proj2 (Nat.ltb_lt k (f_dimY h)) ltac:(lia)), Ek. destruct (W k r Ek). repeat (split; [auto; fail|]). auto.
      - destruct (get_fresh junk h k ltac:(lia) Ek) as (r & h' & Eg & W1 & W2 & _); try lia.
        exists r, h'. split; [exact Eg|]. split; [exact W1|]. split; [congruence|].
        unfold get in Eg. rewrite (proj2 (Nat.ltb_lt k (f_dimY h)) ltac:(lia)), Ek, X, M1, M2, Nat.ltb_irrefl in Eg. cbn [orb] in Eg. destruct (inflate (f_min h) (f_max h)).
        apply Ok_inj in Eg. injection Eg as Eg1 Eg2. subst r h'. do 6 (split; [auto; fail|]).
        split. { unfold set_channel. cbn [f_rs]. rewrite app_length, firstn_length. cbn [length]. rewrite skipn_length. lia. }
        split; [apply nth_error_set_channel; lia|]. intros j Hj. apply nth_error_set_channel_other; [auto|lia]. }
    destruct (GET f Hf Df Lf m1 m2 Wf) as (r & f1 & E1 & W1 & D1 & X1 & Y1 & N1 & O1 & Sp & Sq & L1 & K1 & J1).
    destruct (GET g Hg Dg Lg m3 m4 Wg) as (s & g1 & E2 & W2 & D2 & X2 & Y2 & N2 & O2 & Tp & Tq & L2 & K2 & J2). clear GET.
    rewrite E1, E2. cbn [bind fst snd]. destruct (update_from_spec junk r s W1 W2 ltac:(congruence)) as (r' & U & W' & D' & B1 & B2 & P & Q).
    rewrite U. cbn [bind].
    assert (L3 : length (f_rs (set_channel f1 k r')) = f_dimY f) by (unfold set_channel; cbn [f_rs]; rewrite app_length, firstn_length; cbn [length]; rewrite skipn_length; lia).
    destruct (IH (S k) (set_channel f1 k r') g1) as (f' & g' & E & M1 & M2 & X & Y & L & Lo & Hi).
    { exact X1. } { exact X2. } { cbn [set_channel f_dimY]. lia. } { lia. } { cbn [set_channel f_dimY]. lia. } { lia. }
    { cbn [set_channel f_min]. congruence. } { cbn [set_channel f_max]. congruence. } { congruence. } { congruence. }
    { intros i ri Hi. destruct (Nat.eq_dec k i) as [<-|Hne].
      - rewrite nth_error_set_channel in Hi by lia. injection Hi as <-. split; [exact W'|congruence].
      - rewrite nth_error_set_channel_other in Hi by lia. rewrite J1 in Hi by auto. exact (Wf i ri Hi). }
    { intros i ri Hi. destruct (Nat.eq_dec i k) as [->|Hne]; [rewrite K2 in Hi; injection Hi as <-; auto|]. rewrite J2 in Hi by auto. exact (Wg i ri Hi). }
    exists f', g'. split; [exact E|]. cbn [set_channel f_min f_max f_dimY] in M1, M2, Y, L. split; [congruence|]. split; [congruence|]. split; [exact X|]. split; [congruence|]. split; [congruence|].
    assert (Kf : nth_error (f_rs f') k = Some (Some r')) by (destruct (Lo k ltac:(lia)) as [-> _]; apply nth_error_set_channel; lia).
    assert (Kg : nth_error (f_rs g') k = Some (Some s)) by (destruct (Lo k ltac:(lia)) as [_ ->]; exact K2).
    split.
    + intros i Hi'. destruct (Lo i ltac:(lia)) as [-> ->]. split; [rewrite nth_error_set_channel_other by lia; apply J1; lia|apply J2; lia].
    + intros i Hi'. destruct (Nat.eq_dec i k) as [->|Hne].
      * exists r, s, r'. split; [eauto|]. split; [eauto|]. repeat (split; [auto; fail|]). split; [congruence|]. repeat (split; [auto; fail|]). auto.
      * destruct (Hi i ltac:(lia)) as (ri & si & r'i & (f0 & Gf) & (g0 & Gg) & Z). exists ri, si, r'i.
        split; [|split; [|exact Z]].
        { unfold get in Gf |- *. cbn [set_channel f_dimX f_dimY f_min f_max f_np f_nq] in Gf. rewrite nth_error_set_channel_other in Gf by lia.
          rewrite J1 in Gf by auto. rewrite Y1, X1, N1, O1, Sp, Sq in Gf. rewrite Hf. destruct (i <? f_dimY f)%nat; [|discriminate]. destruct (nth_error (f_rs f) i) as [[]|]; try discriminate.
          - apply Ok_inj in Gf. injection Gf as Gf _. eexists. rewrite Gf. reflexivity.
          - destruct (_ || _)%bool; [discriminate|]. destruct (inflate (f_min f) (f_max f)). apply Ok_inj in Gf. injection Gf as Gf _. eexists. rewrite Gf. reflexivity. }
        { unfold get in Gg |- *. 
          rewrite J2 in Gg by auto. rewrite Y2, X2, N2, O2, Tp, Tq in Gg. rewrite Hg. destruct (i <? f_dimY g)%nat; [|discriminate]. destruct (nth_error (f_rs g) i) as [[]|]; try discriminate.
          - apply Ok_inj in Gg. injection Gg as Gg _. eexists. rewrite Gg. reflexivity.
          - destruct (_ || _)%bool; [discriminate|]. destruct (inflate (f_min g) (f_max g)). apply Ok_inj in Gg. injection Gg as Gg _. eexists. rewrite Gg. reflexivity. }
Qed.
End H.

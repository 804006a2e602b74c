From Coq Require Import Reals List Arith Lia Lra.
From Verif Require Import Base Num ParamsModel GeoModel ArgsModel DataModel TextModel FuncModel MonoModel MonoProofs FuncFile RatModel RatSpec RatProofs QuadModel QuadSpec QuadProofs QuadFit QuadSizes LsqModel LsqSpec.
From Verif Require TextProofs.
Open Scope R_scope.

(** ** Sums *)
Lemma rsum_ext {A} (f g : A -> R) l : (forall x, In x l -> f x = g x) -> rsum (List.map f l) = rsum (List.map g l).
Proof. induction l as [|x l IH]; intros H; cbn; [reflexivity|]. rewrite (H x (or_introl eq_refl)), IH; [reflexivity|]. intros; apply H; right; assumption. Qed.
Lemma rsum_plus {A} (f g : A -> R) l : rsum (List.map (fun x => f x + g x) l) = rsum (List.map f l) + rsum (List.map g l).
Proof. induction l as [|x l IH]; cbn; [lra|]. rewrite IH. lra. Qed.
Lemma rsum_scale {A} k (f : A -> R) l : rsum (List.map (fun x => k * f x) l) = k * rsum (List.map f l).
Proof. induction l as [|x l IH]; cbn; [lra|]. rewrite IH. lra. Qed.
Lemma rsum_zero {A} (l : list A) : rsum (List.map (fun _ => 0) l) = 0.
Proof. induction l as [|x l IH]; cbn; [lra|]. rewrite IH. lra. Qed.
Lemma rsum_swap {A B} (f : A -> B -> R) la lb : rsum (List.map (fun a => rsum (List.map (fun b => f a b) lb)) la) = rsum (List.map (fun b => rsum (List.map (fun a => f a b) la)) lb).
Proof. induction la as [|a la IH]; cbn; [rewrite rsum_zero; reflexivity|]. rewrite IH, <- rsum_plus. reflexivity. Qed.
Lemma rsum_le {A} (f g : A -> R) l : (forall x, In x l -> f x <= g x) -> rsum (List.map f l) <= rsum (List.map g l).
Proof. induction l as [|x l IH]; intros H; cbn; [lra|]. pose proof (H x (or_introl eq_refl)). assert (rsum (List.map f l) <= rsum (List.map g l)) by (apply IH; intros; apply H; right; assumption). lra. Qed.
Lemma squares_rsum {A} (f : A -> R) l : squares f l = rsum (List.map (fun s => f s * f s) l).
Proof. induction l as [|x l IH]; cbn; [reflexivity|]. rewrite IH. reflexivity. Qed.
Lemma squares_ext {A} (f g : A -> R) l : (forall x, In x l -> f x = g x) -> squares f l = squares g l.
Proof. intros H. rewrite !squares_rsum. apply rsum_ext. intros x Hx. rewrite (H x Hx). reflexivity. Qed.
Lemma squares_map {A B} (f : B -> R) (g : A -> B) l : squares f (List.map g l) = squares (fun x => f (g x)) l.
Proof. induction l as [|x l IH]; cbn; [reflexivity|]. rewrite IH. reflexivity. Qed.
Lemma squares_nonneg {A} (f : A -> R) l : 0 <= squares f l.
Proof. induction l as [|x l IH]; cbn; [lra|]. nra. Qed.
Lemma squares_zero {A} (f : A -> R) l : squares f l <= 0 -> forall x, In x l -> f x = 0.
Proof.
  induction l as [|y l IH]; intros H x Hx; [destruct Hx|]. cbn in H. pose proof (squares_nonneg f l). assert (f y * f y = 0) by nra.
  destruct Hx as [->|Hx]; [nra|]. apply IH; [nra|assumption].
Qed.
Lemma dot_nth u : forall z n, length u = n -> length z = n -> dot u z = rsum (List.map (fun a => nth a u 0 * nth a z 0) (seq 0 n)).
Proof.
  induction u as [|x u IH]; intros [|y z] n Hu Hz; cbn in Hu, Hz; subst n; try discriminate; [reflexivity|].
  cbn [dot length seq List.map rsum nth]. rewrite <- seq_shift, map_map. cbn [nth]. f_equal. apply IH; [reflexivity|]. injection Hz as Hz. exact Hz.
Qed.
Lemma dot_comm a : forall b, dot a b = dot b a.
Proof. induction a as [|x a IH]; intros [|y b]; cbn; try reflexivity. rewrite IH. lra. Qed.
Lemma inner_dot a : forall b, inner a b = dot a b.
Proof. unfold inner. induction a as [|x a IH]; intros [|y b]; cbn; try reflexivity. rewrite <- IH. reflexivity. Qed.

(** a quadratic form sum_e w(e) (u(e) . z)^2 is determined by its matrix *)
Lemma quad_form {E} (w : E -> R) (u : E -> list R) l n z : (forall e, In e l -> length (u e) = n) -> length z = n ->
  rsum (List.map (fun e => w e * (dot (u e) z * dot (u e) z)) l) =
  rsum (List.map (fun a => rsum (List.map (fun b => nth a z 0 * nth b z 0 * rsum (List.map (fun e => w e * (nth a (u e) 0 * nth b (u e) 0)) l)) (seq 0 n))) (seq 0 n)).
Proof.
  intros Hl Hz. transitivity (rsum (List.map (fun e => rsum (List.map (fun a => rsum (List.map (fun b => nth a z 0 * nth b z 0 * (w e * (nth a (u e) 0 * nth b (u e) 0))) (seq 0 n))) (seq 0 n))) l)).
  - apply rsum_ext. intros e He. rewrite (dot_nth (u e) z n (Hl e He) Hz). set (S := rsum (List.map (fun a => nth a (u e) 0 * nth a z 0) (seq 0 n))).
    transitivity (rsum (List.map (fun a => (w e * S) * (nth a (u e) 0 * nth a z 0)) (seq 0 n))); [rewrite rsum_scale; fold S; lra|].
    apply rsum_ext. intros a _. unfold S. rewrite <- !rsum_scale. rewrite (Rmult_comm _ (nth a (u e) 0 * nth a z 0)), <- rsum_scale. apply rsum_ext. intros b _. lra.
  - rewrite rsum_swap. apply rsum_ext. intros a _. rewrite rsum_swap. apply rsum_ext. intros b _. apply rsum_scale.
Qed.
Lemma delta_sum (f : nat -> R) n : forall k a, (k <= a < k + n)%nat -> rsum (List.map (fun b => f b * delta a b) (seq k n)) = f a.
Proof.
  induction n as [|n IH]; intros k a H; [lia|]. cbn [seq List.map rsum]. unfold delta at 1. destruct (Nat.eqb_spec a k) as [->|N].
  - rewrite (rsum_ext _ (fun _ => 0)); [rewrite rsum_zero; lra|]. intros b Hb. apply in_seq in Hb. unfold delta. destruct (Nat.eqb_spec k b); [lia|lra].
  - rewrite IH by lia. lra.
Qed.

(** ** Channels *)
Fixpoint lfits {B} (fit1 : rf1 -> list B -> outcome (bool * rf1)) (r0 : rf1) (channels : list (list B)) : outcome (bool * list rf1) :=
  match channels with
  | [] => Ok (true, [])
  | ss :: t => do b <- fit1 r0 ss; if fst b then do u <- lfits fit1 r0 t; Ok (fst u, snd b :: snd u) else Ok (false, [snd b])
  end.
Section Channels.
Variable junk : R.
Lemma lsq_channels_spec fit1 dx dy mn mx np nq channels : (0 < dx)%nat -> length mn = dx -> length mx = dx -> forall don, (length don + length channels <= dy)%nat ->
  lsq_channels junk fit1 (length don) channels (mkRf dx dy mn mx np nq (List.map Some don ++ repeat None (dy - length don))) =
  (do u <- lfits fit1 (fresh junk dx np nq mn mx) channels;
   Ok (fst u, mkRf dx dy mn mx np nq (List.map Some (don ++ snd u) ++ repeat None (dy - length don - length (snd u))))).
Proof.
  intros Hd Hm HM. destruct (fresh_wf junk dx np nq mn mx Hd Hm HM) as (_ & _ & L1 & L2 & _).
  induction channels as [|ss channels IH]; intros don HL; cbn [lsq_channels lfits].
  - cbn [bind fst snd]. rewrite app_nil_r. cbn [length]. rewrite Nat.sub_0_r. reflexivity.
  - cbn [length] in HL. destruct (dy - length don)%nat as [|n] eqn:En; [lia|]. rewrite repeat_S.
    unfold get at 1. cbn [f_dimX f_dimY f_min f_max f_np f_nq f_rs].
    rewrite (proj2 (Nat.ltb_lt (length don) dy)) by lia. rewrite nth_error_app2 by (rewrite map_length; lia). rewrite map_length, Nat.sub_diag. cbn [nth_error].
    rewrite Hm, HM, Nat.ltb_irrefl. cbn [orb].
    rewrite (surjective_pairing (inflate mn mx)). fold (fresh junk dx np nq mn mx). cbn [bind].
    rewrite set_channel_at.
    destruct (fit1 (fresh junk dx np nq mn mx) ss) as [[b r']| | |]; try reflexivity. cbn [bind fst snd].
    assert (ES : forall r1, set_channel (mkRf dx dy mn mx np nq (List.map Some (don ++ [r1]) ++ repeat None n)) (length don) r' =
                 mkRf dx dy mn mx np nq (List.map Some (don ++ [r']) ++ repeat None n)).
    { intros r1. rewrite <- (set_channel_at dx dy mn mx np nq don (Some r1) r' (repeat None n)). f_equal. f_equal. rewrite map_app, <- app_assoc. reflexivity. }
    rewrite ES. destruct b.
    + specialize (IH (don ++ [r'])). rewrite app_length in IH. cbn [length] in IH. replace (length don + 1)%nat with (S (length don)) in IH by lia.
      replace (dy - S (length don))%nat with n in IH by lia. rewrite IH by lia.
      destruct (lfits fit1 (fresh junk dx np nq mn mx) channels) as [[b2 u]| | |]; try reflexivity. cbn [bind fst snd length]. rewrite <- app_assoc. cbn [app].
      replace (dy - S (length don) - length u)%nat with (dy - length don - S (length u))%nat by lia. reflexivity.
    + cbn [bind fst snd length]. rewrite Nat.sub_succ, Nat.sub_0_r. reflexivity.
Qed.
Lemma lfits_true {B} (fit1 : rf1 -> list B -> _) r0 : forall channels us, lfits fit1 r0 channels = Ok (true, us) -> Forall2 (fun ss r => fit1 r0 ss = Ok (true, r)) channels us.
Proof.
  induction channels as [|ss channels IH]; intros us H; cbn [lfits] in H.
  - assert (us = []) by congruence. subst us. constructor.
  - destruct (fit1 r0 ss) as [[b r]| | |] eqn:E; try discriminate. cbn [bind fst snd] in H. destruct b; [|discriminate].
    destruct (lfits fit1 r0 channels) as [[b2 u]| | |] eqn:E2; try discriminate. cbn [bind fst snd] in H. injection H as -> <-.
    constructor; [exact E|]. apply IH. reflexivity.
Qed.
Lemma lfits_all {B} (fit1 : rf1 -> list B -> _) r0 channels : (forall ss, In ss channels -> exists r, fit1 r0 ss = Ok (true, r)) -> exists us, lfits fit1 r0 channels = Ok (true, us).
Proof.
  induction channels as [|ss channels IH]; intros H; cbn [lfits]; [eauto|].
  destruct (H ss) as (r & E); [left; reflexivity|]. rewrite E. cbn [bind fst snd].
  destruct IH as (us & E'); [intros; apply H; right; assumption|]. rewrite E'. cbn [bind fst snd]. eauto.
Qed.
Lemma lsq_fit_spec fit1 np nq mn mx channels f : (0 < f_dimX f)%nat -> length mn = f_dimX f -> length mx = f_dimX f -> (length channels <= f_dimY f)%nat ->
  lsq_fit junk fit1 np nq mn mx channels f =
  (do u <- lfits (fit1 np nq) (fresh junk (f_dimX f) np nq mn mx) channels;
   Ok (fst u, mkRf (f_dimX f) (f_dimY f) mn mx np nq (List.map Some (snd u) ++ repeat None (f_dimY f - length (snd u))))).
Proof.
  intros Hd Hm HM HL. unfold lsq_fit, set_size, set_max, set_min. cbn [f_dimX f_dimY f_min f_max].
  pose proof (lsq_channels_spec (fit1 np nq) (f_dimX f) (f_dimY f) mn mx np nq channels Hd Hm HM [] HL) as E.
  cbn [length List.map app] in E. rewrite Nat.sub_0_r in E. exact E.
Qed.
Lemma lsq_fit_true fit1 np nq mn mx channels f f' : (0 < f_dimX f)%nat -> length mn = f_dimX f -> length mx = f_dimX f -> (length channels <= f_dimY f)%nat ->
  lsq_fit junk fit1 np nq mn mx channels f = Ok (true, f') ->
  (f_dimX f', f_dimY f', f_min f', f_max f', f_np f', f_nq f') = (f_dimX f, f_dimY f, mn, mx, np, nq) /\
  forall j ss, nth_error channels j = Some ss -> exists r, channel_of f' j r /\ fit1 np nq (fresh junk (f_dimX f) np nq mn mx) ss = Ok (true, r).
Proof.
  intros Hd Hm HM HL. rewrite lsq_fit_spec by assumption. destruct (lfits _ _ _) as [[b us]| | |] eqn:E; try discriminate. cbn [bind fst snd].
  intros H. injection H as -> <-. split; [reflexivity|]. intros j ss Hj. apply lfits_true in E. apply Forall2_nth in E as [EL E].
  assert (Hjl : (j < length us)%nat) by (rewrite <- EL; apply nth_error_Some; congruence).
  destruct (nth_error us j) as [r|] eqn:Er; [|apply nth_error_None in Er; lia]. exists r. split; [|exact (E j ss r Hj Er)].
  unfold channel_of. cbn [f_rs]. rewrite nth_error_app1 by (rewrite map_length; exact Hjl). rewrite nth_error_map, Er. reflexivity.
Qed.
Lemma lsq_fit_null fit1 np nq mn mx channels f : (0 < f_dimX f)%nat -> length mn = f_dimX f -> length mx = f_dimX f -> (f_dimY f < length channels)%nat ->
  (forall ss, In ss channels -> exists r, fit1 np nq (fresh junk (f_dimX f) np nq mn mx) ss = Ok (true, r)) -> lsq_fit junk fit1 np nq mn mx channels f = UB.
Proof.
  intros Hd Hm HM HL HF. unfold lsq_fit, set_size, set_max, set_min. cbn [f_dimX f_dimY f_min f_max].
  set (g := mkRf (f_dimX f) (f_dimY f) mn mx np nq (repeat None (f_dimY f))).
  assert (HC : forall c don, (length don <= f_dimY f)%nat -> (f_dimY f < length don + length c)%nat -> (forall ss, In ss c -> In ss channels) ->
     lsq_channels junk (fit1 np nq) (length don) c (mkRf (f_dimX f) (f_dimY f) mn mx np nq (List.map Some don ++ repeat None (f_dimY f - length don))) = UB).
  { induction c as [|ss c IH]; intros don H1 H2 H3; cbn [length] in H2; [lia|]. cbn [lsq_channels].
    destruct (Nat.eq_dec (length don) (f_dimY f)) as [Ed|Nd].
    - unfold get. cbn [f_dimY]. rewrite Ed, Nat.ltb_irrefl. reflexivity.
    - unfold get. cbn [f_dimX f_dimY f_min f_max f_np f_nq f_rs]. rewrite (proj2 (Nat.ltb_lt (length don) (f_dimY f))) by lia.
      destruct (f_dimY f - length don)%nat as [|n] eqn:En; [lia|]. rewrite repeat_S. rewrite nth_error_app2 by (rewrite map_length; lia). rewrite map_length, Nat.sub_diag. cbn [nth_error].
      rewrite Hm, HM, Nat.ltb_irrefl. cbn [orb]. rewrite (surjective_pairing (inflate mn mx)). fold (fresh junk (f_dimX f) np nq mn mx). cbn [bind]. rewrite set_channel_at.
      destruct (HF ss) as [r' E]; [apply H3; left; reflexivity|]. rewrite E. cbn [bind fst snd].
      replace (set_channel (mkRf (f_dimX f) (f_dimY f) mn mx np nq (List.map Some (don ++ [fresh junk (f_dimX f) np nq mn mx]) ++ repeat None n)) (length don) r')
        with (mkRf (f_dimX f) (f_dimY f) mn mx np nq (List.map Some (don ++ [r']) ++ repeat None n)).
      2:{ rewrite <- (set_channel_at (f_dimX f) (f_dimY f) mn mx np nq don (Some (fresh junk (f_dimX f) np nq mn mx)) r' (repeat None n)). f_equal. f_equal. rewrite map_app, <- app_assoc. reflexivity. }
      specialize (IH (don ++ [r'])). rewrite app_length in IH. cbn [length] in IH. replace (length don + 1)%nat with (S (length don)) in IH by lia.
      replace (f_dimY f - S (length don))%nat with n in IH by lia. apply IH; [lia|lia|]. intros; apply H3; right; assumption. }
  pose proof (HC channels [] ltac:(cbn; lia) ltac:(cbn; lia) (fun _ h => h)) as E. cbn [length List.map app] in E. rewrite Nat.sub_0_r in E. exact E.
Qed.
End Channels.

(** The text of a rational function (C125). *)
From Coq Require Import Reals List Lia Lra Arith Ascii String.
From Verif Require Import Base Num ParamsModel ArgsModel ArgsSpec ArgsProofs DataModel TextModel FuncModel MonoModel RatModel RatSpec RhistModel.
Import ListNotations.
Open Scope list_scope.
Open Scope R_scope.

Section P.
Variable print : R -> str.
(** numbers are printed without commas and brackets *)
Hypothesis plain : forall x, print x <> [] /\ Forall (fun c => c <> ","%char /\ c <> "]"%char) (print x).

Lemma stop_inj (a : str) : forall b c d r s, Forall (fun c => c <> ","%char /\ c <> "]"%char) a -> Forall (fun c => c <> ","%char /\ c <> "]"%char) b ->
  (c = ","%char \/ c = "]"%char) -> (d = ","%char \/ d = "]"%char) -> a ++ c :: r = b ++ d :: s -> a = b /\ c = d /\ r = s.
Proof.
  induction a as [|x a IH]; intros [|y b] c d r s Ha Hb Hc Hd E; cbn [app] in E.
  - injection E as -> ->. auto.
  - injection E as -> _. inversion Hb; subst. tauto.
  - injection E as -> _. inversion Ha; subst. tauto.
  - injection E as -> E. inversion Ha; subst. inversion Hb; subst. destruct (IH b c d r s) as (-> & -> & ->); auto.
Qed.
Definition tail_text (v : list R) : str := flat_map (fun x => lit ", " ++ print x) v.
Lemma separated_tail v : forall i, arrives_all (separated print (S i) v) = tail_text v.
Proof. induction v as [|x v IH]; intros i; [reflexivity|]. unfold arrives_all in *. cbn [separated Nat.eqb flat_map app snd]. rewrite IH. unfold tail_text. cbn [flat_map]. rewrite <- app_assoc. reflexivity. Qed.
Lemma tail_inj v : forall w r s, tail_text v ++ "]"%char :: r = tail_text w ++ "]"%char :: s -> map print v = map print w /\ r = s.
Proof.
  assert (H : forall x u, exists c t, (c = ","%char \/ c = "]"%char) /\ tail_text x ++ "]"%char :: u = c :: t).
  { intros [|x l] u; [exists "]"%char, u; auto|]. exists ","%char. eexists. split; [auto|]. reflexivity. }
  induction v as [|x v IH]; intros [|y w] r s E.
  - injection E as ->. auto.
  - discriminate.
  - discriminate.
  - unfold tail_text in E. cbn [flat_map] in E. fold (tail_text v) in E. fold (tail_text w) in E. change (lit ", ") with [","%char; " "%char] in E. cbn [app] in E. injection E as E.
    rewrite <- !app_assoc in E. destruct (H v r) as (c & t & Hc & Et). destruct (H w s) as (d & t' & Hd & Et'). rewrite Et, Et' in E.
    destruct (stop_inj (print x) (print y) c d t t') as (P & Q & T); auto; try apply plain. subst c t'. rewrite <- Et' in Et. destruct (IH w r s Et) as [M ->]. cbn [map]. rewrite P, M. auto.
Qed.
Lemma separated_inj v w r s : arrives_all (separated print 0 v) ++ "]"%char :: r = arrives_all (separated print 0 w) ++ "]"%char :: s -> map print v = map print w /\ r = s.
Proof.
  assert (H : forall x u, exists c t, (c = ","%char \/ c = "]"%char) /\ tail_text x ++ "]"%char :: u = c :: t).
  { intros [|x l] u; [exists "]"%char, u; auto|]. exists ","%char. eexists. split; [auto|]. reflexivity. }
  assert (N : forall x v, arrives_all (separated print 0 (x :: v)) = print x ++ tail_text v).
  { intros x l. unfold arrives_all. cbn [separated Nat.eqb flat_map app snd]. pose proof (separated_tail l 0) as T. unfold arrives_all in T. rewrite T. reflexivity. }
  assert (Z : forall x l u r, "]"%char :: r <> (print x ++ tail_text l) ++ "]"%char :: u).
  { intros x l u r0 E. destruct (plain x) as [P1 P2]. destruct (print x) as [|c t]; [congruence|]. injection E as <- _. inversion P2; subst. tauto. }
  destruct v as [|x v], w as [|y w]; rewrite ?N; intros E.
  - injection E as ->. auto.
  - exfalso. exact (Z _ _ _ _ E).
  - exfalso. exact (Z _ _ _ _ (eq_sym E)).
  - rewrite <- !app_assoc in E. destruct (H v r) as (c & t & Hc & Et). destruct (H w s) as (d & t' & Hd & Et'). rewrite Et, Et' in E.
    destruct (stop_inj (print x) (print y) c d t t') as (P & Q & T); auto; try apply plain. subst c t'. rewrite <- Et' in Et. destruct (tail_inj v w r s Et) as [M ->]. cbn [map]. rewrite P, M. auto.
Qed.
Lemma arrives_all_app a b : arrives_all (a ++ b) = arrives_all a ++ arrives_all b.
Proof. apply flat_map_app. Qed.

Lemma print_1d_text r : arrives_all (print_1d print r) = lit "p = [" ++ arrives_all (separated print 0 (getP r)) ++ "]"%char :: nl :: lit "q = [" ++ arrives_all (separated print 0 (getQ r)) ++ "]"%char :: [nl].
Proof. unfold print_1d, arrives_all. cbn [app]. cbn [flat_map snd]. rewrite flat_map_app. cbn [flat_map snd]. rewrite flat_map_app. cbn [flat_map snd]. rewrite !app_nil_r. reflexivity. Qed.

Lemma channels_inj rs : forall i ss, arrives_all (print_channels print i rs) = arrives_all (print_channels print i ss) ->
  map (option_map (fun r => (map print (getP r), map print (getQ r)))) rs = map (option_map (fun r => (map print (getP r), map print (getQ r)))) ss.
Proof.
  induction rs as [|c rs IH]; intros i [|d ss] E; try discriminate; [reflexivity|]. cbn [print_channels] in E.
  rewrite !arrives_all_app in E. apply app_inv_head in E.
  destruct c as [r|], d as [s|]; rewrite ?arrives_all_app, ?print_1d_text in E.
  - rewrite <- !app_assoc in E. apply app_inv_head in E. cbn [app] in E. destruct (separated_inj _ _ _ _ E) as [P E1]. injection E1 as E1. rewrite <- ?app_assoc in E1. cbn [app] in E1.
    destruct (separated_inj _ _ _ _ E1) as [Q E2]. injection E2 as E2. cbn [map option_map]. rewrite P, Q. f_equal.
    exact (IH _ _ E2).
  - exfalso. discriminate E.
  - exfalso. discriminate E.
  - apply app_inv_head in E. cbn [map option_map]. f_equal. exact (IH _ _ E).
Qed.
End P.

(** Proofs for C117. *)
From Coq Require Import Reals List Lia Lra.
From Verif Require Import Base Num ParamsModel GeoModel ArgsModel ArgsSpec ArgsProofs DataModel TextModel TextProofs TextRound FuncModel FuncFile FuncFileSpec FuncFileProofs MonoModel MonoSpec MonoProofs RatModel RatSpec RatProofs RatFile CutSpec CutProofs RcutSpec.
Open Scope R_scope.

Definition dead (s : istream) : Prop := good s = false.

Lemma cut_app s a b : cut s (a ++ b) -> cut s a \/ exists s', s = a ++ s' /\ cut s' b.
Proof.
  intros (u & Hu & E). revert s E. induction a as [|x a IH]; intros s E.
  - right. exists s. split; [reflexivity|]. exists u. auto.
  - destruct s as [|y s].
    + left. exists (x :: a). split; [discriminate|reflexivity].
    + cbn [app] in E. injection E as -> E. destruct (IH s E) as [(v & Hv & ->)|(s' & -> & H)].
      * left. exists v. auto.
      * right. exists s'. auto.
Qed.
Lemma cut_cons s c b : cut s (c :: b) -> s = [] \/ exists s', s = c :: s' /\ cut s' b.
Proof. intros H. change (c :: b) with ([c] ++ b) in H. destruct (cut_app _ _ _ H) as [(u & Hu & E)|(s' & -> & H')]; [|right; exists s'; auto]. left. destruct s as [|x s]; [reflexivity|]. injection E as _ E. destruct s; [destruct u; [contradiction|discriminate]|discriminate]. Qed.
Lemma cut_spaces s w t : spaces w -> cut s (w ++ t) -> spaces s \/ exists q, s = w ++ q /\ cut q t.
Proof.
  intros Hw H. destruct (cut_app _ _ _ H) as [(u & _ & ->)|H']; [left|right; exact H']. unfold spaces in *. rewrite forallb_app in Hw. apply andb_prop in Hw. tauto.
Qed.
Lemma skip_all w : spaces w -> skip_ws w = [].
Proof. unfold spaces. induction w as [|c w IH]; [reflexivity|]. cbn [forallb skip_ws]. intros H. apply andb_prop in H as [-> H]. apply IH. assumption. Qed.

(** a stream that failed *)
Lemma dead_string s : dead s -> fst (scan_string s) = None /\ dead (snd (scan_string s)).
Proof. unfold dead, scan_string. intros ->. cbn. split; [reflexivity|]. unfold good. cbn. destruct (eofbit s); reflexivity. Qed.
Lemma dead_num s : dead s -> fst (scan_num s) = None /\ dead (snd (scan_num s)).
Proof. unfold dead, scan_num. intros ->. cbn. split; [reflexivity|]. unfold good. cbn. destruct (eofbit s); reflexivity. Qed.
Section Lex.
Variable junk : R.
Variable lex : str -> option (R * str).
Lemma dead_double s : dead s -> fst (scan_double lex s) = None /\ dead (snd (scan_double lex s)).
Proof. unfold dead, scan_double. intros ->. cbn. split; [reflexivity|]. unfold good. cbn. destruct (eofbit s); reflexivity. Qed.
Lemma dead_skip n : forall s, dead s -> dead (skip_tokens n s).
Proof. induction n as [|n IH]; intros s H; [exact H|]. cbn [skip_tokens]. apply IH. apply dead_string. assumption. Qed.
Lemma dead_coeffs n d s : dead s -> n <> 0%nat -> read_coeffs lex n d s = UB.
Proof. intros H Hn. destruct n as [|n]; [contradiction|]. cbn [read_coeffs]. destruct (dead_double _ (dead_skip d s H)) as [E _]. destruct (scan_double lex (skip_tokens d s)) as [o s']. cbn [fst] in E. subst o. reflexivity. Qed.
Lemma dead_doubles n s : dead s -> n <> 0%nat -> read_doubles lex n s = UB.
Proof. intros H Hn. destruct n as [|n]; [contradiction|]. cbn [read_doubles]. destruct (dead_double _ H) as [E _]. destruct (scan_double lex s) as [o s']. cbn [fst] in E. subst o. reflexivity. Qed.
Lemma dead_1d r s : dead s -> refused (load_1d junk lex r s).
Proof. intros H. unfold load_1d. destruct (dead_string s H) as [E _]. destruct (scan_string s) as [o s1]. cbn [fst] in E. subst o. eexists _, _. reflexivity. Qed.
End Lex.

(** a word, an integer or a number that is cut *)
Lemma word_cut s w t c r : spaces w -> Forall (fun c => is_space c = false) t -> is_space c = true -> cut s (w ++ t ++ c :: r) -> t <> [] ->
  (dead (snd (scan_string (good_stream s))) /\ (fst (scan_string (good_stream s)) = None \/ exists q, fst (scan_string (good_stream s)) = Some q /\ (q = t \/ cut q t))) \/
  exists s', cut s' r /\ scan_string (good_stream s) = (Some t, good_stream (c :: s')).
Proof.
  intros Hw Ht Hc H Hn.
  assert (D : forall q, Forall (fun c => is_space c = false) q -> q <> [] -> scan_string (good_stream (w ++ q)) = (Some q, {| rest := []; eofbit := true; failbit := false |})).
  { intros q Hq Hqn. unfold scan_string, good_stream. cbn [good rest eofbit failbit negb andb]. rewrite skip_ws_spaces by assumption. destruct q as [|x q]; [contradiction|].
    inversion Hq as [|? ? Hx Hq']; subst. cbn [skip_ws]. rewrite Hx. pose proof (take_token_app (x :: q) [] Hq I) as T. rewrite app_nil_r in T. rewrite T. reflexivity. }
  destruct (cut_spaces s w _ Hw H) as [Hs|(q & -> & Hq)].
  - left. unfold scan_string, good_stream. cbn [good rest eofbit failbit negb andb]. rewrite skip_all by assumption. split; [reflexivity|left; reflexivity].
  - destruct (cut_app _ _ _ Hq) as [Hq'|(s' & -> & Hs')].
    + assert (Fq : Forall (fun c => is_space c = false) q) by (destruct Hq' as (u & _ & ->); apply Forall_app in Ht; tauto). left. destruct q as [|x q].
      * rewrite app_nil_r. unfold scan_string, good_stream. cbn [good rest eofbit failbit negb andb]. rewrite skip_all by assumption. split; [reflexivity|left; reflexivity].
      * rewrite D by (try assumption; discriminate). split; [reflexivity|]. right. exists (x :: q). split; [reflexivity|right; assumption].
    + destruct (cut_cons _ _ _ Hs') as [->|(s'' & -> & Hs'')].
      * left. rewrite app_nil_r. rewrite D by assumption. split; [reflexivity|]. right. exists t. split; [reflexivity|left; reflexivity].
      * right. exists s''. split; [assumption|]. apply scan_string_word; try assumption. discriminate.
Qed.
Lemma num_cut s w n c r : spaces w -> is_space c = true -> cut s (w ++ print_nat n ++ c :: r) ->
  (dead (snd (scan_num (good_stream s))) /\ (forall z, fst (scan_num (good_stream s)) = Some z -> (0 <= z)%Z)) \/ exists s', cut s' r /\ scan_num (good_stream s) = (Some (Z.of_nat n), good_stream (c :: s')).
Proof.
  intros Hw Hc H.
  assert (DG : Forall (fun c => is_digit c = true) (print_nat n)) by apply print_N_digits.
  assert (D : forall q, Forall (fun c => is_digit c = true) q -> dead (snd (scan_num (good_stream (w ++ q)))) /\ (forall z, fst (scan_num (good_stream (w ++ q))) = Some z -> (0 <= z)%Z)).
  { intros q Hq. unfold scan_num, good_stream. cbn [good rest eofbit failbit negb andb]. rewrite skip_ws_spaces by assumption. destruct q as [|x q]; [split; [reflexivity|discriminate]|].
    pose proof Hq as Hq0. inversion Hq as [|? ? Hx Hq']; subst. cbn [skip_ws]. rewrite digit_not_space by assumption. unfold scan_int. cbn [skip_ws]. rewrite digit_not_space by assumption.
    assert (Es : scan_sign (x :: q) = (false, x :: q)).
    { unfold scan_sign. destruct (Ascii.ascii_dec x "-") as [->|N1]; [discriminate|]. destruct (Ascii.ascii_dec x "+") as [->|N2]; [discriminate|].
      destruct x as [[] [] [] [] [] [] [] []]; try reflexivity; contradiction. }
    rewrite Es. pose proof (scan_uint_digits (x :: q) Hq0) as E. destruct (scan_uint (x :: q)) as [d r0]. cbn [snd] in E. subst r0. destruct d; (split; [reflexivity|]); intros z Hz; cbn in Hz; injection Hz as <-; lia. }
  destruct (cut_spaces s w _ Hw H) as [Hs|(q & -> & Hq)].
  - left. unfold scan_num, good_stream. cbn [good rest eofbit failbit negb andb]. rewrite skip_all by assumption. split; [reflexivity|discriminate].
  - destruct (cut_app _ _ _ Hq) as [Hq'|(s' & -> & Hs')].
    + left. apply D. destruct Hq' as (u & _ & E). rewrite E in DG. apply Forall_app in DG. tauto.
    + destruct (cut_cons _ _ _ Hs') as [->|(s'' & -> & Hs'')].
      * left. rewrite app_nil_r. apply D. assumption.
      * right. exists s''. split; [assumption|]. apply scan_num_text; assumption.
Qed.

Section Cut.
Variable junk : R.
Variable lex : str -> option (R * str).
Variable print : R -> str.
Variable rnd : R -> R.
Hypothesis HP : prints lex print rnd.
Hypothesis HE : prefixes_end lex print.

Lemma double_stub w v q : spaces w -> (q = print v \/ cut q (print v)) -> q <> [] ->
  fst (scan_double lex (good_stream (w ++ q))) = Some (cut_number lex q) /\ dead (snd (scan_double lex (good_stream (w ++ q)))).
Proof.
  intros Hw Hq Hn. assert (E : exists u, print v = q ++ u) by (destruct Hq as [->|(u & _ & E)]; [exists []; rewrite app_nil_r; reflexivity|exists u; exact E]). destruct E as (u & E).
  destruct (HP v) as ((h & t & Ec & Hh & _) & _ & _).
  unfold scan_double, good_stream. cbn [good rest eofbit failbit negb andb]. rewrite skip_ws_spaces by assumption. destruct q as [|x q]; [contradiction|].
  rewrite Ec in E. cbn [app] in E. injection E as -> E. cbn [skip_ws]. rewrite Hh.
  assert (EP : print v = (x :: q) ++ u) by (rewrite Ec, E; reflexivity).
  unfold cut_number. destruct (HE v (x :: q) u EP ltac:(discriminate)) as [->|(z & ->)]; split; reflexivity.
Qed.
Lemma double_cut s w v c r : spaces w -> is_space c = true -> cut s (w ++ print v ++ c :: r) ->
  dead (snd (scan_double lex (good_stream s))) \/ exists s', cut s' r /\ scan_double lex (good_stream s) = (Some (rnd v), good_stream (c :: s')).
Proof.
  intros Hw Hc H. destruct (cut_spaces s w _ Hw H) as [Hs|(q & -> & Hq)].
  - left. unfold scan_double, good_stream. cbn [good rest eofbit failbit negb andb]. rewrite skip_all by assumption. reflexivity.
  - destruct (cut_app _ _ _ Hq) as [Hq'|(s' & -> & Hs')].
    + left. destruct q as [|x q].
      * rewrite app_nil_r. unfold scan_double, good_stream. cbn [good rest eofbit failbit negb andb]. rewrite skip_all by assumption. reflexivity.
      * apply (double_stub w v (x :: q)); [assumption|right; assumption|discriminate].
    + destruct (cut_cons _ _ _ Hs') as [->|(s'' & -> & Hs'')].
      * left. rewrite app_nil_r. apply (double_stub w v (print v)); [assumption|left; reflexivity|]. destruct (HP v) as ((h & t & -> & _) & _). discriminate.
      * right. exists s''. split; [assumption|]. apply (scan_double_text lex print rnd HP); assumption.
Qed.
Lemma skip_cut es : forall s w r, spaces w -> cut s (w ++ flat_map (fun e => print_nat e ++ [tab]) es ++ r) ->
  dead (skip_tokens (length es) (good_stream s)) \/ exists w' s', spaces w' /\ cut s' (w' ++ r) /\ skip_tokens (length es) (good_stream s) = good_stream s'.
Proof.
  induction es as [|e es IH]; intros s w r Hw H.
  - right. exists w, s. auto.
  - cbn [length skip_tokens flat_map] in *. rewrite <- !app_assoc in H. cbn [app] in H.
    destruct (word_cut s w (print_nat e) tab _ Hw (digits_no_space e) eq_refl H (print_nat_ne e)) as [[D _]|(s' & Hs' & E)].
    + left. apply dead_skip. assumption.
    + rewrite E. cbn [snd]. apply (IH (tab :: s') [tab] r eq_refl). destruct Hs' as (u & Hu & ->). exists u. auto.
Qed.

(** beginnings, possibly complete *)
Lemma cut_pre s t : cut s t -> pre s t.
Proof. intros (u & _ & E). exists u. exact E. Qed.
Lemma pre_cut s t c : pre s t -> cut s (t ++ [c]).
Proof. intros (u & ->). exists (u ++ [c]). split; [destruct u; discriminate|rewrite app_assoc; reflexivity]. Qed.
Lemma pre_app s a b : pre s (a ++ b) -> cut s a \/ exists s', s = a ++ s' /\ pre s' b.
Proof.
  intros H. apply (pre_cut _ _ "x"%char) in H. rewrite <- app_assoc in H. destruct (cut_app _ _ _ H) as [C|(s' & -> & C)]; [left; exact C|right]. exists s'. split; [reflexivity|].
  destruct C as (u & Hu & E). destruct (exists_last Hu) as (u' & y & ->). rewrite app_assoc in E. apply app_inj_tail in E as [E _]. exists u'. exact E.
Qed.
(** the exponents of a coefficient, the number missing *)
Lemma skip_short es : forall s w, spaces w -> pre s (w ++ flat_map (fun e => print_nat e ++ [tab]) es) -> fst (scan_double lex (skip_tokens (length es) (good_stream s))) = None.
Proof.
  induction es as [|e es IH]; intros s w Hw H.
  - cbn [flat_map length skip_tokens] in *. rewrite app_nil_r in H. destruct H as (u & ->). unfold spaces in Hw. rewrite forallb_app in Hw. apply andb_prop in Hw as [Hw _].
    unfold scan_double, good_stream. cbn [good rest eofbit failbit negb andb]. rewrite skip_all by assumption. reflexivity.
  - cbn [length skip_tokens flat_map] in *. rewrite <- !app_assoc in H. cbn [app] in H. rewrite app_assoc in H. destruct (pre_app _ _ _ H) as [C|(s' & -> & P)].
    + assert (C' : cut s (w ++ print_nat e ++ tab :: [])). { destruct C as (u & Hu & E). exists (u ++ [tab]). split; [destruct u; discriminate|]. rewrite (app_assoc s), <- E, <- app_assoc. reflexivity. }
      destruct (word_cut s w (print_nat e) tab [] Hw (digits_no_space e) eq_refl C' (print_nat_ne e)) as [[D _]|(s' & (u & Hu & E) & _)].
      * apply (dead_skip (length es)) in D. apply (dead_double lex _ D).
      * destruct s'; [destruct u; [contradiction|discriminate]|discriminate].
    + rewrite <- app_assoc. destruct s' as [|x s'].
      * rewrite app_nil_r. destruct (word_cut (w ++ print_nat e) w (print_nat e) tab [] Hw (digits_no_space e) eq_refl) as [[D _]|(s' & (u & Hu & E) & _)].
        -- exists [tab]. split; [discriminate|]. rewrite <- app_assoc. reflexivity.
        -- apply print_nat_ne.
        -- apply (dead_skip (length es)) in D. apply (dead_double lex _ D).
        -- destruct s'; [destruct u; [contradiction|discriminate]|discriminate].
      * destruct P as (u & E). injection E as <- E. rewrite scan_word; [|assumption|apply print_nat_ne|apply digits_no_space|reflexivity]. cbn [snd].
        apply (IH (tab :: s') [tab] eq_refl). exists u. cbn [app]. rewrite E. reflexivity.
Qed.
Definition exps (c : coeff) : str := flat_map (fun e => print_nat e ++ [tab]) (co_deg c).
Lemma coeffs_snoc d cs c : Forall (fun c => length (co_deg c) = d) (cs ++ [c]) -> exists t1, coeffs_text print d (cs ++ [c]) = Ok (t1 ++ print (co_a c) ++ [nl]) /\
  forall w, spaces w ->
  (forall s, pre s (w ++ t1) -> read_coeffs lex (length (cs ++ [c])) d (good_stream s) = UB) /\
  (forall q, (q = print (co_a c) \/ cut q (print (co_a c))) -> q <> [] -> exists s', dead s' /\
     read_coeffs lex (length (cs ++ [c])) d (good_stream (w ++ t1 ++ q)) = Ok (map rnd (map co_a cs) ++ [cut_number lex q], s')).
Proof.
  induction cs as [|c0 cs IH]; intros H; cbn [app] in *; inversion H as [|? ? Hc Ht]; subst.
  - exists (exps c). cbn [coeffs_text]. rewrite Nat.ltb_irrefl. cbn [bind]. rewrite firstn_all2 by lia. unfold endl. rewrite app_nil_r. split; [reflexivity|]. intros w Hw. split.
    + intros s Hs. cbn [length read_coeffs]. pose proof (skip_short (co_deg c) s w Hw Hs) as E. destruct (scan_double lex _) as [o s']. cbn [fst] in E. subst o. reflexivity.
    + intros q Hq Hn. cbn [length read_coeffs map app]. destruct (skip_exponents (co_deg c) w q Hw) as (w' & Hw' & E). unfold exps. rewrite E.
      destruct (double_stub w' (co_a c) q Hw' Hq Hn) as [E1 E2]. destruct (scan_double lex _) as [o s']. cbn [fst snd] in E1, E2. subst o. cbn [bind fst snd]. exists s'. auto.
  - destruct (IH Ht) as (t1 & Et & HT). exists (exps c0 ++ print (co_a c0) ++ nl :: t1). cbn [coeffs_text]. rewrite Nat.ltb_irrefl. rewrite Et. cbn [bind]. rewrite firstn_all2 by lia.
    split; [unfold endl, exps; rewrite <- ?app_assoc; cbn [app]; rewrite <- ?app_assoc; reflexivity|]. intros w Hw. destruct (HT [nl] eq_refl) as [T1 T2]. split.
    + intros s Hs. cbn [length read_coeffs]. rewrite app_assoc in Hs. destruct (pre_app _ _ _ Hs) as [C|(s1 & -> & P1)].
      * pose proof (skip_short (co_deg c0) s w Hw (cut_pre _ _ C)) as E. destruct (scan_double lex _) as [o s']. cbn [fst] in E. subst o. reflexivity.
      * rewrite <- app_assoc. destruct (skip_exponents (co_deg c0) w s1 Hw) as (w' & Hw' & E). unfold exps. rewrite E. clear E.
        assert (NE : print (co_a c0) <> []) by (destruct (HP (co_a c0)) as ((h & t & -> & _) & _); discriminate).
        assert (K : forall q, (q = print (co_a c0) \/ cut q (print (co_a c0))) -> match scan_double lex (good_stream (w' ++ q)) with (Some v, s2) => do r <- read_coeffs lex (length (cs ++ [c])) (length (co_deg c0)) s2; Ok (v :: fst r, snd r) | (None, _) => UB end = UB).
        { intros q Hq. destruct q as [|x q].
          - rewrite app_nil_r. unfold scan_double, good_stream. cbn [good rest eofbit failbit negb andb]. rewrite skip_all by assumption. reflexivity.
          - destruct (double_stub w' (co_a c0) (x :: q) Hw' Hq ltac:(discriminate)) as [E1 E2]. destruct (scan_double lex _) as [o s']. cbn [fst snd] in E1, E2. subst o.
            rewrite dead_coeffs; [reflexivity|assumption|rewrite app_length; cbn; lia]. }
        destruct (pre_app _ _ _ P1) as [C|(s2 & -> & P2)]; [apply K; right; assumption|]. destruct s2 as [|x s2]; [rewrite app_nil_r; apply K; left; reflexivity|].
        destruct P2 as (u & Eu). injection Eu as <- Eu. rewrite (scan_double_text lex print rnd HP) by auto. rewrite T1; [reflexivity|]. exists u. cbn [app]. rewrite Eu. reflexivity.
    + intros q Hq Hn. cbn [length read_coeffs]. rewrite <- !app_assoc. cbn [app]. destruct (skip_exponents (co_deg c0) w (print (co_a c0) ++ nl :: t1 ++ q) Hw) as (w' & Hw' & E). unfold exps. rewrite E.
      rewrite (scan_double_text lex print rnd HP) by auto. destruct (T2 q Hq Hn) as (s' & D & E2). cbn [app] in E2. rewrite E2. cbn [bind fst snd map app]. exists s'. auto.
Qed.

Lemma one_cut r s ps pc cs c : r_p s = ps ++ [pc] -> r_q s = cs ++ [c] -> r_dim s = r_dim r -> Forall (fun k => length (co_deg k) = r_dim r) (r_p s) -> Forall (fun k => length (co_deg k) = r_dim r) (r_q s) ->
  exists t1, save_1d print s = Ok (t1 ++ print (co_a c) ++ [nl]) /\ forall w, spaces w ->
  (forall x, pre x (w ++ t1) -> fails (load_1d junk lex r (good_stream x))) /\
  (forall q, (q = print (co_a c) \/ cut q (print (co_a c))) -> q <> [] -> exists s', dead s' /\ load_1d junk lex r (good_stream (w ++ t1 ++ q)) =
     do r' <- update junk (resize junk r (length (r_p s)) (length (r_q s))) (map rnd (getP s)) (map rnd (map co_a cs) ++ [cut_number lex q]); Ok (true, r', s')) /\
  load_1d junk lex r (good_stream (w ++ t1)) = UB.
Proof.
  intros Ep Eq Ed Lp Lq. rewrite Eq in Lq. destruct (coeffs_snoc (r_dim r) cs c Lq) as (tq & Etq & HQ). pose proof Lp as Lp'. rewrite Ep in Lp'. destruct (coeffs_snoc (r_dim r) ps pc Lp') as (tp & Etp & HPP).
  set (tP := tp ++ print (co_a pc) ++ [nl]) in *. set (np := length (r_p s)). set (nq := length (r_q s)).
  assert (Np : np <> 0%nat) by (unfold np; rewrite Ep, app_length; cbn; lia). assert (Nq : nq <> 0%nat) by (unfold nq; rewrite Eq, app_length; cbn; lia).
  assert (EP0 : forall w x, spaces w -> exists w', spaces w' /\ read_coeffs lex np (r_dim r) (good_stream (w ++ tP ++ x)) = Ok (map rnd (getP s), good_stream (w' ++ x))).
  { intros w x Hw. destruct (read_coeffs_text lex print rnd HP (r_dim r) (r_p s) Lp w x Hw) as (t & Et & w' & Hw' & _ & _ & E). rewrite Ep, Etp in Et. apply Ok_inj in Et. subst t. exists w'. split; [assumption|exact E]. }
  exists (lit "#NP" ++ " "%char :: print_nat np ++ nl :: lit "#NQ" ++ " "%char :: print_nat nq ++ nl :: tP ++ tq).
  split.
  { unfold save_1d. rewrite Ed, Ep, Eq, Etp, Etq. cbn [bind]. rewrite <- Ep, <- Eq. fold np nq. f_equal. unfold endl.
    change (lit "#NP ") with (lit "#NP" ++ [" "%char]). change (lit "#NQ ") with (lit "#NQ" ++ [" "%char]). do 6 (rewrite <- ?app_assoc; cbn [app]). reflexivity. }
  intros w Hw.
  (* the reader of the coefficients *)
  assert (CF : forall x, pre x ([nl] ++ tP ++ tq) -> fails (do a <- read_coeffs lex np (r_dim r) (good_stream x); do b <- read_coeffs lex nq (r_dim r) (snd a);
     do r' <- update junk (resize junk r np nq) (fst a) (fst b); Ok (true, r', snd b))).
  { intros x Hx. rewrite app_assoc in Hx. destruct (pre_app _ _ _ Hx) as [C|(x' & -> & Px)].
    - right. destruct (HPP [nl] eq_refl) as [P1 P2]. unfold tP in C. rewrite app_assoc in C. destruct (cut_app _ _ _ C) as [C1|(q & -> & C1)].
      + rewrite <- Ep in P1. fold np in P1. rewrite P1 by (apply cut_pre; assumption). reflexivity.
      + destruct q as [|y q].
        * rewrite app_nil_r. rewrite <- Ep in P1. fold np in P1. rewrite P1 by (exists []; rewrite app_nil_r; reflexivity). reflexivity.
        * destruct (P2 (y :: q)) as (s' & D & E).
          { destruct (cut_app _ _ _ C1) as [C2|(q' & Eqq & C2)]; [right; assumption|]. destruct (cut_cons _ _ _ C2) as [->|(z & _ & (u & Hu & Eu))]; [left; rewrite app_nil_r in Eqq; assumption|]. destruct z; [destruct u; [contradiction|discriminate]|discriminate]. }
          { discriminate. }
          rewrite <- Ep in E. fold np in E. rewrite <- app_assoc. rewrite E. cbn [bind fst snd]. rewrite dead_coeffs by assumption. reflexivity.
    - right. rewrite <- app_assoc. destruct (EP0 [nl] x' eq_refl) as (w' & Hw' & E). rewrite E. cbn [bind fst snd]. destruct (HQ w' Hw') as [Q1 _]. rewrite <- Eq in Q1. fold nq in Q1.
      rewrite Q1; [reflexivity|]. destruct Px as (u & ->). exists u. rewrite <- app_assoc. reflexivity. }
  split.
  - intros x Hx. apply (pre_cut _ _ nl) in Hx. do 6 (rewrite <- ?app_assoc in Hx; cbn [app] in Hx).
    unfold load_1d.
    destruct (word_cut x w (lit "#NP") " "%char _ Hw ltac:(repeat constructor) eq_refl Hx ltac:(discriminate)) as [[D _]|(x1 & Hx1 & E1)].
    { destruct (scan_string (good_stream x)) as [[t|] s1] eqn:E; [|left; eexists _, _; reflexivity]. cbn [snd] in D. destruct (negb _); [left; eexists _, _; reflexivity|].
      destruct (dead_num _ D) as [E2 D2]. destruct (scan_num s1) as [o s2]. cbn [fst snd] in E2, D2. subst o. destruct (dead_string _ D2) as [E3 D3]. destruct (scan_string s2) as [o s3]. cbn [fst snd] in E3, D3. subst o.
      destruct (scan_num s3) as [o s4]. left. eexists _, _. reflexivity. }
    rewrite E1. change (str_eqb (lit "#NP") "#NP"%string) with true. cbn [negb]. cbv iota.
    assert (Hx1' : cut (" "%char :: x1) ([" "%char] ++ print_nat np ++ nl :: lit "#NQ" ++ " "%char :: print_nat nq ++ nl :: tP ++ tq ++ [nl])) by (destruct Hx1 as (u & Hu & ->); exists u; auto).
    destruct (num_cut (" "%char :: x1) [" "%char] np nl _ eq_refl eq_refl Hx1') as [[D Z]|(x2 & Hx2 & E2)].
    { destruct (scan_num (good_stream (" "%char :: x1))) as [o s2]. cbn [snd] in D. destruct (dead_string _ D) as [E3 D3]. destruct (scan_string s2) as [o' s3]. cbn [fst snd] in E3, D3. subst o'.
      destruct (scan_num s3) as [o' s4]. left. eexists _, _. reflexivity. }
    rewrite E2.
    assert (Hx2' : cut (nl :: x2) ([nl] ++ lit "#NQ" ++ " "%char :: print_nat nq ++ nl :: tP ++ tq ++ [nl])) by (destruct Hx2 as (u & Hu & ->); exists u; auto).
    destruct (word_cut (nl :: x2) [nl] (lit "#NQ") " "%char _ eq_refl ltac:(repeat constructor) eq_refl Hx2' ltac:(discriminate)) as [[D _]|(x3 & Hx3 & E3)].
    { destruct (scan_string (good_stream (nl :: x2))) as [o s3]. cbn [snd] in D. destruct (dead_num _ D) as [E4 D4]. destruct (scan_num s3) as [o' s4]. cbn [fst snd] in E4, D4. subst o'.
      destruct o as [t|]; [|left; eexists _, _; reflexivity]. destruct (negb _); [left; eexists _, _; reflexivity|right; reflexivity]. }
    rewrite E3.
    assert (Hx3' : cut (" "%char :: x3) ([" "%char] ++ print_nat nq ++ nl :: tP ++ tq ++ [nl])) by (destruct Hx3 as (u & Hu & ->); exists u; auto).
    change (str_eqb (lit "#NQ") "#NQ"%string) with true.
    assert (Zp : (Z.of_nat np <? 0)%Z = false) by (apply Z.ltb_ge; lia). assert (Zq : (Z.of_nat nq <? 0)%Z = false) by (apply Z.ltb_ge; lia).
    destruct (num_cut (" "%char :: x3) [" "%char] nq nl _ eq_refl eq_refl Hx3') as [[D Z]|(x4 & Hx4 & E4)].
    { destruct (scan_num (good_stream (" "%char :: x3))) as [o s4]. cbn [fst snd] in D, Z. cbn [negb]. cbv iota. destruct o as [z|]; [|right; reflexivity].
      rewrite Zp. replace (z <? 0)%Z with false by (symmetry; apply Z.ltb_ge; apply Z; reflexivity). cbn [orb]. cbv iota. right. rewrite Nat2Z.id. rewrite dead_coeffs by assumption. reflexivity. }
    rewrite E4. cbn [negb]. cbv iota. rewrite Zp, Zq. cbn [orb]. cbv iota. rewrite !Nat2Z.id. apply CF.
    destruct Hx4 as (u & Hu & Eu). destruct (exists_last Hu) as (u' & y & ->). rewrite app_assoc in Eu. rewrite (app_assoc x4) in Eu. apply app_inj_tail in Eu as [Eu _]. exists u'. cbn [app]. rewrite Eu. reflexivity.
  - assert (GEN : forall q, exists w', spaces w' /\ load_1d junk lex r (good_stream (w ++ (lit "#NP" ++ " "%char :: print_nat np ++ nl :: lit "#NQ" ++ " "%char :: print_nat nq ++ nl :: tP ++ tq) ++ q)) =
      do b <- read_coeffs lex nq (r_dim r) (good_stream (w' ++ tq ++ q)); do r' <- update junk (resize junk r np nq) (map rnd (getP s)) (fst b); Ok (true, r', snd b)).
    { intros q. unfold load_1d. do 6 (rewrite <- ?app_assoc; cbn [app]).
    rewrite scan_word; [|assumption|discriminate|repeat constructor|reflexivity]. change (str_eqb (lit "#NP") "#NP"%string) with true. cbn [negb]. cbv iota.
    match goal with |- context[good_stream (" "%char :: print_nat ?n ++ nl :: ?z)] => change (good_stream (" "%char :: print_nat n ++ nl :: z)) with (good_stream ([" "%char] ++ print_nat n ++ nl :: z)) end.
    rewrite scan_num_text by reflexivity.
    match goal with |- context[good_stream (nl :: lit "#NQ" ++ ?z)] => change (good_stream (nl :: lit "#NQ" ++ z)) with (good_stream ([nl] ++ lit "#NQ" ++ z)) end.
    rewrite scan_word; [|reflexivity|discriminate|repeat constructor|reflexivity].
    match goal with |- context[good_stream (" "%char :: print_nat ?n ++ nl :: ?z)] => change (good_stream (" "%char :: print_nat n ++ nl :: z)) with (good_stream ([" "%char] ++ print_nat n ++ nl :: z)) end.
    rewrite scan_num_text by reflexivity. change (str_eqb (lit "#NQ") "#NQ"%string) with true. cbn [negb]. cbv iota.
    replace (Z.of_nat np <? 0)%Z with false by (symmetry; apply Z.ltb_ge; lia). replace (Z.of_nat nq <? 0)%Z with false by (symmetry; apply Z.ltb_ge; lia). cbn [orb]. cbv iota. rewrite !Nat2Z.id.
    destruct (EP0 [nl] (tq ++ q) eq_refl) as (w' & Hw' & E). cbn [app] in E. rewrite E. cbn [bind fst snd]. exists w'. split; [assumption|reflexivity]. }
    split.
    + intros q Hq Hn. destruct (GEN q) as (w' & Hw' & E). rewrite E. destruct (HQ w' Hw') as [_ Q2]. destruct (Q2 q Hq Hn) as (s' & D & E'). rewrite <- Eq in E'. fold nq in E'. rewrite E'. cbn [bind fst snd]. exists s'. auto.
    + destruct (GEN []) as (w' & Hw' & E). rewrite !app_nil_r in E. rewrite E. destruct (HQ w' Hw') as [Q1 _]. rewrite <- Eq in Q1. fold nq in Q1. rewrite Q1; [reflexivity|]. exists []. rewrite app_nil_r. reflexivity.
Qed.

(** update of a channel that was resized *)
Lemma update_resized r s Q tq : (0 < r_dim r)%nat -> numbered (r_dim r) (r_p r) -> numbered (r_dim r) (r_q r) -> numbered (r_dim r) (r_p s) -> numbered (r_dim r) (r_q s) ->
  length Q = length (r_q s) -> Q = 1 :: tq ->
  update junk (resize junk r (length (r_p s)) (length (r_q s))) (map rnd (getP s)) Q =
  Ok (mkRf1 (r_dim r) (r_min r) (r_max r) (round_coeffs rnd (r_p s)) (map (fun x => mkCoeff (fst x) (co_deg (snd x))) (combine Q (r_q s)))).
Proof.
  intros Hd Np Nq Sp Sq LQ0 EQ.
  destruct (resize_sizes junk r (length (r_p s)) (length (r_q s)) Hd) as [A B].
  destruct (resize_keeps junk r (length (r_p s)) (length (r_q s))) as (K1 & K2 & K3).
  assert (Mp : numbered (r_dim r) (r_p (resize junk r (length (r_p s)) (length (r_q s))))).
  { unfold resize. destruct (Nat.eqb_spec (r_dim r) 0); [lia|]. apply resize_numbered. assumption. }
  assert (Mq : numbered (r_dim r) (r_q (resize junk r (length (r_p s)) (length (r_q s))))).
  { unfold resize. destruct (Nat.eqb_spec (r_dim r) 0); [lia|]. apply resize_numbered. assumption. }
  set (r1 := resize junk r (length (r_p s)) (length (r_q s))) in *.
  unfold update. rewrite !map_length. unfold getP. rewrite !map_length. rewrite LQ0, A, B, !Nat.eqb_refl. fold (getP s).
  assert (LP : length (r_p r1) = length (map rnd (getP s))) by (unfold getP; rewrite !map_length; assumption).
  assert (LQ : length (r_q r1) = length Q) by lia.
  rewrite EQ at 1. assert (EL : rltb (1 / 10 ^ 16) (Rabs 1) = true).
  { apply rltb_spec. rewrite Rabs_R1. apply (Rmult_lt_reg_r (10 ^ 16)); [apply pow_lt; lra|]. unfold Rdiv. rewrite Rmult_assoc, Rinv_l by (apply pow_nonzero; lra). lra. }
  rewrite EL. rewrite K1, K2, K3.
  replace (assign (r_p r1) (map rnd (getP s)) 1) with (round_coeffs rnd (r_p s)).
  2: { apply coeffs_eq.
       - rewrite assign_one by assumption. unfold round_coeffs, getP. rewrite !map_map. reflexivity.
       - rewrite assign_deg by assumption. unfold round_coeffs. rewrite map_map. cbn [co_deg]. unfold numbered in *. rewrite Mp, A. exact Sp. }
  replace (assign (r_q r1) Q 1) with (map (fun x => mkCoeff (fst x) (co_deg (snd x))) (combine Q (r_q s))); [reflexivity|].
  apply coeffs_eq.
  - rewrite assign_one by assumption. rewrite map_map. cbn [co_a]. clear -LQ0. revert LQ0. generalize (r_q s). induction Q as [|x Q IH]; intros [|y l] H; try discriminate; [reflexivity|]. cbn in *. f_equal. apply IH. lia.
  - rewrite assign_deg by assumption. rewrite map_map. cbn [co_deg]. transitivity (map co_deg (r_q s)).
    + clear -LQ0. revert LQ0. generalize (r_q s). induction Q as [|x Q IH]; intros [|y l] H; try discriminate; [reflexivity|]. cbn in *. f_equal. apply IH. lia.
    + unfold numbered in *. rewrite Mq, B. exact Sq.
Qed.

(** the channel that the loader creates *)
Lemma make_channel dx dy mn mx np nq (done : list rf1) n : (0 < dx)%nat -> length mn = dx -> length mx = dx -> dy = (length done + S n)%nat ->
  exists r, get junk (mkRf dx dy mn mx np nq (map Some done ++ repeat None (S n))) (length done) = Ok (Some r, set_channel (mkRf dx dy mn mx np nq (map Some done ++ repeat None (S n))) (length done) r) /\
    r_dim r = dx /\ numbered dx (r_p r) /\ numbered dx (r_q r) /\ r_min r = fst (inflate mn mx) /\ r_max r = snd (inflate mn mx) /\
    forall r', set_channel (set_channel (mkRf dx dy mn mx np nq (map Some done ++ repeat None (S n))) (length done) r) (length done) r' =
      mkRf dx dy mn mx np nq (map Some (done ++ [r']) ++ repeat None n).
Proof.
  intros Hd Hm HM Hdy. set (f := mkRf dx dy mn mx np nq (map Some done ++ repeat None (S n))).
  assert (Hi : (length done < f_dimY f)%nat) by (cbn [f f_dimY]; lia).
  assert (En : nth_error (f_rs f) (length done) = Some None).
  { cbn [f f_rs]. rewrite nth_error_app2 by (rewrite map_length; lia). rewrite map_length, Nat.sub_diag. reflexivity. }
  unfold get. rewrite (proj2 (Nat.ltb_lt _ _) Hi), En. change (f_min f) with mn. change (f_max f) with mx. change (f_dimX f) with dx.
  rewrite Hm, HM, Nat.ltb_irrefl. cbn [orb].
  pose proof (inflate_ok mn mx dx Hm HM) as D. destruct (inflate mn mx) as [mn' mx']. cbn [fst snd] in *.
  destruct (new_wf junk dx np nq mn' mx' Hd D) as ((_ & _ & NP & NQ) & A & _ & _ & Em & EM).
  change (f_np f) with np. change (f_nq f) with nq.
  set (r := set_domain (new_rf1 junk dx np nq) mn' mx') in *. rewrite A in NP, NQ.
  exists r. split; [reflexivity|]. split; [exact A|]. split; [exact NP|]. split; [exact NQ|]. split; [exact Em|]. split; [exact EM|]. intros r'.
  unfold set_channel, f. cbn [f_dimX f_dimY f_min f_max f_np f_nq f_rs repeat]. f_equal.
  assert (L : length done = length (map (@Some rf1) done)) by (rewrite map_length; reflexivity). rewrite L.
  assert (F1 : forall (c : option rf1) t, firstn (length (map (@Some rf1) done)) (map Some done ++ c :: t) = map Some done).
  { intros c t. rewrite firstn_app, Nat.sub_diag, firstn_O, app_nil_r. apply firstn_all. }
  assert (F2 : forall (c : option rf1) t, skipn (S (length (map (@Some rf1) done))) (map Some done ++ c :: t) = t).
  { intros c t. generalize (map (@Some rf1) done). induction l as [|y l IHl]; [reflexivity|exact IHl]. }
  rewrite !F1, !F2. rewrite map_app, <- app_assoc. reflexivity.
Qed.

Lemma channels_cut dx mn mx np nq s c cs : (0 < dx)%nat -> rnd 1 = 1 -> length mn = dx -> length mx = dx -> channel_ok dx s -> r_p s <> [] -> r_q s = cs ++ [c] ->
  forall todo, Forall (channel_ok dx) todo -> Forall (fun s => r_p s <> []) todo ->
  exists t1, channels_text print (map Some (todo ++ [s])) = Ok (t1 ++ print (co_a c) ++ [nl; nl]) /\
  forall done w dy, spaces w -> dy = (length done + S (length todo))%nat ->
  (forall x, pre x (w ++ t1) -> fails (load_channels junk lex (S (length todo)) (length done) (mkRf dx dy mn mx np nq (map Some done ++ repeat None (S (length todo)))) (good_stream x))) /\
  (forall q, (q = print (co_a c) \/ cut q (print (co_a c))) -> q <> [] -> cs <> [] -> exists s', dead s' /\
     load_channels junk lex (S (length todo)) (length done) (mkRf dx dy mn mx np nq (map Some done ++ repeat None (S (length todo)))) (good_stream (w ++ t1 ++ q)) =
     Ok (true, mkRf dx dy mn mx np nq (map Some (done ++ map (kept rnd dx mn mx) todo ++
        [mkRf1 dx (fst (inflate mn mx)) (snd (inflate mn mx)) (round_coeffs rnd (r_p s)) (with_last (round_coeffs rnd (r_q s)) (cut_number lex q))])), s')) /\
  load_channels junk lex (S (length todo)) (length done) (mkRf dx dy mn mx np nq (map Some done ++ repeat None (S (length todo)))) (good_stream (w ++ t1)) = UB.
Proof.
  intros Hd R1 Hm HM (Ds & Ps & Qs & Ns) Hp Hq todo HF HN.
  assert (LEN : forall v, numbered dx v -> Forall (fun k => length (co_deg k) = dx) v) by (intros v Hv; apply (numbered_lengths dx v Hd Hv)).
  destruct (exists_last Hp) as (ps & pc & Ep).
  induction HF as [|s0 todo (D0 & P0 & Q0 & N0) HF IH].
  - (* the last channel *)
    destruct (one_cut (mkRf1 dx [] [] [] []) s ps pc cs c Ep Hq Ds (LEN _ Ps) (LEN _ Qs)) as (t1 & E1 & _).
    exists t1. split. { cbn [app map channels_text]. rewrite E1. cbn [bind]. f_equal. unfold endl. cbn [app]. do 3 (rewrite <- ?app_assoc; cbn [app]). reflexivity. }
    intros done w dy Hw Hdy. cbn [length] in *. destruct (make_channel dx dy mn mx np nq done 0 Hd Hm HM Hdy) as (r & G & A & NP & NQ & Em & EM & SC).
    assert (E1' := E1). destruct (one_cut r s ps pc cs c Ep Hq) as (t1' & E1'' & H1); try (rewrite A); try assumption; [apply LEN; assumption|apply LEN; assumption|].
    rewrite E1 in E1''. apply Ok_inj in E1''. apply app_inv_tail in E1''. subst t1'. destruct (H1 w Hw) as (HA & HB & HU). cbn [load_channels]. rewrite G. cbn [bind]. split; [|split].
    + intros x Hx. destruct (HA x Hx) as [(a & s1 & E)| E]; rewrite E; cbn [bind]; [left; eexists _, _; reflexivity|right; reflexivity].
    + intros q Hq1 Hq2 Hcs. destruct (HB q Hq1 Hq2) as (s' & D & E). rewrite E.
      destruct Ns as (tq & Hn). destruct cs as [|c0 cs]; [contradiction|].
      assert (EQ : map rnd (map co_a (c0 :: cs)) ++ [cut_number lex q] = 1 :: map rnd (map co_a cs) ++ [cut_number lex q]).
      { unfold getQ in Hn. rewrite Hq in Hn. cbn [app map] in Hn. injection Hn as Hn _. cbn [map app]. rewrite Hn, R1. reflexivity. }
      rewrite (update_resized r s _ (map rnd (map co_a cs) ++ [cut_number lex q])); try (rewrite A); try assumption.
      2: { rewrite Hq, !app_length, !map_length. reflexivity. }
      assert (EW : map (fun x : R * coeff => mkCoeff (fst x) (co_deg (snd x))) (combine (map rnd (map co_a (c0 :: cs)) ++ [cut_number lex q]) (r_q s)) = with_last (round_coeffs rnd (r_q s)) (cut_number lex q)).
      { rewrite Hq. unfold with_last, round_coeffs. rewrite map_app. cbn [map]. rewrite rev_app_distr. cbn [rev app]. rewrite rev_app_distr, rev_involutive. cbn [rev app].
        clear. revert c0. induction cs as [|y cs IH]; intros c0; [reflexivity|]. cbn [map app combine fst snd co_deg co_a]. f_equal. apply IH. }
      rewrite EW. clear EW EQ.
      cbn [bind]. exists s'. split; [assumption|]. rewrite SC. cbn [repeat app]. rewrite app_nil_r. rewrite Em, EM.
      reflexivity.
    + rewrite HU. reflexivity.
  - pose proof (Forall_inv HN) as Hp0. pose proof (Forall_inv_tail HN) as HN'. cbv beta in Hp0. destruct (IH HN') as (t1 & Et & HT). destruct (exists_last Hp0) as (ps0 & pc0 & Ep0).
    assert (Hq0 : r_q s0 <> []) by (destruct N0 as (z & Hz); unfold getQ in Hz; destruct (r_q s0); [discriminate|discriminate]).
    destruct (exists_last Hq0) as (cs0 & c0 & Eq0).
    destruct (one_cut (mkRf1 dx [] [] [] []) s0 ps0 pc0 cs0 c0 Ep0 Eq0 D0 (LEN _ P0) (LEN _ Q0)) as (u1 & E1 & _).
    exists ((u1 ++ print (co_a c0) ++ [nl]) ++ nl :: t1). split.
    { cbn [app map channels_text]. rewrite E1. cbn [bind]. rewrite Et. cbn [bind]. f_equal. unfold endl. cbn [app]. do 3 (rewrite <- ?app_assoc; cbn [app]). reflexivity. }
    intros done w dy Hw Hdy. cbn [length app] in *. destruct (make_channel dx dy mn mx np nq done (S (length todo)) Hd Hm HM Hdy) as (r & G & A & NP & NQ & Em & EM & SC).
    destruct (one_cut r s0 ps0 pc0 cs0 c0 Ep0 Eq0) as (t1' & E1'' & H1); try (rewrite A); try assumption; [apply LEN; assumption|apply LEN; assumption|].
    rewrite E1 in E1''. apply Ok_inj in E1''. apply app_inv_tail in E1''. subst t1'. destruct (H1 w Hw) as (HA & HB & _).
    remember (S (length todo)) as m eqn:Hmm. cbn [load_channels]. rewrite G. cbn [bind].
    assert (FULL : forall x, load_1d junk lex r (good_stream (w ++ (u1 ++ print (co_a c0) ++ [nl]) ++ x)) = Ok (true, kept rnd dx mn mx s0, good_stream (nl :: x))).
    { intros x. destruct (load_save_1d junk lex print rnd HP r s0 w x) as (t & Ht & L); try (rewrite A); try assumption; try reflexivity. rewrite E1 in Ht. apply Ok_inj in Ht. subst t. rewrite L. rewrite A, Em, EM. reflexivity. }
    destruct (HT (done ++ [kept rnd dx mn mx s0]) [nl; nl] dy eq_refl) as (IA & IB & IU). { rewrite app_length. cbn [length]. lia. }
    rewrite app_length in IA, IB, IU. cbn [length] in IA, IB, IU. rewrite Nat.add_1_r in IA, IB, IU. subst m. split; [|split].
    + intros x Hx. assert (NEXT : forall f st, dead st -> (exists rr f', get junk f (S (length done)) = Ok (Some rr, f')) -> fails (load_channels junk lex (S (length todo)) (S (length done)) f st)).
      { intros f st Hst (rr & f' & Gf). cbn [load_channels]. rewrite Gf. cbn [bind]. destruct (dead_1d junk lex rr st Hst) as (a & s1 & ->). cbn [bind]. left. eexists _, _. reflexivity. }
      rewrite <- app_assoc in Hx. rewrite app_assoc in Hx. destruct (pre_app _ _ _ Hx) as [C|(x1 & -> & P1)].
      * destruct (HA x (cut_pre _ _ C)) as [(a & s1 & E)|E]; rewrite E; cbn [bind]; [left; eexists _, _; reflexivity|right; reflexivity].
      * assert (STUB : forall q, (q = print (co_a c0) \/ cut q (print (co_a c0))) -> fails (do l <- load_1d junk lex r (good_stream ((w ++ u1) ++ q)); let '(b, r', s') := l in if b then load_channels junk lex (S (length todo)) (S (length done)) (set_channel (set_channel (mkRf dx dy mn mx np nq (map Some done ++ repeat None (S (S (length todo))))) (length done) r) (length done) r') s' else Ok (false, set_channel (mkRf dx dy mn mx np nq (map Some done ++ repeat None (S (S (length todo))))) (length done) r, s'))).
        { intros q Hqq. destruct q as [|y q].
          - rewrite app_nil_r. destruct (HA (w ++ u1)) as [(a & s1 & E)|E]; [exists []; rewrite app_nil_r; reflexivity| |]; rewrite E; cbn [bind]; [left; eexists _, _; reflexivity|right; reflexivity].
          - rewrite <- app_assoc. destruct (HB (y :: q) Hqq ltac:(discriminate)) as (s' & D & E). rewrite E.
            match goal with |- context[update junk ?r1 ?P ?Q] => destruct (update junk r1 P Q) as [r'| | |] eqn:U end.
            + cbn [bind]. rewrite SC. apply NEXT; [assumption|]. destruct (make_channel dx dy mn mx np nq (done ++ [r']) (length todo) Hd Hm HM) as (rr & Gr & _). { rewrite app_length. cbn [length]. lia. }
              rewrite app_length in Gr. cbn [length] in Gr. rewrite Nat.add_1_r in Gr. eexists _, _. exact Gr.
            + exfalso. revert U. unfold update. destruct (map rnd (map co_a cs0)); cbn [app]; discriminate.
            + exfalso. revert U. unfold update. destruct (map rnd (map co_a cs0)); cbn [app]; discriminate.
            + exfalso. revert U. unfold update. destruct (map rnd (map co_a cs0)); cbn [app]; discriminate. }
        rewrite <- !app_assoc in P1. cbn [app] in P1. destruct (pre_app _ _ _ P1) as [C|(x2 & -> & P2)]; [apply STUB; right; assumption|].
        destruct x2 as [|y x2]; [rewrite app_nil_r; apply STUB; left; reflexivity|]. destruct P2 as (u & Eu). cbn [app] in Eu. injection Eu as <- Eu.
        replace ((w ++ u1) ++ print (co_a c0) ++ nl :: x2) with (w ++ (u1 ++ print (co_a c0) ++ [nl]) ++ x2) by (do 4 (rewrite <- ?app_assoc; cbn [app]); reflexivity).
        rewrite FULL. cbn [bind]. rewrite SC. apply IA. exists u. cbn [app]. rewrite <- Eu. reflexivity.
    + intros q Hq1 Hq2 Hcs. rewrite <- app_assoc. rewrite FULL. cbn [bind]. rewrite SC. destruct (IB q Hq1 Hq2 Hcs) as (s' & Dd & E). cbn [app] in E. cbn [app]. rewrite E. exists s'. split; [assumption|].
      cbn [map app]. rewrite <- app_assoc. reflexivity.
    + change (nl :: t1) with ([nl] ++ t1). rewrite FULL. cbn [bind]. rewrite SC. exact IU.
Qed.

(** the bounds *)
Lemma doubles_cut v : forall x w r, spaces w -> cut x (w ++ domain_text print v ++ r) ->
  read_doubles lex (length v) (good_stream x) = UB \/ (exists l s', dead s' /\ length l = length v /\ read_doubles lex (length v) (good_stream x) = Ok (l, s')) \/
  exists w' s', spaces w' /\ cut s' (w' ++ r) /\ read_doubles lex (length v) (good_stream x) = Ok (map rnd v, good_stream s').
Proof.
  unfold domain_text. induction v as [|a v IH]; intros x w r Hw H.
  - right. right. exists w, x. auto.
  - cbn [flat_map length read_doubles map] in *. change (lit " ") with [" "%char] in *. do 2 (rewrite <- ?app_assoc in H; cbn [app] in H). destruct (double_cut x w a " "%char _ Hw eq_refl H) as [D|(x' & Hx' & E)].
    + destruct (scan_double lex (good_stream x)) as [[b|] s1]; [|left; reflexivity]. cbn [snd] in D. destruct v as [|a' v].
      * right. left. exists [b], s1. auto.
      * left. rewrite dead_doubles; [reflexivity|assumption|discriminate].
    + rewrite E. destruct (IH (" "%char :: x') [" "%char] r eq_refl) as [U|[(l & s' & D & L & U)|(w' & s' & W & C & U)]].
      * destruct Hx' as (u & Hu & Eu). exists u. split; [assumption|]. cbn [app]. rewrite Eu. reflexivity.
      * rewrite U. left. reflexivity.
      * rewrite U. right. left. exists (rnd a :: l), s'. cbn [bind fst snd length]. auto.
      * rewrite U. right. right. exists w', s'. auto.
Qed.

Theorem rf_cut f front s c cs np nq : rnd 1 = 1 -> (0 < f_dimX f)%nat -> length (f_min f) = f_dimX f -> length (f_max f) = f_dimX f ->
  f_rs f = map Some (front ++ [s]) -> length (front ++ [s]) = f_dimY f -> Forall (channel_ok (f_dimX f)) (front ++ [s]) -> Forall (fun s => r_p s <> []) (front ++ [s]) -> r_q s = cs ++ [c] ->
  exists T, save_rf print f = Ok (T ++ print (co_a c) ++ [nl; nl]) /\
    (forall x, pre x T -> fails (load_rf junk lex (new_rf (f_dimX f) (f_dimY f) np nq) (good_stream x))) /\
    (forall q, (q = print (co_a c) \/ cut q (print (co_a c))) -> q <> [] -> cs <> [] -> exists s', dead s' /\
       load_rf junk lex (new_rf (f_dimX f) (f_dimY f) np nq) (good_stream (T ++ q)) =
       Ok (true, mkRf (f_dimX f) (f_dimY f) (map rnd (f_min f)) (map rnd (f_max f)) np nq
         (map Some (map (kept rnd (f_dimX f) (map rnd (f_min f)) (map rnd (f_max f))) front ++
            [mkRf1 (f_dimX f) (fst (inflate (map rnd (f_min f)) (map rnd (f_max f)))) (snd (inflate (map rnd (f_min f)) (map rnd (f_max f))))
               (round_coeffs rnd (r_p s)) (with_last (round_coeffs rnd (r_q s)) (cut_number lex q))])), s')) /\
    load_rf junk lex (new_rf (f_dimX f) (f_dimY f) np nq) (good_stream T) = UB.
Proof.
  intros R1 Hd Hm HM Er Hl HF HN Hq. apply Forall_app in HF as [HF1 HF2]. apply Forall_app in HN as [HN1 HN2]. apply Forall_inv in HF2, HN2.
  assert (LF : f_dimY f = S (length front)) by (rewrite <- Hl, app_length; cbn [length]; lia).
  destruct (channels_cut (f_dimX f) (map rnd (f_min f)) (map rnd (f_max f)) np nq s c cs Hd R1) with (todo := front) as (t1 & Et & HT); try (rewrite map_length); try assumption.
  set (M1 := domain_text print (f_min f)). set (M2 := domain_text print (f_max f)).
  exists (lit "#FUNC" ++ " "%char :: lit "rational_function" ++ nl :: lit "#MIN" ++ " "%char :: M1 ++ nl :: lit "#MAX" ++ " "%char :: M2 ++ nl :: t1).
  split; [|split].
  - unfold save_rf. rewrite Er. rewrite (firstn_all2 (n := f_dimY f)) by (rewrite map_length; lia). rewrite !firstn_all2 by lia. rewrite Et. cbn [bind]. f_equal. fold M1 M2. unfold endl.
    change (lit "#FUNC rational_function") with (lit "#FUNC" ++ " "%char :: lit "rational_function"). change (lit "#MIN ") with (lit "#MIN" ++ [" "%char]). change (lit "#MAX ") with (lit "#MAX" ++ [" "%char]).
    do 8 (rewrite <- ?app_assoc; cbn [app]). reflexivity.
  - intros x Hx. apply (pre_cut _ _ nl) in Hx. do 8 (rewrite <- ?app_assoc in Hx; cbn [app] in Hx). unfold load_rf.
    assert (SK : x = [] \/ exists x', x = "#"%char :: x').
    { destruct x as [|y x]; [left; reflexivity|right]. destruct Hx as (u & _ & Eu). cbn in Eu. injection Eu as <- _. exists x. reflexivity. }
    destruct SK as [->|SK]. { left. cbn. eexists _, _. reflexivity. }
    assert (SL : skip_lines (S (length (rest (good_stream x)))) (good_stream x) = (true, good_stream x)).
    { destruct SK as (x' & ->). apply (skip_newlines []); [constructor|cbn; lia]. }
    rewrite SL. cbn [negb]. cbv iota. clear SK SL.
    destruct (word_cut x [] (lit "#FUNC") " "%char _ eq_refl ltac:(repeat constructor) eq_refl Hx ltac:(discriminate)) as [[D _]|(x1 & Hx1 & E1)].
    { destruct (scan_string (good_stream x)) as [o1 s1]. cbn [snd] in D. destruct (dead_string _ D) as [E2 D2]. destruct (scan_string s1) as [o2 s2]. cbn [fst snd] in E2, D2. subst o2. destruct (scan_string s2) as [o3 s3].
      left. destruct o1; eexists _, _; reflexivity. }
    rewrite E1. cbn [app].
    assert (Hx1' : cut (" "%char :: x1) ([" "%char] ++ lit "rational_function" ++ nl :: lit "#MIN" ++ " "%char :: M1 ++ nl :: lit "#MAX" ++ " "%char :: M2 ++ nl :: t1 ++ [nl])) by (destruct Hx1 as (u & Hu & ->); exists u; auto).
    destruct (word_cut (" "%char :: x1) [" "%char] (lit "rational_function") nl _ eq_refl ltac:(repeat constructor) eq_refl Hx1' ltac:(discriminate)) as [[D _]|(x2 & Hx2 & E2)].
    { destruct (scan_string (good_stream (" "%char :: x1))) as [o2 s2]. cbn [snd] in D. destruct (dead_string _ D) as [E3 D3]. destruct (scan_string s2) as [o3 s3]. cbn [fst snd] in E3, D3. subst o3.
      left. destruct o2; eexists _, _; reflexivity. }
    rewrite E2.
    assert (Hx2' : cut (nl :: x2) ([nl] ++ lit "#MIN" ++ " "%char :: M1 ++ nl :: lit "#MAX" ++ " "%char :: M2 ++ nl :: t1 ++ [nl])) by (destruct Hx2 as (u & Hu & ->); exists u; auto).
    change (str_eqb (lit "#FUNC") "#FUNC"%string) with true. change (str_eqb (lit "rational_function") "rational_function"%string) with true. cbn [negb].
    destruct (word_cut (nl :: x2) [nl] (lit "#MIN") " "%char _ eq_refl ltac:(repeat constructor) eq_refl Hx2' ltac:(discriminate)) as [[D _]|(x3 & Hx3 & E3)].
    { destruct (scan_string (good_stream (nl :: x2))) as [o3 s3]. cbn [fst snd] in D. destruct o3 as [k3|]; [|left; eexists _, _; reflexivity]. cbv iota. destruct (negb _); [left; eexists _, _; reflexivity|].
      right. rewrite dead_doubles; [reflexivity|assumption|cbn [new_rf f_dimX]; lia]. }
    rewrite E3. change (str_eqb (lit "#MIN") "#MIN"%string) with true. cbn [negb]. cbv iota. cbn [new_rf f_dimX].
    assert (Hx3' : cut (" "%char :: x3) ([" "%char] ++ M1 ++ nl :: lit "#MAX" ++ " "%char :: M2 ++ nl :: t1 ++ [nl])) by (destruct Hx3 as (u & Hu & ->); exists u; auto).
    destruct (doubles_cut (f_min f) _ [" "%char] _ eq_refl Hx3') as [U|[(l & s' & D & L & U)|(w4 & x4 & W4 & C4 & U)]]; rewrite Hm in U; rewrite U; cbn [bind fst snd].
    { right. reflexivity. }
    { destruct (dead_string _ D) as [E4 D4]. destruct (scan_string s') as [o4 s4]. cbn [fst] in E4. subst o4. left. eexists _, _. reflexivity. }
    assert (C4' : cut x4 ((w4 ++ [nl]) ++ lit "#MAX" ++ " "%char :: M2 ++ nl :: t1 ++ [nl])) by (rewrite <- app_assoc; exact C4).
    assert (W4' : spaces (w4 ++ [nl])) by (unfold spaces in *; rewrite forallb_app, W4; reflexivity).
    assert (DEAD : forall g l st, f_dimX g = f_dimX f -> f_dimY g = f_dimY f -> f_min g = map rnd (f_min f) -> f_np g = np -> f_nq g = nq -> f_rs g = repeat None (f_dimY f) -> length l = f_dimX f -> dead st -> refused (load_channels junk lex (f_dimY f) 0 (set_max g l) st)).
    { intros g l st G1 G2 G3 G4 G5 G6 Ll Hst. unfold set_max. rewrite G1, G2, G3, G4, G5, G6, LF. cbn [load_channels].
      destruct (make_channel (f_dimX f) (S (length front)) (map rnd (f_min f)) l np nq [] (length front) Hd) as (r & G & _); [rewrite map_length; assumption|assumption|reflexivity|]. cbn [map app length] in G. rewrite G. cbn [bind].
      destruct (dead_1d junk lex r st Hst) as (a & s1 & ->). cbn [bind]. eexists _, _. reflexivity. }
    destruct (word_cut x4 (w4 ++ [nl]) (lit "#MAX") " "%char _ W4' ltac:(repeat constructor) eq_refl C4' ltac:(discriminate)) as [[D _]|(x5 & Hx5 & E5)].
    { destruct (scan_string (good_stream x4)) as [o5 s5]. cbn [fst snd] in D. destruct o5 as [k5|]; [|left; eexists _, _; reflexivity]. destruct (negb _); [left; eexists _, _; reflexivity|].
      right. rewrite dead_doubles; [reflexivity|assumption|lia]. }
    rewrite E5. change (str_eqb (lit "#MAX") "#MAX"%string) with true. cbn [negb]. cbv iota. cbn [new_rf f_dimY].
    assert (Hx5' : cut (" "%char :: x5) ([" "%char] ++ M2 ++ nl :: t1 ++ [nl])) by (destruct Hx5 as (u & Hu & ->); exists u; auto).
    destruct (doubles_cut (f_max f) _ [" "%char] _ eq_refl Hx5') as [U2|[(l & s' & D & L & U2)|(w6 & x6 & W6 & C6 & U2)]]; rewrite HM in U2; rewrite U2; cbn [bind fst snd].
    { right. reflexivity. }
    { left. apply DEAD; cbn [set_min new_rf f_dimX f_dimY f_min f_np f_nq f_rs]; try reflexivity; [congruence|assumption]. }
    cbn [set_max set_min new_rf f_dimX f_dimY f_min f_np f_nq f_rs]. destruct (HT [] (w6 ++ [nl]) (f_dimY f)) as (HA & _).
    { unfold spaces in *; rewrite forallb_app, W6; reflexivity. } { cbn [length]. lia. }
    cbn [length map app] in HA. unfold set_max, set_min, new_rf. cbn [f_dimX f_dimY f_min f_max f_np f_nq f_rs]. rewrite LF in *. apply HA.
    destruct C6 as (u & Hu & Eu). destruct (exists_last Hu) as (u' & y & ->). change (w6 ++ nl :: t1 ++ [nl]) with (w6 ++ (nl :: t1) ++ [nl]) in Eu. rewrite !app_assoc in Eu. apply app_inj_tail in Eu as [Eu _]. exists u'. rewrite <- app_assoc. exact Eu.
  - assert (GEN : forall q, exists w', spaces w' /\ load_rf junk lex (new_rf (f_dimX f) (f_dimY f) np nq) (good_stream ((lit "#FUNC" ++ " "%char :: lit "rational_function" ++ nl :: lit "#MIN" ++ " "%char :: M1 ++ nl :: lit "#MAX" ++ " "%char :: M2 ++ nl :: t1) ++ q)) =
      load_channels junk lex (S (length front)) 0 (mkRf (f_dimX f) (f_dimY f) (map rnd (f_min f)) (map rnd (f_max f)) np nq (repeat None (S (length front)))) (good_stream (w' ++ t1 ++ q))).
    { intros q. unfold load_rf. do 8 (rewrite <- ?app_assoc; cbn [app]).
    match goal with |- context[good_stream (lit "#FUNC" ++ ?z)] => set (u0 := z) end.
    assert (SL : skip_lines (S (length (rest (good_stream (lit "#FUNC" ++ u0))))) (good_stream (lit "#FUNC" ++ u0)) = (true, good_stream (lit "#FUNC" ++ u0))).
    { apply (skip_newlines []); [constructor|cbn; lia]. }
    rewrite SL. cbn [negb]. cbv iota. unfold u0. clear u0 SL.
    match goal with |- context[good_stream (lit "#FUNC" ++ ?z)] => change (good_stream (lit "#FUNC" ++ z)) with (good_stream ([] ++ lit "#FUNC" ++ z)) end.
    rewrite scan_word; [|reflexivity|discriminate|repeat constructor|reflexivity].
    match goal with |- context[good_stream (" "%char :: lit "rational_function" ++ ?z)] => change (good_stream (" "%char :: lit "rational_function" ++ z)) with (good_stream ([" "%char] ++ lit "rational_function" ++ z)) end.
    rewrite scan_word; [|reflexivity|discriminate|repeat constructor|reflexivity].
    match goal with |- context[good_stream (nl :: lit "#MIN" ++ ?z)] => change (good_stream (nl :: lit "#MIN" ++ z)) with (good_stream ([nl] ++ lit "#MIN" ++ z)) end.
    rewrite scan_word; [|reflexivity|discriminate|repeat constructor|reflexivity].
    change (str_eqb (lit "#FUNC") "#FUNC"%string) with true. change (str_eqb (lit "rational_function") "rational_function"%string) with true. change (str_eqb (lit "#MIN") "#MIN"%string) with true. cbn [negb]. cbv iota. cbn [new_rf f_dimX].
    match goal with |- context[good_stream (" "%char :: M1 ++ nl :: ?v)] => destruct (read_doubles_text lex print rnd HP (f_min f) [" "%char] nl v eq_refl eq_refl) as (wa & Wa & _ & Ea) end.
    fold M1 in Ea. cbn [app] in Ea. rewrite Hm in Ea. rewrite Ea. cbn [bind fst snd].
    match goal with |- context[good_stream (wa ++ nl :: lit "#MAX" ++ ?v)] => replace (wa ++ nl :: lit "#MAX" ++ v) with ((wa ++ [nl]) ++ lit "#MAX" ++ v) by (rewrite <- app_assoc; reflexivity) end.
    rewrite scan_word; [| |discriminate|repeat constructor|reflexivity]. 2: { unfold spaces in *. rewrite forallb_app, Wa. reflexivity. }
    change (str_eqb (lit "#MAX") "#MAX"%string) with true. cbn [negb]. cbv iota.
    match goal with |- context[good_stream (" "%char :: M2 ++ nl :: ?v)] => destruct (read_doubles_text lex print rnd HP (f_max f) [" "%char] nl v eq_refl eq_refl) as (wb & Wb & _ & Eb) end.
    fold M2 in Eb. cbn [app] in Eb. rewrite HM in Eb. rewrite Eb. cbn [bind fst snd].
    exists (wb ++ [nl]). split; [unfold spaces in *; rewrite forallb_app, Wb; reflexivity|]. rewrite <- app_assoc. cbn [app].
    unfold set_max, set_min, new_rf. cbn [f_dimX f_dimY f_min f_max f_np f_nq f_rs]. rewrite LF. reflexivity. }
    split.
    + intros q Hq1 Hq2 Hcs. destruct (GEN q) as (w' & Hw' & E0). destruct (HT [] w' (f_dimY f) Hw') as (_ & HB & _). { cbn [length]. lia. }
      destruct (HB q Hq1 Hq2 Hcs) as (s' & D & E). exists s'. split; [assumption|]. rewrite E0. exact E.
    + destruct (GEN []) as (w' & Hw' & E0). rewrite !app_nil_r in E0. rewrite E0. destruct (HT [] w' (f_dimY f) Hw') as (_ & _ & HU). { cbn [length]. lia. } exact HU.
Qed.
End Cut.

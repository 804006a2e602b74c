From Coq Require Import Reals List Arith Lia Lra Permutation Bool.
From Verif Require Import Base Num ParamsModel GeoModel ArgsModel DataModel TextModel FuncModel MonoModel MonoProofs FuncFile RatModel RatSpec RatProofs QuadModel QuadSpec QuadProofs QuadFit QuadSizes QuadPar.
Open Scope R_scope.

Lemma every_others {A} di (l : list A) : forall i, Permutation (every di i l ++ others di i l) l.
Proof.
  induction l as [|a l IH]; intros i; cbn [every others]; [reflexivity|]. destruct (i mod di =? 0)%nat; cbn [app].
  - constructor. apply IH.
  - rewrite <- Permutation_middle. constructor. apply IH.
Qed.
Lemma others_nil {A} (l : list A) : forall i, others 1 i l = [].
Proof. induction l as [|a l IH]; intros i; cbn [others]; [reflexivity|]. rewrite Nat.mod_1_r. cbn. apply IH. Qed.

Section Search.
Variable junk : R.
Variable solver : nat -> list (list R) -> list R -> option (list R).
Variable cond : list (list R) -> R.

Lemma split_spec np nq di r : well_formed r -> length (r_p r) = np -> length (r_q r) = nq -> forall ss i, positions_ok (r_dim r) ss ->
  split np nq di i r ss = Ok (rows r np nq (every di i ss), others di i ss).
Proof.
  intros W Lp Lq. induction ss as [|s ss IH]; intros i HP; cbn [split every others]; [reflexivity|].
  pose proof (Forall_inv HP) as Hx. apply Forall_inv_tail in HP. destruct (i mod di =? 0)%nat.
  - rewrite constraint_spec by assumption. cbn [bind]. rewrite IH by assumption. reflexivity.
  - rewrite IH by assumption. reflexivity.
Qed.

Hypothesis Hsound : sound solver.

Lemma parallel_1d_spec use_delta np nq r ss delta fuel : (0 < np)%nat -> (0 < nq)%nat -> well_formed r -> length (r_p r) = np -> length (r_q r) = nq ->
  positions_ok (r_dim r) ss -> Forall ordered ss -> ss <> [] -> (length ss < fuel)%nat -> 0 < delta -> (use_delta = true -> forall CI, 0 < cond CI) ->
  exists b r' delta' solved, parallel_1d junk solver cond use_delta fuel np nq r ss delta = Ok (Some (b, r', delta', solved)) /\
    let start := every (stride (length ss)) 0 ss in
    let pool := others (stride (length ss)) 0 ss in
    (0 < solved <= S (length pool))%nat /\ 0 < delta' /\ well_formed r' /\ same_domain r r' /\ length (r_p r') = np /\ length (r_q r') = nq /\ (use_delta = false -> delta' = delta) /\
    if b then exists added rest, Permutation ((start ++ added) ++ rest) ss /\ S (length added) = solved /\
                Forall (passes r') (start ++ added) /\ Forall (fun s => within r' s \/ undefined r' s) rest
    else (complete solver -> ~ exists a b, length a = np /\ length b = nq /\ Forall (interpolates (r_dim r) (r_min r) (r_max r) a b) ss) \/
         (0 < length pool /\ solved = length pool)%nat.
Proof.
  intros Hnp Hnq W Lp Lq HP HO Hne Hfu Hdel Hcond. unfold parallel_1d. rewrite split_spec by assumption. cbn [bind fst snd].
  set (di := stride (length ss)). pose proof (every_others di ss 0%nat) as Pm.
  assert (HL : (length (others di 0 ss) <= length ss)%nat) by (pose proof (Permutation_length Pm) as PL; rewrite app_length in PL; lia).
  destruct (qp_loop_spec junk solver cond Hsound use_delta np nq ss r Hnp Hnq W HP HO Hcond (length (others di 0 ss)) (others di 0 ss) (every di 0 ss) r delta 0%nat fuel)
    as (b & r' & d' & s' & E & H1 & H2 & H3 & H4 & H5 & H6 & H7 & H8); try assumption; try lia; try reflexivity.
  - destruct ss as [|s ss]; [congruence|]. cbn [every]. rewrite Nat.mod_0_l; [discriminate|]. unfold di, stride. lia.
  - split; [reflexivity|split; reflexivity].
  - exists b, r', d', s'. split; [exact E|]. cbn zeta. split; [lia|]. split; [assumption|]. split; [assumption|]. split; [assumption|]. split; [assumption|]. split; [assumption|]. split; [assumption|].
    destruct b; [|exact H8]. destruct H8 as (added & rest & A & B & C & D). exists added, rest. split; [assumption|]. split; [lia|]. split; assumption.
Qed.

(** ** All the channels *)
Lemma par_channels_spec use_delta np nq dx dy mn mx : (0 < np)%nat -> (0 < nq)%nat -> (0 < dx)%nat -> length mn = dx -> length mx = dx ->
  (use_delta = true -> forall CI, 0 < cond CI) ->
  forall channels don delta, (length don + length channels <= dy)%nat -> Forall (positions_ok dx) channels -> Forall (Forall ordered) channels -> Forall (fun ss => ss <> []) channels -> 0 < delta ->
  exists b delta' new, par_channels junk solver cond use_delta np nq (length don) channels (mkRf dx dy mn mx np nq (List.map Some don ++ repeat None (dy - length don))) delta =
    Ok (b, mkRf dx dy mn mx np nq (List.map Some (don ++ new) ++ repeat None (dy - length don - length new)), delta') /\
    0 < delta' /\ (use_delta = false -> delta' = delta) /\
    (b = true -> Forall2 (fun ss r => Forall (fun s => passes r s \/ within r s \/ undefined r s) ss) channels new) /\
    (b = false -> complete solver -> exists ss, In ss channels /\
        (~ (exists a b, length a = np /\ length b = nq /\ Forall (interpolates dx (fst (inflate mn mx)) (snd (inflate mn mx)) a b) ss) \/ (198 < length ss)%nat)).
Proof.
  intros Hnp Hnq Hd Hm HM Hcond. destruct (fresh_wf junk dx np nq mn mx Hd Hm HM) as (W & D & L1 & L2 & D1 & D2).
  induction channels as [|ss channels IH]; intros don delta HL HP HO HN Hdel; cbn [par_channels].
  - exists true, delta, []. rewrite app_nil_r. cbn [length]. rewrite Nat.sub_0_r. split; [reflexivity|]. split; [assumption|]. split; [reflexivity|]. split; [constructor|discriminate].
  - cbn [length] in HL. pose proof (Forall_inv HP) as HP1. pose proof (Forall_inv HO) as HO1. pose proof (Forall_inv HN) as HN1. apply Forall_inv_tail in HP, HO, HN.
    destruct (dy - length don)%nat as [|n] eqn:En; [lia|]. rewrite repeat_S.
    unfold get at 1. cbn [f_dimX f_dimY f_min f_max f_np f_nq f_rs].
    rewrite (proj2 (Nat.ltb_lt (length don) dy)) by lia. rewrite nth_error_app2 by (rewrite map_length; lia). rewrite map_length, Nat.sub_diag. cbn [nth_error].
    rewrite Hm, HM, Nat.ltb_irrefl. cbn [orb].
    rewrite (surjective_pairing (inflate mn mx)). fold (fresh junk dx np nq mn mx). cbn [bind].
    rewrite set_channel_at. rewrite resize_same by assumption.
    destruct (parallel_1d_spec use_delta np nq (fresh junk dx np nq mn mx) ss delta (S (length ss)) Hnp Hnq W L1 L2) as (b & r' & d' & sv & E & H1 & H2 & H3 & H4 & H5 & H6 & H7 & H8); try assumption.
    { rewrite D. assumption. } { lia. }
    rewrite E. cbn [bind].
    assert (ES : forall r1, set_channel (mkRf dx dy mn mx np nq (List.map Some (don ++ [r1]) ++ repeat None n)) (length don) r' =
                 mkRf dx dy mn mx np nq (List.map Some (don ++ [r']) ++ repeat None n)).
    { intros r1. rewrite <- (set_channel_at dx dy mn mx np nq don (Some r1) r' (repeat None n)). f_equal. f_equal. rewrite map_app, <- app_assoc. reflexivity. }
    rewrite ES. destruct b.
    + destruct (IH (don ++ [r']) d') as (b2 & d2 & new & E2 & K1 & K2 & K3 & K4); try assumption.
      { rewrite app_length; cbn; lia. }
      rewrite app_length in E2. cbn [length] in E2. replace (length don + 1)%nat with (S (length don)) in E2 by lia. replace (dy - S (length don))%nat with n in E2 by lia. rewrite E2.
      exists b2, d2, (r' :: new). split. { rewrite <- app_assoc. cbn [app length]. do 5 f_equal. }
      split; [assumption|]. split; [intros Hu; rewrite K2, H7 by assumption; reflexivity|]. split.
      * intros Hb. constructor; [|auto]. destruct H8 as (added & rest & P8 & _ & F8 & G8). apply Forall_forall. intros s Hs.
        apply (Permutation_in _ (Permutation_sym P8)) in Hs. apply in_app_or in Hs as [Hs|Hs]; [left; rewrite Forall_forall in F8; auto|right; rewrite Forall_forall in G8; auto].
      * intros Hb Hc. destruct (K4 Hb Hc) as (ss' & Hin & H'). exists ss'. split; [right; assumption|assumption].
    + exists false, d', [r']. cbn [length]. split; [rewrite Nat.sub_succ, Nat.sub_0_r; reflexivity|]. split; [assumption|]. split; [assumption|]. split; [discriminate|].
      intros _ Hc. exists ss. split; [left; reflexivity|]. destruct H8 as [H8|[H8 _]].
      * left. rewrite D, D1, D2 in H8. exact (H8 Hc).
      * right. destruct (le_lt_dec (length ss) 198) as [Hle|]; [|assumption]. exfalso.
        assert (Est : stride (length ss) = 1%nat). { unfold stride, nb_starting_points. change (100 - 1)%nat with 99%nat. assert ((length ss - 1) / 99 < 2)%nat by (apply Nat.div_lt_upper_bound; lia). lia. }
        rewrite Est, others_nil in H8. cbn in H8. lia.
Qed.

Variable distance : rf -> option R.
Notation cand := (candidate junk solver cond distance).

(** ** The critical sections *)
Definition all_ok (use_delta : bool) channels f i (order : list nat) (cs : list (option (R * option R * rf))) : Prop :=
  Forall2 (fun j c => cand use_delta channels f i j = Ok c) order cs.
Definition step_ (use_delta : bool) (st : found) (c : option (R * option R * rf)) : found := match c with Some t => critical use_delta st t | None => st end.
Lemma parallel_for_fold use_delta channels f i order : forall cs st, all_ok use_delta channels f i order cs ->
  parallel_for junk solver cond distance use_delta channels f i order st = Ok (fold_left (step_ use_delta) cs st).
Proof.
  induction order as [|j order IH]; intros cs st H; inversion H as [|? c ? cs' Hc H']; subst; cbn [parallel_for fold_left]; [reflexivity|].
  rewrite Hc. cbn [bind]. apply IH. assumption.
Qed.
Definition cur (use_delta : bool) (st : found) : option R := if use_delta then n_delta st else n_l2 st.
Lemma step_eq use_delta st c : step_ use_delta st c = match c with
  | Some (delta, l2, rk) => if dev_lt (key use_delta c) (cur use_delta st) then mkFound (Some delta) l2 rk else st
  | None => st end.
Proof. destruct c as [[[d l] f]|]; [|reflexivity]. unfold step_, critical, key, cur. destruct use_delta; cbn [andb negb orb]; [rewrite orb_false_r|]; reflexivity. Qed.
(** no candidate has a better key *)
Lemma fold_best use_delta : forall cs st, let st' := fold_left (step_ use_delta) cs st in
  (st' = st /\ forall c, In c cs -> dev_lt (key use_delta c) (cur use_delta st) = false) \/
  (exists c d l f, In c cs /\ c = Some (d, l, f) /\ key use_delta c <> None /\ st' = mkFound (Some d) l f /\ cur use_delta st' = key use_delta c /\
     dev_lt (key use_delta c) (cur use_delta st) = true /\ forall c', In c' cs -> dev_lt (key use_delta c') (key use_delta c) = false).
Proof.
  induction cs as [|c cs IH]; intros st; cbn [fold_left].
  - left. split; [reflexivity|]. intros ? [].
  - rewrite step_eq. destruct c as [[[d l] f]|].
    + destruct (dev_lt (key use_delta (Some (d, l, f))) (cur use_delta st)) eqn:Ed.
      * assert (Ec : cur use_delta (mkFound (Some d) l f) = key use_delta (Some (d, l, f))) by (unfold cur, key; destruct use_delta; reflexivity).
        assert (Hk : key use_delta (Some (d, l, f)) <> None) by (intros C; rewrite C in Ed; discriminate).
        destruct (IH (mkFound (Some d) l f)) as [[-> H]|(c' & d' & l' & f' & Hin & Ec' & Hk' & E' & Hcur & Hlt & H)].
        -- right. exists (Some (d, l, f)), d, l, f. repeat split; auto. { left; reflexivity. } intros c' [<-|Hc']; [apply dev_lt_refl|]. rewrite <- Ec. auto.
        -- right. exists c', d', l', f'. rewrite Ec in Hlt. repeat split; auto. { right; assumption. } { eapply dev_lt_trans; eassumption. }
           intros c2 [<-|Hc2]; [|auto]. destruct (dev_lt (key use_delta (Some (d, l, f))) (key use_delta c')) eqn:E2; [|reflexivity].
           pose proof (dev_lt_trans _ _ _ Hlt E2) as C. rewrite dev_lt_refl in C. discriminate.
      * destruct (IH st) as [[E H]|(c' & d' & l' & f' & Hin & Ec' & Hk' & E' & Hcur & Hlt & H)].
        -- left. split; [exact E|]. intros c' [<-|Hc']; auto.
        -- right. exists c', d', l', f'. repeat split; auto. { right; assumption. }
           intros c2 [<-|Hc2]; [|auto]. destruct (dev_lt (key use_delta (Some (d, l, f))) (key use_delta c')) eqn:E2; [|reflexivity].
           rewrite (dev_lt_trans _ _ _ E2 Hlt) in Ed. discriminate.
    + destruct (IH st) as [[E H]|(c' & d' & l' & f' & Hin & Ec' & Hk' & E' & Hcur & Hlt & H)].
      * left. split; [exact E|]. intros c' [<-|Hc']; [reflexivity|auto].
      * right. exists c', d', l', f'. repeat split; auto. { right; assumption. }
        intros c2 [<-|Hc2]; [reflexivity|auto].
Qed.
Lemma dev_lt_max k : dev_lt k None = false <-> k = None.
Proof. destruct k; cbn; split; congruence. Qed.

(** the loop in any order *)
Lemma parallel_for_best use_delta channels f i order cs : all_ok use_delta channels f i order cs ->
  exists st, parallel_for junk solver cond distance use_delta channels f i order (mkFound None None f) = Ok st /\
    ((n_delta st = None /\ n_best st = f /\ forall c, In c cs -> key use_delta c = None) \/
     (exists c d k, In c cs /\ fitted c (n_best st) /\ n_delta st = Some d /\ key use_delta c = Some k /\ forall c' k', In c' cs -> key use_delta c' = Some k' -> k <= k')).
Proof.
  intros H. rewrite (parallel_for_fold _ _ _ _ _ _ _ H). eexists. split; [reflexivity|].
  destruct (fold_best use_delta cs (mkFound None None f)) as [[-> K]|(c & d & l & g & Hin & Ec & Hk & E & Hcur & Hlt & K)].
  - left. split; [reflexivity|]. split; [reflexivity|]. intros c Hc. apply dev_lt_max. specialize (K c Hc). unfold cur in K. destruct use_delta; exact K.
  - right. rewrite E. cbn [n_best n_delta]. destruct (key use_delta c) as [k|] eqn:Ek; [|congruence]. exists c, d, k. repeat split; auto.
    + exists d, l. assumption.
    + intros c' k' Hc' Ek'. specialize (K c' Hc'). rewrite Ek' in K. cbn in K. apply rltb_false in K. assumption.
Qed.
Lemma all_ok_perm use_delta channels f i order order' cs : Permutation order order' -> all_ok use_delta channels f i order cs ->
  exists cs', Permutation cs cs' /\ all_ok use_delta channels f i order' cs'.
Proof.
  intros P. revert cs. induction P as [|j o o' P IH|j k o|o o' o'' P1 IH1 P2 IH2]; intros cs H.
  - exists cs. split; [reflexivity|assumption].
  - inversion H as [|? c ? cs0 Hc H']; subst. destruct (IH _ H') as (cs' & Pc & Hcs). exists (c :: cs'). split; [constructor; assumption|constructor; assumption].
  - inversion H as [|? c ? cs0 Hc H']; subst. inversion H' as [|? c' ? cs1 Hc' H'']; subst. exists (c' :: c :: cs1). split; [constructor|]. constructor; [assumption|constructor; assumption].
  - destruct (IH1 _ H) as (cs' & Pc & Hcs). destruct (IH2 _ Hcs) as (cs'' & Pc' & Hcs'). exists cs''. split; [etransitivity; eassumption|assumption].
Qed.
Lemma all_ok_total use_delta channels f i order : (forall j, In j order -> exists c, cand use_delta channels f i j = Ok c) -> exists cs, all_ok use_delta channels f i order cs.
Proof.
  induction order as [|j order IH]; intros H; [exists []; constructor|].
  destruct (H j) as [c Hc]; [left; reflexivity|]. destruct IH as [cs Hcs]; [intros; apply H; right; assumption|]. exists (c :: cs). constructor; assumption.
Qed.
Lemma candidate_total use_delta channels f i j : (0 < j < i)%nat -> rf_ok f -> (length channels <= f_dimY f)%nat -> (use_delta = true -> forall CI, 0 < cond CI) ->
  Forall (positions_ok (f_dimX f)) channels -> Forall (Forall ordered) channels -> Forall (fun ss => ss <> []) channels ->
  exists c, cand use_delta channels f i j = Ok c /\
    (forall g, fitted c g -> f_dimX g = f_dimX f /\ f_dimY g = f_dimY f /\ f_np g = (i - j)%nat /\ f_nq g = j /\
       forall k ss, nth_error channels k = Some ss -> exists r, channel_of g k r /\ Forall (fun s => passes r s \/ within r s \/ undefined r s) ss) /\
    (c = None -> complete solver -> exists mn mx ss, widened (1 / 10) (f_min f) (f_max f) mn mx /\ In ss channels /\
       (~ (exists a b, length a = (i - j)%nat /\ length b = j /\ Forall (interpolates (f_dimX f) mn mx a b) ss) \/ (198 < length ss)%nat)).
Proof.
  intros Hj (Hd & Hm & HM) HL Hcond HP HO HN. unfold candidate, set_size.
  destruct (par_channels_spec use_delta (i - j) j (f_dimX f) (f_dimY f) (f_min f) (f_max f) ltac:(lia) ltac:(lia) Hd Hm HM Hcond channels [] 1) as (b & d & new & E & H1 & H2 & H3 & H4); try assumption.
  { lra. }
  cbn [length List.map app] in E. rewrite Nat.sub_0_r in E. rewrite E. cbn [bind]. destruct b.
  - eexists. split; [reflexivity|]. split; [|discriminate]. intros g (d' & l' & Eg). injection Eg as _ _ <-. cbn [f_dimX f_dimY f_np f_nq]. do 4 (split; [reflexivity|]).
    intros k ss Hk. specialize (H3 eq_refl). apply Forall2_nth in H3 as [HLn H3].
    assert (Hlt : (k < length new)%nat) by (rewrite <- HLn; apply nth_error_Some; congruence).
    destruct (nth_error new k) as [r|] eqn:Er; [|apply nth_error_None in Er; lia]. exists r. split; [|eapply H3; eassumption].
    unfold channel_of. cbn [f_rs]. rewrite nth_error_app1 by (rewrite map_length; assumption). rewrite nth_error_map, Er. reflexivity.
  - eexists. split; [reflexivity|]. split; [intros g (d' & l' & Eg); discriminate|]. intros _ Hc. destruct (H4 eq_refl Hc) as (ss & Hin & H').
    exists (fst (inflate (f_min f) (f_max f))), (snd (inflate (f_min f) (f_max f))), ss. split; [apply inflate_widened; congruence|]. split; assumption.
Qed.
End Search.

(** ** The automatic conversion *)
Lemma store_spec v : forall l i, (i + length v <= length l)%nat -> exists l', store l i v = Ok l' /\ length l' = length l /\
  forall j, nth_error l' j = if ((i <=? j) && (j <? i + length v))%nat then Some (nth_error v (j - i)) else nth_error l j.
Proof.
  induction v as [|t v IH]; intros l i H; cbn [store length] in *.
  - exists l. repeat split. intros j. destruct (Nat.leb_spec i j), (Nat.ltb_spec j (i + 0)); cbn [andb]; reflexivity || lia.
  - destruct (put_col_ok l i (Some t)) as (l1 & E1 & L1 & N1); [lia|]. rewrite E1. cbn [bind].
    destruct (IH l1 (S i)) as (l2 & E2 & L2 & N2); [lia|]. exists l2. split; [exact E2|]. split; [lia|]. intros j. rewrite N2, N1.
    destruct (Nat.leb_spec (S i) j), (Nat.ltb_spec j (S i + length v)), (Nat.leb_spec i j), (Nat.ltb_spec j (i + S (length v))), (Nat.eqb_spec j i); cbn [andb]; try lia; try reflexivity.
    + replace (j - i)%nat with (S (j - S i)) by lia. reflexivity.
    + subst. rewrite Nat.sub_diag. reflexivity.
Qed.
Lemma store_app v w : forall l i, store l i (v ++ w) = (do l' <- store l i v; store l' (i + length v) w).
Proof.
  induction v as [|t v IH]; intros l i; cbn [app store length]; [rewrite Nat.add_0_r; reflexivity|].
  destruct (put_col l i (Some t)); try reflexivity. cbn [bind]. rewrite IH. replace (S i + length v)%nat with (i + S (length v))%nat by lia. reflexivity.
Qed.
Lemma store_sample_record dx dt l i x : (dx <= length x)%nat -> store_sample dx dt l i x = store l i (record dx dt x).
Proof.
  intros H. unfold store_sample, record. rewrite store_app. destruct (store l i x); try reflexivity. cbn [bind]. rewrite store_app.
  rewrite map_length, skipn_length. reflexivity.
Qed.
Lemma record_length dx dy dt x : length x = (dx + dy)%nat -> length (record dx dt x) = (dx + 3 * dy)%nat.
Proof. intros H. unfold record. rewrite !app_length, !map_length, skipn_length. lia. Qed.
Lemma store_samples_spec dx dy dt : forall xs l i, Forall (fun x => length x = (dx + dy)%nat) xs -> (xs = [] \/ i + length xs - 1 + (dx + 3 * dy) <= length l)%nat ->
  exists l', store_samples dx dt l i xs = Ok l' /\ length l' = length l /\
    forall j, nth_error l' j = if ((i <=? j) && (j <? i + length xs - 1 + (dx + 3 * dy)) && (0 <? length xs) && (0 <? dx + 3 * dy))%nat
      then let n := Nat.min (j - i) (length xs - 1) in Some (match nth_error xs n with Some x => nth_error (record dx dt x) (j - i - n) | None => None end)
      else nth_error l j.
Proof.
  induction xs as [|x xs IH]; intros l i HF HL; cbn [store_samples].
  - exists l. repeat split. intros j. cbn [length Nat.ltb]. rewrite andb_false_r. reflexivity.
  - pose proof (Forall_inv HF) as Hx. cbv beta in Hx. apply Forall_inv_tail in HF. pose proof (record_length dx dy dt x Hx) as LR.
    destruct HL as [HL|HL]; [discriminate|]. cbn [length] in HL. rewrite store_sample_record by lia.
    destruct (store_spec (record dx dt x) l i) as (l1 & E1 & L1 & N1); [lia|]. rewrite E1. cbn [bind].
    destruct (IH l1 (S i) HF) as (l2 & E2 & L2 & N2); [destruct xs; [left; reflexivity|right; cbn [length] in *; lia]|].
    exists l2. split; [exact E2|]. split; [lia|]. intros j. rewrite N2, N1. rewrite LR. cbn [length].
    replace (0 <? S (length xs))%nat with true by reflexivity. rewrite andb_true_r.
    destruct (Nat.ltb_spec 0 (dx + 3 * dy)) as [He|He].
    2: { rewrite !andb_false_r. destruct (Nat.leb_spec i j), (Nat.ltb_spec j (i + (dx + 3 * dy))); cbn [andb]; reflexivity || lia. }
    rewrite !andb_true_r. destruct xs as [|x' xs].
    + change (0 <? length (@nil (list R)))%nat with false. rewrite !andb_false_r. cbn [length andb]. replace (i + 1 - 1)%nat with i by lia.
      destruct ((i <=? j) && (j <? i + (dx + 3 * dy)))%nat; [|reflexivity]. cbn zeta. change (1 - 1)%nat with 0%nat. rewrite Nat.min_0_r. cbn [nth_error]. rewrite Nat.sub_0_r. reflexivity.
    + set (n := length (x' :: xs)) in *. assert (Hn : (0 < n)%nat) by (unfold n; cbn; lia). rewrite (proj2 (Nat.ltb_lt 0 n) Hn), andb_true_r.
      destruct (Nat.leb_spec (S i) j), (Nat.ltb_spec j (S i + n - 1 + (dx + 3 * dy))), (Nat.leb_spec i j), (Nat.ltb_spec j (i + S n - 1 + (dx + 3 * dy))), (Nat.ltb_spec j (i + (dx + 3 * dy))); cbn [andb]; try lia; try reflexivity.
      all: cbn zeta; destruct (Nat.eq_dec j i) as [Ej|Ej]; try (exfalso; lia);
        try (subst j; rewrite Nat.sub_diag; cbn [Nat.min nth_error]; reflexivity);
        replace (Nat.min (j - i) (S n - 1))%nat with (S (Nat.min (j - S i) (n - 1))) by lia; cbn [nth_error]; f_equal;
        replace (j - i - S (Nat.min (j - S i) (n - 1)))%nat with (j - S i - Nat.min (j - S i) (n - 1))%nat by lia; reflexivity.
Qed.
(** entry j of the converted array *)
Lemma convert_spec dx dy dt xs : Forall (fun x => length x = (dx + dy)%nat) xs -> (0 < dx + 3 * dy)%nat ->
  exists l, convert dx dy dt xs = Ok l /\ length l = (length xs * (dx + 3 * dy))%nat /\
    forall j, (j < length xs * (dx + 3 * dy))%nat -> nth_error l j =
      let n := Nat.min j (length xs - 1) in Some (match nth_error xs n with Some x => nth_error (record dx dt x) (j - n) | None => None end).
Proof.
  intros HF He. unfold convert. set (e := (dx + 3 * dy)%nat) in *.
  destruct (store_samples_spec dx dy dt xs (repeat None (length xs * e)) 0 HF) as (l & E & L & N).
  { destruct xs as [|x xs]; [left; reflexivity|right]. rewrite repeat_length. fold e. cbn [length]. nia. }
  exists l. rewrite repeat_length in L. split; [exact E|]. split; [exact L|]. intros j Hj. rewrite N. fold e. cbn zeta. rewrite !Nat.sub_0_r.
  rewrite (proj2 (Nat.ltb_lt 0 e) He). destruct xs as [|x xs]; [cbn in Hj; lia|]. cbn [length] in Hj |- *. rewrite (proj2 (Nat.ltb_lt 0 (S (length xs)))) by lia. rewrite (proj2 (Nat.leb_le 0 j)) by lia. rewrite !andb_true_r. cbn [andb].
  destruct (Nat.ltb_spec j (0 + S (length xs) - 1 + e)) as [H|H]; [reflexivity|].
  rewrite nth_error_repeat by (cbn [length] in Hj; lia). f_equal. replace (Nat.min j (S (length xs) - 1)) with (length xs) by lia.
  destruct (nth_error (x :: xs) (length xs)) as [y|] eqn:Ey; [|reflexivity]. symmetry. apply nth_error_None.
  rewrite Forall_forall in HF. rewrite (record_length dx dy dt y) by (apply HF; eapply nth_error_In; eassumption). fold e. lia.
Qed.
Lemma nth_error_ext {A} (l : list A) : forall l', (forall j, nth_error l j = nth_error l' j) -> l = l'.
Proof.
  induction l as [|x l IH]; intros [|y l'] H; try reflexivity; try (specialize (H 0%nat); discriminate H).
  assert (H0 := H 0%nat). cbn in H0. injection H0 as ->. f_equal. apply IH. intros j. apply (H (S j)).
Qed.

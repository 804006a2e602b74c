(** Proofs for C121. *)
From Coq Require Import Reals List Arith Lia Lra Permutation Bool.
From Verif Require Import Base Num ParamsModel GeoModel ArgsModel DataModel TextModel FuncModel MonoModel MonoProofs FuncFile RatModel RatSpec RatProofs QuadModel QuadSpec QuadProofs QuadFit QuadSizes QuadPar QuadSearch QuadSched QparModel ParSpec.
From Verif Require ParModel ParProofs.
Open Scope R_scope.

(** same inputs, outputs and domain *)
Definition alike (f g : rf) : Prop := f_dimX g = f_dimX f /\ f_dimY g = f_dimY f /\ f_min g = f_min f /\ f_max g = f_max f.
Lemma alike_refl f : alike f f. Proof. repeat split. Qed.
Lemma alike_trans f g h : alike f g -> alike g h -> alike f h.
Proof. intros (A & B & C & D) (A' & B' & C' & D'). repeat split; congruence. Qed.

Section Qpar.
Variable junk : R.
Variable solver : nat -> list (list R) -> list R -> option (list R).
Variable cond : list (list R) -> R.
Variable distance : rf -> option R.
Variable use_delta : bool.
Variable channels : list (list sample).
Notation cand := (candidate junk solver cond distance use_delta channels).
Notation act := (act junk solver cond distance use_delta channels).
Notation acts := (acts junk solver cond distance use_delta channels).

Lemma get_alike f i r f' : get junk f i = Ok (r, f') -> alike f f'.
Proof.
  unfold get. destruct (i <? f_dimY f)%nat; [|intros H; apply Ok_inj in H; injection H as _ ->; apply alike_refl].
  destruct (nth_error (f_rs f) i) as [[r0|]|]; [intros H; apply Ok_inj in H; injection H as _ ->; apply alike_refl| |discriminate].
  destruct ((length (f_min f) <? f_dimX f) || (length (f_max f) <? f_dimX f))%nat; [discriminate|]. destruct (inflate (f_min f) (f_max f)) as [mn mx]. intros H. apply Ok_inj in H. injection H as _ ->. repeat split.
Qed.
Lemma par_channels_alike np nq cs : forall j f delta b g d, par_channels junk solver cond use_delta np nq j cs f delta = Ok (b, g, d) -> alike f g.
Proof.
  induction cs as [|ss cs IH]; intros j f delta b g d H; cbn [par_channels] in H; [apply Ok_inj in H; injection H as _ -> _; apply alike_refl|].
  destruct (get junk f j) as [[r f1]| | |] eqn:Eg; cbn [bind] in H; try discriminate. apply get_alike in Eg. destruct r as [r|]; [|discriminate].
  destruct (parallel_1d _ _ _ _ _ _ _ _ _ _) as [[[[[ok r'] d'] n]|]| | |]; cbn [bind] in H; try discriminate. destruct ok.
  - apply IH in H. apply (alike_trans f f1); [assumption|]. destruct H as (A & B & C & D). repeat split; assumption.
  - apply Ok_inj in H. injection H as _ -> _. apply (alike_trans f f1); [assumption|]. repeat split.
Qed.
Lemma cand_alike f i j d l g : cand f i j = Ok (Some (d, l, g)) -> alike f g.
Proof.
  unfold candidate. destruct (par_channels _ _ _ _ _ _ _ _ _ _) as [[[b r] e]| | |] eqn:E; cbn [bind]; try discriminate. apply par_channels_alike in E. destruct b; [|discriminate].
  intros H. apply Ok_inj in H. injection H as _ _ ->. destruct E as (A & B & C & D). repeat split; assumption.
Qed.
Lemma cand_of_alike f g i j : alike f g -> cand g i j = cand f i j.
Proof. intros (A & B & C & D). unfold candidate, set_size. rewrite A, B, C, D. reflexivity. Qed.

Variable f : rf.
Variable i : nat.

Definition stage_inv (k : nat) (s : stage) : Prop :=
  match s with
  | NeedMin dx dy => dx = f_dimX f /\ dy = f_dimY f
  | NeedMax dx dy mn => dx = f_dimX f /\ dy = f_dimY f /\ mn = f_min f
  | Solve rk => alike f rk
  | AtR c => cand f i (S k) = Ok (Some c)
  | _ => True
  end.
Definition settled (s : stage) : Prop := match s with AtTested | Over => True | _ => False end.
Definition qinv (q : shared) : Prop :=
  length (q_at q) = (i - 1)%nat /\ alike f (n_best (q_found q)) /\ (forall k s, nth_error (q_at q) k = Some s -> stage_inv k s) /\
  (exists l cs, NoDup l /\ (forall k, In (S k) l <-> exists s, nth_error (q_at q) k = Some s /\ settled s) /\ ~ In 0%nat l /\
     all_ok junk solver cond distance use_delta channels f i l cs /\ q_found q = fold_left (step_ use_delta) cs (mkFound None None f) /\
     q_nfound q = length (filter some_fit cs) /\ q_sum q = fold_right Rplus 0 (map delta_of cs)) /\
  exists l, NoDup l /\ (forall k, In k l <-> nth_error (q_at q) k = Some Over) /\ q_tested q = length l.

Lemma enter_at k s : nth_error (q_at (enter_loop i f)) k = Some s -> s = Enter.
Proof. cbn [enter_loop q_at]. intros H. apply nth_error_In in H. apply repeat_spec in H. assumption. Qed.
Lemma qinv_begin : qinv (enter_loop i f).
Proof.
  split; [apply repeat_length|]. split; [apply alike_refl|]. split; [intros k s H; rewrite (enter_at k s H); exact I|]. split.
  - exists [], []. split; [constructor|]. split; [|split; [intros []|split; [constructor|split; [reflexivity|split; reflexivity]]]].
    intros k. split; [intros []|]. intros (s & H & St). rewrite (enter_at k s H) in St. contradiction.
  - exists []. split; [constructor|]. split; [|reflexivity]. intros k. split; [intros []|]. intros H. discriminate (enter_at k _ H).
Qed.
Lemma alike_step st c : alike f (n_best st) -> (forall d l g, c = (d, l, g) -> alike f g) -> alike f (n_best (critical use_delta st c)).
Proof. intros A B. destruct c as [[d l] g]. unfold critical. destruct (_ || _)%bool; [cbn; apply (B d l g); reflexivity|assumption]. Qed.
Lemma fold_snoc cs c st : fold_left (step_ use_delta) (cs ++ [c]) st = step_ use_delta (fold_left (step_ use_delta) cs st) c.
Proof. apply fold_left_app. Qed.
Lemma all_ok_snoc l cs j c : all_ok junk solver cond distance use_delta channels f i l cs -> cand f i j = Ok c -> all_ok junk solver cond distance use_delta channels f i (l ++ [j]) (cs ++ [c]).
Proof. intros A B. apply Forall2_app; [assumption|]. constructor; [assumption|constructor]. Qed.
Lemma sum_snoc cs c : fold_right Rplus 0 (map delta_of (cs ++ [c])) = fold_right Rplus 0 (map delta_of cs) + delta_of c.
Proof. induction cs as [|a cs IH]; cbn; [lra|]. rewrite IH. lra. Qed.

(** moves that leave the shared variables alone and settle nothing *)
Lemma goto_inv q k s s' : qinv q -> nth_error (q_at q) k = Some s -> stage_inv k s' -> (settled s' <-> settled s) -> (s' = Over <-> s = Over) -> qinv (goto k s' q).
Proof.
  intros (L & A & St & (l & cs & Nd & Hl & N0 & Ha & Hf & Hn & Hsum) & (l2 & Nd2 & Hl2 & Ht)) Hk Hs' E1 E2. pose proof (ParProofs.nth_lt _ _ _ Hk) as Lk.
  split; [cbn [goto q_at]; rewrite ParProofs.put_length by assumption; assumption|]. split; [assumption|]. split; [|split].
  - intros k' s1. cbn [goto q_at]. destruct (Nat.eq_dec k' k) as [->|N]; [rewrite ParProofs.put_same by assumption; intros H; injection H as <-; assumption|rewrite ParProofs.put_other by assumption; apply St].
  - exists l, cs. split; [assumption|]. split; [|split; [assumption|split; [assumption|split; [assumption|split; assumption]]]]. intros k'. rewrite Hl. cbn [goto q_at]. destruct (Nat.eq_dec k' k) as [->|N]; [|rewrite ParProofs.put_other by assumption; reflexivity].
    rewrite ParProofs.put_same by assumption. split; intros (s1 & H1 & H2).
    + rewrite Hk in H1. injection H1 as <-. exists s'. split; [reflexivity|apply E1; assumption].
    + injection H1 as <-. exists s. split; [assumption|apply E1; assumption].
  - exists l2. split; [assumption|]. split; [|assumption]. intros k'. rewrite Hl2. cbn [goto q_at]. destruct (Nat.eq_dec k' k) as [->|N]; [|rewrite ParProofs.put_other by assumption; reflexivity].
    rewrite ParProofs.put_same by assumption. split; intros H.
    + rewrite Hk in H. injection H as ->. f_equal. apply E2. reflexivity.
    + injection H as ->. rewrite Hk. f_equal. apply E2. reflexivity.
Qed.
(** an iteration is settled with candidate [c] *)
Lemma settle_inv q k s c st sum nf : qinv q -> nth_error (q_at q) k = Some s -> ~ settled s -> cand f i (S k) = Ok c -> st = step_ use_delta (q_found q) c ->
  sum = q_sum q + delta_of c -> nf = (q_nfound q + if some_fit c then 1 else 0)%nat -> qinv (mkQ st sum nf (q_tested q) (ParModel.put k AtTested (q_at q))).
Proof.
  intros (L & A & St & (l & cs & Nd & Hl & N0 & Ha & Hf & Hn & Hsum) & (l2 & Nd2 & Hl2 & Ht)) Hk Ns Hc Est Es En. pose proof (ParProofs.nth_lt _ _ _ Hk) as Lk.
  assert (Nk : ~ In (S k) l). { intros H. apply Hl in H. destruct H as (s1 & H1 & H2). rewrite Hk in H1. injection H1 as <-. contradiction. }
  split; [cbn [q_at]; rewrite ParProofs.put_length by assumption; assumption|]. split; [|split; [|split]]; cbn [q_found q_at q_sum q_nfound q_tested].
  - rewrite Est. destruct c as [t|]; [|assumption]. cbn [step_]. apply alike_step; [assumption|]. intros d l0 g ->. apply (cand_alike f i (S k) d l0 g Hc).
  - intros k' s1. destruct (Nat.eq_dec k' k) as [->|N]; [rewrite ParProofs.put_same by assumption; intros H; injection H as <-; exact I|rewrite ParProofs.put_other by assumption; apply St].
  - exists (l ++ [S k]), (cs ++ [c]). split; [apply (Permutation_NoDup (Permutation_cons_append l (S k))); constructor; assumption|]. split; [|split; [|split; [apply all_ok_snoc; assumption|split; [rewrite fold_snoc, <- Hf; assumption|split]]]].
    + intros k'. rewrite in_app_iff. rewrite Hl. destruct (Nat.eq_dec k' k) as [->|N].
      * rewrite ParProofs.put_same by assumption. split; [intros _; exists AtTested; split; [reflexivity|exact I]|intros _; right; left; reflexivity].
      * rewrite ParProofs.put_other by assumption. split; [intros [H|[H|[]]]; [assumption|congruence]|intros H; left; assumption].
    + intros H. apply in_app_iff in H. destruct H as [H|[H|[]]]; [contradiction|discriminate].
    + rewrite filter_app, app_length, En, Hn. destruct c; reflexivity.
    + rewrite sum_snoc, Es, Hsum. reflexivity.
  - exists l2. split; [assumption|]. split; [|assumption]. intros k'. rewrite Hl2. destruct (Nat.eq_dec k' k) as [->|N]; [|rewrite ParProofs.put_other by assumption; reflexivity]. rewrite ParProofs.put_same by assumption. split; [|discriminate].
    intros H. rewrite Hk in H. injection H as ->. cbn in Ns. contradiction.
Qed.
Lemma act_inv q k q' : qinv q -> act i k q = Ok q' -> qinv q'.
Proof.
  intros Hq H. pose proof Hq as (L & A & St & _). unfold QparModel.act in H. destruct (nth_error (q_at q) k) as [s|] eqn:Ek; [|apply Ok_inj in H; subst; assumption]. pose proof (St k s Ek) as Si.
  destruct A as (A1 & A2 & A3 & A4). destruct s as [|dx dy|dx dy mn|rk|c| |].
  - apply Ok_inj in H. subst q'. apply (goto_inv q k Enter); [assumption|assumption|split; assumption|reflexivity|split; discriminate].
  - apply Ok_inj in H. subst q'. destruct Si. apply (goto_inv q k (NeedMin dx dy)); [assumption|assumption|repeat split; assumption|reflexivity|split; discriminate].
  - apply Ok_inj in H. subst q'. destruct Si as (B1 & B2 & B3). apply (goto_inv q k (NeedMax dx dy mn)); [assumption|assumption|repeat split; assumption|reflexivity|split; discriminate].
  - destruct (cand rk i (S k)) as [c| | |] eqn:Ec; cbn [bind] in H; try discriminate. apply Ok_inj in H. subst q'. cbn [stage_inv] in Si. rewrite (cand_of_alike f rk i (S k) Si) in Ec. destruct c as [t|].
    + apply (goto_inv q k (Solve rk)); [assumption|assumption|assumption|reflexivity|split; discriminate].
    + apply (settle_inv q k (Solve rk) None); [assumption|assumption|exact (fun x => x)|assumption|reflexivity|cbn; lra|cbn; lia].
  - apply Ok_inj in H. subst q'. apply (settle_inv q k (AtR c) (Some c)); [assumption|assumption|exact (fun x => x)|assumption|reflexivity|destruct c as [[d l] g]; reflexivity|cbn; lia].
  - apply Ok_inj in H. subst q'. destruct Hq as (_ & A & _ & (l & cs & Nd & Hl & N0 & Ha & Hf & Hn & Hsum) & (l2 & Nd2 & Hl2 & Ht)). pose proof (ParProofs.nth_lt _ _ _ Ek) as Lk.
    split; [cbn [q_at]; rewrite ParProofs.put_length by assumption; assumption|]. split; [assumption|]. split; [|split]; cbn [q_found q_at q_sum q_nfound q_tested].
    + intros k' s1. destruct (Nat.eq_dec k' k) as [->|N]; [rewrite ParProofs.put_same by assumption; intros H; injection H as <-; exact I|rewrite ParProofs.put_other by assumption; apply St].
    + exists l, cs. split; [assumption|]. split; [|split; [assumption|split; [assumption|split; [assumption|split; assumption]]]]. intros k'. rewrite Hl. destruct (Nat.eq_dec k' k) as [->|N]; [|rewrite ParProofs.put_other by assumption; reflexivity].
      rewrite ParProofs.put_same by assumption. split; intros _; eexists; (split; [eassumption || reflexivity|exact I]).
    + assert (Nk : ~ In k l2) by (intros H; apply Hl2 in H; rewrite Ek in H; discriminate). exists (k :: l2). split; [constructor; assumption|]. split; [|cbn [length]; lia].
      intros k'. destruct (Nat.eq_dec k' k) as [->|N]; [rewrite ParProofs.put_same by assumption; split; [reflexivity|intros _; left; reflexivity]|]. rewrite ParProofs.put_other by assumption. rewrite <- Hl2. split; [intros [H|H]; [congruence|assumption]|intros H; right; assumption].
  - apply Ok_inj in H. subst q'. assumption.
Qed.
Lemma acts_inv sched : forall q q', qinv q -> acts i sched q = Ok q' -> qinv q'.
Proof.
  induction sched as [|k sched IH]; intros q q' Hq H; cbn [QparModel.acts] in H; [apply Ok_inj in H; subst; assumption|].
  destruct (act i k q) as [q1| | |] eqn:E; cbn [bind] in H; try discriminate. apply (IH q1); [apply (act_inv q k); assumption|assumption].
Qed.

(** the end: the order of the critical sections explains everything *)
Lemma over_spec q : qinv q -> all_over q = true -> exists order cs, Permutation (seq 1 (i - 1)) order /\ all_ok junk solver cond distance use_delta channels f i order cs /\
  parallel_for junk solver cond distance use_delta channels f i order (mkFound None None f) = Ok (q_found q) /\
  q_nfound q = length (filter some_fit cs) /\ q_sum q = fold_right Rplus 0 (map delta_of cs) /\ q_tested q = (i - 1)%nat.
Proof.
  intros (L & A & St & (l & cs & Nd & Hl & N0 & Ha & Hf & Hn & Hsum) & (l2 & Nd2 & Hl2 & Ht)) Ho. unfold all_over in Ho. rewrite forallb_forall in Ho.
  assert (Over_at : forall k, (k < i - 1)%nat -> nth_error (q_at q) k = Some Over). { intros k Lk. destruct (nth_error (q_at q) k) as [s|] eqn:E; [|apply nth_error_None in E; lia]. specialize (Ho s (nth_error_In _ _ E)). destruct s; discriminate || reflexivity. }
  exists l, cs. split; [|split; [assumption|split; [|split; [assumption|split; [assumption|]]]]].
  - apply NoDup_Permutation; [apply seq_NoDup|assumption|]. intros j. rewrite in_seq. split.
    + intros Hj. destruct j as [|k]; [lia|]. apply Hl. exists Over. split; [apply Over_at; lia|exact I].
    + intros Hj. destruct j as [|k]; [contradiction|]. apply Hl in Hj. destruct Hj as (s & Hs & _). apply ParProofs.nth_lt in Hs. lia.
  - rewrite (parallel_for_fold junk solver cond distance use_delta channels f i l cs _ Ha). congruence.
  - rewrite Ht. rewrite <- (seq_length (i - 1) 0). apply Permutation_length. apply NoDup_Permutation; [assumption|apply seq_NoDup|]. intros k. rewrite Hl2, in_seq. split.
    + intros H. apply ParProofs.nth_lt in H. lia.
    + intros H. apply Over_at. lia.
Qed.

(** progress *)
Hypothesis Hok : forall j, (0 < j < i)%nat -> exists c, cand f i j = Ok c.
Lemma act_safe q k : qinv q -> exists q', act i k q = Ok q'.
Proof.
  intros (L & _ & St & _). unfold QparModel.act. destruct (nth_error (q_at q) k) as [s|] eqn:Ek; [|eauto]. pose proof (St k s Ek) as Si. pose proof (ParProofs.nth_lt _ _ _ Ek) as Lk. destruct s as [|dx dy|dx dy mn|rk|c| |]; eauto.
  cbn [stage_inv] in Si. rewrite (cand_of_alike f rk i (S k) Si). destruct (Hok (S k)) as [c Hc]; [lia|]. rewrite Hc. cbn [bind]. eauto.
Qed.
Lemma acts_safe sched : forall q, qinv q -> exists q', acts i sched q = Ok q'.
Proof.
  induction sched as [|k sched IH]; intros q Hq; cbn; [eauto|]. destruct (act_safe q k Hq) as [q1 E]. rewrite E. cbn [bind]. apply IH. apply (act_inv q k); assumption.
Qed.
Definition left_ (s : stage) : nat := match s with Enter => 6 | NeedMin _ _ => 5 | NeedMax _ _ _ => 4 | Solve _ => 3 | AtR _ => 2 | AtTested => 1 | Over => 0 end.
Definition left_at (q : shared) (k : nat) : nat := match nth_error (q_at q) k with Some s => left_ s | None => 0 end.
Lemma act_left q k q' j : act i k q = Ok q' -> (left_at q' j <= left_at q j - (if Nat.eq_dec k j then 1 else 0))%nat.
Proof.
  intros H. unfold QparModel.act in H. destruct (nth_error (q_at q) k) as [s|] eqn:Ek.
  2: { apply Ok_inj in H. subst q'. destruct (Nat.eq_dec k j) as [<-|N]; [|lia]. unfold left_at. rewrite Ek. lia. }
  pose proof (ParProofs.nth_lt _ _ _ Ek) as Lk.
  assert (G : forall q1 s', q_at q1 = ParModel.put k s' (q_at q) -> (left_ s' <= left_ s - 1)%nat -> (left_at q1 j <= left_at q j - (if Nat.eq_dec k j then 1 else 0))%nat).
  { intros q1 s' E B. unfold left_at. rewrite E. destruct (Nat.eq_dec k j) as [<-|N]; [rewrite ParProofs.put_same, Ek by assumption; assumption|rewrite ParProofs.put_other by congruence; lia]. }
  destruct s as [|dx dy|dx dy mn|rk|c| |].
  1-3: apply Ok_inj in H; subst q'; eapply G; [reflexivity|cbn; lia].
  - destruct (cand rk i (S k)) as [c| | |]; cbn [bind] in H; try discriminate. apply Ok_inj in H. subst q'. eapply G; [reflexivity|]. destruct c; cbn; lia.
  - apply Ok_inj in H. subst q'. eapply G; [reflexivity|cbn; lia].
  - apply Ok_inj in H. subst q'. eapply G; [reflexivity|cbn; lia].
  - apply Ok_inj in H. subst q'. destruct (Nat.eq_dec k j) as [<-|N]; [|lia]. unfold left_at. rewrite Ek. cbn. lia.
Qed.
Lemma acts_left sched : forall q q' j, acts i sched q = Ok q' -> (left_at q' j <= left_at q j - count_occ Nat.eq_dec sched j)%nat.
Proof.
  induction sched as [|k sched IH]; intros q q' j H; cbn [QparModel.acts count_occ] in H |- *; [apply Ok_inj in H; subst; lia|].
  destruct (act i k q) as [q1| | |] eqn:E; cbn [bind] in H; try discriminate. pose proof (act_left q k q1 j E) as A. pose proof (IH q1 q' j H) as B. destruct (Nat.eq_dec k j); lia.
Qed.
Lemma fair_over sched q : acts i sched (enter_loop i f) = Ok q -> (forall k, (k < i - 1)%nat -> (6 <= count_occ Nat.eq_dec sched k)%nat) -> all_over q = true.
Proof.
  intros H Hf. pose proof (acts_inv sched _ _ qinv_begin H) as (L & _). apply forallb_forall. intros s Hs. apply In_nth_error in Hs. destruct Hs as [k E]. pose proof (ParProofs.nth_lt _ _ _ E) as Lk.
  pose proof (acts_left sched _ _ k H) as B. assert (left_at (enter_loop i f) k <= 6)%nat. { unfold left_at. destruct (nth_error (q_at (enter_loop i f)) k) as [s0|] eqn:E0; [rewrite (enter_at k s0 E0); cbn; lia|lia]. }
  specialize (Hf k ltac:(lia)). unfold left_at at 1 in B. rewrite E in B. destruct s; cbn in B; reflexivity || lia.
Qed.
End Qpar.

Section Search.
Variable junk : R.
Variable solver : nat -> list (list R) -> list R -> option (list R).
Variable cond : list (list R) -> R.
Variable distance : rf -> option R.
Variable use_delta : bool.
Variable channels : list (list sample).
Variable f : rf.
Hypothesis Hok : forall i j, (0 < j < i)%nat -> exists c, candidate junk solver cond distance use_delta channels f i j = Ok c.
Notation search := (search junk solver cond distance use_delta channels).

Lemma search_ext order order' step max_n : (0 < step)%nat -> forall fuel i, (forall n, (i <= n)%nat -> order n = order' n) -> search order fuel i max_n step f = search order' fuel i max_n step f.
Proof.
  intros Hst. induction fuel as [|fuel IH]; intros i H; cbn [QuadModel.search]; [reflexivity|]. destruct (i <=? max_n)%nat; [|reflexivity]. rewrite (H i (le_n _)).
  destruct (parallel_for _ _ _ _ _ _ _ _ _ _) as [st| | |]; cbn [bind]; try reflexivity. destruct (n_delta st); [reflexivity|]. apply IH. intros n Hn. apply H. lia.
Qed.
Lemma par_search_order sched step max_n : (0 < step)%nat -> (forall i k, (k < i - 1)%nat -> (6 <= count_occ Nat.eq_dec (sched i) k)%nat) -> forall fuel i,
  exists order, schedule order /\ par_search junk solver cond distance use_delta channels sched fuel i max_n step f = search order fuel i max_n step f.
Proof.
  intros Hst Hfair. induction fuel as [|fuel IH]; intros i; cbn [par_search QuadModel.search].
  - exists (fun n => seq 1 (n - 1)). split; [intros n; apply Permutation_refl|reflexivity].
  - destruct (Nat.leb_spec i max_n) as [Hi|Hi]; [|exists (fun n => seq 1 (n - 1)); split; [intros n; apply Permutation_refl|reflexivity]].
    destruct (acts_safe junk solver cond distance use_delta channels f i (Hok i) (sched i) _ (qinv_begin junk solver cond distance use_delta channels f i)) as [q E]. rewrite E. cbn [bind].
    rewrite (fair_over junk solver cond distance use_delta channels f i (sched i) q E (Hfair i)).
    destruct (over_spec junk solver cond distance use_delta channels f i q) as (order & cs & P & Ha & Hp & _ & _ & _).
    { apply (acts_inv junk solver cond distance use_delta channels f i (sched i) (enter_loop i f)); [apply qinv_begin|assumption]. }
    { apply (fair_over junk solver cond distance use_delta channels f i (sched i) q E (Hfair i)). }
    destruct (IH (i + step)%nat) as (order' & Hs' & E').
    set (o := fun n => if (n =? i)%nat then order else order' n). exists o. split.
    + intros n. unfold o. destruct (Nat.eqb_spec n i) as [->|N]; [assumption|apply Hs'].
    + assert (Eo : o i = order) by (unfold o; rewrite Nat.eqb_refl; reflexivity). rewrite Eo, Hp. cbn [bind].
      destruct (n_delta (q_found q)) eqn:Ed; [reflexivity|].
      destruct (parallel_for_best junk solver cond distance use_delta channels f i order cs Ha) as (st & Est & H). rewrite Hp in Est. apply Ok_inj in Est. subst st.
      destruct H as [(_ & Hb & _)|(c & d & k & _ & _ & Hd & _)]; [|congruence]. rewrite Hb, E'. apply search_ext; [assumption|]. intros n Hn. unfold o. destruct (Nat.eqb_spec n i) as [->|N]; [lia|reflexivity].
Qed.
End Search.

(** Shared function objects (C95). *)
From Coq Require Import Reals List Lia Bool.
From Verif Require Import Base ParamsModel GeoModel CommonModel FuncModel FuncSpec FuncProofs PyModel PySpec.
Open Scope R_scope.

(** ** Objects *)
Lemma cell_at_lt cs : forall a c, cell_at cs a = Some c -> (a < length cs)%nat.
Proof. induction cs as [|d cs IH]; intros a c H; cbn [cell_at] in H; [discriminate|]. cbn [length]. destruct (Nat.eqb_spec a (length cs)) as [E|E]; [lia|]. specialize (IH _ _ H). lia. Qed.
Lemma cell_at_tail d cs a c : cell_at cs a = Some c -> cell_at (d :: cs) a = Some c.
Proof. intros H. pose proof (cell_at_lt _ _ _ H). cbn [cell_at]. destruct (Nat.eqb_spec a (length cs)); [lia|assumption]. Qed.
Lemma cell_at_new c cs : cell_at (c :: cs) (length cs) = Some c.
Proof. cbn [cell_at]. rewrite Nat.eqb_refl. reflexivity. Qed.

(** the leaves of [cs] have the sizes [sz] *)
Definition agrees (cs : list cell) (sz : loc -> nat) : Prop := forall b l, cell_at cs b = Some (CLeaf l) -> sz b = lf_nb l.
Lemma agrees_tail c cs sz : agrees (c :: cs) sz -> agrees cs sz.
Proof. intros H b l E. apply H. apply cell_at_tail. assumption. Qed.
Lemma total_app sz a b : total_size sz (a ++ b) = (total_size sz a + total_size sz b)%nat.
Proof. induction a as [|x a IH]; cbn [app total_size]; [reflexivity|]. rewrite IH. lia. Qed.

Lemma hnb_leaves cs : forall sz a, agrees cs sz -> hnb cs a = total_size sz (leaves cs a).
Proof.
  induction cs as [|c cs IH]; intros sz a Hs; [reflexivity|]. pose proof (agrees_tail _ _ _ Hs) as Ht. cbn [hnb leaves].
  destruct (Nat.eqb_spec a (length cs)) as [->|E]; [|apply IH; assumption].
  destruct c as [l|par fs|par x1 x2 b1 b2|par val]; [| | |reflexivity].
  - cbn [total_size]. rewrite (Hs (length cs) l) by apply cell_at_new. lia.
  - clear Hs. induction fs as [|[x b] fs IHf]; [reflexivity|]. cbn [fold_right flat_map fst snd]. rewrite total_app, IHf. destruct x; [reflexivity|]. rewrite (IH sz b Ht). reflexivity.
  - rewrite total_app. destruct x1, x2; cbn [total_size]; rewrite ?(IH sz b1 Ht), ?(IH sz b2 Ht); reflexivity.
Qed.

(** can the object be cast to a nonlinear_function? *)
Fixpoint nonlin (cs : list cell) (a : loc) : bool :=
  match cs with
  | [] => false
  | c :: cs' =>
      if Nat.eqb a (length cs') then
        match c with
        | CLeaf _ => true
        | CCompound _ fs => forallb (fun f : bool * loc => nonlin cs' (snd f)) fs
        | CProduct _ _ _ b1 b2 => nonlin cs' b1 && nonlin cs' b2
        | COther _ _ => false
        end
      else nonlin cs' a
  end.
Lemma nonlin_expand cs s : forall a, nonlin cs a = true <-> exists t, expand cs s a = Some t.
Proof.
  induction cs as [|c cs IH]; intros a; cbn [nonlin expand]; [split; [discriminate|intros (t & H); discriminate]|].
  destruct (Nat.eqb_spec a (length cs)) as [->|E]; [|apply IH].
  destruct c as [l|par fs|par x1 x2 b1 b2|par val].
  - split; [eexists; reflexivity|reflexivity].
  - assert (K : forallb (fun f : bool * loc => nonlin cs (snd f)) fs = true <->
      exists ts, all_some (map (fun f : bool * loc => match expand cs s (snd f) with Some t => Some (fst f, t) | None => None end) fs) = Some ts).
    { induction fs as [|[x b] fs IHf]; cbn [forallb map all_some fst snd]; [split; [eexists; reflexivity|reflexivity]|].
      rewrite andb_true_iff, IHf, (IH b). split.
      - intros [(t & Et) (ts & Es)]. rewrite Et, Es. eexists. reflexivity.
      - intros (ts & Es). destruct (expand cs s b) as [t|]; [|discriminate]. destruct (all_some _) as [r|]; [|discriminate]. split; eexists; reflexivity. }
    rewrite K. split; [intros (ts & Es); rewrite Es; eexists; reflexivity|]. intros (t & Et). destruct (all_some _) as [ts|]; [eexists; reflexivity|discriminate].
  - rewrite andb_true_iff, (IH b1), (IH b2). split; [intros [(t1 & E1) (t2 & E2)]; rewrite E1, E2; eexists; reflexivity|].
    intros (t & Et). destruct (expand cs s b1); [|discriminate]. destruct (expand cs s b2); [|discriminate]. split; eexists; reflexivity.
  - split; [discriminate|intros (t & H); discriminate].
Qed.
Lemma nonlin_lt cs : forall a, nonlin cs a = true -> (a < length cs)%nat.
Proof. induction cs as [|c cs IH]; intros a H; cbn [nonlin] in H; [discriminate|]. cbn [length]. destruct (Nat.eqb_spec a (length cs)); [lia|]. specialize (IH _ H). lia. Qed.
Lemma leaves_cell cs : forall a b, In b (leaves cs a) -> exists l, cell_at cs b = Some (CLeaf l).
Proof.
  induction cs as [|c cs IH]; intros a b H; cbn [leaves] in H; [destruct H|]. destruct (Nat.eqb_spec a (length cs)) as [->|E].
  - destruct c as [l|par fs|par x1 x2 b1 b2|par val].
    + destruct H as [<-|[]]. exists l. apply cell_at_new.
    + apply in_flat_map in H. destruct H as ([x d] & _ & H). destruct x; [destruct H|]. destruct (IH _ _ H) as (l & El). exists l. apply cell_at_tail. assumption.
    + apply in_app_or in H. destruct H as [H|H]; [destruct x1|destruct x2]; try (destruct H; fail); destruct (IH _ _ H) as (l & El); exists l; apply cell_at_tail; assumption.
    + destruct H.
  - destruct (IH _ _ H) as (l & El). exists l. apply cell_at_tail. assumption.
Qed.

(** ** Setting *)
(** writing the blocks of [v] into the leaves [ls], one after another *)
Fixpoint write (sz : loc -> nat) (ls : list loc) (v : list R) (s : loc -> list R) : loc -> list R :=
  match ls with [] => s | b :: ls' => write sz ls' (skipn (sz b) v) (put s b (firstn (sz b) v)) end.
Definition sized (cs : list cell) (s : loc -> list R) : Prop := forall b l, cell_at cs b = Some (CLeaf l) -> length (s b) = lf_nb l.

Lemma put_same s a p : put s a p a = p. Proof. unfold put. rewrite Nat.eqb_refl. reflexivity. Qed.
Lemma put_other s a p b : b <> a -> put s a p b = s b. Proof. unfold put. intros H. destruct (Nat.eqb_spec b a); [contradiction|reflexivity]. Qed.
Lemma write_app sz l1 : forall l2 v1 v2 s, length v1 = total_size sz l1 -> write sz (l1 ++ l2) (v1 ++ v2) s = write sz l2 v2 (write sz l1 v1 s).
Proof.
  induction l1 as [|b l1 IH]; intros l2 v1 v2 s Hl.
  - destruct v1; [reflexivity|discriminate].
  - cbn [total_size] in Hl. cbn [app write]. rewrite skipn_app, firstn_app. replace (sz b - length v1)%nat with 0%nat by lia. cbn [firstn skipn]. rewrite app_nil_r. apply IH. rewrite skipn_length. lia.
Qed.
Lemma write_ext sz ls : forall v s s', (forall b, s b = s' b) -> forall b, write sz ls v s b = write sz ls v s' b.
Proof.
  induction ls as [|d ls IH]; intros v s s' Hs b; [apply Hs|]. cbn [write]. apply IH. intros e. unfold put. destruct (Nat.eqb e d); [reflexivity|apply Hs].
Qed.
Lemma write_out sz ls : forall v s b, ~ In b ls -> write sz ls v s b = s b.
Proof. induction ls as [|d ls IH]; intros v s b H; [reflexivity|]. cbn [write]. rewrite IH by (intros K; apply H; right; exact K). apply put_other. intros ->. apply H. left. reflexivity. Qed.
Lemma write_last sz pre : forall b post v s, ~ In b post -> write sz (pre ++ b :: post) v s b = block sz pre b v.
Proof.
  induction pre as [|d pre IH]; intros b post v s H.
  - cbn [app write]. rewrite write_out by assumption. rewrite put_same. reflexivity.
  - cbn [app write]. rewrite IH by assumption. unfold block. cbn [total_size]. f_equal. clear. revert v. induction (sz d) as [|n IH]; intros v; [reflexivity|]. destruct v as [|x v]; [rewrite !skipn_nil; reflexivity|]. cbn [skipn plus]. apply IH.
Qed.
Lemma write_nothing cs sz ls : agrees cs sz -> (forall b, In b ls -> exists l, cell_at cs b = Some (CLeaf l)) -> total_size sz ls = 0%nat ->
  forall s, sized cs s -> forall b, write sz ls [] s b = s b.
Proof.
  intros Ha. induction ls as [|d ls IH]; intros Hc Ht s Hs b; [reflexivity|]. cbn [total_size] in Ht. cbn [write]. rewrite skipn_nil, firstn_nil.
  destruct (Hc d (or_introl eq_refl)) as (l & El). assert (Hd : s d = []) by (pose proof (Hs d l El) as L; rewrite <- (Ha d l El) in L; destruct (s d); [reflexivity|cbn [length] in L; lia]).
  assert (Hp : forall e, put s d [] e = s e) by (intros e; unfold put; destruct (Nat.eqb_spec e d) as [->|]; [symmetry; assumption|reflexivity]).
  rewrite (write_ext sz ls [] _ _ Hp). apply IH; [intros e He; apply Hc; right; exact He|lia|assumption].
Qed.
Lemma write_sized cs sz ls : agrees cs sz -> forall v s, sized cs s -> (total_size sz ls <= length v)%nat -> sized cs (write sz ls v s).
Proof.
  intros Ha. induction ls as [|d ls IH]; intros v s Hs Hv; [assumption|]. cbn [total_size] in Hv. cbn [write]. apply IH; [|rewrite skipn_length; lia].
  intros b l El. unfold put. destruct (Nat.eqb_spec b d) as [->|]; [|apply Hs; assumption]. rewrite firstn_length, <- (Ha d l El). lia.
Qed.
Lemma slice_all (v : list R) : slice v 0 (length v) = Ok v.
Proof. pose proof (slice_spec v [] []) as H. cbn [app length] in H. rewrite app_nil_r in H. exact H. Qed.

Lemma hset_write cs : forall sz a v s, agrees cs sz -> nonlin cs a = true -> length v = hnb cs a -> sized cs s ->
  exists s', hset cs a v s = Ok s' /\ forall b, s' b = write sz (leaves cs a) v s b.
Proof.
  induction cs as [|c cs IH]; intros sz a v s Ha Hn Hv Hs; [discriminate|]. pose proof (agrees_tail _ _ _ Ha) as Ht.
  assert (Hst : sized cs s) by (intros b l El; apply Hs; apply cell_at_tail; assumption).
  cbn [nonlin hnb hset leaves] in *. destruct (Nat.eqb_spec a (length cs)) as [->|E]; [|apply IH; assumption].
  destruct c as [l|par fs|par x1 x2 b1 b2|par val]; [| | |discriminate].
  - eexists. split; [reflexivity|]. intros b. cbn [write]. rewrite (Ha (length cs) l (cell_at_new _ _)), <- Hv, firstn_all. reflexivity.
  - set (nbf := fun fs : list (bool * loc) => fold_right (fun (f : bool * loc) n => (if fst f then 0 else hnb cs (snd f)) + n)%nat 0%nat fs) in *.
    assert (L : forall fs pre w s, forallb (fun f : bool * loc => nonlin cs (snd f)) fs = true -> length w = nbf fs -> sized cs s ->
      exists s', hset_loop (hnb cs) (hset cs) (pre ++ w) fs (length pre) s = Ok s' /\
        forall b, s' b = write sz (flat_map (fun f : bool * loc => if fst f then [] else leaves cs (snd f)) fs) w s b).
    { clear fs v s Ha Hn Hv Hs Hst. intros fs. induction fs as [|[x d] fs IHf]; intros pre w s Hn Hw Hs.
      - exists s. split; [reflexivity|]. destruct w; [|discriminate]. reflexivity.
      - cbn [forallb snd] in Hn. apply andb_true_iff in Hn. destruct Hn as [Hd Hn]. cbn [nbf fold_right fst snd] in Hw. fold (nbf fs) in Hw. cbn [hset_loop flat_map fst snd].
        destruct x; cbn [negb].
        + rewrite andb_false_r. cbn [app]. apply IHf; assumption.
        + rewrite andb_true_r. destruct (Nat.ltb_spec 0 (hnb cs d)) as [Hp|Hp].
          * set (w1 := firstn (hnb cs d) w). set (w2 := skipn (hnb cs d) w). assert (Ew : w = w1 ++ w2) by (symmetry; apply firstn_skipn).
            assert (L1 : length w1 = hnb cs d) by (unfold w1; rewrite firstn_length; lia). assert (L2 : length w2 = nbf fs) by (unfold w2; rewrite skipn_length; lia).
            rewrite Ew. rewrite (slice_spec' w1 pre w2 (hnb cs d) L1). cbn [bind].
            destruct (IH sz d w1 s Ht Hd L1 Hs) as (s1 & E1 & P1). rewrite E1. cbn [bind].
            assert (S1 : sized cs s1) by (intros b l El; rewrite P1; apply (write_sized cs sz (leaves cs d) Ht w1 s Hs); [rewrite L1, (hnb_leaves cs sz d Ht); lia|assumption]).
            destruct (IHf (pre ++ w1) w2 s1 Hn L2 S1) as (s2 & E2 & P2). rewrite app_length, L1 in E2. rewrite <- app_assoc in E2. exists s2. split; [exact E2|].
            intros b. rewrite P2. rewrite write_app by (rewrite L1; apply hnb_leaves; assumption). apply write_ext. exact P1.
          * assert (Z : hnb cs d = 0%nat) by lia. destruct (IHf pre w s Hn ltac:(rewrite Hw, Z; reflexivity) Hs) as (s' & E' & P'). exists s'. split; [exact E'|].
            intros b. rewrite P'. change w with ([] ++ w) at 2. rewrite write_app by (rewrite <- (hnb_leaves cs sz d Ht); symmetry; exact Z).
            apply write_ext. intros e. symmetry. apply (write_nothing cs); try assumption; [apply leaves_cell|]. rewrite <- (hnb_leaves cs sz d Ht). exact Z. }
    exact (L fs [] v s Hn Hv Hst).
  - apply andb_true_iff in Hn. destruct Hn as [H1 H2]. set (n1 := if x1 then 0%nat else hnb cs b1) in *. set (n2 := if x2 then 0%nat else hnb cs b2) in *.
    set (w1 := firstn n1 v). set (w2 := skipn n1 v). assert (Ew : v = w1 ++ w2) by (symmetry; apply firstn_skipn).
    assert (L1 : length w1 = n1) by (unfold w1; rewrite firstn_length; lia). assert (L2 : length w2 = n2) by (unfold w2; rewrite skipn_length; lia).
    assert (A1 : exists s1, (if x1 then Ok s else do q <- slice v 0 n1; hset cs b1 q s) = Ok s1 /\ forall b, s1 b = write sz (if x1 then [] else leaves cs b1) w1 s b).
    { unfold n1 in *. destruct x1; [exists s; split; reflexivity|]. rewrite Ew. pose proof (slice_spec' w1 [] w2 _ L1) as S1. cbn [app length] in S1. rewrite S1. cbn [bind]. apply IH; assumption. }
    destruct A1 as (s1 & E1 & P1). rewrite E1. cbn [bind].
    assert (T1 : length w1 = total_size sz (if x1 then [] else leaves cs b1)) by (rewrite L1; unfold n1; destruct x1; [reflexivity|apply hnb_leaves; assumption]).
    assert (S1 : sized cs s1) by (intros b l El; rewrite P1; apply (write_sized cs sz _ Ht w1 s Hst); [lia|assumption]).
    assert (A2 : exists s2, (if x2 then Ok s1 else do q <- slice v n1 (hnb cs b2); hset cs b2 q s1) = Ok s2 /\ forall b, s2 b = write sz (if x2 then [] else leaves cs b2) w2 s1 b).
    { unfold n2 in *. destruct x2; [exists s1; split; reflexivity|]. rewrite Ew. pose proof (slice_spec' w2 w1 [] _ L2) as S2. rewrite app_nil_r, L1 in S2. rewrite S2. cbn [bind]. apply IH; assumption. }
    destruct A2 as (s2 & E2 & P2). exists s2. split; [exact E2|]. intros b. rewrite P2, Ew, write_app by exact T1. apply write_ext. exact P1.
Qed.

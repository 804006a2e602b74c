(** Function trees: parameters (C26). *)
From Coq Require Import Reals List Lia Lra.
From Verif Require Import Base ParamsModel GeoModel CommonModel FuncModel FuncSpec.
Open Scope R_scope.

Section Ind.
Variable P : tree -> Prop.
Hypothesis HL : forall l p, P (Leaf l p).
Hypothesis HC : forall par fs, Forall (fun f => P (snd f)) fs -> P (Compound par fs).
Hypothesis HP : forall par x1 x2 f1 f2, P f1 -> P f2 -> P (Product par x1 x2 f1 f2).
Fixpoint tree_ind' (t : tree) : P t :=
  match t with
  | Leaf l p => HL l p
  | Compound par fs => HC par fs ((fix go fs : Forall (fun f => P (snd f)) fs :=
      match fs with [] => Forall_nil _ | f :: fs' => Forall_cons f (tree_ind' (snd f)) (go fs') end) fs)
  | Product par x1 x2 f1 f2 => HP par x1 x2 f1 f2 (tree_ind' f1) (tree_ind' f2)
  end.
End Ind.

(** ** Vectors *)
Lemma upd_length v : forall i x, length (upd v i x) = length v.
Proof. induction v as [|y v IH]; intros [|i] x; simpl; congruence. Qed.
Lemma upd_app_l a b i x : (i < length a)%nat -> upd (a ++ b) i x = upd a i x ++ b.
Proof. revert i. induction a as [|y a IH]; intros [|i] H; simpl in *; try lia; [reflexivity|]. rewrite IH by lia. reflexivity. Qed.
Lemma upd_app_r a b i x : upd (a ++ b) (length a + i) x = a ++ upd b i x.
Proof. induction a as [|y a IH]; simpl; [reflexivity|]. rewrite IH. reflexivity. Qed.
Lemma upd_same v : forall i, upd v i (nth i v 0) = v.
Proof. induction v as [|y v IH]; intros [|i]; simpl; try reflexivity. rewrite IH. reflexivity. Qed.
Lemma nth_upd v : forall i j x d, nth j (upd v i x) d = if (Nat.eqb i j && (j <? length v))%nat%bool then x else nth j v d.
Proof.
  induction v as [|y v IH]; intros i j x d.
  - cbn. destruct j; rewrite andb_false_r; reflexivity.
  - destruct i as [|i], j as [|j]; cbn; try reflexivity. rewrite IH. reflexivity.
Qed.
Lemma rd_app a y b : rd (a ++ y :: b) (length a) = Ok y.
Proof. unfold rd. rewrite nth_error_app2 by lia. rewrite Nat.sub_diag. reflexivity. Qed.
Lemma wr_app a y b x : wr (a ++ y :: b) (length a) x = Ok (a ++ x :: b).
Proof.
  unfold wr. rewrite app_length. simpl. destruct (Nat.ltb_spec (length a) (length a + S (length b))); [|lia].
  f_equal. replace (length a) with (length a + 0)%nat by lia. rewrite upd_app_r. reflexivity.
Qed.

Lemma blit_loop s2 : forall s1 pre mid post off, length pre = (length s1 + off)%nat -> length mid = length s2 ->
  for_ (length s2) (length s1) (fun i d => do x <- rd (s1 ++ s2) i; wr d (i + off) x) (pre ++ mid ++ post) = Ok (pre ++ s2 ++ post).
Proof.
  induction s2 as [|y s2 IH]; intros s1 pre mid post off Hp Hm; cbn [length for_].
  - destruct mid; [reflexivity|discriminate].
  - destruct mid as [|m mid]; [discriminate|]. rewrite rd_app. cbn [bind app].
    rewrite <- Hp. rewrite wr_app. cbn [bind].
    specialize (IH (s1 ++ [y]) (pre ++ [y]) mid post off).
    replace (length (s1 ++ [y])) with (S (length s1)) in IH by (rewrite app_length; simpl; lia).
    rewrite <- !app_assoc in IH. cbn [app] in IH. rewrite IH; [reflexivity| |].
    + rewrite app_length. simpl. lia.
    + simpl in Hm. lia.
Qed.
Lemma blit_spec pre mid post src n : length mid = n -> length src = n ->
  blit (pre ++ mid ++ post) (length pre) src n = Ok (pre ++ src ++ post).
Proof. intros <- H. unfold blit. rewrite <- H. apply (blit_loop src [] pre mid post (length pre)); [reflexivity|auto]. Qed.

Lemma slice_spec b : forall a c, slice (a ++ b ++ c) (length a) (length b) = Ok b.
Proof.
  induction b as [|y b IH]; intros a c; cbn [slice length]; [reflexivity|]. cbn [app]. rewrite rd_app. cbn [bind].
  specialize (IH (a ++ [y]) c). rewrite <- app_assoc in IH. cbn [app] in IH. rewrite app_length in IH. cbn [length] in IH.
  rewrite Nat.add_1_r in IH. rewrite IH. reflexivity.
Qed.
Lemma slice_spec' b a c n : length b = n -> slice (a ++ b ++ c) (length a) n = Ok b.
Proof. intros <-. apply slice_spec. Qed.
Lemma slice_short p off : forall n, (0 < n)%nat -> (length p < off + n)%nat -> slice p off n = Abort.
Proof.
  intros n. revert off. induction n as [|n IH]; intros off H0 H; [lia|]. cbn [slice]. unfold rd.
  destruct (nth_error p off) as [x|] eqn:E; [|reflexivity]. cbn [bind].
  assert (off < length p)%nat by (apply nth_error_Some; congruence).
  rewrite IH by lia. reflexivity.
Qed.

(** ** Collecting *)
Fixpoint flat (sel : leaf_fn -> list R -> list R) (t : tree) : list R :=
  match t with
  | Leaf l p => sel l p
  | Compound _ fs => flat_map (fun f : bool * tree => if fst f then [] else flat sel (snd f)) fs
  | Product _ x1 x2 f1 f2 => (if x1 then [] else flat sel f1) ++ (if x2 then [] else flat sel f2)
  end.
Definition sel_ok (sel : leaf_fn -> list R -> list R) : Prop := forall l p, leaf_ok l p -> length (sel l p) = lf_nb l.
Definition cur (l : leaf_fn) (p : list R) : list R := p.
Lemma sel_cur : sel_ok cur. Proof. intros l p H. apply H. Qed.
Lemma sel_min : sel_ok (fun l _ => lf_min l). Proof. intros l p H. apply H. Qed.
Lemma sel_max : sel_ok (fun l _ => lf_max l). Proof. intros l p H. apply H. Qed.

Definition nb_fs (fs : list (bool * tree)) : nat := fold_right (fun (f : bool * tree) n => (if fst f then 0 else nb (snd f)) + n)%nat 0%nat fs.
Definition flat_fs sel (fs : list (bool * tree)) := flat_map (fun f : bool * tree => if fst f then [] else flat sel (snd f)) fs.
Definition ok_fs (par : parameters) (fs : list (bool * tree)) : Prop :=
  fold_right (fun (f : bool * tree) P => (tree_ok (snd f) /\ dimY (par_of (snd f)) = dimY par) /\ P) True fs.

Lemma flat_length sel : sel_ok sel -> forall t, tree_ok t -> length (flat sel t) = nb t.
Proof.
  intros Hs. induction t as [l p|par fs IH|par x1 x2 f1 f2 IH1 IH2] using tree_ind'; intros Ht.
  - apply Hs. assumption.
  - cbn [flat nb]. cbn [tree_ok] in Ht. induction IH as [|f fs Hf _ IHfs]; [reflexivity|].
    destruct Ht as [[H1 _] H2]. cbn [flat_map fold_right]. rewrite app_length, IHfs by assumption.
    destruct (fst f); [reflexivity|]. rewrite Hf by assumption. reflexivity.
  - destruct Ht as (H1 & H2 & _). cbn [flat nb]. rewrite app_length. destruct x1, x2; rewrite ?IH1, ?IH2 by assumption; reflexivity.
Qed.
Lemma flat_fs_length sel par fs : sel_ok sel -> ok_fs par fs -> length (flat_fs sel fs) = nb_fs fs.
Proof. intros Hs H. exact (flat_length sel Hs (Compound par fs) H). Qed.

Section Junk.
Variable junk : R.

Lemma gather_loop_spec sel par fs : sel_ok sel -> ok_fs par fs ->
  Forall (fun f => tree_ok (snd f) -> gather junk sel (snd f) = Ok (flat sel (snd f))) fs ->
  forall pre mid, length mid = nb_fs fs ->
  gather_loop (gather junk sel) fs (length pre) (pre ++ mid) = Ok (pre ++ flat_fs sel fs).
Proof.
  intros Hs Hok IH. induction IH as [|[x f] fs Hf _ IHfs]; intros pre mid Hm.
  - destruct mid; [reflexivity|discriminate].
  - destruct Hok as [[H1 H2] H3]. cbn [fst snd] in *.
    cbn [gather_loop flat_fs flat_map fst snd]. cbn [nb_fs fold_right fst snd] in Hm. fold (nb_fs fs) in Hm.
    pose proof (flat_length sel Hs f H1) as Lf.
    destruct x; cbn [negb andb].
    + rewrite andb_false_r. cbn [app]. apply IHfs; assumption.
    + rewrite andb_true_r. destruct (Nat.ltb_spec 0 (nb f)) as [Hn|Hn].
      * rewrite Hf by assumption. cbn [bind].
        rewrite <- (firstn_skipn (nb f) mid). 
        rewrite blit_spec; [|rewrite firstn_length; lia|assumption]. cbn [bind].
        specialize (IHfs H3 (pre ++ flat sel f) (skipn (nb f) mid)).
        rewrite app_length, Lf in IHfs. rewrite <- app_assoc in IHfs. rewrite IHfs by (rewrite skipn_length; lia).
        rewrite <- app_assoc. reflexivity.
      * assert (flat sel f = []) as E by (destruct (flat sel f); [reflexivity|simpl in Lf; lia]).
        rewrite E. cbn [app]. apply IHfs; [assumption|lia].
Qed.

Lemma gather_spec sel : sel_ok sel -> forall t, tree_ok t -> gather junk sel t = Ok (flat sel t).
Proof.
  intros Hs. induction t as [l p|par fs IH|par x1 x2 f1 f2 IH1 IH2] using tree_ind'; intros Ht.
  - reflexivity.
  - cbn [gather]. change (repeat junk _) with ([] ++ repeat junk (nb_fs fs)).
    change 0%nat with (length (@nil R)). rewrite (gather_loop_spec sel par); auto.
    rewrite repeat_length. reflexivity.
  - destruct Ht as (H1 & H2 & _). specialize (IH1 H1). specialize (IH2 H2).
    pose proof (flat_length sel Hs f1 H1) as L1. pose proof (flat_length sel Hs f2 H2) as L2.
    cbn [gather flat nb]. destruct x1, x2; cbn [bind app plus].
    + reflexivity.
    + rewrite IH2. cbn [bind]. pose proof (blit_spec [] (repeat junk (nb f2)) [] (flat sel f2) (nb f2) (repeat_length _ _) L2) as B.
      rewrite !app_nil_r in B. cbn [app length] in B. exact B.
    + rewrite IH1. cbn [bind]. rewrite Nat.add_0_r.
      pose proof (blit_spec [] (repeat junk (nb f1)) [] (flat sel f1) (nb f1) (repeat_length _ _) L1) as B.
      rewrite !app_nil_r in *. cbn [app length] in B. rewrite B. reflexivity.
    + rewrite IH1. cbn [bind]. rewrite repeat_app.
      pose proof (blit_spec [] (repeat junk (nb f1)) (repeat junk (nb f2)) (flat sel f1) (nb f1) (repeat_length _ _) L1) as B.
      cbn [app length] in B. rewrite B. cbn [bind app]. rewrite IH2. cbn [bind].
      pose proof (blit_spec (flat sel f1) (repeat junk (nb f2)) [] (flat sel f2) (nb f2) (repeat_length _ _) L2) as B2.
      rewrite !app_nil_r, L1 in B2. exact B2.
Qed.
End Junk.

(** ** Slots *)
Lemma map_nth_seq l : map (fun i => nth i l 0) (seq 0 (length l)) = l.
Proof.
  induction l as [|x l IH]; [reflexivity|]. cbn [length seq map nth]. f_equal. rewrite <- seq_shift, map_map. exact IH.
Qed.
Lemma slots_flat sel (h : leaf_fn * list R * nat -> R) : sel_ok sel -> (forall l p i, h (l, p, i) = nth i (sel l p) 0) ->
  forall t, tree_ok t -> map h (slots t) = flat sel t.
Proof.
  intros Hs Hh. induction t as [l p|par fs IH|par x1 x2 f1 f2 IH1 IH2] using tree_ind'; intros Ht.
  - cbn [slots flat]. rewrite map_map. transitivity (map (fun i => nth i (sel l p) 0) (seq 0 (lf_nb l))).
    + apply List.map_ext. intros. apply Hh.
    + rewrite <- (Hs l p Ht). apply map_nth_seq.
  - cbn [slots flat]. cbn [tree_ok] in Ht. induction IH as [|f fs Hf _ IHfs]; [reflexivity|].
    destruct Ht as [[H1 _] H2]. cbn [flat_map]. rewrite map_app, IHfs by assumption.
    destruct (fst f); [reflexivity|]. rewrite Hf by assumption. reflexivity.
  - destruct Ht as (H1 & H2 & _). cbn [slots flat]. rewrite map_app. destruct x1, x2; cbn [map app]; rewrite ?IH1, ?IH2 by assumption; reflexivity.
Qed.

(** ** Setting *)
Definition similar (t t' : tree) : Prop := par_of t' = par_of t /\ nb t' = nb t /\ tree_ok t'.

Lemma free_refl_pair : forall t, free_change t t.
Proof.
  induction t as [l p|par fs IH|par x1 x2 f1 f2 IH1 IH2] using tree_ind'.
  - constructor.
  - constructor. induction IH as [|[x f] fs Hf _ IHfs]; [constructor|]. constructor; [destruct x; constructor|]; assumption.
  - constructor; [destruct x1|destruct x2]; constructor; auto.
Qed.

Lemma set_loop_spec par fs : ok_fs par fs ->
  Forall (fun f => forall p, tree_ok (snd f) -> length p = nb (snd f) ->
    exists t', set_parameters (snd f) p = Ok t' /\ similar (snd f) t' /\ flat cur t' = p /\ free_change (snd f) t') fs ->
  forall pre q post, length q = nb_fs fs ->
  exists gs, set_loop set_parameters (pre ++ q ++ post) fs (length pre) = Ok gs /\
    ok_fs par gs /\ nb_fs gs = nb_fs fs /\ flat_fs cur gs = q /\ free_changes fs gs.
Proof.
  intros Hok IH. induction IH as [|[x f] fs Hf _ IHfs]; intros pre q post Hq.
  - exists []. destruct q; [|discriminate]. repeat split. constructor.
  - destruct Hok as [[H1 H2] H3]. cbn [fst snd] in *.
    cbn [set_loop fst snd]. cbn [nb_fs fold_right fst snd] in Hq. fold (nb_fs fs) in Hq.
    assert (Skip : (if x then 0 else nb f)%nat = 0%nat ->
      exists gs, (do r <- set_loop set_parameters (pre ++ q ++ post) fs (length pre); Ok ((x, f) :: r)) = Ok gs /\
      ok_fs par gs /\ nb_fs gs = nb_fs ((x, f) :: fs) /\ flat_fs cur gs = q /\ free_changes ((x, f) :: fs) gs).
    { intros E. destruct (IHfs H3 pre q post ltac:(lia)) as (gs & E1 & E2 & E3 & E4 & E5).
      rewrite E1. cbn [bind]. exists ((x, f) :: gs). split; [reflexivity|].
      assert (F : (if x then [] else flat cur f) = []).
      { destruct x; [reflexivity|]. pose proof (flat_length cur sel_cur f H1). destruct (flat cur f); [reflexivity|simpl in *; lia]. }
      repeat split.
      - exact H1. 
      - exact H2.
      - exact E2.
      - cbn. fold (nb_fs gs) (nb_fs fs). rewrite E3. reflexivity.
      - cbn. rewrite F. exact E4.
      - constructor; [destruct x; constructor; apply free_refl_pair|assumption]. }
    destruct x; cbn [negb andb].
    + rewrite andb_false_r. apply Skip. reflexivity.
    + rewrite andb_true_r. destruct (Nat.ltb_spec 0 (nb f)) as [Hn|Hn]; [|apply Skip; lia].
      rewrite <- (firstn_skipn (nb f) q). set (a := firstn (nb f) q). set (b := skipn (nb f) q).
      assert (La : length a = nb f) by (unfold a; rewrite firstn_length; lia).
      assert (Lb : length b = nb_fs fs) by (unfold b; rewrite skipn_length; lia).
      rewrite <- app_assoc. rewrite (slice_spec' a _ _ (nb f)) by assumption. cbn [bind].
      destruct (Hf a H1 La) as (g & Eg & (S1 & S2 & S3) & Fg & Cg). rewrite Eg. cbn [bind].
      destruct (IHfs H3 (pre ++ a) b post Lb) as (gs & E1 & E2 & E3 & E4 & E5).
      rewrite app_length, La in E1. rewrite <- app_assoc in E1. rewrite E1. cbn [bind].
      exists ((false, g) :: gs). split; [reflexivity|]. repeat split.
      * exact S3.
      * cbn [snd]. rewrite S1. exact H2.
      * exact E2.
      * cbn. fold (nb_fs gs) (nb_fs fs). rewrite E3, S2. reflexivity.
      * cbn. fold (flat_fs cur gs). rewrite Fg, E4. reflexivity.
      * constructor; [constructor|]; assumption.
Qed.

Theorem set_spec : forall t p, tree_ok t -> length p = nb t ->
  exists t', set_parameters t p = Ok t' /\ similar t t' /\ flat cur t' = p /\ free_change t t'.
Proof.
  induction t as [l p0|par fs IH|par x1 x2 f1 f2 IH1 IH2] using tree_ind'; intros p Ht Hp.
  - eexists. split; [reflexivity|]. split; [|split; [reflexivity|constructor]].
    split; [reflexivity|]. split; [reflexivity|]. destruct Ht as (A & B & C & D). repeat split; auto; apply D; assumption.
  - destruct (set_loop_spec par fs Ht IH [] p [] Hp) as (gs & E1 & E2 & E3 & E4 & E5).
    rewrite app_nil_r in E1. cbn [app length] in E1. cbn [set_parameters]. rewrite E1. cbn [bind].
    eexists. split; [reflexivity|]. repeat split; auto. constructor. assumption.
  - destruct Ht as (H1 & H2 & H3 & H4). cbn [nb] in Hp.
    set (n1 := if x1 then 0%nat else nb f1) in *. set (n2 := if x2 then 0%nat else nb f2) in *.
    rewrite <- (firstn_skipn n1 p). set (a := firstn n1 p). set (b := skipn n1 p).
    assert (La : length a = n1) by (unfold a; rewrite firstn_length; lia).
    assert (Lb : length b = n2) by (unfold b; rewrite skipn_length; lia).
    assert (A1 : exists g1, (if x1 then Ok f1 else do q <- slice (a ++ b) 0 n1; set_parameters f1 q) = Ok g1 /\ similar f1 g1 /\
       (if x1 then [] else flat cur g1) = a /\ flagged_change x1 f1 g1).
    { unfold n1 in La |- *. destruct x1.
      - exists f1. split; [reflexivity|]. split; [repeat split; assumption|]. split; [destruct a; [reflexivity|discriminate]|constructor].
      - pose proof (slice_spec' a [] b (nb f1) La) as S. cbn [app length] in S. rewrite S. cbn [bind].
        destruct (IH1 a H1 La) as (g & X1 & X2 & X3 & X4). exists g. repeat (split; [assumption|]). constructor. assumption. }
    destruct A1 as (g1 & E1 & (P1 & N1 & O1) & F1 & C1).
    assert (A2 : exists g2, (if x2 then Ok f2 else do q <- slice (a ++ b) n1 (nb f2); set_parameters f2 q) = Ok g2 /\ similar f2 g2 /\
       (if x2 then [] else flat cur g2) = b /\ flagged_change x2 f2 g2).
    { unfold n2 in Lb. destruct x2.
      - exists f2. split; [reflexivity|]. split; [repeat split; assumption|]. split; [destruct b; [reflexivity|discriminate]|constructor].
      - pose proof (slice_spec' b a [] (nb f2) Lb) as S. rewrite app_nil_r, La in S. rewrite S. cbn [bind].
        destruct (IH2 b H2 Lb) as (g & X1 & X2 & X3 & X4). exists g. repeat (split; [assumption|]). constructor. assumption. }
    destruct A2 as (g2 & E2 & (P2 & N2 & O2) & F2 & C2).
    cbn [set_parameters]. fold n1. rewrite E1. cbn [bind]. rewrite E2. cbn [bind].
    eexists. split; [reflexivity|]. split; [|split; [cbn [flat]; rewrite F1, F2; reflexivity|constructor; assumption]].
    split; [reflexivity|]. split; [cbn [nb]; rewrite N1, N2; reflexivity|]. cbn [tree_ok]. rewrite P1, P2. auto.
Qed.

(** a vector that is too short is refused *)
Lemma set_get : forall junk t p, tree_ok t -> length p = nb t ->
  exists t', set_parameters t p = Ok t' /\ get_parameters junk t' = Ok p /\ nb t' = nb t /\ free_change t t'.
Proof.
  intros junk t p Ht Hp. destruct (set_spec t p Ht Hp) as (t' & E & (S1 & S2 & S3) & F & C).
  exists t'. split; [assumption|]. split; [|auto]. unfold get_parameters.
  change (fun _ p0 => p0) with cur. rewrite gather_spec by (auto using sel_cur). rewrite F. reflexivity.
Qed.

(** setting what is there changes nothing *)
Lemma set_same : forall t, tree_ok t -> set_parameters t (flat cur t) = Ok t.
Proof.
  induction t as [l p0|par fs IH|par x1 x2 f1 f2 IH1 IH2] using tree_ind'; intros Ht.
  - reflexivity.
  - cbn [set_parameters flat]. fold (flat_fs cur fs).
    assert (L : forall pre post, set_loop set_parameters (pre ++ flat_fs cur fs ++ post) fs (length pre) = Ok fs).
    { cbn [tree_ok] in Ht. fold (ok_fs par fs) in Ht. induction IH as [|[x f] fs Hf _ IHfs]; intros pre post; [reflexivity|].
      destruct Ht as [[H1 H2] H3]. cbn [fst snd] in *. cbn [set_loop fst snd flat_fs flat_map]. fold (flat_fs cur fs).
      pose proof (flat_length cur sel_cur f H1) as Lf.
      destruct x; cbn [negb andb].
      - rewrite andb_false_r. cbn [app]. rewrite IHfs by assumption. reflexivity.
      - rewrite andb_true_r. destruct (Nat.ltb_spec 0 (nb f)) as [Hn|Hn].
        + rewrite <- app_assoc. rewrite (slice_spec' (flat cur f) _ _ (nb f)) by assumption. cbn [bind]. rewrite Hf by assumption. cbn [bind].
          specialize (IHfs H3 (pre ++ flat cur f) post). rewrite app_length, Lf in IHfs. rewrite <- app_assoc in IHfs.
          rewrite IHfs. reflexivity.
        + assert (flat cur f = []) as E by (destruct (flat cur f); [reflexivity|simpl in Lf; lia]).
          rewrite E. cbn [app]. rewrite IHfs by assumption. reflexivity. }
    specialize (L [] []). rewrite app_nil_r in L. cbn [app length] in L. rewrite L. reflexivity.
  - destruct Ht as (H1 & H2 & H3 & H4). cbn [set_parameters flat].
    pose proof (flat_length cur sel_cur f1 H1) as L1. pose proof (flat_length cur sel_cur f2 H2) as L2.
    destruct x1, x2; cbn [bind app].
    + reflexivity.
    + pose proof (slice_spec (flat cur f2) [] []) as S. rewrite app_nil_r, L2 in S. cbn in S. rewrite S. cbn [bind]. rewrite IH2 by assumption. reflexivity.
    + rewrite app_nil_r. pose proof (slice_spec (flat cur f1) [] []) as S. rewrite app_nil_r, L1 in S. cbn in S. rewrite S. cbn [bind]. rewrite IH1 by assumption. reflexivity.
    + pose proof (slice_spec (flat cur f1) [] (flat cur f2)) as S. rewrite L1 in S. cbn in S. rewrite S. cbn [bind]. rewrite IH1 by assumption. cbn [bind].
      pose proof (slice_spec (flat cur f2) (flat cur f1) []) as S2. rewrite app_nil_r, L1, L2 in S2. rewrite S2. cbn [bind]. rewrite IH2 by assumption. reflexivity.
Qed.

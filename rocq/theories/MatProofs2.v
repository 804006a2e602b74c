From Coq Require Import Reals List Arith Lia Lra.
From Verif Require Import Base Num ParamsModel GeoModel ArgsModel DataModel TextModel FuncModel MonoModel MonoProofs FuncFile RatModel RatSpec RatProofs QuadModel QuadSpec QuadProofs QuadFit QuadSizes MatModel MatSpec MatProofs.
Import ListNotations.
Open Scope R_scope.

(** ** The sizes *)
Section Sizes.
Variable try_ : nat -> nat -> rf -> engine -> outcome (bool * rf * engine).
Definition paired (np nq : nat) (fe : rf * engine) : outcome (bool * (rf * engine)) :=
  do b <- try_ np nq (fst fe) (snd fe); let '(ok, f, e) := b in Ok (ok, (f, e)).
Definition size_pair (z : sizes) (k : nat) : nat * nat :=
  (size_at (z_min_np z) (z_max_np z) k, size_at (z_min_nq z) (z_max_nq z) k).
Definition rounds (z : sizes) : nat := Nat.max (width (z_min_np z) (z_max_np z)) (width (z_min_nq z) (z_max_nq z)).
Lemma size_next mn mx k : size_at mn mx (S k) = if (size_at mn mx k <=? mx)%nat then S (size_at mn mx k) else size_at mn mx k.
Proof.
  unfold size_at. destruct (Nat.leb_spec mn mx).
  - destruct (Nat.leb_spec (Nat.min (mn + k) (S mx)) mx); lia.
  - destruct (Nat.leb_spec mn mx); lia.
Qed.
Lemma size_0 mn mx : size_at mn mx 0 = mn.
Proof. unfold size_at. destruct (Nat.leb_spec mn mx); lia. Qed.
Lemma size_goes mn mx k : (size_at mn mx k <=? mx)%nat = (k <? width mn mx)%nat.
Proof.
  unfold size_at, width. destruct (Nat.leb_spec mn mx); destruct (Nat.ltb_spec k (S mx - mn)).
  - apply Nat.leb_le. lia.
  - apply Nat.leb_gt. lia.
  - lia.
  - apply Nat.leb_gt. lia.
Qed.
Lemma mat_sizes_spec z : forall n k f e fuel, (k + n = rounds z)%nat -> (n < fuel)%nat ->
  mat_sizes try_ fuel (fst (size_pair z k)) (snd (size_pair z k)) (z_max_np z) (z_max_nq z) f e =
  (do b <- first_success paired (List.map (size_pair z) (seq k n)) (f, e);
   Ok (Some (fst b, fst (snd b), snd (snd b)))).
Proof.
  induction n as [|n IH]; intros k f e [|fuel] Hk Hf; try lia; cbn [mat_sizes seq List.map first_success].
  - unfold size_pair at 1 2. cbn [fst snd]. rewrite !size_goes. unfold rounds in Hk.
    destruct (Nat.ltb_spec k (width (z_min_np z) (z_max_np z))); [lia|]. destruct (Nat.ltb_spec k (width (z_min_nq z) (z_max_nq z))); [lia|]. reflexivity.
  - assert (G : ((fst (size_pair z k) <=? z_max_np z) || (snd (size_pair z k) <=? z_max_nq z))%nat = true).
    { unfold size_pair. cbn [fst snd]. rewrite !size_goes. unfold rounds in Hk. apply Bool.orb_true_iff.
      destruct (Nat.ltb_spec k (width (z_min_np z) (z_max_np z))); [left; reflexivity|]. right. apply Nat.ltb_lt. lia. }
    rewrite G.
    assert (Ep : size_pair z k = (size_at (z_min_np z) (z_max_np z) k, size_at (z_min_nq z) (z_max_nq z) k)) by reflexivity.
    rewrite Ep. cbn [fst snd]. unfold paired at 1. cbn [fst snd].
    destruct (try_ _ _ f e) as [[[ok f'] e']| | |]; try reflexivity. cbn [bind fst snd]. destruct ok; [reflexivity|].
    rewrite <- !size_next. rewrite <- (IH (S k) f' e' fuel) by lia. reflexivity.
Qed.
End Sizes.

Lemma tried_pairs z : tried z = List.map (size_pair z) (seq 0 (rounds z)).
Proof. reflexivity. Qed.

Section Fit.
Variable junk : R.
Variable quadprog qpas : nat -> list (list R) -> list R -> option (list R * R).
Variable ratio : list (list R) -> option R.
Notation mat_1d := (mat_1d junk quadprog qpas ratio).
Notation mat_attempt := (mat_attempt junk quadprog qpas ratio).
Notation mat_fit := (mat_fit junk quadprog qpas ratio).
Definition attempts (um : bool) (channels : list (list sample)) (np nq : nat) (fe : rf * engine) : outcome (bool * (rf * engine)) :=
  do b <- mat_attempt um channels np nq (fst fe) (snd fe); let '(ok, f, e) := b in Ok (ok, (f, e)).

Lemma mat_fit_sizes um z mn mx channels fuel f e : (rounds z < fuel)%nat ->
  mat_fit true um z mn mx channels fuel f e =
  (do b <- first_success (attempts um channels) (tried z) (set_max (set_min f mn) mx, e);
   Ok (Some (fst b, fst (snd b), snd (snd b)))).
Proof.
  intros H. unfold MatModel.mat_fit.
  pose proof (mat_sizes_spec (mat_attempt um channels) z (rounds z) 0 (set_max (set_min f mn) mx) e fuel ltac:(lia) H) as E.
  unfold size_pair in E at 1 2. cbn [fst snd] in E. rewrite !size_0 in E. exact E.
Qed.

Lemma run_reliable channels : reliable quadprog -> Forall (fun ss => ss <> []) channels -> forall l f e, rf_ok f -> (length channels <= f_dimY f)%nat -> Forall (positions_ok (f_dimX f)) channels ->
  Forall (fun s => (0 < fst s)%nat /\ (0 < snd s)%nat) l ->
  exists b f' e', first_success (attempts true channels) l (f, e) = Ok (b, (f', e')) /\
    (b = true -> In (f_np f', f_nq f') l /\ f_dimX f' = f_dimX f /\ f_dimY f' = f_dimY f /\ f_min f' = f_min f /\ f_max f' = f_max f /\
       forall j ss, nth_error channels j = Some ss -> exists r, channel_of f' j r /\ Forall (passes r) ss) /\
    (b = false -> (forall A, ratio A <> None) -> complete_flag quadprog -> forall np nq, In (np, nq) l ->
       exists lo hi ss, widened (1 / 10) (f_min f) (f_max f) lo hi /\ In ss channels /\
         ~ exists a c, length a = np /\ length c = nq /\ Forall (interpolates (f_dimX f) lo hi a c) ss).
Proof.
  intros HR HN. induction l as [|[np nq] l IH]; intros f e Hf HL HP Hl; cbn [first_success].
  - do 3 eexists. split; [reflexivity|]. split; [discriminate|]. intros _ _ _ np nq [].
  - inversion Hl as [|? ? [H1 H2] Hl']; subst. cbn [fst snd] in H1, H2.
    destruct (attempt_reliable junk quadprog qpas ratio channels np nq f e HR Hf HL H1 H2 HP HN) as (b & f' & e' & E & D1 & D2 & D3 & D4 & D5 & D6 & HT & HF).
    unfold attempts at 1. cbn [fst snd]. rewrite E. cbn [bind fst snd]. destruct b.
    + do 3 eexists. split; [reflexivity|]. split; [|discriminate]. intros _. rewrite D5, D6. split; [left; reflexivity|]. repeat (split; [assumption|]). apply HT; reflexivity.
    + assert (Hf' : rf_ok f') by (destruct Hf as (A & B & C); unfold rf_ok; rewrite D1, D3, D4; auto).
      destruct (IH f' e') as (b & f2 & e2 & E2 & HT2 & HF2); [exact Hf'|rewrite D2; exact HL|rewrite D1; exact HP|exact Hl'|].
      rewrite E2. exists b, f2, e2. split; [reflexivity|]. split.
      * intros Hb. destruct (HT2 Hb) as (K1 & K2 & K3 & K4 & K5 & K6). split; [right; exact K1|]. repeat split; (congruence || exact K6).
      * intros Hb R1 R2 np' nq' [Heq|Hin].
        -- injection Heq as <- <-. apply HF; auto.
        -- rewrite <- D1, <- D3, <- D4. apply HF2; assumption.
Qed.

Lemma size_at_pos mn mx k : (0 < mn)%nat -> (0 < size_at mn mx k)%nat.
Proof. unfold size_at. destruct (mn <=? mx)%nat; lia. Qed.
Lemma mat_fit_reliable z mn mx channels fuel f e : reliable quadprog -> (0 < f_dimX f)%nat -> length mn = f_dimX f -> length mx = f_dimX f -> (length channels <= f_dimY f)%nat ->
  Forall (positions_ok (f_dimX f)) channels -> Forall (fun ss => ss <> []) channels -> (0 < z_min_np z)%nat -> (0 < z_min_nq z)%nat -> (length (tried z) < fuel)%nat ->
  exists b f' e', mat_fit true true z mn mx channels fuel f e = Ok (Some (b, f', e')) /\
    (b = true -> In (f_np f', f_nq f') (tried z) /\ f_dimX f' = f_dimX f /\ f_dimY f' = f_dimY f /\ f_min f' = mn /\ f_max f' = mx /\
       forall j ss, nth_error channels j = Some ss -> exists r, channel_of f' j r /\ Forall (passes r) ss) /\
    (b = false -> (forall A, ratio A <> None) -> complete_flag quadprog -> forall np nq, In (np, nq) (tried z) ->
       exists lo hi ss, widened (1 / 10) mn mx lo hi /\ In ss channels /\
         ~ exists a c, length a = np /\ length c = nq /\ Forall (interpolates (f_dimX f) lo hi a c) ss).
Proof.
  intros HR Hd Hm HM HL HP HN Z1 Z2 Hf. rewrite mat_fit_sizes by (rewrite tried_pairs, map_length, seq_length in Hf; exact Hf).
  destruct (run_reliable channels HR HN (tried z) (set_max (set_min f mn) mx) e) as (b & f' & e' & E & HT & HF).
  - split; [exact Hd|split; assumption].
  - exact HL.
  - exact HP.
  - rewrite tried_pairs. apply Forall_map, Forall_forall. intros k _. unfold size_pair. cbn [fst snd]. split; apply size_at_pos; assumption.
  - rewrite E. cbn [bind fst snd]. exists b, f', e'. split; [reflexivity|]. split; assumption.
Qed.

(** ** What the session remembers *)
Lemma error_reuses np nq x v err r ss : (forall A b, quadprog (np + nq)%nat A b = None) -> (forall A, ratio A <> None) ->
  well_formed r -> length (r_p r) = np -> length (r_q r) = nq -> (0 < nq)%nat -> positions_ok (r_dim r) ss -> ss <> [] ->
  let e := mkEngine (Some x) (Some v) err in
  (v < 0 -> mat_1d true np nq e r ss = Ok (false, r, e)) /\
  (0 <= v -> (length x < np + nq)%nat -> mat_1d true np nq e r ss = UB) /\
  (0 <= v -> forall a c rest, x = a ++ c ++ rest -> length a = np -> length c = nq ->
     exists r', update junk r a c = Ok r' /\ mat_1d true np nq e r ss = Ok (true, r', e)).
Proof.
  intros HQ Hr W Lp Lq Hq HP Hne e. rewrite (mat_1d_spec junk quadprog qpas ratio true np nq e r ss W Lp Lq ltac:(lia) HP Hne). cbv zeta.
  destruct (ratio _) as [d|] eqn:Er; [|destruct (Hr _ Er)]. unfold evaluate. rewrite HQ. unfold e. cbn [e_x e_flag].
  split; [|split].
  - intros Hv. apply rltb_spec in Hv. rewrite Hv. reflexivity.
  - intros Hv Hx. destruct (rltb v 0) eqn:Ev; [apply rltb_spec in Ev; lra|]. apply Nat.ltb_lt in Hx. rewrite Hx. reflexivity.
  - intros Hv a c rest -> La Lc. destruct (rltb v 0) eqn:Ev; [apply rltb_spec in Ev; lra|].
    destruct (Nat.ltb_spec (length (a ++ c ++ rest)) (np + nq)) as [C|_]; [rewrite !app_length in C; lia|].
    rewrite firstn_app, <- La, Nat.sub_diag, firstn_all. cbn [firstn]. rewrite app_nil_r.
    rewrite skipn_app, Nat.sub_diag, skipn_all. cbn [skipn app]. rewrite firstn_app, <- Lc, Nat.sub_diag, firstn_all. cbn [firstn]. rewrite app_nil_r.
    destruct (update_total junk r a c W) as [r' E]; [lia|lia|intros ->; cbn in Lc; lia|]. rewrite E. exists r'. split; reflexivity.
Qed.
Lemma no_memory_fails um np nq r ss : (forall A b, quadprog (np + nq)%nat A b = None) -> (forall A b, qpas (np + nq)%nat A b = None) ->
  well_formed r -> length (r_p r) = np -> length (r_q r) = nq -> (0 < nq)%nat -> positions_ok (r_dim r) ss -> ss <> [] ->
  mat_1d um np nq new_engine r ss = Ok (false, r, new_engine).
Proof.
  intros HQ HQ' W Lp Lq Hq HP Hne. rewrite (mat_1d_spec junk quadprog qpas ratio um np nq _ r ss W Lp Lq ltac:(lia) HP Hne). cbv zeta.
  destruct (ratio _) as [d|]; [|reflexivity]. unfold evaluate. rewrite HQ, HQ'. destruct um; reflexivity.
Qed.
(** the memory is the last answer *)
Lemma memory problems : forall e,
  let answers := List.map (fun p : nat * list (list R) * list R => let '(n, A, b) := p in quadprog n A b) problems in
  let e' := fold_left (fun e p => let '(n, A, b) := p in evaluate quadprog qpas true n A b e) problems e in
  e_x e' = last_answer (List.map (option_map fst) answers) (e_x e) /\
  e_flag e' = last_answer (List.map (option_map snd) answers) (e_flag e).
Proof.
  induction problems as [|[[n A] b] problems IH]; intros e; cbn [List.map fold_left last_answer]; [split; reflexivity|].
  cbv zeta in IH |- *. destruct (IH (evaluate quadprog qpas true n A b e)) as [H1 H2]. rewrite H1, H2. unfold evaluate.
  destruct (quadprog n A b) as [[x v]|]; cbn [option_map fst snd e_x e_flag]; split; reflexivity.
Qed.

(** ** qpas *)
Lemma qpas_always np nq r0 : (forall n A b, exists x err, qpas n A b = Some (x, err) /\ length x = n) -> (forall A, ratio A <> None) ->
  well_formed r0 -> length (r_p r0) = np -> length (r_q r0) = nq -> (0 < nq)%nat ->
  forall ss e, positions_ok (r_dim r0) ss -> ss <> [] -> exists r e', mat_1d false np nq e r0 ss = Ok (true, r, e').
Proof.
  intros HQ Hr W Lp Lq Hq ss e HP Hne. rewrite (mat_1d_spec junk quadprog qpas ratio false np nq e r0 ss W Lp Lq ltac:(lia) HP Hne). cbv zeta.
  destruct (ratio _) as [d|] eqn:Er; [|destruct (Hr _ Er)]. unfold evaluate.
  destruct (HQ (np + nq)%nat (flat_map (both_rows r0 np nq) ss) (bounds (margin d) (flat_map (both_rows r0 np nq) ss))) as (x & err & -> & Lx).
  cbn [e_x e_flag e_err].
  assert (Ev : rltb (if Req_EM_T err 0 then 1 else 0) 0 = false).
  { destruct (Req_EM_T err 0); destruct (rltb _ 0) eqn:E; try reflexivity; apply rltb_spec in E; lra. }
  rewrite Ev. destruct (Nat.ltb_spec (length x) (np + nq)) as [C|_]; [lia|].
  destruct (update_total junk r0 (firstn np x) (firstn nq (skipn np x)) W) as [r' Eu].
  - rewrite firstn_length; lia.
  - rewrite firstn_length, skipn_length; lia.
  - intros C. assert (L := f_equal (@length R) C). rewrite firstn_length, skipn_length in L. cbn in L. lia.
  - rewrite Eu. cbn [bind]. eauto.
Qed.
Lemma qpas_attempt channels np nq f e : (forall n A b, exists x err, qpas n A b = Some (x, err) /\ length x = n) -> (forall A, ratio A <> None) ->
  rf_ok f -> (length channels <= f_dimY f)%nat -> (0 < nq)%nat -> Forall (positions_ok (f_dimX f)) channels -> Forall (fun ss => ss <> []) channels ->
  exists f' e', mat_attempt false channels np nq f e = Ok (true, f', e').
Proof.
  intros HQ Hr Hf HL Hq HP HN. rewrite mat_attempt_spec by assumption. destruct Hf as (Hd & Hm & HM).
  destruct (fresh_wf junk (f_dimX f) np nq (f_min f) (f_max f) Hd Hm HM) as (W & D & L1 & L2 & _).
  assert (G : forall cs e, Forall (positions_ok (f_dimX f)) cs -> Forall (fun ss => ss <> []) cs ->
    exists rs e', mat_fits junk quadprog qpas ratio false np nq (fresh junk (f_dimX f) np nq (f_min f) (f_max f)) cs e = Ok (true, rs, e')).
  { induction cs as [|ss cs IH]; intros e0 H1 H2; cbn [mat_fits]; [eauto|]. inversion H1; subst. inversion H2; subst.
    destruct (qpas_always np nq _ HQ Hr W L1 L2 Hq ss e0) as (r & e1 & E); [rewrite D; assumption|assumption|]. rewrite E. cbn [bind].
    destruct (IH e1) as (rs & e2 & E2); try assumption. rewrite E2. cbn [bind]. eauto. }
  destruct (G channels e HP HN) as (rs & e' & E). rewrite E. cbn [bind]. eauto.
Qed.
End Fit.

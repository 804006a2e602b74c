From Coq Require Import Reals List Arith Lia Lra Permutation Bool.
From Verif Require Import Base Num ParamsModel GeoModel ArgsModel DataModel TextModel FuncModel MonoModel MonoProofs FuncFile RatModel RatSpec RatProofs QuadModel QuadSpec QuadProofs QuadFit.
Open Scope R_scope.

Lemma rltb_false a b : rltb a b = false <-> b <= a.
Proof.
  split.
  - intros H. apply Rnot_lt_le. intros C. apply rltb_spec in C. congruence.
  - intros H. destruct (rltb a b) eqn:E; [|reflexivity]. apply rltb_spec in E. lra.
Qed.

(** ** One evaluation *)
Definition nume (r : rf1) (s : sample) : R := polynomial (r_dim r) (r_min r) (r_max r) (getP r) (position s).
Definition deno (r : rf1) (s : sample) : R := polynomial (r_dim r) (r_min r) (r_max r) (getQ r) (position s).
Definition quot (r : rf1) (s : sample) : quotient :=
  if Req_EM_T (deno r s) 0 then if Req_EM_T (nume r s) 0 then NotANumber else Infinite else Fin (nume r s / deno r s).
Lemma quotient_at_spec r s : well_formed r -> length (position s) = r_dim r -> quotient_at r (position s) = Ok (quot r s).
Proof.
  intros (H & D & P & Q) Hx. unfold quotient_at. rewrite !combination_spec by assumption. cbn [bind]. rewrite !Rplus_0_l. reflexivity.
Qed.
Definition failing (r : rf1) (s : sample) : bool := fails (quot r s) (lower s) (upper s).
Definition dev_of (r : rf1) (s : sample) : option R := deviation (quot r s) (lower s) (upper s).
Lemma not_failing r s : well_formed r -> length (position s) = r_dim r -> failing r s = false -> within r s \/ undefined r s.
Proof.
  intros W Hx. unfold failing, quot. destruct (Req_EM_T (deno r s) 0) as [H0|H0].
  - destruct (Req_EM_T (nume r s) 0) as [H1|H1]; cbn [fails]; [intros _; right; split; assumption|discriminate].
  - cbn [fails]. intros H. apply orb_false_iff in H as [H1 H2]. apply rltb_false in H1, H2. left. split; [exact H0|].
    exists (nume r s / deno r s). split; [apply value1_spec; assumption|]. lra.
Qed.
Lemma failing_dev r s : ordered s -> failing r s = true -> dev_lt (Some 0) (dev_of r s) = true.
Proof.
  unfold ordered, failing, dev_of. destruct (quot r s) as [v| |]; cbn [fails deviation dev_lt]; intros Ho H; [|reflexivity|discriminate].
  apply rltb_spec. apply Rabs_pos_lt. apply orb_true_iff in H as [H|H]; apply rltb_spec in H; lra.
Qed.

(** ** The worst failure *)
Lemma dev_lt_refl a : dev_lt a a = false.
Proof. destruct a as [u|]; cbn; [apply rltb_false; lra|reflexivity]. Qed.
Lemma dev_lt_trans a b c : dev_lt a b = true -> dev_lt b c = true -> dev_lt a c = true.
Proof. destruct a as [u|], b as [v|], c as [w|]; cbn; try congruence. rewrite !rltb_spec. lra. Qed.
Lemma dev_nlt_trans a b c : dev_lt a b = true -> dev_lt b c = false -> dev_lt a c = true \/ dev_lt c b = true \/ b = c.
Proof.
  destruct a as [u|], b as [v|], c as [w|]; cbn; intros H1 H2; try congruence; auto.
  apply rltb_false in H2. destruct (Rle_lt_or_eq_dec w v H2) as [H|H]; [right; left; apply rltb_spec; lra|subst; auto].
Qed.

Section Par.
Variable junk : R.
Variable solver : nat -> list (list R) -> list R -> option (list R).
Variable cond : list (list R) -> R.

Lemma worst_spec np nq r : well_formed r -> length (r_p r) = np -> length (r_q r) = nq -> forall pool k nb md best, positions_ok (r_dim r) pool ->
  exists best', worst np nq r pool k nb md best = Ok ((nb + length (filter (failing r) pool))%nat, best') /\
    ((best' = best /\ forall s, In s pool -> failing r s = true -> dev_lt md (dev_of r s) = false) \/
     exists i s, nth_error pool i = Some s /\ failing r s = true /\ dev_lt md (dev_of r s) = true /\
       best' = Some ((k + i)%nat, (upper_row r np nq s, lower_row r np nq s)) /\
       (forall s', In s' pool -> failing r s' = true -> dev_lt (dev_of r s) (dev_of r s') = false)).
Proof.
  intros W Lp Lq. induction pool as [|s pool IH]; intros k nb md best HP.
  - exists best. cbn [worst filter length]. rewrite Nat.add_0_r. split; [reflexivity|]. left. split; [reflexivity|]. intros ? [].
  - pose proof (Forall_inv HP) as Hx. apply Forall_inv_tail in HP.
    assert (EW : worst np nq r (s :: pool) k nb md best =
      if failing r s then if dev_lt md (dev_of r s) then worst np nq r pool (S k) (S nb) (dev_of r s) (Some (k, (upper_row r np nq s, lower_row r np nq s)))
                          else worst np nq r pool (S k) (S nb) md best
      else worst np nq r pool (S k) nb md best).
    { destruct s as [[x yl] yu]. cbn [worst]. pose proof (quotient_at_spec r (x, yl, yu) W Hx) as E. cbn [position fst] in E. rewrite E. cbn [bind].
      unfold failing, dev_of. cbn [lower upper fst snd]. destruct (fails _ _ _); [|reflexivity]. destruct (dev_lt _ _); [|reflexivity].
      rewrite constraint_spec by assumption. reflexivity. }
    rewrite EW. cbn [filter]. destruct (failing r s) eqn:Ef.
    + cbn [length]. destruct (dev_lt md (dev_of r s)) eqn:Ed.
      * destruct (IH (S k) (S nb) (dev_of r s) (Some (k, (upper_row r np nq s, lower_row r np nq s))) HP) as (best' & E & H).
        exists best'. split; [rewrite E; f_equal; f_equal; lia|]. right. destruct H as [[-> H]|(i & s' & Hi & Hf & Hd & -> & H)].
        -- exists 0%nat, s. repeat split; auto. { f_equal. f_equal. lia. } intros s' [<-|Hs'] Hf'; [apply dev_lt_refl|auto].
        -- exists (S i), s'. repeat split; auto. { eapply dev_lt_trans; eassumption. } { f_equal. f_equal. lia. }
           intros s2 [<-|Hs2] Hf2; [|auto]. destruct (dev_lt (dev_of r s') (dev_of r s)) eqn:E2; [|reflexivity].
           pose proof (dev_lt_trans _ _ _ Hd E2) as C. rewrite dev_lt_refl in C. discriminate C.
      * destruct (IH (S k) (S nb) md best HP) as (best' & E & H).
        exists best'. split; [rewrite E; f_equal; f_equal; lia|]. destruct H as [[-> H]|(i & s' & Hi & Hf & Hd & -> & H)].
        -- left. split; [reflexivity|]. intros s' [<-|Hs'] Hf'; auto.
        -- right. exists (S i), s'. repeat split; auto. { f_equal. f_equal. lia. }
           intros s2 [<-|Hs2] Hf2; [|auto]. destruct (dev_lt (dev_of r s') (dev_of r s)) eqn:E2; [|reflexivity].
           rewrite (dev_lt_trans _ _ _ Hd E2) in Ed. discriminate.
    + destruct (IH (S k) nb md best HP) as (best' & E & H). exists best'. split; [exact E|]. destruct H as [[-> H]|(i & s' & Hi & Hf & Hd & -> & H)].
      * left. split; [reflexivity|]. intros s' [<-|Hs'] Hf'; [congruence|auto].
      * right. exists (S i), s'. repeat split; auto. { f_equal. f_equal. lia. } intros s2 [<-|Hs2] Hf2; [congruence|auto].
Qed.

Lemma remove_nth_perm {A} (l : list A) : forall i s, nth_error l i = Some s -> Permutation (s :: remove_nth i l) l.
Proof.
  induction l as [|x l IH]; intros [|i] s H; cbn in H; try discriminate; cbn [remove_nth].
  - injection H as ->. reflexivity.
  - rewrite perm_swap. constructor. apply IH. assumption.
Qed.

(** Either nothing fails, or the failing sample with the largest deviation
    becomes a constraint. *)
Lemma test_constraints_spec np nq r CI pool : well_formed r -> length (r_p r) = np -> length (r_q r) = nq -> positions_ok (r_dim r) pool -> Forall ordered pool ->
  (test_constraints np nq r CI pool = Ok None /\ Forall (fun s => failing r s = false) pool) \/
  (exists s pool', Permutation (s :: pool') pool /\ failing r s = true /\
     (forall s', In s' pool -> failing r s' = true -> dev_lt (dev_of r s) (dev_of r s') = false) /\
     test_constraints np nq r CI pool = Ok (Some (CI ++ [upper_row r np nq s; lower_row r np nq s], pool'))).
Proof.
  intros W Lp Lq HP HO. unfold test_constraints. destruct (worst_spec np nq r W Lp Lq pool 0%nat 0%nat (Some 0) None HP) as (best & E & H). rewrite E. cbn [bind].
  rewrite Nat.add_0_l. destruct H as [[-> H]|(i & s & Hi & Hf & Hd & -> & H)].
  - left. assert (HF : Forall (fun s => failing r s = false) pool).
    { apply Forall_forall. intros s Hs. destruct (failing r s) eqn:Ef; [|reflexivity]. rewrite Forall_forall in HO. exfalso. specialize (H s Hs Ef). rewrite (failing_dev r s (HO s Hs) Ef) in H. discriminate. }
    assert (E0 : filter (failing r) pool = []). { clear -HF. induction HF as [|s pool Hs _ IH]; cbn; [reflexivity|]. rewrite Hs. exact IH. }
    rewrite E0. cbn [length]. auto.
  - right. exists s, (remove_nth i pool). split; [apply remove_nth_perm; assumption|]. split; [assumption|]. split; [assumption|].
    assert (Hin : In s (filter (failing r) pool)) by (apply filter_In; split; [eapply nth_error_In; eassumption|assumption]).
    destruct (filter (failing r) pool) as [|z t]; [destruct Hin|]. cbn [length fst snd]. reflexivity.
Qed.

(** ** The rows of the samples in use *)
Definition rows (r : rf1) (np nq : nat) (U : list sample) : list (list R) := flat_map (fun s => [upper_row r np nq s; lower_row r np nq s]) U.
Definition same_domain (r r' : rf1) : Prop := r_dim r' = r_dim r /\ r_min r' = r_min r /\ r_max r' = r_max r.
Lemma rows_same r r' np nq U : same_domain r r' -> rows r' np nq U = rows r np nq U.
Proof. intros (A & B & C). unfold rows, upper_row, lower_row, monos. rewrite A, B, C. reflexivity. Qed.
Lemma rows_length r np nq U : length (rows r np nq U) = (2 * length U)%nat.
Proof. induction U as [|s U IH]; cbn [rows flat_map app length]; [reflexivity|]. fold (rows r np nq U). rewrite IH. lia. Qed.
Lemma rows_app r np nq U V : rows r np nq (U ++ V) = rows r np nq U ++ rows r np nq V.
Proof. apply flat_map_app. Qed.
Lemma rows_cols r np nq U : Forall (fun col => length col = (np + nq)%nat) (rows r np nq U).
Proof.
  induction U as [|s U IH]; cbn [rows flat_map app]; [constructor|]. constructor; [apply upper_row_length|]. constructor; [apply lower_row_length|exact IH].
Qed.
Lemma rows_feasible delta r np nq U x : feasible (rows r np nq U) (List.map (fun c => - delta * sqrt (norm2 c)) (rows r np nq U)) x <-> Forall (margins delta r np nq x) U.
Proof.
  unfold feasible. induction U as [|s U IH]; cbn [rows flat_map app List.map]; [split; constructor|]. fold (rows r np nq U). split.
  - intros H. inversion H as [|? ? ? ? H1 H']; subst. inversion H' as [|? ? ? ? H2 H'']; subst. constructor; [split; lra|]. apply IH. exact H''.
  - intros H. pose proof (Forall_inv H) as [H1 H2]. constructor; [lra|]. constructor; [lra|]. apply IH. exact (Forall_inv_tail H).
Qed.

Lemma updated r a b r' : well_formed r -> length a = length (r_p r) -> length b = length (r_q r) -> update junk r a b = Ok r' ->
  well_formed r' /\ same_domain r r' /\ length (r_p r') = length (r_p r) /\ length (r_q r') = length (r_q r).
Proof.
  intros W La Lb E. destruct b as [|b_0 b]; [discriminate E|].
  destruct (update_spec junk r a b_0 b W La Lb) as (r'' & E' & W' & D1 & D2 & D3 & G1 & G2 & V). assert (r'' = r') by congruence. subst r''.
  split; [assumption|]. split; [split; [assumption|split; assumption]|].
  assert (K : length (getP r') = length a /\ length (getQ r') = length (b_0 :: b)).
  { destruct (Rlt_or_le (1 / 10 ^ 16) (Rabs b_0)) as [Hb|Hb]; [destruct (G1 Hb) as [-> ->]|destruct (G2 Hb) as [-> ->]]; cbn [length]; rewrite ?map_length; auto. }
  unfold getP, getQ in K. rewrite !map_length in K. lia.
Qed.
Lemma perm_positions d U V : Permutation U V -> positions_ok d U -> positions_ok d V.
Proof. intros P. unfold positions_ok. rewrite !Forall_forall. intros H s Hs. apply H. eapply Permutation_in; [apply Permutation_sym; exact P|exact Hs]. Qed.

Hypothesis Hsound : sound solver.

(** [U]: samples in use, [pool]: the others, [ss]: all of them *)
Lemma qp_loop_spec use_delta np nq ss r0 : (0 < np)%nat -> (0 < nq)%nat -> well_formed r0 -> positions_ok (r_dim r0) ss -> Forall ordered ss ->
  (use_delta = true -> forall CI, 0 < cond CI) -> forall n pool U r delta solved fuel, length pool = n -> (n < fuel)%nat -> 0 < delta ->
  U <> [] -> Permutation (U ++ pool) ss -> well_formed r -> same_domain r0 r -> length (r_p r) = np -> length (r_q r) = nq ->
  exists b r' delta' solved', qp_loop junk solver cond fuel use_delta np nq (length ss) r (rows r0 np nq U) pool delta solved = Ok (Some (b, r', delta', solved')) /\
    (solved < solved' <= solved + S n)%nat /\ 0 < delta' /\ well_formed r' /\ same_domain r0 r' /\ length (r_p r') = np /\ length (r_q r') = nq /\
    (use_delta = false -> delta' = delta) /\
    if b then exists added rest, Permutation ((U ++ added) ++ rest) ss /\ S (length added + solved) = solved' /\
                Forall (passes r') (U ++ added) /\ Forall (fun s => within r' s \/ undefined r' s) rest
    else (complete solver -> ~ exists a b, length a = np /\ length b = nq /\ Forall (interpolates (r_dim r0) (r_min r0) (r_max r0) a b) ss) \/
         (0 < n /\ solved' = solved + n)%nat.
Proof.
  intros Hnp Hnq W0 HP0 HO Hcond. induction n as [|n IH]; intros pool U r delta solved [|fuel] Hn Hfu Hdel HU Hperm W SD Lp Lq; try lia.
  all: cbn [qp_loop]; rewrite !(rows_same r0 r np nq U SD) || idtac.
  all: set (dl := if use_delta then cond (rows r0 np nq U) else delta).
  all: assert (Hdl : 0 < dl) by (unfold dl; destruct use_delta; [apply Hcond; reflexivity|assumption]).
  all: assert (Hdf : use_delta = false -> dl = delta) by (unfold dl; intros ->; reflexivity).
  all: destruct (solver (np + nq) (rows r0 np nq U) (List.map (fun c => - dl * sqrt (norm2 c)) (rows r0 np nq U))) as [x|] eqn:Es.
  (* no solution *)
  all: try (exists false, r, dl, (S solved); split; [reflexivity|]; split; [lia|]; split; [assumption|]; split; [assumption|]; split; [assumption|];
            split; [assumption|]; split; [assumption|]; split; [assumption|];
            left; intros Hc (a & b & La & Lb & HI);
            assert (HIU : Forall (interpolates (r_dim r0) (r_min r0) (r_max r0) a b) U)
              by (rewrite Forall_forall in HI |- *; intros s Hs; apply HI; apply (Permutation_in _ Hperm); apply in_or_app; left; exact Hs);
            set (y := List.map Ropp (a ++ b));
            assert (HF : Forall (fun s => 0 < dot (upper_row r0 np nq s) y /\ 0 < dot (lower_row r0 np nq s) y) U);
            [ eapply Forall_impl; [|exact HIU]; intros s (D & L & Up); fold (num r0 a s) in *; fold (num r0 b s) in *;
              unfold y; rewrite <- La, <- Lb;
              assert (Hopp : forall c, dot c (List.map Ropp (a ++ b)) = - dot c (a ++ b))
                by (intros c; replace (List.map Ropp (a ++ b)) with (List.map (fun v => -1 * v) (a ++ b)) by (apply List.map_ext; intros; lra); rewrite dot_scale_r; lra);
              rewrite !Hopp, upper_row_dot, lower_row_dot; assert (Ev : num r0 a s = num r0 a s / num r0 b s * num r0 b s) by (field; lra);
              set (v := num r0 a s / num r0 b s) in *; rewrite Ev; clearbody v; split; nra
            | destruct (margins_scale dl r0 np nq y U HF) as (T & HT & HM); specialize (HM T (Rle_refl T)); apply rows_feasible in HM;
              refine (Hc _ _ _ _ (rows_cols r0 np nq U) _ HM Es); unfold y; rewrite !map_length, app_length; lia ]).
  (* a solution *)
  all: destruct (Hsound _ _ _ _ (rows_cols r0 np nq U) Es) as [Lx Fx]; apply rows_feasible in Fx.
  all: assert (La : length (firstn np x) = np) by (rewrite firstn_length; lia).
  all: assert (Lb : length (skipn np x) = nq) by (rewrite skipn_length; lia).
  all: destruct (update_total junk r (firstn np x) (skipn np x) W) as [r1 Er]; [lia|lia|intros C; rewrite C in Lb; cbn in Lb; lia|].
  all: rewrite Er; cbn [bind].
  all: destruct (updated r (firstn np x) (skipn np x) r1 W ltac:(lia) ltac:(lia) Er) as (W1 & SD1 & Lp1 & Lq1).
  all: assert (SD01 : same_domain r0 r1) by (destruct SD as (?&?&?), SD1 as (?&?&?); split; [congruence|split; congruence]).
  all: assert (HPU : positions_ok (r_dim r0) (U ++ pool)) by (eapply perm_positions; [apply Permutation_sym; exact Hperm|exact HP0]).
  all: assert (HPr : r_dim r1 = r_dim r0 /\ r_dim r = r_dim r0) by (destruct SD as (?&?&?), SD01 as (?&?&?); split; congruence).
  all: destruct HPr as [HD1 HD].
  all: assert (HPU1 : positions_ok (r_dim r0) U /\ positions_ok (r_dim r0) pool) by (apply Forall_app; exact HPU).
  all: destruct HPU1 as [HPU1 HPP].
  all: assert (Hpass : Forall (passes r1) U) by
    (rewrite Forall_forall in Fx |- *; intros s Hs; assert (M := Fx s Hs); rewrite <- (firstn_skipn np x) in M;
     assert (Hs' : length (position s) = r_dim r) by (rewrite HD; unfold positions_ok in HPU1; rewrite Forall_forall in HPU1; auto);
     assert (En : forall c, num r0 c s = num r c s) by (intros c; destruct SD as (A1 & A2 & A3); unfold num; rewrite A1, A2, A3; reflexivity);
     destruct (margins_strict _ _ _ _ _ _ _ Hdl Hnp La Lb M) as [H1 H2]; rewrite !En in H1, H2;
     eapply (updated_passes junk r (firstn np x) (skipn np x)); eauto; lia).
  all: assert (Hnz : rltb 0 (norm2 x) = true) by
    (apply rltb_spec; rewrite norm2_dot; destruct U as [|s U]; [congruence|]; apply Forall_inv in Fx as [Up _];
     pose proof (upper_row_norm r0 np nq s Hnp) as N1;
     assert (S1 : 1 <= sqrt (norm2 (upper_row r0 np nq s))) by (rewrite <- sqrt_1; apply sqrt_le_1; lra);
     destruct (Rle_lt_or_eq_dec 0 (dot x x) (dot_self_nonneg x)) as [|H0]; [assumption|]; symmetry in H0; rewrite (dot_self_zero x H0) in Up; nra).
  all: rewrite Hnz.
  all: assert (HOP : Forall ordered pool) by (rewrite Forall_forall in HO |- *; intros s Hs; apply HO; apply (Permutation_in _ Hperm); apply in_or_app; right; exact Hs).
  all: assert (Hok : Forall (fun s => failing r1 s = false) pool -> Forall (fun s => within r1 s \/ undefined r1 s) pool) by
    (intros HF; rewrite Forall_forall in HF |- *; intros s Hs; apply not_failing; [assumption| |auto]; rewrite HD1; unfold positions_ok in HPP; rewrite Forall_forall in HPP; auto).
  all: assert (HPP1 : positions_ok (r_dim r1) pool) by (rewrite HD1; exact HPP).
  all: destruct (test_constraints_spec np nq r1 (rows r0 np nq U) pool W1 ltac:(lia) ltac:(lia) HPP1 HOP) as [[Et HF]|(s & pool' & Pp & Hf & Hw & Et)]; rewrite Et; cbn [bind].
  1, 3: exists true, r1, dl, (S solved); split; [reflexivity|]; split; [lia|]; split; [assumption|]; split; [assumption|]; split; [assumption|];
        split; [lia|]; split; [lia|]; split; [assumption|]; exists [], pool; rewrite app_nil_r; split; [assumption|]; split; [reflexivity|]; split; [assumption|auto].
  - destruct pool; [|discriminate]. apply Permutation_length in Pp. discriminate.
  - assert (Lpool : length pool' = n) by (apply Permutation_length in Pp; cbn in Pp; lia).
    assert (Lss : length ss = (length U + S n)%nat) by (rewrite <- (Permutation_length Hperm), app_length; lia).
    assert (ER : rows r0 np nq U ++ [upper_row r1 np nq s; lower_row r1 np nq s] = rows r0 np nq (U ++ [s])).
    { rewrite rows_app. f_equal. cbn [rows flat_map app]. unfold upper_row, lower_row, monos. destruct SD01 as (A1 & A2 & A3). rewrite A1, A2, A3. reflexivity. }
    rewrite ER, rows_length, app_length. cbn [length].
    assert (Hperm' : Permutation ((U ++ [s]) ++ pool') ss). { rewrite <- app_assoc. cbn [app]. rewrite Pp. exact Hperm. }
    destruct (Nat.ltb_spec (2 * (length U + 1)) (2 * length ss)) as [Hlt|Hge].
    + destruct (IH pool' (U ++ [s]) r1 dl (S solved) fuel) as (b & r' & d' & s' & E & H1 & H2 & H3 & H4 & H5 & H6 & H7 & H8); try assumption; try lia.
      { destruct U; discriminate. }
      exists b, r', d', s'. split; [exact E|]. split; [lia|]. split; [assumption|]. split; [assumption|]. split; [assumption|]. split; [assumption|]. split; [assumption|].
      split; [intros Hu; rewrite H7 by assumption; auto|]. destruct b.
      * destruct H8 as (added & rest & P8 & L8 & F8 & G8). exists (s :: added), rest. rewrite <- app_assoc in P8, F8. cbn [app] in P8, F8.
        split; [|split; [cbn [length]; lia|split; assumption]]. rewrite <- app_assoc. rewrite <- app_assoc in P8. cbn [app] in *. exact P8.
      * destruct H8 as [H8|[H8 H9]]; [left; assumption|right; lia].
    + exists false, r1, dl, (S solved). split; [reflexivity|]. split; [lia|]. split; [assumption|]. split; [assumption|]. split; [assumption|]. split; [lia|]. split; [lia|]. split; [assumption|].
      right. lia.
Qed.
End Par.

From Coq Require Import Reals List Lra.
From Verif Require Import Base CommonModel TextModel ConvModel MomModel MomSpec.
From Verif Require Import ConvProofs.
From Verif Require NlGrad.
Open Scope R_scope.

Lemma sum_0 f : sum_to 0 f = 0.
Proof. reflexivity. Qed.
Lemma sum_S n f : sum_to (S n) f = f 0%nat + sum_to n (fun i => f (S i)).
Proof. unfold sum_to. cbn [seq List.map fold_right]. f_equal. rewrite <- seq_shift, List.map_map. reflexivity. Qed.
Lemma sum_last n : forall f, sum_to (S n) f = sum_to n f + f n.
Proof.
  induction n; intros f; [unfold sum_to; cbn; lra|]. rewrite sum_S, (IHn (fun i => f (S i))), (sum_S n f). lra.
Qed.
Lemma sum_ext n : forall f g, (forall i, (i < n)%nat -> f i = g i) -> sum_to n f = sum_to n g.
Proof. induction n; intros f g H; [reflexivity|]. rewrite !sum_last, (IHn f g), H by (intros; try apply H; lia). reflexivity. Qed.
Lemma sum_plus n f g : sum_to n (fun i => f i + g i) = sum_to n f + sum_to n g.
Proof. induction n; [unfold sum_to; cbn; lra|]. rewrite !sum_last, IHn. lra. Qed.
Lemma sum_scale n c f : sum_to n (fun i => c * f i) = c * sum_to n f.
Proof. induction n; [unfold sum_to; cbn; lra|]. rewrite !sum_last, IHn. lra. Qed.
Lemma sum_const n c : sum_to n (fun _ => c) = INR n * c.
Proof. induction n; [unfold sum_to; cbn; lra|]. rewrite sum_last, IHn, S_INR. lra. Qed.
Lemma sum_swap n m (f : nat -> nat -> R) : sum_to n (fun i => sum_to m (f i)) = sum_to m (fun j => sum_to n (fun i => f i j)).
Proof.
  induction n.
  - rewrite sum_0, (sum_ext m _ (fun _ => 0)); [rewrite sum_const; lra|intros; apply sum_0].
  - rewrite sum_last, IHn, <- sum_plus. apply sum_ext. intros. rewrite sum_last. reflexivity.
Qed.
Lemma sum_add n m f : sum_to (n + m) f = sum_to n f + sum_to m (fun i => f (n + i)%nat).
Proof.
  induction m; [rewrite Nat.add_0_r; rewrite sum_0; lra|]. rewrite Nat.add_succ_r, !sum_last, IHm. lra.
Qed.
Lemma sum_blocks s p f : sum_to (p * s) f = sum_to p (fun q => sum_to s (fun i => f (q * s + i)%nat)).
Proof. induction p; [reflexivity|]. rewrite sum_last, <- IHp, Nat.mul_comm, Nat.mul_succ_r, sum_add, (Nat.mul_comm s p). reflexivity. Qed.
Lemma sum_digits s p (g : nat -> nat -> R) : (0 < s)%nat -> sum_to (s * p) (fun t => g (t mod s)%nat (t / s)%nat) = sum_to s (fun i => sum_to p (g i)).
Proof.
  intros Hs. rewrite Nat.mul_comm, sum_blocks, sum_swap. apply sum_ext. intros i Hi. apply sum_ext. intros q Hq.
  rewrite (Nat.add_comm (q * s)), Nat.mod_add, Nat.div_add, Nat.mod_small, Nat.div_small by lia. reflexivity.
Qed.
Lemma sum_le n f g : (forall i, (i < n)%nat -> f i <= g i) -> sum_to n f <= sum_to n g.
Proof.
  induction n; intros H; [unfold sum_to; cbn; lra|]. rewrite !sum_last. apply Rplus_le_compat; [apply IHn; intros|]; apply H; lia.
Qed.

(** ** the positions *)
Fixpoint ndigits (g : nat) (ns : list nat) : list nat := match ns with [] => [] | n :: ns' => (g mod n)%nat :: ndigits (g / n)%nat ns' end.
Lemma digits_nat ns : forall g, Forall (fun n => 0 < n)%nat ns -> digits (Z.of_nat g) (List.map Z.of_nat ns) = List.map Z.of_nat (ndigits g ns).
Proof.
  induction ns as [|n ns IH]; intros g H; [reflexivity|]. inversion_clear H. cbn [digits List.map ndigits].
  rewrite Z.rem_mod_nonneg, Z.quot_div_nonneg, <- Nat2Z.inj_mod, <- Nat2Z.inj_div, IH by (try assumption; lia). reflexivity.
Qed.
(** the samples per dimension that are used *)
Definition counts (axes : list axis) : list nat := List.map count axes.
Lemma domain_counts lo : forall hi ns, Forall (fun n => 0 < n)%nat ns -> Forall (fun n => 0 < n)%nat (counts (domain lo hi ns)).
Proof.
  induction lo as [|a lo IH]; intros [|b hi] [|n ns] H; cbn; try constructor; inversion_clear H; [destruct (Rlt_dec a b); cbn; lia|apply IH; assumption].
Qed.
Lemma position_grid axes : Forall (fun n => 0 < n)%nat (counts axes) -> forall F : list R -> R,
  sum_to (fold_right Nat.mul 1%nat (counts axes)) (fun t => F (position (List.map low axes) (List.map high axes) (List.map Z.of_nat (counts axes)) (List.map Z.of_nat (ndigits t (counts axes))))) = grid_sum axes F.
Proof.
  induction axes as [|a axes IH]; intros H F.
  - cbn. unfold sum_to. cbn. lra.
  - inversion_clear H. cbn [counts List.map fold_right]. fold (counts axes).
    pose (G := fun i q => F (tick a i :: position (List.map low axes) (List.map high axes) (List.map Z.of_nat (counts axes)) (List.map Z.of_nat (ndigits q (counts axes))))).
    rewrite (sum_ext _ _ (fun t => G (t mod count a)%nat (t / count a)%nat)).
    + rewrite sum_digits by assumption. cbn [grid_sum]. apply sum_ext. intros i Hi. apply (IH H1 (fun x => F (tick a i :: x))).
    + intros t Ht. subst G. cbn [ndigits List.map position]. unfold tick. rewrite <- !INR_IZR_INZ. reflexivity.
Qed.
Lemma position_length lo : forall hi ss is, length hi = length lo -> length ss = length lo -> length is = length lo -> length (position lo hi ss is) = length lo.
Proof. induction lo; intros [|] [|] [|] H1 H2 H3; cbn in *; try discriminate; [reflexivity|]. f_equal. apply IHlo; lia. Qed.
Lemma domain_spec lo : forall hi ns, length hi = length lo -> length ns = length lo ->
  List.map low (domain lo hi ns) = lo /\ List.map high (domain lo hi ns) = hi /\ length (domain lo hi ns) = length lo.
Proof.
  induction lo as [|a lo IH]; intros [|b hi] [|n ns] H1 H2; cbn in *; try discriminate; [auto|].
  injection H1 as H1. injection H2 as H2. destruct (IH hi ns H1 H2) as (E1 & E2 & E3). rewrite E1, E2, E3. auto.
Qed.
Lemma ndigits_length ns : forall g, length (ndigits g ns) = length ns.
Proof. induction ns; intros; cbn; [reflexivity|f_equal; apply IHns]. Qed.

(** ** the volume *)
Lemma mul_pos_list l : Forall (fun n => 0 < n)%nat l -> (0 < fold_right Nat.mul 1 l)%nat.
Proof. induction 1; cbn; [lia|]. apply Nat.mul_pos_pos; assumption. Qed.
Lemma volume_ok lo : forall hi ns dt nb, length hi = length lo -> length ns = length lo -> Forall (fun n => 0 < n)%nat ns -> (0 < nb)%Z ->
  (nb * Z.of_nat (fold_right Nat.mul 1%nat (counts (domain lo hi ns))) <= 2147483647)%Z ->
  exists vol, volume (length lo) lo hi (List.map Z.of_nat ns) dt nb =
    Ok (vol, (nb * Z.of_nat (fold_right Nat.mul 1%nat (counts (domain lo hi ns))))%Z, List.map Z.of_nat (counts (domain lo hi ns))) /\
    vol = dt * (cell (domain lo hi ns) * INR (fold_right Nat.mul 1%nat (counts (domain lo hi ns)))).
Proof.
  induction lo as [|a lo IH]; intros [|b hi] [|n ns] dt nb H1 H2 Hp Hnb Hmax; cbn [length] in H1, H2; try discriminate.
  - exists dt. cbn. split; [do 2 f_equal; f_equal; lia|unfold cell, product; cbn; lra].
  - injection H1 as H1. injection H2 as H2. inversion_clear Hp.
    assert (Pp := mul_pos_list _ (domain_counts lo hi ns H0)).
    cbn [domain counts List.map fold_right count] in *. fold (counts (domain lo hi ns)) in *. set (P := fold_right Nat.mul 1%nat (counts (domain lo hi ns))) in *.
    cbn [volume length List.map].
    destruct (Rlt_dec a b) as [Lt|Ge].
    + destruct (NlGrad.rltb_dec 0 (b - a)) as [_|X]; [|exfalso; lra].
      assert (B : int_ok (nb * Z.of_nat n) = true) by (unfold int_ok; apply andb_true_iff; split; apply Z.leb_le; nia).
      rewrite B. destruct (IH hi ns (dt * (b - a)) (nb * Z.of_nat n)%Z H1 H2 H0 ltac:(nia)) as (vol & E & V).
      { rewrite Nat2Z.inj_mul in Hmax. subst P. lia. }
      exists vol. rewrite E. cbn [bind]. fold P. split.
      * do 2 f_equal. f_equal. rewrite Nat2Z.inj_mul. lia.
      * rewrite V. fold P. unfold cell. cbn [List.map product fold_right]. fold (product (List.map (fun a0 => if Rlt_dec (low a0) (high a0) then (high a0 - low a0) / INR (count a0) else 1) (domain lo hi ns))). cbn [low high count].
        destruct (Rlt_dec a b); [|contradiction]. rewrite mult_INR. assert (INR n <> 0) by (apply not_0_INR; lia). field. assumption.
    + destruct (NlGrad.rltb_dec 0 (b - a)) as [X|_]; [exfalso; lra|].
      destruct (IH hi ns dt nb H1 H2 H0 Hnb) as (vol & E & V).
      { rewrite Nat.mul_1_l in Hmax. exact Hmax. }
      exists vol. rewrite E. cbn [bind]. fold P. split.
      * do 2 f_equal. f_equal. rewrite Nat.mul_1_l. reflexivity.
      * rewrite V. fold P. unfold cell. cbn [List.map product fold_right]. fold (product (List.map (fun a0 => if Rlt_dec (low a0) (high a0) then (high a0 - low a0) / INR (count a0) else 1) (domain lo hi ns))). cbn [low high count].
        destruct (Rlt_dec a b); [contradiction|]. rewrite Nat.mul_1_l. lra.
Qed.

(** ** the least values *)
Lemma min_channels_ok nX nY rows : forall m, length m = (nX + nY)%nat -> Forall (fun r => length r = (nX + nY)%nat) rows ->
  exists m', min_channels nX nY rows m = Ok m' /\ length m' = (nX + nY)%nat /\ forall c, (c < nY)%nat -> least (m :: rows) (nX + c) (nth (nX + c) m' 0).
Proof.
  induction rows as [|r rows IH]; intros m Hm Hr.
  - exists m. split; [reflexivity|]. split; [assumption|]. intros c Hc. split; [exists m; split; [left; reflexivity|reflexivity]|]. intros r [<-|[]]. lra.
  - inversion_clear Hr. cbn [min_channels]. rewrite Hm, H, Nat.ltb_irrefl. cbn [orb].
    set (m1 := firstn nX m ++ _). assert (L1 : length m1 = (nX + nY)%nat) by (subst m1; rewrite app_length, List.map_length, seq_length, firstn_length; lia).
    destruct (IH m1 L1 H0) as (m' & E & L & P). exists m'. split; [assumption|]. split; [assumption|]. intros c Hc.
    assert (N1 : nth (nX + c) m1 0 = Rmin (nth (nX + c) m 0) (nth (nX + c) r 0)).
    { subst m1. rewrite app_nth2 by (rewrite firstn_length; lia). replace (nX + c - length (firstn nX m))%nat with c by (rewrite firstn_length; lia). apply (nth_map_seq (fun j => Rmin (nth (nX + j) m 0) (nth (nX + j) r 0))). assumption. }
    destruct (P c Hc) as [(r0 & I0 & E0) B]. assert (B1 := B m1 (or_introl eq_refl)). rewrite N1 in B1. split.
    + destruct I0 as [<-|I0]; [|exists r0; split; [right; right|]; assumption]. rewrite N1 in E0. unfold Rmin in E0. destruct (Rle_dec _ _); [exists m; split; [left; reflexivity|assumption]|exists r; split; [right; left; reflexivity|assumption]].
    + intros q [<-|[<-|Iq]]; [eapply Rle_trans; [exact B1|apply Rmin_l]|eapply Rle_trans; [exact B1|apply Rmin_r]|apply B; right; assumption].
Qed.
Lemma get_min_ok nX nY rows : rows <> [] -> Forall (fun r => length r = (nX + nY)%nat) rows ->
  exists m, get_min nX nY rows = Ok m /\ length m = (nX + nY)%nat /\ forall c, (c < nY)%nat -> least rows (nX + c) (nth (nX + c) m 0).
Proof. destruct rows as [|r rows]; [intros []; reflexivity|]. intros _ H. inversion_clear H. apply min_channels_ok; assumption. Qed.
Lemma least_unique rows c m m' : least rows c m -> least rows c m' -> m = m'.
Proof. intros [(r & I & E) B] [(r' & I' & E') B']. apply Rle_antisym; [rewrite <- E'|rewrite <- E]; auto. Qed.

(** ** the sums *)
Lemma nth_checked_in l i : (i < length l)%nat -> nth_checked l i = Ok (nth i l 0).
Proof. intros H. unfold nth_checked. rewrite (nth_error_nth' l 0 H). reflexivity. Qed.
Lemma at_index_nat l i : (i < length l)%nat -> at_index l (Z.of_nat i) = Ok (nth i l 0).
Proof. intros H. unfold at_index. destruct (Z.ltb_spec (Z.of_nat i) 0); [lia|]. rewrite Nat2Z.id. apply nth_checked_in. assumption. Qed.
Lemma add_terms_nth a : forall b j, length a = length b -> nth j (add_terms a b) 0 = nth j a 0 + nth j b 0.
Proof. induction a as [|x a IH]; intros [|y b] [|j] H; cbn in *; try discriminate; try lra; apply IH; lia. Qed.
Lemma add_terms_length a : forall b, length a = length b -> length (add_terms a b) = length a.
Proof. induction a as [|x a IH]; intros [|y b] H; cbn in *; try discriminate; [reflexivity|]. f_equal. apply IH. lia. Qed.

Section Sums.
Variable nX nY : nat.
Variable val : list R -> outcome (list R).
Variable f : list R -> list R.
Variable lo hi dmin : list R.
Variable dx dy : nat.
Hypothesis Hval : forall x, length x = nX -> val x = Ok (f x) /\ length (f x) = nY.
Hypothesis Hd : length dmin = (nX + nY)%nat.
Hypothesis Hdx : (dx < nX)%nat.
Hypothesis Hdy : (dy < nX)%nat.

Lemma channels_ok dt x y acc : forall k, length x = nX -> (k + length acc <= nY)%nat -> length y = nY -> Forall (fun m => length m = 15%nat) acc ->
  channels_step nX dmin (Z.of_nat dx) (Z.of_nat dy) dt x y k acc =
    Ok (List.map (fun cm => add_terms (snd cm) (terms ((nth (fst cm) y 0 - nth (nX + fst cm) dmin 0) * dt) (nth dx x 0) (nth dy x 0))) (combine (seq k (length acc)) acc)).
Proof.
  induction acc as [|m acc IH]; intros k Hx Hk Hy Ha; [reflexivity|]. cbn [length] in Hk. inversion_clear Ha. cbn [channels_step].
  rewrite !nth_checked_in by lia. cbn [bind]. rewrite !at_index_nat by lia. cbn [bind]. rewrite IH by (try assumption; lia). reflexivity.
Qed.
Definition contribution (c j : nat) (dt : R) (x : list R) : R := nth j (terms ((nth c (f x) 0 - nth (nX + c) dmin 0) * dt) (nth dx x 0) (nth dy x 0)) 0.
Lemma integrate_ok dt ss n : length lo = nX -> length hi = nX -> length ss = nX -> forall i acc, length acc = nY -> Forall (fun m => length m = 15%nat) acc ->
  exists acc', integrate nX val lo hi dmin (Z.of_nat dx) (Z.of_nat dy) dt ss n i acc = Ok acc' /\ length acc' = nY /\ Forall (fun m => length m = 15%nat) acc' /\
    forall c j, (c < nY)%nat -> nth j (nth c acc' []) 0 = nth j (nth c acc []) 0 + sum_to n (fun t => contribution c j dt (position lo hi ss (digits (i + Z.of_nat t) ss))).
Proof.
  intros Hlo Hhi Hss. induction n; intros i acc Hl Ha.
  - exists acc. split; [reflexivity|]. split; [assumption|]. split; [assumption|]. intros. unfold sum_to. cbn. lra.
  - cbn [integrate]. set (x := position lo hi ss (digits i ss)).
    assert (Ld : forall l g, length (digits g l) = length l) by (induction l; intros; cbn; [reflexivity|f_equal; auto]).
    assert (Lx : length x = nX) by (subst x; rewrite position_length; rewrite ?Ld; congruence).
    destruct (Hval x Lx) as [Ev Lf]. rewrite Ev. cbn [bind]. rewrite channels_ok by (try assumption; lia). cbn [bind].
    set (acc1 := List.map _ _). assert (L1 : length acc1 = nY) by (subst acc1; rewrite List.map_length, combine_length, seq_length; lia).
    assert (N1 : forall c, (c < nY)%nat -> nth c acc1 [] = add_terms (nth c acc []) (terms ((nth c (f x) 0 - nth (nX + c) dmin 0) * dt) (nth dx x 0) (nth dy x 0)) /\ length (nth c acc []) = 15%nat).
    { intros c Hc. split.
      - subst acc1. set (F := fun cm : nat * list R => _). rewrite nth_indep with (d' := F (0%nat, [])) by (rewrite List.map_length, combine_length, seq_length; lia).
        rewrite map_nth, combine_nth by (rewrite seq_length; reflexivity). rewrite seq_nth by lia. reflexivity.
      - rewrite Forall_forall in Ha. apply Ha. apply nth_In. lia. }
    assert (A1 : Forall (fun m => length m = 15%nat) acc1).
    { apply Forall_forall. intros m Im. destruct (In_nth _ _ [] Im) as (c & Hc & <-). rewrite L1 in Hc. destruct (N1 c Hc) as [-> Hlen]. rewrite add_terms_length; [assumption|]. rewrite Hlen. reflexivity. }
    destruct (IHn (i + 1)%Z acc1 L1 A1) as (acc' & E & L & A & P). exists acc'. split; [assumption|]. split; [assumption|]. split; [assumption|]. intros c j Hc.
    rewrite (P c j Hc), sum_S. destruct (N1 c Hc) as [-> Hlen]. rewrite add_terms_nth by (rewrite Hlen; reflexivity). rewrite Rplus_assoc. f_equal. f_equal.
    + unfold contribution, x. rewrite Z.add_0_r. reflexivity.
    + apply sum_ext. intros t Ht. do 3 f_equal. lia.
Qed.
End Sums.

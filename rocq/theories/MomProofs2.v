From Coq Require Import Reals List Lra.
From Verif Require Import Base CommonModel TextModel ConvModel MomModel MomSpec ConvProofs MomProofs.
From Verif Require NlGrad.
Open Scope R_scope.

Lemma grid_ext axes : forall F G, (forall x, length x = length axes -> F x = G x) -> grid_sum axes F = grid_sum axes G.
Proof. induction axes as [|a axes IH]; intros F G H; cbn; [apply H; reflexivity|]. apply sum_ext. intros i _. apply IH. intros x Hx. apply H. cbn. congruence. Qed.
Lemma grid_scale axes : forall c F, grid_sum axes (fun x => c * F x) = c * grid_sum axes F.
Proof. induction axes as [|a axes IH]; intros c F; cbn; [reflexivity|]. rewrite <- sum_scale. apply sum_ext. intros i _. apply (IH c (fun x => F (tick a i :: x))). Qed.
Lemma grid_plus axes : forall F G, grid_sum axes (fun x => F x + G x) = grid_sum axes F + grid_sum axes G.
Proof. induction axes as [|a axes IH]; intros F G; cbn; [reflexivity|]. rewrite <- sum_plus. apply sum_ext. intros i _. apply (IH (fun x => F (tick a i :: x)) (fun x => G (tick a i :: x))). Qed.

Lemma terms_power v x y j : (j < 10)%nat -> nth j (terms v x y) 0 = v * x ^ fst (nth j exponents (0, 0)%nat) * y ^ snd (nth j exponents (0, 0)%nat).
Proof. intros H. do 10 (destruct j as [|j]; [cbn; ring|]). lia. Qed.
Lemma label_of j : (j < 10)%nat -> nth j labels [] = label (fst (nth j exponents (0, 0)%nat)) (snd (nth j exponents (0, 0)%nat)).
Proof. intros H. do 10 (destruct j as [|j]; [reflexivity|]). lia. Qed.
Lemma normalise_nth m j : length m = 15%nat -> (j < 10)%nat -> nth j (normalise m) None = match j with O => Some (nth 0 m 0) | _ => ratio (nth j m 0) (nth 0 m 0) end.
Proof.
  destruct m as [|m0 m]; [discriminate|]. intros L H. cbn [length] in L. destruct j as [|j]; [reflexivity|]. cbn [normalise nth].
  rewrite nth_indep with (d' := (fun v => ratio v m0) 0) by (rewrite List.map_length; lia). apply (map_nth (fun v => ratio v m0)).
Qed.

Lemma wanted_ok nX samples dims ns dx dy : wanted nX samples dims ns dx dy ->
  length ns = nX /\ get_samples nX samples = Ok (List.map Z.of_nat ns) /\ get_dims dims = Ok (Z.of_nat dx, Z.of_nat dy).
Proof.
  intros [[[-> L]|[-> ->]] D]; (split; [rewrite ?repeat_length; auto|]); split.
  - cbn. rewrite List.map_length, L, Nat.eqb_refl. reflexivity.
  - destruct D as [->|[-> [-> ->]]]; reflexivity.
  - cbn. f_equal. induction nX; [reflexivity|]. cbn [repeat List.map]. rewrite IHnX. reflexivity.
  - destruct D as [->|[-> [-> ->]]]; reflexivity.
Qed.

Section Main.
Variable nX nY : nat.
Variable lo hi : list R.
Variable rows : list (list R).
Variable f : list R -> list R.
Variable ns : list nat.
Variable dx dy : nat.
Variable m : nat -> R.
Hypothesis Hf : forall x, length x = nX -> length (f x) = nY.
Hypothesis Hlo : length lo = nX.
Hypothesis Hhi : length hi = nX.
Hypothesis Hrows : rows <> [].
Hypothesis Hr : Forall (fun r => length r = (nX + nY)%nat) rows.
Hypothesis Hm : forall c, (c < nY)%nat -> least rows (nX + c) (m c).
Hypothesis Hn : Forall (fun n => 0 < n)%nat ns.
Hypothesis Hdx : (dx < nX)%nat.
Hypothesis Hdy : (dy < nX)%nat.
Hypothesis Hmax : (Z.of_nat (fold_right Nat.mul 1%nat (List.map count (domain lo hi ns))) <= 2147483647)%Z.

Notation above_least := (above_least f m).
Lemma moments_ok val samples dims : (forall x, length x = nX -> val x = Ok (f x)) -> wanted nX samples dims ns dx dy ->
  data2moments (Interpolant nX nY lo hi rows val) samples dims =
    Ok (0%Z, Some (List.map (line (domain lo hi ns) (List.map above_least (seq 0 nY)) dx dy) exponents)).
Proof.
  intros Hval Hw. destruct (wanted_ok _ _ _ _ _ _ Hw) as (Ln & Es & Ed). cbn [data2moments]. rewrite Es, Ed. cbn [bind fst snd].
  destruct (get_min_ok nX nY rows Hrows Hr) as (dmin & Em & Lm & Pm). rewrite Em. cbn [bind].
  destruct (domain_spec lo hi ns ltac:(congruence) ltac:(congruence)) as (D1 & D2 & D3). set (axes := domain lo hi ns) in *.
  assert (Hc := domain_counts lo hi ns Hn). fold axes in Hc.
  destruct (volume_ok lo hi ns 1 1%Z ltac:(congruence) ltac:(congruence) Hn ltac:(lia)) as (vol & Ev & Vv). { rewrite Z.mul_1_l. exact Hmax. }
  fold axes in Ev, Vv. rewrite Hlo in Ev. rewrite Ev. cbn [bind]. rewrite Z.mul_1_l, Nat2Z.id. set (P := fold_right Nat.mul 1%nat (counts axes)) in *.
  assert (Pp := mul_pos_list _ Hc). fold P in Pp.
  assert (Edt : vol / IZR (Z.of_nat P) = cell axes). { rewrite Vv, <- INR_IZR_INZ. assert (INR P <> 0) by (apply not_0_INR; lia). field. assumption. } rewrite Edt.
  destruct (integrate_ok nX nY val f lo hi dmin dx dy (fun x Hx => conj (Hval x Hx) (Hf x Hx)) Lm Hdx Hdy (cell axes) (List.map Z.of_nat (counts axes)) P Hlo Hhi) with (i := 0%Z) (acc := repeat (repeat 0 15) nY) as (acc & Ei & La & Fa & Pa).
  { unfold counts. rewrite !List.map_length. congruence. } { apply repeat_length. } { apply Forall_forall. intros x Ix. apply repeat_spec in Ix. subst x. reflexivity. }
  rewrite Ei. cbn [bind]. do 3 f_equal.
  assert (Hacc : forall c j, (c < nY)%nat -> (j < 10)%nat -> nth j (nth c acc []) 0 = raw_moment axes (above_least c) dx dy (fst (nth j exponents (0, 0)%nat)) (snd (nth j exponents (0, 0)%nat))).
  { intros c j Hcn Hj. rewrite (Pa c j Hcn).
    replace (nth j (nth c (repeat (repeat 0 15) nY) []) 0) with 0.
    2:{ rewrite nth_indep with (d' := repeat 0 15) by (rewrite repeat_length; assumption). rewrite nth_repeat. symmetry. apply nth_repeat. }
    rewrite Rplus_0_l. unfold raw_moment.
    rewrite (sum_ext P _ (fun t => contribution nX f dmin dx dy c j (cell axes) (position (List.map low axes) (List.map high axes) (List.map Z.of_nat (counts axes)) (List.map Z.of_nat (ndigits t (counts axes)))))).
    2:{ intros t _. rewrite Z.add_0_l, digits_nat by assumption. rewrite D1, D2. reflexivity. }
    rewrite (position_grid axes Hc), Rmult_comm, <- grid_scale. apply grid_ext. intros x Hx. unfold contribution, above_least.
    rewrite terms_power by assumption. rewrite (least_unique _ _ _ _ (Pm c Hcn) (Hm c Hcn)). ring. }
  unfold write_lines. assert (Ln2 : length acc = nY) by assumption.
  apply nth_ext with (d := ([], [])) (d' := ([], [])); [rewrite !List.map_length; reflexivity|].
  intros j Hj. rewrite List.map_length in Hj. change (length (combine (seq 0 10) labels)) with 10%nat in Hj.
  set (A := fun jl : nat * str => _).
  rewrite nth_indep with (d' := A (0%nat, [])) by (rewrite List.map_length; exact Hj). rewrite map_nth, combine_nth by reflexivity. rewrite seq_nth by assumption. cbn [Nat.add].
  rewrite nth_indep with (l := List.map (line _ _ _ _) _) (d' := line axes (List.map above_least (seq 0 nY)) dx dy (0, 0)%nat) by (rewrite List.map_length; exact Hj). rewrite map_nth.
  subst A. unfold line. f_equal; [exact (label_of j Hj)|].
  rewrite !List.map_map. 
  apply nth_ext with (d := None) (d' := None); [rewrite !List.map_length, seq_length; assumption|].
  intros c Hcc. rewrite List.map_length, La in Hcc.
  rewrite nth_indep with (d' := (fun x => nth j (normalise x) None) []) by (rewrite List.map_length; lia). rewrite (map_nth (fun x => nth j (normalise x) None)).
  set (B := fun x : nat => _). rewrite nth_indep with (l := List.map B _) (d' := B 0%nat) by (rewrite List.map_length, seq_length; lia). rewrite map_nth, seq_nth by lia. cbn [Nat.add]. subst B. cbn beta.
  assert (L15 : length (nth c acc []) = 15%nat) by (rewrite Forall_forall in Fa; apply Fa, nth_In; lia).
  rewrite normalise_nth by assumption. rewrite (Hacc c j Hcc Hj), (Hacc c 0%nat Hcc ltac:(lia)).
  clear - Hj. do 10 (destruct j as [|j]; [reflexivity|]). lia.
Qed.
End Main.

(** ** moments of a weight that is not negative *)
Lemma grid_le axes : forall F G, (forall x, length x = length axes -> F x <= G x) -> grid_sum axes F <= grid_sum axes G.
Proof. induction axes as [|a axes IH]; intros F G H; cbn; [apply H; reflexivity|]. apply sum_le. intros i _. apply IH. intros x Hx. apply H. cbn. congruence. Qed.
Lemma grid_le_on axes : forall F G, (forall x, on_grid axes x -> F x <= G x) -> grid_sum axes F <= grid_sum axes G.
Proof. induction axes as [|a axes IH]; intros F G H; cbn; [apply H; constructor|]. apply sum_le. intros i Hi. apply IH. intros x Hx. apply H. constructor; [exists i; auto|assumption]. Qed.
Lemma cell_pos axes : Forall (fun a => 0 < count a)%nat axes -> 0 < cell axes.
Proof.
  induction 1; unfold cell, product in *; cbn; [lra|]. apply Rmult_lt_0_compat; [|assumption]. destruct (Rlt_dec (low x) (high x)); [|lra].
  apply Rdiv_lt_0_compat; [lra|apply lt_0_INR; assumption].
Qed.
Lemma on_grid_nth axes x : on_grid axes x -> forall k, (k < length axes)%nat -> exists i, (i < count (nth k axes (mkAxis 0 0 0)))%nat /\ nth k x 0 = tick (nth k axes (mkAxis 0 0 0)) i.
Proof. induction 1; intros k Hk; cbn in Hk; [lia|]. destruct k; [assumption|]. apply IHForall2. lia. Qed.
Lemma tick_range a i : low a <= high a -> (i < count a)%nat -> low a <= tick a i /\ (tick a i < high a \/ tick a i = high a /\ low a = high a).
Proof.
  intros H Hi. assert (Hc : 0 < INR (count a)) by (apply lt_0_INR; lia). assert (Hi0 := pos_INR i). assert (Hi1 : INR i < INR (count a)) by (apply lt_INR; assumption).
  unfold tick. set (q := INR i / INR (count a)). assert (0 <= q) by (apply Rmult_le_pos; [assumption|apply Rlt_le, Rinv_0_lt_compat; assumption]).
  assert (q < 1) by (apply (Rmult_lt_reg_r (INR (count a))); [assumption|unfold q; field_simplify; lra]). destruct (Rle_lt_or_eq_dec _ _ H); [split; [|left]; nra|split; [|right]; nra].
Qed.

Section Weight.
Variable axes : list axis.
Variable w : list R -> R.
Variable dx dy : nat.
Hypothesis Hc : Forall (fun a => 0 < count a)%nat axes.
Hypothesis Hw : forall x, on_grid axes x -> 0 <= w x.
Let S (a b : nat) : R := grid_sum axes (fun x => w x * nth dx x 0 ^ a * nth dy x 0 ^ b).

Lemma raw_zero : 0 <= raw_moment axes w dx dy 0 0.
Proof.
  unfold raw_moment. apply Rmult_le_pos; [|apply Rlt_le, cell_pos; assumption].
  replace 0 with (grid_sum axes (fun _ => 0 * 0)) at 1 by (rewrite grid_scale; lra). apply grid_le_on. intros x Hx. specialize (Hw x Hx). cbn. lra.
Qed.
(** a polynomial that is not negative has a non negative mean *)
Lemma quadratic p q r : 0 <= S 2 0 * (p * p) + S 0 2 * (q * q) + S 0 0 * (r * r) + 2 * (S 1 1 * (p * q)) + 2 * (S 1 0 * (p * r)) + 2 * (S 0 1 * (q * r)).
Proof.
  assert (E : grid_sum axes (fun x => w x * ((p * nth dx x 0 + q * nth dy x 0 + r) * (p * nth dx x 0 + q * nth dy x 0 + r))) =
    S 2 0 * (p * p) + S 0 2 * (q * q) + S 0 0 * (r * r) + 2 * (S 1 1 * (p * q)) + 2 * (S 1 0 * (p * r)) + 2 * (S 0 1 * (q * r))).
  { unfold S. rewrite (grid_ext axes _ (fun x => (p * p) * (w x * nth dx x 0 ^ 2 * nth dy x 0 ^ 0) + ((q * q) * (w x * nth dx x 0 ^ 0 * nth dy x 0 ^ 2) + ((r * r) * (w x * nth dx x 0 ^ 0 * nth dy x 0 ^ 0) + ((2 * (p * q)) * (w x * nth dx x 0 ^ 1 * nth dy x 0 ^ 1) + ((2 * (p * r)) * (w x * nth dx x 0 ^ 1 * nth dy x 0 ^ 0) + (2 * (q * r)) * (w x * nth dx x 0 ^ 0 * nth dy x 0 ^ 1)))))))
      by (intros; cbn; ring).
    rewrite !grid_plus, !grid_scale. ring. }
  rewrite <- E. apply Rle_trans with (grid_sum axes (fun _ => 0 * 0)); [rewrite grid_scale; lra|]. apply grid_le_on. intros x Hx. specialize (Hw x Hx).
  rewrite Rmult_0_l. apply Rmult_le_pos; [assumption|]. apply (Rle_0_sqr (p * nth dx x 0 + q * nth dy x 0 + r)).
Qed.
Lemma S00 : 0 <= S 0 0.
Proof. assert (Q := quadratic 0 0 1). lra. Qed.
Lemma moment_some a b v : moment axes w dx dy a b = Some v -> 0 < S 0 0 /\ v = S a b / S 0 0.
Proof.
  unfold moment. destruct (Req_EM_T _ 0) as [|N]; [discriminate|]. intros [= <-]. unfold raw_moment in N |- *. fold (S 0 0) (S a b) in N |- *.
  assert (C := cell_pos axes Hc). assert (S 0 0 <> 0) by (intros E; apply N; rewrite E; ring). split; [assert (B := S00); lra|]. field. split; [assumption|lra].
Qed.
Lemma variance_bound v1 v2 : moment axes w dx dy 1 0 = Some v1 -> moment axes w dx dy 2 0 = Some v2 -> v1 * v1 <= v2.
Proof.
  intros H1 H2. destruct (moment_some _ _ _ H1) as [P ->]. destruct (moment_some _ _ _ H2) as [_ ->].
  assert (Q := quadratic (S 0 0) 0 (- S 1 0)). apply (Rmult_le_reg_r (S 0 0 * S 0 0)); [apply Rmult_lt_0_compat; assumption|].
  replace (S 1 0 / S 0 0 * (S 1 0 / S 0 0) * (S 0 0 * S 0 0)) with (S 1 0 * S 1 0) by (field; lra).
  replace (S 2 0 / S 0 0 * (S 0 0 * S 0 0)) with (S 2 0 * S 0 0) by (field; lra). nra.
Qed.
Lemma covariance_bound v20 v11 v02 : moment axes w dx dy 2 0 = Some v20 -> moment axes w dx dy 1 1 = Some v11 -> moment axes w dx dy 0 2 = Some v02 -> v11 * v11 <= v20 * v02.
Proof.
  intros H1 H2 H3. destruct (moment_some _ _ _ H1) as [P ->]. destruct (moment_some _ _ _ H2) as [_ ->]. destruct (moment_some _ _ _ H3) as [_ ->].
  assert (G : S 1 1 * S 1 1 <= S 2 0 * S 0 2).
  { assert (A2 := quadratic 1 0 0). assert (B2 := quadratic 0 1 0).
    destruct (Req_dec (S 0 2) 0) as [Z|N]; [|destruct (Req_dec (S 2 0) 0) as [Z|N2]].
    - assert (Q2 := quadratic (S 1 1) (- (S 2 0 + 1)) 0). rewrite Z in *. clear - A2 Q2. nra.
    - assert (Q2 := quadratic (- (S 0 2 + 1)) (S 1 1) 0). rewrite Z in *. clear - B2 Q2. nra.
    - assert (Q := quadratic (S 0 2) (- S 1 1) 0). assert (0 < S 0 2) by lra. nra. }
  replace (S 1 1 / S 0 0 * (S 1 1 / S 0 0)) with (S 1 1 * S 1 1 / (S 0 0 * S 0 0)) by (field; lra).
  replace (S 2 0 / S 0 0 * (S 0 2 / S 0 0)) with (S 2 0 * S 0 2 / (S 0 0 * S 0 0)) by (field; lra).
  apply Rmult_le_compat_r; [apply Rlt_le, Rinv_0_lt_compat, Rmult_lt_0_compat; assumption|assumption].
Qed.
Lemma mean_range v1 : (dx < length axes)%nat -> low (nth dx axes (mkAxis 0 0 0)) <= high (nth dx axes (mkAxis 0 0 0)) -> moment axes w dx dy 1 0 = Some v1 ->
  low (nth dx axes (mkAxis 0 0 0)) <= v1 <= high (nth dx axes (mkAxis 0 0 0)).
Proof.
  intros Hd Hlh H1. destruct (moment_some _ _ _ H1) as [P ->]. set (a := nth dx axes (mkAxis 0 0 0)) in *.
  assert (B1 : low a * S 0 0 <= S 1 0).
  { unfold S. rewrite <- grid_scale. apply grid_le_on. intros x Hx. specialize (Hw x Hx). destruct (on_grid_nth _ _ Hx dx Hd) as (i & Hi & E). fold a in Hi, E. destruct (tick_range a i Hlh Hi) as [T1 T2]. rewrite E. cbn. nra. }
  assert (B2 : S 1 0 <= high a * S 0 0).
  { unfold S. rewrite <- grid_scale. apply grid_le_on. intros x Hx. specialize (Hw x Hx). destruct (on_grid_nth _ _ Hx dx Hd) as (i & Hi & E). fold a in Hi, E. destruct (tick_range a i Hlh Hi) as [T1 T2]. assert (tick a i <= high a) by (destruct T2; lra). rewrite E. cbn. nra. }
  split; apply (Rmult_le_reg_r (S 0 0)); try assumption; replace (S 1 0 / S 0 0 * S 0 0) with (S 1 0) by (field; lra); assumption.
Qed.
End Weight.

(** scaling does not change the relative moments *)
Lemma moment_scale axes w dx dy a b k : k <> 0 -> moment axes (fun x => k * w x) dx dy a b = moment axes w dx dy a b.
Proof.
  intros Hk. assert (E : forall p q, raw_moment axes (fun x => k * w x) dx dy p q = k * raw_moment axes w dx dy p q).
  { intros. unfold raw_moment. rewrite <- Rmult_assoc, <- grid_scale. f_equal. apply grid_ext. intros. ring. }
  unfold moment. rewrite !E. destruct (Req_EM_T (raw_moment axes w dx dy 0 0) 0) as [Z|N].
  - rewrite Z, Rmult_0_r. destruct (Req_EM_T 0 0); [reflexivity|contradiction].
  - destruct (Req_EM_T _ 0) as [C|_]; [apply Rmult_integral in C; destruct C; contradiction|]. f_equal. field. auto.
Qed.

(** ** a constant weight *)
Lemma grid_const axes c : grid_sum axes (fun _ => c) = INR (fold_right Nat.mul 1%nat (counts axes)) * c.
Proof. induction axes as [|a axes IH]; cbn; [lra|]. rewrite IH, sum_const, mult_INR. fold (counts axes). ring. Qed.
Lemma sum_index n : sum_to n INR = INR n * (INR n - 1) / 2.
Proof. induction n; [rewrite sum_0; cbn; lra|]. rewrite sum_last, IHn, S_INR. field. Qed.
Lemma sum_tick a : (0 < count a)%nat -> sum_to (count a) (tick a) = INR (count a) * (low a + (high a - low a) * ((INR (count a) - 1) / (2 * INR (count a)))).
Proof.
  intros H. assert (N : INR (count a) <> 0) by (apply not_0_INR; lia). unfold tick.
  rewrite sum_plus, sum_const. rewrite (sum_ext _ (fun i => (high a - low a) * (INR i / INR (count a))) (fun i => ((high a - low a) / INR (count a)) * INR i)) by (intros; field; assumption).
  rewrite sum_scale, sum_index. field. assumption.
Qed.
Lemma grid_coordinate axes : forall k, (k < length axes)%nat -> Forall (fun a => 0 < count a)%nat axes -> let a := nth k axes (mkAxis 0 0 0) in
  grid_sum axes (fun x => nth k x 0) = INR (fold_right Nat.mul 1%nat (counts axes)) * (low a + (high a - low a) * ((INR (count a) - 1) / (2 * INR (count a)))).
Proof.
  induction axes as [|a axes IH]; intros k Hk Hc; cbn in Hk; [lia|]. inversion_clear Hc. destruct k as [|k].
  - cbn [nth grid_sum]. rewrite (sum_ext _ _ (fun i => INR (fold_right Nat.mul 1%nat (counts axes)) * tick a i)) by (intros; apply grid_const).
    rewrite sum_scale, sum_tick by assumption. cbn [counts List.map fold_right]. rewrite mult_INR. fold (counts axes). ring.
  - cbn [nth grid_sum]. rewrite sum_const, (IH k) by (try assumption; lia). cbn [counts List.map fold_right]. rewrite mult_INR. fold (counts axes). ring.
Qed.
Lemma uniform axes c dx dy : Forall (fun a => 0 < count a)%nat axes -> (dx < length axes)%nat -> c <> 0 -> let a := nth dx axes (mkAxis 0 0 0) in
  raw_moment axes (fun _ => c) dx dy 0 0 = c * product (List.map (fun a => if Rlt_dec (low a) (high a) then high a - low a else INR (count a)) axes) /\
  moment axes (fun _ => c) dx dy 1 0 = Some (low a + (high a - low a) * ((INR (count a) - 1) / (2 * INR (count a)))).
Proof.
  intros Hc Hd H0 a. assert (R0 : raw_moment axes (fun _ => c) dx dy 0 0 = c * (INR (fold_right Nat.mul 1%nat (counts axes)) * cell axes)).
  { unfold raw_moment. rewrite (grid_ext axes _ (fun _ => c)) by (intros; cbn; ring). rewrite grid_const. ring. }
  assert (Pp : (0 < fold_right Nat.mul 1 (counts axes))%nat) by (apply mul_pos_list; unfold counts; apply Forall_map; assumption).
  assert (Ni : INR (fold_right Nat.mul 1%nat (counts axes)) <> 0) by (apply not_0_INR; lia). assert (Cp := cell_pos axes Hc). split.
  - rewrite R0. f_equal. clear - Hc. induction Hc; [cbn; unfold cell, product; cbn; lra|].
    unfold cell, product in *. cbn [counts List.map fold_right]. rewrite mult_INR. fold (counts l). rewrite <- IHHc. assert (INR (count x) <> 0) by (apply not_0_INR; lia).
    destruct (Rlt_dec (low x) (high x)); field; assumption.
  - unfold moment. rewrite R0. destruct (Req_EM_T _ 0) as [Z|_]; [exfalso; apply Rmult_integral in Z; destruct Z as [Z|Z]; [contradiction|apply Rmult_integral in Z; destruct Z; [contradiction|lra]]|].
    f_equal. unfold raw_moment. rewrite (grid_ext axes _ (fun x => c * nth dx x 0)) by (intros; cbn; ring). rewrite grid_scale, (grid_coordinate axes dx Hd Hc). fold a.
    assert (INR (count a) <> 0). { apply not_0_INR. rewrite Forall_forall in Hc. specialize (Hc a (nth_In _ _ Hd)). lia. } field. repeat split; try assumption. lra.
Qed.

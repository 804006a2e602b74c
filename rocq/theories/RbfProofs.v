From Coq Require Import Reals List Lra.
From Verif Require Import Base Num TextModel TextProofs RatProofs RbfModel RbfSpec.
Open Scope R_scope.

Lemma sum_nonneg {A} (f : A -> R) l : (forall a, In a l -> 0 <= f a) -> 0 <= sum f l.
Proof. induction l; cbn; intros H; [lra|]. assert (H1 := H a (or_introl eq_refl)). assert (H2 := IHl (fun b I => H b (or_intror I))). lra. Qed.
Lemma sum_pos {A} (f : A -> R) l : l <> [] -> (forall a, In a l -> 0 < f a) -> 0 < sum f l.
Proof.
  destruct l as [|a l]; [congruence|]. intros _ H. cbn. assert (H1 := H a (or_introl eq_refl)). assert (H2 : 0 <= sum f l) by (apply sum_nonneg; intros; apply Rlt_le, H; right; assumption). lra.
Qed.
Lemma sum_ext {A} (f g : A -> R) l : (forall a, In a l -> f a = g a) -> sum f l = sum g l.
Proof. induction l; intros H; [reflexivity|]. cbn. rewrite (H a (or_introl eq_refl)), IHl; [reflexivity|]. intros; apply H; right; assumption. Qed.
Lemma sum_le {A} (f g : A -> R) l : (forall a, In a l -> f a <= g a) -> sum f l <= sum g l.
Proof. induction l; intros H; [cbn; lra|]. cbn. assert (H1 := H a (or_introl eq_refl)). assert (H2 := IHl (fun b I => H b (or_intror I))). lra. Qed.
Lemma sum_lin {A} (f g : A -> R) a b l : sum (fun x => a * f x + b * g x) l = a * sum f l + b * sum g l.
Proof. induction l; cbn; [lra|]. rewrite IHl. lra. Qed.
Lemma sum_map {A B} (h : A -> B) (f : B -> R) l : sum f (List.map h l) = sum (fun a => f (h a)) l.
Proof. induction l; cbn; [reflexivity|]. rewrite IHl. reflexivity. Qed.
Lemma sum_app {A} (f : A -> R) l m : sum f (l ++ m) = sum f l + sum f m.
Proof. induction l; cbn; [lra|]. rewrite IHl. lra. Qed.
Lemma squared_nonneg a b : 0 <= squared a b.
Proof. apply sum_nonneg. intros. apply pow2_ge_0. Qed.
Lemma squared_same a : squared a a = 0.
Proof. unfold squared. induction a as [|u a IH]; [reflexivity|]. cbn [combine sum fst snd]. rewrite IH. ring. Qed.
Lemma weight_pos x p : 0 < weight x p.
Proof. unfold weight. assert (H := squared_nonneg x p). apply Rdiv_lt_0_compat; [lra|]. assert (0 < 1 / 10 ^ 10) by (apply Rdiv_lt_0_compat; [lra|apply pow_lt; lra]). lra. Qed.

Lemma add_to_nth a : forall b c, length a = length b -> nth c (add_to a b) 0 = nth c a 0 + nth c b 0.
Proof. induction a as [|x a IH]; intros [|y b] c H; try discriminate; [destruct c; cbn; lra|]. destruct c; cbn; [reflexivity|]. apply IH. cbn in H. congruence. Qed.
Lemma add_to_length a : forall b, length a = length b -> length (add_to a b) = length a.
Proof. induction a as [|x a IH]; intros [|y b] H; try discriminate; cbn; [reflexivity|]. f_equal. apply IH. cbn in H. congruence. Qed.

Section Table.
Variables (dx dy : nat) (t : table).
Hypothesis Ht : table_ok dx dy t.
Lemma entry_ok i : (i < length t)%nat -> length (position t i) = dx /\ length (snd (nth i t ([], []))) = dy.
Proof. intros H. unfold table_ok in Ht. rewrite Forall_forall in Ht. apply Ht. apply nth_In. assumption. Qed.
Lemma row_nth i : (i < length t)%nat -> nth_error (rows_of t) i = Some (position t i ++ snd (nth i t ([], []))).
Proof. intros H. unfold rows_of. erewrite map_nth_error; [|apply nth_error_nth'; exact H]. reflexivity. Qed.
Lemma points_eq : List.map (firstn dx) (rows_of t) = List.map fst t.
Proof.
  unfold rows_of. rewrite List.map_map. apply List.map_ext_in. intros [p v] I. unfold table_ok in Ht. rewrite Forall_forall in Ht. destruct (Ht _ I) as [H1 _]. cbn [fst snd] in *. rewrite <- H1, firstn_app, Nat.sub_diag, firstn_all, firstn_O, app_nil_r. reflexivity.
Qed.
Lemma new_ok mn mx : rbf_new dx dy (rows_of t) mn mx = Ok (mkRbf dx dy (rows_of t) mn mx (List.map fst t) 3).
Proof.
  unfold rbf_new. rewrite points_eq. destruct (existsb _ _) eqn:E; [|reflexivity]. exfalso. apply existsb_exists in E. destruct E as (r & I & L). apply Nat.ltb_lt in L.
  unfold rows_of in I. apply in_map_iff in I. destruct I as ([p v] & <- & I). unfold table_ok in Ht. rewrite Forall_forall in Ht. destruct (Ht _ I) as [H1 _]. cbn [fst snd] in *. rewrite app_length in L. lia.
Qed.
Lemma loop_ok x : forall l res cum, Forall (fun id => (fst id < length t)%nat /\ snd id = squared x (position t (fst id))) l -> length res = dy ->
  exists res', rbf_loop dy (rows_of t) l res cum = Ok (res', cum + sum (fun i => weight x (position t i)) (List.map fst l)) /\ length res' = dy /\
    forall c, (c < dy)%nat -> nth c res' 0 = nth c res 0 + sum (fun i => weight x (position t i) * sample t c i) (List.map fst l).
Proof.
  induction l as [|[i d] l IH]; intros res cum Hl Hr.
  - exists res. cbn. rewrite Rplus_0_r. split; [reflexivity|]. split; [assumption|]. intros; lra.
  - inversion_clear Hl as [|? ? [Hi Hd] Hl']. cbn [fst snd] in *. cbn [rbf_loop]. rewrite row_nth by assumption. destruct (entry_ok i Hi) as [L1 L2].
    unfold tail_of. rewrite app_length, L1, L2. destruct (Nat.ltb_spec (dx + dy) dy); [lia|]. cbn [bind].
    replace (dx + dy - dy)%nat with dx by lia. rewrite skipn_app, L1, Nat.sub_diag, skipn_all2 by lia. cbn [app skipn].
    fold (weight x (position t i)). subst d. set (w := weight x (position t i)). fold (weight x (position t i)) in *. fold w.
    set (v := snd (nth i t ([], []))) in *.
    change (1 / (1 / 10 ^ 10 + squared x (position t i))) with w.
    assert (Lw : length (List.map (fun t0 => w * t0) v) = dy) by (rewrite map_length; assumption).
    destruct (IH (add_to res (List.map (fun t0 => w * t0) v)) (cum + w) Hl') as (res' & E & P1 & P2); [rewrite add_to_length; lia|].
    exists res'. split; [rewrite E; cbn [List.map sum fst]; fold w; do 2 f_equal; lra|]. split; [assumption|].
    intros c Hc. rewrite P2 by assumption. rewrite add_to_nth by lia. cbn [List.map fst sum]. fold w.
    replace (nth c (List.map (fun t0 => w * t0) v) 0) with (w * sample t c i); [lra|].
    rewrite nth_indep with (d' := w * 0) by (rewrite Lw; assumption). rewrite (map_nth (fun t0 => w * t0)). reflexivity.
Qed.
End Table.

Section Value.
Variable search : list (list R) -> list R -> nat -> list (nat * R).
Variables (dx dy : nat) (t : table) (x : list R).
Hypothesis Hs : finds search.
Hypothesis Ht : table_ok dx dy t.
Hypothesis Hx : length x = dx.
Lemma used_in i : In i (used search t x) -> (i < length t)%nat.
Proof using Hs.
  intros I. unfold used in I. apply in_map_iff in I. destruct I as ([j d] & <- & I). destruct (Hs (List.map fst t) x 3%nat (Nat.lt_0_succ 2)) as (F & _). rewrite Forall_forall in F. destruct (F _ I) as (p & E & _). cbn [fst] in *.
  assert (H : (j < length (List.map fst t))%nat) by (apply nth_error_Some; congruence). rewrite map_length in H. assumption.
Qed.
Lemma used_ne : t <> [] -> used search t x <> [].
Proof using Hs. clear Ht Hx.
  intros H E. destruct (Hs (List.map fst t) x 3%nat (Nat.lt_0_succ 2)) as (_ & _ & _ & N). apply N; [destruct t; [congruence|discriminate]|]. unfold used in E. destruct (search _ _ _); [reflexivity|discriminate].
Qed.
Lemma cum_pos : t <> [] -> 0 < sum (fun i => weight x (position t i)) (used search t x).
Proof using Hs. intros H. apply sum_pos; [apply used_ne; assumption|]. intros. apply weight_pos. Qed.
Lemma value_ok : exists y, interpolates search dx dy t x y /\ length y = dy /\
  forall c, (c < dy)%nat -> t <> [] -> nth c y 0 * sum (fun i => weight x (position t i)) (used search t x) = sum (fun i => weight x (position t i) * sample t c i) (used search t x).
Proof.
  assert (F : Forall (fun id => (fst id < length t)%nat /\ snd id = squared x (position t (fst id))) (search (List.map fst t) x 3%nat)).
  { destruct (Hs (List.map fst t) x 3%nat (Nat.lt_0_succ 2)) as (F & _). eapply Forall_impl; [|exact F]. intros [i d] (p & E & D). cbn [fst snd] in *.
    assert (H : (i < length t)%nat) by (rewrite <- (map_length fst t); apply nth_error_Some; congruence). split; [assumption|]. rewrite D. f_equal. unfold position. rewrite (map_nth_error fst i t (nth_error_nth' t ([], []) H)) in E. congruence. }
  destruct (loop_ok dx dy t Ht x _ (repeat 0 dy) 0 F (repeat_length 0 dy)) as (res & E & L & P).
  set (y := if rltb 0 (0 + sum (fun i => weight x (position t i)) (used search t x)) then List.map (fun t0 => t0 / (0 + sum (fun i => weight x (position t i)) (used search t x))) res else res).
  exists y. split; [|split].
  - eexists _, [], []. split; [apply new_ok; assumption|]. unfold rbf_value. cbn [rb_dx rb_dy rb_points rb_rows rb_knn]. rewrite Hx, Nat.ltb_irrefl. rewrite <- Hx at 1. rewrite firstn_all, E. reflexivity.
  - unfold y. destruct (rltb _ _); [rewrite map_length|]; assumption.
  - intros c Hc Hne. assert (C := cum_pos Hne). set (S := sum (fun i => weight x (position t i)) (used search t x)) in *.
    unfold y. destruct (rltb 0 (0 + S)) eqn:B; [|exfalso; assert (B' : rltb 0 (0 + S) = true) by (apply rltb_spec; lra); congruence].
    rewrite nth_indep with (d' := 0 / (0 + S)) by (rewrite map_length; lia). rewrite (map_nth (fun t0 => t0 / (0 + S))). rewrite P by assumption. fold (used search t x).
    rewrite nth_repeat. field_simplify; [reflexivity|lra].
Qed.
Lemma value_unique y y' : interpolates search dx dy t x y -> interpolates search dx dy t x y' -> y = y'.
Proof.
  intros (s & mn & mx & E & V) (s' & mn' & mx' & E' & V'). rewrite new_ok in E by assumption. rewrite new_ok in E' by assumption. injection E as <-. injection E' as <-. unfold rbf_value in *. cbn [rb_dx rb_dy rb_points rb_rows rb_knn] in *. congruence.
Qed.
End Value.

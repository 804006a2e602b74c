(** NLopt, Ipopt and Ceres: objective and gradient. *)
From Coq Require Import Reals List Lia Lra.
From Verif Require Import Base ParamsModel GeoModel CommonModel CommonProofs TextModel NlModel NlMoreModel NlSpec NlProofs NlGrad NlLobes FuncModel FuncSpec FuncProofs FuncJac FitModel FitSpec FitProofs.
Open Scope R_scope.

Lemma total_app a b : total (a ++ b) = total a + total b.
Proof. unfold total. induction a as [|x a IH]; cbn; [lra|]. rewrite IH. lra. Qed.
Lemma total_ext {A} (f g : A -> R) l : (forall x, In x l -> f x = g x) -> total (List.map f l) = total (List.map g l).
Proof. intros H. rewrite (List.map_ext_in f g l H). reflexivity. Qed.
Lemma total_snoc (f : nat -> R) n : total (List.map f (seq 0 (S n))) = total (List.map f (seq 0 n)) + f n.
Proof. rewrite seq_S, map_app, total_app. cbn. lra. Qed.

(** adding up in a loop *)
Lemma for_sum n (f : nat -> R) body y : (forall i y, (i < n)%nat -> body i y = Ok (y + f i)) ->
  for_ n 0 body y = Ok (y + total (List.map f (seq 0 n))).
Proof.
  intros Hb. destruct (for_inv (fun k s => s = y + total (List.map f (seq 0 k))) body n 0) with (s := y) as (s' & E & I).
  - intros i s Hi ->. rewrite Hb by lia. eexists. split; [reflexivity|]. rewrite total_snoc. lra.
  - cbn. lra.
  - rewrite E, I. reflexivity.
Qed.
Lemma each_sum (f : list R -> R) body l y : (forall k r y, In r l -> body k r y = Ok (y + f r)) ->
  each body 0 l y = Ok (y + total (List.map f l)).
Proof.
  generalize 0%nat as s. revert y. induction l as [|r l IH]; intros y s Hb; cbn [each].
  - cbn. f_equal. lra.
  - rewrite Hb by (left; reflexivity). cbn [bind]. rewrite IH by (intros; apply Hb; right; assumption). cbn [List.map total fold_right]. fold (total (List.map f l)). f_equal. lra.
Qed.
(** the double loop of the gradients *)
Lemma grad_fill n ny (f : nat -> nat -> R) body g : length g = n ->
  (forall j i g, (j < n)%nat -> (i < ny)%nat -> length g = n -> body j i g = wr g j (nth j g 0 + f i j)) ->
  exists g', for_ n 0 (fun j g => for_ ny 0 (fun i g => body j i g) g) g = Ok g' /\ length g' = n /\
    forall j, (j < n)%nat -> nth j g' 0 = nth j g 0 + total (List.map (fun i => f i j) (seq 0 ny)).
Proof.
  intros Lg Hb.
  destruct (for_inv (fun k x => length x = n /\ forall j, (j < n)%nat -> nth j x 0 = nth j g 0 + (if (j <? k)%nat then total (List.map (fun i => f i j) (seq 0 ny)) else 0))
    (fun j g => for_ ny 0 (fun i g => body j i g) g) n 0) with (s := g) as (g' & E & I1 & I2).
  - intros j x Hj (J1 & J2).
    destruct (for_inv (fun k z => length z = n /\ (forall j', (j' < n)%nat -> j' <> j -> nth j' z 0 = nth j' x 0) /\
       nth j z 0 = nth j g 0 + total (List.map (fun i => f i j) (seq 0 k))) (body j) ny 0) with (s := x) as (z & E & K1 & K2 & K3).
    + intros i z Hi (K1 & K2 & K3). rewrite Hb by (auto; lia). rewrite wr_ok by lia. eexists. split; [reflexivity|].
      split; [rewrite upd_length; exact K1|]. split.
      * intros j' Hj' N. rewrite nth_upd_other by congruence. auto.
      * rewrite nth_upd_same by lia. rewrite K3, total_snoc. lra.
    + split; [exact J1|]. split; [reflexivity|]. rewrite J2 by lia. destruct (Nat.ltb_spec j j); [lia|]. cbn. lra.
    + exists z. split; [exact E|]. split; [exact K1|]. intros j' Hj'. destruct (Nat.eq_dec j' j) as [->|N].
      * rewrite K3. destruct (Nat.ltb_spec j (S j)); [reflexivity|lia].
      * rewrite K2, J2 by assumption. destruct (Nat.ltb_spec j' j), (Nat.ltb_spec j' (S j)); try lia; reflexivity.
  - split; [exact Lg|]. intros j Hj. cbn. lra.
  - exists g'. split; [exact E|]. split; [exact I1|]. intros j Hj. rewrite I2 by lia. destruct (Nat.ltb_spec j (0 + n)); [reflexivity|lia].
Qed.
Lemma each_grad n (f : list R -> nat -> R) body l : (forall k r g, In r l -> length g = n ->
    exists g', body k r g = Ok g' /\ length g' = n /\ forall j, (j < n)%nat -> nth j g' 0 = nth j g 0 + f r j) ->
  forall s g, length g = n -> exists g', each body s l g = Ok g' /\ length g' = n /\
    forall j, (j < n)%nat -> nth j g' 0 = nth j g 0 + total (List.map (fun r => f r j) l).
Proof.
  induction l as [|r l IH]; intros Hb s g Lg; cbn [each].
  - exists g. split; [reflexivity|]. split; [exact Lg|]. intros. cbn. lra.
  - destruct (Hb s r g ltac:(left; reflexivity) Lg) as (g1 & E1 & L1 & N1). rewrite E1. cbn [bind].
    destruct (IH ltac:(intros; apply Hb; [right|]; assumption) (S s) g1 L1) as (g2 & E2 & L2 & N2).
    exists g2. split; [exact E2|]. split; [exact L2|]. intros j Hj. rewrite N2, N1 by assumption. cbn. fold (total (List.map (fun r => f r j) l)). lra.
Qed.
(** derivative of a sum *)
Lemma derivable_total {A} (f : A -> R -> R) (d : A -> R) l a : (forall x, In x l -> derivable_pt_lim (f x) a (d x)) ->
  derivable_pt_lim (fun u => total (List.map (fun x => f x u) l)) a (total (List.map d l)).
Proof.
  induction l as [|x l IH]; intros H.
  - cbn. apply derivable_const.
  - cbn [List.map total fold_right]. apply (derivable_pt_lim_plus (f x) (fun u => total (List.map (fun x => f x u) l))).
    + apply H. left. reflexivity.
    + apply IH. intros y Hy. apply H. right. exact Hy.
Qed.
Lemma derivable_square f a d : derivable_pt_lim f a d -> derivable_pt_lim (fun u => (f u) ^ 2) a (2 * f a * d).
Proof.
  intros H. replace (2 * f a * d) with (d * f a + f a * d) by ring.
  apply (derivable_ext (fun u => f u * f u)); [intros; ring|]. apply (derivable_pt_lim_mult f f); exact H.
Qed.

Section Loaded.
Variable junk : R.
Variable t : tree.
Variable dp : parameters.
Variable rows : list (list R).
Variable p : list R.
Hypothesis C : comparable junk t dp rows.
Hypothesis Lp : length p = nb t.
Variable t' : tree.
Hypothesis Ld : loaded t p t'.

Lemma misfit_plain r i : misfit junk t dp false p r i = observed dp r i - predicted junk t dp p r i.
Proof. unfold misfit, weight. lra. Qed.
Lemma ny_t : dimY (par_of t) = dimY dp.
Proof. apply C. Qed.

Lemma nlopt_rows_ok : each (nlopt_row junk dp t') 0 rows 0 = Ok (sum_of_squares junk t dp rows p).
Proof.
  rewrite (each_sum (fun r => total (List.map (fun i => (misfit junk t dp false p r i) ^ 2) (seq 0 (dimY dp))))).
  - unfold sum_of_squares. rewrite ny_t. f_equal. lra.
  - intros k r y Hr. destruct (row_data junk t dp rows p C Lp t' Ld r Hr) as (x & v & Px & Sx & Vx & Lv & _ & Pr & Sl & Ls & Ob & _).
    unfold nlopt_row. rewrite Sl. cbn [bind]. rewrite Sx. cbn [bind]. rewrite Vx. cbn [bind].
    destruct (sub_ok v (skipn (dimX dp) r) (dimY dp) Lv Ls) as (e & Ee & Le & Ne). rewrite Ee. cbn [bind].
    rewrite (ny_eq junk t dp rows p C t' Ld).
    rewrite (for_sum (dimY dp) (fun i => (misfit junk t dp false p r i) ^ 2)); [reflexivity|].
    intros i z Hi. rewrite rd_nth by lia. cbn [bind]. rewrite Ne, Ob, misfit_plain, Pr. do 2 f_equal. ring.
Qed.
Lemma ipopt_rows_ok : each (ipopt_row junk dp t') 0 rows 0 = Ok (sum_of_squares junk t dp rows p).
Proof.
  rewrite (each_sum (fun r => total (List.map (fun i => (misfit junk t dp false p r i) ^ 2) (seq 0 (dimY dp))))).
  - unfold sum_of_squares. rewrite ny_t. f_equal. lra.
  - intros k r y Hr. destruct (row_data junk t dp rows p C Lp t' Ld r Hr) as (x & v & Px & Sx & Vx & Lv & _ & Pr & Sl & Ls & Ob & _).
    unfold ipopt_row. rewrite (ny_eq junk t dp rows p C t' Ld), Nat.eqb_refl. cbn [negb]. rewrite Sl. cbn [bind]. rewrite Sx. cbn [bind]. rewrite Vx. cbn [bind].
    destruct (sub_ok (skipn (dimX dp) r) v (dimY dp) Ls Lv) as (e & Ee & Le & Ne). rewrite Ee. cbn [bind].
    rewrite (for_sum (dimY dp) (fun i => (misfit junk t dp false p r i) ^ 2)); [reflexivity|].
    intros i z Hi. rewrite rd_nth by lia. cbn [bind]. rewrite Ne, Ob, misfit_plain, Pr. do 2 f_equal.
Qed.

(** entry (i, j) of the function's Jacobian at a sample *)
Definition jac_at (r : list R) (i j : nat) : R := component (do x <- position junk t dp r; jacobian junk t' x) (i * nb t + j).
Definition slope (r : list R) (j : nat) : R :=
  total (List.map (fun i => 2 * (predicted junk t dp p r i - observed dp r i) * jac_at r i j) (seq 0 (dimY dp))).
Lemma upd_self (j : nat) : upd p j (nth j p 0) = p.
Proof. apply upd_same. Qed.
Lemma slope_derivative j : exact_for junk t dp p rows -> (j < nb t)%nat ->
  derivable_pt_lim (fun u => sum_of_squares junk t dp rows (upd p j u)) (nth j p 0) (total (List.map (fun r => slope r j) rows)).
Proof.
  intros Hx Hj. unfold sum_of_squares. rewrite ny_t.
  apply (derivable_total (fun r u => total (List.map (fun i => (misfit junk t dp false (upd p j u) r i) ^ 2) (seq 0 (dimY dp)))) (fun r => slope r j)).
  intros r Hr. unfold slope.
  apply (derivable_total (fun i u => (misfit junk t dp false (upd p j u) r i) ^ 2) (fun i => 2 * (predicted junk t dp p r i - observed dp r i) * jac_at r i j)).
  intros i Hi. apply in_seq in Hi.
  destruct (row_data junk t dp rows p C Lp t' Ld r Hr) as (x & v & Px & _).
  destruct (row_jacobian junk t dp rows p C Lp t' Ld r Hr Hx x Px) as (J & EJ & LJ & DJ).
  unfold jac_at. rewrite Px. cbn [bind]. rewrite EJ. cbn [component].
  replace (2 * (predicted junk t dp p r i - observed dp r i) * nth (i * nb t + j) J 0)
    with (2 * misfit junk t dp false (upd p j (nth j p 0)) r i * (0 - nth (i * nb t + j) J 0)) by (rewrite upd_self, misfit_plain; ring).
  apply (derivable_square (fun u => misfit junk t dp false (upd p j u) r i)). unfold misfit.
  apply (derivable_pt_lim_minus (fun _ => observed dp r i) (fun u => weight junk dp false r * predicted junk t dp (upd p j u) r i)).
  - apply derivable_const.
  - replace (nth (i * nb t + j) J 0) with (weight junk dp false r * nth (i * nb t + j) J 0) by (unfold weight; ring).
    apply (derivable_pt_lim_scal (fun u => predicted junk t dp (upd p j u) r i)). apply DJ; lia.
Qed.

Lemma fill_row r e J g : length g = nb t -> length e = dimY dp -> length J = (dimY dp * nb t)%nat ->
  (forall i, nth i e 0 = predicted junk t dp p r i - observed dp r i) -> (forall i j, nth (i * nb t + j) J 0 = jac_at r i j) ->
  exists g', for_ (nb t) 0 (fun j g => for_ (dimY dp) 0 (fun i g =>
    do o <- rd g j; do a <- rd e i; do b <- rd J (i * nb t + j); wr g j (o + 2 * a * b)) g) g = Ok g' /\ length g' = nb t /\
    forall j, (j < nb t)%nat -> nth j g' 0 = nth j g 0 + slope r j.
Proof.
  intros Lg Le LJ Ne NJ. unfold slope.
  apply (grad_fill (nb t) (dimY dp) (fun i j => 2 * (predicted junk t dp p r i - observed dp r i) * jac_at r i j)); [exact Lg|].
  intros j i z Hj Hi Lz. rewrite !rd_nth by (rewrite ?LJ; try lia; rewrite Nat.mul_comm with (n := dimY dp); apply mul_add_lt; assumption).
  cbn [bind]. rewrite Ne, NJ. reflexivity.
Qed.
Lemma nlopt_jac_rows_ok : exact_for junk t dp p rows ->
  exists g, each (nlopt_jac_row junk dp t') 0 rows (repeat 0 (nb t)) = Ok g /\ length g = nb t /\
    forall j, (j < nb t)%nat -> derivable_pt_lim (fun u => sum_of_squares junk t dp rows (upd p j u)) (nth j p 0) (nth j g 0).
Proof.
  intros Hx. destruct (each_grad (nb t) slope (nlopt_jac_row junk dp t') rows) with (s := 0%nat) (g := repeat 0 (nb t)) as (g & E & Lg & N).
  - intros k r g Hr Lg. destruct (row_data junk t dp rows p C Lp t' Ld r Hr) as (x & v & Px & Sx & Vx & Lv & _ & Pr & Sl & Ls & Ob & _).
    destruct (row_jacobian junk t dp rows p C Lp t' Ld r Hr Hx x Px) as (J & EJ & LJ & DJ).
    unfold nlopt_jac_row. rewrite Sl. cbn [bind]. rewrite Sx. cbn [bind]. rewrite EJ. cbn [bind]. rewrite Vx. cbn [bind].
    destruct (sub_ok v (skipn (dimX dp) r) (dimY dp) Lv Ls) as (e & Ee & Le & Ne). rewrite Ee. cbn [bind].
    rewrite (ny_eq junk t dp rows p C t' Ld), (ld_nb _ _ _ Ld). apply fill_row; try assumption.
    + intros i. rewrite Ne, Pr, Ob. reflexivity.
    + intros i j. unfold jac_at. rewrite Px. cbn [bind]. rewrite EJ. reflexivity.
  - apply repeat_length.
  - exists g. split; [exact E|]. split; [exact Lg|]. intros j Hj. rewrite N by exact Hj. rewrite nth_repeat. rewrite Rplus_0_l. apply slope_derivative; assumption.
Qed.
Lemma ipopt_jac_rows_ok : exact_for junk t dp p rows ->
  exists g, each (ipopt_jac_row junk dp t') 0 rows (repeat 0 (nb t)) = Ok g /\ length g = nb t /\
    forall j, (j < nb t)%nat -> derivable_pt_lim (fun u => sum_of_squares junk t dp rows (upd p j u)) (nth j p 0) (nth j g 0).
Proof.
  intros Hx. destruct (each_grad (nb t) slope (ipopt_jac_row junk dp t') rows) with (s := 0%nat) (g := repeat 0 (nb t)) as (g & E & Lg & N).
  - intros k r g Hr Lg. destruct (row_data junk t dp rows p C Lp t' Ld r Hr) as (x & v & Px & Sx & Vx & Lv & _ & Pr & Sl & Ls & Ob & _).
    destruct (row_jacobian junk t dp rows p C Lp t' Ld r Hr Hx x Px) as (J & EJ & LJ & DJ).
    unfold ipopt_jac_row. rewrite (ny_eq junk t dp rows p C t' Ld), Sl. cbn [bind]. rewrite Sx. cbn [bind]. rewrite Vx. cbn [bind].
    destruct (sub_ok v (skipn (dimX dp) r) (dimY dp) Lv Ls) as (e & Ee & Le & Ne). rewrite Ee. cbn [bind]. rewrite EJ. cbn [bind].
    rewrite (ld_nb _ _ _ Ld). apply fill_row; try assumption.
    + intros i. rewrite Ne, Pr, Ob. reflexivity.
    + intros i j. unfold jac_at. rewrite Px. cbn [bind]. rewrite EJ. reflexivity.
  - apply repeat_length.
  - exists g. split; [exact E|]. split; [exact Lg|]. intros j Hj. rewrite N by exact Hj. rewrite nth_repeat. rewrite Rplus_0_l. apply slope_derivative; assumption.
Qed.
End Loaded.

Theorem nlopt_value_ok junk dp rows t x : comparable junk t dp rows -> length x = nb t ->
  exists t', nlopt_objective junk dp rows x false t = Ok ((sum_of_squares junk t dp rows x, None), t') /\ set_parameters t x = Ok t'.
Proof.
  intros C Lx. unfold nlopt_objective. pose proof (slice_all x) as Sx0; rewrite Lx in Sx0; rewrite Sx0. cbn [bind].
  destruct (load_ok junk t dp rows x C Lx) as (t' & Ld). rewrite (ld_set _ _ _ Ld). cbn [bind].
  rewrite (nlopt_rows_ok junk t dp rows x C Lx t' Ld). cbn [bind]. exists t'. auto.
Qed.
Theorem nlopt_gradient_ok junk dp rows t x : comparable junk t dp rows -> length x = nb t -> exact_for junk t dp x rows ->
  exists g t', nlopt_objective junk dp rows x true t = Ok ((sum_of_squares junk t dp rows x, Some g), t') /\ set_parameters t x = Ok t' /\
    length g = nb t /\ forall j, (j < nb t)%nat -> derivable_pt_lim (fun u => sum_of_squares junk t dp rows (upd x j u)) (nth j x 0) (nth j g 0).
Proof.
  intros C Lx Hx. unfold nlopt_objective. pose proof (slice_all x) as Sx0; rewrite Lx in Sx0; rewrite Sx0. cbn [bind].
  destruct (load_ok junk t dp rows x C Lx) as (t' & Ld). rewrite (ld_set _ _ _ Ld). cbn [bind].
  rewrite (nlopt_rows_ok junk t dp rows x C Lx t' Ld). cbn [bind]. rewrite (ld_nb _ _ _ Ld).
  destruct (nlopt_jac_rows_ok junk t dp rows x C Lx t' Ld Hx) as (g & E & Lg & D). rewrite E. cbn [bind].
  exists g, t'. split; [reflexivity|]. auto.
Qed.
Theorem ipopt_value_ok junk dp rows t x : comparable junk t dp rows -> length x = nb t ->
  exists t', ipopt_objective junk dp rows x t = Ok (sum_of_squares junk t dp rows x, t') /\ set_parameters t x = Ok t'.
Proof.
  intros C Lx. unfold ipopt_objective. pose proof (slice_all x) as Sx0; rewrite Lx in Sx0; rewrite Sx0. cbn [bind].
  destruct (load_ok junk t dp rows x C Lx) as (t' & Ld). rewrite (ld_set _ _ _ Ld). cbn [bind].
  rewrite (ipopt_rows_ok junk t dp rows x C Lx t' Ld). cbn [bind]. exists t'. auto.
Qed.
Theorem ipopt_gradient_ok junk dp rows t x : comparable junk t dp rows -> length x = nb t -> exact_for junk t dp x rows ->
  exists g t', ipopt_gradient junk dp rows x t = Ok (g, t') /\ set_parameters t x = Ok t' /\
    length g = nb t /\ forall j, (j < nb t)%nat -> derivable_pt_lim (fun u => sum_of_squares junk t dp rows (upd x j u)) (nth j x 0) (nth j g 0).
Proof.
  intros C Lx Hx. unfold ipopt_gradient. pose proof (slice_all x) as Sx0; rewrite Lx in Sx0; rewrite Sx0. cbn [bind].
  destruct (load_ok junk t dp rows x C Lx) as (t' & Ld). rewrite (ld_set _ _ _ Ld). cbn [bind]. rewrite (ld_nb _ _ _ Ld).
  destruct (ipopt_jac_rows_ok junk t dp rows x C Lx t' Ld Hx) as (g & E & Lg & D). rewrite E. cbn [bind].
  exists g, t'. split; [reflexivity|]. auto.
Qed.
(** without cosine, Eigen's residual vector has the same sum of squares *)
Lemma in_nth_error {A} (l : list A) x : In x l -> exists n, nth_error l n = Some x.
Proof. intros H. apply In_nth_error in H. exact H. Qed.

(** C72-C75: the non linear fitters. *)
From Coq Require Import Reals List Lra Lia.
From Verif Require Import Base ParamsModel GeoModel CommonModel TextModel NlModel NlMoreModel FuncModel FuncSpec FuncProofs PropsFunc FitModel FitSpec FitProofs FitProofs2 FitProofs3 FitProofs4.
Open Scope R_scope.

(** ** C72 nonlinear_fitter_eigen *)
Theorem C72_residual : forall junk dp rows cosw t x y, comparable junk t dp rows -> length x = nb t -> length y = (dimY dp * length rows)%nat ->
  within t x ->
  exists y' t', eigen_residual junk dp rows cosw x y t = Ok (Some y', t') /\ set_parameters t x = Ok t' /\
    length y' = (dimY dp * length rows)%nat /\
    forall s r i, nth_error rows s = Some r -> (i < dimY dp)%nat -> nth (i * length rows + s) y' 0 = misfit junk t dp cosw x r i.
Proof. exact eigen_residual_ok. Qed.
Print Assumptions C72_residual.

Theorem C72_refuses_outside_bounds : forall junk dp rows cosw t x y, tree_ok t -> length x = nb t ->
  ~ within t x -> eigen_residual junk dp rows cosw x y t = Ok (None, t).
Proof. exact eigen_refuses. Qed.
Print Assumptions C72_refuses_outside_bounds.

Theorem C72_jacobian : forall junk dp rows cosw t x m, comparable junk t dp rows -> length x = nb t ->
  matrix (dimY dp * length rows) (nb t) m -> exact_for junk t dp x rows ->
  exists m' t', eigen_jacobian junk dp rows cosw x m t = Ok (m', t') /\ set_parameters t x = Ok t' /\
    matrix (dimY dp * length rows) (nb t) m' /\
    forall s r i j, nth_error rows s = Some r -> (i < dimY dp)%nat -> (j < nb t)%nat ->
      derivable_pt_lim (fun u => misfit junk t dp cosw (upd x j u) r i) (nth j x 0) (entry m' (i * length rows + s) j).
Proof. exact eigen_jacobian_ok. Qed.
Print Assumptions C72_jacobian.

(** ** C73 nonlinear_fitter_nlopt and nonlinear_fitter_ipopt *)
Theorem C73_nlopt_value : forall junk dp rows t x, comparable junk t dp rows -> length x = nb t ->
  exists t', nlopt_objective junk dp rows x false t = Ok ((sum_of_squares junk t dp rows x, None), t') /\ set_parameters t x = Ok t'.
Proof. exact nlopt_value_ok. Qed.
Print Assumptions C73_nlopt_value.

Theorem C73_nlopt_gradient : forall junk dp rows t x, comparable junk t dp rows -> length x = nb t -> exact_for junk t dp x rows ->
  exists g t', nlopt_objective junk dp rows x true t = Ok ((sum_of_squares junk t dp rows x, Some g), t') /\ set_parameters t x = Ok t' /\
    length g = nb t /\ forall j, (j < nb t)%nat -> derivable_pt_lim (fun u => sum_of_squares junk t dp rows (upd x j u)) (nth j x 0) (nth j g 0).
Proof. exact nlopt_gradient_ok. Qed.
Print Assumptions C73_nlopt_gradient.

Theorem C73_ipopt_value : forall junk dp rows t x, comparable junk t dp rows -> length x = nb t ->
  exists t', ipopt_objective junk dp rows x t = Ok (sum_of_squares junk t dp rows x, t') /\ set_parameters t x = Ok t'.
Proof. exact ipopt_value_ok. Qed.
Print Assumptions C73_ipopt_value.

Theorem C73_ipopt_gradient : forall junk dp rows t x, comparable junk t dp rows -> length x = nb t -> exact_for junk t dp x rows ->
  exists g t', ipopt_gradient junk dp rows x t = Ok (g, t') /\ set_parameters t x = Ok t' /\
    length g = nb t /\ forall j, (j < nb t)%nat -> derivable_pt_lim (fun u => sum_of_squares junk t dp rows (upd x j u)) (nth j x 0) (nth j g 0).
Proof. exact ipopt_gradient_ok. Qed.
Print Assumptions C73_ipopt_gradient.

(** ** C74 nonlinear_fitter_ceres *)
(** the vector made from a sample: its position, then its values *)
Theorem C74_block : forall junk t dp rows r, comparable junk t dp rows -> In r rows ->
  exists x b, position junk t dp r = Ok x /\ ceres_block junk dp (par_of t) r = Ok b /\
    (forall k, (k < dimX (par_of t))%nat -> b k = x k) /\
    forall i, (i < dimY (par_of t))%nat -> observed_in t b i = observed dp r i.
Proof. exact ceres_block_ok. Qed.
Print Assumptions C74_block.

Theorem C74_block_misfit : forall junk t dp rows r b x i, comparable junk t dp rows -> In r rows -> ceres_block junk dp (par_of t) r = Ok b ->
  (i < dimY (par_of t))%nat -> length x = nb t -> reads_position junk t x ->
  observed_in t b i - predicted_at junk t x b i = misfit junk t dp false x r i /\
  log_misfit junk t x b i = ln (1 + observed dp r i) - ln (1 + predicted junk t dp x r i).
Proof. exact ceres_misfit. Qed.
Print Assumptions C74_block_misfit.

Theorem C74_residual : forall junk t x xi w, tree_ok t -> length x = nb t -> within t x -> value junk t xi = Ok w ->
  (exists y t', ceres_evaluate junk false xi x false t = Ok (Some (y, None), t') /\ set_parameters t x = Ok t' /\
    length y = dimY (par_of t) /\ forall i, (i < dimY (par_of t))%nat -> nth i y 0 = observed_in t xi i - predicted_at junk t x xi i) /\
  (exists y t', ceres_evaluate junk true xi x false t = Ok (Some (y, None), t') /\ set_parameters t x = Ok t' /\
    length y = dimY (par_of t) /\ forall i, (i < dimY (par_of t))%nat -> nth i y 0 = log_misfit junk t x xi i).
Proof. intros junk t x xi w T Lx W V. split; [exact (ceres_value_ok junk false t x xi w T Lx W V)|exact (ceres_value_ok junk true t x xi w T Lx W V)]. Qed.
Print Assumptions C74_residual.

Theorem C74_refuses_outside_bounds : forall junk logf t x xi grad, tree_ok t -> length x = nb t ->
  ~ within t x -> ceres_evaluate junk logf xi x grad t = Ok (None, t).
Proof. exact ceres_refuses. Qed.
Print Assumptions C74_refuses_outside_bounds.

(** without --log-fit the Jacobian is that of the residual *)
Theorem C74_jacobian : forall junk t x xi w, tree_ok t -> length x = nb t -> within t x -> value junk t xi = Ok w ->
  (forall t', set_parameters t x = Ok t' -> leaves_gradient junk t' xi) ->
  exists y g t', ceres_evaluate junk false xi x true t = Ok (Some (y, Some g), t') /\ set_parameters t x = Ok t' /\
    length y = dimY (par_of t) /\ (forall i, (i < dimY (par_of t))%nat -> nth i y 0 = observed_in t xi i - predicted_at junk t x xi i) /\
    length g = (dimY (par_of t) * nb t)%nat /\ forall i j, (i < dimY (par_of t))%nat -> (j < nb t)%nat ->
      derivable_pt_lim (fun u => observed_in t xi i - predicted_at junk t (upd x j u) xi i) (nth j x 0) (nth (i * nb t + j) g 0).
Proof.
  intros junk t x xi w T Lx W V Lg. destruct (ceres_jacobian_ok junk false t x xi w T Lx W V Lg) as (y & g & t' & E & Es & Ly & Ny & Lg' & D & HD).
  exists y, g, t'. do 5 (split; [assumption|]). intros i j Hi Hj. destruct (HD i j Hi Hj) as [Hd ->].
  unfold ceres_jac_entry. replace (- D i j) with (0 - D i j) by ring.
  apply (derivable_pt_lim_minus (fun _ => observed_in t xi i) (fun u => predicted_at junk t (upd x j u) xi i)); [apply derivable_pt_lim_const|exact Hd].
Qed.
Print Assumptions C74_jacobian.

(** with --log-fit it is, for an entry, only where the function does not depend
    on the parameter or already has the value of the sample *)
Theorem C74_log_jacobian_iff : forall junk t x xi w, tree_ok t -> length x = nb t -> within t x -> value junk t xi = Ok w ->
  (forall t', set_parameters t x = Ok t' -> leaves_gradient junk t' xi) ->
  exists y g t', ceres_evaluate junk true xi x true t = Ok (Some (y, Some g), t') /\ set_parameters t x = Ok t' /\
    length y = dimY (par_of t) /\ (forall i, (i < dimY (par_of t))%nat -> nth i y 0 = log_misfit junk t x xi i) /\
    length g = (dimY (par_of t) * nb t)%nat /\ forall i j, (i < dimY (par_of t))%nat -> (j < nb t)%nat ->
      0 < 1 + predicted_at junk t x xi i -> 0 < 1 + observed_in t xi i ->
      (derivable_pt_lim (fun u => log_misfit junk t (upd x j u) xi i) (nth j x 0) (nth (i * nb t + j) g 0) <->
       derivable_pt_lim (fun u => predicted_at junk t (upd x j u) xi i) (nth j x 0) 0 \/ predicted_at junk t x xi i = observed_in t xi i).
Proof.
  intros junk t x xi w T Lx W V Lg. destruct (ceres_jacobian_ok junk true t x xi w T Lx W V Lg) as (y & g & t' & E & Es & Ly & Ny & Lg' & D & HD).
  exists y, g, t'. do 5 (split; [assumption|]). intros i j Hi Hj P O. destruct (HD i j Hi Hj) as [Hd ->].
  rewrite (log_entry_iff junk t x xi i j (D i j) Hd P O). split; intros [H|H]; auto.
  - left. rewrite H in Hd. exact Hd.
  - left. exact (uniqueness_limite _ _ _ _ Hd H).
Qed.
Print Assumptions C74_log_jacobian_iff.

(** the constant 3 compared with the value 1: the entry is -1/2, the derivative -1/4 *)
Theorem C74_log_jacobian_refuted : exists junk t x xi w, tree_ok t /\ length x = nb t /\ within t x /\ value junk t xi = Ok w /\
  (forall t', set_parameters t x = Ok t' -> leaves_gradient junk t' xi) /\
  0 < 1 + predicted_at junk t x xi 0 /\ 0 < 1 + observed_in t xi 0 /\
  exists y g t', ceres_evaluate junk true xi x true t = Ok (Some (y, Some g), t') /\
    ~ derivable_pt_lim (fun u => log_misfit junk t (upd x 0 u) xi 0) (nth 0 x 0) (nth 0 g 0).
Proof.
  exists 77, (Leaf demo_const [4]), [3], (fun _ => 1), [4].
  assert (T : tree_ok (Leaf demo_const [4])) by (cbn; unfold leaf_ok; repeat split).
  assert (W : within (Leaf demo_const [4]) [3]).
  { intros i Hi. cbn in Hi. destruct i; [|lia]. cbn. lra. }
  assert (Lg : forall t', set_parameters (Leaf demo_const [4]) [3] = Ok t' -> leaves_gradient 77 t' (fun _ => 1)).
  { intros t' E. cbn in E. apply Ok_inj in E. subst t'. apply demo_const_gradient. }
  assert (Pv : predicted_at 77 (Leaf demo_const [4]) [3] (fun _ => 1) 0 = 3) by reflexivity.
  assert (Ov : observed_in (Leaf demo_const [4]) (fun _ => 1) 0 = 1) by reflexivity.
  split; [exact T|]. split; [reflexivity|]. split; [exact W|]. split; [reflexivity|]. split; [exact Lg|].
  rewrite Pv, Ov. split; [lra|]. split; [lra|].
  destruct (C74_log_jacobian_iff 77 (Leaf demo_const [4]) [3] (fun _ => 1) [4] T eq_refl W eq_refl Lg) as (y & g & t' & E & _ & _ & _ & _ & H).
  exists y, g, t'. split; [exact E|]. intros Hd. specialize (H 0%nat 0%nat ltac:(cbn; lia) ltac:(cbn; lia)). rewrite Pv, Ov in H.
  apply H in Hd; [|lra|lra]. destruct Hd as [Hd|Hd]; [|lra].
  pose proof (demo_const_gradient 3 (fun _ => 1) 0%nat 0%nat ltac:(cbn; lia) ltac:(cbn; lia)) as Hc. cbn in Hc.
  pose proof (uniqueness_limite _ _ _ _ Hd Hc). lra.
Qed.
Print Assumptions C74_log_jacobian_refuted.

(** ** C75 fit_data around any solver *)
Theorem C75_not_nonlinear : forall junk dp rows dmin dmax boot o, fo_fun o = None ->
  (forall cosw lm, eigen_fit junk dp rows dmin dmax boot cosw lm o = Ok (false, mkFobject dmin dmax None)) /\
  (forall opt, nlopt_fit junk dp rows dmin dmax boot opt o = Ok (false, mkFobject dmin dmax None)) /\
  (forall app, ipopt_fit junk dp rows dmin dmax boot app o = Ok (false, mkFobject dmin dmax None)) /\
  (forall logf ce, ceres_fit junk dp rows dmin dmax boot logf ce o = Ok (false, mkFobject dmin dmax None)).
Proof. intros junk dp rows dmin dmax boot o H. unfold eigen_fit, nlopt_fit, ipopt_fit, ceres_fit, fit_with. rewrite H. auto. Qed.
Print Assumptions C75_not_nonlinear.

(** a function without parameters is accepted as it is; only Ceres does not bootstrap it *)
Theorem C75_no_parameter : forall junk dp rows dmin dmax boot o t t1, fo_fun o = Some t -> boot t = Ok t1 -> nb t = 0%nat -> nb t1 = 0%nat ->
  (forall cosw lm, eigen_fit junk dp rows dmin dmax boot cosw lm o = Ok (true, mkFobject dmin dmax (Some t1))) /\
  (forall opt, nlopt_fit junk dp rows dmin dmax boot opt o = Ok (true, mkFobject dmin dmax (Some t1))) /\
  (forall app, ipopt_fit junk dp rows dmin dmax boot app o = Ok (true, mkFobject dmin dmax (Some t1))) /\
  (forall logf ce, ceres_fit junk dp rows dmin dmax boot logf ce o = Ok (true, mkFobject dmin dmax (Some t))).
Proof.
  intros junk dp rows dmin dmax boot o t t1 H B N N1. unfold eigen_fit, nlopt_fit, ipopt_fit, ceres_fit, fit_with. rewrite H, B, N. cbn [bind andb negb Nat.eqb].
  rewrite N1. auto.
Qed.
Print Assumptions C75_no_parameter.

Theorem C75_eigen : forall junk dp rows dmin dmax boot cosw lm o o' t t1 p b (K : list R -> Prop),
  fo_fun o = Some t -> boot t = Ok t1 -> nb t1 <> 0%nat -> tree_ok t1 -> get_parameters junk t1 = Ok p -> K p ->
  asks (lm_sized (nb t1) K) (fun e => length (snd e) = nb t1) (lm p) ->
  eigen_fit junk dp rows dmin dmax boot cosw lm o = Ok (b, o') ->
  fo_min o' = dmin /\ fo_max o' = dmax /\
  exists t' q info x t2, fo_fun o' = Some t' /\ free_change t1 t' /\ get_parameters junk t' = Ok q /\
    run (lm_ans junk dp rows cosw) (lm p) t1 = Ok ((info, x), t2) /\
    (b = true <-> info = OtherInfo) /\ (b = true -> q = x) /\ (b = false -> K q).
Proof.
  intros junk dp rows dmin dmax boot cosw lm o o' t t1 p b K H B N T1 G Kp A E. unfold eigen_fit in E.
  rewrite (fit_eq boot dmin dmax false (eigen_solve junk dp rows cosw lm) o t t1 H B N) in E.
  destruct (eigen_solve junk dp rows cosw lm t1) as [[b' t']| | |] eqn:Es; try discriminate. cbn in E. injection E as <- <-.
  destruct (eigen_protocol junk dp rows t1 K p T1 G Kp cosw lm b' t' A Es) as (Ch & q & info & x & t2 & X).
  split; [reflexivity|]. split; [reflexivity|]. exists t', q, info, x, t2. tauto.
Qed.
Print Assumptions C75_eigen.

Theorem C75_nlopt : forall junk dp rows dmin dmax boot nl o o' t t1 p b (K : list R -> Prop),
  fo_fun o = Some t -> boot t = Ok t1 -> nb t1 <> 0%nat -> tree_ok t1 -> get_parameters junk t1 = Ok p -> K p ->
  (forall mn mx, asks (fun q => length (fst q) = nb t1 /\ K (fst q)) (fun e => length (snd e) = nb t1) (nl p mn mx)) ->
  nlopt_fit junk dp rows dmin dmax boot (Some nl) o = Ok (b, o') ->
  fo_min o' = dmin /\ fo_max o' = dmax /\
  exists t' q mn mx res x t2, fo_fun o' = Some t' /\ free_change t1 t' /\ get_parameters junk t' = Ok q /\
    get_parameters_min junk t1 = Ok mn /\ get_parameters_max junk t1 = Ok mx /\
    run (nlopt_ans junk dp rows) (nl p mn mx) t1 = Ok ((res, x), t2) /\
    (b = true <-> (0 < res)%Z) /\ (b = true -> q = x) /\ (b = false -> K q).
Proof.
  intros junk dp rows dmin dmax boot nl o o' t t1 p b K H B N T1 G Kp A E. unfold nlopt_fit in E.
  rewrite (fit_eq boot dmin dmax false (nlopt_solve junk dp rows (Some nl)) o t t1 H B N) in E.
  destruct (nlopt_solve junk dp rows (Some nl) t1) as [[b' t']| | |] eqn:Es; try discriminate. cbn in E. injection E as <- <-.
  destruct (nlopt_protocol junk dp rows t1 K p T1 G Kp nl b' t' A Es) as (Ch & q & mn & mx & res & x & t2 & X).
  split; [reflexivity|]. split; [reflexivity|]. exists t', q, mn, mx, res, x, t2. tauto.
Qed.
Print Assumptions C75_nlopt.

Theorem C75_ipopt : forall junk dp rows dmin dmax boot ip o o' t t1 p b (K : list R -> Prop),
  fo_fun o = Some t -> boot t = Ok t1 -> nb t1 <> 0%nat -> tree_ok t1 -> get_parameters junk t1 = Ok p -> K p ->
  (forall mn mx, asks (ip_sized (nb t1) K) (fun e => forall x, snd e = Some x -> length x = nb t1) (ip p mn mx)) ->
  ipopt_fit junk dp rows dmin dmax boot (Some ip) o = Ok (b, o') ->
  fo_min o' = dmin /\ fo_max o' = dmax /\
  exists t' q mn mx st x t2, fo_fun o' = Some t' /\ free_change t1 t' /\ get_parameters junk t' = Ok q /\
    get_parameters_min junk t1 = Ok mn /\ get_parameters_max junk t1 = Ok mx /\
    run (ip_ans junk dp rows) (ip p mn mx) t1 = Ok ((st, x), t2) /\
    (b = true <-> st = Solve_Succeeded \/ st = Maximum_Iterations_Exceeded) /\ (forall z, x = Some z -> q = z) /\ (x = None -> K q).
Proof.
  intros junk dp rows dmin dmax boot ip o o' t t1 p b K H B N T1 G Kp A E. unfold ipopt_fit in E.
  rewrite (fit_eq boot dmin dmax false (ipopt_solve junk dp rows (Some ip)) o t t1 H B N) in E.
  destruct (ipopt_solve junk dp rows (Some ip) t1) as [[b' t']| | |] eqn:Es; try discriminate. cbn in E. injection E as <- <-.
  destruct (ipopt_protocol junk dp rows t1 K p T1 G Kp ip b' t' A Es) as (Ch & q & mn & mx & st & x & t2 & X).
  split; [reflexivity|]. split; [reflexivity|]. exists t', q, mn, mx, st, x, t2. tauto.
Qed.
Print Assumptions C75_ipopt.

(** Ceres: success is always reported *)
Theorem C75_ceres : forall junk dp rows dmin dmax boot logf ce o o' t t1 p b,
  fo_fun o = Some t -> boot t = Ok t1 -> nb t <> 0%nat -> tree_ok t1 -> get_parameters junk t1 = Ok p ->
  asks (fun q => length (snd (fst q)) = nb t1) (fun e => length e = nb t1) (ce p) ->
  ceres_fit junk dp rows dmin dmax boot logf ce o = Ok (b, o') ->
  b = true /\ fo_min o' = dmin /\ fo_max o' = dmax /\
  exists t' bs x t2, fo_fun o' = Some t' /\ free_change t1 t' /\ ceres_blocks junk dp (par_of t1) rows = Ok bs /\
    run (ceres_ans junk logf bs) (ce p) t1 = Ok (x, t2) /\ get_parameters junk t' = Ok x.
Proof.
  intros junk dp rows dmin dmax boot logf ce o o' t t1 p b H B N T1 G A E. unfold ceres_fit in E.
  rewrite (fit_eq boot dmin dmax true (ceres_solve junk dp rows logf ce) o t t1 H B N) in E.
  destruct (ceres_solve junk dp rows logf ce t1) as [[b' t']| | |] eqn:Es; try discriminate. cbn in E. injection E as <- <-.
  destruct (ceres_protocol junk dp rows t1 p T1 G logf ce b' t' A Es) as (Hb & Ch & bs & x & t2 & X).
  split; [exact Hb|]. split; [reflexivity|]. split; [reflexivity|]. exists t', bs, x, t2. tauto.
Qed.
Print Assumptions C75_ceres.

(** ** Concrete cases *)
Definition demo_rows : list (list R) := [[1 / 2; 3]; [1; 4]].
Example demo_comparable : comparable 77 demo_tree demo_par demo_rows.
Proof.
  split; [exact demo_ok|]. split; [reflexivity|]. split; [cbn; lia|].
  repeat constructor; try (cbn; lia); try (eexists; reflexivity); eexists; eexists; split; reflexivity.
Qed.
Example demo_exact x : length x = 4%nat -> exact_for 77 demo_tree demo_par x demo_rows.
Proof.
  destruct x as [|a [|b [|c [|d [|]]]]]; try discriminate. intros _ t' E. cbn in E. apply Ok_inj in E. subst t'.
  apply Forall_forall. intros r _ x _. cbn [leaves_gradient fold_right snd].
  repeat split; intros; cbn [leaves_gradient]; try split; intros; cbn [leaves_gradient]; auto using demo_affine_gradient, demo_const_gradient.
Qed.
Example C72_case : within demo_tree [1; 2; 3; 4] /\ ~ within demo_tree [11; 2; 3; 4] /\
  nb demo_tree = 4%nat /\ matrix 2 4 (repeat (repeat 0 4) 2) /\ exact_for 77 demo_tree demo_par [1; 2; 3; 4] demo_rows.
Proof.
  repeat split; try (apply demo_exact; reflexivity).
  - destruct i as [|[|[|[|i]]]]; cbn in *; try lra; lia.
  - destruct i as [|[|[|[|i]]]]; cbn in *; try lra; lia.
  - intros H. specialize (H 0%nat ltac:(cbn; lia)). cbn in H. lra.
  - intros i Hi. destruct i as [|[|]]; cbn; lia.
Qed.
Lemma rltb_false a b : b <= a -> rltb a b = false.
Proof. intros H. unfold rltb. destruct (Rlt_dec a b); [lra|reflexivity]. Qed.
Ltac below := match goal with |- context [rltb ?a ?b] => rewrite (rltb_false a b) by lra; cbn -[rltb Rmult Rplus Rminus Rdiv] end.
(* fixed 4 + free 5 + 3 (1 + 2 x): at 1/2 the value is 15, at 1 it is 18 *)
Example C72_values : eigen_residual 77 demo_par demo_rows false [1; 2; 3; 5] [0; 0] demo_tree =
  Ok (Some [3 - 1 * (0 + 3 * (1 + 2 * (1 / 2)) + 4 + 5); 4 - 1 * (0 + 3 * (1 + 2 * 1) + 4 + 5)], demo_tree).
Proof.
  unfold eigen_residual. cbn -[rltb Rmult Rplus Rminus Rdiv].
  repeat below. reflexivity.
Qed.
Example C73_case : nlopt_objective 77 demo_par demo_rows [1; 2; 3; 5] false demo_tree =
  Ok ((0 + (0 + 3 * (1 + 2 * (1 / 2)) + 4 + 5 - 3) ^ 2 + (0 + 3 * (1 + 2 * 1) + 4 + 5 - 4) ^ 2, None), demo_tree).
Proof. reflexivity. Qed.
Example C74_case : reads_position 77 demo_tree [1; 2; 3; 4] /\ 
  exists b, ceres_block 77 demo_par demo_par [1 / 2; 3] = Ok b /\ b 0%nat = 1 / 2 /\ b 1%nat = 3 /\ exists w, value 77 demo_tree b = Ok w.
Proof.
  split.
  - intros t' a b E H. cbn in E. apply Ok_inj in E. subst t'. specialize (H 0%nat ltac:(cbn; lia)). cbv -[Rmult Rplus IZR]. rewrite H. reflexivity.
  - eexists. split; [reflexivity|]. split; [reflexivity|]. split; [reflexivity|]. eexists. reflexivity.
Qed.
(* a solver that evaluates the starting point and another one, then stops at the better *)
Definition demo_nl (p _ _ : list R) : FitModel.solver (list R * bool) (R * option (list R)) (Z * list R) :=
  Ask (p, false) (fun a => Ask ([1; 1; 1; 1], false) (fun b => if rltb (fst a) (fst b) then Stop (1%Z, p) else Stop (1%Z, [1; 1; 1; 1]))).
Example C75_case :
  (forall mn mx, asks (fun q => length (fst q) = 4%nat /\ True) (fun e => length (snd e) = 4%nat) (demo_nl [1; 2; 3; 5] mn mx)) /\
  exists t', nlopt_fit 77 demo_par demo_rows [0] [1] Ok (Some demo_nl) (mkFobject [] [] (Some demo_tree)) = Ok (true, mkFobject [0] [1] (Some t')) /\
    get_parameters 77 t' = Ok [1; 1; 1; 1].
Proof.
  split.
  - intros mn mx. cbn. repeat split. intros b. destruct (rltb (fst a) (fst b)); reflexivity.
  - set (a := 0 + (0 + 3 * (1 + 2 * (1 / 2)) + 4 + 5 - 3) ^ 2 + (0 + 3 * (1 + 2 * 1) + 4 + 5 - 4) ^ 2).
    set (b := 0 + (0 + 1 * (1 + 1 * (1 / 2)) + 4 + 1 - 3) ^ 2 + (0 + 1 * (1 + 1 * 1) + 4 + 1 - 4) ^ 2).
    assert (E1 : nlopt_ans 77 demo_par demo_rows ([1; 2; 3; 5], false) demo_tree = Ok ((a, None), demo_tree)) by reflexivity.
    set (t1 := Compound demo_par [(false, Product demo_par false false (Leaf demo_affine [1; 1]) (Leaf demo_const [1])); (true, Leaf demo_const [4]); (false, Leaf demo_const [1])]).
    assert (E2 : nlopt_ans 77 demo_par demo_rows ([1; 1; 1; 1], false) demo_tree = Ok ((b, None), t1)) by reflexivity.
    exists t1. split; [|reflexivity]. unfold nlopt_fit, fit_with. cbn [fo_fun andb negb bind].
    change (nb demo_tree) with 4%nat. cbn [Nat.eqb]. unfold nlopt_solve. change (get_parameters 77 demo_tree) with (Ok [1; 2; 3; 5]). cbn [bind].
    change (get_parameters_min 77 demo_tree) with (Ok [-10; -10; 0; 0]). cbn [bind].
    change (get_parameters_max 77 demo_tree) with (Ok [10; 10; 5; 5]). cbn [bind].
    unfold demo_nl. cbn [run]. rewrite E1. cbn [bind fst snd]. rewrite E2. cbn [bind fst snd].
    rewrite (rltb_false a b) by (unfold a, b; lra). reflexivity.
Qed.

(** The block of a sample for Ceres, and the protocol of the four fitters. *)
From Coq Require Import Reals List Lra Lia.
From Verif Require Import Base ParamsModel GeoModel CommonModel TextModel NlModel NlMoreModel FuncModel FuncSpec FuncProofs FitModel FitSpec FitProofs FitProofs2 FitProofs3.
Open Scope R_scope.

Lemma nth_skip (l : list R) : forall k i, nth i (skipn k l) 0 = nth (k + i) l 0.
Proof.
  induction l as [|a l IH]; intros k i.
  - rewrite skipn_nil. destruct i, (k + 0)%nat, k; cbn; try reflexivity; destruct (k + S i)%nat; reflexivity.
  - destruct k; [reflexivity|]. cbn. apply IH.
Qed.
Lemma ceres_block_ok junk t dp rows r : comparable junk t dp rows -> In r rows ->
  exists x b, position junk t dp r = Ok x /\ ceres_block junk dp (par_of t) r = Ok b /\
    (forall k, (k < dimX (par_of t))%nat -> b k = x k) /\
    forall i, (i < dimY (par_of t))%nat -> observed_in t b i = observed dp r i.
Proof.
  intros (_ & Dy & Dx & F) H. destruct (proj1 (Forall_forall _ _) F r H) as (Lr & Dr & _ & x & v & Px & _).
  exists x. unfold ceres_block.
  destruct (Nat.ltb_spec (length r) (Z.to_nat (dimension_in (in_param dp)))) as [Hlt|_]; [exfalso; lia|].
  destruct (Nat.ltb_spec (dimX (par_of t) + dimY (par_of t)) (Z.to_nat (dimension_in (in_param (par_of t))))) as [Hlt|_]; [exfalso; lia|].
  unfold position in Px. rewrite Px. cbn [bind]. rewrite Dy, (slice_tail r (dimX dp) (dimY dp) Lr). cbn [bind].
  eexists. split; [exact Px|]. split; [reflexivity|]. split.
  - intros k Hk. cbv beta. destruct (Nat.leb_spec (dimX (par_of t)) k); [lia|]. reflexivity.
  - intros i Hi. unfold observed_in, observed. destruct (Nat.leb_spec (dimX (par_of t)) (dimX (par_of t) + i)); [|lia].
    destruct (Nat.ltb_spec (dimX (par_of t) + i) (dimX (par_of t) + dimY dp)); [|lia]. cbn [andb].
    replace (dimX (par_of t) + i - dimX (par_of t))%nat with i by lia. apply nth_skip.
Qed.
Lemma ceres_blocks_ok junk t dp rows : comparable junk t dp rows -> forall l, incl l rows ->
  exists bs, ceres_blocks junk dp (par_of t) l = Ok bs /\ Forall2 (fun r b => ceres_block junk dp (par_of t) r = Ok b) l bs.
Proof.
  intros C. induction l as [|r l IH]; intros I.
  - exists []. split; [reflexivity|constructor].
  - destruct (ceres_block_ok junk t dp rows r C (I r (or_introl eq_refl))) as (x & b & _ & Eb & _).
    destruct (IH (fun a Ha => I a (or_intror Ha))) as (bs & Es & Fs). exists (b :: bs). cbn. rewrite Eb. cbn. rewrite Es. cbn. split; [reflexivity|constructor; assumption].
Qed.
(** the residual of the block of a sample is its misfit *)
Lemma ceres_misfit junk t dp rows r b x i : comparable junk t dp rows -> In r rows -> ceres_block junk dp (par_of t) r = Ok b ->
  (i < dimY (par_of t))%nat -> length x = nb t -> reads_position junk t x ->
  observed_in t b i - predicted_at junk t x b i = misfit junk t dp false x r i /\
  log_misfit junk t x b i = ln (1 + observed dp r i) - ln (1 + predicted junk t dp x r i).
Proof.
  intros C H Eb Hi Lx Rd. destruct (ceres_block_ok junk t dp rows r C H) as (p & b' & Ep & Eb' & B1 & B2). rewrite Eb in Eb'. apply Ok_inj in Eb'. subst b'.
  assert (E : predicted_at junk t x b i = predicted junk t dp x r i).
  { unfold predicted_at, predicted. destruct (set_spec t x (comparable_ok _ _ _ _ C) Lx) as (t1 & E1 & _). rewrite E1. cbn [bind]. rewrite Ep. cbn [bind].
    rewrite (Rd t1 b p E1 B1). reflexivity. }
  unfold log_misfit, misfit, weight. rewrite E, B2 by exact Hi. split; [ring|reflexivity].
Qed.

(** ** The protocol *)
Lemma fit_eq boot dmin dmax cf solve o t t1 : fo_fun o = Some t -> boot t = Ok t1 -> (if cf : bool then nb t else nb t1) <> O ->
  fit_with dmin dmax boot cf solve o = do r <- solve t1; Ok (fst r, mkFobject dmin dmax (Some (snd r))).
Proof.
  intros E B N. unfold fit_with. rewrite E. destruct cf; cbn [andb negb].
  - destruct (Nat.eqb_spec (nb t) 0) as [X|_]; [contradiction|]. rewrite B. reflexivity.
  - rewrite B. cbn [bind]. destruct (Nat.eqb_spec (nb t1) 0) as [X|_]; [contradiction|]. reflexivity.
Qed.
Section Protocol.
Variable junk : R.
Variable dp : parameters.
Variable rows : list (list R).
Variable t1 : tree.
Variable K : list R -> Prop.
Variable p : list R.
Hypothesis T1 : tree_ok t1.
Hypothesis G : get_parameters junk t1 = Ok p.
Hypothesis Kp : K p.
Lemma started : state junk t1 K t1.
Proof. apply state_start; [exact T1|]. intros q Hq. rewrite G in Hq. apply Ok_inj in Hq. subst q. exact Kp. Qed.

Lemma eigen_protocol cosw lm b t' : asks (lm_sized (nb t1) K) (fun e => length (snd e) = nb t1) (lm p) ->
  eigen_solve junk dp rows cosw lm t1 = Ok (b, t') ->
  free_change t1 t' /\ exists q info x t2, get_parameters junk t' = Ok q /\ run (lm_ans junk dp rows cosw) (lm p) t1 = Ok ((info, x), t2) /\
    (b = true <-> info = OtherInfo) /\ (b = true -> q = x) /\ (b = false -> K q).
Proof.
  intros A E. unfold eigen_solve in E. rewrite G in E. cbn [bind] in E.
  destruct (run (lm_ans junk dp rows cosw) (lm p) t1) as [[[info x] t2]| | |] eqn:Er; try discriminate. cbn [bind fst snd] in E.
  destruct (run_inv _ _ _ (state junk t1 K) (fun q t a t' Hq Ht => lm_step junk dp rows cosw t1 K q t a t' T1 Hq Ht) _ _ _ _ A started Er) as [Lx St].
  cbn [snd] in Lx. destruct info.
  - injection E as <- <-. destruct (St) as (_ & Ch & _ & q & Gq & Kq). split; [exact Ch|]. exists q, ImproperInputParameters, x, t2. repeat split; auto; discriminate.
  - injection E as <- <-. destruct (St) as (_ & Ch & _ & q & Gq & Kq). split; [exact Ch|]. exists q, UserAsked, x, t2. repeat split; auto; discriminate.
  - rewrite (slice_exact x (nb t1) Lx) in E. cbn [bind] in E. destruct (set_parameters t2 x) as [t3| | |] eqn:E3; try discriminate. cbn [bind] in E. injection E as <- <-.
    destruct (set_final junk t1 K t2 x t3 T1 St Lx E3) as [Gx Ch]. split; [exact Ch|]. exists x, OtherInfo, x, t2. repeat split; auto; discriminate.
Qed.
Lemma nlopt_protocol nl b t' : (forall mn mx, asks (fun q => length (fst q) = nb t1 /\ K (fst q)) (fun e => length (snd e) = nb t1) (nl p mn mx)) ->
  nlopt_solve junk dp rows (Some nl) t1 = Ok (b, t') ->
  free_change t1 t' /\ exists q mn mx res x t2, get_parameters junk t' = Ok q /\ get_parameters_min junk t1 = Ok mn /\ get_parameters_max junk t1 = Ok mx /\
    run (nlopt_ans junk dp rows) (nl p mn mx) t1 = Ok ((res, x), t2) /\
    (b = true <-> (0 < res)%Z) /\ (b = true -> q = x) /\ (b = false -> K q).
Proof.
  intros A E. unfold nlopt_solve in E. rewrite G in E. cbn [bind] in E.
  destruct (get_parameters_min junk t1) as [mn| | |] eqn:Emn; try discriminate. cbn [bind] in E.
  destruct (get_parameters_max junk t1) as [mx| | |] eqn:Emx; try discriminate. cbn [bind] in E.
  destruct (run (nlopt_ans junk dp rows) (nl p mn mx) t1) as [[[res x] t2]| | |] eqn:Er; try discriminate. cbn [bind fst snd] in E.
  destruct (run_inv _ _ _ (state junk t1 K) (fun q t a t' Hq Ht => nlopt_step junk dp rows t1 K q t a t' T1 Hq Ht) _ _ _ _ (A mn mx) started Er) as [Lx St].
  cbn [snd] in Lx. destruct (Z.ltb_spec 0 res).
  - destruct (set_parameters t2 x) as [t3| | |] eqn:E3; try discriminate. cbn [bind] in E. injection E as <- <-.
    destruct (set_final junk t1 K t2 x t3 T1 St Lx E3) as [Gx Ch]. split; [exact Ch|]. exists x, mn, mx, res, x, t2. repeat split; auto; discriminate.
  - injection E as <- <-. destruct (St) as (_ & Ch & _ & q & Gq & Kq). split; [exact Ch|]. exists q, mn, mx, res, x, t2. repeat split; auto; try discriminate; intros; lia.
Qed.
Lemma ipopt_protocol ip b t' : (forall mn mx, asks (ip_sized (nb t1) K) (fun e => forall x, snd e = Some x -> length x = nb t1) (ip p mn mx)) ->
  ipopt_solve junk dp rows (Some ip) t1 = Ok (b, t') ->
  free_change t1 t' /\ exists q mn mx st x t2, get_parameters junk t' = Ok q /\ get_parameters_min junk t1 = Ok mn /\ get_parameters_max junk t1 = Ok mx /\
    run (ip_ans junk dp rows) (ip p mn mx) t1 = Ok ((st, x), t2) /\
    (b = true <-> st = Solve_Succeeded \/ st = Maximum_Iterations_Exceeded) /\ (forall z, x = Some z -> q = z) /\ (x = None -> K q).
Proof.
  intros A E. unfold ipopt_solve in E. rewrite G in E. cbn [bind] in E.
  destruct (get_parameters_min junk t1) as [mn| | |] eqn:Emn; try discriminate. cbn [bind] in E.
  destruct (get_parameters_max junk t1) as [mx| | |] eqn:Emx; try discriminate. cbn [bind] in E.
  destruct (run (ip_ans junk dp rows) (ip p mn mx) t1) as [[[st x] t2]| | |] eqn:Er; try discriminate. cbn [bind fst snd] in E.
  destruct (run_inv _ _ _ (state junk t1 K) (fun q t a t' Hq Ht => ip_step junk dp rows t1 K q t a t' T1 Hq Ht) _ _ _ _ (A mn mx) started Er) as [Lx St].
  cbn [snd] in Lx. destruct (match x with Some z => set_parameters t2 z | None => Ok t2 end) as [t3| | |] eqn:E3; try discriminate. cbn [bind] in E.
  assert (Bt : b = match st with OtherStatus => false | _ => true end /\ t' = t3) by (destruct st; injection E as <- <-; auto). destruct Bt as [-> ->].
  assert (Bs : (match st with OtherStatus => false | _ => true end = true <-> st = Solve_Succeeded \/ st = Maximum_Iterations_Exceeded))
    by (destruct st; split; auto; try discriminate; intros [X|X]; discriminate).
  destruct x as [z|].
  - destruct (set_final junk t1 K t2 z t3 T1 St (Lx z eq_refl) E3) as [Gx Ch]. split; [exact Ch|]. exists z, mn, mx, st, (Some z), t2.
    do 5 (split; [assumption || reflexivity|]). split; [intros y Y; congruence|discriminate].
  - apply Ok_inj in E3. subst t3. destruct (St) as (_ & Ch & _ & q & Gq & Kq). split; [exact Ch|]. exists q, mn, mx, st, None, t2.
    do 5 (split; [assumption || reflexivity|]). split; [discriminate|auto].
Qed.
Lemma ceres_protocol logf ce b t' : asks (fun q => length (snd (fst q)) = nb t1) (fun e => length e = nb t1) (ce p) ->
  ceres_solve junk dp rows logf ce t1 = Ok (b, t') ->
  b = true /\ free_change t1 t' /\ exists bs x t2, ceres_blocks junk dp (par_of t1) rows = Ok bs /\
    run (ceres_ans junk logf bs) (ce p) t1 = Ok (x, t2) /\ get_parameters junk t' = Ok x.
Proof.
  intros A E. unfold ceres_solve in E. rewrite G in E. cbn [bind] in E.
  destruct (ceres_blocks junk dp (par_of t1) rows) as [bs| | |] eqn:Eb; try discriminate. cbn [bind] in E.
  destruct (run (ceres_ans junk logf bs) (ce p) t1) as [[x t2]| | |] eqn:Er; try discriminate. cbn [bind fst snd] in E.
  assert (St0 : state junk t1 (fun _ => True) t1) by (apply state_start; auto).
  destruct (run_inv _ _ _ (state junk t1 (fun _ => True)) (fun q t a t' Hq Ht => ceres_step junk logf bs t1 (fun _ => True) q t a t' T1 (conj Hq I) Ht) _ _ _ _ A St0 Er) as [Lx St].
  destruct (set_parameters t2 x) as [t3| | |] eqn:E3; try discriminate. cbn [bind] in E. injection E as <- <-.
  destruct (set_final junk t1 _ t2 x t3 T1 St Lx E3) as [Gx Ch]. split; [reflexivity|]. split; [exact Ch|]. exists bs, x, t2. auto.
Qed.
End Protocol.

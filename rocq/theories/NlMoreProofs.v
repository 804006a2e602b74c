(** Diffuse, isotropic Lafortune, retro Yoo and SGD plugins. *)
From Coq Require Import Reals List Lia Lra.
From Verif Require Import Base ParamsModel GeoModel CommonModel FuncModel FuncSpec FuncProofs FuncJac TextModel NlModel NlSpec NlProofs NlGrad NlGrad2 NlMoreModel NlMoreSpec.
Open Scope R_scope.

(** ** Diffuse *)
Lemma std_min_spec a b : std_min a b <= a /\ std_min a b <= b /\ (std_min a b = a \/ std_min a b = b).
Proof. unfold std_min. destruct (rltb_dec b a); lra. Qed.

Lemma lower_ok dX nY s r kd : length r = (dX + nY)%nat -> length kd = nY ->
  exists kd', lower dX nY s r kd = Ok kd' /\ length kd' = nY /\
    forall j, (j < nY)%nat -> nth j kd' 0 = std_min (nth (dX + j) r 0 / s) (nth j kd 0).
Proof.
  intros Hr Hk.
  destruct (for_inv (fun m k => length k = nY /\ (forall j, (j < m)%nat -> nth j k 0 = std_min (nth (dX + j) r 0 / s) (nth j kd 0)) /\
     forall j, (m <= j)%nat -> nth j k 0 = nth j kd 0)
    (fun j kd => do v <- rd r (dX + j); do k <- rd kd j; wr kd j (std_min (v / s) k)) nY 0) with (s := kd) as (k & E & L & A & _).
  - intros j k Hj (L & A & B). rewrite rd_nth by lia. cbn [bind]. rewrite rd_nth by lia. cbn [bind]. unfold wr. destruct (Nat.ltb_spec j (length k)); [|lia].
    eexists. split; [reflexivity|]. split; [rewrite upd_length; exact L|]. split.
    + intros i Hi. rewrite nth_upd. destruct (Nat.eqb_spec j i) as [->|].
      * cbn [andb]. destruct (Nat.ltb_spec i (length k)); [|lia]. rewrite (B i) by lia. reflexivity.
      * apply A. lia.
    + intros i Hi. rewrite nth_upd. destruct (Nat.eqb_spec j i); [lia|]. apply B. lia.
  - split; [exact Hk|]. split; [intros; lia|reflexivity].
  - exists k. auto.
Qed.

Lemma least_cons m f r rows k k' : 
  least m f [r] k -> least k f rows k' -> least m f (r :: rows) k'.
Proof.
  intros (A1 & A2 & A3) (B1 & B2 & B3). split; [lra|]. split.
  - intros r' v [<-|H] E; [specialize (A2 r v (or_introl eq_refl) E); lra|exact (B2 r' v H E)].
  - destruct B3 as [->|(r' & H & E)]; [|right; exists r'; split; [right; exact H|exact E]].
    destruct A3 as [->|(r' & [<-|[]] & E)]; [left; reflexivity|right; exists r; split; [left; reflexivity|exact E]].
Qed.

Lemma lower_all_ok dX nY rows : forall kd, length kd = nY -> Forall (fun r => length r = (dX + nY)%nat) rows ->
  exists kd', lower_all dX nY rows kd = Ok kd' /\ length kd' = nY /\
    forall j, (j < nY)%nat -> least (nth j kd 0) (fun r => Some (nth (dX + j) r 0)) rows (nth j kd' 0).
Proof.
  induction rows as [|r rows IH]; intros kd Hk Hr.
  - exists kd. split; [reflexivity|]. split; [exact Hk|]. intros j _. split; [lra|]. split; [intros ? ? []|left; reflexivity].
  - inversion Hr as [|? ? H1 H2]; subst. cbn [lower_all].
    destruct (lower_ok dX (length kd) 1 r kd H1 eq_refl) as (k1 & E1 & L1 & N1). rewrite E1. cbn [bind].
    destruct (IH k1 L1 H2) as (k2 & E2 & L2 & N2). exists k2. split; [exact E2|]. split; [exact L2|].
    intros j Hj. apply least_cons with (k := nth j k1 0); [|apply N2, Hj].
    rewrite N1 by exact Hj. destruct (std_min_spec (nth (dX + j) r 0 / 1) (nth j kd 0)) as (A & B & C). unfold Rdiv in *. rewrite Rinv_1, Rmult_1_r in *.
    split; [exact B|]. split.
    + intros r' v [<-|[]] E. injection E as <-. exact A.
    + destruct C as [C|C]; [right; exists r; split; [left; reflexivity|rewrite C; reflexivity]|left; exact C].
Qed.

Lemma scaled_is ip dX j r c : convert (row_mem r) ip CARTESIAN (fun _ => 0) = Ok c ->
  scaled ip dX j r = if Rlt_dec 0 (sample_cosine c) then Some (nth (dX + j) r 0 / sample_cosine c) else None.
Proof.
  intros E. unfold scaled, sample_cosine. rewrite E. destruct (rltb_dec 0 (c 2%nat)), (rltb_dec 0 (c 5%nat)); destruct (Rlt_dec 0 (c 2%nat)); try contradiction; try (destruct (Rlt_dec 0 (c 5%nat)); try contradiction); destruct (Rlt_dec 0 _) as [H|H]; try reflexivity; exfalso; try lra.
  apply H. apply Rmult_lt_0_compat; assumption.
Qed.
Lemma lower_cos_ok ip dX nY rows : forall kd, length kd = nY ->
  Forall (fun r => length r = (dX + nY)%nat /\ exists c, convert (row_mem r) ip CARTESIAN (fun _ => 0) = Ok c) rows ->
  exists kd', lower_cos ip dX nY rows kd = Ok kd' /\ length kd' = nY /\
    forall j, (j < nY)%nat -> least (nth j kd 0) (scaled ip dX j) rows (nth j kd' 0).
Proof.
  induction rows as [|r rows IH]; intros kd Hk Hr.
  - exists kd. split; [reflexivity|]. split; [exact Hk|]. intros j _. split; [lra|]. split; [intros ? ? []|left; reflexivity].
  - inversion Hr as [|? ? [H1 (c & Ec)] H2]; subst. cbn [lower_cos]. rewrite Ec. cbn [bind].
    destruct (rltb_dec 0 (sample_cosine c)) as [Hc|Hc].
    + destruct (lower_ok dX (length kd) (sample_cosine c) r kd H1 eq_refl) as (k1 & E1 & L1 & N1). rewrite E1. cbn [bind].
      destruct (IH k1 L1 H2) as (k2 & E2 & L2 & N2). exists k2. split; [exact E2|]. split; [exact L2|].
      intros j Hj. apply least_cons with (k := nth j k1 0); [|apply N2, Hj].
      rewrite N1 by exact Hj. destruct (std_min_spec (nth (dX + j) r 0 / sample_cosine c) (nth j kd 0)) as (A & B & C).
      split; [exact B|]. split.
      * intros r' v [<-|[]] E. rewrite (scaled_is _ _ _ _ _ Ec) in E. destruct (Rlt_dec 0 (sample_cosine c)); [|contradiction]. injection E as <-. exact A.
      * destruct C as [C|C]; [right; exists r; split; [left; reflexivity|]|left; exact C]. rewrite (scaled_is _ _ _ _ _ Ec). destruct (Rlt_dec 0 (sample_cosine c)); [|contradiction]. rewrite C. reflexivity.
    + cbn [bind]. destruct (IH kd eq_refl H2) as (k2 & E2 & L2 & N2). exists k2. split; [exact E2|]. split; [exact L2|].
      intros j Hj. apply least_cons with (k := nth j kd 0); [|apply N2, Hj].
      split; [lra|]. split; [|left; reflexivity]. intros r' v [<-|[]] E. rewrite (scaled_is _ _ _ _ _ Ec) in E. destruct (Rlt_dec 0 (sample_cosine c)); [contradiction|discriminate].
Qed.

Lemma fill_max maxv nY kd : length kd = nY -> exists kd', for_ nY 0 (fun j kd => wr kd j maxv) kd = Ok kd' /\ length kd' = nY /\ forall j, (j < nY)%nat -> nth j kd' 0 = maxv.
Proof.
  intros Hk. destruct (for_write nY nY (fun i => i) (fun _ => maxv) (fun j kd => wr kd j maxv) kd) as (k & E & L & N & _); auto.
  exists k. auto.
Qed.

Lemma diffuse_plain maxv ip dX nY rows kd : length kd = nY -> Forall (fun r => length r = (dX + nY)%nat) rows ->
  exists kd', diffuse_bootstrap maxv false false ip dX nY rows kd = Ok kd' /\ length kd' = nY /\
    forall j, (j < nY)%nat -> least maxv (fun r => Some (nth (dX + j) r 0)) rows (nth j kd' 0).
Proof.
  intros Hk Hr. unfold diffuse_bootstrap. destruct (fill_max maxv nY kd Hk) as (k0 & E & L & N). rewrite E. cbn [bind].
  destruct (lower_all_ok dX nY rows k0 L Hr) as (k1 & E1 & L1 & N1). exists k1. split; [exact E1|]. split; [exact L1|].
  intros j Hj. specialize (N1 j Hj). rewrite (N j Hj) in N1. exact N1.
Qed.
Lemma diffuse_weighted maxv ip dX nY rows kd : length kd = nY ->
  Forall (fun r => length r = (dX + nY)%nat /\ exists c, convert (row_mem r) ip CARTESIAN (fun _ => 0) = Ok c) rows ->
  exists kd', diffuse_bootstrap maxv false true ip dX nY rows kd = Ok kd' /\ length kd' = nY /\
    forall j, (j < nY)%nat -> least maxv (scaled ip dX j) (tl rows) (nth j kd' 0).
Proof.
  intros Hk Hr. unfold diffuse_bootstrap. destruct (fill_max maxv nY kd Hk) as (k0 & E & L & N). rewrite E. cbn [bind].
  assert (Hr' : Forall (fun r => length r = (dX + nY)%nat /\ exists c, convert (row_mem r) ip CARTESIAN (fun _ => 0) = Ok c) (tl rows)) by (destruct Hr; [constructor|assumption]).
  destruct (lower_cos_ok ip dX nY (tl rows) k0 L Hr') as (k1 & E1 & L1 & N1). exists k1. split; [exact E1|]. split; [exact L1|].
  intros j Hj. specialize (N1 j Hj). rewrite (N j Hj) in N1. exact N1.
Qed.
Lemma diffuse_value_ok nY kd junk : length kd = nY -> diffuse_value nY kd junk = Ok kd.
Proof.
  intros Hk. unfold diffuse_value.
  destruct (for_write nY nY (fun i => i) (fun i => nth i kd 0) (fun i res => do v <- rd kd i; wr res i v) (repeat junk nY)) as (k & E & L & N & _).
  - intros i s Hi _. rewrite rd_nth by lia. reflexivity.
  - auto.
  - auto.
  - apply repeat_length.
  - rewrite E. f_equal. apply nth_ext with (d := 0) (d' := 0); [congruence|]. intros i Hi. apply N. lia.
Qed.

(** ** Starting points *)
Lemma start_params junk F nY : f_sizes F nY = nY -> exists p,
  (do st <- start F nY (members junk F nY); get_params junk F nY st) = Ok p /\ length p = (f_k F * nY)%nat /\
  forall y l, (y < nY)%nat -> (l < f_k F)%nat -> par F p y l = nth l (f_start F) 0.
Proof.
  intros Hs. destruct (start_ok F nY _ (members_shaped junk F nY Hs)) as (st & E & S & Ev). rewrite E. cbn [bind].
  destruct (get_params_ok junk F nY st S) as (p & Ep & Lp & Np). exists p. split; [exact Ep|]. split; [exact Lp|].
  intros y l Hy Hl. unfold par. rewrite Np, Ev by assumption. reflexivity.
Qed.
Lemma start_within junk big old jp nY F lo hi : 10 <= big -> In (F, lo, hi) (plugin_bounds big old jp) -> exists p,
  (do st <- start F nY (members junk F nY); get_params junk F nY st) = Ok p /\ length p = (f_k F * nY)%nat /\
  forall y l, (y < nY)%nat -> (l < f_k F)%nat -> nth l lo 0 <= par F p y l <= nth l hi 0.
Proof.
  intros Hb Hin. 
  assert (HF : f_sizes F nY = nY /\ forall l, (l < f_k F)%nat -> nth l lo 0 <= nth l (f_start F) 0 <= nth l hi 0).
  { cbn [plugin_bounds In] in Hin.
    repeat match type of Hin with _ \/ _ => destruct Hin as [Hin|Hin] | False => contradiction end;
    injection Hin as <- <- <-; (split; [reflexivity|]); cbn [f_k blinn retroblinn abc beckmann retrobeckmann ward schlick retro_schlick spherical_gaussian shadowing_schlick smith walter_smith yoo f_start];
    intros l Hl; destruct l as [|[|[|l]]]; cbn [nth]; try lra; lia. }
  destruct HF as [Hs Hr]. destruct (start_params junk F nY Hs) as (p & E & L & N). exists p. split; [exact E|]. split; [exact L|].
  intros y l Hy Hl. rewrite N by assumption. apply Hr, Hl.
Qed.

From Coq Require Import Reals List Arith Lia Lra.
From Verif Require Import Base Num ParamsModel GeoModel ArgsModel DataModel TextModel FuncModel MonoModel MonoProofs FuncFile RatModel RatSpec RatProofs QuadModel QuadSpec QuadProofs QuadFit QuadSizes MatModel MatSpec MatProofs MatProofs2.
Import ListNotations.
Open Scope R_scope.

(** ** The range of the sizes *)
Lemma tried_range z np nq : In (np, nq) (tried z) ->
  (z_min_np z <= np <= Nat.max (z_min_np z) (S (z_max_np z)))%nat /\ (z_min_nq z <= nq <= Nat.max (z_min_nq z) (S (z_max_nq z)))%nat.
Proof.
  rewrite tried_pairs. intros H. apply in_map_iff in H as (k & E & _). unfold size_pair in E. injection E as <- <-.
  unfold size_at. destruct (Nat.leb_spec (z_min_np z) (z_max_np z)); destruct (Nat.leb_spec (z_min_nq z) (z_max_nq z)); lia.
Qed.
Lemma tried_beyond z : (z_min_np z <= z_max_np z)%nat ->
  (exists np nq, In (np, nq) (tried z) /\ (z_max_np z < np)%nat) <-> (width (z_min_np z) (z_max_np z) < width (z_min_nq z) (z_max_nq z))%nat.
Proof.
  intros Hz. rewrite tried_pairs. split.
  - intros (np & nq & H & L). apply in_map_iff in H as (k & E & Hk). unfold size_pair in E. injection E as <- <-. apply in_seq in Hk.
    unfold size_at in L. destruct (Nat.leb_spec (z_min_np z) (z_max_np z)); [|lia]. unfold rounds, width in *. lia.
  - intros H. exists (fst (size_pair z (width (z_min_np z) (z_max_np z)))), (snd (size_pair z (width (z_min_np z) (z_max_np z)))). split.
    + apply in_map_iff. eexists. split; [|apply in_seq; split; [apply Nat.le_0_l|unfold rounds; cbn [Nat.add]; eapply Nat.lt_le_trans; [exact H|apply Nat.le_max_r]]]. symmetry. apply surjective_pairing.
    + unfold size_pair, size_at. cbn [fst]. destruct (Nat.leb_spec (z_min_np z) (z_max_np z)); [|lia]. unfold width. lia.
Qed.

(** ** Witnesses: one input, constant polynomials *)
Definition one_rf : rf := mkRf 1 2 [0] [1] 1 1 [].
Lemma one_ok : rf_ok one_rf.
Proof. split; [cbn; lia|split; reflexivity]. Qed.
Section One.
Variable junk : R.
Definition r0 : rf1 := fresh junk 1 1 1 [0] [1].
Lemma r0_ok : well_formed r0 /\ r_dim r0 = 1%nat /\ length (r_p r0) = 1%nat /\ length (r_q r0) = 1%nat.
Proof. destruct (fresh_wf junk 1 1 1 [0] [1] ltac:(lia) eq_refl eq_refl) as (W & D & L1 & L2 & _). auto. Qed.
Lemma monos_one x : monos r0 1 x = [1].
Proof. rewrite monos_first. reflexivity. Qed.
Lemma num_one t s : num r0 [t] s = t.
Proof.
  unfold num, polynomial. rewrite <- dot_monos. change (dot (monos r0 1 (position s)) [t] = t). rewrite monos_one. cbn [dot]. lra.
Qed.
Lemma rows_one s : flat_map (both_rows r0 1 1) [s] = [[1; - upper s * 1]; [-1; lower s * 1]].
Proof. cbn [flat_map both_rows app]. unfold upper_row, lower_row. rewrite monos_one. cbn [List.map app]. replace (- (1)) with (-1) by lra. reflexivity. Qed.
(** the constant a / c does not pass between l and u *)
Lemma constant_misses a c s r' : update junk r0 [a] [c] = Ok r' -> length (position s) = 1%nat -> (c = 0 \/ ~ strictly_between (lower s) (upper s) (a / c)) -> ~ passes r' s.
Proof.
  intros E Hx H [P (v & V & B)]. destruct r0_ok as (W & D & L1 & L2).
  destruct (update_spec junk r0 [a] c [] W) as (r'' & E' & W' & D1 & D2 & D3 & G1 & G2 & Vs); [rewrite L1; reflexivity|rewrite L2; reflexivity|].
  assert (r'' = r') by congruence. subst r''. destruct H as [->|H].
  - destruct G2 as [_ EQ]. { rewrite Rabs_R0. apply Rlt_le, Rdiv_lt_0_compat; [lra|apply pow_lt; lra]. }
    apply P. rewrite EQ, D1, D2, D3. change (num r0 [0] s = 0). apply num_one.
  - apply H. assert (V' : value1 r' (position s) = Ok (num r0 [a] s / num r0 [c] s)).
    { apply Vs. - rewrite Hx, D; reflexivity. - intros C. apply P. rewrite D1, D2, D3.
      change (num r0 [c] s = 0) in C. rewrite num_one in C. subst c. destruct G2 as [_ EQ]. { rewrite Rabs_R0. apply Rlt_le, Rdiv_lt_0_compat; [lra|apply pow_lt; lra]. }
      rewrite EQ. change (num r0 [0] s = 0). apply num_one. }
    rewrite !num_one in V'. rewrite V in V'. injection V' as ->. exact B.
Qed.
End One.

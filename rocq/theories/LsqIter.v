From Coq Require Import Reals List Arith Lia Lra.
From Verif Require Import Base Num ParamsModel GeoModel ArgsModel DataModel TextModel FuncModel MonoModel MonoProofs FuncFile RatModel RatSpec RatProofs QuadModel QuadSpec QuadProofs QuadFit QuadSizes LsqModel LsqSpec LsqProofs.
From Verif Require TextProofs.
Open Scope R_scope.

(** ** An exact solver exists *)
Fixpoint vsub (a b : list R) : list R := match a, b with x :: a', y :: b' => (x - y) :: vsub a' b' | _, _ => [] end.
Definition vscale (k : R) (a : list R) : list R := List.map (fun t => k * t) a.
(** sum_j z_j c_j - b *)
Fixpoint miss (cols : list (list R)) (z : list R) (b : list R) : list R :=
  match cols, z with c :: cols', x :: z' => miss cols' z' (vsub b (vscale x c)) | _, _ => vscale (-1) b end.
Lemma vsub_length a : forall b n, length a = n -> length b = n -> length (vsub a b) = n.
Proof. induction a as [|x a IH]; intros [|y b] n Ha Hb; cbn in *; subst; try discriminate; [reflexivity|]. f_equal. apply IH; [reflexivity|]. injection Hb as Hb. exact Hb. Qed.
Lemma vscale_length k a : length (vscale k a) = length a. Proof. apply map_length. Qed.
Lemma dot_vsub c : forall a b, length a = length b -> dot c (vsub a b) = dot c a - dot c b.
Proof. induction c as [|x c IH]; intros [|y a] [|w b] H; cbn in *; try discriminate; try lra. rewrite IH by congruence. lra. Qed.
Lemma dot_vscale c k a : dot c (vscale k a) = k * dot c a. Proof. apply dot_scale_r. Qed.
Lemma miss_length m : forall cols z b, Forall (fun c => length c = m) cols -> length b = m -> length (miss cols z b) = m.
Proof.
  induction cols as [|c cols IH]; intros z b Hc Hb; cbn [miss]; [rewrite vscale_length; exact Hb|]. destruct z as [|x z]; [rewrite vscale_length; exact Hb|].
  apply IH; [apply (Forall_inv_tail Hc)|]. apply vsub_length; [exact Hb|]. rewrite vscale_length. exact (Forall_inv Hc).
Qed.
(** removing the component along c *)
Definition proj (c v : list R) : list R := vsub v (vscale (dot c v / dot c c) c).
Lemma vsub_swap a : forall b c n, length a = n -> length b = n -> length c = n -> vsub (vsub a b) c = vsub (vsub a c) b.
Proof. induction a as [|x a IH]; intros [|y b] [|w c] n Ha Hb Hc; cbn in *; subst; try discriminate; [reflexivity|]. f_equal; [lra|]. eapply IH; try reflexivity; congruence. Qed.
Lemma vsub_vscale k a : forall b, vscale k (vsub a b) = vsub (vscale k a) (vscale k b).
Proof. induction a as [|x a IH]; intros [|y b]; cbn; try reflexivity. unfold vscale in *. rewrite IH. f_equal. lra. Qed.
Lemma vscale_vscale k j a : vscale k (vscale j a) = vscale (k * j) a.
Proof. unfold vscale. rewrite map_map. apply List.map_ext. intros; lra. Qed.
Lemma vsub_same_scale k j a : forall b, length a = length b -> vsub (vsub a (vscale k b)) (vscale j b) = vsub a (vscale (k + j) b).
Proof. induction a as [|x a IH]; intros [|y b] H; cbn in *; try discriminate; [reflexivity|]. unfold vscale in IH. rewrite IH by congruence. f_equal. lra. Qed.
Lemma proj_linear c v w k n : length c = n -> length v = n -> length w = n -> dot c c <> 0 -> proj c (vsub v (vscale k w)) = vsub (proj c v) (vscale k (proj c w)).
Proof.
  intros Lc Lv Lw Hc. unfold proj. rewrite dot_vsub by (rewrite vscale_length; congruence). rewrite dot_vscale. set (q := dot c c) in *.
  rewrite vsub_vscale, vscale_vscale.
  set (f := dot c v). set (g := dot c w). clearbody f g q. clear -Lc Lv Lw Hc.
  revert v w n Lc Lv Lw. induction c as [|x c IH]; intros [|y v] [|u w] n Lc Lv Lw; cbn in *; subst; try discriminate; [reflexivity|].
  f_equal; [field; exact Hc|]. eapply IH; [reflexivity| |]; congruence.
Qed.
Lemma miss_opp c : forall cols z b m, length c = m -> Forall (fun k => length k = m) cols -> length b = m -> dot c c <> 0 -> proj c (miss cols z b) = miss (List.map (proj c) cols) z (proj c b).
Proof.
  assert (H0 : forall b m, length c = m -> length b = m -> dot c c <> 0 -> proj c (vscale (-1) b) = vscale (-1) (proj c b)).
  { intros b m Lc Lb Hc. unfold proj. rewrite vsub_vscale, vscale_vscale, dot_vscale. f_equal. f_equal. field. exact Hc. }
  induction cols as [|k cols IH]; intros z b m Lc Hk Lb Hc; cbn [miss List.map]; [eapply H0; eassumption|]. destruct z as [|x z]; [eapply H0; eassumption|].
  pose proof (Forall_inv Hk) as Lk. cbv beta in Lk.
  rewrite (IH z _ m Lc (Forall_inv_tail Hk)); [|apply vsub_length; [exact Lb|rewrite vscale_length; exact Lk]|exact Hc].
  rewrite (proj_linear c b k x m Lc Lb Lk Hc). reflexivity.
Qed.
Lemma dot_vsub_l v : forall w u, length v = length w -> dot (vsub v w) u = dot v u - dot w u.
Proof. intros w u H. rewrite dot_comm, dot_vsub by exact H. rewrite !(dot_comm u). reflexivity. Qed.
Lemma proj_norm c v : length c = length v -> dot c c <> 0 -> dot v v = dot c v * dot c v / dot c c + dot (proj c v) (proj c v).
Proof.
  intros L Hc. unfold proj. set (k := dot c v / dot c c). rewrite dot_vsub_l by (rewrite vscale_length; congruence). rewrite !dot_vsub by (rewrite vscale_length; congruence).
  rewrite !dot_vscale, !(dot_comm (vscale k c)), !dot_vscale, (dot_comm v c). unfold k. field. exact Hc.
Qed.
(** Gram-Schmidt *)
Fixpoint gs (n : nat) (cols : list (list R)) (b : list R) : list R :=
  match n, cols with
  | S n', c :: cols' =>
      if Req_EM_T (dot c c) 0 then 0 :: gs n' cols' b
      else let zs := gs n' (List.map (proj c) cols') (proj c b) in - dot c (miss cols' zs b) / dot c c :: zs
  | _, _ => []
  end.
Lemma miss_shift c x : forall cols z b m, length c = m -> Forall (fun k => length k = m) cols -> length b = m -> miss cols z (vsub b (vscale x c)) = vsub (miss cols z b) (vscale (- x) c).
Proof.
  induction cols as [|k cols IH]; intros z b m Lc Hk Lb; cbn [miss].
  - rewrite vsub_vscale, vscale_vscale. f_equal. f_equal. lra.
  - destruct z as [|y z]; [rewrite vsub_vscale, vscale_vscale; f_equal; f_equal; lra|].
    pose proof (Forall_inv Hk) as Lk. cbv beta in Lk.
    rewrite (vsub_swap b (vscale x c) (vscale y k) m) by (rewrite ?vscale_length; assumption).
    rewrite (IH z _ m Lc (Forall_inv_tail Hk)); [reflexivity|]. apply vsub_length; [exact Lb|rewrite vscale_length; exact Lk].
Qed.
Lemma gs_best m : forall n cols b, length cols = n -> Forall (fun c => length c = m) cols -> length b = m ->
  length (gs n cols b) = n /\ forall z, length z = n -> dot (miss cols (gs n cols b) b) (miss cols (gs n cols b) b) <= dot (miss cols z b) (miss cols z b).
Proof.
  induction n as [|n IH]; intros [|c cols] b Hn Hc Hb; try discriminate; cbn [gs].
  - split; [reflexivity|]. intros [|x z] Hz; [apply Rle_refl|discriminate].
  - injection Hn as Hn. pose proof (Forall_inv Hc) as Lc. pose proof (Forall_inv_tail Hc) as Hc'. cbv beta in Lc. destruct (Req_EM_T (dot c c) 0) as [E0|N0].
    + destruct (IH cols b Hn Hc' Hb) as [L M]. split; [cbn; rewrite L; reflexivity|]. intros [|x z] Hz; [discriminate|]. injection Hz as Hz. cbn [miss].
      assert (S : forall y w, dot (miss cols w (vsub b (vscale y c))) (miss cols w (vsub b (vscale y c))) = dot (miss cols w b) (miss cols w b)).
      { intros y w. rewrite (miss_shift c y cols w b m Lc Hc' Hb). pose proof (miss_length m cols w b Hc' Hb) as LM.
        rewrite dot_vsub_l by (rewrite vscale_length; congruence). rewrite !dot_vsub by (rewrite vscale_length; congruence).
        pose proof (dot_self_zero c E0) as Z. rewrite !dot_vscale, !(dot_comm (vscale (- y) c)), !dot_vscale, !(dot_comm (miss cols w b) c), (dot_comm c (miss cols w b)), !Z. lra. }
      rewrite !S. apply M. exact Hz.
    + set (pc := List.map (proj c) cols). assert (Lp : forall v, length v = m -> length (proj c v) = m) by (intros v Hv; unfold proj; apply vsub_length; [exact Hv|rewrite vscale_length; exact Lc]).
      destruct (IH pc (proj c b)) as [L M]; [unfold pc; rewrite map_length; exact Hn|unfold pc; apply Forall_forall; intros v Hv; apply in_map_iff in Hv as (w & <- & Hw); apply Lp; rewrite Forall_forall in Hc'; auto|auto|].
      set (zs := gs n pc (proj c b)) in *. split; [cbn; rewrite L; reflexivity|]. intros [|x z] Hz; [discriminate|]. injection Hz as Hz. cbn [miss].
      assert (G : forall y w, let e := miss cols w (vsub b (vscale y c)) in
         dot e e = (dot c (miss cols w b) + y * dot c c) * (dot c (miss cols w b) + y * dot c c) / dot c c + dot (miss pc w (proj c b)) (miss pc w (proj c b))).
      { intros y w e. pose proof (miss_length m cols w b Hc' Hb) as LM.
        assert (Le : length e = m) by (apply miss_length; [exact Hc'|apply vsub_length; [exact Hb|rewrite vscale_length; exact Lc]]).
        rewrite (proj_norm c e) by congruence. f_equal.
        - unfold e. rewrite (miss_shift c y cols w b m Lc Hc' Hb). rewrite dot_vsub by (rewrite vscale_length; congruence). rewrite dot_vscale. f_equal. ring.
        - unfold e. rewrite (miss_opp c cols w _ m Lc Hc'); [|apply vsub_length; [exact Hb|rewrite vscale_length; exact Lc]|exact N0].
          fold pc. replace (proj c (vsub b (vscale y c))) with (proj c b); [reflexivity|]. unfold proj. rewrite dot_vsub by (rewrite vscale_length; congruence). rewrite dot_vscale.
          rewrite vsub_same_scale by congruence. f_equal. f_equal. field. exact N0. }
      rewrite !G. specialize (M z Hz). pose proof (dot_self_nonneg c).
      set (t := dot c (miss cols z b) + x * dot c c). assert (0 <= t * t / dot c c) by (apply Rmult_le_pos; [nra|apply Rlt_le, Rinv_0_lt_compat; lra]).
      replace (dot c (miss cols zs b) + - dot c (miss cols zs b) / dot c c * dot c c) with 0 by (field; exact N0). unfold Rdiv at 1. rewrite !Rmult_0_l. lra.
Qed.
Definition columns (n : nat) (A : list (list R)) : list (list R) := List.map (fun j => List.map (fun row => nth j row 0) A) (seq 0 n).
Lemma vmiss_nth A : forall b n k z, length A = length b -> Forall (fun row => length row = (k + n)%nat) A -> length z = n ->
  miss (List.map (fun j => List.map (fun row => nth j row 0) A) (seq k n)) z b = List.map (fun t => dot (skipn k (fst t)) z - snd t) (combine A b).
Proof.
  intros b n. revert b. induction n as [|n IH]; intros b k z HL HA Hz; cbn [seq List.map miss].
  - destruct z; [|discriminate]. clear HA. revert b HL. induction A as [|row A IHA]; intros [|y b] HL; try discriminate; cbn; [reflexivity|]. unfold vscale in IHA. rewrite IHA by (cbn in HL; congruence).
    f_equal. destruct (skipn k row); cbn; lra.
  - destruct z as [|x z]; [discriminate|]. injection Hz as Hz.
    assert (HL' : length A = length (vsub b (vscale x (List.map (fun row => nth k row 0) A)))) by (symmetry; apply vsub_length; [congruence|rewrite vscale_length, map_length; reflexivity]).
    rewrite (IH _ (S k) z HL' ltac:(eapply Forall_impl; [|exact HA]; cbv beta; intros; lia) Hz).
    clear IH HL'. revert b HL. induction HA as [|row A Hr _ IHA]; intros [|y b] HL; try discriminate; [reflexivity|]. cbn. unfold vscale in IHA. rewrite IHA by (cbn in HL; congruence). f_equal.
    assert (E : skipn k row = nth k row 0 :: skipn (S k) row). { clear -Hr. revert row Hr. induction k as [|k IHk]; intros [|u row] Hr; cbn in Hr; try lia; [reflexivity|]. cbn [skipn nth]. apply IHk. lia. }
    rewrite E. cbn [dot fst snd]. change (match row with [] => [] | _ :: l => skipn k l end) with (skipn (S k) row). lra.
Qed.
Lemma dot_squares l : dot l l = squares (fun t => t) l.
Proof. induction l as [|x l IH]; cbn; [reflexivity|]. rewrite IH. reflexivity. Qed.
Theorem exact_qr_exists : exact_qr (fun n A b => gs n (columns n A) b).
Proof.
  intros n A b HA HL. destruct (gs_best (length b) n (columns n A) b) as [L M].
  - unfold columns. rewrite map_length. apply seq_length.
  - unfold columns. apply Forall_forall. intros c Hc. apply in_map_iff in Hc as (j & <- & _). rewrite map_length. exact HL.
  - reflexivity.
  - split; [exact L|]. intros z Hz.
    assert (E : forall w, length w = n -> dot (miss (columns n A) w b) (miss (columns n A) w b) = squares (fun t => dot (fst t) w - snd t) (combine A b)).
    { intros w Hw. unfold columns. rewrite (vmiss_nth A b n 0 w HL HA Hw), dot_squares, squares_map. reflexivity. }
    rewrite <- (E z Hz), <- (E _ L). apply M. exact Hz.
Qed.

(** ** The alternating fit *)
Section Iter.
Variable junk : R.
Variable qr : nat -> list (list R) -> list R -> list R.
Variable wild : nat -> list R.
Hypothesis exact : exact_qr qr.
Hypothesis wild_length : forall n, length (wild n) = n.

Definition rows_of (r : rf1) (np nq : nat) (ss : list point) : list (list R * list R) := List.map (fun s => (monos r np (fst s), monos r nq (fst s))) ss.
Lemma l_rows_spec np nq r ss : well_formed r -> length (r_p r) = np -> length (r_q r) = nq -> points_ok (r_dim r) ss ->
  l_rows np nq r ss = Ok (rows_of r np nq ss).
Proof.
  intros (Hd & D & P & Q) Lp Lq. induction 1 as [|[x y] ss Hx _ IH]; cbn [l_rows rows_of List.map]; [reflexivity|]. cbn [fst] in Hx.
  unfold l_row. cbn [fst]. rewrite !basis_row_spec by (assumption || lia). cbn [bind]. rewrite IH. reflexivity.
Qed.
Lemma combine_maps {A B C} (f : A -> B) (g : A -> C) l : combine (List.map f l) (List.map g l) = List.map (fun x => (f x, g x)) l.
Proof. induction l as [|x l IH]; cbn; [reflexivity|]. rewrite IH. reflexivity. Qed.
Lemma monos_dot r a x : dot (monos r (length a) x) a = polynomial (r_dim r) (r_min r) (r_max r) a x.
Proof. unfold monos. apply dot_monos. Qed.

Lemma step1_spec np nq r ss p : length p = np ->
  let q := step1 qr nq (rows_of r np nq ss) (List.map snd ss) p in
  length q = nq /\ forall b, length b = nq -> weighted_error (r_dim r) (r_min r) (r_max r) p q ss <= weighted_error (r_dim r) (r_min r) (r_max r) p b ss.
Proof.
  intros Hp.
  set (A := List.map (fun s : point => List.map (fun u => snd s * snd s * u) (monos r nq (fst s))) ss). set (c := List.map (fun s : point => snd s * inner (monos r np (fst s)) p) ss).
  assert (Eq : step1 qr nq (rows_of r np nq ss) (List.map snd ss) p = qr nq A c) by (unfold step1, rows_of; rewrite combine_maps, !map_map; reflexivity).
  cbv zeta. rewrite Eq. set (q := qr nq A c). destruct (exact nq A c) as [L M]; [| |fold q in L, M].
  - apply Forall_forall. intros row H. apply in_map_iff in H as (s & <- & _). rewrite map_length. apply monos_length.
  - unfold A, c. rewrite !map_length. reflexivity.
  - split; [exact L|]. intros b Hb. specialize (M b Hb). unfold A, c in M. rewrite combine_maps, !squares_map in M. cbn [fst snd] in M.
    unfold weighted_error.
    rewrite (squares_ext (fun s : point => snd s * (snd s * polynomial _ _ _ q (fst s) - polynomial _ _ _ p (fst s))) (fun s => dot (List.map (fun u => snd s * snd s * u) (monos r nq (fst s))) q - snd s * inner (monos r np (fst s)) p)).
    2:{ intros s _. rewrite dot_scale, inner_dot. rewrite <- L, <- Hp, !monos_dot. ring. }
    rewrite (squares_ext (fun s : point => snd s * (snd s * polynomial _ _ _ b (fst s) - polynomial _ _ _ p (fst s))) (fun s => dot (List.map (fun u => snd s * snd s * u) (monos r nq (fst s))) b - snd s * inner (monos r np (fst s)) p)).
    2:{ intros s _. rewrite dot_scale, inner_dot. rewrite <- Hb, <- Hp, !monos_dot. ring. }
    exact M.
Qed.
Lemma step2_spec np nq r ss q : length q = nq ->
  let p := step2 qr wild np (rows_of r np nq ss) (List.map snd ss) q in
  length p = np /\ (defined_at (r_dim r) (r_min r) (r_max r) q ss -> forall a, length a = np ->
    quotient_error (r_dim r) (r_min r) (r_max r) p q ss <= quotient_error (r_dim r) (r_min r) (r_max r) a q ss).
Proof.
  intros Hq p. unfold step2 in p. destruct (existsb _ _) eqn:Ex.
  - split; [apply wild_length|]. intros D. exfalso. apply existsb_exists in Ex as (d & Hd & E). unfold rows_of in Hd. apply in_map_iff in Hd as (s & <- & Hs). cbn [snd] in E.
    destruct (Req_EM_T _ 0) as [Z|]; [|discriminate]. rewrite inner_dot, <- Hq, monos_dot in Z. unfold defined_at in D. rewrite Forall_forall in D. exact (D s Hs Z).
  - set (A := List.map (fun s : point => List.map (fun u => / inner (monos r nq (fst s)) q * u) (monos r np (fst s))) ss).
    assert (Ep : p = qr np A (List.map snd ss)) by (unfold p, rows_of; rewrite map_map; reflexivity). clearbody p. subst p. set (p := qr np A (List.map snd ss)).
    destruct (exact np A (List.map snd ss)) as [L M]; [| |fold p in L, M].
    + apply Forall_forall. intros row H. apply in_map_iff in H as (s & <- & _). rewrite map_length. apply monos_length.
    + unfold A. rewrite !map_length. reflexivity.
    + split; [exact L|]. intros D a Ha. specialize (M a Ha). unfold A in M. rewrite combine_maps, !squares_map in M. cbn [fst snd] in M. unfold defined_at in D. rewrite Forall_forall in D.
      unfold quotient_error.
      rewrite (squares_ext (fun s : point => polynomial _ _ _ p (fst s) / _ - snd s) (fun s => dot (List.map (fun u => / inner (monos r nq (fst s)) q * u) (monos r np (fst s))) p - snd s)).
      2:{ intros s _. rewrite dot_scale, inner_dot. rewrite <- Hq, <- L, !monos_dot. unfold Rdiv. ring. }
      rewrite (squares_ext (fun s : point => polynomial _ _ _ a (fst s) / _ - snd s) (fun s => dot (List.map (fun u => / inner (monos r nq (fst s)) q * u) (monos r np (fst s))) a - snd s)).
      2:{ intros s _. rewrite dot_scale, inner_dot. rewrite <- Hq, <- Ha, !monos_dot. unfold Rdiv. ring. }
      exact M.
Qed.
Definition alternated (r : rf1) (np nq : nat) (ss : list point) (p0 p q : list R) : Prop :=
  length p0 = np /\ length p = np /\ length q = nq /\
  (forall b, length b = nq -> weighted_error (r_dim r) (r_min r) (r_max r) p0 q ss <= weighted_error (r_dim r) (r_min r) (r_max r) p0 b ss) /\
  (defined_at (r_dim r) (r_min r) (r_max r) q ss -> forall a, length a = np ->
    quotient_error (r_dim r) (r_min r) (r_max r) p q ss <= quotient_error (r_dim r) (r_min r) (r_max r) a q ss).
Lemma iterate_spec np nq r ss : forall n p q, length p = np -> exists p0 p' q', iterate qr wild (S n) np nq (rows_of r np nq ss) (List.map snd ss) p q = (p', q') /\
  alternated r np nq ss p0 p' q' /\ (n = 0%nat -> p0 = p).
Proof.
  induction n as [|n IH]; intros p q Hp.
  - destruct (step1_spec np nq r ss p Hp) as [L1 M1]. destruct (step2_spec np nq r ss _ L1) as [L2 M2].
    exists p. do 2 eexists. split; [reflexivity|]. split; [|reflexivity]. repeat split; assumption.
  - destruct (step1_spec np nq r ss p Hp) as [L1 M1]. destruct (step2_spec np nq r ss _ L1) as [L2 M2].
    change (iterate qr wild (S (S n)) np nq (rows_of r np nq ss) (List.map snd ss) p q) with
      (iterate qr wild (S n) np nq (rows_of r np nq ss) (List.map snd ss) (step2 qr wild np (rows_of r np nq ss) (List.map snd ss) (step1 qr nq (rows_of r np nq ss) (List.map snd ss) p)) (step1 qr nq (rows_of r np nq ss) (List.map snd ss) p)).
    destruct (IH _ (step1 qr nq (rows_of r np nq ss) (List.map snd ss) p) L2) as (p0 & p' & q' & E & A & _). exists p0, p', q'. split; [exact E|]. split; [exact A|]. discriminate.
Qed.
Lemma lsq_1d_spec n np nq r ss : well_formed r -> length (r_p r) = S np -> length (r_q r) = S nq -> points_ok (r_dim r) ss ->
  exists p0 p q r', lsq_1d junk qr wild (S n) (S np) (S nq) r ss = Ok (true, r') /\ update junk r p q = Ok r' /\ alternated r (S np) (S nq) ss p0 p q /\ (n = 0%nat -> p0 = 1 :: repeat 0 np).
Proof.
  intros W Lp Lq HP. unfold lsq_1d. rewrite l_rows_spec by assumption. cbn [bind repeat app put_col firstn skipn].
  assert (Lz : length (repeat 0 np) = np) by apply repeat_length.
  replace (firstn np (repeat 0 np ++ junk :: repeat junk nq)) with (repeat 0 np) by (rewrite firstn_app, Lz, Nat.sub_diag, firstn_all2 by lia; cbn; rewrite app_nil_r; reflexivity).
  replace (skipn np (repeat 0 np ++ junk :: repeat junk nq)) with (junk :: repeat junk nq) by (rewrite skipn_app, Lz, Nat.sub_diag, skipn_all2 by lia; reflexivity).
  destruct (iterate_spec (S np) (S nq) r ss n (1 :: repeat 0 np) (junk :: repeat junk nq)) as (p0 & p & q & E & A & H0); [cbn; rewrite Lz; reflexivity|].
  rewrite E. destruct A as (A0 & A1 & A2 & A3 & A4). destruct (update_total junk r p q W) as [r' Er]; [congruence|congruence|intros ->; discriminate|].
  exists p0, p, q, r'. rewrite Er. cbn [bind]. split; [reflexivity|]. split; [reflexivity|]. split; [|exact H0]. repeat split; assumption.
Qed.
(** no iteration: the denominator was never written *)
Lemma lsq_1d_none np nq r ss : well_formed r -> length (r_p r) = S np -> length (r_q r) = S nq -> points_ok (r_dim r) ss ->
  exists r', lsq_1d junk qr wild 0 (S np) (S nq) r ss = Ok (true, r') /\ update junk r (1 :: repeat 0 np) (repeat junk (S nq)) = Ok r'.
Proof.
  intros W Lp Lq HP. unfold lsq_1d. rewrite l_rows_spec by assumption. cbn [bind repeat app put_col firstn skipn iterate].
  assert (Lz : length (repeat 0 np) = np) by apply repeat_length.
  replace (firstn np (repeat 0 np ++ junk :: repeat junk nq)) with (repeat 0 np) by (rewrite firstn_app, Lz, Nat.sub_diag, firstn_all2 by lia; cbn; rewrite app_nil_r; reflexivity).
  replace (skipn np (repeat 0 np ++ junk :: repeat junk nq)) with (junk :: repeat junk nq) by (rewrite skipn_app, Lz, Nat.sub_diag, skipn_all2 by lia; reflexivity).
  destruct (update_total junk r (1 :: repeat 0 np) (junk :: repeat junk nq) W) as [r' Er]; [cbn; rewrite Lz; congruence|cbn; rewrite repeat_length; congruence|discriminate|].
  exists r'. rewrite Er. split; reflexivity.
Qed.
(** the function that was updated *)
Lemma updated r p q r' ss : well_formed r -> length p = length (r_p r) -> length q = length (r_q r) -> update junk r p q = Ok r' -> points_ok (r_dim r) ss ->
  well_formed r' /\ r_dim r' = r_dim r /\ r_min r' = r_min r /\ r_max r' = r_max r /\
  exists k, k <> 0 /\ getP r' = List.map (fun t => t / k) p /\ getQ r' = List.map (fun t => t / k) q.
Proof.
  intros W Lp Lq E HP. destruct q as [|b0 q]; [discriminate E|].
  destruct (update_spec junk r p b0 q W Lp Lq) as (r1 & E1 & W1 & D1 & D2 & D3 & G1 & G2 & _). rewrite E1 in E. injection E as ->.
  split; [exact W1|]. repeat (split; [assumption|]). destruct (Rlt_or_le (1 / 10 ^ 16) (Rabs b0)) as [Hb|Hb].
  - exists b0. assert (H0 : b0 <> 0) by (intros ->; rewrite Rabs_R0 in Hb; assert (0 < 1 / 10 ^ 16) by (apply Rdiv_lt_0_compat; [lra|apply pow_lt; lra]); lra).
    destruct (G1 Hb) as [-> ->]. split; [exact H0|]. split; [reflexivity|]. cbn [List.map]. f_equal. field. exact H0.
  - exists 1. destruct (G2 Hb) as [-> ->]. split; [lra|]. split; symmetry; (erewrite List.map_ext; [apply map_id|]; intros; cbv beta; field).
Qed.
Lemma quotient_scale d mn mx k p q ss : k <> 0 -> quotient_error d mn mx (List.map (fun t => t / k) p) (List.map (fun t => t / k) q) ss = quotient_error d mn mx p q ss.
Proof.
  intros Hk. apply squares_ext. intros s _. unfold polynomial. rewrite !poly_scale. f_equal. unfold Rdiv. rewrite Rinv_mult, Rinv_inv.
  rewrite Rmult_assoc. rewrite (Rmult_comm (/ polynomial_from 0 d mn mx q (fst s)) k), <- (Rmult_assoc (/ k)), Rinv_l by exact Hk. ring.
Qed.
Lemma lsq_1d_best n np nq r ss : well_formed r -> length (r_p r) = S np -> length (r_q r) = S nq -> points_ok (r_dim r) ss ->
  exists r', lsq_1d junk qr wild (S n) (S np) (S nq) r ss = Ok (true, r') /\ well_formed r' /\ (r_dim r', r_min r', r_max r') = (r_dim r, r_min r, r_max r) /\
    length (getP r') = S np /\ length (getQ r') = S nq /\
    (defined_at (r_dim r) (r_min r) (r_max r) (getQ r') ss -> forall a, length a = S np ->
      quotient_error (r_dim r) (r_min r) (r_max r) (getP r') (getQ r') ss <= quotient_error (r_dim r) (r_min r) (r_max r) a (getQ r') ss).
Proof.
  intros W Lp Lq HP. destruct (lsq_1d_spec n np nq r ss W Lp Lq HP) as (p0 & p & q & r' & E & Eu & (A0 & A1 & A2 & A3 & A4) & _).
  destruct (updated r p q r' ss W ltac:(congruence) ltac:(congruence) Eu HP) as (W' & D1 & D2 & D3 & k & Hk & EP & EQ).
  exists r'. split; [exact E|]. split; [exact W'|]. split; [congruence|]. rewrite EP, EQ, !map_length. split; [exact A1|]. split; [exact A2|]. intros HD a Ha.
  rewrite quotient_scale by exact Hk. replace a with (List.map (fun t => t / k) (List.map (fun t => k * t) a)).
  2:{ rewrite map_map. erewrite List.map_ext; [apply map_id|]. intros; cbv beta. field. exact Hk. }
  rewrite quotient_scale by exact Hk. apply A4; [|rewrite map_length; exact Ha]. unfold defined_at in *. eapply Forall_impl; [|exact HD]. cbv beta. intros s Hs Z. apply Hs.
  unfold polynomial in *. rewrite poly_scale, Z. unfold Rdiv. ring.
Qed.
(** the inverse of a polynomial is recovered *)
Lemma poly_one r n x : polynomial (r_dim r) (r_min r) (r_max r) (1 :: repeat 0 n) x = 1.
Proof. rewrite <- monos_dot. cbn [length]. rewrite repeat_length, monos_first. cbn [dot]. rewrite dot_zeros. lra. Qed.
Lemma lsq_1d_inverse np nq r ss b : well_formed r -> length (r_p r) = S np -> length (r_q r) = S nq -> points_ok (r_dim r) ss ->
  length b = S nq -> Forall (fun s : point => snd s * polynomial (r_dim r) (r_min r) (r_max r) b (fst s) = 1) ss ->
  exists r', lsq_1d junk qr wild 1 (S np) (S nq) r ss = Ok (true, r') /\ Forall (fun s : point => value1 r' (fst s) = Ok (snd s)) ss.
Proof.
  intros W Lp Lq HP Lb HI. destruct (lsq_1d_spec 0 np nq r ss W Lp Lq HP) as (p0 & p & q & r' & E & Eu & (A0 & A1 & A2 & A3 & A4) & H0).
  specialize (H0 eq_refl). subst p0. exists r'. split; [exact E|].
  destruct (updated r p q r' ss W ltac:(congruence) ltac:(congruence) Eu HP) as (W' & D1 & D2 & D3 & k & Hk & EP & EQ).
  assert (Z1 : weighted_error (r_dim r) (r_min r) (r_max r) (1 :: repeat 0 np) q ss <= 0).
  { eapply Rle_trans; [apply (A3 b Lb)|]. unfold weighted_error. rewrite (squares_ext _ (fun _ => 0)); [rewrite squares_rsum, (rsum_ext _ (fun _ => 0)) by (intros; lra); rewrite rsum_zero; lra|].
    intros s Hs. rewrite poly_one. rewrite Forall_forall in HI. rewrite (HI s Hs). ring. }
  pose proof (squares_zero _ _ Z1) as Z1'. cbv beta in Z1'.
  assert (Q1 : forall s, In s ss -> snd s * polynomial (r_dim r) (r_min r) (r_max r) q (fst s) = 1).
  { intros s Hs. specialize (Z1' s Hs). rewrite poly_one in Z1'. rewrite Forall_forall in HI. specialize (HI s Hs). assert (snd s <> 0) by (intros Z; rewrite Z in HI; lra).
    apply Rmult_integral in Z1' as [Z|Z]; [contradiction|lra]. }
  assert (DQ : defined_at (r_dim r) (r_min r) (r_max r) q ss) by (unfold defined_at; apply Forall_forall; intros s Hs Z; specialize (Q1 s Hs); rewrite Z in Q1; lra).
  assert (Z2 : quotient_error (r_dim r) (r_min r) (r_max r) p q ss <= 0).
  { eapply Rle_trans; [apply (A4 DQ (1 :: repeat 0 np)); cbn; rewrite repeat_length; reflexivity|]. unfold quotient_error. rewrite (squares_ext _ (fun _ => 0)); [rewrite squares_rsum, (rsum_ext _ (fun _ => 0)) by (intros; lra); rewrite rsum_zero; lra|].
    intros s Hs. rewrite poly_one. specialize (Q1 s Hs). unfold defined_at in DQ. rewrite Forall_forall in DQ. specialize (DQ s Hs). apply (Rmult_eq_reg_r (polynomial (r_dim r) (r_min r) (r_max r) q (fst s))); [|exact DQ].
    unfold Rdiv. rewrite Rmult_0_l, Rmult_minus_distr_r, Rmult_assoc, Rinv_l by exact DQ. lra. }
  pose proof (squares_zero _ _ Z2) as Z2'. cbv beta in Z2'. apply Forall_forall. intros s Hs. unfold points_ok in HP. rewrite Forall_forall in HP.
  rewrite value1_spec by (rewrite ?D1; auto). rewrite D1, D2, D3, EP, EQ. unfold polynomial in *. rewrite !poly_scale. f_equal. specialize (Z2' s Hs).
  unfold defined_at, polynomial in DQ. rewrite Forall_forall in DQ. specialize (DQ s Hs). replace (snd s) with (polynomial_from 0 (r_dim r) (r_min r) (r_max r) p (fst s) / polynomial_from 0 (r_dim r) (r_min r) (r_max r) q (fst s)) by lra.
  field. split; assumption.
Qed.
End Iter.

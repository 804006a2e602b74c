(** Function files of the plugins: what the loops of load and save_call go over. *)
From Coq Require Import Reals List ZArith Lia.
From Verif Require Import Base Num ParamsModel GeoModel ArgsModel ArgsProofs DataModel DataProofs TextModel TextProofs TextRound FuncModel FuncFile FuncFileSpec FuncFileProofs RatModel RatSpec RatFile PfModel PfSpec PfProofs.
Open Scope R_scope.

Definition rows (ms : list nat) (nY : nat) : list cell := flat_map (fun i => map (fun m => (m, i)) ms) (seq 0 nY).
Lemma in_rows ms nY c : In c (rows ms nY) <-> In (fst c) ms /\ (snd c < nY)%nat.
Proof.
  unfold rows. rewrite in_flat_map. split.
  - intros (i & Hi & H). apply in_map_iff in H as (m & <- & Hm). apply in_seq in Hi. cbn. split; [assumption|lia].
  - intros [H1 H2]. exists (snd c). split; [apply in_seq; lia|]. apply in_map_iff. exists (fst c). destruct c; auto.
Qed.
Lemma load_rows M nY : map snd (by_channel (seq 0 M) pair nY) = rows (seq 0 M) nY.
Proof.
  unfold by_channel, rows. generalize (seq 0 nY). induction l as [|i l IH]; [reflexivity|]. cbn [flat_map]. rewrite map_app, IH. f_equal.
  rewrite map_map. reflexivity.
Qed.
Lemma cells_app a b : cells_of (a ++ b) = cells_of a ++ cells_of b.
Proof. apply flat_map_app. Qed.
Lemma save_rows (ls : list (nat * str)) nY :
  cells_of (map (fun q : nat * str * cell => Some (snd (fst q), snd q)) (by_channel ls (fun ml i => (fst ml, i)) nY)) = rows (map fst ls) nY.
Proof.
  unfold by_channel, rows. generalize (seq 0 nY). induction l as [|i l IH]; [reflexivity|]. cbn [flat_map]. rewrite map_app, cells_app, IH. f_equal.
  clear IH. induction ls as [|q ls IHl]; [reflexivity|]. cbn. f_equal. exact IHl.
Qed.
Lemma rows_labels (ls : list (nat * str)) nY : Forall (fun q : nat * str => label_ok (snd q)) ls ->
  lines_ok (map (fun q : nat * str * cell => Some (snd (fst q), snd q)) (by_channel ls (fun ml i => (fst ml, i)) nY)).
Proof.
  intros H. apply Forall_forall. intros o Ho. apply in_map_iff in Ho as (q & <- & Hq). unfold by_channel in Hq.
  apply in_flat_map in Hq as (i & _ & Hq). apply in_map_iff in Hq as (m & <- & Hm). cbn. rewrite Forall_forall in H. apply H. assumption.
Qed.

Lemma range_sizes f c : complete f -> in_range (pf_mem f) c <-> (snd c < nth (fst c) (sizes (pf_kind f) (pf_nY f) (Z.to_nat (pf_n f))) 0)%nat.
Proof. intros [_ E]. unfold in_range. rewrite <- E. change 0%nat with (length (@nil R)) at 1. rewrite (map_nth (@length R)). tauto. Qed.

(** the positions of the lafortune plugins *)
Definition lobes (w : nat) (N nY : nat) : list cell :=
  (flat_map (fun n => flat_map (fun i => map (fun k => (0, (n * nY + i) * w + k)) (seq 0 w) ++ [(1, n * nY + i)]) (seq 0 nY)) (seq 0 N))%nat.
Lemma in_lobes w N nY c : (0 < w)%nat -> In c (lobes w N nY) <-> (snd c < nth (fst c) [w * (N * nY); N * nY] 0)%nat.
Proof.
  intros Hw. unfold lobes. rewrite in_flat_map. split.
  - intros (n & Hn & H). apply in_flat_map in H as (i & Hi & H). apply in_seq in Hn, Hi.
    assert (B : (n * nY + i < N * nY)%nat) by nia.
    apply in_app_or in H as [H|[<-|[]]]; [|cbn; assumption]. apply in_map_iff in H as (k & <- & Hk). apply in_seq in Hk. cbn. nia.
  - intros H.
    assert (K : forall q, (q < N * nY)%nat -> exists n i, In n (seq 0 N) /\ In i (seq 0 nY) /\ q = (n * nY + i)%nat).
    { intros q Hq. assert (nY <> 0)%nat by (intros ->; lia). exists (q / nY)%nat, (q mod nY)%nat.
      pose proof (Nat.div_mod q nY ltac:(assumption)). pose proof (Nat.mod_upper_bound q nY ltac:(assumption)).
      split; [apply in_seq; split; [lia|]; apply Nat.div_lt_upper_bound; lia|]. split; [apply in_seq; lia|lia]. }
    destruct c as [m p]. cbn [fst snd] in H. destruct m as [|[|m]]; cbn [nth] in H.
    + destruct (K (p / w)%nat) as (n & i & Hn & Hi & E); [apply Nat.div_lt_upper_bound; lia|]. exists n. split; [assumption|].
      apply in_flat_map. exists i. split; [assumption|]. apply in_or_app. left. apply in_map_iff. exists (p mod w)%nat.
      pose proof (Nat.div_mod p w ltac:(lia)). pose proof (Nat.mod_upper_bound p w ltac:(lia)). split; [|apply in_seq; lia]. f_equal. rewrite <- E. lia.
    + destruct (K p H) as (n & i & Hn & Hi & ->). exists n. split; [assumption|]. apply in_flat_map. exists i. split; [assumption|].
      apply in_or_app. right. left. reflexivity.
    + destruct m; cbn in H; lia.
Qed.
Lemma flat_map_ext' {A B} (g h : A -> list B) l : (forall x, g x = h x) -> flat_map g l = flat_map h l.
Proof. intros H. induction l as [|x l IH]; [reflexivity|]. cbn. rewrite H, IH. reflexivity. Qed.
Lemma cells_flat {A} (g : A -> list (option (str * cell))) l : cells_of (flat_map g l) = flat_map (fun x => cells_of (g x)) l.
Proof. induction l as [|x l IH]; [reflexivity|]. cbn [flat_map]. rewrite cells_app, IH. reflexivity. Qed.

Definition saved_cells (f : pfun) : list cell :=
  match pf_kind f with
  | PDiffuse | PSchlick | PNormSchlick | PRetroSchlick | PMasking | PSmith | PWalter => rows [0%nat] (pf_nY f)
  | PBlinn | PRetroblinn | PBeckmann | PSg | PRetrobeckmann | PYoo => rows [0; 1]%nat (pf_nY f)
  | PSgMoment => rows [0; 1]%nat (pf_nY f) ++ [(2, 0)%nat]
  | PWard | PAbc => rows [0; 1; 2]%nat (pf_nY f)
  | PLafIso => lobes 2 (Z.to_nat (pf_n f)) (pf_nY f)
  | PLaf => lobes 3 (Z.to_nat (pf_n f)) (pf_nY f)
  | PSgd => []
  end.
Lemma save_cells f : cells_of (save_lines f) = saved_cells f.
Proof.
  unfold save_lines, saved_cells. destruct (pf_kind f); rewrite ?cells_app, ?save_rows; cbn [cells_of flat_map app map fst]; rewrite ?app_nil_r; try reflexivity.
  - unfold lobes. rewrite cells_flat. apply flat_map_ext'. intros n. rewrite cells_app, cells_flat. cbn [cells_of flat_map app]. rewrite app_nil_r.
    apply flat_map_ext'. intros i. reflexivity.
  - unfold lobes. rewrite cells_flat. apply flat_map_ext'. intros n. rewrite cells_app, cells_flat. cbn [cells_of flat_map app]. rewrite app_nil_r.
    apply flat_map_ext'. intros i. reflexivity.
Qed.
Definition loads_what_it_saves (f : pfun) : Prop := match pf_kind f with PSgd => False | PLaf => (pf_n f <= 1)%Z | _ => True end.
Lemma same_cells f : loads_what_it_saves f -> load_cells f = saved_cells f.
Proof.
  unfold load_cells, saved_cells, loads_what_it_saves. destruct (pf_kind f); intros H; rewrite ?load_rows; try reflexivity; try contradiction.
  unfold lobes. assert (N : (Z.to_nat (pf_n f) <= 1)%nat) by lia. destruct (Z.to_nat (pf_n f)) as [|[|n]]; [reflexivity| |lia].
  cbn [seq flat_map]. rewrite !app_nil_r. apply flat_map_ext'. intros i. reflexivity.
Qed.
Lemma in_saved f c : pf_kind f <> PSgd -> In c (saved_cells f) <-> (snd c < nth (fst c) (sizes (pf_kind f) (pf_nY f) (Z.to_nat (pf_n f))) 0)%nat.
Proof.
  intros K. unfold saved_cells, sizes. destruct (pf_kind f); try congruence; rewrite ?in_app_iff, ?in_rows;
    [..| | |apply in_lobes; lia|apply in_lobes; lia];
    destruct c as [[|[|[|m]]] i]; cbn [fst snd nth In app]; try (split; [intros [H1 H2]; lia|intros; split; [auto 6|lia]]); try lia;
    repeat match goal with |- context[match ?m with _ => _ end] => destruct m end; try (intuition lia).
  all: split; [intros [[H1 H2]|[H|[]]]; [intuition lia|injection H; lia]|intros H; try lia].
  right. left. f_equal. lia.
Qed.
Lemma label2 a b r : is_space a = false -> is_space b = true -> spaces r -> label_ok (a :: b :: r).
Proof. intros. exists [a], b, r. split; [reflexivity|]. split; [discriminate|]. split; [repeat constructor; assumption|]. split; assumption. Qed.
Lemma labels f : pf_kind f <> PSgd -> lines_ok (save_lines f).
Proof.
  intros K.
  assert (L : forall t b, solid t -> spaces b -> label_ok (t ++ " "%char :: b)).
  { intros t b [T1 T2] B. exists t, " "%char, b. repeat (split; [first [reflexivity|assumption]|]). assumption. }
  assert (S0 : forall t, solid t -> label_ok (t ++ " "%char :: [])) by (intros; apply L; [assumption|reflexivity]).
  assert (Q : forall s t b, solid t -> spaces b -> s = t ++ " "%char :: b -> label_ok s) by (intros; subst; apply L; assumption).
  assert (D : forall t, t <> [] -> forallb (fun c => negb (is_space c)) t = true -> solid t).
  { intros t Hn Hf. split; [assumption|]. rewrite forallb_forall in Hf. apply Forall_forall. intros c Hc. apply Hf in Hc. apply negb_true_iff in Hc. assumption. }
  assert (LK : label_ok (lit "Ks ")) by (apply (Q _ (lit "Ks") []); [apply D; [discriminate|reflexivity]|reflexivity|reflexivity]).
  assert (LN : label_ok (lit "N  ")) by (apply (Q _ (lit "N") (lit " ")); [apply D; [discriminate|reflexivity]|reflexivity|reflexivity]).
  assert (LN3 : label_ok (lit "N   ")) by (apply (Q _ (lit "N") (lit "  ")); [apply D; [discriminate|reflexivity]|reflexivity|reflexivity]).
  assert (La : label_ok (lit "a  ")) by (apply (Q _ (lit "a") (lit " ")); [apply D; [discriminate|reflexivity]|reflexivity|reflexivity]).
  assert (Lb : label_ok (lit "b  ")) by (apply (Q _ (lit "b") (lit " ")); [apply D; [discriminate|reflexivity]|reflexivity|reflexivity]).
  assert (Lc : label_ok (lit "c  ")) by (apply (Q _ (lit "c") (lit " ")); [apply D; [discriminate|reflexivity]|reflexivity|reflexivity]).
  assert (Lax : label_ok (lit "ax ")) by (apply (Q _ (lit "ax") []); [apply D; [discriminate|reflexivity]|reflexivity|reflexivity]).
  assert (Lay : label_ok (lit "ay ")) by (apply (Q _ (lit "ay") []); [apply D; [discriminate|reflexivity]|reflexivity|reflexivity]).
  assert (LR : label_ok (lit "R ")) by (apply (Q _ (lit "R") []); [apply D; [discriminate|reflexivity]|reflexivity|reflexivity]).
  assert (LKK : label_ok (lit "K ")) by (apply (Q _ (lit "K") []); [apply D; [discriminate|reflexivity]|reflexivity|reflexivity]).
  assert (Lkd : label_ok (lit "kd ")) by (apply (Q _ (lit "kd") []); [apply D; [discriminate|reflexivity]|reflexivity|reflexivity]).
  assert (Lal : label_ok (lit "alpha ")) by (apply (Q _ (lit "alpha") []); [apply D; [discriminate|reflexivity]|reflexivity|reflexivity]).
  assert (LKr : label_ok (lit "Kr ")) by (apply (Q _ (lit "Kr") []); [apply D; [discriminate|reflexivity]|reflexivity|reflexivity]).
  assert (LLt : label_ok (lit "Lt ")) by (apply (Q _ (lit "Lt") []); [apply D; [discriminate|reflexivity]|reflexivity|reflexivity]).
  assert (LCxy : label_ok (lit "Cxy ")) by (apply (Q _ (lit "Cxy") []); [apply D; [discriminate|reflexivity]|reflexivity|reflexivity]).
  assert (LCz : label_ok (lit "Cz ")) by (apply (Q _ (lit "Cz") []); [apply D; [discriminate|reflexivity]|reflexivity|reflexivity]).
  assert (LCz2 : label_ok (lit "Cz  ")) by (apply (Q _ (lit "Cz") (lit " ")); [apply D; [discriminate|reflexivity]|reflexivity|reflexivity]).
  assert (LCx : label_ok (lit "Cx ")) by (apply (Q _ (lit "Cx") []); [apply D; [discriminate|reflexivity]|reflexivity|reflexivity]).
  assert (G : forall (N nY : nat) (g : nat -> nat -> list (option (str * cell))), (forall n i, lines_ok (g n i)) ->
    lines_ok (flat_map (fun n => flat_map (g n) (seq 0 nY) ++ [None]) (seq 0 N))).
  { intros N nY g Hg. apply Forall_forall. intros o Ho. apply in_flat_map in Ho as (n & _ & Ho). apply in_app_or in Ho as [Ho|[<-|[]]]; [|exact I].
    apply in_flat_map in Ho as (i & _ & Ho). specialize (Hg n i). unfold lines_ok in Hg. rewrite Forall_forall in Hg. apply Hg. assumption. }
  unfold save_lines. destruct (pf_kind f); try congruence;
    try (apply Forall_app; split; [apply rows_labels; repeat (constructor; [assumption|]); constructor|constructor; [first [exact I|assumption]|constructor]]).
  - apply G. intros n i. constructor; [assumption|]. constructor; [assumption|]. constructor; [assumption|constructor].
  - apply G. intros n i. constructor; [assumption|]. constructor; [assumption|]. constructor; [assumption|]. constructor; [assumption|constructor].
Qed.

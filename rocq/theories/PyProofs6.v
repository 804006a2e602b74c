(** Proofs for C96 and C97: options and vectors. *)
From Coq Require Import Reals List ZArith Lia Lra.
From Verif Require Import Base Num ParamsModel GeoModel ArgsModel ArgsSpec ArgsProofs FuncModel PyModel PySpec PyProofs PyProofs2 PyProofs3.
Open Scope R_scope.

Lemma arguments_from a d : map_ok a -> let r := fold_left (fun a kv => update a (fst kv) (snd kv)) d a in map_ok r /\
  (forall k, ~ In k (map fst d) -> map_find k r = map_find k a) /\
  (forall d1 k v d2, d = d1 ++ (k, v) :: d2 -> ~ In k (map fst d2) -> map_find k r = Some v).
Proof.
  cbv zeta. revert a. induction d as [|[k0 v0] d IH]; intros a Ha; cbn [fold_left fst snd].
  - split; [assumption|]. split; [reflexivity|]. intros [|] ? ? ? E; discriminate.
  - assert (Hu : map_ok (update a k0 v0)) by (apply map_update_ok; assumption). destruct (IH _ Hu) as (H1 & H2 & H3). split; [assumption|]. split.
    + intros k Hk. cbn [map fst In] in Hk. rewrite H2 by tauto. unfold update. rewrite map_find_update by assumption. destruct (str_eqb_spec k k0); [subst; tauto|reflexivity].
    + intros [|p d1] k v d2 E Hk; cbn [app] in E.
      * injection E as -> -> ->. rewrite H2 by assumption. unfold update. rewrite map_find_update by assumption. destruct (str_eqb_spec k k); [reflexivity|congruence].
      * injection E as _ ->. apply (H3 d1 k v d2); [reflexivity|assumption].
Qed.
Lemma py_find d : (forall k, ~ In k (map fst d) -> map_find k (py_arguments d) = None) /\
  (forall d1 k v d2, d = d1 ++ (k, v) :: d2 -> ~ In k (map fst d2) -> map_find k (py_arguments d) = Some v).
Proof. destruct (arguments_from [] d map_ok_nil) as (_ & H2 & H3). split; [exact H2|exact H3]. Qed.

Lemma vec_get_in v i : (i < length v)%nat -> (Z.of_nat i < 2 ^ 32)%Z -> py_vec_get v (Z.of_nat i) = Ok (nth i v 0).
Proof.
  intros Hi Hb. unfold py_vec_get. destruct (Z.ltb_spec (Z.of_nat i) 0); [lia|]. destruct (Z.leb_spec (2 ^ 32) (Z.of_nat i)); [lia|]. cbn [orb].
  destruct (Z.leb_spec (Z.of_nat (length v)) (Z.of_nat i)); [lia|]. rewrite Nat2Z.id, (nth_error_nth' v 0 Hi). reflexivity.
Qed.
Lemma vec_get_out v i : (i < 0 \/ Z.of_nat (length v) <= i)%Z -> py_vec_get v i = Throw.
Proof.
  intros H. unfold py_vec_get. destruct (Z.ltb_spec i 0); [reflexivity|]. destruct (Z.leb_spec (2 ^ 32) i); [reflexivity|]. cbn [orb].
  destruct (Z.leb_spec (Z.of_nat (length v)) i); [reflexivity|lia].
Qed.
Lemma list_of v : (Z.of_nat (length v) < 2 ^ 32)%Z -> forall pre post fuel, v = pre ++ post -> (length post < fuel)%nat -> py_list fuel v (Z.of_nat (length pre)) = Some post.
Proof.
  intros Hb pre post. revert pre. induction post as [|x post IH]; intros pre fuel E Hf; (destruct fuel as [|fuel]; [cbn in Hf; lia|]); cbn [py_list].
  - rewrite vec_get_out; [reflexivity|]. subst v. rewrite app_nil_r. lia.
  - rewrite vec_get_in by (subst v; rewrite app_length in *; cbn in *; lia). rewrite E, app_nth2, Nat.sub_diag by lia. cbn [nth]. rewrite <- E.
    replace (Z.of_nat (length pre) + 1)%Z with (Z.of_nat (length (pre ++ [x]))) by (rewrite app_length; cbn; lia).
    rewrite (IH (pre ++ [x]) fuel); [reflexivity|subst v; rewrite <- app_assoc; reflexivity|cbn in Hf; lia].
Qed.
Lemma nth_upd v : forall i x j, nth j (upd v i x) 0 = if Nat.eqb j i then (if (i <? length v)%nat then x else 0) else nth j v 0.
Proof.
  induction v as [|a v IH]; intros i x j; cbn [upd length].
  - destruct (Nat.eqb j i); destruct j; reflexivity.
  - destruct i as [|i], j as [|j]; cbn [nth Nat.eqb]; try reflexivity. rewrite IH. reflexivity.
Qed.
Lemma combine_sub a : forall b y, length a = length b -> nth y (map (fun q => fst q - snd q) (combine a b)) 0 = nth y a 0 - nth y b 0.
Proof.
  induction a as [|x a IH]; intros [|z b] y H; try discriminate; [destruct y; cbn; lra|]. cbn [combine map]. destruct y; cbn [nth fst snd]; [reflexivity|]. apply IH. cbn in H. lia.
Qed.

(** the text of a vector as a bracketed list of options *)
Definition spaced (l : list str) : list str := match l with [] => [] | t :: l' => t :: map (fun t => " "%char :: t) l' end.
Lemma join_spaced l : join_commas true l = join comma (spaced l).
Proof.
  assert (G : forall l t, t ++ join_commas false l = join comma (t :: map (fun t => " "%char :: t) l)).
  { clear. induction l as [|u l IH]; intros t; [cbn; apply app_nil_r|]. cbn [join_commas map]. change (join comma (t :: (" "%char :: u) :: map (fun t => " "%char :: t) l)) with (t ++ comma ++ join comma ((" "%char :: u) :: map (fun t => " "%char :: t) l)).
    rewrite <- (IH (" "%char :: u)). reflexivity. }
  destruct l as [|t l]; [reflexivity|]. cbn [join_commas spaced]. apply G.
Qed.
Lemma option_vec {T} (atof : str -> T) (rnd : R -> T) print d1 d2 k v dflt :
  (forall x, ~ In ","%char (print x)) -> (forall x, atof (c_str (print x)) = rnd x) -> (forall x, atof (c_str (" "%char :: print x)) = rnd x) ->
  ~ In k (map fst d2) -> v <> [] -> get_vec_num atof (py_arguments (d1 ++ (k, py_vec_str print v) :: d2)) k (length v) dflt = map rnd v.
Proof.
  intros Hc Ha Hs Hk Hv. pose proof (proj2 (py_find (d1 ++ (k, py_vec_str print v) :: d2)) d1 k _ d2 eq_refl Hk) as F.
  assert (F2 : map_find k (py_arguments (d1 ++ (k, py_vec_str print v) :: d2)) = Some ("["%char :: join comma (spaced (map print v)) ++ ["]"%char])).
  { rewrite F. unfold py_vec_str. rewrite join_spaced. reflexivity. }
  assert (Ls : length (spaced (map print v)) = length v) by (destruct v; [reflexivity|]; cbn; rewrite !map_length; reflexivity).
  assert (Hne : spaced (map print v) <> []) by (destruct v; [congruence|discriminate]).
  assert (Hn : Forall no_comma (spaced (map print v))).
  { destruct v as [|x v]; [congruence|]. cbn [map spaced]. constructor; [apply Hc|]. rewrite map_map. apply Forall_forall. intros t Ht. apply in_map_iff in Ht. destruct Ht as (y & <- & _). intros [E|E]; [discriminate|apply (Hc y E)]. }
  destruct v as [|x0 v0]; [congruence|]. set (v := x0 :: v0) in *. apply (nth_ext _ _ dflt (rnd x0)); [rewrite get_vec_num_length, map_length; reflexivity|]. intros i Hi. rewrite get_vec_num_length in Hi.
  rewrite (get_vec_num_bracket atof _ k (length v) dflt _ i dflt F2 Hne Hn Hi). rewrite Ls. destruct (Nat.ltb_spec i (length v)); [|lia].
  rewrite (map_nth rnd v x0 i). unfold v. cbn [map spaced]. destruct i as [|i]; cbn [nth]; [apply Ha|]. rewrite map_map.
  assert (Li : (i < length v0)%nat) by (unfold v in Hi; cbn in Hi; lia).
  rewrite (nth_indep _ [] ((fun x => " "%char :: print x) x0)) by (rewrite map_length; assumption). rewrite (map_nth (fun x => " "%char :: print x)). apply Hs.
Qed.

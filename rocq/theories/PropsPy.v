(** Properties C95-C99: the Python interface. *)
From Coq Require Import Reals List ZArith Lia Lra.
From Verif Require Import Base Num ParamsModel ParamsProofs GeoModel GeoSpec CommonModel ArgsModel ArgsSpec ArgsProofs FuncModel FuncSpec ConvModel ConvSpec ConvProofs PyModel PySpec PyProofs PyProofs2 PyProofs3 PyProofs4 PyProofs5 PyProofs6.
Open Scope R_scope.

(** C95. In any state a script can reach, f.set(v) with as many numbers as f has
    parameters gives each plugin function of f its part of v (its last part, if f
    contains it several times) and touches no other plugin function. *)
Theorem C95_set : forall st f v, reachable st -> has_parameters st f -> length v = total_size (size_of st) (parts st f) ->
  exists st', py_set st f v = Ok st' /\ cells st' = cells st /\
    (forall b, ~ In b (parts st f) -> store st' b = store st b) /\
    (forall pre b post, parts st f = pre ++ b :: post -> ~ In b post -> store st' b = block (size_of st) pre b v).
Proof. intros st f v Hr. apply set_effect. apply good_reachable. assumption. Qed.
Print Assumptions C95_set.

(** With any other number of numbers, nothing happens. *)
Theorem C95_set_wrong_size : forall st f v, reachable st -> length v <> total_size (size_of st) (parts st f) -> py_set st f v = Ok st.
Proof. intros st f v Hr. apply set_other_size. apply good_reachable. assumption. Qed.
Print Assumptions C95_set_wrong_size.

(** f.get() lists the parameters of the plugin functions of f, in order. *)
Theorem C95_get : forall junk st f, reachable st -> has_parameters st f -> py_get junk st f = Ok (flat_map (store st) (parts st f)).
Proof. intros junk st f Hr. apply get_spec. apply good_reachable. assumption. Qed.
Print Assumptions C95_get.

(** f.set(v) followed by f.get() gives v exactly when v gives the same numbers to
    all occurrences of a plugin function; always, if each occurs once. *)
Theorem C95_set_then_get : forall junk st f v st', reachable st -> has_parameters st f -> length v = total_size (size_of st) (parts st f) -> py_set st f v = Ok st' ->
  (py_get junk st' f = Ok v <-> consistent (size_of st) (parts st f) v) /\ (NoDup (parts st f) -> py_get junk st' f = Ok v).
Proof.
  intros junk st f v st' Hr Hp Hl Hs. pose proof (set_get_iff junk st f v st' (good_reachable _ Hr) Hp Hl Hs) as E. split; [exact E|].
  intros N. apply E. apply nodup_consistent. assumption.
Qed.
Print Assumptions C95_set_then_get.

(** f + f: the first half of the numbers given to it is lost. *)
Theorem C95_doubled_refuted : forall junk st f st1 c u w, reachable st -> py_add st f f = Ok (st1, Some c) -> NoDup (parts st1 f) ->
  length u = total_size (size_of st1) (parts st1 f) -> length w = length u ->
  exists st2, py_set st1 (Some c) (u ++ w) = Ok st2 /\ py_get junk st2 (Some c) = Ok (w ++ w) /\ py_get junk st2 f = Ok w.
Proof.
  intros junk st f st1 c u w Hr Ha Hn Hu Hw. pose proof (good_reachable _ Hr) as G. pose proof (good_step _ _ G (step_add _ _ _ _ _ Ha)) as G1.
  pose proof (sum_parts _ _ _ _ _ _ G Ha (steps_refl _)) as Ep. destruct (sum_cell _ _ _ _ _ _ G Ha (steps_refl _)) as (a & b & t1 & t2 & par & -> & _ & E1 & _ & Ec & _).
  assert (L : length (u ++ w) = total_size (size_of st1) (parts st1 (Some c))) by (rewrite Ep, total_app, app_length; lia).
  destruct (set_effect st1 (Some c) (u ++ w) G1 (ex_intro _ _ Ec) L) as (st2 & Es & C2 & _ & B). exists st2. split; [assumption|].
  pose proof (good_set _ _ _ _ G1 Es) as G2.
  assert (Hf : has_parameters st2 (Some a)) by (apply (has_cells st1 st2); [assumption|eexists; eassumption]).
  assert (Hc : has_parameters st2 (Some c)) by (apply (has_cells st1 st2); [assumption|eexists; eassumption]).
  assert (W : flat_map (store st2) (parts st1 (Some a)) = w).
  { apply (blocks_flat (size_of st1) (store st2) (parts st1 (Some a)) w); [lia| |].
    - intros d Hd. rewrite <- (parts_cells st1 st2 _ C2) in Hd. rewrite (parts_sized st2 (Some a) d G2 Hd). apply size_cells. assumption.
    - intros pre d post E. assert (Nd : ~ In d post). { rewrite E in Hn. apply NoDup_remove_2 in Hn. intros Hd. apply Hn. apply in_or_app. auto. }
      rewrite (B (parts st1 (Some a) ++ pre) d post); [|rewrite Ep, <- app_assoc, <- E; reflexivity|assumption].
      unfold block. rewrite total_app. f_equal. rewrite skipn_app. rewrite skipn_all2 by lia. cbn [app]. f_equal. lia. }
  rewrite !get_spec by assumption. rewrite !(parts_cells st1 st2 _ C2), Ep, flat_map_app, W. split; reflexivity.
Qed.
Print Assumptions C95_doubled_refuted.

(** However the objects are used after f + g was made, its value is the sum of the
    values f and g have now, at the same point expressed in their
    parametrizations; its plugin functions are those of f and those of g. *)
Theorem C95_sum : forall st f g st1 c st2, reachable st -> py_add st f g = Ok (st1, Some c) -> steps st1 st2 ->
  parts st2 (Some c) = parts st2 f ++ parts st2 g /\
  exists ps pf pg, param_of st2 (Some c) = Some ps /\ param_of st2 f = Some pf /\ param_of st2 g = Some pg /\
  forall junk x,
  (forall v, py_value junk st2 (Some c) x = Ok v -> exists x1 x2 v1 v2,
     convert x (in_param ps) (in_param pf) (fun _ => junk) = Ok x1 /\ convert x (in_param ps) (in_param pg) (fun _ => junk) = Ok x2 /\
     py_value junk st2 f x1 = Ok v1 /\ py_value junk st2 g x2 = Ok v2 /\ length v1 = length v /\ length v2 = length v /\ forall y, nth y v 0 = nth y v1 0 + nth y v2 0) /\
  (forall x1 x2 v1 v2, (dimn (in_param pf) <= dimX pf)%nat -> (dimn (in_param pg) <= dimX pg)%nat ->
     convert x (in_param ps) (in_param pf) (fun _ => junk) = Ok x1 -> convert x (in_param ps) (in_param pg) (fun _ => junk) = Ok x2 ->
     py_value junk st2 f x1 = Ok v1 -> py_value junk st2 g x2 = Ok v2 -> length v1 = dimY ps -> length v2 = dimY ps -> exists v, py_value junk st2 (Some c) x = Ok v).
Proof.
  intros st f g st1 c st2 Hr Ha Hs. pose proof (good_reachable _ Hr) as G. split; [apply (sum_parts st f g st1 c st2); assumption|].
  destruct (sum_cell _ _ _ _ _ _ G Ha Hs) as (a & b & t1 & t2 & par & -> & -> & E1 & E2 & Ec & _). unfold param_of. rewrite E1, E2, Ec. cbn [par_of].
  exists par, (par_of t1), (par_of t2). do 3 (split; [reflexivity|]). intros junk x. rewrite (value_nonlin _ _ _ _ _ Ec).
  assert (CP : forall t y, child_point junk x (in_param par) (par_of t) = Ok y -> convert x (in_param par) (in_param (par_of t)) (fun _ => junk) = Ok y).
  { intros t y. unfold child_point. destruct (_ <? _)%nat; [discriminate|auto]. }
  split.
  - intros v H. destruct (sum_value _ _ _ _ _ _ H) as (x1 & x2 & v1 & v2 & H1 & H2 & V1 & V2 & R1). exists x1, x2, v1, v2.
    rewrite (value_nonlin _ _ _ _ _ E1), (value_nonlin _ _ _ _ _ E2). split; [apply CP; assumption|]. split; [apply CP; assumption|]. auto.
  - intros x1 x2 v1 v2 D1 D2 C1 C2. rewrite (value_nonlin _ _ _ _ _ E1), (value_nonlin _ _ _ _ _ E2). intros V1 V2 L1 L2.
    apply (sum_defined junk par t1 t2 x x1 x2 v1 v2); try assumption; unfold child_point; fold (dimn (in_param (par_of t1))); fold (dimn (in_param (par_of t2))).
    + destruct (Nat.ltb_spec (dimX (par_of t1)) (dimn (in_param (par_of t1)))); [lia|assumption].
    + destruct (Nat.ltb_spec (dimX (par_of t2)) (dimn (in_param (par_of t2)))); [lia|assumption].
Qed.
Print Assumptions C95_sum.

(** The same for f * g; a function with one channel multiplies all channels of the other. *)
Theorem C95_product : forall st f g st1 c st2, reachable st -> py_mult st f g = Ok (st1, Some c) -> steps st1 st2 ->
  parts st2 (Some c) = parts st2 f ++ parts st2 g /\
  exists ps pf pg, param_of st2 (Some c) = Some ps /\ param_of st2 f = Some pf /\ param_of st2 g = Some pg /\
  forall junk x v, py_value junk st2 (Some c) x = Ok v -> exists x1 x2 v1 v2,
     convert x (in_param ps) (in_param pf) (fun _ => junk) = Ok x1 /\ convert x (in_param ps) (in_param pg) (fun _ => junk) = Ok x2 /\
     py_value junk st2 f x1 = Ok v1 /\ py_value junk st2 g x2 = Ok v2 /\
     ((length v1 = length v /\ length v2 = length v /\ forall y, nth y v 0 = nth y v1 0 * nth y v2 0) \/
      (length v1 = length v /\ length v2 = 1%nat /\ forall y, nth y v 0 = nth y v1 0 * nth 0 v2 0) \/
      (length v1 = 1%nat /\ length v2 = length v /\ forall y, nth y v 0 = nth 0 v1 0 * nth y v2 0)).
Proof.
  intros st f g st1 c st2 Hr Ha Hs. pose proof (good_reachable _ Hr) as G. split; [apply (product_parts st f g st1 c st2); assumption|].
  destruct (product_cell _ _ _ _ _ _ G Ha Hs) as (a & b & t1 & t2 & par & -> & -> & E1 & E2 & Ec & _). unfold param_of. rewrite E1, E2, Ec. cbn [par_of].
  exists par, (par_of t1), (par_of t2). do 3 (split; [reflexivity|]). intros junk x v. rewrite (value_nonlin _ _ _ _ _ Ec). intros H.
  assert (CP : forall t y, child_point junk x (in_param par) (par_of t) = Ok y -> convert x (in_param par) (in_param (par_of t)) (fun _ => junk) = Ok y).
  { intros t y. unfold child_point. destruct (_ <? _)%nat; [discriminate|auto]. }
  destruct (product_value _ _ _ _ _ _ H) as (x1 & x2 & v1 & v2 & H1 & H2 & V1 & V2 & R1). exists x1, x2, v1, v2.
  rewrite (value_nonlin _ _ _ _ _ E1), (value_nonlin _ _ _ _ _ E2). split; [apply CP; assumption|]. split; [apply CP; assumption|]. auto.
Qed.
Print Assumptions C95_product.

(** f + g and f * g are None, and nothing changes, when an operand is None or not a
    nonlinear function. *)
Theorem C95_none : forall st f g, ~ (has_parameters st f /\ has_parameters st g) -> py_add st f g = Ok (st, None) /\ py_mult st f g = Ok (st, None).
Proof.
  intros st f g H. unfold py_add, py_mult. destruct f as [a|], g as [b|]; try (split; reflexivity).
  destruct (as_tree st (Some a)) as [t1|] eqn:E1; [|split; reflexivity]. destruct (as_tree st (Some b)) as [t2|] eqn:E2; [|split; reflexivity].
  exfalso. apply H. split; eexists; eassumption.
Qed.
Print Assumptions C95_none.

(** No operation of a script changes the value of an existing function none of whose plugin
    functions is given new parameters; f.set changes that of g only if they have a
    plugin function in common. *)
Theorem C95_unchanged : forall st g, reachable st -> (forall a, g = Some a -> (a < length (cells st))%nat) ->
  (forall st', step st st' -> (forall b, In b (parts st g) -> store st' b = store st b) -> forall junk x, py_value junk st' g x = py_value junk st g x) /\
  (forall f v st', py_set st f v = Ok st' -> (forall b, In b (parts st f) -> ~ In b (parts st g)) -> forall junk x, py_value junk st' g x = py_value junk st g x).
Proof.
  intros st g Hr Hm. split.
  - intros st' Hs Hp junk x. apply step_value; try assumption. destruct g as [a|]; [apply (Hm a eq_refl)|exact I].
  - intros f v st' Hs Hd junk x. apply (set_value_frame junk st f v); try assumption. intros b Hb Hb'. apply (Hd b Hb' Hb).
Qed.
Print Assumptions C95_unchanged.

(** C96. arguments(d): an option has the text of the last entry of the dictionary
    with that key; without one it is not defined and its text is empty. *)
Theorem C96_dictionary : forall d,
  (forall d1 k v d2, d = d1 ++ (k, v) :: d2 -> ~ In k (map fst d2) -> is_defined (py_arguments d) k = true /\ at_key (py_arguments d) k = v) /\
  (forall k, ~ In k (map fst d) -> is_defined (py_arguments d) k = false /\ at_key (py_arguments d) k = []).
Proof.
  intros d. destruct (py_find d) as [N S1]. unfold is_defined, at_key. split.
  - intros d1 k v d2 E Hk. rewrite (S1 d1 k v d2 E Hk). split; reflexivity.
  - intros k Hk. rewrite (N k Hk). split; reflexivity.
Qed.
Print Assumptions C96_dictionary.

(** A vec given as an option is read back as a vector, number by number; for any
    printing of numbers without commas that atof reads. *)
Theorem C96_vector_option : forall T (atof : str -> T) (rnd : R -> T) print d1 d2 k v dflt,
  (forall x, ~ In ","%char (print x)) -> (forall x, atof (c_str (print x)) = rnd x) -> (forall x, atof (c_str (" "%char :: print x)) = rnd x) ->
  ~ In k (map fst d2) -> v <> [] -> get_vec_num atof (py_arguments (d1 ++ (k, py_vec_str print v) :: d2)) k (length v) dflt = map rnd v.
Proof. intros T. apply option_vec. Qed.
Print Assumptions C96_vector_option.

(** C97. v[i] is the component for 0 <= i < len(v) and an exception otherwise, also
    for negative i. *)
Theorem C97_get : forall v i, (Z.of_nat (length v) <= 2 ^ 32)%Z ->
  (forall j, (j < length v)%nat -> i = Z.of_nat j -> py_vec_get v i = Ok (nth j v 0)) /\
  ((i < 0 \/ Z.of_nat (length v) <= i)%Z -> py_vec_get v i = Throw).
Proof. intros v i Hb. split; [intros j Hj ->; apply vec_get_in; [assumption|lia]|apply vec_get_out]. Qed.
Print Assumptions C97_get.

(** list(v) ends and has the components of v. *)
Theorem C97_list : forall v, (Z.of_nat (length v) < 2 ^ 32)%Z -> exists fuel, forall more, py_list (fuel + more) v 0 = Some v.
Proof. intros v Hb. exists (S (length v)). intros more. apply (list_of v Hb []); [reflexivity|lia]. Qed.
Print Assumptions C97_list.

(** v[i] = x changes component i alone; out of range, also for a negative index, the
    program is ended. *)
Theorem C97_set : forall v i x,
  (forall j, (j < length v)%nat -> (Z.of_nat j < 2 ^ 31)%Z -> i = Z.of_nat j -> exists v', py_vec_set v i x = Ok v' /\ length v' = length v /\ nth j v' 0 = x /\ forall k, k <> j -> nth k v' 0 = nth k v 0) /\
  ((- 2 ^ 31 <= i < 0 \/ Z.of_nat (length v) <= i < 2 ^ 31)%Z -> py_vec_set v i x = Abort).
Proof.
  intros v i x. unfold py_vec_set. split.
  - intros j Hj Hb ->. destruct (Z.ltb_spec (Z.of_nat j) (- 2 ^ 31)); [lia|]. destruct (Z.leb_spec (2 ^ 31) (Z.of_nat j)); [lia|]. cbn [orb].
    destruct (Z.leb_spec 0 (Z.of_nat j)); [|lia]. destruct (Z.ltb_spec (Z.of_nat j) (Z.of_nat (length v))); [|lia]. cbn [andb]. rewrite Nat2Z.id. eexists. split; [reflexivity|].
    split; [apply FuncProofs.upd_length|]. split; [rewrite nth_upd, Nat.eqb_refl; destruct (Nat.ltb_spec j (length v)); [reflexivity|lia]|].
    intros k Hk. rewrite nth_upd. destruct (Nat.eqb_spec k j); [contradiction|reflexivity].
  - intros H. destruct (Z.ltb_spec i (- 2 ^ 31)); [lia|]. destruct (Z.leb_spec (2 ^ 31) i); [lia|]. cbn [orb].
    destruct (Z.leb_spec 0 i); [|reflexivity]. destruct (Z.ltb_spec i (Z.of_nat (length v))); [lia|reflexivity].
Qed.
Print Assumptions C97_set.

(** a + b and a - b, component by component; different lengths end the program. *)
Theorem C97_add_sub : forall a b,
  (length a = length b -> exists s d, py_vec_add a b = Ok s /\ py_vec_sub a b = Ok d /\ length s = length a /\ length d = length a /\
     forall y, nth y s 0 = nth y a 0 + nth y b 0 /\ nth y d 0 = nth y a 0 - nth y b 0) /\
  (length a <> length b -> py_vec_add a b = Abort /\ py_vec_sub a b = Abort).
Proof.
  intros a b. unfold py_vec_add, py_vec_sub, add_checked. split.
  - intros L. rewrite L, Nat.eqb_refl. eexists _, _. split; [reflexivity|]. split; [reflexivity|]. split; [rewrite vadd_len; lia|]. split; [rewrite map_length, combine_length; lia|].
    intros y. split; [apply nth_vadd; assumption|apply combine_sub; assumption].
  - intros L. destruct (Nat.eqb_spec (length a) (length b)); [contradiction|auto].
Qed.
Print Assumptions C97_add_sub.

(** C98. data2data(d, target): every sample, in order, at the same position expressed in
    the parametrization of the target, with its channels; the intervals are all zero. *)
Theorem C98_data2data : forall junk pin target rows, regular pin -> regular target -> Forall (sample_of pin) rows ->
  forall p out, py_data2data junk pin target rows = Ok (p, out) <-> p = target /\ pointwise (py_converted junk pin target) rows out.
Proof. intros junk pin target rows H1 H2 H3. apply py_data2data_iff; assumption. Qed.
Print Assumptions C98_data2data.

(** To a target with one channel, the "average" has the old content of the new
    array in it: two runs can differ. *)
Theorem C98_average_refuted : forall pin target r w, regular pin -> regular target -> sample_of pin r -> (1 < dimY pin)%nat -> dimY target = 1%nat ->
  converts r (in_param pin) (in_param target) w ->
  forall junk, py_data2data junk pin target [r] = Ok (target, [w ++ [(junk + fold_right Rplus 0 (values pin r)) / INR (dimY pin); 0; 0]]).
Proof.
  intros pin target r w H1 H2 Hr Hy Ht Hw junk. apply py_data2data_iff; try assumption; [repeat constructor; assumption|]. split; [reflexivity|]. split; [reflexivity|].
  intros [|i] x y Hx Hy'; cbn in Hx, Hy'; [|destruct i; discriminate]. injection Hx as <-. injection Hy' as <-.
  eexists w, _. split; [assumption|]. split; [apply averaged; [assumption|assumption|reflexivity]|]. rewrite Ht. reflexivity.
Qed.
Print Assumptions C98_average_refuted.

(** The intervals [0, 0] contain the value of a channel only if it is zero. *)
Theorem C98_intervals_refuted : forall junk pin target r o, regular pin -> regular target -> sample_of pin r -> dimY pin = dimY target ->
  py_data2data junk pin target [r] = Ok (target, [o]) ->
  forall c, (c < dimY target)%nat -> let v := nth (dimX target + c) o 0 in let lo := nth (dimX target + dimY target + c) o 0 in let hi := nth (dimX target + 2 * dimY target + c) o 0 in
  v = nth (dimX pin + c) r 0 /\ (lo <= v <= hi <-> v = 0).
Proof.
  intros junk pin target r o H1 H2 Hr Hd H c Hc. cbv zeta. apply py_data2data_iff in H; try assumption; [|repeat constructor; assumption]. destruct H as (_ & _ & P). specialize (P 0%nat r o eq_refl eq_refl).
  destruct P as (w & z & Cw & Cz & ->). pose proof (converts_length _ _ _ _ Cw) as Lw. destruct H2 as (_ & X2 & Y2). rewrite <- X2 in Lw.
  assert (Ez : z = values pin r). { destruct Cz as [_ ->|A B ->|A B _]; [reflexivity|lia|lia]. }
  assert (Lz : length z = dimY target) by (rewrite Ez; unfold values; rewrite skipn_length; unfold sample_of in Hr; lia).
  rewrite app_nth2 by lia. replace (dimX target + c - length w)%nat with c by lia. rewrite app_nth1 by lia.
  rewrite app_nth2 by lia. rewrite app_nth2 by lia. rewrite app_nth2 by lia. rewrite app_nth2 by lia. rewrite !nth_repeat.
  split; [rewrite Ez; unfold values; symmetry; apply ConvProofs4.values_nth|]. lra.
Qed.
Print Assumptions C98_intervals_refuted.

(** C99. brdf2data(f, d): every sample keeps its position (and what follows its values)
    and has as values the first channels of f there; it fails when f has fewer. *)
Theorem C99_brdf2data : forall junk pf pd val rows out, usable pf -> (dimn (in_param pd) <= dimX pd)%nat -> Forall (fun r => dimX pd + dimY pd <= length r)%nat rows ->
  py_brdf2data junk pf pd val rows = Ok out <-> pointwise (py_exported pf pd val) rows out.
Proof. intros junk pf pd val rows out H1 H2 H3. apply py_brdf2data_iff; assumption. Qed.
Print Assumptions C99_brdf2data.

(** ** A script: f and g with one parameter each, s = f + g, p = f * f. *)
Definition constant_leaf : leaf_fn :=
  mkLeaf (mkParameters 6 1 CARTESIAN INV_STERADIAN) 1 (fun p _ => firstn 1 (p ++ [0])) (fun _ _ => [1]) [0] [1].
Definition script1 := fst (py_new (fst (py_new py_empty constant_leaf [2])) constant_leaf [3]).
Lemma constant_ok p : length p = 1%nat -> leaf_ok constant_leaf p.
Proof. intros H. split; [assumption|]. split; [reflexivity|]. split; [reflexivity|]. intros q x Hq. cbn in Hq. destruct q as [|a [|]]; try discriminate. split; reflexivity. Qed.
Lemma script1_reachable : reachable script1.
Proof.
  eapply steps_step; [eapply steps_step; [apply steps_refl|]|].
  - apply (step_new py_empty constant_leaf [2]). apply constant_ok. reflexivity.
  - apply step_new. apply constant_ok. reflexivity.
Qed.
Example C95_case : exists st2, reachable script1 /\ py_add script1 (Some 0%nat) (Some 1%nat) = Ok (st2, Some 2%nat) /\ has_parameters st2 (Some 2%nat) /\
  parts st2 (Some 2%nat) = [0; 1]%nat /\ total_size (size_of st2) [0; 1]%nat = 2%nat /\ NoDup (parts st2 (Some 2%nat)) /\
  (forall junk x, py_value junk st2 (Some 2%nat) x = Ok [0 + 2 + 3]) /\
  exists st3, py_set st2 (Some 2%nat) [7; 8] = Ok st3 /\ (forall junk x, py_value junk st3 (Some 2%nat) x = Ok [0 + 7 + 8]) /\ forall junk, py_get junk st3 (Some 0%nat) = Ok [7].
Proof.
  eexists. split; [apply script1_reachable|]. split; [reflexivity|]. split; [eexists; reflexivity|]. split; [reflexivity|]. split; [reflexivity|].
  split; [constructor; [cbn; intuition lia|constructor; [intros []|constructor]]|]. split; [reflexivity|]. eexists. split; [reflexivity|]. split; reflexivity.
Qed.
Example C95_doubled_case : exists st2, py_add script1 (Some 0%nat) (Some 0%nat) = Ok (st2, Some 2%nat) /\ NoDup (parts st2 (Some 0%nat)) /\
  exists st3, py_set st2 (Some 2%nat) [7; 8] = Ok st3 /\ forall junk, py_get junk st3 (Some 2%nat) = Ok [8; 8].
Proof.
  eexists. split; [reflexivity|]. split; [constructor; [intros []|constructor]|]. eexists. split; reflexivity.
Qed.
Example C96_case : at_key (py_arguments [(lit "a", lit "1"); (lit "b", lit "2"); (lit "a", lit "3")]) (lit "a") = lit "3" /\ is_defined (py_arguments [(lit "a", lit "1")]) (lit "c") = false.
Proof. split; reflexivity. Qed.
Example C98_case : exists out, py_data2data 5 (mkParameters 2 2 RUSIN_TH_TD INV_STERADIAN) (mkParameters 2 1 RUSIN_TH_TD INV_STERADIAN) [[1; 2; 3; 4]] = Ok (mkParameters 2 1 RUSIN_TH_TD INV_STERADIAN, [out]) /\ nth 2 out 0 = (5 + (3 + (4 + 0))) / 2.
Proof.
  assert (N : named_input RUSIN_TH_TD) by (apply named_iff; reflexivity).
  assert (W : converts [1; 2; 3; 4] RUSIN_TH_TD RUSIN_TH_TD [1; 2]) by (apply (converts_same [1; 2; 3; 4] RUSIN_TH_TD N); cbn; lia).
  eexists. split; [apply (C98_average_refuted _ _ [1; 2; 3; 4] [1; 2]); [split; [exact N|split; cbn; [reflexivity|lia]]|split; [exact N|split; cbn; [reflexivity|lia]]|reflexivity|cbn; lia|reflexivity|exact W]|].
  cbn [app nth dimY]. cbn [values dimX skipn fold_right]. reflexivity.
Qed.
Example C99_case : py_brdf2data 0 (mkParameters 2 2 RUSIN_TH_TD INV_STERADIAN) (mkParameters 2 1 RUSIN_TH_TD INV_STERADIAN) (fun w => Ok [nth 0 w 0 + nth 1 w 0; 9]) [[1; 2; 3]] = Ok [[1; 2; 1 + 2]].
Proof.
  assert (N : named_input RUSIN_TH_TD) by (apply named_iff; reflexivity).
  apply C99_brdf2data; [right; split; [exact N|reflexivity]|cbn; lia|repeat constructor; cbn; lia|]. split; [reflexivity|]. intros [|i] x y Hx Hy; cbn in Hx, Hy; [|destruct i; discriminate].
  injection Hx as <-. injection Hy as <-. exists [1; 2], [1 + 2; 9]. split; [right; split; [discriminate|]; apply (converts_same [1; 2; 3] RUSIN_TH_TD N); cbn; lia|]. split; [reflexivity|]. split; [cbn; lia|reflexivity].
Qed.

(** Properties C90-C94: the function files of the nonlinear plugins. *)
From Coq Require Import Reals List ZArith Lia Lra.
From Verif Require Import Base Num ParamsModel GeoModel ArgsModel ArgsProofs DataModel DataProofs TextModel TextProofs TextRound FuncModel FuncFile FuncFileSpec RatSpec PfModel PfSpec PfProofs PfProofs2 PfProofs3 PfProofs4 PfProofs5 PfProofs6.
Open Scope R_scope.

(** Every plugin but sgd saves any object whose vectors have their sizes, and an object
    of the same plugin with as many channels gets every number back, as it was
    printed, wherever the text stands; with it the parametrization of an abc
    function and the number of lobes of a lafortune function. *)
Theorem C90_saved_plugin_is_loaded : forall lex print rnd junk, prints lex print rnd ->
  forall f, complete f -> pf_kind f <> PSgd -> exists text, psave print f = Ok text /\
  forall f0 w post, sound_format f -> nameable f -> alike f0 f -> (is_lafortune (pf_kind f) = false -> complete f0) -> newlines w ->
  exists w', newlines w' /\ pload lex junk f0 (good_stream (w ++ text ++ post)) = Ok (true, loaded rnd f f0, good_stream (w' ++ post)).
Proof.
  intros lex print rnd junk HP f Cf K. destruct (save_total print f Cf K) as (text & T). exists text. split; [assumption|].
  intros f0 w post H1 H2 H3 H4 Hw. destruct (saved_is_loaded lex print rnd junk HP f f0 text w post) as (w' & W & _ & E); try assumption. exists w'. auto.
Qed.
Print Assumptions C90_saved_plugin_is_loaded.

(** retrobeckmann: the numbers are restored, but the flag that selects the
    parametrization is the opposite of the one that was saved. *)
Theorem C91_retrobeckmann_flag_refuted : forall lex print rnd junk, prints lex print rnd ->
  forall f f0 text w post, pf_kind f = PRetrobeckmann -> alike f0 f -> complete f -> complete f0 -> newlines w -> psave print f = Ok text ->
  exists w', newlines w' /\ pload lex junk f0 (good_stream (w ++ text ++ post)) =
    Ok (true, mkPfun PRetrobeckmann (pf_nY f) (pf_in f0) (negb (pf_back f)) (pf_n f0) (map (map rnd) (pf_mem f)), good_stream (w' ++ post)).
Proof. exact retrobeckmann_flag. Qed.
Print Assumptions C91_retrobeckmann_flag_refuted.

(** retroyoo: none of the numbers is restored, the first one becomes zero, the
    stream fails, and the function says it was loaded. *)
Theorem C91_retroyoo_refuted : forall lex print junk, (forall r, lex (lit "Kr" ++ r) = None) ->
  forall f f0 text w post, pf_kind f = PYoo -> alike f0 f -> complete f -> complete f0 -> (0 < pf_nY f)%nat -> newlines w -> psave print f = Ok text ->
  exists g s, failbit s = true /\ pload lex junk f0 (good_stream (w ++ text ++ post)) = Ok (true, g, s) /\ alike g f0 /\
    forall m i, (m < 2)%nat -> (i < pf_nY f)%nat -> number g m i = if (Nat.eqb m 0 && Nat.eqb i 0)%bool then Some 0 else number f0 m i.
Proof.
  intros lex print junk HL f f0 text w post E Ha Cf C0 Hn Hw Ht. destruct (yoo_lost lex print junk f f0 text w post) as (s & F & P); try assumption.
  eexists _, s. split; [assumption|]. split; [exact P|]. split; [split; reflexivity|]. intros m i Hm Hi. destruct Ha as [Ek Ey].
  pose proof C0 as [_ S0]. rewrite Ek, E in S0. cbn [sizes] in S0. rewrite Ey in S0.
  destruct (pf_mem f0) as [|a [|b [|]]] eqn:M; try discriminate. injection S0 as A B.
  unfold number, with_mem. rewrite M. cbn [pf_mem set_cell fst snd nth set_nth].
  destruct m as [|[|]]; [| |lia]; cbn [nth_error Nat.eqb andb]; [|reflexivity].
  destruct a as [|x a]; [cbn in A; lia|]. destruct i; reflexivity.
Qed.
Print Assumptions C91_retroyoo_refuted.

(** lafortune with several lobes: all exponents of the file go to the first lobe in
    turn, so that it ends up with those of the last lobe; the other lobes keep the exponents the object
    had when it had as many lobes, and have whatever the memory held otherwise. *)
Theorem C91_lafortune_exponents_refuted : forall lex print rnd junk, prints lex print rnd ->
  forall f f0 text w post n, pf_kind f = PLaf -> pf_n f = Z.of_nat (S n) -> alike f0 f -> complete f -> newlines w -> psave print f = Ok text ->
  exists w' g, newlines w' /\ pload lex junk f0 (good_stream (w ++ text ++ post)) = Ok (true, g, good_stream (w' ++ post)) /\ alike g f /\ pf_n g = pf_n f /\
    nth 0 (pf_mem g) [] = map rnd (nth 0 (pf_mem f) []) /\
    nth 1 (pf_mem g) [] = map rnd (skipn (n * pf_nY f) (nth 1 (pf_mem f) [])) ++
      (if Nat.eqb (length (nth 1 (pf_mem f0) [])) (S n * pf_nY f) then skipn (pf_nY f) (nth 1 (pf_mem f0) []) else map (junk 1%nat) (skipn (pf_nY f) (seq 0 (S n * pf_nY f)))).
Proof.
  intros lex print rnd junk HP f f0 text w post n E En Ha Cf Hw Ht. destruct (lafortune_loaded lex print rnd junk HP f f0 text w post n) as (w' & W & P); try assumption.
  exists w'. eexists. split; [assumption|]. split; [exact P|]. split; [split; [symmetry; assumption|reflexivity]|]. split; [reflexivity|]. cbn [pf_mem nth]. split; [reflexivity|]. f_equal.
  unfold resize_vec. destruct (Nat.eqb _ _); [reflexivity|]. apply skipn_map.
Qed.
Print Assumptions C91_lafortune_exponents_refuted.

(** sgd objects cannot be saved; the constructor of normalized_schlick leaves its vector
    empty, and such an object can be neither saved nor loaded. *)
Theorem C91_unsavable_refuted : forall lex print junk,
  (forall f, pf_kind f = PSgd -> psave print f = Abort) /\
  (forall f w, pf_kind f = PNormSchlick -> pf_mem f = [[]] -> (0 < pf_nY f)%nat -> newlines w -> psave print f = Abort /\
     forall r, pload lex junk f (good_stream (w ++ endl (lit "#FUNC nonlinear_fresnel_normalized_schlick") ++ r)) = Abort).
Proof. intros lex print junk. split; [intros f E; unfold psave; rewrite E; reflexivity|]. intros f w. apply normalized_schlick_stops. Qed.
Print Assumptions C91_unsavable_refuted.

(** Files for sgd, which list the eleven vectors one after the other, are loaded. *)
Theorem C91_sgd_files : forall lex print rnd junk, prints lex print rnd ->
  forall f label vals w post, pf_kind f = PSgd -> complete f -> map (@length R) vals = repeat (pf_nY f) 11 -> (forall m, solid (label m)) -> newlines w ->
  let body := flat_map (fun m => flat_map (fun x => label m ++ lit " " ++ print x ++ [nl]) (nth m vals [])) (seq 0 11) in
  exists w', newlines w' /\ pload lex junk f (good_stream (w ++ lit "#FUNC nonlinear_function_sgd" ++ nl :: body ++ nl :: post)) = Ok (true, with_mem f (map (map rnd) vals), good_stream (w' ++ nl :: post)).
Proof.
  intros lex print rnd junk HP f label vals w post E Cf Sv Hl Hw body.
  set (label' := fun m => label m ++ lit " ").
  assert (T : lines_text print (sgd_lines label' (pf_nY f)) vals = Ok body).
  { unfold body, sgd_lines. assert (B : forall m, In m (seq 0 11) -> length (nth m vals []) = pf_nY f).
    { intros m Hm. apply in_seq in Hm. rewrite <- (map_nth (@length R)), Sv. apply nth_repeat_lt. lia. }
    revert B. generalize (seq 0 11). induction l as [|m l IH]; intros B; [reflexivity|]. cbn [flat_map].
    assert (A : forall a b ta tb, lines_text print a vals = Ok ta -> lines_text print b vals = Ok tb -> lines_text print (a ++ b) vals = Ok (ta ++ tb)).
    { clear. induction a as [|o a IH]; intros b ta tb H1 H2; [apply Ok_inj in H1; subst; assumption|]. cbn [app lines_text] in *. destruct o as [[l c]|].
      - destruct (cell_at vals c) as [x| | |]; try discriminate. cbn [bind] in *. destruct (lines_text print a vals) as [r| | |] eqn:F; try discriminate. cbn [bind] in H1. apply Ok_inj in H1. subst.
        rewrite (IH b r tb) by auto. cbn [bind]. rewrite <- app_assoc. reflexivity.
      - destruct (lines_text print a vals) as [r| | |] eqn:F; try discriminate. cbn [bind] in H1. apply Ok_inj in H1. subst. rewrite (IH b r tb) by auto. reflexivity. }
    apply A; [|apply IH; intros; apply B; right; assumption].
    specialize (B m (or_introl eq_refl)). 
    assert (G : forall k v pre, nth m vals [] = pre ++ v -> k = length pre ->
      lines_text print (map (fun i => Some (label' m, (m, i))) (seq k (length v))) vals = Ok (flat_map (fun x => label m ++ lit " " ++ print x ++ [nl]) v)).
    { intros k v. revert k. induction v as [|x v IHv]; intros k pre Ev Ek; [reflexivity|]. cbn [length seq map lines_text].
      assert (CA : cell_at vals (m, k) = Ok x).
      { rewrite cell_at_ok by (unfold in_range; cbn [fst snd]; rewrite Ev, app_length; cbn; lia). unfold value_of. cbn [fst snd]. rewrite Ev, app_nth2 by lia. rewrite Ek, Nat.sub_diag. reflexivity. }
      rewrite CA. cbn [bind]. rewrite (IHv (S k) (pre ++ [x])); [|rewrite <- app_assoc; assumption|rewrite app_length; cbn; lia]. cbn [bind flat_map]. unfold label', endl. rewrite <- !app_assoc. reflexivity. }
    rewrite <- B. apply (G 0%nat _ []); reflexivity. }
  destruct (sgd_loaded lex print rnd junk HP f label' vals body w (nl :: post)) as (w' & W & P); try assumption.
  { intros m. destruct (Hl m) as [H1 H2]. exists (label m), " "%char, []. repeat (split; [first [reflexivity|assumption]|]). reflexivity. }
  exists w'. split; [assumption|]. rewrite <- P. unfold endl. rewrite <- !app_assoc. reflexivity.
Qed.
Print Assumptions C91_sgd_files.

(** A file of another plugin, or anything else with a tag, is refused and changes
    nothing; the two types of spherical_gaussian, and the two lafortune plugins, share a name. *)
Theorem C92_other_plugins_are_refused : forall lex print junk f0 w post, newlines w ->
  (forall f text, psave print f = Ok text -> same_family (pf_kind f0) (pf_kind f) = false ->
     exists r, pload lex junk f0 (good_stream (w ++ text ++ post)) = Ok (false, f0, good_stream r)) /\
  (forall tag, solid ("#"%char :: tag) -> "#"%char :: tag <> lit "#FUNC" ->
     pload lex junk f0 (good_stream (w ++ ("#"%char :: tag) ++ nl :: post)) = Ok (false, f0, good_stream (nl :: post))).
Proof.
  intros lex print junk f0 w post Hw. split.
  - intros f text Ht Hf. eapply other_plugin_refused; eassumption.
  - intros tag. apply not_a_function_refused. assumption.
Qed.
Print Assumptions C92_other_plugins_are_refused.

(** An isotropic lafortune function accepts the file of an anisotropic one and
    takes its third coefficient for the exponent. *)
Theorem C92_lafortune_confusion_refuted : forall lex print rnd junk, prints lex print rnd ->
  forall f0 a b c d pin back text w post, pf_kind f0 = PLafIso -> pf_nY f0 = 1%nat -> newlines w ->
  psave print (mkPfun PLaf 1 pin back 1 [[a; b; c]; [d]]) = Ok text ->
  exists s, pload lex junk f0 (good_stream (w ++ text ++ post)) = Ok (true, mkPfun PLafIso 1 (pf_in f0) (pf_back f0) 1 [[rnd a; rnd b]; [rnd c]], s).
Proof. exact isotropic_reads_anisotropic. Qed.
Print Assumptions C92_lafortune_confusion_refuted.

(** A sum of plugins, repeated or not: every function gets its own numbers back. *)
Theorem C93_sum_of_plugins : forall lex print rnd junk, prints lex print rnd ->
  forall fs fs0 text w post, fs <> [] -> newlines w -> csave print fs = Ok text ->
  Forall2 (fun f f0 => sound_format f /\ nameable f /\ alike f0 f /\ complete f /\ (is_lafortune (pf_kind f) = false -> complete f0)) fs fs0 ->
  exists w', newlines w' /\ cload lex junk fs0 (good_stream (w ++ text ++ post)) = Ok (true, map (fun p => loaded rnd (fst p) (snd p)) (combine fs fs0), good_stream (w' ++ post)).
Proof. intros lex print rnd junk HP fs fs0 text w post Hn Hw Ht H. eapply sum_restored; eassumption. Qed.
Print Assumptions C93_sum_of_plugins.

(** A retroyoo function in a sum: none of the functions after it is loaded, and the sum says
    it was. *)
Theorem C93_retroyoo_hides_the_rest_refuted : forall lex print junk, (forall r, lex (lit "Kr" ++ r) = None) ->
  forall f f0 fs fs0 text w post, pf_kind f = PYoo -> alike f0 f -> complete f -> complete f0 -> (0 < pf_nY f)%nat -> newlines w -> csave print (f :: fs) = Ok text ->
  exists g0 s, cload lex junk (f0 :: fs0) (good_stream (w ++ text ++ post)) = Ok (true, g0 :: fs0, s).
Proof. intros lex print junk HL f f0 fs fs0 text w post H1 H2 H3 H4 H5 H6 H7. eapply yoo_hides_the_rest; eassumption. Qed.
Print Assumptions C93_retroyoo_hides_the_rest_refuted.

(** A file cut after any number of lines is not refused: the numbers it holds are set, the
    others keep the values they had. *)
Theorem C94_truncated_file : forall lex print rnd junk, prints lex print rnd ->
  forall f f0 text w j, plain_format (pf_kind f) = true -> alike f0 f -> complete f -> complete f0 -> newlines w -> psave print f = Ok text ->
  exists g s, pload lex junk f0 (good_stream (w ++ first_lines (S j) text)) = Ok (true, g, s) /\ alike g f0 /\
    forall m i, (m < length (pf_mem f))%nat -> (i < pf_nY f)%nat ->
      number g m i = if (i * length (pf_mem f) + m <? j)%nat then option_map rnd (number f m i) else number f0 m i.
Proof. intros lex print rnd junk HP. apply truncated. assumption. Qed.
Print Assumptions C94_truncated_file.

(** ** Cases *)
Definition blinn2 : pfun := mkPfun PBlinn 2 CARTESIAN false 0 [[1; 2]; [30; 40]].
Definition abc1 : pfun := mkPfun PAbc 1 COS_TH false 0 [[5]; [6]; [7]].
Definition iso2 : pfun := mkPfun PLafIso 1 CARTESIAN false 2 [[1; 2; 3; 4]; [8; 9]].
Definition yoo1 : pfun := mkPfun PYoo 1 CARTESIAN false 0 [[3]; [4]].
Definition fresh (f : pfun) : pfun := mkPfun (pf_kind f) (pf_nY f) CARTESIAN true (pf_n f) (map (map (fun _ => 0)) (pf_mem f)).
Lemma whole_numbers z : IZR (Int_part (IZR z)) = IZR z.
Proof. f_equal. unfold Int_part. rewrite <- (up_tech (IZR z) z); [lia|lra|]. rewrite plus_IZR. lra. Qed.

(** a sum of a Blinn lobe, an ABC distribution and two isotropic Lafortune lobes goes through its file *)
Example C90_case : exists text, csave demo_print [blinn2; abc1; iso2] = Ok text /\
  exists s, cload demo_lex (fun _ _ => 99) [fresh blinn2; fresh abc1; fresh iso2] (good_stream text) =
  Ok (true, [mkPfun PBlinn 2 CARTESIAN true 0 [[1; 2]; [30; 40]]; mkPfun PAbc 1 COS_TH true 0 [[5]; [6]; [7]]; mkPfun PLafIso 1 CARTESIAN true 2 [[1; 2; 3; 4]; [8; 9]]], s).
Proof.
  assert (T : forall f, complete f -> pf_kind f <> PSgd -> exists text, psave demo_print f = Ok text).
  { intros f Cf K. destruct (C90_saved_plugin_is_loaded demo_lex demo_print _ (fun _ _ => 0) demo_prints f Cf K) as (t & Ht & _). exists t. assumption. }
  assert (C1 : complete blinn2) by (split; [discriminate|reflexivity]). assert (C2 : complete abc1) by (split; [discriminate|reflexivity]).
  assert (C3 : complete iso2) by (split; [cbn; lia|reflexivity]).
  destruct (T blinn2 C1 ltac:(discriminate)) as (t1 & E1). destruct (T abc1 C2 ltac:(discriminate)) as (t2 & E2). destruct (T iso2 C3 ltac:(discriminate)) as (t3 & E3).
  assert (ES : csave demo_print [blinn2; abc1; iso2] = Ok (t1 ++ t2 ++ t3 ++ [])) by (cbn [csave]; rewrite E1, E2, E3; reflexivity).
  eexists. split; [exact ES|].
  destruct (C93_sum_of_plugins demo_lex demo_print _ (fun _ _ => 99) demo_prints [blinn2; abc1; iso2] [fresh blinn2; fresh abc1; fresh iso2] _ [] [] ltac:(discriminate) ltac:(constructor) ES) as (w & _ & E).
  { constructor; [|constructor; [|constructor; [|constructor]]]; repeat split; try exact I; try discriminate; try (intros; reflexivity); cbn; lia. }
  cbn [app] in E. rewrite !app_nil_r in E. rewrite !app_nil_r. rewrite E. eexists.
  cbn [map combine fst snd loaded blinn2 abc1 iso2 fresh pf_kind pf_nY pf_in pf_back pf_n pf_mem is_lafortune]. unfold loaded, blinn2, abc1, iso2, fresh. cbn [map pf_kind pf_nY pf_in pf_back pf_n pf_mem is_lafortune]. rewrite !whole_numbers. reflexivity.
Qed.
(** the retroyoo function's file, with a reader of whole numbers *)
Example C91_case : exists text s g, psave demo_print yoo1 = Ok text /\ pload demo_lex (fun _ _ => 99) (mkPfun PYoo 1 CARTESIAN false 0 [[11]; [12]]) (good_stream text) = Ok (true, g, s) /\
  number g 0 0 = Some 0 /\ number g 1 0 = Some 12.
Proof.
  assert (C1 : complete yoo1) by (split; [discriminate|reflexivity]).
  destruct (C90_saved_plugin_is_loaded demo_lex demo_print _ (fun _ _ => 0) demo_prints yoo1 C1 ltac:(discriminate)) as (t & Ht & _).
  destruct (C91_retroyoo_refuted demo_lex demo_print (fun _ _ => 99) ltac:(reflexivity) yoo1 (mkPfun PYoo 1 CARTESIAN false 0 [[11]; [12]]) t [] []) as (g & s & _ & P & _ & N); try assumption; try reflexivity.
  all: try (split; [discriminate|reflexivity]); try (split; reflexivity); try (cbn; lia); try constructor.
  exists t, s, g. split; [assumption|]. cbn [app] in P. rewrite app_nil_r in P. split; [exact P|]. split; (rewrite N; [reflexivity|lia|cbn; lia]).
Qed.
(** the Blinn function's file cut after three numbers *)
Example C94_case : exists text g s, psave demo_print blinn2 = Ok text /\ pload demo_lex (fun _ _ => 99) (fresh blinn2) (good_stream (first_lines 4 text)) = Ok (true, g, s) /\
  number g 0 0 = Some 1 /\ number g 1 0 = Some 30 /\ number g 0 1 = Some 2 /\ number g 1 1 = Some 0.
Proof.
  assert (C1 : complete blinn2) by (split; [discriminate|reflexivity]).
  destruct (C90_saved_plugin_is_loaded demo_lex demo_print _ (fun _ _ => 0) demo_prints blinn2 C1 ltac:(discriminate)) as (t & Ht & _).
  destruct (C94_truncated_file demo_lex demo_print _ (fun _ _ => 99) demo_prints blinn2 (fresh blinn2) t [] 3) as (g & s & P & _ & N); try assumption; try reflexivity.
  all: try (split; [discriminate|reflexivity]); try (split; reflexivity); try constructor.
  exists t, g, s. split; [assumption|]. split; [exact P|]. rewrite !N by (cbn; lia). cbn. rewrite !whole_numbers. auto.
Qed.

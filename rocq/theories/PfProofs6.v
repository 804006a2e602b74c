(** Function files of the plugins: the two lafortune plugins read each other's files; normalized_schlick (C91, C92). *)
From Coq Require Import Reals List ZArith Lia.
From Verif Require Import Base Num ParamsModel GeoModel ArgsModel ArgsProofs DataModel DataProofs TextModel TextProofs TextRound FuncModel FuncFile FuncFileSpec FuncFileProofs RatModel RatSpec RatFile PfModel PfSpec PfProofs PfProofs2 PfProofs3.
Open Scope R_scope.

Section Cross.
Variable lex : str -> option (R * str).
Variable print : R -> str.
Variable rnd : R -> R.
Variable junk : nat -> nat -> R.
Hypothesis Hprint : prints lex print rnd.

Theorem isotropic_reads_anisotropic f0 a b c d pin back text w post : pf_kind f0 = PLafIso -> pf_nY f0 = 1%nat -> newlines w ->
  psave print (mkPfun PLaf 1 pin back 1 [[a; b; c]; [d]]) = Ok text ->
  exists s, pload lex junk f0 (good_stream (w ++ text ++ post)) = Ok (true, mkPfun PLafIso 1 (pf_in f0) (pf_back f0) 1 [[rnd a; rnd b]; [rnd c]], s).
Proof using Hprint.
  intros Ek Ey Hw Ht. set (f := mkPfun PLaf 1 pin back 1 [[a; b; c]; [d]]) in *.
  pose proof (labels f ltac:(discriminate)) as LB.
  apply saved_text in Ht as (_ & r & Hr & ->). rewrite <- !app_assoc.
  change (load_name (pf_kind f)) with (load_name PLafIso). rewrite <- Ek, pload_named by assumption. unfold pload_body. rewrite Ek.
  change (save_tag f) with (lit "#NB_LOBES" ++ " "%char :: print_nat 1 ++ [nl]).
  replace (nl :: (lit "#NB_LOBES" ++ " "%char :: print_nat 1 ++ [nl]) ++ r ++ post) with ([nl] ++ lit "#NB_LOBES" ++ " "%char :: print_nat 1 ++ nl :: r ++ post) by reflexivity.
  rewrite read_token_word; [|reflexivity|apply solid_dec; [discriminate|reflexivity]|reflexivity]. rewrite str_eqb_refl. cbn [negb].
  change (good_stream (" "%char :: print_nat 1 ++ nl :: r ++ post)) with (good_stream ([" "%char] ++ print_nat 1 ++ nl :: r ++ post)).
  rewrite scan_num_text by reflexivity. change (Z.of_nat 1) with 1%Z.
  unfold set_lobes. rewrite Ek, Ey. cbn [Z.of_nat Pos.of_succ_nat Z.mul Pos.mul Z.ltb Z.compare Z.to_nat Pos.to_nat Pos.iter_op Nat.mul Nat.add bind].
  change (Pos.to_nat 1) with 1%nat. change (1 * 1 * 2)%nat with 2%nat. change (1 * 1)%nat with 1%nat.
  set (v0 := resize_vec junk 0 2 (nth 0 (pf_mem f0) [])). set (v1 := resize_vec junk 1 1 (nth 1 (pf_mem f0) [])).
  assert (L0 : length v0 = 2%nat) by apply resize_len. assert (L1 : length v1 = 1%nat) by apply resize_len.
  destruct v0 as [|p [|q [|]]]; try discriminate. destruct v1 as [|t [|]]; try discriminate.
  unfold load_numbers, load_cells. cbn [pf_kind pf_nY pf_n pf_mem Z.to_nat]. change (Pos.to_nat 1) with 1%nat.
  match goal with |- context[flat_map ?g (seq 0 1)] => change (flat_map g (seq 0 1)) with [(0, 0); (0, 1); (1, 0)]%nat end.
  unfold save_lines in Hr, LB. cbn [f pf_kind pf_nY pf_n pf_mem Z.to_nat Pos.to_nat Pos.iter_op Nat.add seq flat_map app Nat.mul] in Hr, LB.
  cbn [lines_text cell_at nth_error fst snd bind] in Hr. apply Ok_inj in Hr.
  set (ls := [Some (lit "Cx ", (0, 0)); Some (lit "Cx ", (0, 1)); Some (lit "Cz ", (0, 2))]%nat : list (option (str * cell))).
  destruct (read_lines lex print rnd Hprint ls (pf_mem f) (endl (lit "Cx " ++ print a) ++ endl (lit "Cx " ++ print b) ++ endl (lit "Cz " ++ print c)) [(0, 0); (0, 1); (1, 0)]%nat [] [[p; q]; [t]] [nl]
    ((endl (lit "N  " ++ print d) ++ endl []) ++ post)) as (w' & _ & _ & E).
  { inversion LB as [|? ? B1 B']; subst. inversion B' as [|? ? B2 B'']; subst. inversion B'' as [|? ? B3 B''']; subst. constructor; [exact B1|]. constructor; [exact B2|]. constructor; [exact B3|constructor]. }
  { cbn. rewrite app_nil_r. reflexivity. }
  { reflexivity. }
  { repeat constructor. }
  { repeat constructor. }
  eexists. rewrite Hr. 
  match goal with |- context[good_stream (nl :: ?x)] => replace (nl :: x) with ([nl] ++ (endl (lit "Cx " ++ print a) ++ endl (lit "Cx " ++ print b) ++ endl (lit "Cz " ++ print c)) ++ ((endl (lit "N  " ++ print d) ++ endl []) ++ post)) by (cbn [app]; rewrite <- !app_assoc; reflexivity) end.
  rewrite app_nil_r in E. unfold cell in *. rewrite E. cbn [read_cells bind fst snd]. reflexivity.
Qed.

Theorem normalized_schlick_stops f pre : pf_kind f = PNormSchlick -> pf_mem f = [[]] -> (0 < pf_nY f)%nat -> newlines pre ->
  psave print f = Abort /\ forall r, pload lex junk f (good_stream (pre ++ endl (lit "#FUNC nonlinear_fresnel_normalized_schlick") ++ r)) = Abort.
Proof using.
  intros E M Hn Hw. split.
  - unfold psave, save_lines. rewrite E, M. destruct (pf_nY f) as [|n]; [lia|]. reflexivity.
  - intros r. change (lit "#FUNC nonlinear_fresnel_normalized_schlick") with (lit "#FUNC " ++ load_name PNormSchlick). rewrite <- E, pload_named by assumption.
    unfold pload_body. rewrite E. unfold load_numbers, load_cells. rewrite E, M. destruct (pf_nY f) as [|n]; [lia|]. reflexivity.
Qed.
End Cross.

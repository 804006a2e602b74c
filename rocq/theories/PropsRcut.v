(** C117: a rational function file that is cut short *)
From Coq Require Import Reals List Lia Lra.
From Verif Require Import Base Num ParamsModel GeoModel ArgsModel ArgsSpec ArgsProofs DataModel TextModel TextRound FuncModel FuncFile FuncFileSpec MonoModel MonoSpec RatModel RatSpec RatProofs RatFile CutSpec CutProofs RcutSpec RcutProofs PropsRat PropsPf.
Open Scope R_scope.

(** The file of a function whose channels all exist ends with the last
    coefficient of the last channel.  A file that is cut anywhere before that
    number - in the header, in the bounds, in or between channels - is never
    accepted: the loader refuses it or works with numbers that were never set. *)
Theorem C117_never_accepted : forall junk lex print rnd, prints lex print rnd -> prefixes_end lex print -> forall f front s c cs np nq, rnd 1 = 1 ->
  (0 < f_dimX f)%nat -> length (f_min f) = f_dimX f -> length (f_max f) = f_dimX f ->
  f_rs f = map Some (front ++ [s]) -> length (front ++ [s]) = f_dimY f -> Forall (channel_ok (f_dimX f)) (front ++ [s]) -> Forall (fun s => r_p s <> []) (front ++ [s]) -> r_q s = cs ++ [c] ->
  exists file, save_rf print f = Ok (file ++ print (co_a c) ++ [nl; nl]) /\
    forall x, pre x file -> fails (load_rf junk lex (new_rf (f_dimX f) (f_dimY f) np nq) (good_stream x)).
Proof.
  intros junk lex print rnd HP HE f front s c cs np nq R1 Hd Hm HM Er Hl HF HN Hq.
  destruct (rf_cut junk lex print rnd HP HE f front s c cs np nq R1 Hd Hm HM Er Hl HF HN Hq) as (T & E & A & _). exists T. auto.
Qed.
Print Assumptions C117_never_accepted.

(** A file that is cut inside that last number is accepted without a word:
    everything else is read as written, and the last coefficient is what the
    remaining characters say. *)
Theorem C117_last_number_refuted : forall junk lex print rnd, prints lex print rnd -> prefixes_end lex print -> forall f front s c cs np nq, rnd 1 = 1 ->
  (0 < f_dimX f)%nat -> length (f_min f) = f_dimX f -> length (f_max f) = f_dimX f ->
  f_rs f = map Some (front ++ [s]) -> length (front ++ [s]) = f_dimY f -> Forall (channel_ok (f_dimX f)) (front ++ [s]) -> Forall (fun s => r_p s <> []) (front ++ [s]) -> r_q s = cs ++ [c] -> cs <> [] ->
  exists file, save_rf print f = Ok (file ++ print (co_a c) ++ [nl; nl]) /\
    forall q r, print (co_a c) = q ++ r -> q <> [] -> exists s',
      load_rf junk lex (new_rf (f_dimX f) (f_dimY f) np nq) (good_stream (file ++ q)) =
      Ok (true, mkRf (f_dimX f) (f_dimY f) (map rnd (f_min f)) (map rnd (f_max f)) np nq
        (map Some (map (kept rnd (f_dimX f) (map rnd (f_min f)) (map rnd (f_max f))) front ++
           [mkRf1 (f_dimX f) (fst (inflate (map rnd (f_min f)) (map rnd (f_max f)))) (snd (inflate (map rnd (f_min f)) (map rnd (f_max f))))
              (round_coeffs rnd (r_p s)) (with_last (round_coeffs rnd (r_q s)) (cut_number lex q))])), s').
Proof.
  intros junk lex print rnd HP HE f front s c cs np nq R1 Hd Hm HM Er Hl HF HN Hq Hcs.
  destruct (rf_cut junk lex print rnd HP HE f front s c cs np nq R1 Hd Hm HM Er Hl HF HN Hq) as (T & E & _ & B & _). exists T. split; [exact E|]. intros q r Eq Hn.
  destruct (B q) as (s' & _ & L); try assumption; [|exists s'; exact L]. destruct r as [|y r]; [left; rewrite app_nil_r in Eq; auto|right; exists (y :: r); split; [discriminate|exact Eq]].
Qed.
Print Assumptions C117_last_number_refuted.

(** And not every cut is refused cleanly: the file that stops just before its
    last number makes the loader use a coefficient that was never set. *)
Theorem C117_unset_coefficient_refuted : forall junk lex print rnd, prints lex print rnd -> prefixes_end lex print -> forall f front s c cs np nq, rnd 1 = 1 ->
  (0 < f_dimX f)%nat -> length (f_min f) = f_dimX f -> length (f_max f) = f_dimX f ->
  f_rs f = map Some (front ++ [s]) -> length (front ++ [s]) = f_dimY f -> Forall (channel_ok (f_dimX f)) (front ++ [s]) -> Forall (fun s => r_p s <> []) (front ++ [s]) -> r_q s = cs ++ [c] ->
  exists file, save_rf print f = Ok (file ++ print (co_a c) ++ [nl; nl]) /\ load_rf junk lex (new_rf (f_dimX f) (f_dimY f) np nq) (good_stream file) = UB.
Proof.
  intros junk lex print rnd HP HE f front s c cs np nq R1 Hd Hm HM Er Hl HF HN Hq.
  destruct (rf_cut junk lex print rnd HP HE f front s c cs np nq R1 Hd Hm HM Er Hl HF HN Hq) as (T & E & _ & _ & U). exists T. auto.
Qed.
Print Assumptions C117_unset_coefficient_refuted.

(** A function of one input and two outputs whose last coefficient is 47: three
    characters missing, the file is accepted with 4 instead. *)
Definition cut_function := mkRf 1 2 [0] [2] 2 2 [Some (rat_channel 3 4 5); Some (rat_channel 6 (-7) 47)].
Example C117_case : exists file g s', save_rf demo_print cut_function = Ok (file ++ lit "47" ++ [nl; nl]) /\
  load_rf 0 demo_lex (new_rf 1 2 1 1) (good_stream (file ++ lit "4")) = Ok (true, g, s') /\ f_rs g = [Some (rat_channel 3 4 5); Some (rat_channel 6 (-7) 4)] /\
  fails (load_rf 0 demo_lex (new_rf 1 2 1 1) (good_stream file)).
Proof.
  assert (W : forall z, IZR (Int_part (IZR z)) = IZR z) by (intros z; apply whole_numbers).
  assert (P47 : demo_print 47 = lit "47") by (unfold demo_print; replace (Int_part 47) with 47%Z; [reflexivity|]; apply eq_IZR; symmetry; apply (W 47%Z)).
  assert (R1 : IZR (Int_part 1) = 1) by apply (W 1%Z).
  assert (CH : forall a b c, channel_ok 1 (rat_channel a b c)) by (intros a b c; repeat split; eexists; reflexivity).
  set (s := rat_channel 6 (-7) 47).
  destruct (C117_last_number_refuted 0 demo_lex demo_print _ demo_prints demo_prefixes cut_function [rat_channel 3 4 5] s (mkCoeff 47 [1%nat]) [mkCoeff 1 [0%nat]] 1 1) as (file & E & L);
    try reflexivity; try assumption; try discriminate; try (cbn; lia); try (repeat constructor; try apply CH; discriminate).
  destruct (C117_never_accepted 0 demo_lex demo_print _ demo_prints demo_prefixes cut_function [rat_channel 3 4 5] s (mkCoeff 47 [1%nat]) [mkCoeff 1 [0%nat]] 1 1) as (file' & E' & F);
    try reflexivity; try assumption; try discriminate; try (cbn; lia); try (repeat constructor; try apply CH; discriminate).
  rewrite E in E'. apply Ok_inj in E'. apply app_inv_tail in E'. subst file'. cbn [co_a] in *. rewrite P47 in *.
  destruct (L (lit "4") (lit "7") eq_refl ltac:(discriminate)) as (s' & K). exists file. eexists. exists s'. split; [exact E|]. split; [exact K|]. split.
  - cbn [f_rs f_dimX f_min f_max cut_function map app]. rewrite (W 0%Z), (W 2%Z). unfold kept, round_coeffs, with_last, s, rat_channel. cbn [r_p r_q map rev app co_a co_deg inflate fst snd]. destruct (Req_EM_T 0 2); [lra|]. cbn [fst snd].
    rewrite (W 3%Z), (W 4%Z), (W 5%Z), (W 6%Z), (W (-7)%Z), R1. unfold cut_number. change (demo_lex (lit "4")) with (Some (4, @nil ascii)). reflexivity.
  - apply F. exists []. rewrite app_nil_r. reflexivity.
Qed.

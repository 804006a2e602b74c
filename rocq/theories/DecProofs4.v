(** Proofs for C119: the precision of files. *)
From Coq Require Import Reals List Lia Lra ZArith.
From Verif Require DataStore.
From Verif Require Import Base Num ParamsModel GeoModel ArgsModel ArgsSpec DataModel TextModel TextRound FuncModel FuncProofs FuncFile FuncFileSpec FuncFileProofs RatModel RatSpec RatFile DecModel DecSpec DecProofs3.
Open Scope R_scope.
Import ListNotations.

Notation kept P := (fun v => to_double (dec_round P v)).
Lemma map_close P l : (0 < P <= 15)%Z -> Forall normal l -> Forall2 (close P) l (map (kept P) l).
Proof. intros HP. induction 1; constructor; [apply stored_close; assumption|assumption]. Qed.
Lemma kept_bound P v M : (0 < P <= 15)%Z -> normal v -> Rabs v <= M / 2 -> Rabs (kept P v) <= M.
Proof.
  intros HP HN H. pose proof (stored_close P v HP HN) as C. unfold close in C. pose proof (ten_P P ltac:(lia)) as T. pose proof (Rabs_pos v).
  assert (T2 : 6 * powerRZ 10 (- P) <= 6 / 10) by lra.
  assert (6 * powerRZ 10 (- P) * Rabs v <= 6 / 10 * Rabs v) by (apply Rmult_le_compat_r; lra).
  pose proof (Rabs_triang (kept P v - v) v) as TR. cbv beta in *. replace (to_double (dec_round P v) - v + v) with (to_double (dec_round P v)) in TR by ring. lra.
Qed.
Lemma firstn_Forall {A} (Q : A -> Prop) n l : Forall Q l -> Forall Q (firstn n l).
Proof. intros H. revert n. induction H; intros [|n]; cbn; constructor; auto. Qed.

(** *** text data *)
Lemma data_file stod atof flt_max p samples : (0 < dimX p + dimY p)%nat ->
  Forall (fun x => (dimX p + dimY p <= length x)%nat /\ Forall (fun v => normal v /\ Rabs v <= flt_max / 2) x) samples ->
  parse_input (get_name_in (in_param p)) = in_param p -> parse_output (get_name_out (out_param p)) = out_param p ->
  exists rows, load_text (lex_number to_double) stod atof flt_max (save_text (print_general 15) p samples) [] = Ok (mkText p rows) /\
    Forall2 (fun x row => Forall2 (close 15) (firstn (dimX p + dimY p) x) (firstn (dimX p + dimY p) row)) samples rows /\
    save_text (print_general 15) p rows = save_text (print_general 15) p samples.
Proof.
  intros Hn Hs Hin Hout. set (n := (dimX p + dimY p)%nat) in *.
  pose proof (text_round_trip (lex_number to_double) stod atof flt_max (print_general 15) (kept 15) p samples (general_prints to_double 15 ltac:(lia)) Hn) as L.
  cbv zeta in L. fold n in L. rewrite L; clear L; [|refine (Forall_impl _ _ Hs)|assumption|assumption].
  - eexists. split; [reflexivity|]. assert (FN : forall x y z, (n <= length x)%nat -> firstn n (map (kept 15) (firstn n x) ++ y ++ z) = map (kept 15) (firstn n x)).
    { intros x y z Hx. rewrite firstn_app, map_length, firstn_length_le, Nat.sub_diag, app_nil_r by exact Hx. rewrite firstn_all2; [reflexivity|]. rewrite map_length, firstn_length_le; [lia|exact Hx]. }
    split.
    + induction Hs as [|x l [Hx Hv] _ IH]; constructor; [|exact IH]. rewrite FN by exact Hx. apply map_close; [lia|]. apply firstn_Forall. eapply Forall_impl; [|exact Hv]. intros v [H _]; exact H.
    + unfold save_text. do 3 f_equal. f_equal. fold n. rewrite map_map. apply map_ext_in. intros x Hx. rewrite Forall_forall in Hs. destruct (Hs x Hx) as [Hl Hv]. unfold save_row. rewrite FN by exact Hl. rewrite firstn_firstn, Nat.min_id || idtac.
      f_equal. f_equal. rewrite map_map. apply map_ext_in. intros v Iv. f_equal. apply (same_general 15); [lia|]. rewrite Forall_forall in Hv. apply Hv. apply DataStore.firstn_In in Iv. exact Iv.
  - intros x [Hx Hv]. split; [exact Hx|]. eapply Forall_impl; [|exact Hv]. intros v [A B]. apply (kept_bound 15); [lia|exact A|exact B].
Qed.

(** *** functions *)
Lemma params_map h t : all_params (map_params (map h) t) = map h (all_params t).
Proof.
  induction t as [l p|par fs IH|par x1 x2 f1 f2 IH1 IH2] using tree_ind'; cbn [map_params all_params]; [reflexivity| |rewrite IH1, IH2, map_app; reflexivity].
  induction IH as [|f fs H _ IH2]; [reflexivity|]. cbn [map flat_map snd fst]. rewrite map_app, H. f_equal. exact IH2.
Qed.
Lemma map_shape h t : map_params (fun _ => []) (map_params h t) = map_params (fun _ => []) t.
Proof.
  induction t as [l p|par fs IH|par x1 x2 f1 f2 IH1 IH2] using tree_ind'; cbn [map_params]; [reflexivity| |rewrite IH1, IH2; reflexivity].
  f_equal. rewrite map_map. induction IH as [|f fs H _ IH2]; [reflexivity|]. cbn [map snd fst]. rewrite H. f_equal. exact IH2.
Qed.
Lemma params_text_map (print : R -> str) h p : Forall (fun v => print (h v) = print v) p -> forall i, params_text print i (map h p) = params_text print i p.
Proof. induction 1 as [|v p H _ IH]; intros i; [reflexivity|]. cbn [map params_text]. rewrite H, IH. reflexivity. Qed.
Lemma save_call_map (print : R -> str) h t : Forall (fun v => print (h v) = print v) (all_params t) -> save_call print (map_params (map h) t) = save_call print t.
Proof.
  induction t as [l p|par fs IH|par x1 x2 f1 f2 IH1 IH2] using tree_ind'; cbn [map_params all_params save_call]; intros H.
  - unfold leaf_text. rewrite params_text_map by exact H. reflexivity.
  - induction IH as [|f fs H1 _ IH2]; [reflexivity|]. cbn [map flat_map snd fst] in *. apply Forall_app in H. destruct H as [HA HB]. rewrite (H1 HA). f_equal. exact (IH2 HB).
  - apply Forall_app in H. destruct H as [HA HB]. rewrite IH1, IH2 by assumption. reflexivity.
Qed.
Lemma save_body_map h t : save_body (map_params h t) = save_body t.
Proof.
  induction t as [l p|par fs IH|par x1 x2 f1 f2 IH1 IH2] using tree_ind'; cbn [map_params save_body]; [reflexivity| |rewrite IH1, IH2; reflexivity].
  induction IH as [|f fs H1 _ IH2]; [reflexivity|]. cbn [map flat_map snd fst] in *. rewrite H1. f_equal. exact IH2.
Qed.
Lemma par_map h t : par_of (map_params h t) = par_of t.
Proof. destruct t; reflexivity. Qed.
Lemma function_file get_function args t t0 : map_ok args -> writable args -> savable t -> same_shape t0 t -> Forall normal (all_params t) ->
  parse_input (get_name_in (in_param (par_of t))) = in_param (par_of t) ->
  get_function args (mkParameters (dimX (par_of t)) (dimY (par_of t)) (in_param (par_of t)) UNKNOWN_OUTPUT) = Ok t0 ->
  exists g, load_function (lex_number to_double) get_function (save_file (print_general 10) args t) = Ok (Some g) /\
    close_function 10 t g /\ save_file (print_general 10) args g = save_file (print_general 10) args t.
Proof.
  intros Hm Hw Hs Ht Hn Hi Hg. exists (map_params (map (kept 10)) t). split; [|split].
  - apply (file_round_trip (lex_number to_double) (print_general 10) (kept 10) (general_prints to_double 10 ltac:(lia)) get_function args t t0); assumption.
  - split; [apply map_shape|]. rewrite params_map. apply map_close; [lia|exact Hn].
  - unfold save_file. rewrite par_map, save_body_map, save_call_map; [reflexivity|]. eapply Forall_impl; [|exact Hn]. intros v Hv. apply (same_general 10); [lia|exact Hv].
Qed.

(** *** rational functions *)
Lemma coeffs_text_map (print : R -> str) h dim cs : Forall (fun c => print (h (co_a c)) = print (co_a c)) cs -> coeffs_text print dim (round_coeffs h cs) = coeffs_text print dim cs.
Proof. induction 1 as [|c cs H _ IH]; [reflexivity|]. unfold round_coeffs in *. cbn [map coeffs_text co_deg co_a]. rewrite IH, H. reflexivity. Qed.
Lemma domain_text_map (print : R -> str) h v : Forall (fun x => print (h x) = print x) v -> domain_text print (map h v) = domain_text print v.
Proof. induction 1 as [|x v H _ IH]; [reflexivity|]. unfold domain_text in *. cbn [map flat_map]. rewrite H, IH. reflexivity. Qed.
Lemma coeffs_close P cs : (0 < P <= 15)%Z -> Forall (fun c => normal (co_a c)) cs -> close_coeffs P cs (round_coeffs (kept P) cs).
Proof. intros HP. induction 1; constructor; [|assumption]. split; [reflexivity|]. apply stored_close; assumption. Qed.
Lemma rational_file junk f channels np nq : (0 < f_dimX f)%nat -> length (f_min f) = f_dimX f -> length (f_max f) = f_dimX f ->
  f_rs f = map Some channels -> length channels = f_dimY f -> Forall (channel_ok (f_dimX f)) channels ->
  Forall normal (f_min f) -> Forall normal (f_max f) -> Forall normal_channel channels ->
  exists t g s', save_rf (print_scientific 11) f = Ok t /\
    load_rf junk (lex_number to_double) (new_rf (f_dimX f) (f_dimY f) np nq) (good_stream t) = Ok (true, g, s') /\
    Forall2 (close 11) (f_min f) (f_min g) /\ Forall2 (close 11) (f_max f) (f_max g) /\ Forall2 (close_channel 11) channels (f_rs g) /\
    save_rf (print_scientific 11) g = Ok t.
Proof.
  intros Hd Hm HM Er Hl HF Nm NM NC.
  destruct (load_save_rf junk (lex_number to_double) (print_scientific 11) (kept 11) (scientific_prints to_double 11 ltac:(lia)) f channels np nq [] [] (one_kept 11 ltac:(lia)) (Forall_nil _) Hd Hm HM Er Hl HF) as (t & S & w' & _ & L).
  rewrite app_nil_r in L. cbn [app] in L. exists t. eexists. eexists. split; [exact S|]. split; [exact L|]. cbn [f_min f_max f_rs].
  split; [apply map_close; [lia|exact Nm]|]. split; [apply map_close; [lia|exact NM]|]. split.
  - clear - HF NC. induction HF as [|s l Hs _ IH]; [constructor|]. cbn [map]. apply Forall_cons_iff in NC. destruct NC as [N1 N2]. constructor; [|exact (IH N2)].
    apply Forall_app in N1. destruct N1 as [NP NQ]. eexists. split; [reflexivity|]. cbn [r_dim r_p r_q]. destruct Hs as (A & _). split; [symmetry; exact A|]. split; apply coeffs_close; (lia || assumption).
  - rewrite <- S. unfold save_rf. cbn [f_dimY f_dimX f_min f_max f_rs]. rewrite Er.
    rewrite !firstn_all2 by (rewrite ?map_length; lia).
    rewrite !domain_text_map; try (eapply Forall_impl; [|eassumption]; intros v Hv; apply (same_scientific 11); [lia|exact Hv]).
    replace (channels_text (print_scientific 11) (map (fun s => Some (mkRf1 (f_dimX f) (fst (inflate (map (kept 11) (f_min f)) (map (kept 11) (f_max f)))) (snd (inflate (map (kept 11) (f_min f)) (map (kept 11) (f_max f)))) (round_coeffs (kept 11) (r_p s)) (round_coeffs (kept 11) (r_q s)))) channels))
      with (channels_text (print_scientific 11) (map Some channels)); [reflexivity|].
    clear - HF NC. revert NC. induction HF as [|s l Hs _ IH]; intros NC; [reflexivity|]. apply Forall_cons_iff in NC. destruct NC as [N1 N2]. cbn [map channels_text]. rewrite (IH N2). apply Forall_app in N1. destruct N1 as [NP NQ]. destruct Hs as (A & _).
    assert (K : forall cs, Forall (fun c => normal (co_a c)) cs -> Forall (fun c => print_scientific 11 (kept 11 (co_a c)) = print_scientific 11 (co_a c)) cs) by (intros cs H; eapply Forall_impl; [|exact H]; intros c Hc; apply (same_scientific 11); [lia|exact Hc]).
    unfold save_1d. cbn [r_dim r_p r_q]. rewrite !coeffs_text_map by (apply K; assumption). unfold round_coeffs. rewrite !map_length, A. reflexivity.
Qed.

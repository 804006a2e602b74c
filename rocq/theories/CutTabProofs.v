From Coq Require Import Reals List NArith ZArith Lia Lra.
From Flocq Require Import Core BinarySingleNaN.
From Verif Require Import Base Num Double ParamsModel DataModel DataSpec DataProofs MerlModel MerlSpec MerlProofs UtiaModel UtiaSpec UtiaProofs CutTabSpec.
Import ListNotations.

(** ** Bytes *)
Lemma le_word_app a b : le_word (a ++ b) = (le_word a + 256 ^ N.of_nat (length a) * le_word b)%N.
Proof.
  induction a as [|c a IH]; cbn [app le_word length]; [change (256 ^ N.of_nat 0)%N with 1%N; lia|].
  rewrite IH, Nat2N.inj_succ, N.pow_succ_r'. ring.
Qed.
Lemma le_word_bound s : (le_word s < 256 ^ N.of_nat (length s))%N.
Proof.
  induction s as [|c s IH]; cbn [le_word length]; [change (256 ^ N.of_nat 0)%N with 1%N; lia|].
  rewrite Nat2N.inj_succ, N.pow_succ_r'. pose proof (N_ascii_bounded c). lia.
Qed.
Lemma le_word_split s m : (m <= length s)%nat ->
  le_word (firstn m s) = low_bytes m (le_word s) /\
  le_word (skipn m s) = (le_word s / 256 ^ N.of_nat m)%N.
Proof.
  intros Hm. pose proof (firstn_skipn m s) as E.
  assert (W : le_word s = (le_word (firstn m s) + 256 ^ N.of_nat m * le_word (skipn m s))%N).
  { rewrite <- E at 1. rewrite le_word_app, firstn_length_le by assumption. reflexivity. }
  pose proof (le_word_bound (firstn m s)) as B. rewrite firstn_length_le in B by assumption.
  unfold low_bytes. rewrite W. rewrite (N.mul_comm (256 ^ _)).
  rewrite N.mod_add, N.div_add by (apply N.pow_nonzero; discriminate).
  rewrite N.mod_small, N.div_small by assumption. split; [reflexivity|lia].
Qed.

Lemma skipn_plus {A} (l : list A) : forall a b, skipn a (skipn b l) = skipn (b + a) l.
Proof. induction l as [|x l IH]; intros a b; [now rewrite !skipn_nil|]. destruct b; [reflexivity|]. cbn [skipn Nat.add]. apply IH. Qed.
Lemma bytes_doubles_nth n : forall s i, (i < n)%nat -> nth i (bytes_doubles n s) 0%N = le_word (firstn 8 (skipn (8 * i) s)).
Proof.
  induction n as [|n IH]; intros s i Hi; [lia|]. cbn [bytes_doubles]. destruct i as [|i]; [reflexivity|]. cbn [nth].
  rewrite IH by lia. rewrite skipn_plus. do 3 f_equal. lia.
Qed.
Lemma doubles_bytes_nth l : forall i r, (i < length l)%nat -> firstn 8 (skipn (8 * i) (doubles_bytes l ++ r)) = le_bytes 8 (nth i l 0%N).
Proof.
  induction l as [|w l IH]; intros i r Hi; cbn [length] in Hi; [lia|].
  change (doubles_bytes (w :: l)) with (le_bytes 8 w ++ doubles_bytes l). rewrite <- app_assoc.
  destruct i as [|i].
  - change (8 * 0)%nat with 0%nat. cbn [nth]. rewrite skipn_O, firstn_app, le_bytes_length, Nat.sub_diag. rewrite firstn_all2 by (rewrite le_bytes_length; lia). cbn [firstn]. apply app_nil_r.
  - cbn [nth]. rewrite <- (IH i r) by lia. replace (8 * S i)%nat with (8 + 8 * i)%nat by lia. rewrite <- skipn_plus. do 2 f_equal.
Qed.

(** Number i of an array whose first k bytes are those of t and whose other
    bytes are those of j. *)
Lemma mixed_entry t j k i : Forall is_double t -> Forall is_double j -> length t = length j -> (k <= 8 * length t)%nat -> (i < length t)%nat ->
  nth i (bytes_doubles (length t) (firstn k (doubles_bytes t) ++ skipn k (doubles_bytes j))) 0%N =
  (low_bytes (bytes_left k i) (nth i t 0) + without_low_bytes (bytes_left k i) (nth i j 0))%N.
Proof.
  intros Ht Hj L Hk Hi. rewrite bytes_doubles_nth by assumption.
  assert (P : firstn 8 (skipn (8 * i) (firstn k (doubles_bytes t) ++ skipn k (doubles_bytes j))) =
    firstn (bytes_left k i) (le_bytes 8 (nth i t 0%N)) ++ skipn (bytes_left k i) (le_bytes 8 (nth i j 0%N))).
  { pose proof (doubles_bytes_nth t i [] Hi) as Et. pose proof (doubles_bytes_nth j i [] ltac:(lia)) as Ej. rewrite app_nil_r in Et, Ej.
    rewrite <- Et, <- Ej.
    pose proof (doubles_bytes_length t) as Lt. pose proof (doubles_bytes_length j) as Lj.
    unfold bytes_left.
    assert (NF : forall (l : str) a q, (q < a)%nat -> nth q (firstn a l) "0"%char = nth q l "0"%char).
    { induction l as [|x l IH]; intros [|a] [|q] Hq; try lia; try reflexivity. cbn [firstn nth]. apply IH. lia. }
    assert (NS : forall (l : str) a q, nth q (skipn a l) "0"%char = nth (a + q) l "0"%char).
    { induction l as [|x l IH]; intros [|a] q; try reflexivity; [destruct q; reflexivity|]. cbn [skipn nth Nat.add]. apply IH. }
    set (dt := doubles_bytes t) in *. set (dj := doubles_bytes j) in *.
    assert (Lf : length (firstn k dt) = k) by (apply firstn_length_le; lia).
    assert (L1 : length (firstn 8 (skipn (8 * i) (firstn k dt ++ skipn k dj))) = 8%nat) by (rewrite firstn_length, skipn_length, app_length, Lf, skipn_length; lia).
    assert (L2 : length (firstn (Nat.min 8 (k - 8 * i)) (firstn 8 (skipn (8 * i) dt))) = Nat.min 8 (k - 8 * i)) by (rewrite !firstn_length, skipn_length; lia).
    apply nth_ext with (d := "0"%char) (d' := "0"%char).
    { rewrite L1, app_length, L2, skipn_length, firstn_length, skipn_length. lia. }
    intros p Hp. rewrite L1 in Hp. rewrite NF by lia. rewrite NS.
    destruct (Nat.lt_ge_cases (8 * i + p) k) as [H|H].
    - rewrite (app_nth1 (firstn k dt)) by lia. rewrite NF by lia.
      rewrite app_nth1 by lia. rewrite !NF by lia. rewrite NS. reflexivity.
    - rewrite (app_nth2 (firstn k dt)) by lia. rewrite Lf, NS.
      rewrite app_nth2 by lia. rewrite L2, NS. rewrite NF by lia. rewrite NS. f_equal. lia. }
  rewrite P, le_word_app. rewrite firstn_length, le_bytes_length.
  assert (M : (bytes_left k i <= 8)%nat) by (unfold bytes_left; lia). rewrite Nat.min_l by assumption.
  assert (D : forall l q, Forall is_double l -> (q < length l)%nat -> le_word (le_bytes 8 (nth q l 0%N)) = nth q l 0%N).
  { intros l q Hl Hq. apply le_word_bytes. rewrite Forall_forall in Hl. apply (Hl (nth q l 0%N)). apply nth_In. assumption. }
  destruct (le_word_split (le_bytes 8 (nth i t 0%N)) (bytes_left k i)) as [E1 _]; [rewrite le_bytes_length; assumption|].
  destruct (le_word_split (le_bytes 8 (nth i j 0%N)) (bytes_left k i)) as [_ E2]; [rewrite le_bytes_length; assumption|].
  rewrite E1, E2, !D by (assumption || lia). reflexivity.
Qed.

Lemma bytes_left_8 k i n : (i < n)%nat -> (8 * n <= k)%nat -> bytes_left k i = 8%nat.
Proof. unfold bytes_left. lia. Qed.
Lemma low_bytes_8 w : is_double w -> low_bytes 8 w = w.
Proof. intros H. unfold low_bytes. apply N.mod_small. exact H. Qed.
Lemma low_bytes_0 w : low_bytes 0 w = 0%N.
Proof. unfold low_bytes. change (256 ^ N.of_nat 0)%N with 1%N. apply N.mod_1_r. Qed.
Lemma without_low_8 w : is_double w -> without_low_bytes 8 w = 0%N.
Proof. intros H. unfold without_low_bytes. rewrite N.div_small by exact H. apply N.mul_0_r. Qed.
Lemma without_low_0 w : without_low_bytes 0 w = w.
Proof. unfold without_low_bytes. change (256 ^ N.of_nat 0)%N with 1%N. rewrite N.div_1_r. apply N.mul_1_l. Qed.

(** ** UTIA *)
Lemma utia_size (t : list double) : utia_ok t -> Z.to_nat (PLANES * N_PER_PLANE) = length t.
Proof. unfold utia_ok. intros L. replace (PLANES * N_PER_PLANE)%Z with (3 * plane)%Z by reflexivity. rewrite <- L. apply Nat2Z.id. Qed.
Lemma utia_cut junk t k : Forall is_double t -> Forall is_double junk -> utia_ok t -> length junk = length t ->
  length (utia_load junk (firstn k (doubles_bytes t))) = length t /\
  forall i, (i < length t)%nat ->
    nth i (utia_load junk (firstn k (doubles_bytes t))) 0%N =
    (low_bytes (bytes_left k i) (nth i t 0) + without_low_bytes (bytes_left k i) (nth i junk 0))%N.
Proof.
  intros Ht Hj Hok L. unfold utia_load. rewrite (utia_size t Hok). split; [apply bytes_doubles_length|]. intros i Hi.
  rewrite firstn_firstn.
  set (k' := Nat.min k (8 * length t)).
  assert (E : firstn (Nat.min (8 * length t) k) (doubles_bytes t) = firstn k' (doubles_bytes t)) by (unfold k'; f_equal; lia).
  rewrite E. rewrite firstn_length_le by (rewrite doubles_bytes_length; unfold k'; lia).
  rewrite mixed_entry by (assumption || (unfold k'; lia)).
  replace (bytes_left k' i) with (bytes_left k i) by (unfold bytes_left, k'; lia). reflexivity.
Qed.
Lemma utia_more junk t rest : Forall is_double t -> utia_ok t -> length junk = length t -> utia_load junk (doubles_bytes t ++ rest) = t.
Proof.
  intros Ht Hok L. unfold utia_load. rewrite (utia_size t Hok).
  rewrite firstn_app, doubles_bytes_length, Nat.sub_diag. cbn [firstn]. rewrite app_nil_r.
  rewrite firstn_all2 by (rewrite doubles_bytes_length; lia). apply bytes_doubles_app. assumption.
Qed.

(** ** MERL *)
Lemma cut_entry t n k i : Forall is_double t -> (i < n)%nat -> (i < length t)%nat ->
  nth i (bytes_doubles n (firstn k (doubles_bytes t))) 0%N = low_bytes (bytes_left k i) (nth i t 0%N).
Proof.
  intros Ht Hn Hi. rewrite bytes_doubles_nth by assumption.
  pose proof (doubles_bytes_nth t i [] Hi) as E. rewrite app_nil_r in E.
  rewrite skipn_firstn_comm, firstn_firstn.
  assert (M : (bytes_left k i <= 8)%nat) by (unfold bytes_left; lia).
  replace (Nat.min 8 (k - 8 * i)) with (Nat.min (bytes_left k i) 8) by (unfold bytes_left; lia).
  rewrite <- firstn_firstn, E.
  destruct (le_word_split (le_bytes 8 (nth i t 0%N)) (bytes_left k i)) as [E1 _]; [rewrite le_bytes_length; assumption|].
  rewrite E1. f_equal. apply le_word_bytes. rewrite Forall_forall in Ht. apply (Ht (nth i t 0%N)). apply nth_In. assumption.
Qed.
Lemma merl_file t : table_ok t -> merl_save t = Ok (bytes_of_int 90 ++ bytes_of_int 90 ++ bytes_of_int 180 ++ doubles_bytes t).
Proof.
  intros Ht. unfold table_ok, samples in Ht. unfold merl_save. change (3 * (RES_TH * RES_TD * Z.quot RES_PD 2))%Z with (3 * 1458000)%Z.
  destruct (Z.ltb_spec (Z.of_nat (length t)) (3 * 1458000)); [lia|].
  assert (Hlen : Z.to_nat (3 * 1458000) = length t) by lia. rewrite Hlen, firstn_all. reflexivity.
Qed.
Lemma merl_cut t file k : table_ok t -> Forall is_double t -> merl_save t = Ok file -> (12 <= k)%nat ->
  exists t', merl_load (firstn k file) = Ok t' /\ length t' = length t /\
    forall i, (i < length t)%nat -> nth i t' 0%N = low_bytes (bytes_left (k - 12) i) (nth i t 0%N).
Proof.
  intros Ht Hd E Hk. rewrite merl_file in E by assumption. apply Ok_inj in E. subst file.
  assert (F : firstn k (bytes_of_int 90 ++ bytes_of_int 90 ++ bytes_of_int 180 ++ doubles_bytes t) =
    bytes_of_int 90 ++ bytes_of_int 90 ++ bytes_of_int 180 ++ firstn (k - 12) (doubles_bytes t)).
  { rewrite !firstn_app. unfold bytes_of_int. rewrite !le_bytes_length.
    rewrite !firstn_all2 with (n := k) by (rewrite le_bytes_length; lia).
    rewrite !firstn_all2 by (rewrite le_bytes_length; lia). do 4 f_equal. lia. }
  rewrite F, load_accepts by lia.
  change (90 * 90 * 180 =? samples)%Z with true. cbv iota.
  assert (En : Z.to_nat (3 * samples) = length t) by (unfold table_ok in Ht; rewrite <- Ht; apply Nat2Z.id). rewrite En.
  eexists; split; [reflexivity|]. split; [apply bytes_doubles_length|]. intros i Hi. apply cut_entry; assumption.
Qed.
Lemma merl_cut_header t file k : table_ok t -> merl_save t = Ok file -> (k < 12)%nat -> merl_load (firstn k file) = UB.
Proof.
  intros Ht E Hk. unfold merl_load. rewrite firstn_length. destruct (Nat.ltb_spec (Nat.min k (length file)) 12); [reflexivity|lia].
Qed.

Open Scope R_scope.
(** A number of which only the 7 lowest bytes may differ from zero. *)
Lemma low_value w : (w < 2 ^ 56)%N -> 0 <= dval w < bpow radix2 (-1007).
Proof.
  intros H. unfold dval, sf_decode.
  assert (S : N.testbit w 63 = false).
  { destruct (N.eq_dec w 0) as [->|Hz]; [reflexivity|]. apply N.bits_above_log2. apply N.log2_lt_pow2; [lia|].
    eapply N.lt_trans; [exact H|reflexivity]. }
  rewrite S. assert (Q : (w / 2 ^ 52 < 16)%N).
  { apply N.div_lt_upper_bound; [discriminate|]. change (2 ^ 52 * 16)%N with (2 ^ 56)%N. exact H. }
  rewrite N.mod_small by (eapply N.lt_trans; [exact Q|reflexivity]).
  pose proof (N.mod_lt w (2 ^ 52)) as M. specialize (M ltac:(discriminate)).
  set (e := (w / 2 ^ 52)%N) in *. set (m := (w mod 2 ^ 52)%N) in *.
  destruct (N.eqb_spec e 2047); [lia|].
  assert (P : 0 < bpow radix2 (-1007)) by apply bpow_gt_0.
  assert (G : forall p ex, (Z.pos p < 2 ^ 53)%Z -> (ex <= -1060)%Z -> 0 <= F2R (Float radix2 (Z.pos p) ex) < bpow radix2 (-1007)).
  { intros p ex Hp He. unfold F2R; cbn [Fnum Fexp]. split; [apply Rmult_le_pos; [apply IZR_le; lia|apply bpow_ge_0]|].
    replace (-1007)%Z with (53 + -1060)%Z by reflexivity. rewrite bpow_plus.
    apply Rlt_le_trans with (IZR (2 ^ 53) * bpow radix2 ex).
    - apply Rmult_lt_compat_r; [apply bpow_gt_0|]. apply IZR_lt. assumption.
    - change (IZR (2 ^ 53)) with (bpow radix2 53). apply Rmult_le_compat_l; [apply bpow_ge_0|]. apply bpow_le. assumption. }
  change (2 ^ 53)%Z with (2 ^ 52 + 2 ^ 52)%Z in G.
  destruct (N.eqb_spec e 0).
  - destruct m as [|p] eqn:Em; cbn [SF2R]; [split; [lra|assumption]|]. apply G; lia.
  - destruct (m + 2 ^ 52)%N as [|p] eqn:Em; cbn [SF2R]; [split; [lra|assumption]|]. apply G; lia.
Qed.

Lemma at_dval t i : (0 <= i < Z.of_nat (length t))%Z -> at_ (map dval t) i = Ok (dval (nth (Z.to_nat i) t 0%N)).
Proof.
  intros H. unfold at_. destruct (Z.ltb_spec i 0); [lia|].
  rewrite (nth_error_nth' _ (dval 0%N)) by (rewrite map_length; lia). rewrite map_nth. reflexivity.
Qed.
Lemma cut_channel t t' k n s : table_ok t -> Forall is_double t -> (12 <= k)%nat ->
  (forall i, (i < length t)%nat -> nth i t' 0%N = low_bytes (bytes_left (k - 12) i) (nth i t 0%N)) ->
  (0 <= n < 3 * samples)%Z -> 0 < s <= 1 -> cut_value k n (dval (nth (Z.to_nat n) t 0%N) * s) (dval (nth (Z.to_nat n) t' 0%N) * s).
Proof.
  intros Ht Hd Hk Hn Rn Hs. unfold table_ok in Ht.
  assert (D : is_double (nth (Z.to_nat n) t 0%N)). { rewrite Forall_forall in Hd. apply Hd. apply nth_In. lia. }
  rewrite Hn by lia. set (w := nth (Z.to_nat n) t 0%N) in *. unfold cut_value.
  assert (Z0 : dval 0%N = 0) by reflexivity.
  split; [|split].
  - intros H. replace (bytes_left (k - 12) (Z.to_nat n)) with 8%nat by (unfold bytes_left; lia). rewrite low_bytes_8 by assumption. reflexivity.
  - intros H. replace (bytes_left (k - 12) (Z.to_nat n)) with 0%nat by (unfold bytes_left; lia). rewrite low_bytes_0, Z0. apply Rmult_0_l.
  - intros H. assert (B : (low_bytes (bytes_left (k - 12) (Z.to_nat n)) w < 2 ^ 56)%N).
    { assert (M : (bytes_left (k - 12) (Z.to_nat n) <= 7)%nat) by (unfold bytes_left; lia).
      eapply N.lt_le_trans; [apply N.mod_lt; apply N.pow_nonzero; discriminate|].
      change (2 ^ 56)%N with (256 ^ 7)%N. apply N.pow_le_mono_r; [discriminate|]. lia. }
    apply low_value in B. set (v := dval (low_bytes _ w)) in *. split; [apply Rmult_le_pos; lra|].
    apply Rle_lt_trans with v; [|apply B]. rewrite <- (Rmult_1_r v) at 2. apply Rmult_le_compat_l; lra.
Qed.
Lemma merl_cut_sample t file k t' i : table_ok t -> Forall is_double t -> merl_save t = Ok file -> (12 <= k)%nat ->
  merl_load (firstn k file) = Ok t' -> (0 <= i < samples)%Z ->
  exists x r g b r' g' b', merl_get (map dval t) i = Ok (x, (r, g, b)) /\ merl_get (map dval t') i = Ok (x, (r', g', b')) /\
    cut_value k i r r' /\ cut_value k (i + samples) g g' /\ cut_value k (i + 2 * samples) b b'.
Proof.
  intros Ht Hd E Hk E' Hi. destruct (merl_cut t file k Ht Hd E Hk) as (u & Eu & Lu & Nu). rewrite Eu in E'. apply Ok_inj in E'. subst u.
  assert (Lt : Z.of_nat (length t) = (3 * samples)%Z) by exact Ht. unfold samples in *.
  unfold merl_get. change (Z.quot (RES_TH * RES_TD * RES_PD) 2) with 1458000%Z. change (RES_TH * RES_TD * RES_PD)%Z with 2916000%Z.
  rewrite !at_dval by lia. cbn [bind]. do 7 eexists. split; [reflexivity|]. split; [reflexivity|].
  unfold RED_SCALE, GREEN_SCALE, BLUE_SCALE.
  split; [|split].
  - apply (cut_channel t t' k i); unfold samples; (assumption || lia || lra).
  - apply (cut_channel t t' k (i + 1458000)); unfold samples; (assumption || lia || lra).
  - replace (i + 2 * 1458000)%Z with (i + 2916000)%Z by lia. apply (cut_channel t t' k (i + 2916000)); unfold samples; (assumption || lia || lra).
Qed.

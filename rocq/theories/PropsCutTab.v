(** Property C126. *)
From Coq Require Import Reals List NArith ZArith Lia.
From Verif Require Import Base Num Double ParamsModel DataModel DataSpec MerlModel MerlSpec MerlProofs UtiaModel UtiaSpec UtiaProofs CutTabSpec CutTabProofs.
Import ListNotations.

(** A MERL file cut anywhere after its header loads without a complaint. Every
    number keeps the bytes that are there, the others are zero. *)
Theorem C126_merl_cut : forall t file k, table_ok t -> Forall is_double t -> merl_save t = Ok file -> (12 <= k)%nat ->
  exists t', merl_load (firstn k file) = Ok t' /\ length t' = length t /\
    forall i, (i < length t)%nat -> nth i t' 0%N = low_bytes (bytes_left (k - 12) i) (nth i t 0%N).
Proof. exact merl_cut. Qed.
Print Assumptions C126_merl_cut.

(** Cut in the header, what is read is not defined. *)
Theorem C126_merl_cut_in_header_refuted : forall t file k, table_ok t -> merl_save t = Ok file -> (k < 12)%nat ->
  merl_load (firstn k file) = UB.
Proof. exact merl_cut_header. Qed.
Print Assumptions C126_merl_cut_in_header_refuted.

(** Each sample keeps its position, and each of its three channels is the one
    of the whole file, or is black. *)
Theorem C126_merl_samples : forall t file k t' i, table_ok t -> Forall is_double t -> merl_save t = Ok file -> (12 <= k)%nat ->
  merl_load (firstn k file) = Ok t' -> (0 <= i < samples)%Z ->
  exists x r g b r' g' b', merl_get (map dval t) i = Ok (x, (r, g, b)) /\ merl_get (map dval t') i = Ok (x, (r', g', b')) /\
    cut_value k i r r' /\ cut_value k (i + samples) g g' /\ cut_value k (i + 2 * samples) b b'.
Proof. exact merl_cut_sample. Qed.
Print Assumptions C126_merl_samples.

(** A UTIA file cut anywhere loads without a complaint. Every number has the
    bytes that are there, the others are what was in memory. *)
Theorem C126_utia_cut : forall junk t k, Forall is_double t -> Forall is_double junk -> utia_ok t -> length junk = length t ->
  length (utia_load junk (firstn k (doubles_bytes t))) = length t /\
  forall i, (i < length t)%nat ->
    nth i (utia_load junk (firstn k (doubles_bytes t))) 0%N =
    (low_bytes (bytes_left k i) (nth i t 0) + without_low_bytes (bytes_left k i) (nth i junk 0))%N.
Proof. exact utia_cut. Qed.
Print Assumptions C126_utia_cut.

(** All of the bytes make the number, and none of them leaves it as it was in
    memory. *)
Theorem C126_whole_or_absent : forall w, is_double w ->
  low_bytes 8 w = w /\ without_low_bytes 8 w = 0%N /\ low_bytes 0 w = 0%N /\ without_low_bytes 0 w = w.
Proof.
  intros w H. split; [apply low_bytes_8; assumption|]. split; [apply without_low_8; assumption|].
  split; [apply low_bytes_0|apply without_low_0].
Qed.
Print Assumptions C126_whole_or_absent.

(** What follows a complete table is ignored. *)
Theorem C126_utia_longer : forall junk t rest, Forall is_double t -> utia_ok t -> length junk = length t ->
  utia_load junk (doubles_bytes t ++ rest) = t.
Proof. exact utia_more. Qed.
Print Assumptions C126_utia_longer.

(** So the same cut file makes different tables when memory differs. *)
Theorem C126_utia_refuted : forall t k, Forall is_double t -> utia_ok t -> (k < 8 * length t)%nat ->
  exists junk junk', Forall is_double junk /\ Forall is_double junk' /\ length junk = length t /\ length junk' = length t /\
    utia_load junk (firstn k (doubles_bytes t)) <> utia_load junk' (firstn k (doubles_bytes t)).
Proof.
  intros t k Ht Hok Hk. exists (repeat 0%N (length t)), (repeat (2 ^ 63)%N (length t)).
  assert (J : forall w n, is_double w -> Forall is_double (repeat w n)).
  { intros w n Hw. apply Forall_forall. intros y Hy. apply repeat_spec in Hy. subst y. assumption. }
  assert (D0 : is_double 0%N) by reflexivity. assert (D1 : is_double (2 ^ 63)%N) by reflexivity.
  split; [apply J; assumption|]. split; [apply J; assumption|]. split; [apply repeat_length|]. split; [apply repeat_length|].
  intros E. set (i := (length t - 1)%nat). assert (Hi : (i < length t)%nat) by (unfold i; lia).
  pose proof (proj2 (utia_cut (repeat 0%N (length t)) t k Ht (J _ _ D0) Hok (repeat_length _ _)) i Hi) as E0.
  pose proof (proj2 (utia_cut (repeat (2 ^ 63)%N (length t)) t k Ht (J _ _ D1) Hok (repeat_length _ _)) i Hi) as E1.
  rewrite <- E in E1. rewrite E1 in E0.
  assert (NR : forall (w : double) n q, (q < n)%nat -> nth q (repeat w n) 0%N = w).
  { induction n as [|n IH]; intros [|q] Hq; try lia; [reflexivity|]. cbn [repeat nth]. apply IH. lia. }
  rewrite !NR in E0 by assumption.
  apply N.add_cancel_l in E0. revert E0. unfold without_low_bytes.
  assert (M : (bytes_left k i <= 7)%nat) by (unfold bytes_left, i; lia).
  set (m := bytes_left k i) in *. clearbody m. do 8 (destruct m as [|m]; [vm_compute; discriminate|]). lia.
Qed.
Print Assumptions C126_utia_refuted.

Example C126_case : table_ok (repeat 4611686018427387904%N (Z.to_nat (3 * samples))) /\
  bytes_left 20 2 = 4%nat /\ low_bytes 4 (2 ^ 40 + 7)%N = 7%N /\ without_low_bytes 4 (2 ^ 40 + 7)%N = (2 ^ 40)%N.
Proof.
  split; [|split; [reflexivity|split; reflexivity]].
  unfold table_ok. rewrite repeat_length. apply Z2Nat.id. unfold samples; lia.
Qed.

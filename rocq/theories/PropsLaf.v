(** C100: the Lafortune function. *)
From Coq Require Import Reals List Lia Lra.
From Verif Require Import Base GeoModel FuncModel FuncSpec FuncProofs NlMoreSpec LafModel LafSpec LafProofs LafProofs2 LafProofs3 LafProofs4 LafProofs5.
Open Scope R_scope.

(** Setting the parameters and reading them back gives the same vector; the diffuse
    term is not one of them and keeps its value. *)
Theorem C100_set_then_get : forall junk nY L s p, lsized nY L s -> length p = (4 * L * nY)%nat ->
  exists t, aset nY p s = Ok t /\ lsized nY L t /\ aget junk nY t = Ok p /\ a_kd t = a_kd s.
Proof.
  intros junk nY L s p Hs Hp. destruct (aset_ok nY L p s Hs Hp) as (t & E & H & K). exists t. split; [exact E|]. split; [exact (proj1 H)|].
  split; [apply (aget_ok junk nY L p t H Hp)|exact K].
Qed.
Print Assumptions C100_set_then_get.
(** any other length stops the program *)
Theorem C100_wrong_size : forall nY L s p, lsized nY L s -> length p <> (4 * L * nY)%nat -> aset nY p s = Abort.
Proof. intros nY L s p. apply awrong_size. Qed.
Print Assumptions C100_wrong_size.

(** The value is the diffuse term plus one lobe per index, each lobe a power of the
    weighted dot product, or nothing when the product is not positive. *)
Theorem C100_value : forall junk nY L s p x, lsized nY L s -> length p = (4 * L * nY)%nat ->
  exists t v, aset nY p s = Ok t /\ avalue junk nY t x = Ok v /\ length v = nY /\
    forall i, (i < nY)%nat -> nth i v 0 = nth i (a_kd s) 0 + lsum L (fun n => llobe nY p x n i).
Proof.
  intros junk nY L s p x Hs Hp. destruct (aset_ok nY L p s Hs Hp) as (t & E & H & K). destruct (avalue_ok junk nY L p t x H) as (v & E2 & Lv & V).
  exists t, v. rewrite K in V. auto.
Qed.
Print Assumptions C100_value.

(** A new function, given a number of lobes and its parameters, has no diffuse term,
    whatever the memory held. *)
Theorem C100_new : forall junk nY n0 L p x, length p = (4 * L * nY)%nat ->
  exists t v, aset nY p (aset_nb_lobes junk nY L (aconstruct junk nY n0 false)) = Ok t /\ avalue junk nY t x = Ok v /\
    forall i, (i < nY)%nat -> nth i v 0 = lsum L (fun n => llobe nY p x n i).
Proof.
  intros junk nY n0 L p x Hp.
  assert (Hs : lsized nY L (aset_nb_lobes junk nY L (aconstruct junk nY n0 false))).
  { assert (Hr : forall l n, length (resized junk l n) = n) by (intros l n; unfold resized; destruct (Nat.eqb_spec (length l) n); [assumption|apply repeat_length]).
    unfold aset_nb_lobes, aconstruct. repeat split; cbn [a_n a_iso a_C a_N a_kd]; rewrite ?Hr, ?repeat_length; reflexivity. }
  destruct (C100_value junk nY L _ p x Hs Hp) as (t & v & E & V & _ & H). exists t, v. split; [exact E|]. split; [exact V|]. intros i Hi. rewrite (H i Hi).
  cbn [aset_nb_lobes aconstruct a_kd]. rewrite nth_repeat. ring.
Qed.
Print Assumptions C100_new.

(** The Jacobian has one row per channel and one column per parameter; every entry is
    the derivative, except where a lobe is at the edge of its support. *)
Theorem C100_jacobian : forall junk nY L s p x, lsized nY L s -> length p = (4 * L * nY)%nat ->
  (exists t J, aset nY p s = Ok t /\ ajac junk nY t x = Ok J /\ length J = (nY * (4 * L * nY))%nat) /\
  forall i n j l, (i < nY)%nat -> (n < L)%nat -> (j < nY)%nat -> (l < 4)%nat ->
    ldot nY p x n j <> 0 \/ l = 3%nat \/ i <> j -> lexact junk nY L s p x i n j l.
Proof.
  intros junk nY L s p x Hs Hp. split; [|intros; apply agradient; assumption].
  destruct (aset_ok nY L p s Hs Hp) as (t & E & H & _). destruct (ajac_ok junk nY L p t x H) as (J & E2 & LJ & _). exists t, J. auto.
Qed.
Print Assumptions C100_jacobian.

(** The starting point of a fit: the diffuse term is the least value of each channel of
    the data, the lobes are spread over the quarter circle. *)
Theorem C100_start : forall junk nY L dX dY rows s0, a_iso s0 = false -> length (a_kd s0) = nY -> rows <> [] ->
  (forall x, In x rows -> length x = (dX + dY)%nat) -> (dY <= nY)%nat ->
  exists s p, abootstrap junk nY L dX dY rows s0 = Ok s /\ lsized nY L s /\
    (forall j, (j < dY)%nat -> least (chan dX rows j) (length rows) (nth j (a_kd s) 0)) /\
    (forall j, (dY <= j < nY)%nat -> nth j (a_kd s) 0 = nth j (a_kd s0) 0) /\
    aget junk nY s = Ok p /\ length p = (4 * L * nY)%nat /\
    forall m i, (m < L)%nat -> (i < nY)%nat -> let angle := PI / 2 * (INR m / INR L) in
      lpar nY p m i 0 = - sin angle /\ lpar nY p m i 1 = - sin angle /\ lpar nY p m i 2 = cos angle /\ lpar nY p m i 3 = INR L.
Proof. intros junk nY L dX dY rows s0. apply (abootstrap_ok junk nY dX dY L rows s0). Qed.
Print Assumptions C100_start.
(** Without samples, or with more channels than the function has, it stops. *)
Theorem C100_start_refused : forall junk nY L dX dY rows s0, length (a_kd s0) = nY -> rows = [] \/ (nY < dY)%nat ->
  abootstrap junk nY L dX dY rows s0 = Abort.
Proof.
  intros junk nY L dX dY rows s0 Hk [->|H]; [reflexivity|]. unfold abootstrap. cbv zeta. rewrite akd_wide by (cbn [aset_nb_lobes a_kd]; lia). reflexivity.
Qed.
Print Assumptions C100_start_refused.

(** With the flag of isotropic lobes set (the constructor does not initialise it), the
    object can be read and evaluated; it cannot be written, differentiated or started. *)
Theorem C100_flag_read : forall junk nY L s x, isized nY L s ->
  exists p v, aget junk nY s = Ok p /\ length p = (3 * L * nY)%nat /\ avalue junk nY s x = Ok v /\ length v = nY /\
    forall i, (i < nY)%nat -> nth i v 0 = nth i (a_kd s) 0 + lsum L (fun n => laf_lobe nY p x n i).
Proof. exact iread. Qed.
Print Assumptions C100_flag_read.
Theorem C100_flag_refuted : forall junk nY L s p x dX dY rows, isized nY L s -> (1 <= L * nY)%nat ->
  aset nY p s = Abort /\ ajac junk nY s x = Abort /\ abootstrap junk nY L dX dY rows s = Abort.
Proof.
  intros junk nY L s p x dX dY rows Hs Hp. split; [apply (iset_abort nY L Hp p s Hs)|]. split; [apply (ijac_abort junk nY L Hp s x Hs)|].
  destruct Hs as (_ & Hi & _). apply abootstrap_flag; assumption.
Qed.
Print Assumptions C100_flag_refuted.

(** ** Cases *)
Example fresh_sized (n : nat) (iso : bool) : (if iso then isized else lsized) 3%nat n (aconstruct 0 3 n iso).
Proof. destruct iso; repeat split; cbn [aconstruct a_C a_N a_kd]; rewrite ?repeat_length; reflexivity. Qed.
(** one lobe, one channel: diffuse 0.25, a lobe of exponent 1 of a product of 1/2 *)
Definition one_lobe : laf := mkLaf 1 false [1; 1; 1] [1] [1 / 4].
Definition above : mem := fun i => nth i [0; 0; 1; 0; 0; 1] 0.
Example lobe_case : component (do t <- aset 1 [0; 0; 1 / 2; 1] one_lobe; avalue 0 1 t above) 0 = 3 / 4.
Proof.
  destruct (C100_value 0 1 1 one_lobe [0; 0; 1 / 2; 1] above) as (t & v & E & E2 & _ & V); [repeat split|reflexivity|]. rewrite E. cbn [bind]. rewrite E2. cbn [component].
  rewrite V by lia. unfold llobe, ldot, lpar, above. cbn [lsum nth Nat.mul Nat.add one_lobe a_kd].
  replace (0 * (0 * 0) + 0 * (0 * 0) + 1 / 2 * (1 * 1)) with (1 / 2) by ring. destruct (Rlt_dec 0 (1 / 2)); [|lra]. rewrite Rpower_1 by lra. lra.
Qed.
Example start_case : exists s, abootstrap 0 1 2 1 1 [[0; 5]; [1; 3]; [2; 4]] (aconstruct 0 1 1 false) = Ok s /\ nth 0 (a_kd s) 0 = 3.
Proof.
  destruct (C100_start 0 1 2 1 1 [[0; 5]; [1; 3]; [2; 4]] (aconstruct 0 1 1 false)) as (s & p & E & _ & K & _); [reflexivity|reflexivity|discriminate| |lia|].
  - intros x [<-|[<-|[<-|[]]]]; reflexivity.
  - exists s. split; [exact E|]. destruct (K 0%nat ltac:(lia)) as ((k & Hk & Ek) & M). pose proof (M 1%nat ltac:(cbn; lia)) as Q. unfold chan in *. cbn in Q, Hk.
    destruct k as [|[|[|k]]]; cbn in Ek; [lra|lra|lra|lia].
Qed.

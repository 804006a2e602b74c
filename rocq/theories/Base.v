(** Shared vocabulary of the model: C++ outcomes, byte strings, [std::map]. *)
From Coq Require Export Ascii String NArith ZArith Bool Lia Sorted.
From Coq Require Export List.
Export ListNotations.
Open Scope list_scope.
Open Scope nat_scope.

(** Result of running a piece of C++ code.  [Throw]: a C++ exception leaves the
    function.  [Abort]: failed assert, abort(), exit(), or std::terminate (for
    instance a bare [throw;] outside a handler).  [UB]: undefined behaviour. *)
Inductive outcome (A : Type) : Type :=
| Ok (a : A)
| Throw
| Abort
| UB.
Arguments Ok {A} a.
Arguments Throw {A}.
Arguments Abort {A}.
Arguments UB {A}.

Definition bind {A B} (x : outcome A) (f : A -> outcome B) : outcome B :=
  match x with Ok a => f a | Throw => Throw | Abort => Abort | UB => UB end.

Definition omap {A B} (f : A -> B) (x : outcome A) : outcome B :=
  bind x (fun a => Ok (f a)).

Notation "'do' x <- e ; k" := (bind e (fun x => k))
  (at level 200, x pattern, e at level 100, k at level 200, right associativity).

(** std::string, and file contents: lists of bytes. *)
Definition str := list ascii.
Definition lit (s : string) : str := list_ascii_of_string s.
Coercion lit : string >-> str.

Definition nl : ascii := ascii_of_nat 10.
Definition cr : ascii := ascii_of_nat 13.
Definition tab : ascii := ascii_of_nat 9.
Definition nul : ascii := ascii_of_nat 0.

(** std::isspace in the "C" locale: space, \t \n \v \f \r. *)
Definition is_space (c : ascii) : bool :=
  let n := nat_of_ascii c in
  (n =? 32) || ((9 <=? n) && (n <=? 13)).

Definition aeqb (a b : ascii) : bool := Ascii.eqb a b.

Fixpoint str_eqb (a b : str) : bool :=
  match a, b with
  | [], [] => true
  | x :: a', y :: b' => aeqb x y && str_eqb a' b'
  | _, _ => false
  end.

Lemma aeqb_spec a b : reflect (a = b) (aeqb a b).
Proof. apply Ascii.eqb_spec. Qed.

Lemma aeqb_refl a : aeqb a a = true.
Proof. destruct (aeqb_spec a a); congruence. Qed.

Lemma str_eqb_spec a b : reflect (a = b) (str_eqb a b).
Proof.
  revert b; induction a as [|x a IH]; destruct b as [|y b]; simpl; try (constructor; congruence).
  destruct (aeqb_spec x y) as [->|n]; simpl; [|constructor; congruence].
  destruct (IH b) as [->|n]; constructor; congruence.
Qed.

Lemma str_eqb_refl a : str_eqb a a = true.
Proof. destruct (str_eqb_spec a a); congruence. Qed.

Definition str_eq_dec (a b : str) : {a = b} + {a <> b}.
Proof. destruct (str_eqb_spec a b); [left|right]; assumption. Defined.

(** std::less<std::string>: char_traits<char>::compare orders bytes as unsigned. *)
Definition acmp (a b : ascii) : comparison := N.compare (N_of_ascii a) (N_of_ascii b).

Fixpoint str_cmp (a b : str) : comparison :=
  match a, b with
  | [], [] => Eq
  | [], _ => Lt
  | _, [] => Gt
  | x :: a', y :: b' => match acmp x y with Eq => str_cmp a' b' | c => c end
  end.

Definition str_lt (a b : str) : Prop := str_cmp a b = Lt.

Lemma acmp_eq a b : acmp a b = Eq <-> a = b.
Proof.
  unfold acmp; rewrite N.compare_eq_iff; split; [|congruence].
  intros H; rewrite <- (ascii_N_embedding a), <- (ascii_N_embedding b); congruence.
Qed.

Lemma acmp_antisym a b : acmp b a = CompOpp (acmp a b).
Proof. unfold acmp; apply N.compare_antisym. Qed.

Lemma str_cmp_eq a b : str_cmp a b = Eq <-> a = b.
Proof.
  revert b; induction a as [|x a IH]; destruct b as [|y b]; simpl; try (split; congruence).
  destruct (acmp x y) eqn:E.
  - apply acmp_eq in E; subst; rewrite IH; split; congruence.
  - split; [discriminate|]. intros H; inversion H; subst.
    assert (acmp y y = Eq) by (apply acmp_eq; reflexivity); congruence.
  - split; [discriminate|]. intros H; inversion H; subst.
    assert (acmp y y = Eq) by (apply acmp_eq; reflexivity); congruence.
Qed.

Lemma str_cmp_antisym a b : str_cmp b a = CompOpp (str_cmp a b).
Proof.
  revert b; induction a as [|x a IH]; destruct b as [|y b]; simpl; auto.
  rewrite (acmp_antisym x y); destruct (acmp x y); simpl; auto.
Qed.

Lemma str_cmp_refl a : str_cmp a a = Eq.
Proof. apply str_cmp_eq; reflexivity. Qed.

Lemma str_lt_trans a b c : str_lt a b -> str_lt b c -> str_lt a c.
Proof.
  unfold str_lt; revert b c; induction a as [|x a IH]; destruct b as [|y b], c as [|z c];
    simpl; try congruence.
  unfold acmp.
  destruct (N.compare_spec (N_of_ascii x) (N_of_ascii y)) as [E|E|E];
    destruct (N.compare_spec (N_of_ascii y) (N_of_ascii z)) as [F|F|F];
    destruct (N.compare_spec (N_of_ascii x) (N_of_ascii z)) as [G|G|G];
    try congruence; try lia; intros H1 H2; eauto.
Qed.

Lemma str_lt_irrefl a : ~ str_lt a a.
Proof. unfold str_lt; rewrite str_cmp_refl; congruence. Qed.

Lemma str_cmp_gt a b : str_cmp a b = Gt <-> str_lt b a.
Proof. unfold str_lt; rewrite (str_cmp_antisym a b); destruct (str_cmp a b); simpl; split; congruence. Qed.

(** std::map<std::string, V>: association list in key order. *)
Definition smap (V : Type) := list (str * V).

Fixpoint map_find {V} (k : str) (m : smap V) : option V :=
  match m with
  | [] => None
  | (k', v) :: t => if str_eqb k k' then Some v else map_find k t
  end.

(** std::map::insert: an existing entry is kept. *)
Fixpoint map_insert {V} (k : str) (v : V) (m : smap V) : smap V :=
  match m with
  | [] => [(k, v)]
  | (k', v') :: t =>
      match str_cmp k k' with
      | Lt => (k, v) :: (k', v') :: t
      | Eq => (k', v') :: t
      | Gt => (k', v') :: map_insert k v t
      end
  end.

(** std::map::operator[] used as an lvalue: an existing entry is overwritten. *)
Fixpoint map_update {V} (k : str) (v : V) (m : smap V) : smap V :=
  match m with
  | [] => [(k, v)]
  | (k', v') :: t =>
      match str_cmp k k' with
      | Lt => (k, v) :: (k', v') :: t
      | Eq => (k', v) :: t
      | Gt => (k', v') :: map_update k v t
      end
  end.

(** Invariant of [std::map]: keys strictly increasing. *)
Definition map_ok {V} (m : smap V) : Prop :=
  StronglySorted (fun a b => str_lt (fst a) (fst b)) m.

Lemma map_find_lt {V} k (m : smap V) :
  Forall (fun b => str_lt k (fst b)) m -> map_find k m = None.
Proof.
  induction 1 as [|[k' v] t H _ IH]; simpl; auto.
  destruct (str_eqb_spec k k') as [->|n]; auto.
  exfalso; eapply str_lt_irrefl; eauto.
Qed.

Lemma map_find_insert {V} k v (m : smap V) k0 :
  map_ok m ->
  map_find k0 (map_insert k v m) =
  match map_find k0 m with Some w => Some w | None => if str_eqb k0 k then Some v else None end.
Proof.
  unfold map_ok; induction m as [|[k' v'] t IH]; simpl; intros Hs.
  - destruct (str_eqb k0 k); auto.
  - inversion Hs as [|? ? Ht Hf]; subst.
    destruct (str_cmp k k') eqn:E; simpl.
    + apply str_cmp_eq in E; subst k'.
      destruct (str_eqb_spec k0 k); auto. destruct (map_find k0 t); auto.
    + destruct (str_eqb_spec k0 k) as [E0|n].
      * rewrite E0. destruct (str_eqb_spec k k') as [E1|n].
        { rewrite E1, str_cmp_refl in E; discriminate. }
        rewrite map_find_lt; auto.
        eapply Forall_impl; [|exact Hf]; simpl; intros; eapply str_lt_trans; eauto.
      * destruct (str_eqb k0 k'); auto. destruct (map_find k0 t); auto.
    + destruct (str_eqb_spec k0 k'); auto.
Qed.

Lemma map_find_update {V} k v (m : smap V) k0 :
  map_ok m ->
  map_find k0 (map_update k v m) = if str_eqb k0 k then Some v else map_find k0 m.
Proof.
  unfold map_ok; induction m as [|[k' v'] t IH]; simpl; intros Hs; auto.
  inversion Hs as [|? ? Ht Hf]; subst.
  destruct (str_cmp k k') eqn:E; simpl.
  - apply str_cmp_eq in E; subst k'; destruct (str_eqb k0 k); auto.
  - auto.
  - rewrite IH by assumption.
    destruct (str_eqb_spec k0 k') as [->|n]; auto.
    destruct (str_eqb_spec k' k) as [->|]; auto.
    rewrite str_cmp_refl in E; discriminate.
Qed.

Lemma map_insert_keys {V} k v (m : smap V) (P : str -> Prop) :
  P k -> Forall (fun b => P (fst b)) m -> Forall (fun b => P (fst b)) (map_insert k v m).
Proof.
  intros Hk; induction 1 as [|[k' v'] t H Ht IH]; simpl; auto.
  destruct (str_cmp k k'); auto.
Qed.

Lemma map_update_keys {V} k v (m : smap V) (P : str -> Prop) :
  P k -> Forall (fun b => P (fst b)) m -> Forall (fun b => P (fst b)) (map_update k v m).
Proof.
  intros Hk; induction 1 as [|[k' v'] t H Ht IH]; simpl; auto.
  destruct (str_cmp k k'); auto.
Qed.

Lemma map_insert_ok {V} k v (m : smap V) : map_ok m -> map_ok (map_insert k v m).
Proof.
  unfold map_ok; induction m as [|[k' v'] t IH]; simpl; intros Hs.
  - repeat constructor.
  - inversion Hs as [|? ? Ht Hf]; subst.
    destruct (str_cmp k k') eqn:E; auto.
    + constructor; [constructor; auto|]. constructor; auto.
      eapply Forall_impl; [|exact Hf]; simpl; intros; eapply str_lt_trans; eauto.
    + constructor; auto. simpl.
      apply (map_insert_keys k v t (fun x => str_lt k' x)); auto.
      apply str_cmp_gt; assumption.
Qed.

Lemma map_update_ok {V} k v (m : smap V) : map_ok m -> map_ok (map_update k v m).
Proof.
  unfold map_ok; induction m as [|[k' v'] t IH]; simpl; intros Hs.
  - repeat constructor.
  - inversion Hs as [|? ? Ht Hf]; subst.
    destruct (str_cmp k k') eqn:E; auto.
    + constructor; auto.
    + constructor; [constructor; auto|]. constructor; auto.
      eapply Forall_impl; [|exact Hf]; simpl; intros; eapply str_lt_trans; eauto.
    + constructor; auto. simpl.
      apply (map_update_keys k v t (fun x => str_lt k' x)); auto.
      apply str_cmp_gt; assumption.
Qed.

Lemma map_ok_nil {V} : map_ok (@nil (str * V)).
Proof. constructor. Qed.

(** Two [std::map]s with the same bindings are the same object. *)
Lemma map_ext {V} (m1 m2 : smap V) :
  map_ok m1 -> map_ok m2 -> (forall k, map_find k m1 = map_find k m2) -> m1 = m2.
Proof.
  unfold map_ok; revert m2; induction m1 as [|[k v] t IH]; intros [|[k' v'] t'] H1 H2 He; auto.
  - specialize (He k'); simpl in He; rewrite str_eqb_refl in He; discriminate.
  - specialize (He k); simpl in He; rewrite str_eqb_refl in He; discriminate.
  - inversion H1 as [|? ? Ht Hf]; inversion H2 as [|? ? Ht' Hf']; subst.
    assert (k = k') as <-.
    { destruct (str_cmp k k') eqn:E.
      - apply str_cmp_eq; assumption.
      - pose proof (He k) as Hk; simpl in Hk; rewrite str_eqb_refl in Hk.
        destruct (str_eqb_spec k k') as [->|]; [reflexivity|].
        rewrite map_find_lt in Hk; [discriminate|].
        eapply Forall_impl; [|exact Hf']; simpl; intros; eapply str_lt_trans; eauto.
      - apply str_cmp_gt in E.
        pose proof (He k') as Hk; simpl in Hk; rewrite str_eqb_refl in Hk.
        destruct (str_eqb_spec k' k) as [->|]; [reflexivity|].
        rewrite map_find_lt in Hk; [discriminate|].
        eapply Forall_impl; [|exact Hf]; simpl; intros; eapply str_lt_trans; eauto. }
    f_equal.
    + pose proof (He k) as Hk; simpl in Hk; rewrite str_eqb_refl in Hk; congruence.
    + apply IH; auto. intros k0; specialize (He k0); simpl in He.
      destruct (str_eqb_spec k0 k) as [E0|]; auto.
      rewrite E0, !map_find_lt; auto.
Qed.

Lemma map_find_in {V} k v (m : smap V) : map_find k m = Some v -> In (k, v) m.
Proof.
  induction m as [|[k' v'] t IH]; simpl; [discriminate|].
  destruct (str_eqb_spec k k') as [->|]; intros H; [left; congruence|right; auto].
Qed.

Lemma map_in_find {V} k v (m : smap V) : map_ok m -> In (k, v) m -> map_find k m = Some v.
Proof.
  unfold map_ok; induction m as [|[k' v'] t IH]; simpl; intros Hs Hin; [destruct Hin|].
  inversion Hs as [|? ? Ht Hf]; subst.
  destruct Hin as [Hin|Hin].
  - inversion Hin; subst; rewrite str_eqb_refl; reflexivity.
  - destruct (str_eqb_spec k k') as [->|]; auto.
    rewrite Forall_forall in Hf; specialize (Hf _ Hin); simpl in Hf.
    exfalso; eapply str_lt_irrefl; eauto.
Qed.

Lemma Ok_inj A (a b : A) : Ok a = Ok b -> b = a.
Proof. congruence. Qed.

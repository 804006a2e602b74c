(** Proofs for C118. *)
From Coq Require Import Reals List Lia Lra ZArith Decimal DecimalNat DecimalN.
From Flocq Require Import Core.
From Verif Require Import Base Num DataModel TextModel TextRound CutSpec DecModel.
Open Scope R_scope.

Definition all_digits (s : str) : Prop := Forall (fun c => is_digit c = true) s.
Lemma fold_digits b : forall m, fold_left (fun m c => (10 * m + digit_num c)%Z) b m = (m * 10 ^ Z.of_nat (length b) + digits_value b)%Z.
Proof.
  unfold digits_value. induction b as [|c b IH]; intros m; cbn [fold_left length]; [cbn; lia|]. rewrite IH. rewrite (IH (10 * 0 + digit_num c)%Z). rewrite Nat2Z.inj_succ, Z.pow_succ_r by lia. ring.
Qed.
Lemma digits_app a b : digits_value (a ++ b) = (digits_value a * 10 ^ Z.of_nat (length b) + digits_value b)%Z.
Proof. unfold digits_value at 1. rewrite fold_left_app. apply fold_digits. Qed.
Lemma digit_char_ok d : (0 <= d < 10)%Z -> is_digit (digit_char d) = true /\ digit_num (digit_char d) = d.
Proof.
  intros H. assert (E : (d = 0 \/ d = 1 \/ d = 2 \/ d = 3 \/ d = 4 \/ d = 5 \/ d = 6 \/ d = 7 \/ d = 8 \/ d = 9)%Z) by lia. repeat (destruct E as [->|E]; [split; reflexivity|]). subst. split; reflexivity.
Qed.
Lemma digits_w_length w : forall m, length (digits_w w m) = w.
Proof. induction w as [|w IH]; intros m; [reflexivity|]. cbn [digits_w]. rewrite app_length, IH. cbn. lia. Qed.
Lemma digits_w_digits w : forall m, (0 <= m)%Z -> all_digits (digits_w w m).
Proof.
  induction w as [|w IH]; intros m H; [constructor|]. cbn [digits_w]. apply Forall_app. split; [apply IH, Z.div_pos; lia|]. constructor; [|constructor].
  apply digit_char_ok. apply Z.mod_pos_bound. lia.
Qed.
Lemma digits_w_value w : forall m, (0 <= m < 10 ^ Z.of_nat w)%Z -> digits_value (digits_w w m) = m.
Proof.
  induction w as [|w IH]; intros m H. { cbn in *. lia. }
  cbn [digits_w]. rewrite Nat2Z.inj_succ, Z.pow_succ_r in H by lia. rewrite digits_app, IH.
  - cbn [length]. change (digits_value [digit_char (m mod 10)]) with (10 * 0 + digit_num (digit_char (m mod 10)))%Z. rewrite (proj2 (digit_char_ok _ (Z.mod_pos_bound m 10 ltac:(lia)))). change (10 ^ Z.of_nat 1)%Z with 10%Z. pose proof (Z.div_mod m 10). lia.
  - split; [apply Z.div_pos; lia|]. apply Z.div_lt_upper_bound; lia.
Qed.
Lemma zeros_value k : digits_value (repeat zero_char k) = 0%Z.
Proof. induction k as [|k IH]; [reflexivity|]. change (repeat zero_char (S k)) with ([zero_char] ++ repeat zero_char k). rewrite digits_app, IH. reflexivity. Qed.
Lemma zeros_digits k : all_digits (repeat zero_char k).
Proof. induction k; constructor; [reflexivity|assumption]. Qed.
Lemma drop_zeros_spec s : exists k, s = repeat zero_char k ++ drop_zeros s.
Proof. induction s as [|c s (k & IH)]; [exists 0%nat; reflexivity|]. cbn [drop_zeros]. destruct (aeqb_spec c zero_char) as [->|]; [exists (S k); cbn; f_equal; exact IH|exists 0%nat; reflexivity]. Qed.
Lemma strip_spec s : exists k, s = strip s ++ repeat zero_char k.
Proof.
  destruct (drop_zeros_spec (rev s)) as (k & E). exists k. unfold strip. rewrite <- (rev_involutive s) at 1. rewrite E at 1. rewrite rev_app_distr. f_equal.
  clear. induction k as [|k IH]; [reflexivity|]. cbn [repeat rev]. rewrite IH. clear. induction k as [|k IH]; [reflexivity|]. cbn [repeat app]. f_equal. exact IH.
Qed.
Lemma strip_digits s : all_digits s -> all_digits (strip s).
Proof. intros H. destruct (strip_spec s) as (k & E). rewrite E in H. apply Forall_app in H. tauto. Qed.
Lemma take_digits_app d c r : all_digits d -> is_digit c = false -> take_digits (d ++ c :: r) = (d, c :: r).
Proof. intros H Hc. induction H as [|x d Hx H IH]; cbn [app take_digits]; [rewrite Hc; reflexivity|]. rewrite Hx, IH. reflexivity. Qed.
Lemma take_digits_end d : all_digits d -> take_digits d = (d, []).
Proof. intros H. induction H as [|x d Hx H IH]; cbn [take_digits]; [reflexivity|]. rewrite Hx, IH. reflexivity. Qed.

Lemma uint_acc d : forall p, Z.pos (Pos.of_uint_acc d p) = fold_left (fun m c => (10 * m + digit_num c)%Z) (uint_str d) (Z.pos p).
Proof.
  induction d as [|d IH|d IH|d IH|d IH|d IH|d IH|d IH|d IH|d IH|d IH]; intros p; [reflexivity|..]; cbn [uint_str fold_left]; unfold Pos.of_uint_acc; fold Pos.of_uint_acc; rewrite IH; f_equal; rewrite ?Pos2Z.inj_add, ?Pos2Z.inj_mul; unfold digit_num; cbn [nat_of_ascii]; match goal with |- context[Z.of_nat ?n] => let v := eval vm_compute in (Z.of_nat n) in change (Z.of_nat n) with v end; lia.
Qed.
Lemma uint_value d : Z.of_N (N.of_uint d) = digits_value (uint_str d).
Proof.
  unfold N.of_uint, digits_value. induction d as [|d IH|d IH|d IH|d IH|d IH|d IH|d IH|d IH|d IH|d IH]; cbn [Pos.of_uint uint_str fold_left]; [reflexivity|exact IH|..]; cbn [Z.of_N]; rewrite uint_acc; reflexivity.
Qed.
Lemma print_N_value n : digits_value (print_N n) = Z.of_N n.
Proof. unfold print_N. rewrite <- uint_value, Unsigned.of_to. reflexivity. Qed.

(** ** Reading *)
Definition tail_ok (s : str) : Prop := match s with [] => True | c :: _ => is_space c = true end.
Lemma space_plain c : is_space c = true -> is_digit c = false /\ c <> "."%char /\ c <> "e"%char /\ c <> "E"%char /\ c <> "-"%char /\ c <> "+"%char.
Proof. destruct c as [[] [] [] [] [] [] [] []]; cbv; intros H; try discriminate H; repeat split; discriminate. Qed.
Lemma digit_plain c : is_digit c = true -> c <> "."%char /\ c <> "e"%char /\ c <> "E"%char /\ c <> "-"%char /\ c <> "+"%char.
Proof. destruct c as [[] [] [] [] [] [] [] []]; cbv; intros H; try discriminate H; repeat split; discriminate. Qed.
Lemma take_digits_tail d s : all_digits d -> match s with [] => True | c :: _ => is_digit c = false end -> take_digits (d ++ s) = (d, s).
Proof. intros H Hs. destruct s as [|c s]; [rewrite app_nil_r; apply take_digits_end; assumption|apply take_digits_app; assumption]. Qed.
Lemma take_sign_plain c s : c <> "-"%char -> c <> "+"%char -> take_sign (c :: s) = (false, c :: s).
Proof. intros H1 H2. destruct c as [[] [] [] [] [] [] [] []]; try reflexivity; [exfalso; apply H2; reflexivity|exfalso; apply H1; reflexivity]. Qed.

Definition sgn (neg : bool) : R := if neg then -1 else 1.
Definition minus (neg : bool) : str := if neg then ["-"%char] else [].
Definition after (f s : str) : str := match f with [] => s | _ => "."%char :: f ++ s end.
Lemma with_point_after i f s : with_point i f ++ s = i ++ after f s.
Proof. unfold with_point, after. destruct f; [reflexivity|]. rewrite <- app_assoc. reflexivity. Qed.
(** the mantissa part of a text *)
Lemma mantissa_read neg i f s : all_digits i -> i <> [] -> all_digits f -> match s with [] => True | c :: _ => is_digit c = false /\ c <> "."%char end ->
  exists body, body = minus neg ++ with_point i f ++ s /\ fst (take_sign body) = neg /\
    take_digits (snd (take_sign body)) = (i, after f s) /\
    take_fraction (after f s) = (f, s).
Proof.
  intros Hi Ni Hf Hs. eexists. split; [reflexivity|].
  assert (EB : with_point i f ++ s = i ++ after f s).
  { unfold with_point, after. destruct f; [reflexivity|]. rewrite <- app_assoc. reflexivity. }
  assert (SG : take_sign (minus neg ++ with_point i f ++ s) = (neg, with_point i f ++ s)).
  { destruct neg; [reflexivity|]. cbn [app]. rewrite EB. destruct i as [|x i]; [contradiction|]. inversion Hi as [|? ? Hx _]; subst. destruct (digit_plain x Hx) as (_ & _ & _ & A & B). cbn [app]. apply take_sign_plain; assumption. }
  rewrite SG. cbn [fst snd]. split; [reflexivity|]. rewrite EB. split.
  - apply take_digits_tail; [assumption|]. unfold after. destruct f; [destruct s; [exact I|apply Hs]|reflexivity].
  - unfold after. destruct f as [|y f].
    + destruct s as [|c s]; [reflexivity|]. destruct Hs as [_ Hs]. destruct c as [[] [] [] [] [] [] [] []]; try reflexivity. exfalso; apply Hs; reflexivity.
    + apply take_digits_tail; [assumption|]. destruct s; [exact I|apply Hs].
Qed.
Section Read.
Variable store : R -> R.
Lemma lex_plain neg i f s : all_digits i -> i <> [] -> all_digits f -> tail_ok s ->
  lex_number store (minus neg ++ with_point i f ++ s) = Some (store (sgn neg * IZR (digits_value (i ++ f)) * bpow radix10 (0 - Z.of_nat (length f))), s).
Proof.
  intros Hi Ni Hf Hs. assert (Hs' : match s with [] => True | c :: _ => is_digit c = false /\ c <> "."%char end) by (destruct s; [exact I|]; destruct (space_plain _ Hs) as (A & B & _); auto).
  destruct (mantissa_read neg i f s Hi Ni Hf Hs') as (body & Eb & E1 & E2 & E3). rewrite <- Eb. unfold lex_number. destruct (take_sign body) as [n s1]. cbn [fst snd] in *. subst n. rewrite E2. cbv beta iota.  rewrite E3. cbv beta iota zeta.
  assert (Nif : i ++ f <> []) by (destruct i; [contradiction|discriminate]). destruct (i ++ f) as [|x l] eqn:E; [contradiction|].
  destruct s as [|c s]; [reflexivity|]. destruct (space_plain c Hs) as (_ & _ & A & B & _).
  destruct c as [[] [] [] [] [] [] [] []]; try reflexivity; exfalso; (apply A; reflexivity) || (apply B; reflexivity).
Qed.
Lemma exp_read e s : match s with [] => True | c :: _ => is_digit c = false end -> exists sg x, exp_text e = "e"%char :: sg :: x /\ take_sign (sg :: x ++ s) = ((e <? 0)%Z, x ++ s) /\ all_digits x /\ x <> [] /\
  take_digits (x ++ s) = (x, s) /\ (if (e <? 0)%Z then - digits_value x else digits_value x)%Z = e.
Proof.
  intros Hs. unfold exp_text. eexists _, _. split; [reflexivity|]. set (x := (if (Z.abs e <? 10)%Z then [zero_char] else []) ++ print_N (Z.to_N (Z.abs e))).
  assert (Hx : all_digits x). { apply Forall_app. split; [destruct (_ <? _)%Z; repeat constructor|apply print_N_digits]. }
  assert (Nx : x <> []). { unfold x. destruct (print_N_head (Z.to_N (Z.abs e))) as (c & t & -> & _). destruct (_ <? _)%Z; discriminate. }
  split; [destruct (e <? 0)%Z; reflexivity|]. split; [assumption|]. split; [assumption|]. split; [apply take_digits_tail; assumption|].
  assert (V : digits_value x = Z.abs e). { unfold x. rewrite digits_app, print_N_value, Z2N.id by lia. destruct (_ <? _)%Z; [change (digits_value [zero_char]) with 0%Z|change (digits_value []) with 0%Z]; lia. }
  rewrite V. destruct (Z.ltb_spec e 0); lia.
Qed.
Lemma lex_exp neg i f e s : all_digits i -> i <> [] -> all_digits f -> tail_ok s ->
  lex_number store (minus neg ++ with_point i f ++ exp_text e ++ s) = Some (store (sgn neg * IZR (digits_value (i ++ f)) * bpow radix10 (e - Z.of_nat (length f))), s).
Proof.
  intros Hi Ni Hf Hs. assert (Hs' : match s with [] => True | c :: _ => is_digit c = false end) by (destruct s; [exact I|]; destruct (space_plain _ Hs) as (A & B & _); auto).
  destruct (exp_read e s Hs') as (sg & x & Ee & TS & Hx & Nx & TD & EV). rewrite Ee. cbn [app].
  destruct (mantissa_read neg i f ("e"%char :: sg :: x ++ s) Hi Ni Hf) as (body & Eb & E1 & E2 & E3); [split; [reflexivity|discriminate]|].
  rewrite <- Eb. unfold lex_number. destruct (take_sign body) as [n s1]. cbn [fst snd] in *. subst n. rewrite E2. cbv beta iota. rewrite E3. cbv beta iota zeta.
  assert (Nif : i ++ f <> []) by (destruct i; [contradiction|discriminate]). destruct (i ++ f) as [|y l] eqn:E; [contradiction|].
  rewrite TS. cbv beta iota. rewrite TD. cbv beta iota. destruct x as [|z x]; [contradiction|]. rewrite EV. reflexivity.
Qed.
End Read.

(** ** Rounding to P digits *)
Local Instance flx_valid P : (0 < P)%Z -> Valid_exp (FLX_exp P).
Proof. intros H. apply FLX_exp_valid. exact H. Qed.
Lemma round_generic_format P v : (0 < P)%Z -> generic_format radix10 (FLX_exp P) (dec_round P v).
Proof. intros H. unfold dec_round. apply generic_format_round; [apply FLX_exp_valid; exact H|apply valid_rnd_N]. Qed.
Lemma mantissa_spec P r : (0 < P)%Z -> generic_format radix10 (FLX_exp P) r -> r <> 0 ->
  (10 ^ (P - 1) <= dec_mant P r < 10 ^ P)%Z /\ r = sgn (Rlt_bool r 0) * IZR (dec_mant P r) * bpow radix10 (dec_exp r + 1 - P).
Proof.
  intros HP HF Nr. unfold dec_mant, dec_exp. set (k := mag radix10 r : Z). set (z := Ztrunc (r * bpow radix10 (P - k))).
  assert (E : r = IZR z * bpow radix10 (k - P)).
  { unfold generic_format, scaled_mantissa, cexp, FLX_exp, F2R in HF. cbn [Fnum Fexp] in HF. fold k in HF. unfold z. replace (P - k)%Z with (- (k - P))%Z by lia. exact HF. }
  assert (EZ : IZR z = r * bpow radix10 (P - k)). { rewrite E at 1. rewrite Rmult_assoc, <- bpow_plus. replace (k - P + (P - k))%Z with 0%Z by lia. cbn. lra. }
  assert (EA : IZR (Z.abs z) = Rabs r * bpow radix10 (P - k)). { rewrite abs_IZR, EZ, Rabs_mult. f_equal. apply Rabs_pos_eq, bpow_ge_0. }
  pose proof (bpow_mag_le radix10 r Nr) as L. pose proof (bpow_mag_gt radix10 r) as U. fold k in L, U.
  split.
  - split.
    + apply le_IZR. rewrite EA. replace (IZR (10 ^ (P - 1))) with (bpow radix10 (P - 1)). 2: { rewrite (IZR_Zpower radix10) by lia. reflexivity. }
      replace (P - 1)%Z with ((k - 1) + (P - k))%Z by lia. rewrite bpow_plus. apply Rmult_le_compat_r; [apply bpow_ge_0|exact L].
    + apply lt_IZR. rewrite EA. replace (IZR (10 ^ P)) with (bpow radix10 P). 2: { rewrite (IZR_Zpower radix10) by lia. reflexivity. }
      replace (bpow radix10 P) with (bpow radix10 (k + (P - k))) by (f_equal; lia). rewrite bpow_plus. apply Rmult_lt_compat_r; [apply bpow_gt_0|exact U].
  - replace (k - 1 + 1 - P)%Z with (k - P)%Z by lia. rewrite E at 1. f_equal. rewrite abs_IZR. unfold sgn.
    assert (SZ : (r < 0 -> IZR z < 0) /\ (0 <= r -> 0 <= IZR z)).
    { pose proof (bpow_gt_0 radix10 (P - k)) as B. rewrite EZ. split; intros H; nra. }
    destruct (Rlt_bool_spec r 0) as [H|H]; [rewrite Rabs_left by tauto|rewrite Rabs_pos_eq by tauto]; lra.
Qed.

(** ** Texts of numbers *)
(** sign, digits, fraction and exponent *)
Inductive text_of (neg : bool) (i f : str) : option Z -> str -> Prop :=
| T_plain : text_of neg i f None (minus neg ++ with_point i f)
| T_exp e : text_of neg i f (Some e) (minus neg ++ with_point i f ++ exp_text e).
Definition exp_of (o : option Z) : Z := match o with Some e => e | None => 0%Z end.
Definition text_value (neg : bool) (i f : str) (o : option Z) : R := sgn neg * IZR (digits_value (i ++ f)) * bpow radix10 (exp_of o - Z.of_nat (length f)).

Lemma text_lex store neg i f o t s : text_of neg i f o t -> all_digits i -> i <> [] -> all_digits f -> tail_ok s -> lex_number store (t ++ s) = Some (store (text_value neg i f o), s).
Proof. intros [|e] Hi Ni Hf Hs; rewrite <- !app_assoc; [apply lex_plain|apply lex_exp]; assumption. Qed.

Definition number_char (c : ascii) : Prop := is_digit c = true \/ c = "."%char \/ c = "e"%char \/ c = "+"%char \/ c = "-"%char.
Lemma digits_chars d : all_digits d -> Forall number_char d.
Proof. intros H. eapply Forall_impl; [|exact H]. intros c Hc. left. exact Hc. Qed.
Lemma text_chars neg i f o t : text_of neg i f o t -> all_digits i -> all_digits f -> Forall number_char t.
Proof.
  intros H Hi Hf. assert (W : Forall number_char (with_point i f)).
  { unfold with_point. destruct f; [apply digits_chars; assumption|]. apply Forall_app. split; [apply digits_chars; assumption|]. constructor; [right; left; reflexivity|apply digits_chars; assumption]. }
  assert (M : Forall number_char (minus neg)) by (destruct neg; repeat constructor; unfold number_char; auto 10).
  assert (X : forall e, Forall number_char (exp_text e)).
  { intros e. unfold exp_text. constructor; [unfold number_char; auto 10|]. constructor; [destruct (_ <? _)%Z; unfold number_char; auto 10|]. apply Forall_app. split; [destruct (_ <? _)%Z; repeat constructor; left; reflexivity|apply digits_chars, print_N_digits]. }
  destruct H; repeat (apply Forall_app; split); auto.
Qed.
Lemma text_head neg i f o t : text_of neg i f o t -> all_digits i -> i <> [] -> exists c t', t = c :: t' /\ is_space c = false /\ c <> "#"%char.
Proof.
  intros H Hi Ni. destruct i as [|x i]; [contradiction|]. inversion Hi as [|? ? Hx _]; subst. pose proof (digit_not_space x Hx) as S. assert (N : x <> "#"%char) by (intros ->; discriminate Hx).
  assert (E : exists w, with_point (x :: i) f = x :: w) by (unfold with_point; destruct f; eexists; reflexivity). destruct E as (w & E).
  destruct H; rewrite E; destruct neg; cbn [minus app]; eexists _, _; (split; [reflexivity|]); split; try assumption; try reflexivity; discriminate.
Qed.
Lemma text_numeral store neg i f o t : text_of neg i f o t -> all_digits i -> i <> [] -> all_digits f -> numeral (lex_number store) t (store (text_value neg i f o)).
Proof.
  intros H Hi Ni Hf. split; [eapply text_head; eassumption|]. split.
  - intros I. pose proof (text_chars _ _ _ _ _ H Hi Hf) as F. rewrite Forall_forall in F. destruct (F _ I) as [A|[A|[A|[A|A]]]]; discriminate A.
  - intros c r Hc. apply (text_lex store neg i f o t (c :: r)); assumption.
Qed.

(** beginnings of texts *)
Definition ends (o : option (R * str)) : Prop := o = None \/ exists w, o = Some (w, []).
Lemma begin_app {A} (q : list A) : forall a b u, a ++ b = q ++ u -> (exists v, a = q ++ v) \/ exists q', q = a ++ q' /\ q' <> [] /\ b = q' ++ u.
Proof.
  induction q as [|x q IH]; intros a b u E; [left; exists a; reflexivity|]. destruct a as [|y a]; [right; exists (x :: q); split; [reflexivity|]; split; [discriminate|exact E]|].
  cbn in E. injection E as <- E. destruct (IH _ _ _ E) as [(v & ->)|(q' & -> & N & ->)]; [left; exists v; reflexivity|right; exists q'; auto].
Qed.
Lemma prefix_digits d q v : all_digits d -> d = q ++ v -> all_digits q.
Proof. intros H ->. apply Forall_app in H. tauto. Qed.
Definition lex_unsigned (store : R -> R) (neg : bool) (s1 : str) : option (R * str) :=
  let (i, s2) := take_digits s1 in
  let (f, s3) := take_fraction s2 in
  match i ++ f with
  | [] => None
  | _ =>
      let value (e : Z) := store ((if neg then -1 else 1) * IZR (digits_value (i ++ f)) * bpow radix10 (e - Z.of_nat (length f))) in
      match s3 with
      | ("e"%char | "E"%char) :: t =>
          let (eneg, t1) := take_sign t in
          let (x, t2) := take_digits t1 in
          match x with [] => None | _ => Some (value (if eneg then - digits_value x else digits_value x)%Z, t2) end
      | _ => Some (value 0%Z, s3)
      end
  end.
Lemma lex_sign store s : lex_number store s = lex_unsigned store (fst (take_sign s)) (snd (take_sign s)).
Proof. unfold lex_number. destruct (take_sign s). reflexivity. Qed.
(** after the mantissa *)
Lemma unsigned_cut store neg s1 i s2 f s3 : take_digits s1 = (i, s2) -> take_fraction s2 = (f, s3) ->
  s3 = [] \/ (exists t, s3 = "e"%char :: t /\ (t = [] \/ exists sg x, t = sg :: x /\ (sg = "+"%char \/ sg = "-"%char) /\ all_digits x)) -> ends (lex_unsigned store neg s1).
Proof.
  intros E1 E2 H. unfold lex_unsigned. rewrite E1. cbv beta iota. rewrite E2. cbv beta iota zeta. destruct (i ++ f) as [|y l]; [left; reflexivity|]. destruct H as [->|(t & -> & H)]; [right; eexists; reflexivity|].
  destruct H as [->|(sg & x & -> & Hsg & Hx)]; [left; reflexivity|]. assert (TS : snd (take_sign (sg :: x)) = x) by (destruct Hsg; subst; reflexivity). destruct (take_sign (sg :: x)) as [en t1]. cbn [snd] in TS. subst t1.
  rewrite take_digits_end by assumption. cbv beta iota. destruct x; [left; reflexivity|right; eexists; reflexivity].
Qed.
Lemma text_prefix store neg i f o t q u : text_of neg i f o t -> all_digits i -> i <> [] -> all_digits f -> t = q ++ u -> q <> [] -> ends (lex_number store q).
Proof.
  intros H Hi Ni Hf E Nq. set (X := match o with Some e => exp_text e | None => [] end).
  assert (ET : t = minus neg ++ with_point i f ++ X) by (destruct H; unfold X; rewrite ?app_nil_r; reflexivity). clear H. rewrite ET in E. clear ET t.
  assert (XS : forall q3 u3, X = q3 ++ u3 -> q3 = [] \/ (exists t, q3 = "e"%char :: t /\ (t = [] \/ exists sg x, t = sg :: x /\ (sg = "+"%char \/ sg = "-"%char) /\ all_digits x))).
  { intros q3 u3 EX. destruct q3 as [|c q3]; [left; reflexivity|right]. destruct o as [e|]; [|discriminate EX]. unfold X, exp_text in EX. cbn [app] in EX. injection EX as <- EX. exists q3. split; [reflexivity|].
    destruct q3 as [|sg x]; [left; reflexivity|right]. injection EX as <- EX. exists (if (e <? 0)%Z then "-"%char else "+"%char), x. split; [reflexivity|]. split; [destruct (e <? 0)%Z; auto|].
    eapply prefix_digits; [|exact EX]. apply Forall_app. split; [destruct (_ <? _)%Z; repeat constructor|apply print_N_digits]. }
  assert (UN : forall q' v, with_point i f ++ X = q' ++ v -> ends (lex_unsigned store neg q')).
  { intros q' v Eq. assert (EB : with_point i f ++ X = i ++ after f X) by apply with_point_after. rewrite EB in Eq.
    destruct (begin_app _ _ _ _ Eq) as [(v1 & E1)|(q1 & -> & N1 & E1)].
    - apply unsigned_cut with (i := q') (s2 := []) (f := []) (s3 := []); [apply take_digits_end; exact (prefix_digits i q' v1 Hi E1)|reflexivity|left; reflexivity].
    - unfold after in E1. destruct f as [|y f'].
      + assert (HX := XS _ _ E1). apply unsigned_cut with (i := i) (s2 := q1) (f := []) (s3 := q1); [| |exact HX].
        * apply take_digits_tail; [assumption|]. destruct HX as [->|(t & -> & _)]; [exact I|reflexivity].
        * destruct HX as [->|(t & -> & _)]; reflexivity.
      + destruct q1 as [|c q2]; [contradiction|]. injection E1 as <- E1. change (y :: f' ++ X) with ((y :: f') ++ X) in E1. destruct (begin_app _ _ _ _ E1) as [(v2 & E2)|(q3 & -> & N3 & E2)].
        * apply unsigned_cut with (i := i) (s2 := "."%char :: q2) (f := q2) (s3 := []); [apply take_digits_app; [assumption|reflexivity]|apply take_digits_end; eapply prefix_digits; [exact Hf|exact E2]|left; reflexivity].
        * assert (HX := XS _ _ E2). apply unsigned_cut with (i := i) (s2 := "."%char :: (y :: f') ++ q3) (f := y :: f') (s3 := q3); [apply take_digits_app; [assumption|reflexivity]| |exact HX].
          apply take_digits_tail; [assumption|]. destruct HX as [->|(t & -> & _)]; [exact I|reflexivity]. }
  rewrite lex_sign. destruct neg; cbn [minus app] in E.
  - destruct q as [|c q']; [contradiction|]. injection E as <- E. cbn [take_sign fst snd]. eapply UN. exact E.
  - assert (TS : take_sign q = (false, q)).
    { destruct q as [|c q']; [contradiction|]. destruct i as [|x i]; [contradiction|]. inversion Hi as [|? ? Hx _]; subst. assert (c = x) as -> by (revert E; unfold with_point; destruct f; cbn; intros E; injection E as <- _; reflexivity).
      destruct (digit_plain x Hx) as (_ & _ & _ & A & B). apply take_sign_plain; assumption. }
    rewrite TS. cbn [fst snd]. eapply UN. exact E.
Qed.

(** ** What is printed *)
Lemma stripped_value i f e : IZR (digits_value (i ++ strip f)) * bpow radix10 (e - Z.of_nat (length (strip f))) = IZR (digits_value (i ++ f)) * bpow radix10 (e - Z.of_nat (length f)).
Proof.
  destruct (strip_spec f) as (k & E). rewrite E at 3 4. rewrite app_assoc, (digits_app (i ++ strip f)), zeros_value, Z.add_0_r, app_length, repeat_length. rewrite mult_IZR. replace (IZR (10 ^ Z.of_nat k)) with (bpow radix10 (Z.of_nat k)).
  2: { rewrite (IZR_Zpower radix10) by lia. reflexivity. }
  rewrite Rmult_assoc, <- bpow_plus. f_equal. f_equal. lia.
Qed.
Lemma signed_minus v t : signed v t = minus (Rlt_bool v 0) ++ t.
Proof. unfold signed, minus. destruct (Rlt_bool v 0); reflexivity. Qed.

Theorem general_text P v : (0 < P)%nat -> exists neg i f o, text_of neg i f o (print_general P v) /\ all_digits i /\ i <> [] /\ all_digits f /\ text_value neg i f o = dec_round (Z.of_nat P) v.
Proof.
  intros HP. unfold print_general. set (r := dec_round (Z.of_nat P) v). assert (HP' : (0 < Z.of_nat P)%Z) by lia. destruct (Req_bool_spec r 0) as [E0|N0].
  { exists false, [zero_char], [], None. split; [apply (T_plain false [zero_char] [])|]. split; [repeat constructor|]. split; [discriminate|]. split; [constructor|]. unfold text_value. change (digits_value ([zero_char] ++ [])) with 0%Z. rewrite E0. ring. }
  destruct (mantissa_spec _ r HP' (round_generic_format _ v HP') N0) as [[M1 M2] EV]. set (m := dec_mant (Z.of_nat P) r) in *. set (X := dec_exp r) in *. rewrite signed_minus. set (neg := Rlt_bool r 0) in *.
  assert (M0 : (0 <= m)%Z) by (assert (0 < 10 ^ (Z.of_nat P - 1))%Z by (apply Z.pow_pos_nonneg; lia); lia).
  set (ds := digits_w P m). assert (Lds : length ds = P) by apply digits_w_length. assert (Dds : all_digits ds) by (apply digits_w_digits; assumption). assert (Vds : digits_value ds = m) by (apply digits_w_value; lia).
  assert (SPL : forall n, all_digits (firstn n ds) /\ all_digits (skipn n ds)) by (intros n; apply Forall_app; rewrite firstn_skipn; exact Dds).
  unfold general_digits. destruct ((X <? -4)%Z || (Z.of_nat P <=? X)%Z) eqn:C.
  - exists neg, (firstn 1 ds), (strip (skipn 1 ds)), (Some X). split; [apply T_exp|]. destruct (SPL 1%nat) as [A B]. split; [exact A|]. split; [destruct ds; [cbn in Lds; lia|discriminate]|]. split; [apply strip_digits; exact B|].
    unfold text_value. cbn [exp_of]. rewrite Rmult_assoc, stripped_value, firstn_skipn, Vds, <- Rmult_assoc. rewrite skipn_length, Lds. rewrite EV. f_equal. f_equal. lia.
  - apply Bool.orb_false_iff in C as [C1 C2]. apply Z.ltb_ge in C1. apply Z.leb_gt in C2. destruct (Z.ltb_spec X 0) as [HX|HX].
    + set (f := repeat zero_char (Z.to_nat (- X - 1)) ++ ds). exists neg, [zero_char], (strip f), None. split; [apply T_plain|]. split; [repeat constructor|]. split; [discriminate|].
      split; [apply strip_digits, Forall_app; split; [apply zeros_digits|exact Dds]|]. unfold text_value. cbn [exp_of]. rewrite Rmult_assoc, stripped_value, <- Rmult_assoc. unfold f. rewrite app_length, repeat_length, Lds.
      rewrite digits_app, digits_app, zeros_value, Vds. change (digits_value [zero_char]) with 0%Z. rewrite !Z.mul_0_l, !Z.add_0_l. rewrite EV. f_equal. f_equal. lia.
    + exists neg, (firstn (Z.to_nat (X + 1)) ds), (strip (skipn (Z.to_nat (X + 1)) ds)), None. split; [apply T_plain|]. destruct (SPL (Z.to_nat (X + 1))) as [A B]. split; [exact A|].
      split. { destruct ds as [|y ds']; [cbn in Lds; lia|]. replace (Z.to_nat (X + 1)) with (S (Z.to_nat X)) by lia. discriminate. }
      split; [apply strip_digits; exact B|]. unfold text_value. cbn [exp_of]. rewrite Rmult_assoc, stripped_value, firstn_skipn, Vds, <- Rmult_assoc. rewrite skipn_length, Lds. rewrite EV. f_equal. f_equal. lia.
Qed.
Theorem scientific_text P v : (0 < P)%nat -> exists neg i f o, text_of neg i f o (print_scientific P v) /\ all_digits i /\ i <> [] /\ all_digits f /\ text_value neg i f o = dec_round (Z.of_nat P) v.
Proof.
  intros HP. unfold print_scientific. set (r := dec_round (Z.of_nat P) v). assert (HP' : (0 < Z.of_nat P)%Z) by lia. destruct (Req_bool_spec r 0) as [E0|N0].
  { exists false, [zero_char], (repeat zero_char (P - 1)), (Some 0%Z). split; [apply (T_exp false [zero_char] (repeat zero_char (P - 1)) 0%Z)|]. split; [repeat constructor|]. split; [discriminate|]. split; [apply zeros_digits|]. unfold text_value.
    rewrite digits_app, zeros_value. change (digits_value [zero_char]) with 0%Z. rewrite Z.mul_0_l. cbn [Z.add]. rewrite E0. ring. }
  destruct (mantissa_spec _ r HP' (round_generic_format _ v HP') N0) as [[M1 M2] EV]. set (m := dec_mant (Z.of_nat P) r) in *. set (X := dec_exp r) in *. rewrite signed_minus. set (neg := Rlt_bool r 0) in *.
  assert (M0 : (0 <= m)%Z) by (assert (0 < 10 ^ (Z.of_nat P - 1))%Z by (apply Z.pow_pos_nonneg; lia); lia).
  set (ds := digits_w P m). assert (Lds : length ds = P) by apply digits_w_length. assert (Dds : all_digits ds) by (apply digits_w_digits; assumption). assert (Vds : digits_value ds = m) by (apply digits_w_value; lia).
  assert (SPL : all_digits (firstn 1 ds) /\ all_digits (skipn 1 ds)) by (apply Forall_app; rewrite firstn_skipn; exact Dds).
  unfold scientific_digits. exists neg, (firstn 1 ds), (skipn 1 ds), (Some X). split; [apply T_exp|]. destruct SPL as [A B]. split; [exact A|]. split; [destruct ds; [cbn in Lds; lia|discriminate]|]. split; [exact B|].
  unfold text_value. cbn [exp_of]. rewrite firstn_skipn, Vds, skipn_length, Lds. rewrite EV. f_equal. f_equal. lia.
Qed.

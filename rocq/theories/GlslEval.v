(** Proofs for the shader export: values of the functions of the shader. *)
From Coq Require Import Reals List Lia Lra.
From Verif Require Import Base ParamsModel GeoModel TextModel RatProofs NlModel NlMoreModel NlSpec Glsl GlslModel GlslSpec GlslValueSpec GlslLex GlslParse GlslBody GlslProgram.
Open Scope R_scope.
Open Scope string_scope.

(** the built-in functions *)
Section Builtins.
Variable s : sem.
Lemma call_dot a b c d e g : call_of s "dot" [VV a b c; VV d e g] = Some (VF (a * d + b * e + c * g)). Proof. reflexivity. Qed.
Lemma call_normalize a b c : call_of s "normalize" [VV a b c] =
  let n := sqrt (a * a + b * b + c * c) in if Req_EM_T n 0 then None else Some (VV (a / n) (b / n) (c / n)). Proof. reflexivity. Qed.
Lemma call_vec3_1 a : call_of s "vec3" [VF a] = Some (VV a a a). Proof. reflexivity. Qed.
Lemma call_vec3_v a b c : call_of s "vec3" [VV a b c] = Some (VV a b c). Proof. reflexivity. Qed.
Lemma call_vec3_3 a b c : call_of s "vec3" [VF a; VF b; VF c] = Some (VV a b c). Proof. reflexivity. Qed.
Lemma call_exp a b c : call_of s "exp" [VV a b c] = Some (VV (exp a) (exp b) (exp c)). Proof. reflexivity. Qed.
Lemma call_sqrt a : call_of s "sqrt" [VF a] = obind (vsqrt a) (fun x => Some (VF x)). Proof. reflexivity. Qed.
Lemma call_max a b c d e g : call_of s "max" [VV a b c; VV d e g] = Some (VV (Rmax a d) (Rmax b e) (Rmax c g)). Proof. reflexivity. Qed.
Lemma call_pow a b c d e g : call_of s "pow" [VV a b c; VV d e g] =
  obind (vpow a d) (fun x => obind (vpow b e) (fun y => obind (vpow c g) (fun z => Some (VV x y z)))). Proof. reflexivity. Qed.
Lemma call_powf a d : call_of s "pow" [VF a; VF d] = obind (vpow a d) (fun x => Some (VF x)). Proof. reflexivity. Qed.
Lemma call_clamp x a b : call_of s "clamp" [VF x; VF a; VF b] = Some (VF (Rmin (Rmax x a) b)). Proof. reflexivity. Qed.
End Builtins.

Lemma lit_0 : literal 0 0 = 0. Proof. unfold literal. cbn [powerRZ]. try (change (Pos.to_nat 1) with 1%nat; rewrite pow_1); field. Qed.
Lemma lit_00 : literal 0 (-1) = 0. Proof. unfold literal. cbn [powerRZ]. try (change (Pos.to_nat 1) with 1%nat; rewrite pow_1); field. Qed.
Lemma lit_1 : literal 1 0 = 1. Proof. unfold literal. cbn [powerRZ]. try (change (Pos.to_nat 1) with 1%nat; rewrite pow_1); field. Qed.
Lemma lit_2 : literal 2 0 = 2. Proof. unfold literal. cbn [powerRZ]. try (change (Pos.to_nat 1) with 1%nat; rewrite pow_1); field. Qed.
Lemma lit_4 : literal 4 0 = 4. Proof. unfold literal. cbn [powerRZ]. try (change (Pos.to_nat 1) with 1%nat; rewrite pow_1); field. Qed.
Lemma lit_5 : literal 5 0 = 5. Proof. unfold literal. cbn [powerRZ]. try (change (Pos.to_nat 1) with 1%nat; rewrite pow_1); field. Qed.
Lemma lit_10 : literal 10 (-1) = 1. Proof. unfold literal. cbn [powerRZ]. try (change (Pos.to_nat 1) with 1%nat; rewrite pow_1); field. Qed.
Lemma lit_20 : literal 20 (-1) = 2. Proof. unfold literal. cbn [powerRZ]. try (change (Pos.to_nat 1) with 1%nat; rewrite pow_1); field. Qed.
Lemma lit_50 : literal 50 (-1) = 5. Proof. unfold literal. cbn [powerRZ]. try (change (Pos.to_nat 1) with 1%nat; rewrite pow_1); field. Qed.
Lemma vdiv_ok a b : b <> 0 -> vdiv a b = Some (a / b).
Proof. intros H. unfold vdiv. destruct (Req_EM_T b 0); [contradiction|reflexivity]. Qed.
Lemma vpow_pos a b : 0 < a -> vpow a b = Some (Rpower a b).
Proof. intros H. unfold vpow. destruct (Rlt_dec 0 a); [reflexivity|contradiction]. Qed.
Lemma vpow_zero b : 0 < b -> vpow 0 b = Some 0.
Proof. intros H. unfold vpow. destruct (Rlt_dec 0 0); [lra|]. destruct (Req_EM_T 0 0); [|congruence]. destruct (Rlt_dec 0 b); [reflexivity|contradiction]. Qed.
Lemma vsqrt_ok a : 0 <= a -> vsqrt a = Some (sqrt a).
Proof. intros H. unfold vsqrt. destruct (Rle_dec 0 a); [reflexivity|contradiction]. Qed.

(** one step of evaluation; [eval] and [exec] are unfolded, the names looked up *)
Ltac reduce_ := cbn [apply_fun exec_block exec eval obind look store find fst snd String.eqb Ascii.eqb Bool.eqb eval_bop each1 each2 fn_body fn_params fn_type fn_name
  map app rev combine length skipn Nat.sub fun_ lvnxy decl declf half_decl ext_decl dot_ norm_ pow_lobe v_ n0 f1 back_decls gauss_fun grazing_ tys_eqb ty_eqb type_of andb component_of get_comp index_of].
Ltac run_ := repeat (reduce_; rewrite ?call_dot, ?call_normalize, ?call_vec3_1, ?call_vec3_v, ?call_vec3_3, ?call_exp, ?call_sqrt, ?call_max, ?call_pow, ?call_powf, ?call_clamp,
  ?lit_0, ?lit_00, ?lit_1, ?lit_2, ?lit_4, ?lit_5, ?lit_10, ?lit_20, ?lit_50; cbv zeta).

(** power of what is cut off at 0 *)
Definition pw (d n : R) : R := if Rlt_dec 0 d then Rpower d n else 0.
Lemma vpow_max d n : 0 < d \/ 0 < n -> vpow (Rmax d 0) n = Some (pw d n).
Proof.
  intros H. unfold pw. destruct (Rlt_dec 0 d) as [Hd|Hd].
  - rewrite Rmax_left by lra. apply vpow_pos, Hd.
  - rewrite Rmax_right by lra. apply vpow_zero. tauto.
Qed.
Lemma vpow_5 a : 0 <= a -> vpow a 5 = Some (a ^ 5).
Proof.
  intros H. destruct (Rle_lt_or_eq_dec 0 a H) as [Ha|<-].
  - rewrite vpow_pos by assumption. rewrite <- (Rpower_pow 5 a Ha). repeat f_equal. cbn. lra.
  - rewrite vpow_zero by lra. f_equal. cbn. ring.
Qed.
(** cosine between the turned first direction and that vector *)
Definition retro_cos (x : mem) : R :=
  (x 5%nat + x 2%nat) / back_len x * x 2%nat - ((x 3%nat - x 0%nat) / back_len x * x 0%nat + (x 4%nat - x 1%nat) / back_len x * x 1%nat).
Definition clamp01 (d : R) : R := Rmin (Rmax d 0) 1.
Lemma clamp01_range d : 0 <= 1 - clamp01 d.
Proof. unfold clamp01. pose proof (Rmin_r (Rmax d 0) 1). lra. Qed.
Definition lobe_dot3 (x : mem) (cx cz : R) : R := cx * (x 3%nat * x 0%nat + x 4%nat * x 1%nat) + cz * x 5%nat * x 2%nat.

(** the value of a plugin's lobe; [pi] is what the shader has for M_PI *)
Definition lobe (pi : R) (k : kind) (x : mem) (c : nat -> R) : R :=
  match k with
  | KBlinn => c 0%nat * pw (halfway x 2) (c 1%nat)
  | KWard => if Rlt_dec 0 (x 5%nat * x 2%nat) then
      c 0%nat / (4 * pi * c 1%nat * c 2%nat * sqrt (x 5%nat * x 2%nat)) * ward_exp x (c 1%nat) (c 2%nat) else 0
  | KSchlick => c 0%nat + (1 - c 0%nat) * (1 - clamp01 (cos_vh x)) ^ 5
  | KRetroSchlick => c 0%nat + (1 - c 0%nat) * (1 - clamp01 (retro_cos x)) ^ 5
  | KGauss Half => c 0%nat * exp (c 1%nat * (halfway x 2 - 1))
  | KGauss Back => c 0%nat * exp (c 1%nat * (back_cos x - 1))
  | KGauss Mirror => c 0%nat * exp (c 1%nat * (mirror_cos x - 1))
  | KLafIso _ => pw (lobe_dot3 x (c 0%nat) (c 1%nat)) (c 2%nat)
  | KDiffuse => c 0%nat
  | KRetroblinn => pw (back_cos x) (c 1%nat)
  | KAbc => c 0%nat / Rpower (1 + c 1%nat * halfway x 2) (c 2%nat)
  | KRetrobeckmann => c 0%nat / (4 * pi * c 1%nat * c 1%nat * x 5%nat * x 2%nat) *
      exp ((back_cos x * back_cos x - 1) / (c 1%nat * c 1%nat * back_cos x * back_cos x))
  | KNormSchlick => 1 + (1 / c 0%nat - 1) * (1 - clamp01 (cos_vh x)) ^ 5
  | KGauss Retro => c 0%nat * exp (c 1%nat * (lv_cos x - 1))
  | _ => 0
  end.
Definition lobe_fine (k : kind) (x : mem) (c : nat -> R) : Prop :=
  match k with
  | KBlinn => has_half x /\ (0 < halfway x 2 \/ 0 < c 1%nat)
  | KWard => has_half x /\ c 1%nat <> 0 /\ c 2%nat <> 0
  | KSchlick | KGauss Half => has_half x
  | KRetroSchlick | KGauss Back => 0 < back_len x
  | KGauss Mirror | KGauss Retro | KDiffuse => True
  | KRetroblinn => 0 < back_len x /\ (0 < back_cos x \/ 0 < c 1%nat)
  | KAbc => has_half x /\ 0 < 1 + c 1%nat * halfway x 2
  | KRetrobeckmann => 0 < back_len x /\ c 1%nat <> 0 /\ x 5%nat <> 0 /\ x 2%nat <> 0 /\ back_cos x <> 0
  | KNormSchlick => has_half x /\ c 0%nat <> 0
  | KLafIso _ => 0 < lobe_dot3 x (c 0%nat) (c 1%nat) \/ 0 < c 2%nat
  | _ => False
  end.
Definition vec_vals (m : nat -> nat -> R) (n : nat) : list val := map (fun l => VV (m l 0%nat) (m l 1%nat) (m l 2%nat)) (seq 0 n).

Section Leaves.
Variables (print : R -> string) (shown : R -> R).
Hypothesis Hprint : prints print shown.
Hypothesis Hpi : shown PI <> 0.
Variable s : sem.
Variable x : mem.
Notation H_ := (hlen x).
Lemma eval_num r e : eval (call_of s) e (num_ast print r) = Some (VF (shown r)).
Proof using Hprint.
  destruct (num_toks_cases print shown Hprint r) as [(m & k & _ & -> & ->)|(m & k & _ & -> & ->)]; reflexivity.
Qed.
Lemma hlen_lv : sqrt ((x 3%nat + x 0%nat) * (x 3%nat + x 0%nat) + (x 4%nat + x 1%nat) * (x 4%nat + x 1%nat) + (x 5%nat + x 2%nat) * (x 5%nat + x 2%nat)) = hlen x.
Proof. unfold hlen, hsum. cbn [Nat.add]. f_equal. ring. Qed.
Lemma half_n : (x 3%nat + x 0%nat) / H_ * 0 + (x 4%nat + x 1%nat) / H_ * 0 + (x 5%nat + x 2%nat) / H_ * 1 = halfway x 2.
Proof. unfold halfway, hsum. cbn [Nat.add]. unfold Rdiv. ring. Qed.
Lemma half_x : (x 3%nat + x 0%nat) / H_ * 1 + (x 4%nat + x 1%nat) / H_ * 0 + (x 5%nat + x 2%nat) / H_ * 0 = halfway x 0.
Proof. unfold halfway, hsum. cbn [Nat.add]. unfold Rdiv. ring. Qed.
Lemma half_y : (x 3%nat + x 0%nat) / H_ * 0 + (x 4%nat + x 1%nat) / H_ * 1 + (x 5%nat + x 2%nat) / H_ * 0 = halfway x 1.
Proof. unfold halfway, hsum. cbn [Nat.add]. unfold Rdiv. ring. Qed.
Lemma half_v : (x 3%nat + x 0%nat) / H_ * x 0%nat + (x 4%nat + x 1%nat) / H_ * x 1%nat + (x 5%nat + x 2%nat) / H_ * x 2%nat = cos_vh x.
Proof. unfold cos_vh, halfway, hsum. cbn [Nat.add]. unfold Rdiv. ring. Qed.
Lemma n_of a b c : a * 0 + b * 0 + c * 1 = c. Proof. ring. Qed.
Lemma x_of a b c : a * 1 + b * 0 + c * 0 = a. Proof. ring. Qed.
Lemma y_of a b c : a * 0 + b * 1 + c * 0 = b. Proof. ring. Qed.
Lemma n_of' a b c : 0 * a + 0 * b + 1 * c = c. Proof. ring. Qed.
Ltac start_ := unfold frame_vals, vec_vals; cbn [nth body_funs call_vecs seq map app]; run_.
Ltac half_ := rewrite hlen_lv; destruct (Req_EM_T H_ 0); [match goal with H : has_half x |- _ => destruct H; lra end|]; run_.

Lemma blinn_eval m : (forall y, (y < 3)%nat -> lobe_fine KBlinn x (fun l => m l y)) ->
  apply_fun (call_of s) (nth 0 (body_funs print KBlinn) g_beckmann_fun) (frame_vals x ++ vec_vals m 2) =
  let f y := lobe (shown PI) KBlinn x (fun l => m l y) in Some (VV (f 0%nat) (f 1%nat) (f 2%nat)).
Proof.
  intros Hf. pose proof (Hf 0%nat ltac:(lia)) as (Hh & A0). pose proof (Hf 1%nat ltac:(lia)) as (_ & A1). pose proof (Hf 2%nat ltac:(lia)) as (_ & A2).
  start_. half_. rewrite half_n. rewrite !vpow_max by assumption. run_. reflexivity.
Qed.
Lemma ward_eval m : (forall y, (y < 3)%nat -> lobe_fine KWard x (fun l => m l y)) ->
  apply_fun (call_of s) (nth 0 (body_funs print KWard) g_beckmann_fun) (frame_vals x ++ vec_vals m 3) =
  let f y := lobe (shown PI) KWard x (fun l => m l y) in Some (VV (f 0%nat) (f 1%nat) (f 2%nat)).
Proof using Hprint Hpi.
  intros Hf. pose proof (Hf 0%nat ltac:(lia)) as (Hh & A0 & B0). pose proof (Hf 1%nat ltac:(lia)) as (_ & A1 & B1). pose proof (Hf 2%nat ltac:(lia)) as (_ & A2 & B2).
  start_. half_. rewrite half_x, !vdiv_ok by assumption. run_. rewrite half_y, !vdiv_ok by assumption. run_. rewrite half_n, !n_of. reduce_.
  unfold lobe. destruct (Rlt_dec 0 (x 5%nat * x 2%nat)) as [Hp|Hp].
  - assert (E : rltb 0 (x 5%nat * x 2%nat) = true) by (apply rltb_spec; exact Hp). rewrite E. run_. rewrite !eval_num. run_.
    rewrite vsqrt_ok by lra. run_.
    assert (Hs : 0 < sqrt (x 5%nat * x 2%nat)) by (apply sqrt_lt_R0, Hp).
    assert (Hz : 0 < halfway x 2).
    { destruct Hh as (Hl & Hz). unfold halfway. apply Rmult_lt_0_compat; [|apply Rinv_0_lt_compat, Hl]. unfold hsum in *. cbn [Nat.add] in *.
      destruct (Rlt_dec 0 (x 5%nat)).
      - assert (0 < x 2%nat) by (apply (Rmult_lt_reg_l (x 5%nat)); lra). lra.
      - assert (0 <= - x 5%nat * x 2%nat) by (apply Rmult_le_pos; lra). lra. }
    cbv beta in A0, A1, A2, B0, B1, B2. rewrite !vdiv_ok; [|repeat match goal with |- _ * _ <> 0 => apply Rmult_integral_contrapositive_currified end; first [assumption|apply Rgt_not_eq; lra].. ]. run_.
    unfold ward_exp. rewrite !Ropp_div. reflexivity.
  - assert (E : rltb 0 (x 5%nat * x 2%nat) = false) by (apply Bool.not_true_is_false; intros E; apply rltb_spec in E; contradiction). rewrite E. run_. reflexivity.
Qed.
Lemma schlick_eval m : (forall y, (y < 3)%nat -> lobe_fine KSchlick x (fun l => m l y)) ->
  apply_fun (call_of s) (nth 0 (body_funs print KSchlick) g_beckmann_fun) (frame_vals x ++ vec_vals m 1) =
  let f y := lobe (shown PI) KSchlick x (fun l => m l y) in Some (VV (f 0%nat) (f 1%nat) (f 2%nat)).
Proof.
  intros Hf. pose proof (Hf 0%nat ltac:(lia)) as Hh. change (has_half x) in Hh. start_. half_. rewrite half_v. fold (clamp01 (cos_vh x)).
  rewrite vpow_5 by apply clamp01_range. run_. reflexivity.
Qed.
Lemma retro_schlick_eval m : (forall y, (y < 3)%nat -> lobe_fine KRetroSchlick x (fun l => m l y)) ->
  apply_fun (call_of s) (nth 0 (body_funs print KRetroSchlick) g_beckmann_fun) (frame_vals x ++ vec_vals m 1) =
  let f y := lobe (shown PI) KRetroSchlick x (fun l => m l y) in Some (VV (f 0%nat) (f 1%nat) (f 2%nat)).
Proof.
  intros Hf. pose proof (Hf 0%nat ltac:(lia)) as Hh. change (0 < back_len x) in Hh. start_. rewrite !n_of.
  match goal with |- context [sqrt ?e] => replace (sqrt e) with (back_len x) by (unfold back_len; f_equal; ring) end.
  destruct (Req_EM_T (back_len x) 0); [lra|]. run_.
  match goal with |- context [Rmax ?e 0] => replace e with (retro_cos x) by (unfold retro_cos, Rdiv; ring) end.
  fold (clamp01 (retro_cos x)). rewrite vpow_5 by apply clamp01_range. run_. reflexivity.
Qed.
Lemma gauss_eval t m : (forall y, (y < 3)%nat -> lobe_fine (KGauss t) x (fun l => m l y)) ->
  apply_fun (call_of s) (nth 0 (body_funs print (KGauss t)) g_beckmann_fun) (frame_vals x ++ vec_vals m 2) =
  let f y := lobe (shown PI) (KGauss t) x (fun l => m l y) in Some (VV (f 0%nat) (f 1%nat) (f 2%nat)).
Proof.
  intros Hf. pose proof (Hf 0%nat ltac:(lia)) as Hh. destruct t.
  - start_. rewrite !n_of. unfold lobe. match goal with |- context [exp (m 1%nat 0%nat * (?e - 1))] => replace e with (mirror_cos x) by (unfold mirror_cos; ring) end. reflexivity.
  - change (has_half x) in Hh. start_. half_. rewrite half_n. reflexivity.
  - change (0 < back_len x) in Hh. start_. rewrite !n_of'.
    match goal with |- context [sqrt ?e] => replace (sqrt e) with (back_len x) by (unfold back_len; f_equal; ring) end.
    destruct (Req_EM_T (back_len x) 0); [lra|]. run_. rewrite !n_of. unfold lobe.
    match goal with |- context [exp (m 1%nat 0%nat * (?e - 1))] => replace e with (back_cos x) by (unfold back_cos, Rdiv; ring) end. reflexivity.
  - start_. reflexivity.
Qed.
Ltac back_ := match goal with |- context [sqrt ?e] => replace (sqrt e) with (back_len x) by (unfold back_len; f_equal; ring) end;
  destruct (Req_EM_T (back_len x) 0); [lra|]; run_.
Lemma retroblinn_eval m : (forall y, (y < 3)%nat -> lobe_fine KRetroblinn x (fun l => m l y)) ->
  apply_fun (call_of s) (nth 0 (body_funs print KRetroblinn) g_beckmann_fun) (frame_vals x ++ vec_vals m 2) =
  let f y := lobe (shown PI) KRetroblinn x (fun l => m l y) in Some (VV (f 0%nat) (f 1%nat) (f 2%nat)).
Proof.
  intros Hf. pose proof (Hf 0%nat ltac:(lia)) as (Hh & A0). pose proof (Hf 1%nat ltac:(lia)) as (_ & A1). pose proof (Hf 2%nat ltac:(lia)) as (_ & A2).
  start_. rewrite !n_of'. back_. rewrite !n_of.
  repeat match goal with |- context [Rmax ?e 0] => lazymatch e with back_cos x => fail | _ => replace e with (back_cos x) by (unfold back_cos, Rdiv; ring) end end.
  rewrite !vpow_max by assumption. run_. reflexivity.
Qed.
Lemma abc_eval m : (forall y, (y < 3)%nat -> lobe_fine KAbc x (fun l => m l y)) ->
  apply_fun (call_of s) (nth 0 (body_funs print KAbc) g_beckmann_fun) (frame_vals x ++ vec_vals m 3) =
  let f y := lobe (shown PI) KAbc x (fun l => m l y) in Some (VV (f 0%nat) (f 1%nat) (f 2%nat)).
Proof.
  intros Hf. pose proof (Hf 0%nat ltac:(lia)) as (Hh & A0). pose proof (Hf 1%nat ltac:(lia)) as (_ & A1). pose proof (Hf 2%nat ltac:(lia)) as (_ & A2).
  start_. half_. rewrite half_n. run_. rewrite !vpow_pos by assumption. run_. rewrite !vdiv_ok by (apply Rgt_not_eq; apply exp_pos). run_. reflexivity.
Qed.
Lemma norm_schlick_eval m : (forall y, (y < 3)%nat -> lobe_fine KNormSchlick x (fun l => m l y)) ->
  apply_fun (call_of s) (nth 0 (body_funs print KNormSchlick) g_beckmann_fun) (frame_vals x ++ vec_vals m 1) =
  let f y := lobe (shown PI) KNormSchlick x (fun l => m l y) in Some (VV (f 0%nat) (f 1%nat) (f 2%nat)).
Proof.
  intros Hf. pose proof (Hf 0%nat ltac:(lia)) as (Hh & A0). pose proof (Hf 1%nat ltac:(lia)) as (_ & A1). pose proof (Hf 2%nat ltac:(lia)) as (_ & A2).
  start_. half_. rewrite half_v. fold (clamp01 (cos_vh x)). rewrite !vdiv_ok by assumption. run_.
  rewrite vpow_5 by apply clamp01_range. run_. reflexivity.
Qed.
Lemma retrobeckmann_eval m : (forall y, (y < 3)%nat -> lobe_fine KRetrobeckmann x (fun l => m l y)) ->
  apply_fun (call_of s) (nth 0 (body_funs print KRetrobeckmann) g_beckmann_fun) (frame_vals x ++ vec_vals m 2) =
  let f y := lobe (shown PI) KRetrobeckmann x (fun l => m l y) in Some (VV (f 0%nat) (f 1%nat) (f 2%nat)).
Proof using Hprint Hpi.
  intros Hf. pose proof (Hf 0%nat ltac:(lia)) as (Hh & A0 & B0 & C0 & D0). pose proof (Hf 1%nat ltac:(lia)) as (_ & A1 & _). pose proof (Hf 2%nat ltac:(lia)) as (_ & A2 & _).
  cbv beta in A0, A1, A2. start_. rewrite !n_of. back_. rewrite !n_of. rewrite !eval_num. run_.
  replace ((x 5%nat + (2 * x 2%nat * 1 - x 2%nat)) / back_len x) with (back_cos x) by (unfold back_cos, Rdiv; ring).
  run_. rewrite !vdiv_ok; [|repeat match goal with |- _ * _ <> 0 => apply Rmult_integral_contrapositive_currified end; first [assumption|apply Rgt_not_eq; lra].. ]. run_.
  rewrite ?vdiv_ok; [|repeat match goal with |- _ * _ <> 0 => apply Rmult_integral_contrapositive_currified end; first [assumption|apply Rgt_not_eq; lra].. ]. run_. reflexivity.
Qed.
Lemma laf_eval n m : (forall y, (y < 3)%nat -> lobe_fine (KLafIso n) x (fun l => m l y)) ->
  apply_fun (call_of s) (nth 0 (body_funs print (KLafIso n)) g_beckmann_fun) (frame_vals x ++ vec_vals m 3) =
  let f y := lobe (shown PI) (KLafIso n) x (fun l => m l y) in Some (VV (f 0%nat) (f 1%nat) (f 2%nat)).
Proof.
  intros Hf. pose proof (Hf 0%nat ltac:(lia)) as A0. pose proof (Hf 1%nat ltac:(lia)) as A1. pose proof (Hf 2%nat ltac:(lia)) as A2. cbn [lobe_fine] in A0, A1, A2.
  start_. rewrite !n_of, !x_of, !y_of.
  repeat match goal with |- context [?a * (x 3%nat * x 0%nat + x 4%nat * x 1%nat) + ?c * x 5%nat * x 2%nat] => fold (lobe_dot3 x a c) end.
  rewrite !vpow_max by assumption. run_. reflexivity.
Qed.
End Leaves.

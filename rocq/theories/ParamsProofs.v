From Verif Require Import Base ParamsModel GeoSpec.

Lemma input_eqb_spec a b : reflect (a = b) (input_eqb a b).
Proof. destruct a, b; constructor; congruence. Qed.

Lemma output_eqb_spec a b : reflect (a = b) (output_eqb a b).
Proof. destruct a, b; constructor; congruence. Qed.

Definition unnamed (p : input) : bool :=
  match p with
  | RUSIN_TH_PH_TD | RUSIN_VH_VD | SCHLICK_TK_PK | ISOTROPIC_TV_TL | ISOTROPIC_TD_PD | UNKNOWN_INPUT => true
  | _ => false
  end.

Lemma named_iff p : named_input p <-> unnamed p = false.
Proof.
  split.
  - intros (n & d & H). simpl in H.
    repeat (destruct H as [H|H]; [inversion H; reflexivity|]). destruct H.
  - intros H; destruct p; try discriminate; unfold named_input, input_map;
      eexists _, _; simpl; tauto.
Qed.

Lemma parse_get_name_in p : parse_input (get_name_in p) = p <-> (named_input p \/ p = UNKNOWN_INPUT).
Proof.
  rewrite named_iff. destruct p; vm_compute; split; try tauto; try congruence;
    intros [H|H]; congruence.
Qed.

Lemma parse_input_sound txt p : parse_input txt = p -> p <> UNKNOWN_INPUT -> txt = get_name_in p.
Proof.
  unfold parse_input, input_map; cbn [parse_input_in].
  intros H Hn.
  repeat match type of H with
  | (if str_eqb txt ?n then _ else _) = _ =>
      destruct (str_eqb_spec txt n) as [->|?]; [subst p; reflexivity|]
  end.
  congruence.
Qed.

Lemma get_name_in_inj p q : named_input p -> named_input q -> get_name_in p = get_name_in q -> p = q.
Proof.
  intros Hp Hq E.
  rewrite <- (proj2 (parse_get_name_in p) (or_introl Hp)), <- (proj2 (parse_get_name_in q) (or_introl Hq)).
  congruence.
Qed.

Lemma parse_get_name_out p : parse_output (get_name_out p) = p.
Proof. destruct p; reflexivity. Qed.

Lemma parse_output_sound txt p : parse_output txt = p -> p <> UNKNOWN_OUTPUT -> txt = get_name_out p.
Proof.
  unfold parse_output; intros H Hn.
  repeat match type of H with
  | (if str_eqb txt ?n then _ else _) = _ =>
      destruct (str_eqb_spec txt n) as [->|?]; [subst p; reflexivity|]
  end.
  congruence.
Qed.

Lemma dimension_named p : (0 < dimension_in p)%Z <-> named_input p.
Proof. rewrite named_iff; destruct p; vm_compute; split; congruence. Qed.

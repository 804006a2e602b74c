(** Lemmas on the command line programs. *)
From Coq Require Import List ZArith Reals Lia.
From Verif Require Import Base Num ArgsModel ArgsProofs ParamsModel GeoModel DataModel MetricsModel ConvModel ToolModel ToolSpec.

Lemma val_at a k : at_key a k = val a k.
Proof. reflexivity. Qed.
Lemma defined_given a k : is_defined a k = true <-> given a k.
Proof. unfold is_defined, given. destruct (map_find k a); split; eauto; try discriminate. intros [v H]. discriminate. Qed.
Lemma undefined_given a k : is_defined a k = false <-> ~ given a k.
Proof. rewrite <- defined_given. destruct (is_defined a k); intuition congruence. Qed.
Lemma put_same d n t : put d n t n = Some t.
Proof. unfold put. destruct (str_eqb_spec n n); congruence. Qed.
Lemma put_other d n t m : m <> n -> put d n t m = d m.
Proof. intros H. unfold put. destruct (str_eqb_spec m n); congruence. Qed.

Section Proofs.
Context {D F Ft : Type}.
Variable w : world D F Ft.

(** ** inversion of the sequencing *)
Definition dead {A B} (o : outcome A) : outcome B := match o with Ok _ => UB | Throw => Throw | Abort => Abort | UB => UB end.
Lemma andthen_call {A B} (o : outcome A) (k : A -> prog B) d : andthen (call o) k d = match o with Ok a => k a d | Throw => (d, Throw) | Abort => (d, Abort) | UB => (d, UB) end.
Proof. unfold andthen, call. destruct o; reflexivity. Qed.
Lemma andthen_load {B} file type args (k : _ -> prog B) d :
  andthen (load_data w file type args) k d =
  match d file with
  | None => k Failed d
  | Some content => match w_read_data w type content (update args (lit "filename") file) with Ok a => k a d | Throw => (d, Throw) | Abort => (d, Abort) | UB => (d, UB) end
  end.
Proof. unfold andthen, load_data. destruct (d file) as [c|]; [|reflexivity]. destruct (w_read_data _ _ _ _); reflexivity. Qed.
Lemma andthen_function {B} file (k : _ -> prog B) d :
  andthen (load_function w file) k d =
  match d file with
  | None => k None d
  | Some content => match w_read_function w content with Ok a => k a d | Throw => (d, Throw) | Abort => (d, Abort) | UB => (d, UB) end
  end.
Proof. unfold andthen, load_function. destruct (d file) as [c|]; [|reflexivity]. destruct (w_read_function _ _); reflexivity. Qed.
Lemma andthen_write {B} name t (k : unit -> prog B) d :
  andthen (write_file w name t) k d =
  match snd t with Ok a => k a (after_write w d name (fst t)) | Throw => (after_write w d name (fst t), Throw) | Abort => (after_write w d name (fst t), Abort) | UB => (after_write w d name (fst t), UB) end.
Proof. unfold andthen, write_file, after_write. destruct (snd t); reflexivity. Qed.

Lemma after_write_other d name text n : n <> name -> after_write w d name text n = d n.
Proof. intros H. unfold after_write. destruct (w_writable w name); [apply put_other; assumption|reflexivity]. Qed.

(** ** a program touches one file *)
Definition touches {A} (name : str) (m : prog A) : Prop := forall d n, n <> name -> fst (m d) n = d n.
Lemma touches_ret {A} name (a : A) : touches name (ret a).
Proof. intros d n _. reflexivity. Qed.
Lemma touches_call {A} name (o : outcome A) : touches name (call o).
Proof. intros d n _. reflexivity. Qed.
Lemma touches_andthen {A B} name (m : prog A) (k : A -> prog B) : touches name m -> (forall a, touches name (k a)) -> touches name (andthen m k).
Proof.
  intros Hm Hk d n Hn. unfold andthen. specialize (Hm d n Hn). destruct (m d) as [d' [a| | |]]; cbn [fst] in *; try exact Hm.
  rewrite (Hk a d' n Hn). exact Hm.
Qed.
Lemma touches_load name file type a : touches name (load_data w file type a).
Proof. intros d n _. reflexivity. Qed.
Lemma touches_function name file : touches name (load_function w file).
Proof. intros d n _. reflexivity. Qed.
Lemma touches_write name t : touches name (write_file w name t).
Proof. intros d n Hn. unfold write_file. cbn [fst]. destruct (w_writable w name); [apply put_other; assumption|reflexivity]. Qed.
Lemma touches_save name x : touches name (save_data w x name).
Proof. intros d n Hn. unfold save_data. destruct (_ && _); [reflexivity|]. apply touches_write. assumption. Qed.
Lemma touches_if {A} name (b : bool) (m m' : prog A) : touches name m -> touches name m' -> touches name (if b then m else m').
Proof. destruct b; auto. Qed.

Ltac touch := repeat first
  [ apply touches_ret | apply touches_call | apply touches_load | apply touches_function | apply touches_write | apply touches_save
  | apply touches_if
  | apply touches_andthen; [|intro]
  | match goal with |- touches _ (match ?x with _ => _ end) => destruct x end
  | match goal with |- touches _ (save_function _ _ _ _) => unfold save_function end ].

Lemma find_filename args (l2 linf : str) : map_ok args -> at_key (update (update args (lit "L2") l2) (lit "Linf") linf) (lit "output") = at_key args (lit "output").
Proof.
  intros H. unfold at_key. destruct (get_update args (lit "L2") l2 (lit "output") H) as (H1 & E1). destruct (get_update _ (lit "Linf") linf (lit "output") H1) as (_ & E2).
  unfold update in *. rewrite (map_find_update _ _ _ _ H1), (map_find_update _ _ _ _ H). reflexivity.
Qed.

Lemma ret_eq {A} (a : A) d : ret a d = (d, Ok a).
Proof. reflexivity. Qed.
Lemma call_eq {A} (o : outcome A) d : call o d = (d, o).
Proof. reflexivity. Qed.
Lemma andthen_ret {A B} (a : A) (k : A -> prog B) d : andthen (ret a) k d = k a d.
Proof. reflexivity. Qed.
Lemma andthen_assoc {A B C} (m : prog A) (k : A -> prog B) (l : B -> prog C) d : andthen (andthen m k) l d = andthen m (fun a => andthen (k a) l) d.
Proof. unfold andthen. destruct (m d) as [d' [a| | |]]; reflexivity. Qed.
Lemma andthen_save {B} x name (k : unit -> prog B) d :
  andthen (save_data w x name) k d = if w_save_throws w x && negb (w_writable w name) then (d, Throw) else andthen (write_file w name (w_data_text w x)) k d.
Proof. unfold andthen, save_data. destruct (_ && _); reflexivity. Qed.
Lemma andthen_catch {B} file type args (k : _ -> prog B) d :
  andthen (fun d => match load_data w file type args d with (d', Throw) => (d', Ok Failed) | r => r end) k d =
  match d file with
  | None => k Failed d
  | Some content => match w_read_data w type content (update args (lit "filename") file) with Ok a => k a d | Throw => k Failed d | Abort => (d, Abort) | UB => (d, UB) end
  end.
Proof. unfold andthen, load_data. destruct (d file) as [c|]; [|reflexivity]. destruct (w_read_data _ _ _ _); reflexivity. Qed.
Lemma andthen_stats {B} args text (k : bool -> prog B) d :
  andthen (write_stats w args text) k d =
  if negb (is_defined args (lit "output")) then k true d
  else if str_eqb (at_key args (lit "output")) [] then k true d
  else if w_writable w (at_key args (lit "output")) then k true (put d (at_key args (lit "output")) text) else k false d.
Proof.
  unfold write_stats. destruct (negb _); [reflexivity|]. destruct (str_eqb _ _); [reflexivity|]. destruct (w_writable _ _) eqn:E; [|reflexivity].
  rewrite andthen_assoc, andthen_write. cbn [snd fst]. unfold after_write. rewrite E. reflexivity.
Qed.
End Proofs.

Ltac step H := first
  [ rewrite andthen_ret in H | rewrite andthen_call in H | rewrite andthen_load in H | rewrite andthen_function in H | rewrite andthen_catch in H | rewrite andthen_stats in H
  | rewrite andthen_save in H | rewrite andthen_write in H | rewrite andthen_assoc in H
  | match type of H with
    | (if ?x then _ else _) _ = _ => destruct x eqn:?
    | (if ?x then _ else _) = _ => destruct x eqn:?
    | (match ?x with _ => _ end) _ = _ => destruct x eqn:?
    | (match ?x with _ => _ end) = _ => destruct x eqn:?
    | andthen (if ?x then _ else _) _ _ = _ => destruct x eqn:?
    end
  | rewrite ret_eq in H | rewrite call_eq in H ].
Ltac paths H := repeat (step H; cbn [snd fst] in H).

Section Disk.
Context {D F Ft : Type}.
Variable w : world D F Ft.
Lemma changed_write argv a d name text : options argv a -> is_defined a (lit "output") = true -> name = val a (lit "output") ->
  after_write w d name text = d \/ changed w argv d (after_write w d name text).
Proof.
  intros O G ->. unfold after_write. destruct (w_writable w (val a (lit "output"))) eqn:E; [|left; reflexivity]. right.
  exists a. split; [assumption|]. split; [apply defined_given; assumption|]. split; [assumption|]. split; [eexists; apply put_same|]. intros n Hn. apply put_other. assumption.
Qed.
Lemma changed_write2 argv a d name t1 t2 : options argv a -> is_defined a (lit "output") = true -> name = val a (lit "output") ->
  after_write w (after_write w d name t1) name t2 = d \/ changed w argv d (after_write w (after_write w d name t1) name t2).
Proof.
  intros O G ->. unfold after_write. destruct (w_writable w (val a (lit "output"))) eqn:E; [|left; reflexivity]. right.
  exists a. split; [assumption|]. split; [apply defined_given; assumption|]. split; [assumption|]. split; [eexists; apply put_same|]. intros n Hn. rewrite !put_other by assumption. reflexivity.
Qed.
Lemma changed_put argv a d name text : options argv a -> is_defined a (lit "output") = true -> name = val a (lit "output") -> w_writable w name = true ->
  put d name text = d \/ changed w argv d (put d name text).
Proof. intros O G E W. pose proof (changed_write argv a d name text O G E) as H. unfold after_write in H. rewrite W in H. exact H. Qed.
Lemma run_disk t argv d d' r : run w t argv d = (d', r) -> d' = d \/ changed w argv d d'.
Proof.
  intros H. destruct t; cbn [run] in H;
  unfold data2brdf, brdf2brdf, brdf2data, brdf2gnuplot, data2data, data2moments, fit2stat, data2stats, save_function in H.
  all: paths H.
  all: injection H as <- _.
  all: try (left; reflexivity).
  all: repeat match goal with K : negb _ = false |- _ => apply Bool.negb_false_iff in K end.
  all: first [ eapply changed_write2; [eassumption|assumption|reflexivity]
             | eapply changed_write; [eassumption|assumption|try reflexivity; apply find_filename; eapply argv_map_ok; eassumption]
             | eapply changed_put; [eassumption|assumption|reflexivity|assumption] ].
Qed.
Lemma run_status t argv d d' c : run w t argv d = (d', Ok c) -> c = 0%Z \/ c = 1%Z.
Proof.
  intros H. destruct t; cbn [run] in H;
  unfold data2brdf, brdf2brdf, brdf2data, brdf2gnuplot, data2data, data2moments, fit2stat, data2stats, save_function in H.
  all: paths H.
  all: injection H as _ K; try discriminate K; subst c; auto.
Qed.
Lemma run_failure t argv d d' : run w t argv d = (d', Ok 1%Z) -> d' = d \/
  t = Data2moments /\ exists a, options argv a /\ no_plugin w d (val a (lit "input")) (val a (lit "data")) a /\ w_writable w (val a (lit "output")) = true /\ d' = put d (val a (lit "output")) [].
Proof.
  intros H. destruct t; cbn [run] in H;
  unfold data2brdf, brdf2brdf, brdf2data, brdf2gnuplot, data2data, data2moments, fit2stat, data2stats, save_function in H.
  all: paths H.
  all: first [discriminate H | injection H as <-; left; reflexivity | idtac].
  injection H as <-. unfold after_write. rewrite val_at. destruct (w_writable w _) eqn:W; [|left; reflexivity]. right. split; [reflexivity|].
  eexists. split; [eassumption|]. split; [|split; [assumption|reflexivity]]. eexists. split; eassumption.
Qed.
End Disk.

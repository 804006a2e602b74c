(** Proofs for the shader export: the functions each plugin defines. *)
From Coq Require Import Reals List Lia Lra.
From Verif Require Import Base NlModel NlMoreModel Glsl GlslModel GlslSpec GlslLex GlslParse.
Open Scope R_scope.
Open Scope string_scope.

Definition lvnxy : list (ty * string) := [(TVec3, "L"); (TVec3, "V"); (TVec3, "N"); (TVec3, "X"); (TVec3, "Y")].
Definition decl (x : string) (e : expr) : stmt := SDecl TVec3 x (Some e).
Definition declf (x : string) (e : expr) : stmt := SDecl TFloat x (Some e).
Definition dot_ (a b : string) : expr := ECall "dot" [EVar a; EVar b].
Notation "a *' b" := (EBin BMul a b) (at level 40, left associativity).
Notation "a /' b" := (EBin BDiv a b) (at level 40, left associativity).
Notation "a +' b" := (EBin BAdd a b) (at level 50, left associativity).
Notation "a -' b" := (EBin BSub a b) (at level 50, left associativity).
Definition v_ := EVar.
Definition norm_ (e : expr) : expr := ECall "normalize" [e].
Definition n0 := ENum 0 0.
Definition f1 := ENum 10 (-1).
Definition pow_lobe : expr := ECall "pow" [ECall "max" [v_ "ext_dot"; ECall "vec3" [n0; n0; n0]]; v_ "Nl"].
Definition half_decl : stmt := decl "H" (norm_ (v_ "L" +' v_ "V")).
Definition ext_decl (a b : string) : stmt := decl "ext_dot" (ECall "vec3" [dot_ a b]).
Definition fun_ (name : string) (ps : list string) (body : list stmt) : fundef :=
  mkFun TVec3 name (lvnxy ++ map (fun x => (TVec3, x)) ps)%list body.
Definition back_decls : list stmt :=
  [decl "Vp" (ENum 20 (-1) *' v_ "N" *' dot_ "N" "V" -' v_ "V"); decl "K" (norm_ (v_ "L" +' v_ "Vp"))].
Definition gauss_fun (d : list stmt) : fundef :=
  fun_ "spherical_gaussian" ["ks"; "Nl"] (d ++ [SReturn (v_ "ks" *' ECall "exp" [v_ "Nl" *' (v_ "ext_dot" -' ECall "vec3" [ENum 1 0])])])%list.
Definition grazing_ (a b : string) (five : expr) : expr :=
  ECall "pow" [f1 -' ECall "clamp" [dot_ a b; ENum 0 (-1); f1]; five].
Definition comp_if (x : string) : stmt :=
  let c := EField (v_ "c") x in
  SIf (EBin BLt c (ENum 16 (-1)))
    [SAssign (EField (v_ "r") x) ((ENum 3535 (-3) *' c +' ENum 2181 (-3) *' c *' c) /' (ENum 1 0 +' ENum 2276 (-3) *' c +' ENum 2577 (-3) *' c *' c))]
    [SAssign (EField (v_ "r") x) f1].

Definition g_beckmann_fun : fundef :=
  mkFun TVec3 "g_beckmann" [(TVec3, "M"); (TVec3, "N"); (TVec3, "a")]
         [declf "d" (dot_ "M" "N"); decl "c" (v_ "d" /' (v_ "a" *' ECall "sqrt" [f1 -' v_ "d"])); SDecl TVec3 "r" None;
          comp_if "x"; comp_if "y"; comp_if "z"; SReturn (v_ "r")].

Section Num.
Variables (print : R -> string) (shown : R -> R).
Hypothesis Hprint : prints print shown.
Notation num := (num_ast print).

Definition body_funs (k : kind) : list fundef :=
  match k with
  | KBlinn => [fun_ "blinn" ["ks"; "Nl"] [half_decl; ext_decl "H" "N"; SReturn (v_ "ks" *' pow_lobe)]]
  | KRetroblinn => [fun_ "retroblinn" ["ks"; "Nl"] (back_decls ++ [ext_decl "K" "N"; SReturn pow_lobe])%list]
  | KAbc => [fun_ "abc" ["a"; "b"; "c"] [half_decl; declf "hn" (dot_ "H" "N");
      SReturn (v_ "a" /' ECall "pow" [ECall "vec3" [f1] +' v_ "b" *' v_ "hn"; v_ "c"])]]
  | KBeckmann =>
      [g_beckmann_fun;
       fun_ "beckmann" ["ks"; "a"] [half_decl; declf "hn" (dot_ "H" "N"); declf "ln" (dot_ "L" "N"); declf "vn" (dot_ "V" "N");
         SReturn (v_ "ks" /' (ENum 4 0 *' num PI *' v_ "a" *' v_ "a" *' v_ "ln" *' v_ "vn") *'
           ECall "exp" [(v_ "hn" *' v_ "hn" -' f1) /' (v_ "a" *' v_ "a" *' v_ "hn" *' v_ "hn")] *'
           ECall "g_beckmann" [v_ "L"; v_ "N"; v_ "a"] *' ECall "g_beckmann" [v_ "V"; v_ "N"; v_ "a"])]]
  | KRetrobeckmann => [fun_ "retrobeckmann" ["ks"; "a"]
      [decl "R" (ENum 2 0 *' dot_ "V" "N" *' v_ "N" -' v_ "V"); decl "B" (norm_ (v_ "L" +' v_ "R"));
       declf "bn" (dot_ "B" "N"); declf "ln" (dot_ "L" "N"); declf "vn" (dot_ "V" "N");
       SReturn (v_ "ks" /' (ENum 4 0 *' num PI *' v_ "a" *' v_ "a" *' v_ "ln" *' v_ "vn") *'
           ECall "exp" [(v_ "bn" *' v_ "bn" -' f1) /' (v_ "a" *' v_ "a" *' v_ "bn" *' v_ "bn")])]]
  | KWard => [fun_ "ward" ["ks"; "ax"; "ay"]
      [half_decl; decl "hax" (dot_ "H" "X" /' v_ "ax"); decl "hay" (dot_ "H" "Y" /' v_ "ay");
       declf "hn" (dot_ "H" "N"); declf "ln" (dot_ "L" "N"); declf "vn" (dot_ "V" "N");
       SIf (EBin BGt (v_ "ln" *' v_ "vn") n0)
         [SReturn (v_ "ks" /' (ENum 4 0 *' num PI *' v_ "ax" *' v_ "ay" *' ECall "sqrt" [v_ "ln" *' v_ "vn"]) *'
            ECall "exp" [ENeg (v_ "hax" *' v_ "hax" +' v_ "hay" *' v_ "hay") /' (v_ "hn" *' v_ "hn")])]
         [SReturn (ECall "vec3" [n0])]]]
  | KSchlick => [fun_ "schlick_fresnel" ["R"] [half_decl;
      SReturn (v_ "R" +' (ECall "vec3" [f1] -' v_ "R") *' grazing_ "H" "V" (ENum 5 0))]]
  | KNormSchlick => [fun_ "normalized_schlick_fresnel" ["R"] [half_decl;
      SReturn (ECall "vec3" [f1] +' (ECall "vec3" [f1] /' v_ "R" -' ECall "vec3" [f1]) *' grazing_ "H" "V" (ENum 5 0))]]
  | KRetroSchlick => [fun_ "retro_schlick_fresnel" ["R0"]
      [decl "R" (ENum 20 (-1) *' dot_ "V" "N" *' v_ "N" -' v_ "V"); decl "K" (norm_ (v_ "L" +' v_ "R"));
       SReturn (ECall "vec3" [v_ "R0" +' (ECall "vec3" [f1] -' v_ "R0") *' grazing_ "K" "R" (ENum 50 (-1))])]]
  | KGauss Half => [gauss_fun [half_decl; ext_decl "H" "N"]]
  | KGauss Back => [gauss_fun (back_decls ++ [ext_decl "K" "N"])%list]
  | KGauss Retro => [gauss_fun [ext_decl "L" "V"]]
  | KGauss Mirror => [gauss_fun [decl "R" (ENum 2 0 *' dot_ "V" "N" *' v_ "N" -' v_ "V"); ext_decl "L" "R"]]
  | KGaussMoment a => [gauss_fun
      [declf "t" (num a *' ECall "acos" [dot_ "V" "N"]); declf "p" (ECall "atan" [dot_ "V" "Y"; dot_ "V" "X"] +' num PI);
       decl "R" (ECall "cos" [v_ "p"] *' ECall "sin" [v_ "t"] *' v_ "X" +' ECall "sin" [v_ "p"] *' ECall "sin" [v_ "t"] *' v_ "Y" +' ECall "cos" [v_ "t"] *' v_ "N");
       ext_decl "L" "R"]]
  | KDiffuse => []
  | KLafIso _ => [fun_ "lafortune" ["Cx"; "Cz"; "Nl"]
      [decl "ext_dot" (v_ "Cx" *' (dot_ "L" "X" *' dot_ "V" "X" +' dot_ "L" "Y" *' dot_ "V" "Y") +' v_ "Cz" *' dot_ "L" "N" *' dot_ "V" "N");
       SReturn pow_lobe]]
  | KLaf _ => [fun_ "lafortune" ["Cx"; "Cy"; "Cz"; "Nl"]
      [decl "ext_dot" (v_ "Cx" *' dot_ "L" "X" *' dot_ "V" "X" +' v_ "Cy" *' dot_ "L" "Y" *' dot_ "V" "Y" +' v_ "Cz" *' dot_ "L" "N" *' dot_ "V" "N");
       SReturn pow_lobe]]
  | KMasking => [fun_ "masking_schlick" ["K"]
      [declf "dotLN" (dot_ "L" "N"); declf "dotVN" (dot_ "L" "N");
       decl "GL" (v_ "dotLN" /' (v_ "dotLN" +' v_ "K" *' (v_ "dotLN" -' f1))); decl "GV" (v_ "dotVN" /' (v_ "dotVN" +' v_ "K" *' (v_ "dotVN" -' f1)));
       SReturn (ECall "vec3" [v_ "GL" *' v_ "GV"])]]
  | KSmith | KWalter => []
  | KYoo => [fun_ "retroyoo" ["kr"; "lt"]
      [SReturn (v_ "ks" /' (ENum 4 0 *' num PI *' v_ "a" *' v_ "a" *' v_ "ln" *' v_ "vn") *'
         ECall "exp" [(v_ "bn" *' v_ "bn" -' f1) /' (v_ "a" *' v_ "a" *' v_ "bn" *' v_ "bn")] *' ECall "g_yoo" [v_ "L"; v_ "N"; v_ "a"] *' ECall "g_yoo" [v_ "V"; v_ "N"; v_ "a"])]]
  end.

Definition reads (text : string) (funs : list fundef) : Prop :=
  forall fs, feeds text (mkP fs [] MTop) (mkP (rev funs ++ fs)%list [] MTop).
Lemma reads_app a b u v : reads a u -> reads b v -> reads (a ++ b) (u ++ v)%list.
Proof. intros A B fs. rewrite rev_app_distr, <- app_assoc. eapply feeds_app; [apply A|apply B]. Qed.
Lemma reads_endl : reads endl [].
Proof. intros fs. apply feeds_const; [intros ts; reflexivity|reflexivity]. Qed.
Lemma reads_const s u : (forall ts, lex_from (ts, CNone) s = Some ((rev (toks_of s) ++ ts)%list, CNone)) ->
  (forall fs, steps (mkP fs [] MTop) (toks_of s) = Some (mkP (rev u ++ fs)%list [] MTop)) -> reads s u.
Proof. intros A B fs. apply feeds_const; [exact A|apply B]. Qed.

(** a text with one printed number in an expression *)
Lemma reads_one pre r ch post p ts fs0 b fr c (u : expr -> list fundef) :
  lexes pre (toks_of pre) -> ends ch -> lexes (String ch post) (P p :: ts) -> closing p = true ->
  (forall fs, steps (mkP fs [] MTop) (toks_of pre) = Some (mkP (fs0 ++ fs)%list b (MExpect fr c))) ->
  (forall e fs, steps (mkP (fs0 ++ fs)%list b (MHave e fr c)) (P p :: ts) = Some (mkP (rev (u e) ++ fs)%list [] MTop)) ->
  reads (pre ++ print r ++ String ch post) (u (num r)).
Proof.
  intros A B C D E F fs. eapply feeds_app; [apply feeds_const; [exact A|apply E]|]. eapply (feeds_num print shown Hprint); [exact B|exact C|exact D|apply F].
Qed.
Lemma reads_two pre r1 ch1 mid r2 ch2 post p1 ts1 p2 ts2 b fr c (u : expr -> expr -> list fundef) :
  lexes pre (toks_of pre) -> ends ch1 -> lexes (String ch1 mid) (P p1 :: ts1) -> closing p1 = true ->
  ends ch2 -> lexes (String ch2 post) (P p2 :: ts2) -> closing p2 = true ->
  (forall fs, steps (mkP fs [] MTop) (toks_of pre) = Some (mkP fs b (MExpect fr c))) ->
  (forall e1 e2 fs, exists b' fr' c', steps (mkP fs b (MHave e1 fr c)) (P p1 :: ts1) = Some (mkP fs b' (MExpect fr' c')) /\
     steps (mkP fs b' (MHave e2 fr' c')) (P p2 :: ts2) = Some (mkP (rev (u e1 e2) ++ fs)%list [] MTop)) ->
  reads (pre ++ (print r1 ++ String ch1 mid) ++ (print r2 ++ String ch2 post)) (u (num r1) (num r2)).
Proof.
  intros A B C D B' C' D' E F fs. eapply feeds_app; [apply feeds_const; [exact A|apply E]|].
  destruct (F (num r1) (num r2) fs) as (b' & fr' & c' & F1 & F2).
  eapply feeds_app; [eapply (feeds_num print shown Hprint); [exact B|exact C|exact D|exact F1]|].
  eapply (feeds_num print shown Hprint); [exact B'|exact C'|exact D'|exact F2].
Qed.
(** the text of a body around its printed numbers *)
Definition marked (k : kind) : string := match leaf_body (fun _ => "@") k with Ok s => s | _ => "" end.
Fixpoint before (s : string) : string := match s with String "@" _ => "" | String c t => String c (before t) | "" => "" end.
Fixpoint after (s : string) : string := match s with String "@" t => t | String _ t => after t | "" => "" end.

Ltac const_body := apply reads_const; [intros ts; vm_compute; reflexivity|intros fs; vm_compute; reflexivity].
Ltac printed_body k fs0 :=
  cbn [body_funs]; pattern (num PI);
  match goal with |- (fun e => reads ?t (@?u e)) _ =>
    let pre := eval vm_compute in (before (marked k)) in
    match eval vm_compute in (after (marked k)) with
    | String ?ch ?post =>
      let E := fresh in
      assert (E : t = pre ++ print PI ++ String ch post) by (unfold head, line; repeat rewrite app_assoc_s; reflexivity);
      change (reads t (u (num PI))); rewrite E; clear E;
      match eval vm_compute in (toks_of (String ch post)) with
      | P ?p :: ?ts => eapply (reads_one pre PI ch post p ts fs0 _ _ _ u)
      end
    end
  end;
  [intros ts; vm_compute; reflexivity|split; [intros []; reflexivity|reflexivity]|intros ts; vm_compute; reflexivity|reflexivity
  |intros fs; vm_compute; reflexivity|intros e fs; vm_compute; reflexivity].
Lemma moment_reads a text : leaf_body print (KGaussMoment a) = Ok text -> reads text (body_funs (KGaussMoment a)).
Proof.
  intros E. cbn [leaf_body] in E. apply Ok_inj in E. subst text. cbn [body_funs].
  pattern (num PI), (num a).
  match goal with |- (fun e2 e1 => reads ?t (@?u e2 e1)) _ _ =>
      let pre := eval vm_compute in (before (marked (KGaussMoment a))) in
      let r1 := eval vm_compute in (after (marked (KGaussMoment a))) in
      match eval vm_compute in (before r1) with String ?ch1 ?mid =>
      match eval vm_compute in (after r1) with String ?ch2 ?post =>
      assert (E : t = pre ++ (print a ++ String ch1 mid) ++ (print PI ++ String ch2 post)) by (unfold gauss_body, head, line; repeat rewrite app_assoc_s; reflexivity);
      change (reads t (u (num PI) (num a))); rewrite E; clear E;
      match eval vm_compute in (toks_of (String ch1 mid)) with P ?p1 :: ?ts1 =>
      match eval vm_compute in (toks_of (String ch2 post)) with P ?p2 :: ?ts2 =>
      eapply (reads_two pre a ch1 mid PI ch2 post p1 ts1 p2 ts2 _ _ _ (fun e1 e2 => u e2 e1)) end end end end
  end;
  [intros ts; vm_compute; reflexivity|split; [intros []; reflexivity|reflexivity]|intros ts; vm_compute; reflexivity|reflexivity
  |split; [intros []; reflexivity|reflexivity]|intros ts; vm_compute; reflexivity|reflexivity
  |intros fs; vm_compute; reflexivity|].
  intros e1 e2 fs. do 3 eexists. split; vm_compute; reflexivity.
Qed.
Lemma leaf_reads k text : sound k \/ k = KMasking \/ k = KYoo -> leaf_body print k = Ok text -> reads text (body_funs k).
Proof.
  intros Hk E. destruct k as [| | | | | | | | |[| | |] |a| |n|n| | | | ]; try (apply moment_reads, E); cbn [leaf_body] in E; try (apply Ok_inj in E; subst text).
  - const_body.
  - const_body.
  - const_body.
  - printed_body KBeckmann [g_beckmann_fun].
  - printed_body KRetrobeckmann (@nil fundef).
  - printed_body KWard (@nil fundef).
  - const_body.
  - const_body.
  - const_body.
  - const_body.
  - const_body.
  - const_body.
  - const_body.
  - const_body.
  - const_body.
  - const_body.
  - const_body.
  - discriminate.
  - destruct Hk as [[]|[|]]; discriminate.
  - printed_body KYoo (@nil fundef).
Qed.
End Num.

(** The C++ of the exporter: the reader the text is meant for, part of the
    specification and not code of the repository.  Statements and expressions
    have the grammar of Glsl.v with other type names; the frame of the file is
    matched literally.  [double] values are real numbers; what C++ leaves undefined
    (an uninitialised entry, an index out of range) and infinities or NaN are
    [None]. *)
From Coq Require Import Reals List.
From Verif Require Import Base TextModel Glsl.
Open Scope R_scope.
Open Scope string_scope.

(** ** Syntax *)
(** type names of C++ and not of GLSL, and conversely *)
Definition cpp_tok (t : tok) : tok :=
  match t with
  | Id x => if String.eqb x "double" then Id "float" else if String.eqb x "vec" then Id "vec3" else
            if String.eqb x "vec3" then Id "vec3 (not declared)" else t
  | _ => t end.
(** the text after [p] *)
Fixpoint after (p s : string) : option string :=
  match p, s with
  | EmptyString, _ => Some s
  | String a p', String b s' => if Ascii.eqb a b then after p' s' else None
  | _, _ => None end.
Fixpoint skip_blanks (s : string) : string :=
  match s with String c t => if is_space c then skip_blanks t else s | _ => s end.
Definition newline : string := String nl "".
Definition preamble : string :=
  "#include <Eigen/Core>" ++ newline ++ "typedef Eigen::VectorXd vec;" ++ newline ++ newline ++ "vec brdf(const vec& x)" ++ newline ++ "{" ++ newline.
(** The number of channels and the statements of
      vec brdf(const vec& x) { vec res(n); statements }
    when the text is such a file, [None] when it is not. *)
Definition cpp_body (text : string) : option (Z * list stmt) :=
  match after preamble (skip_blanks text) with
  | Some rest =>
      match tokens rest with
      | Some (Id v :: Id r :: P LPar :: Num n 0%Z :: P RPar :: P Semi :: ts) =>
          if String.eqb v "vec" && String.eqb r "res" then
            match steps (mkP [] [BFun TVec3 "brdf" [(TVec3, "x")] []] MStmt) (map cpp_tok ts) with
            | Some (mkP [f] [] MTop) => Some (n, fn_body f)
            | _ => None end
          else None
      | _ => None end
  | None => None end.

(** ** Names *)
(** the variables and functions an expression uses *)
Fixpoint uses (e : expr) : list string :=
  match e with
  | ENum _ _ => []
  | EVar x => [x]
  | ECall f args => f :: (fix all l := match l with [] => [] | a :: r => uses a ++ all r end)%list args
  | EBin _ a b => (uses a ++ uses b)%list
  | ENeg a => uses a
  | EField a _ => uses a
  | EIndex a i => (uses a ++ uses i)%list
  end.
Definition known (scope : list string) (e : expr) : bool := forallb (fun x => existsb (String.eqb x) scope) (uses e).
(** Every name is declared before it is used and declared once; [scope] are the
    names declared so far.  The statements inside an if are not looked at. *)
Fixpoint names_ok (scope : list string) (ss : list stmt) : bool :=
  match ss with
  | [] => true
  | s :: r =>
      match s with
      | SDecl _ x e => negb (existsb (String.eqb x) scope) && match e with Some e => known scope e | None => true end && names_ok (x :: scope) r
      | SAssign l e | SAdd l e => known scope l && known scope e && names_ok scope r
      | SExpr e | SReturn e | SIf e _ _ => known scope e && names_ok scope r
      | SEmpty => names_ok scope r
      end
  end.
(** The text has the syntax of C++ and its names are declared; nothing that fails
    this compiles. *)
Definition well_formed (text : string) : Prop :=
  exists n body, cpp_body text = Some (n, body) /\ names_ok ["brdf"; "x"; "res"; "pow"] body = true.

(** ** Meaning *)
(** std::pow *)
Definition cpp_pow (a b : R) : option R :=
  if Req_EM_T b (IZR (Int_part b)) then
    if (0 <=? Int_part b)%Z then Some (a ^ Z.to_nat (Int_part b))
    else if Req_EM_T a 0 then None else Some (powerRZ a (Int_part b))
  else if Rlt_dec 0 a then Some (Rpower a b) else None.
Definition lift2 (f : R -> R -> option R) (a b : option R) : option R :=
  match a, b with Some x, Some y => f x y | _, _ => None end.
Definition arith (o : bop) (a b : R) : option R :=
  match o with BAdd => Some (a + b) | BSub => Some (a - b) | BMul => Some (a * b) | BDiv => if Req_EM_T b 0 then None else Some (a / b) | _ => None end.
(** the variables of type double, the argument x and the vector res *)
Record cenv := mkEnv { doubles : list (string * R); arg : list R; result : list (option R) }.
Definition entry (l : list (option R)) (i : Z) : option R :=
  if (i <? 0)%Z then None else match nth_error l (Z.to_nat i) with Some v => v | None => None end.
Fixpoint eval (g : cenv) (e : expr) : option R :=
  match e with
  | ENum m e => Some (literal m e)
  | EVar x => match find (fun v => String.eqb (fst v) x) (doubles g) with Some v => Some (snd v) | None => None end
  | ECall f [a; b] => if String.eqb f "pow" then lift2 cpp_pow (eval g a) (eval g b) else None
  | ECall _ _ => None
  | EBin o a b => lift2 (arith o) (eval g a) (eval g b)
  | ENeg a => option_map Ropp (eval g a)
  | EField _ _ => None
  | EIndex (EVar v) (ENum i 0%Z) =>
      if String.eqb v "x" then entry (map Some (arg g)) i else if String.eqb v "res" then entry (result g) i else None
  | EIndex _ _ => None
  end.
Fixpoint put (l : list (option R)) (i : nat) (v : R) : option (list (option R)) :=
  match l, i with
  | _ :: t, O => Some (Some v :: t)
  | a :: t, S j => match put t j v with Some t' => Some (a :: t') | None => None end
  | [], _ => None end.
Fixpoint exec (g : cenv) (ss : list stmt) : option (list (option R)) :=
  match ss with
  | SDecl TFloat x (Some e) :: r => match eval g e with Some v => exec (mkEnv ((x, v) :: doubles g) (arg g) (result g)) r | None => None end
  | SAssign (EIndex (EVar v) (ENum i 0%Z)) e :: r =>
      if String.eqb v "res" && (0 <=? i)%Z then
        match eval g e with
        | Some a => match put (result g) (Z.to_nat i) a with Some l => exec (mkEnv (doubles g) (arg g) l) r | None => None end
        | None => None end
      else None
  | SEmpty :: r => exec g r
  | SReturn (EVar v) :: _ => if String.eqb v "res" then Some (result g) else None
  | _ => None
  end.
(** The vector brdf(x) of a text: [None] for a text that is no such program or
    does not run, entries that were never written are [None]. *)
Definition brdf (text : string) (x : list R) : option (list (option R)) :=
  match cpp_body text with
  | Some (n, body) => if (n <? 0)%Z then None else exec (mkEnv [] x (repeat None (Z.to_nat n))) body
  | None => None end.

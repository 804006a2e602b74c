(** The part of the GLSL shading language the exporters of ALTA use: characters
    to tokens, tokens to syntax trees, static checks, evaluation.  This is not
    code of the repository but the reader the exported text is meant for
    (OpenGL Shading Language 1.20 and later); it is part of the specification.

    Simplifications: integer literals are floats (the language converts them
    where ALTA writes them), the bodies of if statements are blocks, floats are
    real numbers.  Results the language leaves undefined (division by zero, a
    power of a negative number, ...) are [None]. *)
From Coq Require Import Reals List.
From Verif Require Import Base TextModel.
Open Scope R_scope.
Open Scope string_scope.

(** ** Tokens *)
Inductive punct := LPar | RPar | LBrace | RBrace | LBrack | RBrack | Semi | Comma | Dot | Eq | PlusEq
  | Plus | Minus | Star | Slash | Lt | Le | Gt | Ge.
(** [Num m e]: the literal m * 10^e *)
Inductive tok := Id (x : string) | Num (m e : Z) | P (p : punct).

(** the number being read: digits, digits after the point, after "e", its sign,
    its digits, after the suffix f *)
Inductive numst :=
| NInt (m : Z) | NFrac (m k : Z) | NExp (m k : Z) | NExpS (m k : Z) (neg : bool) | NExpD (m k : Z) (neg : bool) (e : Z) | NEnd (m e : Z).
Inductive cur := CNone | CId (x : string) | CNum (n : numst) | COp (p : punct).

Definition digit (c : ascii) : option Z :=
  let n := nat_of_ascii c in if ((48 <=? n) && (n <=? 57))%nat then Some (Z.of_nat (n - 48)) else None.
Definition letter (c : ascii) : bool :=
  let n := nat_of_ascii c in ((65 <=? n) && (n <=? 90) || (97 <=? n) && (n <=? 122) || (n =? 95))%nat.
Definition single (c : ascii) : option punct :=
  match nat_of_ascii c with
  | 40 => Some LPar | 41 => Some RPar | 123 => Some LBrace | 125 => Some RBrace | 91 => Some LBrack | 93 => Some RBrack
  | 59 => Some Semi | 44 => Some Comma | 46 => Some Dot | 61 => Some Eq | 43 => Some Plus | 45 => Some Minus
  | 42 => Some Star | 47 => Some Slash | 60 => Some Lt | 62 => Some Gt | _ => None end%nat.
(** may be followed by "=" *)
Definition extends (p : punct) : option punct :=
  match p with Plus => Some PlusEq | Lt => Some Le | Gt => Some Ge | _ => None end.
Definition num_end (n : numst) : option tok :=
  match n with
  | NInt m => Some (Num m 0) | NFrac m k => Some (Num m (- k))
  | NExpD m k neg e => Some (Num m ((if neg then - e else e) - k))%Z | NEnd m e => Some (Num m e)
  | _ => None end.
(** the next character of a number *)
Definition num_next (n : numst) (c : ascii) : option numst :=
  match digit c, n with
  | Some d, NInt m => Some (NInt (10 * m + d))
  | Some d, NFrac m k => Some (NFrac (10 * m + d) (k + 1))
  | Some d, NExp m k => Some (NExpD m k false d)
  | Some d, NExpS m k g => Some (NExpD m k g d)
  | Some d, NExpD m k g e => Some (NExpD m k g (10 * e + d))
  | _, _ =>
    match nat_of_ascii c, n with
    | 46, NInt m => Some (NFrac m 0)
    | 101, NInt m => Some (NExp m 0) | 101, NFrac m k => Some (NExp m k)
    | 43, NExp m k => Some (NExpS m k false) | 45, NExp m k => Some (NExpS m k true)
    | 102, NFrac m k => Some (NEnd m (- k)) | 102, NExpD m k g e => Some (NEnd m ((if g then - e else e) - k))
    | _, _ => None end%nat
  end%Z.
(** a character at the start of a token *)
Definition lex_start (ts : list tok) (c : ascii) : option (list tok * cur) :=
  match digit c with
  | Some d => Some (ts, CNum (NInt d))
  | None =>
    if letter c then Some (ts, CId (String c ""))
    else if is_space c then Some (ts, CNone)
    else match single c with
         | Some p => match extends p with Some _ => Some (ts, COp p) | None => Some (P p :: ts, CNone) end
         | None => None end
  end.
(** one character; [ts] are the tokens read so far, the last one first *)
Definition lex_char (st : list tok * cur) (c : ascii) : option (list tok * cur) :=
  let ts := fst st in
  match snd st with
  | CNone => lex_start ts c
  | CId x => match digit c, letter c with
             | None, false => lex_start (Id x :: ts) c
             | _, _ => Some (ts, CId (x ++ String c "")) end
  | CNum n => match num_next n c with
              | Some n' => Some (ts, CNum n')
              | None => if letter c then None else match num_end n with Some t => lex_start (t :: ts) c | None => None end end
  | COp p => match nat_of_ascii c, extends p with
             | 61%nat, Some q => Some (P q :: ts, CNone)
             | _, _ => lex_start (P p :: ts) c end
  end.
Fixpoint lex_from (st : list tok * cur) (s : string) : option (list tok * cur) :=
  match s with
  | EmptyString => Some st
  | String c s' => match lex_char st c with Some st' => lex_from st' s' | None => None end
  end.
(** The tokens of a text; [None] if it has none. *)
Definition tokens (s : string) : option (list tok) :=
  match lex_from ([], CNone) (s ++ " ") with Some (ts, CNone) => Some (rev ts) | _ => None end.

(** ** Syntax *)
Inductive ty := TFloat | TVec3 | TBool.
Inductive bop := BAdd | BSub | BMul | BDiv | BLt | BLe | BGt | BGe.
Inductive expr :=
| ENum (m e : Z) | EVar (x : string) | ECall (f : string) (args : list expr)
| EBin (o : bop) (a b : expr) | ENeg (a : expr) | EField (a : expr) (x : string) | EIndex (a i : expr).
Inductive stmt :=
| SDecl (t : ty) (x : string) (e : option expr)
| SAssign (lhs e : expr) | SAdd (lhs e : expr) | SExpr (e : expr)
| SIf (c : expr) (th el : list stmt) | SReturn (e : expr) | SEmpty.
Record fundef := mkFun { fn_type : ty; fn_name : string; fn_params : list (ty * string); fn_body : list stmt }.

(** ** Parsing, token by token
    Open parts of an expression: a left operand and its operator, a sign, a
    parenthesis, a call with the arguments read, an index. *)
Inductive frame := FBin (o : bop) (a : expr) | FNeg | FPar | FCall (f : string) (args : list expr) | FIndex (a : expr).
(** what becomes of the expression *)
Inductive ctx := XInit (t : ty) (x : string) | XReturn | XStart | XAssign (lhs : expr) | XAdd (lhs : expr) | XIf.
(** open blocks with the statements read, last first *)
Inductive block :=
| BFun (t : ty) (f : string) (ps : list (ty * string)) (ss : list stmt)
| BThen (c : expr) (ss : list stmt) | BElse (c : expr) (th : list stmt) (ss : list stmt).
Inductive mode :=
| MTop | MTopType (t : ty) | MTopName (t : ty) (f : string)
| MParam (t : ty) (f : string) (ps : list (ty * string))
| MParamType (t : ty) (f : string) (ps : list (ty * string)) (pt : ty)
| MParamName (t : ty) (f : string) (ps : list (ty * string))
| MBody (t : ty) (f : string) (ps : list (ty * string))
| MStmt | MConst | MDecl (t : ty) | MDeclName (t : ty) (x : string)
| MExpect (fr : list frame) (c : ctx) | MHave (e : expr) (fr : list frame) (c : ctx) | MDot (e : expr) (fr : list frame) (c : ctx)
| MIf | MThen (c : expr) | MAfter (c : expr) (th : list stmt) | MElse (c : expr) (th : list stmt).
(** functions read (last first), open blocks, what is expected *)
Record pst := mkP { p_funs : list fundef; p_blocks : list block; p_mode : mode }.

Definition type_of_name (x : string) : option ty :=
  if String.eqb x "float" then Some TFloat else if String.eqb x "vec3" then Some TVec3 else if String.eqb x "bool" then Some TBool else None.
Definition keyword (x : string) : bool :=
  String.eqb x "float" || String.eqb x "bool" || String.eqb x "return" || String.eqb x "if" || String.eqb x "else" || String.eqb x "const".
Definition prec (o : bop) : nat := match o with BMul | BDiv => 3 | BAdd | BSub => 2 | _ => 1 end.
Definition op_of (p : punct) : option bop :=
  match p with Plus => Some BAdd | Minus => Some BSub | Star => Some BMul | Slash => Some BDiv
             | Lt => Some BLt | Le => Some BLe | Gt => Some BGt | Ge => Some BGe | _ => None end.
(** close the operators that bind at least as tightly as [k] *)
Fixpoint reduce (k : nat) (e : expr) (fr : list frame) : expr * list frame :=
  match fr with
  | FBin o a :: t => if (k <=? prec o)%nat then reduce k (EBin o a e) t else (e, fr)
  | FNeg :: t => reduce k (ENeg e) t
  | _ => (e, fr)
  end.
Definition add_stmt (s : stmt) (b : list block) : option (list block) :=
  match b with
  | BFun t f ps ss :: r => Some (BFun t f ps (s :: ss) :: r)
  | BThen c ss :: r => Some (BThen c (s :: ss) :: r)
  | BElse c th ss :: r => Some (BElse c th (s :: ss) :: r)
  | [] => None end.
Definition push_stmt (s : stmt) (fs : list fundef) (b : list block) : option pst :=
  match add_stmt s b with Some b' => Some (mkP fs b' MStmt) | None => None end.
Definition close_block (fs : list fundef) (b : list block) : option pst :=
  match b with
  | BFun t f ps ss :: r => match r with [] => Some (mkP (mkFun t f ps (rev ss) :: fs) [] MTop) | _ => None end
  | BThen c ss :: r => Some (mkP fs r (MAfter c (rev ss)))
  | BElse c th ss :: r => push_stmt (SIf c th (rev ss)) fs r
  | [] => None end.
Definition stmt_step (fs : list fundef) (b : list block) (t : tok) : option pst :=
  match t with
  | Id x =>
      if String.eqb x "return" then Some (mkP fs b (MExpect [] XReturn))
      else if String.eqb x "if" then Some (mkP fs b MIf)
      else if String.eqb x "const" then Some (mkP fs b MConst)
      else match type_of_name x with
           | Some ty => Some (mkP fs b (MDecl ty))
           | None => if keyword x then None else Some (mkP fs b (MHave (EVar x) [] XStart)) end
  | P Semi => push_stmt SEmpty fs b
  | P RBrace => close_block fs b
  | _ => None
  end.
Definition end_expr (e : expr) (c : ctx) (fs : list fundef) (b : list block) : option pst :=
  match c with
  | XInit t x => push_stmt (SDecl t x (Some e)) fs b
  | XReturn => push_stmt (SReturn e) fs b
  | XStart => push_stmt (SExpr e) fs b
  | XAssign l => push_stmt (SAssign l e) fs b
  | XAdd l => push_stmt (SAdd l e) fs b
  | XIf => None end.
(** a token after an operand *)
Definition have_step (fs : list fundef) (b : list block) (e : expr) (fr : list frame) (c : ctx) (p : punct) : option pst :=
  let go m := Some (mkP fs b m) in
  match p with
  | Dot => go (MDot e fr c)
  | LBrack => go (MExpect (FIndex e :: fr) c)
  | LPar => match e with EVar f => go (MExpect (FCall f [] :: fr) c) | _ => None end
  | RPar =>
      match reduce 0 e fr with
      | (e', FPar :: fr') => go (MHave e' fr' c)
      | (e', FCall f args :: fr') => go (MHave (ECall f (args ++ [e'])%list) fr' c)
      | (e', []) => match c with XIf => go (MThen e') | _ => None end
      | _ => None end
  | RBrack => match reduce 0 e fr with (e', FIndex a :: fr') => go (MHave (EIndex a e') fr' c) | _ => None end
  | Comma => match reduce 0 e fr with (e', FCall f args :: fr') => go (MExpect (FCall f (args ++ [e'])%list :: fr') c) | _ => None end
  | Semi => match reduce 0 e fr with (e', []) => end_expr e' c fs b | _ => None end
  | Eq => match fr, c with [], XStart => go (MExpect [] (XAssign e)) | _, _ => None end
  | PlusEq => match fr, c with [], XStart => go (MExpect [] (XAdd e)) | _, _ => None end
  | _ => match op_of p with
         | Some o => let '(e', fr') := reduce (prec o) e fr in go (MExpect (FBin o e' :: fr') c)
         | None => None end
  end.
Definition step (s : pst) (t : tok) : option pst :=
  let fs := p_funs s in let b := p_blocks s in let go m := Some (mkP fs b m) in
  match p_mode s, t with
  | MTop, Id x => match type_of_name x with Some ty => go (MTopType ty) | None => None end
  | MTopType ty, Id f => if keyword f then None else go (MTopName ty f)
  | MTopName ty f, P LPar => go (MParam ty f [])
  | MParam ty f ps, Id x => match type_of_name x with Some pt => go (MParamType ty f ps pt) | None => None end
  | MParamType ty f ps pt, Id x => if keyword x then None else go (MParamName ty f (ps ++ [(pt, x)])%list)
  | MParamName ty f ps, P Comma => go (MParam ty f ps)
  | MParamName ty f ps, P RPar => go (MBody ty f ps)
  | MBody ty f ps, P LBrace => Some (mkP fs (BFun ty f ps [] :: b) MStmt)
  | MStmt, _ => stmt_step fs b t
  | MConst, Id x => match type_of_name x with Some ty => go (MDecl ty) | None => None end
  | MDecl ty, Id x => if keyword x then None else go (MDeclName ty x)
  | MDeclName ty x, P Eq => go (MExpect [] (XInit ty x))
  | MDeclName ty x, P Semi => push_stmt (SDecl ty x None) fs b
  | MExpect fr c, Id x => if keyword x then None else go (MHave (EVar x) fr c)
  | MExpect fr c, Num m e => go (MHave (ENum m e) fr c)
  | MExpect fr c, P LPar => go (MExpect (FPar :: fr) c)
  | MExpect fr c, P Minus => go (MExpect (FNeg :: fr) c)
  | MHave e fr c, P p => have_step fs b e fr c p
  | MDot e fr c, Id x => go (MHave (EField e x) fr c)
  | MIf, P LPar => go (MExpect [] XIf)
  | MThen c, P LBrace => Some (mkP fs (BThen c [] :: b) MStmt)
  | MAfter c th, Id x => if String.eqb x "else" then go (MElse c th)
                         else match add_stmt (SIf c th []) b with Some b' => stmt_step fs b' t | None => None end
  | MAfter c th, _ => match add_stmt (SIf c th []) b with Some b' => stmt_step fs b' t | None => None end
  | MElse c th, P LBrace => Some (mkP fs (BElse c th [] :: b) MStmt)
  | _, _ => None
  end.
Fixpoint steps (s : pst) (ts : list tok) : option pst :=
  match ts with [] => Some s | t :: r => match step s t with Some s' => steps s' r | None => None end end.
Definition parse (ts : list tok) : option (list fundef) :=
  match steps (mkP [] [] MTop) ts with Some (mkP fs [] MTop) => Some (rev fs) | _ => None end.
(** The program a text denotes. *)
Definition program (text : string) : option (list fundef) :=
  match tokens text with Some ts => parse ts | None => None end.

(** ** Static checks *)
Definition ty_eqb (a b : ty) : bool := match a, b with TFloat, TFloat | TVec3, TVec3 | TBool, TBool => true | _, _ => false end.
Fixpoint tys_eqb (a b : list ty) : bool :=
  match a, b with [], [] => true | x :: a', y :: b' => ty_eqb x y && tys_eqb a' b' | _, _ => false end.
(** the built-in functions *)
Definition builtin_type (f : string) (a : list ty) : option ty :=
  match f, a with
  | "dot", [TVec3; TVec3] => Some TFloat
  | "normalize", [TVec3] => Some TVec3
  | "vec3", [TFloat] | "vec3", [TVec3] | "vec3", [TFloat; TFloat; TFloat] => Some TVec3
  | "exp", [t] | "sqrt", [t] | "sin", [t] | "cos", [t] | "tan", [t] | "acos", [t] => if ty_eqb t TBool then None else Some t
  | "max", [TFloat; TFloat] | "pow", [TFloat; TFloat] | "atan", [TFloat; TFloat] | "step", [TFloat; TFloat] => Some TFloat
  | "max", [TVec3; TVec3] | "pow", [TVec3; TVec3] => Some TVec3
  | "clamp", [TFloat; TFloat; TFloat] => Some TFloat
  | _, _ => None
  end.
Definition signature := (string * list ty * ty)%type.
Definition call_type (sg : list signature) (f : string) (a : list ty) : option ty :=
  match builtin_type f a with
  | Some t => Some t
  | None => match find (fun s => String.eqb (fst (fst s)) f && tys_eqb (snd (fst s)) a) sg with Some s => Some (snd s) | None => None end
  end.
Definition var_type (g : list (string * ty)) (x : string) : option ty :=
  match find (fun v => String.eqb (fst v) x) g with Some v => Some (snd v) | None => None end.
Definition bop_type (o : bop) (a b : ty) : option ty :=
  match o, a, b with
  | (BLt | BLe | BGt | BGe), TFloat, TFloat => Some TBool
  | (BLt | BLe | BGt | BGe), _, _ => None
  | _, TFloat, TFloat => Some TFloat
  | _, TBool, _ | _, _, TBool => None
  | _, _, _ => Some TVec3
  end.
Definition component_of (x : string) : option nat :=
  if String.eqb x "x" then Some 0%nat else if String.eqb x "y" then Some 1%nat else if String.eqb x "z" then Some 2%nat else None.
Definition index_of (e : expr) : option nat :=
  match e with ENum m 0%Z => if ((0 <=? m) && (m <=? 2))%Z then Some (Z.to_nat m) else None | _ => None end.
Section Types.
Variable sg : list signature.
Variable g : list (string * ty).
Fixpoint type_expr (e : expr) : option ty :=
  match e with
  | ENum _ _ => Some TFloat
  | EVar x => var_type g x
  | ECall f args =>
      match (fix all l := match l with [] => Some [] | a :: r =>
               match type_expr a, all r with Some t, Some ts => Some (t :: ts) | _, _ => None end end) args with
      | Some ts => call_type sg f ts | None => None end
  | EBin o a b => match type_expr a, type_expr b with Some s, Some t => bop_type o s t | _, _ => None end
  | ENeg a => match type_expr a with Some TBool => None | t => t end
  | EField a x => match type_expr a, component_of x with Some TVec3, Some _ => Some TFloat | _, _ => None end
  | EIndex a i => match type_expr a, index_of i with Some TVec3, Some _ => Some TFloat | _, _ => None end
  end.
End Types.
Definition has_type (sg : list signature) (g : list (string * ty)) (e : expr) (t : ty) : bool :=
  match type_expr sg g e with Some s => ty_eqb s t | None => false end.
Definition lvalue (e : expr) : bool :=
  match e with EVar _ | EField (EVar _) _ | EIndex (EVar _) _ => true | _ => false end.
Section Check.
Variable sg : list signature.
Variable ret : ty.
(** [g]: the variables declared so far, [k] of them in the current scope; the
    result is the variables after the statement and how many of the scope *)
Definition declared (g : list (string * ty)) (k : nat) (x : string) : bool := existsb (fun v => String.eqb (fst v) x) (firstn k g).
Fixpoint check_stmt (s : stmt) (g : list (string * ty)) (k : nat) : option (list (string * ty) * nat) :=
  let block := fix block (l : list stmt) g k := match l with [] => true | s :: r =>
     match check_stmt s g k with Some (g', k') => block r g' k' | None => false end end in
  match s with
  | SDecl t x e => if declared g k x then None else
      match e with
      | Some e => if has_type sg g e t then Some ((x, t) :: g, S k) else None
      | None => Some ((x, t) :: g, S k) end
  | SAssign l e | SAdd l e => match type_expr sg g l with Some t => if lvalue l && has_type sg g e t then Some (g, k) else None | None => None end
  | SExpr e => match type_expr sg g e with Some _ => Some (g, k) | None => None end
  | SIf c th el => if has_type sg g c TBool && block th g 0%nat && block el g 0%nat then Some (g, k) else None
  | SReturn e => if has_type sg g e ret then Some (g, k) else None
  | SEmpty => Some (g, k)
  end.
Fixpoint check_block (l : list stmt) (g : list (string * ty)) (k : nat) : bool :=
  match l with [] => true | s :: r => match check_stmt s g k with Some (g', k') => check_block r g' k' | None => false end end.
End Check.
Definition sig_of (f : fundef) : signature := (fn_name f, map fst (fn_params f), fn_type f).
Definition param_vars (f : fundef) : list (string * ty) := rev (map (fun p => (snd p, fst p)) (fn_params f)).
(** a function may not have the name and parameter types of an earlier one *)
Definition same_sig (a b : signature) : bool := String.eqb (fst (fst a)) (fst (fst b)) && tys_eqb (snd (fst a)) (snd (fst b)).
Definition check_fun (sg : list signature) (f : fundef) : bool :=
  negb (existsb (same_sig (sig_of f)) sg) && check_block sg (fn_type f) (fn_body f) (param_vars f) (length (fn_params f)).
Fixpoint check_from (sg : list signature) (fs : list fundef) : bool :=
  match fs with [] => true | f :: r => check_fun sg f && check_from (sg ++ [sig_of f])%list r end.
(** The program is accepted: every name is declared before it is used, types
    agree, nothing is defined twice. *)
Definition compiles (fs : list fundef) : bool := check_from [] fs.

(** ** Evaluation *)
Inductive val := VF (r : R) | VV (a b c : R) | VB (b : bool).
Definition type_of (v : val) : ty := match v with VF _ => TFloat | VV _ _ _ => TVec3 | VB _ => TBool end.
Definition literal (m e : Z) : R := IZR m * powerRZ 10 e.
Definition vdiv (a b : R) : option R := if Req_EM_T b 0 then None else Some (a / b).
(** pow: undefined for a negative base, and for 0 to a non positive power *)
Definition vpow (a b : R) : option R :=
  if Rlt_dec 0 a then Some (Rpower a b) else if Req_EM_T a 0 then (if Rlt_dec 0 b then Some 0 else None) else None.
Definition vsqrt (a : R) : option R := if Rle_dec 0 a then Some (sqrt a) else None.
Definition vacos (a : R) : option R := if Rle_dec (-1) a then if Rle_dec a 1 then Some (acos a) else None else None.
Definition obind {A B} (o : option A) (f : A -> option B) : option B := match o with Some a => f a | None => None end.
(** component by component *)
Definition each1 (f : R -> option R) (v : val) : option val :=
  match v with
  | VF a => obind (f a) (fun x => Some (VF x))
  | VV a b c => obind (f a) (fun x => obind (f b) (fun y => obind (f c) (fun z => Some (VV x y z))))
  | VB _ => None end.
Definition each2 (f : R -> R -> option R) (u v : val) : option val :=
  match u, v with
  | VF a, VF b => obind (f a b) (fun x => Some (VF x))
  | VV a b c, VV d e g => obind (f a d) (fun x => obind (f b e) (fun y => obind (f c g) (fun z => Some (VV x y z))))
  | VF a, VV d e g => obind (f a d) (fun x => obind (f a e) (fun y => obind (f a g) (fun z => Some (VV x y z))))
  | VV a b c, VF d => obind (f a d) (fun x => obind (f b d) (fun y => obind (f c d) (fun z => Some (VV x y z))))
  | _, _ => None end.
Definition eval_bop (o : bop) (u v : val) : option val :=
  match o with
  | BAdd => each2 (fun a b => Some (a + b)) u v | BSub => each2 (fun a b => Some (a - b)) u v
  | BMul => each2 (fun a b => Some (a * b)) u v | BDiv => each2 vdiv u v
  | _ => match u, v with
         | VF a, VF b => Some (VB match o with BLt => rltb a b | BLe => rleb a b | BGt => rltb b a | _ => rleb b a end)
         | _, _ => None end
  end.
Definition builtin (f : string) (args : list val) : option val :=
  match f, args with
  | "dot", [VV a b c; VV d e g] => Some (VF (a * d + b * e + c * g))
  | "normalize", [VV a b c] => let n := sqrt (a * a + b * b + c * c) in
      if Req_EM_T n 0 then None else Some (VV (a / n) (b / n) (c / n))
  | "vec3", [VF a] => Some (VV a a a)
  | "vec3", [VV a b c] => Some (VV a b c)
  | "vec3", [VF a; VF b; VF c] => Some (VV a b c)
  | "exp", [v] => each1 (fun a => Some (exp a)) v
  | "sin", [v] => each1 (fun a => Some (sin a)) v
  | "cos", [v] => each1 (fun a => Some (cos a)) v
  | "tan", [v] => each1 (fun a => if Req_EM_T (cos a) 0 then None else Some (tan a)) v
  | "sqrt", [v] => each1 vsqrt v
  | "acos", [v] => each1 vacos v
  | "max", [u; v] => each2 (fun a b => Some (Rmax a b)) u v
  | "pow", [u; v] => each2 vpow u v
  | "atan", [VF y; VF x] => if Req_EM_T (y * y + x * x) 0 then None else Some (VF (GeoModel.atan2 y x))
  | "step", [VF edge; VF x] => Some (VF (if Rlt_dec x edge then 0 else 1))
  | "clamp", [VF x; VF lo; VF hi] => Some (VF (Rmin (Rmax x lo) hi))
  | _, _ => None
  end.
Definition venv := list (string * val).
Definition look (r : venv) (x : string) : option val :=
  match find (fun v => String.eqb (fst v) x) r with Some v => Some (snd v) | None => None end.
Fixpoint store (r : venv) (x : string) (v : val) : option venv :=
  match r with [] => None | (y, w) :: t => if String.eqb y x then Some ((y, v) :: t)
               else match store t x v with Some t' => Some ((y, w) :: t') | None => None end end.
Definition get_comp (v : val) (i : nat) : option val :=
  match v, i with VV a _ _, 0%nat => Some (VF a) | VV _ b _, 1%nat => Some (VF b) | VV _ _ c, 2%nat => Some (VF c) | _, _ => None end.
Definition set_comp (v : val) (i : nat) (w : val) : option val :=
  match v, w, i with
  | VV _ b c, VF x, 0%nat => Some (VV x b c) | VV a _ c, VF x, 1%nat => Some (VV a x c) | VV a b _, VF x, 2%nat => Some (VV a b x)
  | _, _, _ => None end.
Section Eval.
(** the functions defined so far and the built-in ones *)
Variable call : string -> list val -> option val.
Fixpoint eval (r : venv) (e : expr) : option val :=
  match e with
  | ENum m k => Some (VF (literal m k))
  | EVar x => look r x
  | ECall f args =>
      obind ((fix all l := match l with [] => Some [] | a :: t => obind (eval r a) (fun v => obind (all t) (fun vs => Some (v :: vs))) end) args)
            (call f)
  | EBin o a b => obind (eval r a) (fun u => obind (eval r b) (fun v => eval_bop o u v))
  | ENeg a => obind (eval r a) (fun v => each1 (fun x => Some (- x)) v)
  | EField a x => obind (eval r a) (fun v => obind (component_of x) (get_comp v))
  | EIndex a i => obind (eval r a) (fun v => obind (index_of i) (get_comp v))
  end.
Definition assign (r : venv) (l : expr) (v : val) : option venv :=
  match l with
  | EVar x => store r x v
  | EField (EVar x) c => obind (look r x) (fun w => obind (component_of c) (fun i => obind (set_comp w i v) (store r x)))
  | EIndex (EVar x) c => obind (look r x) (fun w => obind (index_of c) (fun i => obind (set_comp w i v) (store r x)))
  | _ => None end.
(** the initial value of a variable declared without one: not modelled, 0 *)
Definition unset (t : ty) : val := match t with TFloat => VF 0 | TVec3 => VV 0 0 0 | TBool => VB false end.
(** the variables after the statement, or the value returned *)
Fixpoint exec (s : stmt) (r : venv) : option (venv + val) :=
  let block := fix block (l : list stmt) r := match l with [] => Some (inl r) | s :: t =>
     obind (exec s r) (fun o => match o with inl r' => block t r' | inr v => Some (inr v) end) end in
  (* the variables of an inner block are forgotten at its end *)
  let scoped l := obind (block l r) (fun o => match o with inl r' => Some (inl (skipn (length r' - length r) r')) | inr v => Some (inr v) end) in
  match s with
  | SDecl t x (Some e) => obind (eval r e) (fun v => Some (inl ((x, v) :: r)))
  | SDecl t x None => Some (inl ((x, unset t) :: r))
  | SAssign l e => obind (eval r e) (fun v => obind (assign r l v) (fun r' => Some (inl r')))
  | SAdd l e => obind (eval r l) (fun u => obind (eval r e) (fun v => obind (eval_bop BAdd u v) (fun w => obind (assign r l w) (fun r' => Some (inl r')))))
  | SExpr e => obind (eval r e) (fun _ => Some (inl r))
  | SIf c th el => obind (eval r c) (fun v => match v with VB b => if b then scoped th else scoped el | _ => None end)
  | SReturn e => obind (eval r e) (fun v => Some (inr v))
  | SEmpty => Some (inl r)
  end.
Fixpoint exec_block (l : list stmt) (r : venv) : option (venv + val) :=
  match l with [] => Some (inl r) | s :: t => obind (exec s r) (fun o => match o with inl r' => exec_block t r' | inr v => Some (inr v) end) end.
(** a call: parameters are variables; a function must return *)
Definition apply_fun (f : fundef) (args : list val) : option val :=
  if tys_eqb (map fst (fn_params f)) (map type_of args) then
    obind (exec_block (fn_body f) (rev (combine (map snd (fn_params f)) args))) (fun o => match o with inr v => Some v | inl _ => None end)
  else None.
End Eval.
(** the functions of a program, each using the earlier ones only *)
Definition sem := list (signature * (list val -> option val)).
Definition call_of (s : sem) (f : string) (args : list val) : option val :=
  match builtin_type f (map type_of args) with
  | Some _ => builtin f args
  | None => match find (fun d => String.eqb (fst (fst (fst d))) f && tys_eqb (snd (fst (fst d))) (map type_of args)) s with
            | Some d => snd d args | None => None end
  end.
Fixpoint meaning (s : sem) (fs : list fundef) : sem :=
  match fs with [] => s | f :: r => meaning (s ++ [(sig_of f, apply_fun (call_of s) f)])%list r end.
(** The value of a call to a function of the program. *)
Definition run (fs : list fundef) (f : string) (args : list val) : option val := call_of (meaning [] fs) f args.

(** Model of the shader export: function::save with --export shader or explorer
    (sources/core/function.cpp) and the save_call and save_body members of the
    plugins.  Line ranges without a file are in function.cpp of the named plugin's
    directory under sources/plugins.  [print] is operator<< of a double to a
    stream with the default precision; M_PI is PI.  A function object has [nY] =
    dimY() output channels and is given by its parameter vector. *)
From Coq Require Import Reals List.
From Verif Require Import Base NlModel NlMoreModel Glsl.
Open Scope R_scope.
Open Scope string_scope.

(** The plugins with a shader export; the Gaussian has the extra type Moment
    with its factor a. *)
Inductive kind :=
| KBlinn | KRetroblinn | KAbc | KBeckmann | KRetrobeckmann | KWard | KSchlick | KNormSchlick | KRetroSchlick
| KGauss (t : sg_type) | KGaussMoment (a : R) | KDiffuse | KLafIso (n : nat) | KLaf (n : nat) | KMasking | KSmith | KWalter | KYoo.
(** A function object: a plugin, compound or product function.  Rational
    functions have no shader export: save_call is NOT_IMPLEMENTED for formats it
    does not know (sources/core/rational_function.cpp:145-170). *)
Inductive xfun :=
| XLeaf (k : kind) (p : list R)
| XRational
| XSum (fs : list xfun)
| XProd (f g : xfun).

Definition endl : string := String nl "".
Definition tb : string := String tab "".

Section Export.
Variable print : R -> string.
Variable nY : nat.

(** for(i<dimY) { out << v[i]; if(i < dimY-1) out << ", "; } *)
Fixpoint vec_text (v : list R) : string :=
  match v with [] => "" | [a] => print a | a :: t => print a ++ ", " ++ vec_text t end.
(** the member vector [l] of [k] interleaved ones *)
Definition member (k l : nat) (p : list R) : list R := map (fun i => nth (i * k + l) p 0) (seq 0 nY).
(** f(L, V, N, X, Y, vec3(...), ...) *)
Fixpoint vecs_text (vs : list (list R)) : string :=
  match vs with [] => ")" | v :: t => ", vec3(" ++ vec_text v ++ ")" ++ vecs_text t end.
Definition call_text (f : string) (vs : list (list R)) : string := f ++ "(L, V, N, X, Y" ++ vecs_text vs.
Definition members_of (k : nat) (p : list R) : list (list R) := map (fun l => member k l p) (seq 0 k).
(** the parameters of lobe n *)
Definition lobe_pars (k n : nat) (p : list R) : list R := firstn (k * nY) (skipn (n * (k * nY)) p).

(** save_call with an export format: blinn 204-222, retroblinn 190-208, abc
    254-276, beckmann 262-277, retrobeckmann 268-283, ward 240-262, fresnel_schlick
    89-98, normalized_schlick 86-95, retroschlick 173-182, spherical_gaussian
    334-349, diffuse 106-114, isotropic_lafortune 431-457, lafortune 455-490,
    shadowing_schlick 90-98, smith 91-99, walter_smith 107-119, retroyoo 201-216 *)
Definition lobes_text (k n : nat) (p : list R) : string :=
  String.concat " + " (map (fun i => call_text "lafortune" (members_of k (lobe_pars k i p))) (seq 0 n)).
Definition leaf_call (k : kind) (p : list R) : string :=
  match k with
  | KBlinn => call_text "blinn" (members_of 2 p)
  | KRetroblinn => call_text "retroblinn" (members_of 2 p)
  | KAbc => call_text "abc" (members_of 3 p)
  | KBeckmann => call_text "beckmann" (members_of 2 p)
  | KRetrobeckmann => call_text "retrobeckmann" (members_of 2 p)
  | KWard => call_text "ward" (members_of 3 p)
  | KSchlick => call_text "schlick_fresnel" (members_of 1 p)
  | KNormSchlick => call_text "normalized_schlick_fresnel" (members_of 1 p)
  | KRetroSchlick => call_text "retro_schlick_fresnel" (members_of 1 p)
  | KGauss _ | KGaussMoment _ => call_text "spherical_gaussian" (members_of 2 p)
  | KDiffuse => "vec3(" ++ vec_text (member 1 0 p) ++ ")"
  | KLafIso n => lobes_text 3 n p
  | KLaf n => lobes_text 4 n p
  | KMasking => "masking_schlick(L, V, N, X, Y, vec3" ++ vec_text (member 1 0 p) ++ "))"
  | KSmith => call_text "shadowing_smith" (members_of 1 p)
  | KWalter => "walter_smith(L, V, N, X, Y, vec3(" ++ vec_text (member 1 0 p) ++ ") ) "
  | KYoo => call_text "retroyoo" (members_of 2 p)
  end.

Definition head (f args : string) : string := "vec3 " ++ f ++ "(vec3 L, vec3 V, vec3 N, vec3 X, vec3 Y" ++ args ++ ")" ++ endl ++ "{" ++ endl.
Definition line (s : string) : string := tb ++ s ++ endl.
(** save_body: blinn 225-242, retroblinn 211-229, abc 281-296, beckmann 281-329,
    retrobeckmann 287-305, ward 267-292, fresnel_schlick 101-116,
    normalized_schlick 98-113, retroschlick 185-201, spherical_gaussian 353-397,
    isotropic_lafortune 461-474, lafortune 494-502, shadowing_schlick 102-122,
    smith 103-144 (assert(0)), walter_smith 125-177, retroyoo 219-230; diffuse has
    none. *)
Definition gauss_body (direction : string) : string :=
  head "spherical_gaussian" ", vec3 ks, vec3 Nl" ++ direction ++ line "return ks * exp(Nl * (ext_dot - vec3(1)));" ++ "}" ++ endl.
Definition component_text (x : string) : string :=
  line ("if(c." ++ x ++ " < 1.6f) {") ++
  line (tb ++ "r." ++ x ++ " = (3.535*c." ++ x ++ " + 2.181*c." ++ x ++ "*c." ++ x ++ ") / (1 + 2.276*c." ++ x ++ " + 2.577*c." ++ x ++ "*c." ++ x ++ ");") ++
  line "} else {" ++ line (tb ++ "r." ++ x ++ " = 1.0f;") ++ line "}".
Definition leaf_body (k : kind) : outcome string :=
  match k with
  | KBlinn => Ok (head "blinn" ", vec3 ks, vec3 Nl" ++ line "vec3 H = normalize(L + V);" ++ line "vec3 ext_dot = vec3(dot(H,N));" ++
      line "return ks * pow(max(ext_dot, vec3(0,0,0)), Nl);" ++ "}" ++ endl ++ endl)
  | KRetroblinn => Ok (head "retroblinn" ", vec3 ks, vec3 Nl" ++ line "vec3 Vp = 2.0f*N*(dot(N,V)) - V;" ++ line "vec3 K  = normalize(L + Vp);" ++
      line "vec3 ext_dot = vec3(dot(K,N));" ++ line "return pow(max(ext_dot, vec3(0,0,0)), Nl);" ++ "}" ++ endl ++ endl)
  | KAbc => Ok (head "abc" ", vec3 a, vec3 b, vec3 c" ++ line "vec3  H   = normalize(L + V);" ++ line "float hn  = dot(H,N);" ++ line "" ++
      line "return a / pow(vec3(1.0f) + b*hn, c);" ++ "}" ++ endl)
  | KBeckmann => Ok ("vec3 g_beckmann(vec3 M, vec3 N, vec3 a)" ++ endl ++ "{" ++ endl ++ line "float d = dot(M,N);" ++
      line "vec3 c = d / (a * sqrt(1.0f-d));" ++ line "vec3 r;" ++ component_text "x" ++ component_text "y" ++ component_text "z" ++
      line "return r;" ++ "}" ++ endl ++ endl ++
      head "beckmann" ", vec3 ks, vec3 a" ++ line "vec3  H   = normalize(L + V);" ++ line "float hn  = dot(H,N);" ++
      line "float ln  = dot(L,N);" ++ line "float vn  = dot(V,N);" ++ line "" ++
      line ("return ks / (4 * " ++ print PI ++ " * a*a * ln*vn) * exp((hn*hn - 1.0) / (a*a*hn*hn)) * g_beckmann(L,N,a) * g_beckmann(V,N,a);") ++ "}" ++ endl)
  | KRetrobeckmann => Ok (head "retrobeckmann" ", vec3 ks, vec3 a" ++ line "vec3  R   = 2*dot(V,N)*N - V;" ++ line "vec3  B   = normalize(L + R);" ++
      line "float bn  = dot(B,N);" ++ line "float ln  = dot(L,N);" ++ line "float vn  = dot(V,N);" ++ line "" ++
      line ("return ks / (4 * " ++ print PI ++ " * a*a * ln*vn) * exp((bn*bn - 1.0) / (a*a*bn*bn));") ++ "}" ++ endl)
  | KWard => Ok (head "ward" ", vec3 ks, vec3 ax, vec3 ay" ++ line "vec3  H   = normalize(L + V);" ++ line "vec3  hax = dot(H,X) / ax;" ++
      line "vec3  hay = dot(H,Y) / ay;" ++ line "float hn  = dot(H,N);" ++ line "float ln  = dot(L,N);" ++ line "float vn  = dot(V,N);" ++ line "" ++
      line "if(ln*vn > 0) {" ++
      line (tb ++ "return (ks / (4 * " ++ print PI ++ " * ax*ay * sqrt(ln*vn))) * exp(-(hax*hax + hay*hay)/(hn*hn));") ++
      line "} else {" ++ line (tb ++ " return vec3(0);") ++ line "}" ++ "}" ++ endl)
  | KSchlick => Ok (endl ++ head "schlick_fresnel" ", vec3 R" ++ line "vec3 H = normalize(L + V);" ++
      line "return R + (vec3(1.0) - R) * pow(1.0f - clamp(dot(H,V), 0.0f, 1.0f), 5);" ++ "}" ++ endl ++ endl)
  | KNormSchlick => Ok (endl ++ head "normalized_schlick_fresnel" ", vec3 R" ++ line "vec3 H = normalize(L + V);" ++
      line "return vec3(1.0f) + (vec3(1.0f)/R - vec3(1.0f)) * pow(1.0f - clamp(dot(H,V), 0.0f, 1.0f), 5);" ++ "}" ++ endl ++ endl)
  | KRetroSchlick => Ok (endl ++ head "retro_schlick_fresnel" ", vec3 R0" ++ line "vec3 R = 2.0f*dot(V,N)*N - V;" ++ line "vec3 K = normalize(L + R);" ++
      line "return vec3(R0 + (vec3(1.0f) - R0) * pow(1.0f - clamp(dot(K,R), 0.0f, 1.0f), 5.0f));" ++ "}" ++ endl ++ endl)
  | KGauss Half => Ok (gauss_body (line "vec3 H = normalize(L + V);" ++ line "vec3 ext_dot = vec3(dot(H,N));"))
  | KGauss Back => Ok (gauss_body (line "vec3 Vp = 2.0f*N*(dot(N,V)) - V;" ++ line "vec3 K  = normalize(L + Vp);" ++ line "vec3 ext_dot = vec3(dot(K,N));"))
  | KGauss Retro => Ok (gauss_body (line "vec3 ext_dot = vec3(dot(L,V));"))
  | KGauss Mirror => Ok (gauss_body (line "vec3 R = 2*dot(V,N)*N - V;" ++ line "vec3 ext_dot = vec3(dot(L,R));"))
  | KGaussMoment a => Ok (gauss_body (line ("float t = " ++ print a ++ "*acos(dot(V, N));") ++
      line ("float p = atan(dot(V, Y), dot(V, X)) + " ++ print PI ++ ";") ++
      line "vec3 R = cos(p)*sin(t)*X + sin(p)*sin(t)*Y + cos(t)*N;" ++ line "vec3 ext_dot = vec3(dot(L,R));"))
  | KDiffuse => Ok ""
  | KLafIso _ => Ok (head "lafortune" ", vec3 Cx, vec3 Cz, vec3 Nl" ++
      line "vec3 ext_dot = Cx * (dot(L,X)*dot(V,X) + dot(L,Y)*dot(V,Y)) + Cz * dot(L,N)*dot(V,N);" ++
      line "return pow(max(ext_dot, vec3(0,0,0)), Nl);" ++ "}" ++ endl ++ endl)
  | KLaf _ => Ok (head "lafortune" ", vec3 Cx, vec3 Cy, vec3 Cz, vec3 Nl" ++
      line "vec3 ext_dot = Cx * dot(L,X)*dot(V,X) + Cy * dot(L,Y)*dot(V,Y) + Cz * dot(L,N)*dot(V,N);" ++
      line "return pow(max(ext_dot, vec3(0,0,0)), Nl);" ++ "}" ++ endl ++ endl)
  | KMasking => Ok (endl ++ head "masking_schlick" ", vec3 K" ++ line "const float dotLN = dot(L, N);" ++ line "const float dotVN = dot(L, N);" ++ endl ++
      line "const vec3 GL = dotLN / (dotLN + K * (dotLN - 1.0));" ++ line "const vec3 GV = dotVN / (dotVN + K * (dotVN - 1.0));" ++ endl ++
      line "return vec3(GL*GV);" ++ "}" ++ endl ++ endl)
  | KSmith => Abort
  | KWalter => Ok ("float shadow_approx_rational(float a )" ++ endl ++ "{" ++ endl ++ line " if( a >= 1.6 ) " ++ line " {" ++
      line (tb ++ " return 1.0; ") ++ line " } else { " ++ line (tb ++ " ") ++ line (tb ++ " float num   = (3.535 + 2.181*a)*a;") ++
      line (tb ++ " float denom = (2.267 + 2.577*a)*a + 1.0;") ++ line (tb ++ " return num/denom;") ++ tb ++ " }" ++ "}" ++ endl ++ endl ++
      "vec3 walter_smith(vec3 L, vec3 V, vec3 N, vec3 X, vec3 Y, vec3 alpha )" ++ endl ++ "{" ++ endl ++
      line " vec3 H = normalize(L + V);" ++ line " float NdotL  = max( dot(N,L), 0.0 );" ++ line " float NdotV  = max( dot(N,V), 0.0 );" ++
      line " float VdotH = max( dot(V,H), 0.0 );" ++ line " float LdotH = max( dot(L,H), 0.0 );" ++
      line " float chi_v =  step( 0.0, VdotH / NdotV ) ; " ++ line " if( chi_v <= 0.0 ) { return vec3(0.0, 0.0, 0.0); }" ++
      line " float chi_l =  step( 0.0, LdotH / NdotL ) ; " ++ line " if( chi_l <= 0.0 ) { return vec3(0.0, 0.0, 0.0); }" ++ endl ++
      line " float tan_theta_v = tan( acos( NdotV ) ); " ++ endl ++ line " vec3 geom_term_view(0.0); " ++
      line " geom_term_view[0] = shadow_approx_rational( 1.0 / (alpha[0]*tan_theta_v)) ;" ++
      line " geom_term_view[1] = shadow_approx_rational( 1.0 / (alpha[1]*tan_theta_v)) ;" ++
      line " geom_term_view[2] = shadow_approx_rational( 1.0 / (alpha[2]*tan_theta_v)) ;" ++ endl ++
      line " float tan_theta_l = tan( acos( NdotL ) ); " ++ line " vec3 geom_term_light(0.0); " ++
      line " geom_term_light[0] = shadow_approx_rational( 1.0 / (alpha[0]*tan_theta_l)) ;" ++
      line " geom_term_light[1] = shadow_approx_rational( 1.0 / (alpha[1]*tan_theta_l)) ;" ++
      line " geom_term_light[2] = shadow_approx_rational( 1.0 / (alpha[2]*tan_theta_l)) ;" ++
      line " return geom_term_view * geom_term_light;" ++ "}" ++ endl)
  | KYoo => Ok (head "retroyoo" ", vec3 kr, vec3 lt" ++
      line ("return ks / (4 * " ++ print PI ++ " * a*a * ln*vn) * exp((bn*bn - 1.0) / (a*a*bn*bn)) * g_yoo(L,N,a) * g_yoo(V,N,a);") ++ "}" ++ endl)
  end.

(** compound_function::save_body and product_function::save_body,
    core/function.cpp:774-783 and 906-915 *)
Fixpoint save_body (f : xfun) : outcome string :=
  match f with
  | XLeaf k _ => leaf_body k
  | XRational => Ok ""
  | XSum fs => (fix all l := match l with [] => Ok "" | f :: t => do a <- save_body f; do b <- all t; Ok (a ++ endl ++ b) end) fs
  | XProd f g => do a <- save_body f; do b <- save_body g; Ok (a ++ endl ++ b ++ endl)
  end.
(** compound_function::save_call (core/function.cpp:785-813) and
    product_function::save_call (core/function.cpp:917-949) *)
Fixpoint save_call (f : xfun) : outcome string :=
  match f with
  | XLeaf k p => Ok (leaf_call k p)
  | XRational => Abort
  | XSum fs => (fix all (first : bool) l := match l with [] => Ok "" | f :: t =>
      do a <- save_call f; do b <- all false t; Ok ((if first then "" else tb ++ "res += ") ++ a ++ ";" ++ endl ++ b) end) true fs
  | XProd f g => do a <- save_call f; do b <- save_call g; Ok ("(" ++ a ++ " * " ++ b ++ ")" ++ endl)
  end.
(** core/function.cpp:50-130 save with --export shader.  save_header (131-147) writes
    nothing when an export format is given. *)
Definition save_shader (f : xfun) : outcome string :=
  do b <- save_body f; do c <- save_call f;
  Ok (b ++ "vec3 BRDF(vec3 L, vec3 V, vec3 N, vec3 X, vec3 Y)" ++ endl ++ "{" ++ endl ++ tb ++ "vec3 res = " ++ c ++
      line "return res;" ++ "}" ++ endl ++ endl).
(** with --export explorer (core/function.cpp:70-75 and 124-127) *)
Definition save_explorer (f : xfun) : outcome string :=
  do b <- save_body f; do c <- save_call f;
  Ok ("analytic" ++ endl ++ endl ++ "::begin shader" ++ endl ++
      b ++ "vec3 BRDF(vec3 L, vec3 V, vec3 N, vec3 X, vec3 Y)" ++ endl ++ "{" ++ endl ++ tb ++ "vec3 res = " ++ c ++
      line "return res;" ++ "}" ++ endl ++ endl ++ "::end shader" ++ endl).
End Export.

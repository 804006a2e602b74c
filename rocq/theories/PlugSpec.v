(** Specification vocabulary for plugins, independent of the algorithms of
    [PlugModel]. *)
From Coq Require Import List.
From Verif Require Import Base ArgsSpec ArgsModel ParamsModel FuncModel PlugModel.
Open Scope list_scope.
Open Scope nat_scope.

Definition colon : str := [":"%char].

(** The directory a component of the search path stands for. *)
Definition directory (sysdir c : str) : str := match c with [] => sysdir | _ => c end.

(** File [dir]/[lib] is a loadable library that exports [f]. *)
Definition exports {T} (libs : str -> option (option T)) (dir lib : str) (f : T) : Prop :=
  libs (dir ++ lit "/" ++ lib) = Some (Some f).

(** The first directory of [dirs] that exports something exports [f]. *)
Definition first_export {T} (libs : str -> option (option T)) (dirs : list str) (lib : str) (f : T) : Prop :=
  exists pre d post, dirs = pre ++ d :: post /\ exports libs d lib f /\
    forall d' g, In d' pre -> ~ exports libs d' lib g.

(** A lobe as a user writes it:
    name [--fresnel name] [--fixed] [--fixed-lobe] [--fixed-fresnel] *)
Record lobe := mkLobe {
  lb_name : str;
  lb_fresnel : option str;
  lb_fixed : bool;
  lb_fixed_lobe : bool;
  lb_fixed_fresnel : bool }.

Definition flag_words (b : bool) (w : str) : list str := if b then [dd w] else [].
Definition lobe_words (l : lobe) : list str :=
  lb_name l :: match lb_fresnel l with None => [] | Some f => [dd (lit "fresnel"); f] end
  ++ flag_words (lb_fixed l) (lit "fixed")
  ++ flag_words (lb_fixed_lobe l) (lit "fixed-lobe")
  ++ flag_words (lb_fixed_fresnel l) (lit "fixed-fresnel").
(** one element of the bracketed list, after some blanks *)
Definition lobe_text (w : str) (l : lobe) : str := w ++ join space (lobe_words l).

(** A plugin name that can be written in a command line. *)
Definition plugin_word (n : str) : Prop :=
  word n /\ ~ begins "-" n /\ ~ begins "[" n /\ ~ In ","%char n.
Definition lobe_wf (l : lobe) : Prop :=
  plugin_word (lb_name l) /\ match lb_fresnel l with None => True | Some f => plugin_word f end.

(** The tree a list of bracketed lobes, or a lobe, denotes. *)
Definition times_fresnel (t : tree) (fr : option tree) (fixed_lobe fixed_fresnel : bool) : tree :=
  match fr with None => t | Some g => make_product t g fixed_lobe fixed_fresnel end.

Section Gives.
Variable sysdir : str.
Variable env : option str.
Variable libs : str -> option (option (parameters -> fobj)).
(** Plugin [n] is installed and provides the nonlinear function [t]. *)
Definition plugin_gives (par : parameters) (n : str) (t : tree) : Prop :=
  exists provide, open_function sysdir env libs n = Ok (Some provide) /\ provide par = Nonlinear t.
Definition fresnel_gives (par : parameters) (f : option str) (fr : option tree) : Prop :=
  match f, fr with
  | None, None => True
  | Some n, Some g => plugin_word n /\ plugin_gives par n g
  | _, _ => False
  end.

(** The lobe [l], as written by the user, denotes the function [t]. *)
Definition lobe_gives (par : parameters) (l : lobe) (t : tree) : Prop :=
  plugin_word (lb_name l) /\
  exists t1 fr, plugin_gives par (lb_name l) t1 /\ fresnel_gives par (lb_fresnel l) fr /\
    t = times_fresnel t1 fr (lb_fixed_lobe l) (lb_fixed_fresnel l).

End Gives.

(** Property C44. *)
From Coq Require Import Reals List ZArith Lia Lra.
From Verif Require Import Base Num ParamsModel GridModel GridSpec GridProofs GridMore.
Open Scope R_scope.

(** Multi-indices and ranks correspond one to one, for any number of dimensions
    and any sizes. *)
Theorem C44_index_bijection : forall sizes, Forall (fun s => (2 <= s)%Z) sizes ->
  (forall k, inside sizes k -> (0 <= get_index sizes k < total sizes)%Z /\ get_indices sizes (get_index sizes k) = k) /\
  (forall n, (0 <= n < total sizes)%Z -> inside sizes (get_indices sizes n) /\ get_index sizes (get_indices sizes n) = n).
Proof. exact rank_bijection. Qed.
Print Assumptions C44_index_bijection.

(** Every point of the closed domain lies in a cell. *)
Theorem C44_every_point_located : forall g x, grid_ok g -> Forall2 Rle (g_min g) x -> Forall2 Rle x (g_max g) ->
  exists k a, locates g x k a.
Proof. exact located. Qed.
Print Assumptions C44_every_point_located.

(** The value there is the multilinear interpolation of the corners of the cell,
    unless the rank of a corner is exactly the number of nodes, in which case
    the program stops. *)
Theorem C44_value : forall g x k a, grid_ok g -> locates g x k a ->
  let n := length (g_sizes g) in
  ((forall b, corner_bits n b -> lex (g_sizes g) (shift k b) <> total (g_sizes g)) ->
   exists y, grid_value g x = Ok y /\ length y = g_dy g /\
     forall j, (j < g_dy g)%nat -> nth j y 0 = blend a (fun b => stored g (shift k b) j)) /\
  (forall b, corner_bits n b -> lex (g_sizes g) (shift k b) = total (g_sizes g) -> grid_value g x = Abort).
Proof. intros g x k a G L n. split; [exact (value_blend g G x k a L)|exact (value_abort g G x k a L)]. Qed.
Print Assumptions C44_value.

(** Below the upper ends of the domain the value is always defined, is the
    interpolation of nodes of the grid, ... *)
Theorem C44_interior_value : forall g x, grid_ok g -> in_interior g x -> exists k a y,
  locates g x k a /\ grid_value g x = Ok y /\ length y = g_dy g /\
  (forall b, corner_bits (length (g_sizes g)) b -> inside (g_sizes g) (shift k b)) /\
  forall j, (j < g_dy g)%nat -> nth j y 0 = blend a (fun b => stored g (shift k b) j).
Proof. exact value_interior. Qed.
Print Assumptions C44_interior_value.

(** ... stays within any bounds on the stored values, ... *)
Theorem C44_within_bounds : forall g x j m M, grid_ok g -> in_interior g x -> (j < g_dy g)%nat ->
  (forall k, inside (g_sizes g) k -> m <= stored g k j <= M) -> exists y, grid_value g x = Ok y /\ m <= nth j y 0 <= M.
Proof. exact value_bounded. Qed.
Print Assumptions C44_within_bounds.

(** ... and is exact when the stored values are an affine function of the
    position. *)
Theorem C44_exact_on_affine : forall g x j c0 c, grid_ok g -> in_interior g x -> (j < g_dy g)%nat -> length c = length (g_sizes g) ->
  (forall k xs, inside (g_sizes g) k -> positions (g_sizes g) (g_min g) (g_max g) (List.map IZR k) xs -> stored g k j = c0 + dot c xs) ->
  exists y, grid_value g x = Ok y /\ nth j y 0 = c0 + dot c x.
Proof. exact value_affine. Qed.
Print Assumptions C44_exact_on_affine.

(** At a node the value is the stored one, or the program stops. *)
Theorem C44_value_at_node : forall g k xs, grid_ok g -> inside (g_sizes g) k ->
  positions (g_sizes g) (g_min g) (g_max g) (List.map IZR k) xs ->
  (exists b, corner_bits (length (g_sizes g)) b /\ lex (g_sizes g) (shift k b) = total (g_sizes g)) /\ grid_value g xs = Abort \/
  exists y, grid_value g xs = Ok y /\ length y = g_dy g /\ forall j, (j < g_dy g)%nat -> nth j y 0 = stored g k j.
Proof. exact value_node. Qed.
Print Assumptions C44_value_at_node.

(** The upper corner of the domain, a node, always stops the program. *)
Theorem C44_upper_corner_refuted : forall g, grid_ok g -> grid_value g (g_max g) = Abort.
Proof. exact value_max_corner. Qed.
Print Assumptions C44_upper_corner_refuted.

(** Changing the values of a node changes that node only. *)
Theorem C44_set : forall g k xs ys ys', grid_ok g -> inside (g_sizes g) k ->
  positions (g_sizes g) (g_min g) (g_max g) (List.map IZR k) xs -> length ys' = g_dy g ->
  nth_error (g_rows g) (Z.to_nat (lex (g_sizes g) k)) = Some (xs ++ ys) ->
  exists g', grid_set g (get_index (g_sizes g) k) (xs ++ ys') = Ok g' /\ grid_ok g' /\
    g_sizes g' = g_sizes g /\ g_min g' = g_min g /\ g_max g' = g_max g /\ g_dy g' = g_dy g /\
    forall k', inside (g_sizes g) k' -> forall j, (j < g_dy g)%nat ->
      stored g' k' j = if list_eq_dec Z.eq_dec k' k then nth j ys' 0 else stored g k' j.
Proof. exact set_values. Qed.
Print Assumptions C44_set.

(** A new grid has one row per node when the announced size is the number of
    nodes; a smaller size stops the program. *)
Theorem C44_construction : forall junk size i o sizes nY mn mx, grid_bounds i = Some (mn, mx) -> dimension_out o = Ok nY ->
  length sizes = Z.to_nat (dimension_in i) -> Forall (fun s => (2 <= s)%Z) sizes -> length junk = Z.to_nat nY ->
  (Z.of_nat size = total sizes ->
   exists g, grid_new junk size (Some i) (Some o) (Some sizes) = Ok g /\ grid_ok g /\ g_sizes g = sizes /\ g_min g = mn /\ g_max g = mx /\ g_dy g = Z.to_nat nY) /\
  ((Z.of_nat size < total sizes)%Z -> grid_new junk size (Some i) (Some o) (Some sizes) = Abort).
Proof. exact grid_new_spec. Qed.
Print Assumptions C44_construction.
(** Without a grid-size option the grid has ten nodes along each dimension; an
    option with another number of sizes than dimensions stops the program. *)
Theorem C44_resolution : forall junk size i o nY gs, dimension_out o = Ok nY ->
  grid_new junk size (Some i) (Some o) None = grid_new junk size (Some i) (Some o) (Some (repeat 10%Z (Z.to_nat (dimension_in i)))) /\
  (length gs <> Z.to_nat (dimension_in i) -> grid_new junk size (Some i) (Some o) (Some gs) = Abort).
Proof.
  intros junk size i o nY gs Ho. unfold grid_new. rewrite Ho. cbn [bind]. rewrite repeat_length, Nat.eqb_refl. split; [reflexivity|].
  intros N. apply Nat.eqb_neq in N. rewrite N. reflexivity.
Qed.
Print Assumptions C44_resolution.

(** Without a PARAM_OUT (or without PARAM_IN and param) among the arguments the
    constructor reads an uninitialised variable. *)
Theorem C44_missing_arguments_refuted : forall junk size i o gs,
  grid_new junk size i None gs = UB /\ grid_new junk size None o gs = UB.
Proof. intros. split; [destruct i|]; reflexivity. Qed.
Print Assumptions C44_missing_arguments_refuted.

(** A 3 x 2 grid over the unit square, one value per node. *)
Definition demo : grid :=
  mkGrid [3; 2]%Z [0; 0] [1; 1] 1
    [[0; 0; 5]; [0; 1; 7]; [1 / 2; 0; 11]; [1 / 2; 1; 13]; [1; 0; 17]; [1; 1; 19]].
Lemma demo_ok : grid_ok demo.
Proof.
  constructor; cbn.
  - repeat constructor; lia.
  - repeat constructor; lra.
  - reflexivity.
  - discriminate.
  - reflexivity.
  - intros k Hk. inversion Hk as [|? i ? ks Hi Hks]; subst. inversion Hks as [|? j ? ks' Hj Hks']; subst. inversion Hks'; subst.
    assert (Hi' : i = 0%Z \/ i = 1%Z \/ i = 2%Z) by lia. assert (Hj' : j = 0%Z \/ j = 1%Z) by lia.
    assert (P : forall u v a b, u = position 0 1 3 (IZR a) -> v = position 0 1 2 (IZR b) -> positions [3; 2]%Z [0; 0] [1; 1] [IZR a; IZR b] [u; v]).
    { intros u v a b -> ->. repeat constructor. }
    assert (Q : forall a, position 0 1 3 (IZR a) = IZR a / 2) by (intros; unfold position; replace (IZR (3 - 1)) with 2 by reflexivity; lra).
    assert (Q' : forall b, position 0 1 2 (IZR b) = IZR b) by (intros; unfold position; replace (IZR (2 - 1)) with 1 by reflexivity; lra).
    destruct Hi' as [->|[->| ->]]; destruct Hj' as [->| ->]; cbn.
    all: eexists [_; _], [_]; split; [reflexivity|split; [apply P; rewrite ?Q, ?Q'; lra|reflexivity]].
Qed.
Example C44_case : exists y, grid_value demo [3 / 4; 1 / 4] = Ok [y] /\ y = 14 + 1 / 2.
Proof.
  assert (L : locates demo [3 / 4; 1 / 4] [1; 0]%Z [1 / 2; 1 / 4]).
  { split.
    - repeat constructor; cbn; try lia; lra.
    - assert (P : forall u v p q, u = position 0 1 3 p -> v = position 0 1 2 q -> positions [3; 2]%Z [0; 0] [1; 1] [p; q] [u; v]).
      { intros u v p q -> ->. repeat constructor. }
      apply P; unfold position; cbn; lra. }
  destruct (C44_value demo _ _ _ demo_ok L) as [H _]. destruct H as (y & E & Ly & HN).
  { intros b [Hl Hb]. destruct b as [|b1 [|b2 [|]]]; try discriminate Hl. inversion Hb as [|? ? H1 Hb']; subst. inversion Hb' as [|? ? H2 _]; subst. cbn [demo g_sizes shift lex total]. lia. }
  destruct y as [|y [|]]; try discriminate Ly. exists y. split; [exact E|]. specialize (HN 0%nat ltac:(cbn; lia)). unfold stored in HN. cbn in HN. change (Pos.to_nat 2) with 2%nat in HN. change (Pos.to_nat 3) with 3%nat in HN. change (Pos.to_nat 4) with 4%nat in HN. change (Pos.to_nat 5) with 5%nat in HN. cbn in HN. lra.
Qed.

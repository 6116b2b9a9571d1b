(** Model of the cubes: /repo/barbarosa/src/cube_n/cube{2,3,4,5,6,7}/mod.rs and of the
    impls that move them, /repo/barbarosa/src/cube_n/moves/wide.rs. *)

From Coq Require Import List Bool Arith NArith Lia.
From Verif Require Import Model_Base Model_Space Model_Moves Model_Pieces Model_PieceSet.
Import ListNotations.

(** generic/piece/set.rs:177-187 [Movable for PieceSet]. *)
Definition corner_set_apply (s : list Corner) (m : AxisMove) : list Corner :=
  map (fun c => corner_apply c m) s.
(** generic/piece/set.rs:177-187 [Movable for PieceSet], for edges. *)
Definition edge_set_apply (s : list Edge) (m : AxisMove) : list Edge :=
  map (fun e => edge_apply e m) s.

(** moves/wide.rs:220-234 [Movable<WideAxisMove<M>> for DepthPieceSet<P, N, ND, TD>]. *)
Definition depth_set_apply {P} (in_wide : P -> N -> N -> N -> WideAxisMove -> bool)
  (rotate : P -> AxisRotation -> P) (nd td mx : N) (s : list P) (m : WideAxisMove) : list P :=
  map (fun p => if in_wide p nd td mx m then rotate p (rot_of_move (w_move m)) else p) s.

(** moves/wide.rs:220-234 for [WingSet<ND>] (pieces/wing.rs). *)
Definition wings_apply (nd mx : N) := depth_set_apply wing_in_wide wing_rotate nd 0 mx.
(** moves/wide.rs:220-234 for [CenterCornerSet<ND>] (pieces/center/corner.rs). *)
Definition ccs_apply (nd mx : N) := depth_set_apply cc_in_wide cc_rotate nd 0 mx.
(** moves/wide.rs:220-234 for [CenterEdgeSet<ND>] (pieces/center/edge.rs). *)
Definition ces_apply (nd mx : N) := depth_set_apply ce_in_wide ce_rotate nd 0 mx.
(** moves/wide.rs:220-234 for [CenterWingSet<ND, TD>] (pieces/center/wing.rs). *)
Definition cws_apply (nd td mx : N) := depth_set_apply cw_in_wide cw_rotate nd td mx.

(** [AxisMove::widen(depth).unwrap()] as used in moves/wide.rs:138; succeeds because
    the depth equals the maximum. *)
Definition widen_to (mx : N) (m : AxisMove) : outcome WideAxisMove :=
  match move_widen mx m mx with Ok w => Done w | Err _ => Panic end.

Lemma widen_to_done mx m : widen_to mx m = Done (mkWide mx m).
Proof.
  unfold widen_to, move_widen, wide_new. rewrite N.ltb_irrefl. destruct m; reflexivity.
Qed.

(* ------------------------------------------------------------------ *)
(** * Cube2: cube2/mod.rs:13-36 *)

(** cube2/mod.rs:13-16 [struct Cube2]. *)
Record Cube2 := mkCube2 { c2_corners : list Corner }.
(** cube2/mod.rs:18-22 [SOLVED]. *)
Definition cube2_solved : Cube2 := mkCube2 corner_solved.
(** cube2/mod.rs:32-36 [Movable]. *)
Definition cube2_apply (c : Cube2) (m : AxisMove) : Cube2 :=
  mkCube2 (corner_set_apply (c2_corners c) m).

(** Derived [PartialEq] of piece lists.
    generic/piece/set.rs and the derives of each cube, e.g. cube_n/cube3/mod.rs:29. *)
Fixpoint list_eqb {A} (eqb : A -> A -> bool) (a b : list A) : bool :=
  match a, b with
  | [], [] => true
  | x :: r, y :: s => eqb x y && list_eqb eqb r s
  | _, _ => false
  end.

(** cube2/mod.rs:12 derived [PartialEq]. *)
Definition cube2_eqb (a b : Cube2) : bool :=
  list_eqb corner_eqb (c2_corners a) (c2_corners b).
(** generic/mod.rs:60-65 default [Cube::is_solved]: equality with [SOLVED]. *)
Definition cube2_is_solved (c : Cube2) : bool := cube2_eqb c cube2_solved.

(* ------------------------------------------------------------------ *)
(** * Cube3: cube3/mod.rs:30-65 *)

(** cube3/mod.rs:30-36 [struct Cube3]. *)
Record Cube3 := mkCube3 { c3_edges : list Edge; c3_corners : list Corner }.
(** cube3/mod.rs:38-43 [SOLVED]. *)
Definition cube3_solved : Cube3 := mkCube3 edge_solved corner_solved.
(** cube3/mod.rs:49-54 [Movable]. *)
Definition cube3_apply (c : Cube3) (m : AxisMove) : Cube3 :=
  mkCube3 (edge_set_apply (c3_edges c) m) (corner_set_apply (c3_corners c) m).
(** cube3/mod.rs:29 derived [PartialEq]. *)
Definition cube3_eqb (a b : Cube3) : bool :=
  list_eqb edge_eqb (c3_edges a) (c3_edges b) &&
  list_eqb corner_eqb (c3_corners a) (c3_corners b).
(** generic/mod.rs:60-65 default [Cube::is_solved]. *)
Definition cube3_is_solved (c : Cube3) : bool := cube3_eqb c cube3_solved.

(** cube3/mod.rs:60-65 [Cube3::successors]. *)
Definition cube3_successors (c : Cube3) : list (Cube3 * AxisMove) :=
  map (fun m => (cube3_apply c m, m)) all_moves.

(* ------------------------------------------------------------------ *)
(** * Cube4: cube4/mod.rs:16-53 *)

(** cube4/mod.rs:16-20 [struct Cube4]. *)
Record Cube4 := mkCube4 { c4_corners : list Corner; c4_wings : list Wing;
                          c4_centers : list CenterCorner }.
(** cube4/mod.rs:22-27 [SOLVED]. *)
Definition cube4_solved : Cube4 := mkCube4 corner_solved wing_solved cc_solved.
(** cube4/mod.rs:41-47 [Movable]. *)
Definition cube4_apply_wide (c : Cube4) (m : WideAxisMove) : Cube4 :=
  mkCube4 (corner_set_apply (c4_corners c) (w_move m))
          (wings_apply 1 1 (c4_wings c) m)
          (ccs_apply 1 1 (c4_centers c) m).
(** cube4/mod.rs:29-34 [is_solved]. *)
Definition cube4_is_solved (c : Cube4) : bool :=
  set_is_solved corner_desc (c4_corners c) && set_is_solved wing_desc (c4_wings c)
  && set_is_solved cc_desc (c4_centers c).

(* ------------------------------------------------------------------ *)
(** * Cube5: cube5/mod.rs:19-52 *)

(** cube5/mod.rs:19-24 [struct Cube5]. *)
Record Cube5 := mkCube5 { c5_corners : list Corner; c5_edges : list Edge;
                          c5_center_corners : list CenterCorner;
                          c5_center_edges : list CenterEdge }.
(** cube5/mod.rs:30-37 [SOLVED]. *)
Definition cube5_solved : Cube5 := mkCube5 corner_solved edge_solved cc_solved ce_solved.
(** cube5/mod.rs:39-46 [Movable]. *)
Definition cube5_apply_wide (c : Cube5) (m : WideAxisMove) : Cube5 :=
  mkCube5 (corner_set_apply (c5_corners c) (w_move m))
          (edge_set_apply (c5_edges c) (w_move m))
          (ccs_apply 1 1 (c5_center_corners c) m)
          (ces_apply 1 1 (c5_center_edges c) m).
(** cube5/mod.rs:18 derived [PartialEq]. *)
Definition cube5_eqb (a b : Cube5) : bool :=
  list_eqb corner_eqb (c5_corners a) (c5_corners b) &&
  list_eqb edge_eqb (c5_edges a) (c5_edges b) &&
  list_eqb cc_eqb (c5_center_corners a) (c5_center_corners b) &&
  list_eqb ce_eqb (c5_center_edges a) (c5_center_edges b).
(** cube5/mod.rs does not override [is_solved]: generic/mod.rs:60-65. *)
Definition cube5_is_solved (c : Cube5) : bool := cube5_eqb c cube5_solved.

(* ------------------------------------------------------------------ *)
(** * Cube6: cube6/mod.rs:16-71 *)

(** cube6/mod.rs:16-25 [struct Cube6]. *)
Record Cube6 := mkCube6 { c6_corners : list Corner;
                          c6_wings_1 : list Wing; c6_wings_2 : list Wing;
                          c6_center_corners_1 : list CenterCorner;
                          c6_center_corners_2 : list CenterCorner;
                          c6_center_wings : list CenterWing }.
(** cube6/mod.rs:27-37 [SOLVED]. *)
Definition cube6_solved : Cube6 :=
  mkCube6 corner_solved wing_solved wing_solved cc_solved cc_solved cw_solved.
(** cube6/mod.rs:56-65 [Movable]. *)
Definition cube6_apply_wide (c : Cube6) (m : WideAxisMove) : Cube6 :=
  mkCube6 (corner_set_apply (c6_corners c) (w_move m))
          (wings_apply 1 2 (c6_wings_1 c) m)
          (wings_apply 2 2 (c6_wings_2 c) m)
          (ccs_apply 1 2 (c6_center_corners_1 c) m)
          (ccs_apply 2 2 (c6_center_corners_2 c) m)
          (cws_apply 1 2 2 (c6_center_wings c) m).
(** cube6/mod.rs:39-49 [is_solved]. *)
Definition cube6_is_solved (c : Cube6) : bool :=
  set_is_solved corner_desc (c6_corners c)
  && set_is_solved wing_desc (c6_wings_1 c)
  && set_is_solved wing_desc (c6_wings_2 c)
  && set_is_solved cc_desc (c6_center_corners_1 c)
  && set_is_solved cc_desc (c6_center_corners_2 c)
  && set_is_solved cw_desc (c6_center_wings c).

(* ------------------------------------------------------------------ *)
(** * Cube7: cube7/mod.rs:16-85 *)

(** cube7/mod.rs:16-29 [struct Cube7]. *)
Record Cube7 := mkCube7 { c7_corners : list Corner; c7_edges : list Edge;
                          c7_wings_1 : list Wing; c7_wings_2 : list Wing;
                          c7_center_corners_1 : list CenterCorner;
                          c7_center_corners_2 : list CenterCorner;
                          c7_center_wings : list CenterWing;
                          c7_center_edges_1 : list CenterEdge;
                          c7_center_edges_2 : list CenterEdge }.
(** cube7/mod.rs:31-45 [SOLVED]. *)
Definition cube7_solved : Cube7 :=
  mkCube7 corner_solved edge_solved wing_solved wing_solved cc_solved cc_solved
          cw_solved ce_solved ce_solved.
(** cube7/mod.rs:67-79 [Movable]. *)
Definition cube7_apply_wide (c : Cube7) (m : WideAxisMove) : Cube7 :=
  mkCube7 (corner_set_apply (c7_corners c) (w_move m))
          (edge_set_apply (c7_edges c) (w_move m))
          (wings_apply 1 2 (c7_wings_1 c) m)
          (wings_apply 2 2 (c7_wings_2 c) m)
          (ccs_apply 1 2 (c7_center_corners_1 c) m)
          (ccs_apply 2 2 (c7_center_corners_2 c) m)
          (cws_apply 1 2 2 (c7_center_wings c) m)
          (ces_apply 1 2 (c7_center_edges_1 c) m)
          (ces_apply 2 2 (c7_center_edges_2 c) m).
(** cube7/mod.rs:47-60 [is_solved]. *)
Definition cube7_is_solved (c : Cube7) : bool :=
  set_is_solved corner_desc (c7_corners c)
  && set_is_solved edge_desc (c7_edges c)
  && set_is_solved wing_desc (c7_wings_1 c)
  && set_is_solved wing_desc (c7_wings_2 c)
  && set_is_solved cc_desc (c7_center_corners_1 c)
  && set_is_solved cc_desc (c7_center_corners_2 c)
  && set_is_solved cw_desc (c7_center_wings c)
  && set_is_solved ce_desc (c7_center_edges_1 c)
  && set_is_solved ce_desc (c7_center_edges_2 c).

(* ------------------------------------------------------------------ *)
(** * The other move types *)

(** moves/wide.rs:135-141: [AxisMove] on Cube4..Cube7 is widened to the maximal
    width of the cube (1 for Cube4/Cube5, 2 for Cube6/Cube7; cube4/mod.rs:53,
    cube5/mod.rs:52, cube6/mod.rs:71, cube7/mod.rs:85).  The [unwrap] succeeds by
    [widen_to_done]. *)
Definition apply_widened {C} (apply_wide : C -> WideAxisMove -> C) (mx : N)
  (c : C) (m : AxisMove) : C :=
  match widen_to mx m with Done w => apply_wide c w | Panic => c end.
(** cube4/mod.rs:53 through moves/wide.rs:135-141. *)
Definition cube4_apply := apply_widened cube4_apply_wide 1.
(** cube5/mod.rs:52 through moves/wide.rs:135-141. *)
Definition cube5_apply := apply_widened cube5_apply_wide 1.
(** cube6/mod.rs:71 through moves/wide.rs:135-141. *)
Definition cube6_apply := apply_widened cube6_apply_wide 2.
(** cube7/mod.rs:85 through moves/wide.rs:135-141. *)
Definition cube7_apply := apply_widened cube7_apply_wide 2.

(** moves/wide.rs:122-126 [Movable<WideAxisMove<0>>] for every cube movable by
    [AxisMove]. *)
Definition apply_wide0 {C} (apply : C -> AxisMove -> C) (c : C) (m : WideAxisMove) : C :=
  apply c (w_move m).

(** moves/wide.rs:143-156: [WideAxisMove<1>] on Cube6 and Cube7 is transmuted to
    [WideAxisMove<2>], i.e. applied unchanged. *)
Definition cube6_apply_wide1 := cube6_apply_wide.
(** moves/wide.rs:143-156, for Cube7. *)
Definition cube7_apply_wide1 := cube7_apply_wide.

(** moves/quarter.rs:51-55 [Movable<QuarterAxisMove>]. *)
Definition apply_quarter {C} (apply : C -> AxisMove -> C) (c : C) (q : QuarterAxisMove) : C :=
  apply c (move_of_quarter q).

(* ------------------------------------------------------------------ *)
(** * All cube sizes together

    The six concrete cube types of cube_n/mod.rs:36-58 as one family, so that a
    statement about "every cube" is one quantifier. *)

(** cube_n/mod.rs:40-45: the six cube types. *)
Inductive CubeSize := Size2 | Size3 | Size4 | Size5 | Size6 | Size7.
(** cube_n/mod.rs:57-60 [CubeN::N]. *)
Definition cube_size_N (n : CubeSize) : N :=
  match n with Size2 => 2 | Size3 => 3 | Size4 => 4 | Size5 => 5 | Size6 => 6 | Size7 => 7 end%N.
(** The cube type of a size. cube_n/cube2/mod.rs:12-16 to cube_n/cube7/mod.rs:15-29. *)
Definition CubeOf (n : CubeSize) : Type :=
  match n with
  | Size2 => Cube2 | Size3 => Cube3 | Size4 => Cube4 | Size5 => Cube5 | Size6 => Cube6 | Size7 => Cube7
  end.
(** [Cube::SOLVED] of each type.
    cube_n/cube2/mod.rs:19, cube3/mod.rs:39, cube4/mod.rs:23, cube5/mod.rs:31, cube6/mod.rs:28, cube7/mod.rs:32. *)
Definition cube_solved (n : CubeSize) : CubeOf n :=
  match n with
  | Size2 => cube2_solved | Size3 => cube3_solved | Size4 => cube4_solved
  | Size5 => cube5_solved | Size6 => cube6_solved | Size7 => cube7_solved
  end.
(** [Cube::is_solved] of each type. generic/mod.rs:59-64, cube_n/cube4/mod.rs:29, cube6/mod.rs:39, cube7/mod.rs:47. *)
Definition cube_is_solved (n : CubeSize) : CubeOf n -> bool :=
  match n with
  | Size2 => cube2_is_solved | Size3 => cube3_is_solved | Size4 => cube4_is_solved
  | Size5 => cube5_is_solved | Size6 => cube6_is_solved | Size7 => cube7_is_solved
  end.
(** [Movable<AxisMove>] of each type.
    cube_n/cube2/mod.rs:32, cube3/mod.rs:49, moves/wide.rs:136-143 for the others. *)
Definition cube_apply (n : CubeSize) : CubeOf n -> AxisMove -> CubeOf n :=
  match n with
  | Size2 => cube2_apply | Size3 => cube3_apply | Size4 => cube4_apply
  | Size5 => cube5_apply | Size6 => cube6_apply | Size7 => cube7_apply
  end.
(** [Movable<WideAxisMove<M>>] of each type, [M = N/2-1] ([M = 0] for Cube2, Cube3).
    cube_n/moves/wide.rs:122-126, cube4/mod.rs:41, cube5/mod.rs:39, cube6/mod.rs:56, cube7/mod.rs:67. *)
Definition cube_apply_wide (n : CubeSize) : CubeOf n -> WideAxisMove -> CubeOf n :=
  match n with
  | Size2 => apply_wide0 cube2_apply | Size3 => apply_wide0 cube3_apply
  | Size4 => cube4_apply_wide | Size5 => cube5_apply_wide
  | Size6 => cube6_apply_wide | Size7 => cube7_apply_wide
  end.
(** The [Movable<WideAxisMove<k>>] of each type, one for each [k] that has one: [k = 0] by
    moves/wide.rs:122-126 for all types, the cube's own (cube4/mod.rs:41, cube5/mod.rs:39,
    cube6/mod.rs:56, cube7/mod.rs:67), and [k = 1] on Cube6 and Cube7 by moves/wide.rs:143-156
    (cube6/mod.rs:71, cube7/mod.rs:85). *)
Definition cube_apply_typed (n : CubeSize) (k : N) : option (CubeOf n -> WideAxisMove -> CubeOf n) :=
  if (k =? 0)%N then Some (apply_wide0 (cube_apply n))
  else match n return option (CubeOf n -> WideAxisMove -> CubeOf n) with
  | Size2 | Size3 => None
  | Size4 => if (k =? 1)%N then Some cube4_apply_wide else None
  | Size5 => if (k =? 1)%N then Some cube5_apply_wide else None
  | Size6 => if (k =? 1)%N then Some cube6_apply_wide1 else if (k =? 2)%N then Some cube6_apply_wide else None
  | Size7 => if (k =? 1)%N then Some cube7_apply_wide1 else if (k =? 2)%N then Some cube7_apply_wide else None
  end.
(** [Movable<QuarterAxisMove>] of each type. cube_n/moves/quarter.rs:51-57. *)
Definition cube_apply_quarter (n : CubeSize) : CubeOf n -> QuarterAxisMove -> CubeOf n :=
  apply_quarter (cube_apply n).

(* ------------------------------------------------------------------ *)
(** * Equality lemmas *)

Lemma list_eqb_eq {A} (eqb : A -> A -> bool) (H : forall a b, eqb a b = true <-> a = b) l1 l2 :
  list_eqb eqb l1 l2 = true <-> l1 = l2.
Proof.
  revert l2; induction l1 as [|a l1 IH]; intros [|b l2]; simpl; split; try congruence.
  - rewrite andb_true_iff, H, IH. intros [-> ->]; auto.
  - intros [= -> ->]. rewrite andb_true_iff, H, IH. auto.
Qed.

Lemma cube2_eqb_eq a b : cube2_eqb a b = true <-> a = b.
Proof.
  unfold cube2_eqb. rewrite list_eqb_eq by apply corner_eqb_eq.
  destruct a, b; simpl; split; congruence.
Qed.

Lemma cube3_eqb_eq a b : cube3_eqb a b = true <-> a = b.
Proof.
  unfold cube3_eqb. rewrite andb_true_iff, list_eqb_eq, list_eqb_eq
    by (apply corner_eqb_eq || apply edge_eqb_eq).
  destruct a, b; simpl; split; [intros [-> ->]|intros [= -> ->]]; auto.
Qed.

Lemma cube5_eqb_eq a b : cube5_eqb a b = true <-> a = b.
Proof.
  unfold cube5_eqb. rewrite !andb_true_iff.
  rewrite (list_eqb_eq _ corner_eqb_eq), (list_eqb_eq _ edge_eqb_eq),
          (list_eqb_eq _ cc_eqb_eq), (list_eqb_eq _ ce_eqb_eq).
  destruct a, b; simpl; split; [intros [[[-> ->] ->] ->]|intros [= -> -> -> ->]]; auto.
Qed.

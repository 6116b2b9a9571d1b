(** Derived equality of all the cube types, as used by [connect]
    (/repo/barbarosa/src/generic/moves.rs:67-72, Model_Moves) on each of them. *)

From Coq Require Import List Bool Arith.
From Verif Require Import Model_Base Model_Space Model_Moves Model_Pieces Model_PieceSet Model_Cubes.
Import ListNotations.

(** cube4/mod.rs:15 derived [PartialEq]. *)
Definition cube4_eqb (a b : Cube4) : bool :=
  list_eqb corner_eqb (c4_corners a) (c4_corners b) &&
  list_eqb wing_eqb (c4_wings a) (c4_wings b) &&
  list_eqb cc_eqb (c4_centers a) (c4_centers b).

(** cube6/mod.rs:15 derived [PartialEq]. *)
Definition cube6_eqb (a b : Cube6) : bool :=
  list_eqb corner_eqb (c6_corners a) (c6_corners b) &&
  list_eqb wing_eqb (c6_wings_1 a) (c6_wings_1 b) &&
  list_eqb wing_eqb (c6_wings_2 a) (c6_wings_2 b) &&
  list_eqb cc_eqb (c6_center_corners_1 a) (c6_center_corners_1 b) &&
  list_eqb cc_eqb (c6_center_corners_2 a) (c6_center_corners_2 b) &&
  list_eqb cw_eqb (c6_center_wings a) (c6_center_wings b).

(** cube7/mod.rs:15 derived [PartialEq]. *)
Definition cube7_eqb (a b : Cube7) : bool :=
  list_eqb corner_eqb (c7_corners a) (c7_corners b) &&
  list_eqb edge_eqb (c7_edges a) (c7_edges b) &&
  list_eqb wing_eqb (c7_wings_1 a) (c7_wings_1 b) &&
  list_eqb wing_eqb (c7_wings_2 a) (c7_wings_2 b) &&
  list_eqb cc_eqb (c7_center_corners_1 a) (c7_center_corners_1 b) &&
  list_eqb cc_eqb (c7_center_corners_2 a) (c7_center_corners_2 b) &&
  list_eqb cw_eqb (c7_center_wings a) (c7_center_wings b) &&
  list_eqb ce_eqb (c7_center_edges_1 a) (c7_center_edges_1 b) &&
  list_eqb ce_eqb (c7_center_edges_2 a) (c7_center_edges_2 b).

(** Derived [PartialEq] of each cube type.
    cube_n/cube2/mod.rs:12, cube3/mod.rs:29, cube4/mod.rs:15, cube5/mod.rs:18, cube6/mod.rs:15, cube7/mod.rs:15. *)
Definition cube_eqb (n : CubeSize) : CubeOf n -> CubeOf n -> bool :=
  match n with
  | Size2 => cube2_eqb | Size3 => cube3_eqb | Size4 => cube4_eqb
  | Size5 => cube5_eqb | Size6 => cube6_eqb | Size7 => cube7_eqb
  end.

(** [connect::<AxisMove, CubeN>] (generic/moves.rs:67-72); [AxisMove::iter] is
    [all_moves] (moves/mod.rs:96-102). *)
Definition cube_connect (n : CubeSize) (from to : CubeOf n) : option AxisMove :=
  connect all_moves (cube_apply n) (cube_eqb n) from to.

(** [Alg::<AxisMove>::try_from_states::<CubeN>] (generic/alg.rs:86-103). *)
Definition cube_try_from_states (n : CubeSize) (states : list (CubeOf n))
  : result (list AxisMove) (TryFromStatesError (CubeOf n)) :=
  try_from_states all_moves (cube_apply n) (cube_eqb n) states.

Lemma cube_eqb_eq n a b : cube_eqb n a b = true <-> a = b.
Proof.
  destruct n; cbn.
  - apply cube2_eqb_eq.
  - apply cube3_eqb_eq.
  - unfold cube4_eqb. rewrite !andb_true_iff, (list_eqb_eq _ corner_eqb_eq),
      (list_eqb_eq _ wing_eqb_eq), (list_eqb_eq _ cc_eqb_eq).
    destruct a, b; cbn; split; [intros [[-> ->] ->]|intros [= -> -> ->]]; auto.
  - apply cube5_eqb_eq.
  - unfold cube6_eqb. rewrite !andb_true_iff, (list_eqb_eq _ corner_eqb_eq),
      !(list_eqb_eq _ wing_eqb_eq), !(list_eqb_eq _ cc_eqb_eq), (list_eqb_eq _ cw_eqb_eq).
    destruct a, b; cbn; split; [intros [[[[[-> ->] ->] ->] ->] ->]|intros [= -> -> -> -> -> ->]];
      repeat split; auto.
  - unfold cube7_eqb. rewrite !andb_true_iff, (list_eqb_eq _ corner_eqb_eq), (list_eqb_eq _ edge_eqb_eq),
      !(list_eqb_eq _ wing_eqb_eq), !(list_eqb_eq _ cc_eqb_eq), (list_eqb_eq _ cw_eqb_eq),
      !(list_eqb_eq _ ce_eqb_eq).
    destruct a, b; cbn; split;
      [intros [[[[[[[[-> ->] ->] ->] ->] ->] ->] ->] ->]|intros [= -> -> -> -> -> -> -> -> ->]];
      repeat split; auto.
Qed.

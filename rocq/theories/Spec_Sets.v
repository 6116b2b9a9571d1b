(** Specification vocabulary for piece sets, independent of [validate] and the
    lookup functions. *)

From Coq Require Import List.
From Verif Require Import Model_Base Model_Space Model_Moves Model_Pieces Model_PieceSet Model_Cubes.
Import ListNotations.

(** Exactly one index of the set holds a piece that is at position [pos]. *)
Definition one_piece_at {P Pos} (d : PieceDesc P Pos) (s : list P) (pos : Pos) : Prop :=
  exists i p, nth_error s i = Some p /\ pd_position d p = pos /\
    forall j q, nth_error s j = Some q -> pd_position d q = pos -> j = i.

(** A set with one piece per index of the array type and one piece at every position. *)
Definition one_piece_everywhere {P Pos} (d : PieceDesc P Pos) (s : list P) : Prop :=
  length s = length (pd_reference d) /\ forall pos, one_piece_at d s pos.

(** All piece sets of a cube have exactly one piece at every position. *)
Definition cube_well_formed (n : CubeSize) : CubeOf n -> Prop :=
  match n with
  | Size2 => fun c => one_piece_everywhere corner_desc (c2_corners c)
  | Size3 => fun c =>
      one_piece_everywhere edge_desc (c3_edges c) /\
      one_piece_everywhere corner_desc (c3_corners c)
  | Size4 => fun c =>
      one_piece_everywhere corner_desc (c4_corners c) /\
      one_piece_everywhere wing_desc (c4_wings c) /\
      one_piece_everywhere cc_desc (c4_centers c)
  | Size5 => fun c =>
      one_piece_everywhere corner_desc (c5_corners c) /\
      one_piece_everywhere edge_desc (c5_edges c) /\
      one_piece_everywhere cc_desc (c5_center_corners c) /\
      one_piece_everywhere ce_desc (c5_center_edges c)
  | Size6 => fun c =>
      one_piece_everywhere corner_desc (c6_corners c) /\
      one_piece_everywhere wing_desc (c6_wings_1 c) /\
      one_piece_everywhere wing_desc (c6_wings_2 c) /\
      one_piece_everywhere cc_desc (c6_center_corners_1 c) /\
      one_piece_everywhere cc_desc (c6_center_corners_2 c) /\
      one_piece_everywhere cw_desc (c6_center_wings c)
  | Size7 => fun c =>
      one_piece_everywhere corner_desc (c7_corners c) /\
      one_piece_everywhere edge_desc (c7_edges c) /\
      one_piece_everywhere wing_desc (c7_wings_1 c) /\
      one_piece_everywhere wing_desc (c7_wings_2 c) /\
      one_piece_everywhere cc_desc (c7_center_corners_1 c) /\
      one_piece_everywhere cc_desc (c7_center_corners_2 c) /\
      one_piece_everywhere cw_desc (c7_center_wings c) /\
      one_piece_everywhere ce_desc (c7_center_edges_1 c) /\
      one_piece_everywhere ce_desc (c7_center_edges_2 c)
  end.

(** [x] occurs at two different indices. *)
Definition occurs_twice {T} (x : T) (l : list T) : Prop :=
  exists i j, i <> j /\ nth_error l i = Some x /\ nth_error l j = Some x.

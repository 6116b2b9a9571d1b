(** The NxNxN cube as a physical object.

    Cubies have doubled coordinates: an N-cube has its cubies at the points whose
    coordinates are -(N-1), -(N-3), ..., N-3, N-1.  This file says where each kind of
    piece is and which stickers it has; the reading of the fields is the one given in
    the documentation comments of the piece types. *)

From Coq Require Import List Bool ZArith.
From Verif Require Import Model_Base Model_Space Model_Moves Model_Pieces Model_PieceSet Model_Cubes
  Model_Visual Spec_Moves Spec_Geometry Spec_Stickers.
Import ListNotations.
Open Scope Z_scope.

Definition sizeZ (n : CubeSize) : Z := Z.of_N (cube_size_N n).

(** ** Cubies *)

Definition on_grid (n : CubeSize) (x : Z) : Prop :=
  - (sizeZ n - 1) <= x <= sizeZ n - 1 /\ Z.even (x + sizeZ n - 1) = true.

(** A cubie on the surface that moves: some coordinate is extremal, and it is not the
    fixed middle of a face of an odd cube (two coordinates zero). *)
Definition movable_cubie (n : CubeSize) (p : V3) : Prop :=
  on_grid n (px p) /\ on_grid n (py p) /\ on_grid n (pz p) /\
  (Z.abs (px p) = sizeZ n - 1 \/ Z.abs (py p) = sizeZ n - 1 \/ Z.abs (pz p) = sizeZ n - 1) /\
  ~ (px p = 0 /\ py p = 0) /\ ~ (py p = 0 /\ pz p = 0) /\ ~ (px p = 0 /\ pz p = 0).

(** The [d+1] outermost layers of the face [f]. *)
Definition in_layers (n : CubeSize) (f : Face) (d : Z) (p : V3) : bool :=
  sizeZ n - 1 - 2 * d <=? dot p (normal f).

(** What a wide move does to a point of the cube. *)
Definition wide_turn (n : CubeSize) (w : WideAxisMove) (p : V3) : V3 :=
  if in_layers n (mv_face (w_move w)) (Z.of_N (w_depth w)) p then move_space (w_move w) p else p.

(** ** Where pieces are.  [k] is the size of the cube, [nd] and [td] the depths of the
    piece set. *)

Definition corner_loc (k : Z) (c : Corner) : V3 := v3_scale (k - 1) (point (c_pos c)).
Definition edge_loc (k : Z) (e : Edge) : V3 :=
  v3_scale (k - 1) (to_v3 (edge_coordinates (edge_position e))).
(** A wing is on the edge, displaced along the normal axis; [nd] layers from the end. *)
Definition wing_loc (k nd : Z) (w : Wing) : V3 :=
  v3_add (edge_loc k (wg_edge w))
         (v3_scale ((k - 1 - 2 * nd) * scalar (wing_normal_dir w)) (unit (e_normal (wg_edge w)))).
(** A centre corner is on the diagonal of its face. *)
Definition cc_loc (k nd : Z) (c : CenterCorner) : V3 :=
  let coord a := (if axis_eqb a (cc_axis c) then k - 1 else k - 1 - 2 * nd) * scalar (vget (cc_pos c) a) in
  mkV3 (coord AX) (coord AY) (coord AZ).
(** A centre edge is on its main face, displaced towards its side face. *)
Definition ce_loc (k nd : Z) (c : CenterEdge) : V3 :=
  v3_add (v3_scale (k - 1) (normal (ce_main c)))
         (v3_scale (k - 1 - 2 * nd) (normal (ce_side_face c))).
(** A centre wing is displaced towards its side face and along its normal axis. *)
Definition cw_loc (k nd td : Z) (c : CenterWing) : V3 :=
  v3_add (ce_loc k nd (cw_edge c))
         (v3_scale ((k - 1 - 2 * td) * scalar (cw_normal_dir c)) (unit (ce_normal_axis (cw_edge c)))).

(** The pieces of a cube by kind, with the depths of their sets. *)
Inductive PieceSetOf :=
| SetCorner (s : list Corner)
| SetEdge (s : list Edge)
| SetWing (nd : Z) (s : list Wing)
| SetCenterCorner (nd : Z) (s : list CenterCorner)
| SetCenterEdge (nd : Z) (s : list CenterEdge)
| SetCenterWing (nd td : Z) (s : list CenterWing).

Definition cube_sets (n : CubeSize) : CubeOf n -> list PieceSetOf :=
  match n with
  | Size2 => fun c => [SetCorner (c2_corners c)]
  | Size3 => fun c => [SetCorner (c3_corners c); SetEdge (c3_edges c)]
  | Size4 => fun c => [SetCorner (c4_corners c); SetWing 1 (c4_wings c); SetCenterCorner 1 (c4_centers c)]
  | Size5 => fun c => [SetCorner (c5_corners c); SetEdge (c5_edges c);
                       SetCenterCorner 1 (c5_center_corners c); SetCenterEdge 1 (c5_center_edges c)]
  | Size6 => fun c => [SetCorner (c6_corners c); SetWing 1 (c6_wings_1 c); SetWing 2 (c6_wings_2 c);
                       SetCenterCorner 1 (c6_center_corners_1 c); SetCenterCorner 2 (c6_center_corners_2 c);
                       SetCenterWing 1 2 (c6_center_wings c)]
  | Size7 => fun c => [SetCorner (c7_corners c); SetEdge (c7_edges c);
                       SetWing 1 (c7_wings_1 c); SetWing 2 (c7_wings_2 c);
                       SetCenterCorner 1 (c7_center_corners_1 c); SetCenterCorner 2 (c7_center_corners_2 c);
                       SetCenterWing 1 2 (c7_center_wings c);
                       SetCenterEdge 1 (c7_center_edges_1 c); SetCenterEdge 2 (c7_center_edges_2 c)]
  end.

(** ** Stickers: what a physical piece shows, given its original position. *)

Definition wing_stickers (k nd : Z) (o w : Wing) : list Sticker :=
  (* the coloured faces of a wing are those of an edge; its flag is relative to the
     flag it started with *)
  map (fun fc => mkSticker (wing_loc k nd w) (normal (fst fc)) (snd fc))
      (edge_colors (mkEdge (e_normal (wg_edge w)) (e_slice (wg_edge w))
                           (Bool.eqb (e_oriented (wg_edge w)) (e_oriented (wg_edge o))))
                   (edge_position (wg_edge o))).

Definition cc_face (c : CenterCorner) : Face := mkFace (cc_axis c) (vget (cc_pos c) (cc_axis c)).

(** Position (doubled coordinates) of each piece of a set, and its stickers. *)
Definition set_locations (k : Z) (s : PieceSetOf) : list V3 :=
  match s with
  | SetCorner s => map (corner_loc k) s
  | SetEdge s => map (edge_loc k) s
  | SetWing nd s => map (wing_loc k nd) s
  | SetCenterCorner nd s => map (cc_loc k nd) s
  | SetCenterEdge nd s => map (ce_loc k nd) s
  | SetCenterWing nd td s => map (cw_loc k nd td) s
  end.
Definition set_stickers (k : Z) (s : PieceSetOf) : list Sticker :=
  match s with
  | SetCorner s =>
      flat_map (fun x => map (fun fc => mkSticker (corner_loc k (snd x)) (normal (fst fc)) (snd fc))
                             (corner_colors (snd x) (fst x))) (combine corner_reference s)
  | SetEdge s =>
      flat_map (fun x => map (fun fc => mkSticker (edge_loc k (snd x)) (normal (fst fc)) (snd fc))
                             (edge_colors (snd x) (fst x))) (combine edge_reference s)
  | SetWing nd s => flat_map (fun x => wing_stickers k nd (fst x) (snd x)) (combine wing_solved s)
  | SetCenterCorner nd s =>
      map (fun x => mkSticker (cc_loc k nd (snd x)) (normal (cc_face (snd x))) (cc_face (fst x)))
          (combine cc_solved s)
  | SetCenterEdge nd s =>
      map (fun x => mkSticker (ce_loc k nd (snd x)) (normal (ce_main (snd x))) (ce_main (fst x)))
          (combine ce_solved s)
  | SetCenterWing nd td s =>
      map (fun x => mkSticker (cw_loc k nd td (snd x)) (normal (ce_main (cw_edge (snd x))))
                              (ce_main (cw_edge (fst x))))
          (combine cw_solved s)
  end.

Definition cube_locations (n : CubeSize) (c : CubeOf n) : list V3 :=
  flat_map (set_locations (sizeZ n)) (cube_sets n c).
Definition cube_stickers (n : CubeSize) (c : CubeOf n) : list Sticker :=
  flat_map (set_stickers (sizeZ n)) (cube_sets n c).

(** Every sticker is on the face of its own colour. *)
Definition shows_solved (n : CubeSize) (c : CubeOf n) : Prop :=
  forall s, In s (cube_stickers n c) -> st_normal s = normal (st_color s).

(** What a wide move does to a sticker of the physical cube. *)
Definition turn_wide_sticker (n : CubeSize) (w : WideAxisMove) (s : Sticker) : Sticker :=
  if in_layers n (mv_face (w_move w)) (Z.of_N (w_depth w)) (st_cubie s)
  then mkSticker (move_space (w_move w) (st_cubie s)) (move_space (w_move w) (st_normal s)) (st_color s)
  else s.

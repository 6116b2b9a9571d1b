(** The stickers of a physical 3x3 cube.

    A facelet is a cubie [p] (coordinates -1, 0, 1) with an outward normal [n].  The
    stickers of a [Cube3] are what the public [Colored] and [Coordinates] traits report
    for its pieces, together with the six fixed centres. *)

From Coq Require Import List Bool ZArith.
From Verif Require Import Model_Base Model_Space Model_Moves Model_Pieces Model_PieceSet Model_Cubes
  Model_Visual Spec_Moves Spec_Geometry.
Import ListNotations.
Open Scope Z_scope.

Definition to_v3 (c : Coord) : V3 := let '(x, y, z) := c in mkV3 x y z.

Record Sticker := mkSticker { st_cubie : V3; st_normal : V3; st_color : Color }.

(** The stickers of one piece, given its colours and its coordinates. *)
Definition piece_stickers (p : Coord) (colors : list (Face * Color)) : list Sticker :=
  map (fun fc => mkSticker (to_v3 p) (normal (fst fc)) (snd fc)) colors.

Definition cube3_stickers (c : Cube3) : list Sticker :=
  map (fun f => mkSticker (normal f) (normal f) f) face_iter ++
  flat_map (fun x => piece_stickers (corner_coordinates (c_pos (snd x))) (corner_colors (snd x) (fst x)))
           (iter_with_pos corner_desc (c3_corners c)) ++
  flat_map (fun x => piece_stickers (edge_coordinates (edge_position (snd x))) (edge_colors (snd x) (fst x)))
           (iter_with_pos edge_desc (c3_edges c)).

(** The colour seen at a facelet. *)
Definition color_at (c : Cube3) (p n : V3) : option Color :=
  option_map st_color
    (find_first (fun s => v3_eqb (st_cubie s) p && v3_eqb (st_normal s) n) (cube3_stickers c)).

(** The 54 facelets: the cubie is one of the 9 in the layer of the face. *)
Definition facelet (p : V3) (f : Face) : Prop :=
  -1 <= px p <= 1 /\ -1 <= py p <= 1 /\ -1 <= pz p <= 1 /\ dot p (normal f) = 1.

(** Every face shows its own colour on all nine stickers. *)
Definition looks_solved (c : Cube3) : Prop :=
  forall p f, facelet p f -> color_at c p (normal f) = Some f.

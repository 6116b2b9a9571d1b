(** The hand-written [Debug] texts of faces, colours and pieces ([{:?}]; the pretty form [{:#?}]
    is not modelled). *)

From Coq Require Import List Bool NArith String.
From Verif Require Import Model_Base Model_Space Model_Moves Model_Pieces Model_Visual Model_Parser.
Import ListNotations.
Open Scope list_scope.

(** space/axis.rs:20 derived [Debug for Axis]. *)
Definition debug_axis (a : Axis) : text := lit match a with AX => "X" | AY => "Y" | AZ => "Z" end.
(** space/direction.rs:5 derived [Debug for Direction]. *)
Definition debug_direction (d : Direction) : text := lit match d with Positive => "Positive" | Negative => "Negative" end.
(** core [Display] and [Debug for bool], used at pieces/edge.rs:249 and pieces/center/wing.rs:139. *)
Definition debug_bool (b : bool) : text := lit (if b then "true" else "false").

(** space/face.rs:26-31 [Debug for Face]. *)
Definition debug_face (f : Face) : text := lit "Face { " ++ display_face f ++ lit " }".

(** visualization/mod.rs:69-82 [Debug for Color]. *)
Definition debug_color (c : Color) : text :=
  lit "Color { " ++
  lit match c with
      | mkFace AX Positive => "red" | mkFace AX Negative => "orange"
      | mkFace AY Positive => "white" | mkFace AY Negative => "yellow"
      | mkFace AZ Positive => "green" | mkFace AZ Negative => "blue"
      end ++ lit " }".

(** pieces/edge.rs:246-253 [Debug for Edge]. *)
Definition debug_edge (e : Edge) : text :=
  let (f1, f2) := edge_faces e in
  lit "Edge { faces: " ++ display_face f1 ++ display_face f2 ++ lit ", oriented: " ++ debug_bool (e_oriented e) ++ lit " }".

(** pieces/corner.rs:160-170 [Debug for Corner] (it ends in a parenthesis). *)
Definition debug_corner (c : Corner) : text :=
  lit "Corner { faces: " ++ flat_map display_face (corner_faces c) ++ lit ", orientation_axis: " ++ debug_axis (c_axis c) ++ lit ")".

(** pieces/wing.rs:176-186 [Debug for Wing]. *)
Definition debug_wing (w : Wing) : text :=
  let (f1, f2) := edge_faces (wg_edge w) in
  lit "Wing { faces: " ++ display_face f1 ++ display_face f2 ++ lit ", normal_direction: " ++ debug_direction (wing_normal_dir w) ++ lit " }".

(** pieces/center/wing.rs:133-142 [Debug for CenterWing], by core's [debug_struct]; [side_face] can panic. *)
Definition debug_center_wing (c : CenterWing) : outcome text :=
  bind_o (ce_side_face_o (cw_edge c)) (fun side =>
  Done (lit "CenterWing { main_face: " ++ debug_face (ce_main (cw_edge c)) ++ lit ", side_face: " ++ debug_face side ++
        lit ", normal_direction: " ++ debug_direction (cw_normal_dir c) ++ lit ", hypo_orient: " ++ debug_bool (cw_oriented c) ++ lit " }")).

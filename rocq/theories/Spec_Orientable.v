(** A physical cube held in some orientation, and what the extended moves mean for it.

    Nothing here uses the orientation arithmetic of the code except the two observable
    faces [r_face()] and [u_face()]: "the current position of the original R (U) face". *)

From Coq Require Import List Bool ZArith.
From Verif Require Import Model_Base Model_Space Model_Moves Model_Cubes Model_Orientable
  Spec_Moves Spec_Geometry Spec_Stickers Spec_BigCube.
Import ListNotations.
Open Scope Z_scope.

(** The rotation of space that takes the R direction to [r], the U direction to [u] (and
    therefore the F direction to [r x u]). *)
Definition frame_map (r u v : V3) : V3 :=
  v3_add (v3_scale (px v) r) (v3_add (v3_scale (py v) u) (v3_scale (pz v) (cross r u))).

(** The rotation of space described by an orientation. *)
Definition orientation_map (o : Orientation) (v : V3) : V3 :=
  frame_map (normal (or_r_face o)) (normal (or_u_face o)) v.

(** Performing a sequence of whole-cube rotations. *)
Definition rotate_all (rs : list AxisRotation) (v : V3) : V3 :=
  fold_left (fun v r => rotate_space r v) rs v.

(** The fixed face centres of the odd cubes (not represented in the code). *)
Definition centre_stickers (n : CubeSize) : list Sticker :=
  if Z.odd (sizeZ n)
  then map (fun f => mkSticker (v3_scale (sizeZ n - 1) (normal f)) (normal f) f) face_iter
  else [].

(** What the user sees: all stickers of the cube, rotated as the cube is held. *)
Definition hold (o : Orientation) (s : Sticker) : Sticker :=
  mkSticker (orientation_map o (st_cubie s)) (orientation_map o (st_normal s)) (st_color s).
Definition view (n : CubeSize) (o : Orientable n) : list Sticker :=
  map (hold (ob_ori o)) (cube_stickers n (ob_cube o) ++ centre_stickers n).

(** Which cubies an extended move turns (in the frame of the user), and how.
    A face move turns the outermost layer; a wide move of depth [d] the [d+1] outermost
    layers, which is the whole cube for large [d]; a slice move turns everything between
    the two outermost layers, and the one with the small letter ([wide]) only the middle
    layer. *)
Definition turned_by (n : CubeSize) (m : ExtendedAxisMove) (p : V3) : bool :=
  match m with
  | XRegular m => in_layers n (mv_face m) 0 p
  | XRotation _ => true
  | XWide w => in_layers n (mv_face (w_move w)) (Z.of_N (w_depth w)) p
  | XSlice r false => Z.abs (dot p (unit (rot_axis r))) <? sizeZ n - 1
  | XSlice r true => dot p (unit (rot_axis r)) =? 0
  end.
Definition ext_space (m : ExtendedAxisMove) : V3 -> V3 :=
  match m with
  | XRegular m => move_space m
  | XRotation r => rotate_space r
  | XWide w => move_space (w_move w)
  | XSlice r _ => rotate_space r
  end.
Definition ext_turn (n : CubeSize) (m : ExtendedAxisMove) (s : Sticker) : Sticker :=
  if turned_by n m (st_cubie s)
  then mkSticker (ext_space m (st_cubie s)) (ext_space m (st_normal s)) (st_color s)
  else s.

(** Model of /repo/barbarosa/src/cube_n/moves/extended.rs and of
    /repo/barbarosa/src/cube_n/orientable/{mod,orientation}.rs. *)

From Coq Require Import List Bool Arith NArith.
From Verif Require Import Model_Base Model_Space Model_Moves Model_Pieces Model_PieceSet Model_Cubes.
Import ListNotations.

(* ------------------------------------------------------------------ *)
(** * Extended moves *)

(** moves/extended.rs:23-38 [enum ExtendedAxisMove]. *)
Inductive ExtendedAxisMove :=
| XRegular (m : AxisMove)
| XRotation (r : AxisRotation)
| XWide (w : WideAxisMove)
| XSlice (r : AxisRotation) (wide : bool).

(** moves/extended.rs:31: the const generic of the wide variant is [u32::MAX]. *)
Definition u32_max : N := 4294967295.

(** moves/extended.rs:40-52 [Move::inverse]. *)
Definition ext_inverse (m : ExtendedAxisMove) : ExtendedAxisMove :=
  match m with
  | XRegular m => XRegular (move_inverse m)
  | XRotation r => XRotation (rot_inverse r)
  | XWide w => XWide (wide_inverse w)
  | XSlice r wide => XSlice (rot_inverse r) wide
  end.

(** moves/extended.rs:54-58 [opposite::<N>]; the [unwrap] is [Panic]. *)
Definition wide_opposite (n : N) (m : WideAxisMove) (depth : N) : outcome WideAxisMove :=
  match move_widen n (mkMove (opposite (mv_face (w_move m))) (mv_amount (w_move m))) depth with
  | Ok w => Done w
  | Err _ => Panic
  end.

(** moves/extended.rs:120-127 [From<WideAxisMove<N>>]; the [expect] is [Panic]. *)
Definition ext_of_wide (w : WideAxisMove) : outcome ExtendedAxisMove :=
  match wide_set_max_depth u32_max w with Ok w => Done (XWide w) | Err _ => Panic end.

(* ------------------------------------------------------------------ *)
(** * Orientations *)

(** orientable/orientation.rs:18-22 [struct Orientation]. *)
Record Orientation := mkOri { or_r_face : Face; or_handedness : Direction; or_side : Direction }.

(** orientable/orientation.rs:17 derived [PartialEq]. *)
Definition ori_eqb (a b : Orientation) : bool :=
  face_eqb (or_r_face a) (or_r_face b) && dir_eqb (or_handedness a) (or_handedness b)
  && dir_eqb (or_side a) (or_side b).

(** orientable/orientation.rs:96-102 [const_default]. *)
Definition ori_default : Orientation := mkOri fR Positive Positive.

(** orientable/orientation.rs:66-69 [u_face]. *)
Definition or_u_face (o : Orientation) : Face :=
  mkFace (next_with_handedness (face_axis (or_r_face o)) (or_handedness o)) (or_side o).

(** orientable/orientation.rs:24-39 [connecting_rotation]. *)
Definition connecting_rotation (from to : Face) : option AxisRotation :=
  match face_cross from to with
  | Some c => Some (mkRot (face_axis c) (amount_of_dir (dir_neg (face_dir c))))
  | None =>
      if dir_eqb (face_dir from) (face_dir to) then None
      else Some (mkRot (axis_next (face_axis from)) Double)
  end.

(** orientable/orientation.rs:42-57 [connecting_rotation_with_face]; the
    [debug_assert_ne!]s are checked as in a debug build. *)
Definition connecting_rotation_with_face (from to face : Face) : outcome (option AxisRotation) :=
  if axis_eqb (face_axis from) (face_axis face) || axis_eqb (face_axis to) (face_axis face) then Panic
  else if face_eqb from to then Done None
  else bind_o (get_handedness (face_axis from) (face_axis to)) (fun h =>
    let amount := match h with Ok Positive => Single | Ok Negative => Inverse | Err _ => Double end in
    Done (Some (mkRot (face_axis face) amount))).

(** orientable/orientation.rs:72-94 [rotations]. *)
Definition or_rotations (o : Orientation) : outcome (list AxisRotation) :=
  let r_rot := connecting_rotation fR (or_r_face o) in
  let new_u := match r_rot with Some rot => rotate_face fU rot | None => fU end in
  let r_face := match r_rot with Some rot => Some (rotate_face fR rot) | None => None end in
  let u_rot := match r_face with
               | Some r_face => connecting_rotation_with_face new_u (or_u_face o) r_face
               | None => Done (connecting_rotation new_u (or_u_face o))
               end in
  map_o (fun u_rot =>
    match r_rot, u_rot with
    | None, None => []
    | Some rot, None | None, Some rot => [rot]
    | Some r_rot, Some u_rot => [r_rot; u_rot]
    end) u_rot.

(** orientable/orientation.rs:105-120 [TryFrom<[Face; 2]>]. *)
Definition or_try_from (r_face u_face : Face) : outcome (result Orientation ParallelAxesError) :=
  map_o (fun h => bind_r h (fun h => Ok (mkOri r_face h (face_dir u_face))))
        (get_handedness (face_axis r_face) (face_axis u_face)).

(** orientable/orientation.rs:122-135 [Rotatable for Orientation]; the [expect] is [Panic]. *)
Definition or_rotate_o (o : Orientation) (r : AxisRotation) : outcome Orientation :=
  let u_face := rotate_face (or_u_face o) r in
  let r_face := rotate_face (or_r_face o) r in
  bind_o (get_handedness (face_axis r_face) (face_axis u_face)) (fun h =>
    match h with
    | Ok h => Done (mkOri r_face h (face_dir u_face))
    | Err _ => Panic
    end).

(* ------------------------------------------------------------------ *)
(** * Orientable cubes *)

(** orientable/mod.rs:16-25 [struct Orientable<C>]. *)
Record Orientable (n : CubeSize) := mkOrientable { ob_cube : CubeOf n; ob_ori : Orientation }.
Arguments mkOrientable {n}.
Arguments ob_cube {n}.
Arguments ob_ori {n}.

(** orientable/mod.rs:32-37 [new] and 68-73 [SOLVED]. *)
Definition orientable_new {n} (c : CubeOf n) : Orientable n := mkOrientable c ori_default.
(** orientable/mod.rs:68-73 [SOLVED]. *)
Definition orientable_solved (n : CubeSize) : Orientable n := orientable_new (cube_solved n).

(** orientable/mod.rs:53-66 generic [apply], for [AxisMove] (the [Rotatable] move of the
    code): the move is rotated by each of [rotations()], then applied to the base cube. *)
Definition orientable_apply (n : CubeSize) (o : Orientable n) (m : AxisMove) : outcome (Orientable n) :=
  map_o (fun rots => mkOrientable (cube_apply n (ob_cube o) (fold_left rotate_move rots m)) (ob_ori o))
        (or_rotations (ob_ori o)).

(** The const expression [N / 2 - 1] of moves/extended.rs:87, 97, 100. *)
Definition half_depth (n : CubeSize) : N := cube_size_N n / 2 - 1.

(** [self.orientation.rotate(rot)]. cube_n/moves/extended.rs:69-105. *)
Definition orientable_rotate {n} (o : Orientable n) (r : AxisRotation) : outcome (Orientable n) :=
  map_o (mkOrientable (ob_cube o)) (or_rotate_o (ob_ori o) r).

(** moves/extended.rs:92-101: one turn of the [for dir in ..] loop of a slice move. *)
Definition slice_step (n : CubeSize) (r : AxisRotation) (wide : bool) (c : CubeOf n) (dir : Direction)
  : outcome (CubeOf n) :=
  let depth := if wide then half_depth n else 0%N in
  match wide_new (half_depth n) (mkFace (rot_axis r) dir) (amount_mul (rot_amount r) Negative) depth with
  | Ok w => Done (cube_apply_wide n c w)
  | Err _ => Panic
  end.

(** moves/extended.rs:68-108 [Movable<ExtendedAxisMove> for Orientable<CubeN>].
    [N.checked_sub(depth)] is [None] when the depth exceeds [N]. *)
Definition ext_apply (n : CubeSize) (o : Orientable n) (m : ExtendedAxisMove) : outcome (Orientable n) :=
  match m with
  | XRegular m => orientable_apply n o m
  | XRotation r => orientable_rotate o r
  | XWide w =>
      if N.ltb (cube_size_N n) (w_depth w) then orientable_rotate o (rot_of_move (w_move w))
      else
        let depth_opposite := (cube_size_N n - w_depth w)%N in
        bind_o (if N.ltb (w_depth w) depth_opposite then Done (o, w)
                else bind_o (orientable_rotate o (rot_of_move (w_move w))) (fun o =>
                     bind_o (wide_opposite u32_max w depth_opposite) (fun w => Done (o, w))))
          (fun ow => let (o, w) := ow in
             match wide_set_max_depth (half_depth n) w with
             | Ok w => Done (mkOrientable (cube_apply_wide n (ob_cube o) w) (ob_ori o))
             | Err _ => Panic
             end)
  | XSlice r wide =>
      bind_o (slice_step n r wide (ob_cube o) Positive) (fun c =>
      bind_o (slice_step n r wide c Negative) (fun c =>
      orientable_rotate (mkOrientable c (ob_ori o)) r))
  end.

(** Total version of [or_rotate_o] (it never panics, [or_rotate_o_done]). orientable/orientation.rs:122-131. *)
Definition or_rotate (o : Orientation) (r : AxisRotation) : Orientation :=
  from_outcome o (or_rotate_o o r).
Lemma or_rotate_o_done o r : or_rotate_o o r = Done (or_rotate o r).
Proof. destruct o as [[[] []] [] []], r as [[] []]; reflexivity. Qed.

Lemma ori_eqb_eq a b : ori_eqb a b = true <-> a = b.
Proof.
  unfold ori_eqb. rewrite !andb_true_iff, face_eqb_eq, !dir_eqb_eq.
  destruct a, b; cbn; split; [intros [[-> ->] ->]|intros [= -> -> ->]]; auto.
Qed.

(** Model of /repo/barbarosa/src/cube_n/space: axes, directions, faces and
    vectors of directions. *)

From Coq Require Import List Bool Arith ZArith Lia.
From Verif Require Import Model_Base.
Import ListNotations.

(** space/axis.rs:22-29 [enum Axis]. *)
Inductive Axis := AX | AY | AZ.

(** space/direction.rs:6-10 [enum Direction]. *)
Inductive Direction := Positive | Negative.

(** space/axis.rs:21 derived [PartialEq]. *)
Definition axis_eqb (a b : Axis) : bool :=
  match a, b with AX, AX | AY, AY | AZ, AZ => true | _, _ => false end.

(** space/direction.rs:6 derived [PartialEq]. *)
Definition dir_eqb (a b : Direction) : bool :=
  match a, b with Positive, Positive | Negative, Negative => true | _, _ => false end.

(** space/axis.rs:22-29: discriminant [axis as usize]. *)
Definition axis_num (a : Axis) : nat := match a with AX => 0 | AY => 1 | AZ => 2 end.

(** space/axis.rs:21 [Axis::iter()] (strum EnumIter, declaration order). *)
Definition axis_iter : list Axis := [AX; AY; AZ].

(** space/direction.rs:6 [Direction::iter()]. *)
Definition direction_iter : list Direction := [Positive; Negative].

(** space/direction.rs:12-26 [Direction::scalar]. *)
Definition scalar (d : Direction) : Z := match d with Positive => 1%Z | Negative => (-1)%Z end.

(** space/direction.rs:28-37 [Neg for Direction]. *)
Definition dir_neg (d : Direction) : Direction :=
  match d with Positive => Negative | Negative => Positive end.

(** cube_n/mod.rs [Vec3 = nalgebra::Vector3<Direction>]. *)
Record Vec3 := mkVec3 { vx : Direction; vy : Direction; vz : Direction }.

(** cube_n/mod.rs [Vec2 = nalgebra::Vector2<Direction>]. *)
Record Vec2 := mkVec2 { v0 : Direction; v1 : Direction }.

(** derived [PartialEq] of nalgebra vectors. *)
Definition vec3_eqb (a b : Vec3) : bool :=
  dir_eqb (vx a) (vx b) && dir_eqb (vy a) (vy b) && dir_eqb (vz a) (vz b).
(** The same for two components. Comparison of [Vec2], e.g. pieces/wing.rs:113. *)
Definition vec2_eqb (a b : Vec2) : bool :=
  dir_eqb (v0 a) (v0 b) && dir_eqb (v1 a) (v1 b).

(** space/axis.rs:31-37 [Index<Axis> for Vector3]. *)
Definition vget (v : Vec3) (a : Axis) : Direction :=
  match a with AX => vx v | AY => vy v | AZ => vz v end.

(** space/axis.rs:39-43 [IndexMut<Axis> for Vector3]. *)
Definition vset (v : Vec3) (a : Axis) (d : Direction) : Vec3 :=
  match a with
  | AX => mkVec3 d (vy v) (vz v)
  | AY => mkVec3 (vx v) d (vz v)
  | AZ => mkVec3 (vx v) (vy v) d
  end.

(** space/axis.rs:57-63 [Axis::basis]. *)
Definition basis (normal : Axis) : Axis * Axis :=
  match normal with AX => (AY, AZ) | AY => (AZ, AX) | AZ => (AX, AY) end.

(** space/axis.rs:67-79 [Axis::map_on_slice], at type [Direction]. *)
Definition map_on_slice (a : Axis) (v : Vec3) (f : Vec2 -> Vec2) : Vec3 :=
  let (x, y) := basis a in
  let r := f (mkVec2 (vget v x) (vget v y)) in
  vset (vset v x (v0 r)) y (v1 r).

(** space/axis.rs:85-87 [Axis::offset]: [(other - self).rem_euclid(3)].
    [Z.modulo] by 3 is the Euclidean remainder. *)
Definition offset (self other : Axis) : Z :=
  Z.modulo (Z.of_nat (axis_num other) - Z.of_nat (axis_num self)) 3.

(** space/axis.rs:90-96 [Axis::next]. *)
Definition axis_next (a : Axis) : Axis := match a with AX => AY | AY => AZ | AZ => AX end.

(** space/axis.rs:99-105 [Axis::prev]. *)
Definition axis_prev (a : Axis) : Axis := match a with AX => AZ | AY => AX | AZ => AY end.

(** space/axis.rs:108-113 [Axis::next_with_handedness]. *)
Definition next_with_handedness (a : Axis) (h : Direction) : Axis :=
  match h with Positive => axis_next a | Negative => axis_prev a end.

(** pieces/edge.rs:272 [ParallelAxesError]. *)
Inductive ParallelAxesError := SameAxis (a : Axis).

(** space/axis.rs:117-124 [Axis::get_handedness]; the [unreachable!] arm is
    [Panic]. *)
Definition get_handedness (self other : Axis) : outcome (result Direction ParallelAxesError) :=
  match offset self other with
  | 0%Z => Done (Err (SameAxis self))
  | 1%Z => Done (Ok Positive)
  | 2%Z => Done (Ok Negative)
  | _ => Panic
  end.

(** space/axis.rs:127-136 [Axis::other]. *)
Definition axis_other (a b : Axis) : option Axis :=
  match a, b with
  | AX, AX | AY, AY | AZ, AZ => None
  | AX, AY | AY, AX => Some AZ
  | AX, AZ | AZ, AX => Some AY
  | AY, AZ | AZ, AY => Some AX
  end.

(** space/face.rs:13-18 [struct Face]. *)
Record Face := mkFace { face_axis : Axis; face_dir : Direction }.

(** space/face.rs:12 derived [PartialEq]. *)
Definition face_eqb (a b : Face) : bool :=
  axis_eqb (face_axis a) (face_axis b) && dir_eqb (face_dir a) (face_dir b).

(** space/face.rs:71-81 face constants. *)
Definition fR := mkFace AX Positive.
(** space/face.rs:71-81 [L]. *)
Definition fL := mkFace AX Negative.
(** space/face.rs:71-81 [U]. *)
Definition fU := mkFace AY Positive.
(** space/face.rs:71-81 [D]. *)
Definition fD := mkFace AY Negative.
(** space/face.rs:71-81 [F]. *)
Definition fF := mkFace AZ Positive.
(** space/face.rs:71-81 [B]. *)
Definition fB := mkFace AZ Negative.

(** space/face.rs:86-96 [Face::iter]. *)
Definition face_iter : list Face := [fR; fU; fF; fL; fD; fB].

(** space/face.rs:99-104 [Face::opposite]. *)
Definition opposite (f : Face) : Face := mkFace (face_axis f) (dir_neg (face_dir f)).

(** space/face.rs:107-133 [Face::next_around]. *)
Definition next_around (f : Face) (a : Axis) : Face :=
  match a with
  | AX => match f with
         | mkFace AZ Positive => fU
         | mkFace AY Negative => fF
         | mkFace AZ Negative => fD
         | mkFace AY Positive => fB
         | _ => f
         end
  | AY => match f with
         | mkFace AX Positive => fF
         | mkFace AZ Positive => fL
         | mkFace AX Negative => fB
         | mkFace AZ Negative => fR
         | _ => f
         end
  | AZ => match f with
         | mkFace AX Positive => fD
         | mkFace AY Negative => fL
         | mkFace AX Negative => fU
         | mkFace AY Positive => fR
         | _ => f
         end
  end.

(** space/face.rs:136-162 [Face::prev_around]. *)
Definition prev_around (f : Face) (a : Axis) : Face :=
  match a with
  | AX => match f with
         | mkFace AZ Positive => fD
         | mkFace AY Negative => fB
         | mkFace AZ Negative => fU
         | mkFace AY Positive => fF
         | _ => f
         end
  | AY => match f with
         | mkFace AX Positive => fB
         | mkFace AZ Negative => fL
         | mkFace AX Negative => fF
         | mkFace AZ Positive => fR
         | _ => f
         end
  | AZ => match f with
         | mkFace AX Positive => fU
         | mkFace AY Positive => fL
         | mkFace AX Negative => fD
         | mkFace AY Negative => fR
         | _ => f
         end
  end.

(** space/face.rs:165-167 [Face::contains_vector]. *)
Definition contains_vector (f : Face) (v : Vec3) : bool :=
  dir_eqb (vget v (face_axis f)) (face_dir f).

(** space/face.rs:185-194 [Face::cross]. *)
Definition face_cross (self other : Face) : option Face :=
  match axis_other (face_axis self) (face_axis other) with
  | None => None
  | Some a =>
      Some (mkFace a (if face_eqb (next_around self a) other then Negative else Positive))
  end.

(** space/face.rs:197-203 [Face::coords] as an integer triple. *)
Definition face_coords (f : Face) : Z * Z * Z :=
  match face_axis f with
  | AX => (scalar (face_dir f), 0, 0)%Z
  | AY => (0, scalar (face_dir f), 0)%Z
  | AZ => (0, 0, scalar (face_dir f))%Z
  end.

(** space/face.rs:206-215 [Face::index]. *)
Definition face_index (f : Face) : nat :=
  match f with
  | mkFace AX Positive => 0
  | mkFace AY Positive => 1
  | mkFace AZ Positive => 2
  | mkFace AX Negative => 3
  | mkFace AY Negative => 4
  | mkFace AZ Negative => 5
  end.

(** space/axis.rs:45-53 [From<&Axis> for Vector3<i8>]. *)
Definition vector_of_axis (a : Axis) : Z * Z * Z :=
  match a with AX => (1, 0, 0)%Z | AY => (0, 1, 0)%Z | AZ => (0, 0, 1)%Z end.

(** space/face.rs:20-24 [From<&Face> for Vector3<i8>]: the vector of the axis times the
    direction as a number (space/direction.rs [From<&Direction> for i8]). No product leaves
    the range of [i8]. *)
Definition vector_of_face (f : Face) : Z * Z * Z :=
  let '(x, y, z) := vector_of_axis (face_axis f) in
  (x * scalar (face_dir f), y * scalar (face_dir f), z * scalar (face_dir f))%Z.

(** generic/utils.rs:27-36 [slice_coords], of the vector [(x, y, z)]. *)
Definition slice_coords {T} (x y z : T) (normal : Axis) : T * T :=
  match normal with AX => (y, z) | AY => (x, z) | AZ => (x, y) end.

Lemma axis_eqb_eq a b : axis_eqb a b = true <-> a = b.
Proof. destruct a, b; cbv; split; congruence. Qed.
Lemma dir_eqb_eq a b : dir_eqb a b = true <-> a = b.
Proof. destruct a, b; cbv; split; congruence. Qed.
Lemma vec3_eqb_eq a b : vec3_eqb a b = true <-> a = b.
Proof. destruct a as [[] [] []], b as [[] [] []]; cbv; split; congruence. Qed.
Lemma vec2_eqb_eq a b : vec2_eqb a b = true <-> a = b.
Proof. destruct a as [[] []], b as [[] []]; cbv; split; congruence. Qed.
Lemma face_eqb_eq a b : face_eqb a b = true <-> a = b.
Proof. destruct a as [[] []], b as [[] []]; cbv; split; congruence. Qed.
Lemma axis_eqb_refl a : axis_eqb a a = true. Proof. destruct a; reflexivity. Qed.
Lemma dir_eqb_refl a : dir_eqb a a = true. Proof. destruct a; reflexivity. Qed.

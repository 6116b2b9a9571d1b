(** Physical geometry: integer vectors, clockwise rotations of space, layers of a
    cube.  Independent of the tables in the code.

    x points right (R), y up (U), z to the viewer (F). *)

From Coq Require Import List Bool ZArith.
From Verif Require Import Model_Space Model_Moves Spec_Moves.
Import ListNotations.
Open Scope Z_scope.

Record V3 := mkV3 { px : Z; py : Z; pz : Z }.

Definition v3_eqb (a b : V3) : bool :=
  (px a =? px b) && (py a =? py b) && (pz a =? pz b).
Definition v3_add (a b : V3) : V3 := mkV3 (px a + px b) (py a + py b) (pz a + pz b).
Definition v3_scale (k : Z) (a : V3) : V3 := mkV3 (k * px a) (k * py a) (k * pz a).
Definition v3_neg (a : V3) : V3 := v3_scale (-1) a.
Definition dot (a b : V3) : Z := px a * px b + py a * py b + pz a * pz b.
(** The right-handed cross product. *)
Definition cross (a b : V3) : V3 :=
  mkV3 (py a * pz b - pz a * py b) (pz a * px b - px a * pz b) (px a * py b - py a * px b).

(** Unit vector of an axis, outward normal of a face, and the point of a vector of
    directions. *)
Definition unit (a : Axis) : V3 :=
  match a with AX => mkV3 1 0 0 | AY => mkV3 0 1 0 | AZ => mkV3 0 0 1 end.
Definition normal (f : Face) : V3 := v3_scale (scalar (face_dir f)) (unit (face_axis f)).
Definition point (v : Vec3) : V3 := mkV3 (scalar (vx v)) (scalar (vy v)) (scalar (vz v)).

(** A quarter turn around the unit vector [u], clockwise seen from its tip: the part
    along [u] stays, the rest [w] goes to [w x u] (Rodrigues' formula for -90 degrees). *)
Definition quarter_cw (u v : V3) : V3 := v3_add (v3_scale (dot v u) u) (cross v u).

(** [n] clockwise quarter turns around [u]. *)
Definition turn (u : V3) (n : nat) (v : V3) : V3 := times n (quarter_cw u) v.

(** Rotation of space meant by an [AxisRotation] and by an [AxisMove]: clockwise seen
    from the tip of the axis, respectively from outside the face. *)
Definition rotate_space (r : AxisRotation) (v : V3) : V3 :=
  turn (unit (rot_axis r)) (quarter_turns (rot_amount r)) v.
Definition move_space (m : AxisMove) (v : V3) : V3 :=
  turn (normal (mv_face m)) (quarter_turns (mv_amount m)) v.

Lemma v3_eqb_eq a b : v3_eqb a b = true <-> a = b.
Proof.
  unfold v3_eqb. rewrite !andb_true_iff, !Z.eqb_eq. destruct a, b; cbn.
  split; [intros [[-> ->] ->]; reflexivity|intros [= -> -> ->]; auto].
Qed.

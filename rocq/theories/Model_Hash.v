(** Model of hashing: the [derive(Hash)] of the library's types and the hash sets of std that use it.

    A hasher of std ([core::hash::Hasher]) is anything that swallows numbers and gives a number
    in the end. Which numbers the derived implementations hand to it is modelled here; what the
    hasher makes of them is left open. Types without [Hash] ([Cube5], [Cube6], [Cube7], the moves,
    [Orientable]) cannot be hashed and do not occur. *)

From Coq Require Import List Bool ZArith NArith.
From Verif Require Import Model_Base Model_Space Model_Moves Model_Pieces Model_PieceSet Model_Cubes.
Import ListNotations.

(** One call of a [Hasher]: [write_usize], [write_isize] or [write_u8] (core). cube_n/cube3/mod.rs:29, all derives of [Hash]. *)
Inductive HashWrite := WriteUsize (n : Z) | WriteIsize (n : Z) | WriteU8 (n : Z).

(** A [Hasher] (core::hash): a state, how it swallows a number, and the hash in the end. Any hasher of std
    is one. cube_n/cube3/mod.rs:29. *)
Record Hasher := mkHasher { hs_state : Type; hs_new : hs_state; hs_write : hs_state -> HashWrite -> hs_state; hs_finish : hs_state -> N }.
(** [BuildHasher::hash_one] (core::hash): a new hasher, the value, the hash. cube_n/cube3/mod.rs:29. *)
Definition hash_one {A} (writes : A -> list HashWrite) (h : Hasher) (x : A) : N :=
  hs_finish h (fold_left (hs_write h) (writes x) (hs_new h)).

(** space/direction.rs:5-10 derived [Hash]: the discriminant, [Positive = 1], [Negative = -1]. *)
Definition hash_dir (d : Direction) : list HashWrite :=
  [WriteIsize (match d with Positive => 1 | Negative => -1 end)%Z].
(** space/axis.rs:21-29 derived [Hash]: the discriminant, 0 to 2. *)
Definition hash_axis (a : Axis) : list HashWrite :=
  [WriteIsize (match a with AX => 0 | AY => 1 | AZ => 2 end)%Z].
(** [bool] (core). pieces/edge.rs:22. *)
Definition hash_bool (b : bool) : list HashWrite := [WriteU8 (if b then 1 else 0)%Z].
(** space/face.rs:12-18 derived [Hash]: the fields in order. *)
Definition hash_face (f : Face) : list HashWrite := hash_axis (face_axis f) ++ hash_dir (face_dir f).
(** [Hash] of a nalgebra matrix: the numbers of rows and columns, then the elements, column by column.
    cube_n/mod.rs:51-52. *)
Definition hash_vec2 (v : Vec2) : list HashWrite :=
  [WriteUsize 2; WriteUsize 1] ++ hash_dir (v0 v) ++ hash_dir (v1 v).
(** As [hash_vec2]. cube_n/mod.rs:52. *)
Definition hash_vec3 (v : Vec3) : list HashWrite :=
  [WriteUsize 3; WriteUsize 1] ++ hash_dir (vx v) ++ hash_dir (vy v) ++ hash_dir (vz v).
(** pieces/corner.rs:21-29 derived [Hash]. *)
Definition hash_corner (c : Corner) : list HashWrite := hash_vec3 (c_pos c) ++ hash_axis (c_axis c).
(** pieces/edge.rs:22-46 derived [Hash]. *)
Definition hash_edge (e : Edge) : list HashWrite := hash_axis (e_normal e) ++ hash_vec2 (e_slice e) ++ hash_bool (e_oriented e).
(** pieces/wing.rs:27-30 derived [Hash]. *)
Definition hash_wing (w : Wing) : list HashWrite := hash_edge (wg_edge w).
(** pieces/center/corner.rs:19-23 derived [Hash]. *)
Definition hash_cc (c : CenterCorner) : list HashWrite := hash_vec3 (cc_pos c) ++ hash_axis (cc_axis c).
(** pieces/center/edge.rs:21-35 derived [Hash]. *)
Definition hash_ce (c : CenterEdge) : list HashWrite := hash_face (ce_main c) ++ hash_dir (ce_hand c) ++ hash_dir (ce_side_dir c).
(** pieces/center/wing.rs:25-29 derived [Hash]. *)
Definition hash_cw (c : CenterWing) : list HashWrite := hash_ce (cw_edge c) ++ hash_bool (cw_oriented c).
(** generic/piece/set.rs:39-42 and moves/wide.rs:200-209 derived [Hash]: an array hands over its length and then
    its elements (core). *)
Definition hash_set {P} (piece : P -> list HashWrite) (s : list P) : list HashWrite :=
  WriteUsize (Z.of_nat (length s)) :: flat_map piece s.
(** cube2/mod.rs:12-16 derived [Hash]. *)
Definition hash_cube2 (c : Cube2) : list HashWrite := hash_set hash_corner (c2_corners c).
(** cube3/mod.rs:29-36 derived [Hash]. *)
Definition hash_cube3 (c : Cube3) : list HashWrite := hash_set hash_edge (c3_edges c) ++ hash_set hash_corner (c3_corners c).
(** cube4/mod.rs:15-20 derived [Hash]. *)
Definition hash_cube4 (c : Cube4) : list HashWrite :=
  hash_set hash_corner (c4_corners c) ++ hash_set hash_wing (c4_wings c) ++ hash_set hash_cc (c4_centers c).

(** [std::collections::HashSet], as used in cube3/test.rs:19-24. Simplified: the table is the list of its
    values with their hashes; where they lie in memory and how the table grows is left out. A value is found
    only among those with its own hash, and there by [==]. *)
Definition HashSet (A : Type) : Type := list (N * A).
(** [HashSet::contains] (std). cube3/test.rs:19-24. *)
Definition set_contains {A} (eqb : A -> A -> bool) (hash : A -> N) (s : HashSet A) (x : A) : bool :=
  existsb (fun p => N.eqb (fst p) (hash x) && eqb (snd p) x) s.
(** [HashSet::insert] (std): a value that is there already is not added again. cube3/test.rs:19-24. *)
Definition set_insert {A} (eqb : A -> A -> bool) (hash : A -> N) (s : HashSet A) (x : A) : HashSet A :=
  if set_contains eqb hash s x then s else (hash x, x) :: s.
(** [collect::<HashSet<_>>] (std). cube3/test.rs:19-24. *)
Definition set_collect {A} (eqb : A -> A -> bool) (hash : A -> N) (xs : list A) : HashSet A :=
  fold_left (set_insert eqb hash) xs [].

(** Model of colours and of the unfolded drawing:
    /repo/barbarosa/src/cube_n/visualization/mod.rs, .../unfolded/mod.rs and the
    coordinates of the pieces. Terminal escape codes, RGB values and formatting are
    not modelled: a [Color] is the face it belongs to. *)

From Coq Require Import List Bool Arith ZArith Lia.
From Verif Require Import Model_Base Model_Space Model_Moves Model_Pieces Model_PieceSet Model_Cubes.
Import ListNotations.

(** visualization/mod.rs:19-23 [struct Color], a newtype around [Face]. *)
Definition Color : Type := Face.

(** visualization/mod.rs:84-105 [Colored for Corner]: three steps of the loop. *)
Fixpoint corner_colors_loop (n : nat) (pos orig : Vec3) (cur_axis orig_axis : Axis)
  : list (Face * Color) :=
  match n with
  | 0 => []
  | S n =>
      (mkFace cur_axis (vget pos cur_axis), mkFace orig_axis (vget orig orig_axis))
      :: corner_colors_loop n pos orig (corner_next_axis pos cur_axis)
           (corner_next_axis orig orig_axis)
  end.
(** visualization/mod.rs:84-105 [Colored for Corner]: the whole function. *)
Definition corner_colors (c : Corner) (orig : Vec3) : list (Face * Color) :=
  corner_colors_loop 3 (c_pos c) orig (c_axis c) AY.

(** visualization/mod.rs:107-126 [Colored for Edge]. *)
Definition edge_colors (e : Edge) (orig : EdgePos) : list (Face * Color) :=
  let orig_f1 := orientation_face orig in
  let orig_f2 := non_orientation_face orig in
  let f1 := orientation_face (edge_position e) in
  let f2 := non_orientation_face (edge_position e) in
  let (cur_f1, cur_f2) := if e_oriented e then (f1, f2) else (f2, f1) in
  [(cur_f1, orig_f1); (cur_f2, orig_f2)].

(** An [f32] vector of the code; all coordinates that occur are the integers -1, 0, 1. *)
Definition Coord : Type := Z * Z * Z.
(** [Vector3::dot] (nalgebra), exact on these values. *)
Definition coord_dot (a b : Coord) : Z :=
  let '(a1, a2, a3) := a in let '(b1, b2, b3) := b in (a1 * b1 + a2 * b2 + a3 * b3)%Z.

(** pieces/corner.rs:74-78 [coordinates_pos]. *)
Definition corner_coordinates (p : Vec3) : Coord := (scalar (vx p), scalar (vy p), scalar (vz p)).

(** pieces/edge.rs:135-141 [coordinates_pos] ([map_on_slice] on the zero vector,
    space/axis.rs:67-79). *)
Definition edge_coordinates (p : EdgePos) : Coord :=
  let a := scalar (v0 (snd p)) in
  let b := scalar (v1 (snd p)) in
  match fst p with
  | AX => (0, a, b)
  | AY => (b, 0, a)
  | AZ => (a, b, 0)
  end%Z.

(** unfolded/mod.rs:43-61 [Square::basis]. *)
Definition square_basis (f : Face) : Face * Face :=
  match f with
  | mkFace AY Positive => (fF, fR)
  | mkFace AZ Positive => (fD, fR)
  | mkFace AY Negative => (fB, fR)
  | mkFace AZ Negative => (fU, fR)
  | mkFace AX Negative => (fD, fF)
  | mkFace AX Positive => (fD, fB)
  end.

(** unfolded/mod.rs:96-106 [transform_coord]: [round((x+1) * n / 3)], [None] when out of
    range. For integers [x] the quotient is never half-way between two integers, so the
    [f32] rounding is the floor of [(2*(x+1)*n + 3) / 6]; Model_PrintFloat has the [f32]
    arithmetic and [C12_float] shows that the two agree. *)
Definition transform_coord (n : nat) (x : Z) : option nat :=
  let y := ((2 * ((x + 1) * Z.of_nat n) + 3) / 6)%Z in
  if (y <? 0)%Z || (Z.of_nat n <=? y)%Z then None else Some (Z.to_nat y).

(** unfolded/mod.rs:63-73 [Square::indices]. *)
Definition square_indices (n : nat) (p : Coord) (f : Face) : option (nat * nat) :=
  let (bx, by_) := square_basis f in
  match transform_coord n (coord_dot p (face_coords bx)) with
  | None => None
  | Some x =>
      match transform_coord n (coord_dot p (face_coords by_)) with
      | None => None
      | Some y => Some (x, y)
      end
  end.

(** unfolded/mod.rs:30-33 and 141-143: [Unfolded<N>] is an array of six squares of
    [N] rows of [N] colours. *)
Definition Unfolded : Type := list (list (list Color)).

(** unfolded/mod.rs:36-41 [Square::new]. *)
Definition square_new (n : nat) (c : Color) : list (list Color) := repeat (repeat c n) n.

(** unfolded/mod.rs:145-160 [Default]. *)
Definition unfolded_default (n : nat) : Unfolded := map (square_new n) [fR; fU; fF; fL; fD; fB].

(** unfolded/mod.rs:246-258 [Index] and 81-94 [Square::at] (array indexing). *)
Definition unfolded_at (u : Unfolded) (f : Face) (x y : nat) : option Color :=
  match nth_error u (face_index f) with
  | None => None
  | Some sq => match nth_error sq x with None => None | Some row => nth_error row y end
  end.

(** Assignment through [at_mut] (unfolded/mod.rs:89-94, 172-177). *)
Definition unfolded_set (u : Unfolded) (f : Face) (x y : nat) (c : Color) : Unfolded :=
  match nth_error u (face_index f) with
  | None => u
  | Some sq =>
      match nth_error sq x with
      | None => u
      | Some row => set_nth u (face_index f) (set_nth sq x (set_nth row y c))
      end
  end.

(** unfolded/mod.rs:189-190: one assignment; the [unwrap] is [Panic]. *)
Definition write_color (n : nat) (p : Coord) (u : outcome Unfolded) (fc : Face * Color)
  : outcome Unfolded :=
  bind_o u (fun u =>
    match square_indices n p (fst fc) with
    | None => Panic
    | Some (x, y) => Done (unfolded_set u (fst fc) x y (snd fc))
    end).

(** unfolded/mod.rs:184-193 [populate_with]. *)
Definition populate_with {P Pos} (n : nat) (d : PieceDesc P Pos)
  (colors : P -> Pos -> list (Face * Color)) (coords : Pos -> Coord)
  (u : outcome Unfolded) (s : list P) : outcome Unfolded :=
  fold_left (fun u x => fold_left (write_color n (coords (pd_position d (snd x))))
                          (colors (snd x) (fst x)) u)
            (iter_with_pos d s) u.

(** unfolded/mod.rs:260-269 [From<Cube3> for Unfolded<3>]. *)
Definition unfold_cube3 (c : Cube3) : outcome Unfolded :=
  let u := Done (unfolded_default 3) in
  let u := populate_with 3 corner_desc corner_colors corner_coordinates u (c3_corners c) in
  populate_with 3 edge_desc edge_colors edge_coordinates u (c3_edges c).

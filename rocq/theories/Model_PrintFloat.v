(** The drawing and printing of Model_Visual and Model_Print again with the [f32] arithmetic of
    the code instead of exact arithmetic (/repo/barbarosa/src/cube_n/visualization). *)

From Coq Require Import List Bool NArith ZArith SpecFloat.
From Verif Require Import Model_Base Model_Space Model_Moves Model_Pieces Model_PieceSet Model_Cubes Model_Visual Model_Print Model_Float.
Import ListNotations.

(** std [f32::round]: to the nearest integer, half-way cases away from zero (unfolded/mod.rs:99). *)
Definition f32_round (x : f32) : f32 :=
  match x with
  | S754_finite s m e =>
      if (0 <=? e)%Z then x
      else
        let k := ((2 * Z.pos m + 2 ^ (- e)) / 2 ^ (1 - e))%Z in
        binary_normalize 24 128 (if s then - k else k)%Z 0 s
  | _ => x
  end.

(** [x as u8] and [x as usize]: truncated, NaN is 0, saturating at 0 and [max]
    (visualization/mod.rs:51-53, unfolded/mod.rs:101 and 105). *)
Definition f32_to_unsigned (max : Z) (x : f32) : Z :=
  match x with
  | S754_nan | S754_zero _ => 0
  | S754_infinity s => if s then 0 else max
  | S754_finite true _ _ => 0
  | S754_finite false m e => Z.min max (if (0 <=? e)%Z then Z.pos m * 2 ^ e else Z.pos m / 2 ^ (- e))
  end%Z.
(** The largest [usize] of a 64-bit machine (unfolded/mod.rs:101). *)
Definition usize_max : Z := (2 ^ 64 - 1)%Z.

(** unfolded/mod.rs:96-106 [transform_coord]. *)
Definition transform_coord_f (n : nat) (x : f32) : option nat :=
  let x := f32_add x (f32_of_Z 1) in
  let x := f32_div (f32_mul x (f32_of_Z (Z.of_nat n))) (f32_of_Z 3) in
  let x := f32_round x in
  if f32_ltb x (f32_of_Z 0) || (Z.of_nat n <=? f32_to_unsigned usize_max x)%Z then None
  else Some (Z.to_nat (f32_to_unsigned usize_max x)).

(** nalgebra [Vector3<f32>] (pieces/corner.rs:74-78, pieces/edge.rs:135-141). *)
Definition CoordF : Type := f32 * f32 * f32.
(** [Direction::scalar() as f32] and [0.0], unfolded/mod.rs:56-57. *)
Definition coord_f (p : Coord) : CoordF :=
  let '(a, b, c) := p in (f32_of_Z a, f32_of_Z b, f32_of_Z c).
(** nalgebra [Vector3::dot] ([a + b + c] of the products), unfolded/mod.rs:66-67. *)
Definition dot_f (a b : CoordF) : f32 :=
  let '(a1, a2, a3) := a in let '(b1, b2, b3) := b in
  f32_add (f32_add (f32_mul a1 b1) (f32_mul a2 b2)) (f32_mul a3 b3).

(** unfolded/mod.rs:63-73 [Square::indices]. *)
Definition square_indices_f (n : nat) (p : CoordF) (f : Face) : option (nat * nat) :=
  let (bx, by_) := square_basis f in
  match transform_coord_f n (dot_f p (coord_f (face_coords bx))) with
  | None => None
  | Some x =>
      match transform_coord_f n (dot_f p (coord_f (face_coords by_))) with
      | None => None
      | Some y => Some (x, y)
      end
  end.

(** unfolded/mod.rs:189-190: one assignment; the [unwrap] is [Panic]. *)
Definition write_color_f (n : nat) (p : CoordF) (u : outcome Unfolded) (fc : Face * Color)
  : outcome Unfolded :=
  bind_o u (fun u =>
    match square_indices_f n p (fst fc) with
    | None => Panic
    | Some (x, y) => Done (unfolded_set u (fst fc) x y (snd fc))
    end).

(** unfolded/mod.rs:184-193 [populate_with]. *)
Definition populate_with_f {P Pos} (n : nat) (d : PieceDesc P Pos)
  (colors : P -> Pos -> list (Face * Color)) (coords : Pos -> Coord)
  (u : outcome Unfolded) (s : list P) : outcome Unfolded :=
  fold_left (fun u x => fold_left (write_color_f n (coord_f (coords (pd_position d (snd x)))))
                          (colors (snd x) (fst x)) u)
            (iter_with_pos d s) u.

(** unfolded/mod.rs:260-269 [From<Cube3> for Unfolded<3>]. *)
Definition unfold_cube3_f (c : Cube3) : outcome Unfolded :=
  let u := Done (unfolded_default 3) in
  let u := populate_with_f 3 corner_desc corner_colors corner_coordinates u (c3_corners c) in
  populate_with_f 3 edge_desc edge_colors edge_coordinates u (c3_edges c).

(** visualization/mod.rs:149-154: the literal [0.529] is the [f32] nearest to 529/1000, which is
    the correctly rounded quotient of two integers that are [f32]s themselves. *)
Definition literal_f (thousandths : N) : f32 := f32_div (f32_of_Z (Z.of_N thousandths)) (f32_of_Z 1000).
(** visualization/mod.rs:51-53: [(x * 255.0) as u8]. *)
Definition component_f (x : f32) : N := Z.to_N (f32_to_unsigned 255 (f32_mul x (f32_of_Z 255))).

(** visualization/mod.rs:43-59 [Color::write]. *)
Definition color_write_f (cs : Colorscheme) (c : Color) : list Ink :=
  let s := scheme_get cs c in
  [Paint (mkRgb (component_f (literal_f (s_red s))) (component_f (literal_f (s_green s))) (component_f (literal_f (s_blue s))))].

(** unfolded/mod.rs:109-129 [Square::write]. *)
Definition square_write_f (cs : Colorscheme) (padding : nat) (sq : list (list Color)) : list Ink :=
  flat_map (fun row => repeat Blank padding ++ flat_map (color_write_f cs) row ++ [NewLine]) sq.
(** unfolded/mod.rs:206-228: the rows of L, F and R side by side. *)
Definition middle_write_f (cs : Colorscheme) (l f r : list (list Color)) : list Ink :=
  flat_map (fun x => let '((l_row, f_row), r_row) := x in
      flat_map (color_write_f cs) l_row ++ [Blank] ++ flat_map (color_write_f cs) f_row ++ [Blank] ++
      flat_map (color_write_f cs) r_row ++ [NewLine])
    (combine (combine l f) r).
(** unfolded/mod.rs:196-243 [Unfolded::<N>::write]. *)
Definition unfolded_write_f (n : nat) (cs : Colorscheme) (u : Unfolded) : list Ink :=
  let padding := n + 1 in
  square_write_f cs padding (unfolded_square u fU) ++ [NewLine] ++
  middle_write_f cs (unfolded_square u fL) (unfolded_square u fF) (unfolded_square u fR) ++ [NewLine] ++
  square_write_f cs padding (unfolded_square u fD) ++ [NewLine] ++
  square_write_f cs padding (unfolded_square u fB) ++ [NewLine].
(** unfolded/mod.rs:271-275 and visualization/mod.rs:160-165 [Display for Cube3], for any scheme
    whose literals have three decimals. *)
Definition cube3_write_f (cs : Colorscheme) (c : Cube3) : outcome (list Ink) :=
  bind_o (unfold_cube3_f c) (fun u => Done (unfolded_write_f 3 cs u)).
(** visualization/mod.rs:160-165 [Display for Cube3]. *)
Definition cube3_display_f (c : Cube3) : outcome (list Ink) := cube3_write_f default_scheme c.

(** Model of the printed net: /repo/barbarosa/src/cube_n/visualization/mod.rs (colours) and
    unfolded/mod.rs ([write], [Display]), and of the general [Square::at].

    What is printed is a sequence of cells and line ends: two spaces, two spaces with a
    background colour, or a newline. The escape codes themselves are written by crossterm. *)

From Coq Require Import List Bool NArith ZArith.
From Verif Require Import Model_Base Model_Space Model_Moves Model_Pieces Model_PieceSet Model_Cubes Model_Visual.
Import ListNotations.

(** crossterm's [Color::Rgb]: three bytes. visualization/mod.rs:50-54. *)
Record Rgb := mkRgb { rgb_r : N; rgb_g : N; rgb_b : N }.

(** One step of output: ["  "], ["{SetBackgroundColor}  {ResetColor}"], ["\n"].
    visualization/mod.rs:58 and visualization/unfolded/mod.rs. *)
Inductive Ink := Blank | Paint (c : Rgb) | NewLine.

(** [palette::Srgb] with components in thousandths (the default scheme has three decimals).
    visualization/mod.rs:147-156. *)
Record Srgb := mkSrgb { s_red : N; s_green : N; s_blue : N }.

(** visualization/mod.rs:129-131 [struct Colorscheme]: six colours. *)
Definition Colorscheme : Type := list Srgb.

(** visualization/mod.rs:140-142 [get]; the array has six elements. *)
Definition scheme_get (cs : Colorscheme) (f : Face) : Srgb := nth (face_index f) cs (mkSrgb 0 0 0).

(** visualization/mod.rs:145-158 [Default for Colorscheme]. *)
Definition default_scheme : Colorscheme :=
  [ mkSrgb 529 207 207; mkSrgb 1000 1000 1000; mkSrgb 207 588 227;
    mkSrgb 768 443 94; mkSrgb 858 686 254; mkSrgb 207 243 439 ]%N.

(** visualization/mod.rs:51-53: [(x * 255.0) as u8], which truncates. Exact here; Model_PrintFloat
    has the [f32] arithmetic and [C56_float] shows that the two agree. *)
Definition component (x : N) : N := (x * 255 / 1000)%N.

(** visualization/mod.rs:43-59 [Color::write]. *)
Definition color_write (cs : Colorscheme) (c : Color) : list Ink :=
  let s := scheme_get cs c in
  [Paint (mkRgb (component (s_red s)) (component (s_green s)) (component (s_blue s)))].

(** unfolded/mod.rs:109-129 [Square::write]. *)
Definition square_write (cs : Colorscheme) (padding : nat) (sq : list (list Color)) : list Ink :=
  flat_map (fun row => repeat Blank padding ++ flat_map (color_write cs) row ++ [NewLine]) sq.

(** unfolded/mod.rs:246-252 [Index<&Face>]; there are six squares. *)
Definition unfolded_square (u : Unfolded) (f : Face) : list (list Color) := nth (face_index f) u [].

(** unfolded/mod.rs:206-228: the rows of L, F and R side by side ([zip] stops at the end of
    the shortest). *)
Definition middle_write (cs : Colorscheme) (l f r : list (list Color)) : list Ink :=
  flat_map (fun x => let '((l_row, f_row), r_row) := x in
      flat_map (color_write cs) l_row ++ [Blank] ++ flat_map (color_write cs) f_row ++ [Blank] ++
      flat_map (color_write cs) r_row ++ [NewLine])
    (combine (combine l f) r).

(** unfolded/mod.rs:196-243 [Unfolded::<N>::write]. *)
Definition unfolded_write (n : nat) (cs : Colorscheme) (u : Unfolded) : list Ink :=
  let padding := n + 1 in
  square_write cs padding (unfolded_square u fU) ++ [NewLine] ++
  middle_write cs (unfolded_square u fL) (unfolded_square u fF) (unfolded_square u fR) ++ [NewLine] ++
  square_write cs padding (unfolded_square u fD) ++ [NewLine] ++
  square_write cs padding (unfolded_square u fB) ++ [NewLine].

(** unfolded/mod.rs:271-275 [Display for Unfolded] and visualization/mod.rs:160-165
    [Display for Cube3], for any colour scheme. *)
Definition cube3_write (cs : Colorscheme) (c : Cube3) : outcome (list Ink) :=
  bind_o (unfold_cube3 c) (fun u => Done (unfolded_write 3 cs u)).
(** visualization/mod.rs:160-165 [Display for Cube3]. *)
Definition cube3_display (c : Cube3) : outcome (list Ink) := cube3_write default_scheme c.

(** unfolded/mod.rs:96-106 [transform_coord] for a coordinate [num / den] ([den > 0]), with
    exact arithmetic instead of [f32] (Model_PrintFloat has the [f32] version): [round] rounds
    half-way cases away from zero. *)
Definition round_q (num den : Z) : Z :=
  if (num <? 0)%Z then (- ((2 * - num + den) / (2 * den)))%Z else ((2 * num + den) / (2 * den))%Z.
(** unfolded/mod.rs:96-106 [transform_coord]. *)
Definition transform_coord_q (n : nat) (num den : Z) : option nat :=
  let y := round_q ((num + den) * Z.of_nat n) (3 * den) in
  if (y <? 0)%Z || (Z.of_nat n <=? y)%Z then None else Some (Z.to_nat y).

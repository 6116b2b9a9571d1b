(** Specification of the printed net: where on the screen each sticker appears.

<<
        U U U
        U U U
        U U U

  L L L F F F R R R
  L L L F F F R R R
  L L L F F F R R R

        D D D
        D D D
        D D D

        B B B
        B B B
        B B B
>>
    (with one empty line or column between neighbouring squares). *)

From Coq Require Import List Bool ZArith.
From Verif Require Import Model_Base Model_Space Model_Print.
Import ListNotations.

(** The lines of the output. [cur] is the line so far. *)
Fixpoint lines_from (cur : list Ink) (out : list Ink) : list (list Ink) :=
  match out with
  | [] => match cur with [] => [] | _ => [cur] end
  | NewLine :: r => cur :: lines_from [] r
  | x :: r => lines_from (cur ++ [x]) r
  end.
Definition lines (out : list Ink) : list (list Ink) := lines_from [] out.

(** What is at column [j] of line [i]. *)
Definition screen (out : list Ink) (i j : nat) : option Ink :=
  match nth_error (lines out) i with Some l => nth_error l j | None => None end.

(** Line and column of the first sticker of each face. *)
Definition top (f : Face) : nat :=
  match f with
  | mkFace AY Positive => 0 | mkFace AX _ => 4 | mkFace AZ Positive => 4
  | mkFace AY Negative => 8 | mkFace AZ Negative => 12
  end.
Definition left_column (f : Face) : nat :=
  match f with mkFace AX Negative => 0 | mkFace AX Positive => 8 | _ => 4 end.

(** The colour of a face in a scheme given in the order R, U, F, L, D, B. *)
Definition scheme_order : list Face := [fR; fU; fF; fL; fD; fB].
Definition painted (cs : list Srgb) (f : Face) (rgb : Rgb) : Prop :=
  exists i s, nth_error scheme_order i = Some f /\ nth_error cs i = Some s /\
    (forall x y, In (x, y) [(s_red s, rgb_r rgb); (s_green s, rgb_g rgb); (s_blue s, rgb_b rgb)] ->
      (* [y] is the whole part of [x] thousandths of 255 *)
      (1000 * y <= 255 * x < 1000 * (y + 1))%N).

(** Six different colours. *)
Definition distinguishable (cs : list Srgb) : Prop :=
  length cs = 6 /\ forall f g rgb, painted cs f rgb -> painted cs g rgb -> f = g.

(** The hue of a colour in the warm half of the colour circle (blue is the weakest component, red the
    strongest), in degrees: 60 (g - b) / (r - b), from 0 (pure red) to 60 (pure yellow). *)
Definition warm_hue (low high : Z) (c : Rgb) : Prop :=
  let r := Z.of_N (rgb_r c) in let g := Z.of_N (rgb_g c) in let b := Z.of_N (rgb_b c) in
  (b <= g <= r)%Z /\ (b < r)%Z /\ (low * (r - b) <= 60 * (g - b) < high * (r - b))%Z.
(** Component [x] dominates and the hue is less than 15 degrees away from that of pure [x]. *)
Definition nearly_pure (x y z : N) : Prop :=
  (y < x /\ z < x)%N /\ (60 * Z.abs (Z.of_N y - Z.of_N z) < 15 * (Z.of_N x - Z.min (Z.of_N y) (Z.of_N z)))%Z.
(** The usual colours of the faces: U white, D yellow, F green, B blue, R red, L orange. *)
Definition usual_colour (f : Face) (c : Rgb) : Prop :=
  match f with
  | mkFace AY Positive => c = mkRgb 255 255 255
  | mkFace AY Negative => warm_hue 40 70 c
  | mkFace AX Positive => warm_hue 0 15 c
  | mkFace AX Negative => warm_hue 15 40 c
  | mkFace AZ Positive => nearly_pure (rgb_g c) (rgb_r c) (rgb_b c)
  | mkFace AZ Negative => nearly_pure (rgb_b c) (rgb_r c) (rgb_g c)
  end.

(** The cells of a row of [n] are spread evenly from -1 to 1: the centre of cell [i] is
    -1 + 2 i / (n - 1). [closest n num den i]: no cell is closer to the coordinate
    [num / den] than cell [i]; all distances are multiplied by [den * (n - 1)]. *)
Definition cell_distance (n : nat) (num den : Z) (i : nat) : Z :=
  Z.abs ((num + den) * (Z.of_nat n - 1) - 2 * Z.of_nat i * den).
Definition closest (n : nat) (num den : Z) (i : nat) : Prop :=
  i < n /\ forall j, j < n -> (cell_distance n num den i <= cell_distance n num den j)%Z.

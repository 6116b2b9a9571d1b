(** The unfolded drawing as a paper net (unfolded/mod.rs, documentation of [Unfolded]
    and the order in which [write] prints the squares):

          U
        L F R
          D
          B
*)
From Coq Require Import List Bool ZArith.
From Verif Require Import Model_Space Spec_Geometry.
Import ListNotations.
Open Scope Z_scope.

(** Direction of going one row down, and one column to the right, inside each square
    of the net. *)
Definition net_down (f : Face) : Face :=
  match f with
  | mkFace AY Positive => fF | mkFace AZ Positive => fD | mkFace AY Negative => fB
  | mkFace AZ Negative => fU | mkFace AX _ => fD
  end.
Definition net_right (f : Face) : Face :=
  match f with
  | mkFace AX Negative => fF | mkFace AX Positive => fB | _ => fR
  end.

(** The cubie whose sticker is drawn in row [x], column [y] of the square of [f]. *)
Definition cell_cubie (f : Face) (x y : nat) : V3 :=
  v3_add (normal f)
    (v3_add (v3_scale (Z.of_nat x - 1) (normal (net_down f)))
            (v3_scale (Z.of_nat y - 1) (normal (net_right f)))).

(** All 54 cells. *)
Definition all_cells : list (Face * nat * nat) :=
  flat_map (fun f => flat_map (fun x => map (fun y => (f, x, y)) [0; 1; 2]%nat) [0; 1; 2]%nat) face_iter.

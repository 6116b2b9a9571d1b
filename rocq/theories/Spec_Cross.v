(** Specification vocabulary for the cross and the distance heuristics. *)

From Coq Require Import List Bool ZArith.
From Verif Require Import Model_Base Model_Space Model_Moves Model_Pieces Model_PieceSet Model_Cubes
  Model_Visual Spec_Geometry Spec_Stickers.
Import ListNotations.

(** The place of an edge lies on a face: the coordinate along the face's normal is 1. *)
Definition edge_on_face (p : EdgePos) (f : Face) : Prop :=
  dot (to_v3 (edge_coordinates p)) (normal f) = 1%Z.

(** The cross of face [f] is solved: every edge that belongs on [f] is at its place and
    not flipped.  (Index [i] of the set is the edge that belongs at the [i]-th reference
    position.) *)
Definition cross_solved (f : Face) (c : Cube3) : Prop :=
  forall i p, nth_error edge_reference i = Some p -> edge_on_face p f ->
    nth_error (c3_edges c) i = Some (mkEdge (fst p) (snd p) true).

(** [al] takes the edge [e] to place [p], not flipped. *)
Definition brings_edge (p : EdgePos) (e : Edge) (al : list AxisMove) : Prop :=
  fold_left edge_apply al e = mkEdge (fst p) (snd p) true.

(** Taxicab distance. *)
Definition taxicab (a b : V3) : Z :=
  (Z.abs (px a - px b) + Z.abs (py a - py b) + Z.abs (pz a - pz b))%Z.

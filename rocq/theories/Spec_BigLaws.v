(** Which states of the 4x4x4 to 7x7x7 can be reached: the vocabulary.

    The laws are stated piece by piece: how the corners are twisted, which rearrangements of
    each kind of piece are even, which places a centre wing can be at, and (for the way this
    code moves them) where the centre edges are. *)

From Coq Require Import List Bool Arith NArith ZArith.
From Verif Require Import Model_Base Model_Space Model_Moves Model_Pieces Model_PieceSet Model_Cubes
  Model_Visual Spec_Moves Spec_Geometry Spec_Sets Spec_Invariants.
Import ListNotations.
Open Scope nat_scope.

(** A state that the solved cube can be turned into, or that can be turned into the solved
    cube, by wide moves that fit the cube. *)
Definition fits (n : CubeSize) (w : WideAxisMove) : Prop := (w_depth w <= cube_size_N n / 2 - 1)%N.
Definition turned (n : CubeSize) (c : CubeOf n) (al : list WideAxisMove) : CubeOf n := fold_left (cube_apply_wide n) al c.
Definition reachable (n : CubeSize) (c : CubeOf n) : Prop :=
  exists al, Forall (fits n) al /\ turned n (cube_solved n) al = c.
Definition solvable_within (n : CubeSize) (k : N) (c : CubeOf n) : Prop :=
  exists al, Forall (fits n) al /\ (N.of_nat (length al) <= k)%N /\ turned n c al = cube_solved n.
(** It can be turned until [is_solved] is true. *)
Definition can_look_solved (n : CubeSize) (c : CubeOf n) : Prop :=
  exists al, Forall (fits n) al /\ cube_is_solved n (turned n c al) = true.

(** For each piece, in the order of the solved cube, the number of the place it is at. *)
Definition wing_permutation (s : list Wing) : list nat := map (place wing_eqb wing_solved) s.
Definition cc_permutation (s : list CenterCorner) : list nat := map (place cc_eqb cc_solved) s.

(** Centre wings come in two mirror images: going from the main face to the side face to
    the side of the middle line is a right-handed or a left-handed system. *)
Definition right_handed (c : CenterWing) : bool :=
  (0 <? dot (cross (normal (ce_main (cw_edge c))) (normal (ce_side_face (cw_edge c))))
            (v3_scale (scalar (cw_normal_dir c)) (unit (ce_normal_axis (cw_edge c)))))%Z.
Definition same_hand (h : bool) (c : CenterWing) : bool := Bool.eqb (right_handed c) h.
(** Every centre wing is at a place of its own hand. *)
Definition hands_kept (s : list CenterWing) : Prop := map right_handed s = map right_handed cw_solved.
(** The rearrangement of the centre wings of one hand among their 24 places. *)
Definition cw_permutation (h : bool) (s : list CenterWing) : list nat :=
  map (place cw_eqb (filter (same_hand h) cw_solved)) (filter (same_hand h) s).

(** Every centre edge is still next to the edge piece it is next to on the solved cube, on
    the same side of it: that edge piece shows the colour of the centre edge on the face of
    the centre edge, and its other colour on the face next to the centre edge. *)
Definition follows_edges (es : list Edge) (ces : list CenterEdge) : Prop :=
  forall home p, In (home, p) (combine ce_solved ces) ->
  exists e0 e, In (e0, e) (combine edge_reference es) /\
    In (ce_main p, ce_main home) (edge_colors e e0) /\
    In (ce_side_face p, ce_side_face home) (edge_colors e e0).

(** Weaker forms that are enough to look solved, where pieces of one colour look alike. Of
    the eight centre wings of each colour four are at right-handed places (and four not). *)
Definition hands_balanced (s : list CenterWing) : Prop :=
  forall f, length (filter (fun x => face_eqb (ce_main (cw_edge (fst x))) f && right_handed (snd x)) (combine cw_solved s)) = 4.
(** Every centre edge has the colour which the edge piece it is next to shows on its face. *)
Definition matches_edges (es : list Edge) (ces : list CenterEdge) : Prop :=
  forall home p, In (home, p) (combine ce_solved ces) ->
  exists e0 e other, In (e0, e) (combine edge_reference es) /\
    In (ce_main p, ce_main home) (edge_colors e e0) /\ In (ce_side_face p, other) (edge_colors e e0).

Definition same_parity (l m : list nat) : Prop := even_permutation l = even_permutation m.

(** The laws of each cube. *)
Definition laws4 (c : Cube4) : Prop :=
  cube_well_formed Size4 c /\
  twists_divisible (c4_corners c) /\
  same_parity (cc_permutation (c4_centers c)) (corner_permutation (c4_corners c)).

Definition laws5 (c : Cube5) : Prop :=
  cube_well_formed Size5 c /\
  invariants (mkCube3 (c5_edges c) (c5_corners c)) /\
  same_parity (cc_permutation (c5_center_corners c)) (corner_permutation (c5_corners c)) /\
  follows_edges (c5_edges c) (c5_center_edges c).

(** The parity of the centre wings of either hand is the sum of those of the corners and of
    both rings of wings. *)
Definition cw_parity_law (corners : list Corner) (w1 w2 : list Wing) (cws : list CenterWing) : Prop :=
  hands_kept cws /\
  forall h, even_permutation (cw_permutation h cws)
    = eqb (even_permutation (corner_permutation corners))
        (eqb (even_permutation (wing_permutation w1)) (even_permutation (wing_permutation w2))).

Definition laws6 (c : Cube6) : Prop :=
  cube_well_formed Size6 c /\
  twists_divisible (c6_corners c) /\
  same_parity (cc_permutation (c6_center_corners_1 c)) (corner_permutation (c6_corners c)) /\
  same_parity (cc_permutation (c6_center_corners_2 c)) (corner_permutation (c6_corners c)) /\
  cw_parity_law (c6_corners c) (c6_wings_1 c) (c6_wings_2 c) (c6_center_wings c).

Definition laws7 (c : Cube7) : Prop :=
  cube_well_formed Size7 c /\
  invariants (mkCube3 (c7_edges c) (c7_corners c)) /\
  same_parity (cc_permutation (c7_center_corners_1 c)) (corner_permutation (c7_corners c)) /\
  same_parity (cc_permutation (c7_center_corners_2 c)) (corner_permutation (c7_corners c)) /\
  cw_parity_law (c7_corners c) (c7_wings_1 c) (c7_wings_2 c) (c7_center_wings c) /\
  follows_edges (c7_edges c) (c7_center_edges_1 c) /\
  follows_edges (c7_edges c) (c7_center_edges_2 c).

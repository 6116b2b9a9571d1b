(** Specification vocabulary for C100: which of several algs of one length comes first. *)

From Coq Require Import List ZArith.
From Verif Require Import Model_Base Model_Space Model_Moves Model_PieceSet Model_Cubes Model_Float Spec_Sets Spec_Cross.
Import ListNotations.

(** [m] stands before [m'] in a list. *)
Definition stands_before {A} (l : list A) (m m' : A) : Prop := exists l1 l2 l3, l = l1 ++ m :: l2 ++ m' :: l3.

(** Where [al] and [bl] part, [al] goes on with a move that is listed earlier; [listed]
    gives the list of moves on offer after the common beginning. *)
Definition not_after {M} (listed : list M -> list M) (al bl : list M) : Prop :=
  forall common m m' r r', al = common ++ m :: r -> bl = common ++ m' :: r' -> m <> m' ->
    stands_before (listed common) m m'.

(** The moves in the order of [AxisMove::all]: by axis, R U F first, each before the opposite
    face, and of each face the quarter turn, the half turn, the turn back. *)
Definition moves_in_order : list AxisMove :=
  flat_map (fun f => [mkMove f Single; mkMove f Double; mkMove f Inverse]) [fR; fL; fU; fD; fF; fB].

(** [al] reaches [goal], no alg that does is shorter, and of those of its length it is the
    first one in the order of the dictionary. *)
Definition first_of_shortest (goal : Cube3 -> Prop) (c : Cube3) (al : list AxisMove) : Prop :=
  goal (fold_left cube3_apply al c) /\
  forall bl, goal (fold_left cube3_apply bl c) ->
    length al <= length bl /\ (length al = length bl -> not_after (fun _ => moves_in_order) al bl).

(** The heuristic gives whole numbers that are never more than the number of moves of any
    solution; its answers may change from call to call. *)
Definition never_more (heuristic : nat -> Cube3 -> outcome f32) : Prop := exists estimate : nat -> Cube3 -> Z,
  (forall k c, cube_well_formed Size3 c ->
    heuristic k c = Done (f32_of_Z (estimate k c)) /\ (0 <= estimate k c < 2 ^ 22)%Z) /\
  (forall k c al, fold_left cube3_apply al c = cube3_solved -> (estimate k c <= Z.of_nat (length al))%Z).

(** Specification vocabulary for random cubes: what a sequence of random choices is. *)

From Coq Require Import List Arith.
From Verif Require Import Model_Base Model_Space Model_Moves Model_Pieces Model_PieceSet Model_Cubes Model_Invariants.
Import ListNotations.

(** The choices made by a Fisher-Yates shuffle of [n] things: the [i]th number, one of
    [0..=i], is the place that is swapped with place [i] (place 0 has no choice). There are
    [n!] of them. *)
Definition shuffle_choices (n : nat) (js : list nat) : Prop :=
  length js = n /\ forall i j, nth_error js i = Some j -> j <= i.

(** All the choices made for one random [Cube3]: two shuffles, a boolean for each edge and
    an axis for each corner. A fair generator makes all of them equally likely. *)
Record Choices := mkChoices { ch_edges : list nat; ch_corners : list nat; ch_flips : list bool; ch_axes : list Axis }.
Definition possible (ch : Choices) : Prop :=
  shuffle_choices 12 (ch_edges ch) /\ shuffle_choices 8 (ch_corners ch) /\ length (ch_flips ch) = 12 /\ length (ch_axes ch) = 8.

(** The generator that makes these choices. *)
Definition generator (ch : Choices) : Rng3 :=
  mkRng3 (fun i => nth i (ch_edges ch) 0) (fun i => nth i (ch_corners ch) 0)
         (fun i => nth i (ch_flips ch) true) (fun i => nth i (ch_axes ch) AX).

(** The choices made for one random alg: one of the 45 non-redundant moves in the first round,
    one of the 30 on the other axes in every later one. There are at most [len] rounds; choices
    for rounds that do not take place are listed too, so that a fair generator makes all lists
    equally likely. *)
Definition alg_choices (len : nat) (js : list nat) : Prop :=
  length js = len /\ forall i j, nth_error js i = Some j -> j < (match i with 0 => 45 | S _ => 30 end).

(** In how many places of an alg two neighbours turn around the same axis. *)
Fixpoint neighbours_on_axis (al : list AxisMove) : nat :=
  match al with
  | m :: ((m2 :: _) as r) => (if axis_eqb (face_axis (mv_face m)) (face_axis (mv_face m2)) then 1 else 0) + neighbours_on_axis r
  | _ => 0
  end.

(** The last move turns R, U or F. *)
Fixpoint ends_positive (al : list AxisMove) : bool :=
  match al with
  | [] => false
  | [m] => match face_dir (mv_face m) with Positive => true | Negative => false end
  | _ :: r => ends_positive r
  end.

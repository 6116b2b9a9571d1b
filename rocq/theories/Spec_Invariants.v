(** Specification vocabulary for the solvability invariants of the 3x3x3. *)

From Coq Require Import List Bool Arith.
From Verif Require Import Model_Base Model_Space Model_Moves Model_Pieces Model_PieceSet Model_Cubes.
Import ListNotations.
Open Scope nat_scope.

(** Number of pairs of entries that are in the wrong order. *)
Fixpoint inversions (l : list nat) : nat :=
  match l with
  | [] => 0
  | x :: r => length (filter (fun y => y <? x) r) + inversions r
  end.

(** The sign of a permutation given as the list of its values. *)
Definition even_permutation (l : list nat) : bool := Nat.even (inversions l).

(** [places reference eqb positions]: for each piece, the number of the place it is at. *)
Definition place {Pos} (eqb : Pos -> Pos -> bool) (reference : list Pos) (p : Pos) : nat :=
  match find_index (fun q => eqb q p) reference with Some i => i | None => length reference end.
Definition corner_permutation (c : list Corner) : list nat :=
  map (fun p => place vec3_eqb corner_reference (c_pos p)) c.
Definition edge_permutation (e : list Edge) : list nat :=
  map (fun p => place edgepos_eqb edge_reference (edge_position p)) e.

(** Seen from outside the corner at [p], the axis that comes after [a] counter-clockwise:
    X, Y, Z is counter-clockwise at the corner (+,+,+), and each reflection reverses it. *)
Definition reflected (p : Vec3) : bool :=
  xorb (dir_eqb (vx p) Negative) (xorb (dir_eqb (vy p) Negative) (dir_eqb (vz p) Negative)).
Definition ccw_next (p : Vec3) (a : Axis) : Axis :=
  match reflected p, a with
  | false, AX => AY | false, AY => AZ | false, AZ => AX
  | true, AY => AX | true, AZ => AY | true, AX => AZ
  end.

(** How many counter-clockwise thirds of a turn the corner is away from having its U/D
    sticker on the U/D axis. *)
Definition twists (c : Corner) : nat :=
  if axis_eqb (c_axis c) AY then 0
  else if axis_eqb (c_axis c) (ccw_next (c_pos c) AY) then 1
  else 2.

(** The three invariants. *)
Definition equal_parities (c : Cube3) : Prop :=
  even_permutation (edge_permutation (c3_edges c)) = even_permutation (corner_permutation (c3_corners c)).
Definition even_flips (es : list Edge) : Prop :=
  Nat.even (length (filter (fun e => negb (e_oriented e)) es)) = true.
Definition twists_divisible (cs : list Corner) : Prop :=
  list_sum (map twists cs) mod 3 = 0.
Definition invariants (c : Cube3) : Prop :=
  equal_parities c /\ even_flips (c3_edges c) /\ twists_divisible (c3_corners c).

(** [f] applied [k] times. *)
Fixpoint iterate {A} (k : nat) (f : A -> A) (x : A) : A :=
  match k with 0 => x | S k => f (iterate k f x) end.

(** The function given by a list of values; a list is a permutation of its indices if it
    is a rearrangement of 0, 1, ... *)
Definition fun_of (l : list nat) (i : nat) : nat := nth i l 0.

(** [i] is the smallest element of its cycle. *)
Definition smallest_in_cycle (l : list nat) (i : nat) : Prop :=
  i < length l /\ forall k, i <= iterate k (fun_of l) i.

(** [ls] has one representative of every cycle of [l]. *)
Definition one_per_cycle (l ls : list nat) : Prop :=
  NoDup ls /\ forall i, In i ls <-> smallest_in_cycle l i.

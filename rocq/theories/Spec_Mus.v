(** Specification vocabulary for the indices of partial cubes. *)

From Coq Require Import List NArith.
From Verif Require Import Model_Base Model_Space Model_Moves Model_Pieces Model_PieceSet Model_Cubes Spec_Invariants.
Import ListNotations.

(** The states of the eight corners that the corner table is about: no two corners at the
    same place, and the total twist is a whole number of turns. *)
Definition corner_state (cs : list Corner) : Prop :=
  length cs = 8 /\ NoDup (map c_pos cs) /\ twists_divisible cs.

(** The states of six edges that the edge table is about: no two at the same place. *)
Definition half_edge_state (es : list Edge) : Prop :=
  length es = 6 /\ NoDup (map edge_position es).

(** The number of these states: 8! 3^7 and 12!/6! 2^6. *)
Definition corner_states : N := (40320 * 2187)%N.
Definition half_edge_states : N := (665280 * 64)%N.

(** [f] and [g] are inverse bijections between the elements of [S] and the numbers below
    [n]; both are defined there. *)
Definition numbering {A} (S : A -> Prop) (n : N) (f : A -> outcome N) (g : N -> outcome A) : Prop :=
  (forall a, S a -> exists i, f a = Done i /\ (i < n)%N /\ g i = Done a) /\
  (forall i, (i < n)%N -> exists a, g i = Done a /\ S a /\ f a = Done i).

(** 1 * 2 * ... * n. *)
Fixpoint product (n : nat) : N := match n with 0 => 1%N | S m => (N.of_nat (S m) * product m)%N end.

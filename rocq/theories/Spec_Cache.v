(** Specification vocabulary for the MUS tables. *)

From Coq Require Import List NArith.
From Verif Require Import Model_Base Model_Space Model_Moves.
Import ListNotations.

(** The fewest moves that bring [t] to [goal]: some alg of [d] moves does, no shorter one. *)
Definition distance {T} (moved : T -> AxisMove -> T) (goal t : T) (d : nat) : Prop :=
  (exists al, length al = d /\ fold_left moved al t = goal) /\
  (forall al, fold_left moved al t = goal -> d <= length al).

(** A table with [total] entries whose [i]th entry is the distance of the [i]th state. *)
Definition exact_table {T} (total : N) (from_index : N -> outcome T) (moved : T -> AxisMove -> T) (goal : T)
  (table : list N) : Prop :=
  length table = N.to_nat total /\
  forall i, (i < total)%N -> exists t d,
    from_index i = Done t /\ nth_error table (N.to_nat i) = Some d /\ distance moved goal t (N.to_nat d).

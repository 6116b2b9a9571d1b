(** Specification vocabulary for counting states. *)

From Coq Require Import List NArith.
Import ListNotations.

(** Exactly [n] things satisfy [P]: they can be listed, each once. *)
Definition number_of {A} (P : A -> Prop) (n : N) : Prop :=
  exists l, NoDup l /\ (forall a, In a l <-> P a) /\ N.of_nat (length l) = n.

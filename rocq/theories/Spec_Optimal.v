(** Specification vocabulary for C95 and C96: what the solver answers, and how many algs
    there are without obvious redundancy. *)

From Coq Require Import List NArith.
From Verif Require Import Model_Base Model_Space Model_Moves Model_Cubes Model_Search Model_Float Model_Cache Prop_Cache.
Import ListNotations.

(** [solve_with_heuristic] with the MUS heuristic on the cache [ca] answers [al] (the fuel
    of the model only has to be large enough). *)
Definition answers (ca : Cache) (c : Cube3) (al : list AxisMove) : Prop :=
  exists fuel0, forall fuel, fuel0 <= fuel ->
    solve_with_heuristic f32_costs (mus_value ca) fuel c = SolveDone (Some al).

(** The cube after a scramble. *)
Definition scrambled (s : list AxisMove) : Cube3 := fold_left cube3_apply s cube3_solved.

(** 1, 18, 243, 3240, 43254, ...: from the fourth on, twelve times the number before plus
    eighteen times the one before that. *)
Fixpoint alg_count (n : nat) : N :=
  match n with
  | 0 => 1
  | 1 => 18
  | 2 => 243
  | S ((S j) as k) => 12 * alg_count k + 18 * alg_count j
  end.

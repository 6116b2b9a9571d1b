(** Specification vocabulary for C101: how much work a search does.

    The searcher of Model_Search again, which also counts the states it examines, that is the
    calls of the heuristic, for each round (iteration) of the deepening.  Everything else is the
    model's own text; [C101_counting] shows that counting changes nothing. *)

From Coq Require Import List ZArith NArith.
From Verif Require Import Model_Base Model_Moves Model_Cubes Model_Search Model_Float.
Import ListNotations.

Section Counted.
  Context {K C M : Type} (ops : CostOps K) (pr : Problem K C M).

  Fixpoint counted_try (rec : list C -> K -> ida_result K C M * N) (path : list C)
    (succs : list (C * M)) (min_exceeded : K) : ida_result K C M * N :=
    match succs with
    | [] => (IdaNone min_exceeded, 0%N)
    | (successor, mov) :: rest =>
        if existsb (pr_eqb pr successor) path then counted_try rec path rest min_exceeded
        else
          match rec (successor :: path) min_exceeded with
          | (IdaFound solution path', k) => (IdaFound (solution ++ [mov]) path', k)
          | (IdaNone min_exceeded, k) => let r := counted_try rec path rest min_exceeded in (fst r, k + snd r)%N
          | (r, k) => (r, k)
          end
    end.

  Fixpoint counted_impl (fuel : nat) (path : list C) (current_cost bound min_exceeded : K) : ida_result K C M * N :=
    match fuel with
    | 0 => (IdaFuel, 0%N)
    | S fuel =>
        match path with
        | [] => (IdaPanic, 0%N)
        | cube :: _ =>
            let new_cost := k_add ops current_cost (pr_heuristic pr cube) in
            if k_ltb ops bound new_cost then
              (IdaNone (if k_ltb ops new_cost min_exceeded then new_cost else min_exceeded), 1%N)
            else if pr_is_target pr cube then (IdaFound [] path, 1%N)
            else
              let r := counted_try (fun path mn => counted_impl fuel path (k_add ops current_cost (k_one ops)) bound mn)
                path (pr_successors pr cube) min_exceeded in
              (fst r, 1 + snd r)%N
        end
    end.

  (** With the result, the bound of each round and the number of states examined in it. *)
  Fixpoint counted_iter (fuel : nat) (cube : C) (iterations : nat) (bound : K) : search_result (C := C) (M := M) * list (K * N) :=
    match iterations with
    | 0 => (SearchDone None, [])
    | S iterations =>
        match counted_impl fuel [cube] (k_zero ops) bound (k_add ops bound (k_one ops)) with
        | (IdaFound solution path, k) =>
            (match path with [] => SearchDone None | last :: _ => SearchDone (Some (rev solution, last)) end, [(bound, k)])
        | (IdaNone min_exceeded, k) =>
            let r := counted_iter fuel cube iterations min_exceeded in (fst r, (bound, k) :: snd r)
        | (IdaPanic, k) => (SearchPanic, [(bound, k)])
        | (IdaFuel, k) => (SearchFuel, [(bound, k)])
        end
    end.
  Definition counted_search (fuel : nat) (max_depth : Z) (cube : C) : search_result (C := C) (M := M) * list (K * N) :=
    counted_iter fuel cube (Z.to_nat (max_depth + 1)) (pr_heuristic pr cube).
End Counted.

(** The rounds of [Cube3::solve_with_heuristic], and all states examined in them. *)
Definition rounds (heuristic : Cube3 -> f32) (fuel : nat) (c : Cube3) : list (f32 * N) :=
  snd (counted_search f32_costs (cube3_problem heuristic) fuel 200 c).
Definition examined (heuristic : Cube3 -> f32) (fuel : nat) (c : Cube3) : N :=
  fold_right N.add 0%N (map snd (rounds heuristic fuel c)).

(** 1 + 18 (1 + 17 + ... + 17^b): the start, eighteen turns, and then at most seventeen that do
    not go back. *)
Fixpoint seventeens (b : nat) : N := match b with 0 => 1 | S b => 1 + 17 * seventeens b end.
Definition most_states (b : nat) : N := 1 + 18 * seventeens b.

(** The heuristic gives whole numbers that are never more than the number of moves of any
    solution. *)
Definition whole_and_admissible (heuristic : Cube3 -> f32) (estimate : Cube3 -> Z) : Prop :=
  (forall c, heuristic c = f32_of_Z (estimate c) /\ (0 <= estimate c < 2 ^ 22)%Z) /\
  (forall c al, fold_left cube3_apply al c = cube3_solved -> (estimate c <= Z.of_nat (length al))%Z).

(** The shortest solution of [c] has [n] moves. *)
Definition needs_moves (c : Cube3) (n : nat) : Prop :=
  (exists al, fold_left cube3_apply al c = cube3_solved /\ length al = n) /\
  (forall al, fold_left cube3_apply al c = cube3_solved -> n <= length al).

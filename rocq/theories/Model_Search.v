(** Model of /repo/barbarosa/src/generic/search/ (the IDA* searcher and [Solver]) and of
    /repo/barbarosa/src/cube_n/search.rs.

    Costs are [f32] in the code.  The searcher is modelled over an arbitrary cost type
    with an addition, a strict comparison, a zero and a one, so that the same definition
    can be used with exact numbers and with IEEE single precision (Model_Float). *)

From Coq Require Import List Bool Arith ZArith.
From Verif Require Import Model_Base Model_Space Model_Moves Model_Pieces Model_PieceSet Model_Cubes.
Import ListNotations.

(** What the searcher needs of [f32]: [+], [<], [0.0] and [1.0]. *)
Record CostOps (K : Type) := mkCostOps {
  k_add : K -> K -> K; k_ltb : K -> K -> bool; k_zero : K; k_one : K }.
Arguments k_add {K}. Arguments k_ltb {K}. Arguments k_zero {K}. Arguments k_one {K}.

(** A puzzle as the searcher sees it: equality of states ([path.contains], derived
    [PartialEq]), the [successors] and [heuristic] closures and the target test.
    generic/search/ida.rs:10-22 [struct IDASearcher]; the iterator returned by
    [successors] is the list of its items. *)
Record Problem (K C M : Type) := mkProblem {
  pr_eqb : C -> C -> bool;
  pr_successors : C -> list (C * M);
  pr_heuristic : C -> K;
  pr_is_target : C -> bool }.
Arguments pr_eqb {K C M}. Arguments pr_successors {K C M}.
Arguments pr_heuristic {K C M}. Arguments pr_is_target {K C M}.

(** Outcome of one call of [search_impl]: [Some(solution)] with the path left in the
    vector, [None] with the updated [min_exceeded] (the path is restored by [pop]),
    [IdaPanic] for the [expect] on the empty path, [IdaFuel] when the model's bound on
    the recursion depth is reached. generic/search/ida.rs:42-49. *)
Inductive ida_result (K C M : Type) :=
| IdaFound (solution : list M) (path : list C)
| IdaNone (min_exceeded : K)
| IdaPanic
| IdaFuel.
Arguments IdaFound {K C M} solution path.
Arguments IdaNone {K C M} min_exceeded.
Arguments IdaPanic {K C M}.
Arguments IdaFuel {K C M}.

Section Search.
  Context {K C M : Type} (ops : CostOps K) (pr : Problem K C M).

  (** generic/search/ida.rs:67-83: the [for] loop over the successors; [rec] is the
      recursive call [search_impl] at cost [current_cost + 1.0].  [path] is stored
      with its last element first. *)
  Fixpoint ida_try (rec : list C -> K -> ida_result K C M) (path : list C)
    (succs : list (C * M)) (min_exceeded : K) : ida_result K C M :=
    match succs with
    | [] => IdaNone min_exceeded
    | (successor, mov) :: rest =>
        if existsb (pr_eqb pr successor) path then ida_try rec path rest min_exceeded
        else
          match rec (successor :: path) min_exceeded with
          | IdaFound solution path' => IdaFound (solution ++ [mov]) path'
          | IdaNone min_exceeded => ida_try rec path rest min_exceeded
          | IdaPanic => IdaPanic
          | IdaFuel => IdaFuel
          end
    end.

  (** generic/search/ida.rs:42-86 [search_impl]; [fuel] bounds the recursion depth. *)
  Fixpoint search_impl (fuel : nat) (path : list C) (current_cost bound min_exceeded : K)
    : ida_result K C M :=
    match fuel with
    | 0 => IdaFuel
    | S fuel =>
        match path with
        | [] => IdaPanic
        | cube :: _ =>
            let new_cost := k_add ops current_cost (pr_heuristic pr cube) in
            if k_ltb ops bound new_cost then
              IdaNone (if k_ltb ops new_cost min_exceeded then new_cost else min_exceeded)
            else if pr_is_target pr cube then IdaFound [] path
            else
              ida_try (fun path mn => search_impl fuel path (k_add ops current_cost (k_one ops)) bound mn)
                path (pr_successors pr cube) min_exceeded
        end
    end.

  (** generic/search/ida.rs:101-118: the iterations.  The result is [None] inside
      [Done] when all of them fail; [path.into_iter().last()?] is the head of the path. *)
  Inductive search_result := SearchDone (r : option (list M * C)) | SearchPanic | SearchFuel.

  (** generic/search/ida.rs:101-118: the loop over the iterations. *)
  Fixpoint search_iter (fuel : nat) (cube : C) (iterations : nat) (bound : K) : search_result :=
    match iterations with
    | 0 => SearchDone None
    | S iterations =>
        match search_impl fuel [cube] (k_zero ops) bound (k_add ops bound (k_one ops)) with
        | IdaFound solution path =>
            match path with
            | [] => SearchDone None
            | last :: _ => SearchDone (Some (rev solution, last))
            end
        | IdaNone min_exceeded => search_iter fuel cube iterations min_exceeded
        | IdaPanic => SearchPanic
        | IdaFuel => SearchFuel
        end
    end.

  (** generic/search/ida.rs:98-119 [search]; [0..=max_depth] over [i32] has
      [max_depth + 1] elements, none if [max_depth] is negative. *)
  Definition search (fuel : nat) (max_depth : Z) (cube : C) : search_result :=
    search_iter fuel cube (Z.to_nat (max_depth + 1)) (pr_heuristic pr cube).

  (** generic/search/mod.rs:25-33 [Solver::solve] for a searcher whose target is
      [is_solved]; the [debug_assert!] is checked as in a debug build. *)
  Inductive solve_result := SolveDone (r : option (list M)) | SolvePanic | SolveFuel.
  (** generic/search/mod.rs:25-33 [Solver::solve]. *)
  Definition solve (fuel : nat) (max_depth : Z) (cube : C) : solve_result :=
    match search fuel max_depth cube with
    | SearchDone None => SolveDone None
    | SearchDone (Some (solution, solved)) =>
        if pr_is_target pr solved then SolveDone (Some solution) else SolvePanic
    | SearchPanic => SolvePanic
    | SearchFuel => SolveFuel
    end.
End Search.
Arguments SearchDone {C M} r.
Arguments SearchPanic {C M}.
Arguments SearchFuel {C M}.
Arguments SolveDone {M} r.
Arguments SolvePanic {M}.
Arguments SolveFuel {M}.

(** cube_n/search.rs:13-19 [Cube3::solve_with_heuristic]. *)
Definition cube3_problem {K} (heuristic : Cube3 -> K) : Problem K Cube3 AxisMove :=
  mkProblem K Cube3 AxisMove cube3_eqb cube3_successors heuristic cube3_is_solved.
(** cube_n/search.rs:13-19 [Cube3::solve_with_heuristic]. *)
Definition solve_with_heuristic {K} (ops : CostOps K) (heuristic : Cube3 -> K) (fuel : nat) (c : Cube3)
  : solve_result :=
  solve ops (cube3_problem heuristic) fuel 200 c.

(** heuristics/mod.rs:12-14 [zero]. *)
Definition zero_heuristic {K C} (ops : CostOps K) (_ : C) : K := k_zero ops.

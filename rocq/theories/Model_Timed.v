(** The IDA* searcher of /repo/barbarosa/src/generic/search/ida.rs again, with a heuristic
    that is not a mathematical function: a [Fn(&C) -> f32] closure may read global state that
    other threads change, as [mus_with_fallback] does (cube3/heuristics/mus.rs:4-10), and it
    may panic.  [heuristic k c] is the answer of the [k]th call during this search.
    Everything else is as in Model_Search; [C62_unchanging_heuristic] shows that with a
    heuristic that does not change the two models agree. *)

From Coq Require Import List Bool Arith ZArith.
From Verif Require Import Model_Base Model_Space Model_Moves Model_Pieces Model_PieceSet Model_Cubes Model_Search
  Model_Float Model_Mus Model_Cache.
Import ListNotations.

(** Outcome of one call of [search_impl] (as [ida_result]), with the number of calls of the
    heuristic so far. generic/search/ida.rs:42-49. *)
Inductive timed_result (K C M : Type) :=
| TFound (solution : list M) (path : list C)
| TNone (min_exceeded : K) (calls : nat)
| TPanic
| TFuel.
Arguments TFound {K C M} solution path.
Arguments TNone {K C M} min_exceeded calls.
Arguments TPanic {K C M}.
Arguments TFuel {K C M}.

Section Timed.
  Context {K C M : Type} (ops : CostOps K) (eqb : C -> C -> bool) (successors : C -> list (C * M))
    (is_target : C -> bool) (heuristic : nat -> C -> outcome K).

  (** generic/search/ida.rs:67-83: the [for] loop over the successors. *)
  Fixpoint timed_try (rec : list C -> K -> nat -> timed_result K C M) (path : list C)
    (succs : list (C * M)) (min_exceeded : K) (calls : nat) : timed_result K C M :=
    match succs with
    | [] => TNone min_exceeded calls
    | (successor, mov) :: rest =>
        if existsb (eqb successor) path then timed_try rec path rest min_exceeded calls
        else
          match rec (successor :: path) min_exceeded calls with
          | TFound solution path' => TFound (solution ++ [mov]) path'
          | TNone min_exceeded calls => timed_try rec path rest min_exceeded calls
          | TPanic => TPanic
          | TFuel => TFuel
          end
    end.

  (** generic/search/ida.rs:42-86 [search_impl]; [fuel] bounds the recursion depth. *)
  Fixpoint timed_impl (fuel : nat) (path : list C) (current_cost bound min_exceeded : K) (calls : nat)
    : timed_result K C M :=
    match fuel with
    | 0 => TFuel
    | S fuel =>
        match path with
        | [] => TPanic
        | cube :: _ =>
            match heuristic calls cube with
            | Panic => TPanic
            | Done estimate =>
                let new_cost := k_add ops current_cost estimate in
                if k_ltb ops bound new_cost then
                  TNone (if k_ltb ops new_cost min_exceeded then new_cost else min_exceeded) (S calls)
                else if is_target cube then TFound [] path
                else
                  timed_try (fun path mn calls => timed_impl fuel path (k_add ops current_cost (k_one ops)) bound mn calls)
                    path (successors cube) min_exceeded (S calls)
            end
        end
    end.

  (** generic/search/ida.rs:101-118: the loop over the iterations. *)
  Fixpoint timed_iter (fuel : nat) (cube : C) (iterations : nat) (bound : K) (calls : nat) : search_result (C := C) (M := M) :=
    match iterations with
    | 0 => SearchDone None
    | S iterations =>
        match timed_impl fuel [cube] (k_zero ops) bound (k_add ops bound (k_one ops)) calls with
        | TFound solution path =>
            match path with
            | [] => SearchDone None
            | last :: _ => SearchDone (Some (rev solution, last))
            end
        | TNone min_exceeded calls => timed_iter fuel cube iterations min_exceeded calls
        | TPanic => SearchPanic
        | TFuel => SearchFuel
        end
    end.

  (** generic/search/ida.rs:98-119 [search]; the first call of the heuristic gives the bound. *)
  Definition timed_search (fuel : nat) (max_depth : Z) (cube : C) : search_result (C := C) (M := M) :=
    match heuristic 0 cube with
    | Panic => SearchPanic
    | Done bound => timed_iter fuel cube (Z.to_nat (max_depth + 1)) bound 1
    end.

  (** generic/search/mod.rs:25-33 [Solver::solve]. *)
  Definition timed_solve (fuel : nat) (max_depth : Z) (cube : C) : solve_result (M := M) :=
    match timed_search fuel max_depth cube with
    | SearchDone None => SolveDone None
    | SearchDone (Some (solution, solved)) =>
        if is_target solved then SolveDone (Some solution) else SolvePanic
    | SearchPanic => SolvePanic
    | SearchFuel => SolveFuel
    end.
End Timed.

(** cube_n/search.rs:13-19 [Cube3::solve_with_heuristic]. *)
Definition timed_solve_with_heuristic {K} (ops : CostOps K) (heuristic : nat -> Cube3 -> outcome K) (fuel : nat) (c : Cube3)
  : solve_result :=
  timed_solve ops cube3_eqb cube3_successors cube3_is_solved heuristic fuel 200 c.

(** heuristics/mus.rs:4-10 [mus_with_fallback] while other threads may initialise the cache:
    [lock k] is the content of the [OnceLock] at the [k]th call. *)
Definition timed_mus_with_fallback (fallback : Cube3 -> outcome f32) (lock : nat -> option Cache) (calls : nat) (c : Cube3)
  : outcome f32 :=
  mus_with_fallback fallback (lock calls) c.

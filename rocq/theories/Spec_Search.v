(** Specification vocabulary for searching: what a solution is, what the searcher may
    assume about its inputs, and exact costs. *)

From Coq Require Import List ZArith Bool.
From Verif Require Import Model_Search Model_Float.
Import ListNotations.

(** Exact costs in units of 1/[u]: a move costs [u] units. *)
Definition exact_costs (u : Z) : CostOps Z := mkCostOps Z Z.add Z.ltb 0%Z u.

(** [pr_eqb] is equality of states. *)
Definition equality_ok {K C M} (pr : Problem K C M) : Prop :=
  forall a b, pr_eqb pr a b = true <-> a = b.

(** Every successor is the state after its move ... *)
Definition successors_sound {K C M} (pr : Problem K C M) (app : C -> M -> C) : Prop :=
  forall c s m, In (s, m) (pr_successors pr c) -> s = app c m.
(** ... and every move is offered. *)
Definition successors_complete {K C M} (pr : Problem K C M) (app : C -> M -> C) : Prop :=
  forall c m, In (app c m, m) (pr_successors pr c).

(** [al] leads from [c] to a target. *)
Definition reaches_target {K C M} (pr : Problem K C M) (app : C -> M -> C) (c : C) (al : list M) : Prop :=
  pr_is_target pr (fold_left app al c) = true.

(** The heuristic is never negative and never more than the cost of an alg that reaches
    the target. *)
Definition non_negative {C M} (pr : Problem Z C M) : Prop := forall c, (0 <= pr_heuristic pr c)%Z.
Definition admissible {C M} (u : Z) (pr : Problem Z C M) (app : C -> M -> C) : Prop :=
  forall c al, reaches_target pr app c al -> (pr_heuristic pr c <= u * Z.of_nat (length al))%Z.

(** The states visited by an alg, the start first. *)
Fixpoint visited {C M} (app : C -> M -> C) (c : C) (al : list M) : list C :=
  match al with [] => [c] | m :: r => c :: visited app (app c m) r end.

(** The searcher again, with an assertion made every time a state is examined: [check] is
    given the path from the start (last state first), the accumulated cost and the bound,
    and the run panics if it is false.  Everything else is the model's own text. *)
Section Checked.
  Context {K C M : Type} (ops : CostOps K) (pr : Problem K C M) (check : list C -> K -> K -> bool).

  Fixpoint checked_impl (fuel : nat) (path : list C) (current_cost bound min_exceeded : K) : ida_result K C M :=
    if check path current_cost bound then
      match fuel with
      | 0 => IdaFuel
      | S fuel =>
          match path with
          | [] => IdaPanic
          | cube :: _ =>
              let new_cost := k_add ops current_cost (pr_heuristic pr cube) in
              if k_ltb ops bound new_cost then
                IdaNone (if k_ltb ops new_cost min_exceeded then new_cost else min_exceeded)
              else if pr_is_target pr cube then IdaFound [] path
              else
                ida_try pr (fun path mn => checked_impl fuel path (k_add ops current_cost (k_one ops)) bound mn)
                  path (pr_successors pr cube) min_exceeded
          end
      end
    else IdaPanic.

  Fixpoint checked_iter (fuel : nat) (cube : C) (iterations : nat) (bound : K) : search_result :=
    match iterations with
    | 0 => SearchDone None
    | S iterations =>
        match checked_impl fuel [cube] (k_zero ops) bound (k_add ops bound (k_one ops)) with
        | IdaFound solution path =>
            match path with
            | [] => SearchDone None
            | last :: _ => SearchDone (Some (rev solution, last))
            end
        | IdaNone min_exceeded => checked_iter fuel cube iterations min_exceeded
        | IdaPanic => SearchPanic
        | IdaFuel => SearchFuel
        end
    end.
End Checked.

(** Every pair of states on the path is different. *)
Fixpoint no_repeats {C} (eqb : C -> C -> bool) (path : list C) : bool :=
  match path with [] => true | c :: r => negb (existsb (eqb c) r) && no_repeats eqb r end.

(** Consecutive states of the path (last first) are connected by a successor. *)
Fixpoint connected_path {K C M} (pr : Problem K C M) (path : list C) : bool :=
  match path with
  | [] => true
  | c :: r => match r with
              | [] => true
              | d :: _ => existsb (fun s => pr_eqb pr c (fst s)) (pr_successors pr d) && connected_path pr r
              end
  end.

(** A finite set of states, closed under successors. *)
Definition closed_under_successors {K C M} (pr : Problem K C M) (all : list C) : Prop :=
  forall c s m, In c all -> In (s, m) (pr_successors pr c) -> In s all.

(** The problem with [f32] costs whose heuristic is [h] times 2^-[k]. *)
Definition dyadic_problem {C M} (k : Z) (pr : Problem Z C M) : Problem f32 C M :=
  mkProblem f32 C M (pr_eqb pr) (pr_successors pr) (fun c => f32_scaled (- k) (pr_heuristic pr c)) (pr_is_target pr).

(** The blanket implementations that make every cube movable by other kinds of face
    moves, as they apply to [Orientable<C>] (which is a [Cube], orientable/mod.rs:68-73),
    its equality, [is_solved] and [connect]. *)

From Coq Require Import List Bool Arith NArith.
From Verif Require Import Model_Base Model_Space Model_Moves Model_Pieces Model_PieceSet Model_Cubes
  Model_Connect Model_NonRedundant Model_Orientable.
Import ListNotations.

(** moves/quarter.rs:51-55 [Movable<QuarterAxisMove>]. *)
Definition orientable_apply_quarter (n : CubeSize) (o : Orientable n) (q : QuarterAxisMove) : outcome (Orientable n) :=
  orientable_apply n o (move_of_quarter q).

(** moves/wide.rs:122-126 [Movable<WideAxisMove<0>>]: the depth is not looked at. *)
Definition orientable_apply_wide0 (n : CubeSize) (o : Orientable n) (w : WideAxisMove) : outcome (Orientable n) :=
  orientable_apply n o (w_move w).

(** moves/non_redundant.rs:364-370 [Movable<NonRedundantAxisMove>]. *)
Definition orientable_apply_nr (n : CubeSize) (o : Orientable n) (m : NRMove) : outcome (Orientable n) :=
  apply_alg_o (orientable_apply n) o (nr_moves m).

(** orientable/mod.rs:15 derived [PartialEq]. *)
Definition orientable_eqb (n : CubeSize) (a b : Orientable n) : bool :=
  cube_eqb n (ob_cube a) (ob_cube b) && ori_eqb (ob_ori a) (ob_ori b).

(** generic/mod.rs:60-65 [is_solved], not overridden for [Orientable]. *)
Definition orientable_is_solved (n : CubeSize) (o : Orientable n) : bool :=
  orientable_eqb n o (orientable_solved n).

(** [Iterator::find] with a predicate that may panic. generic/moves.rs:71. *)
Fixpoint find_o {A} (p : A -> outcome bool) (l : list A) : outcome (option A) :=
  match l with
  | [] => Done None
  | a :: r => bind_o (p a) (fun b : bool => if b then Done (Some a) else find_o p r)
  end.

(** generic/moves.rs:67-72 [connect::<AxisMove, Orientable<C>>]. *)
Definition orientable_connect (n : CubeSize) (from to : Orientable n) : outcome (option AxisMove) :=
  find_o (fun m => map_o (fun o => orientable_eqb n o to) (orientable_apply n from m)) all_moves.

(** generic/alg.rs:86-103 [Alg::try_from_states] on states of an [Orientable]: as
    [Model_Moves.try_from_states], with [orientable_connect]. *)
Fixpoint orientable_try_from_states (n : CubeSize) (states : list (Orientable n))
  : outcome (result (list AxisMove) (TryFromStatesError (Orientable n))) :=
  match states with
  | from :: ((to :: _) as rest) =>
      bind_o (orientable_connect n from to) (fun m =>
      match m with
      | None => Done (Err (NotConnected from to))
      | Some m => map_o (fun r => bind_r r (fun ms => Ok (m :: ms))) (orientable_try_from_states n rest)
      end)
  | _ => Done (Ok [])
  end.

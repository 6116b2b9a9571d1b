(** [AxisMove::all] with its uninitialised array, /repo/barbarosa/src/cube_n/moves/mod.rs:62-82 and
    96-102. [all_moves] of Model_Moves, which the rest of the model uses, is the list it returns. *)

From Coq Require Import List Bool Arith.
From Verif Require Import Model_Base Model_Space Model_Moves Model_Cubes.
Import ListNotations.

(** moves/mod.rs:63 [DISTINCT_MOVES]. *)
Definition distinct_moves : nat := 3 * 2 * 3.

(** moves/mod.rs:67-68: an array of [MaybeUninit]; [None] is a slot that has not been written. *)
Definition uninit_moves : list (option AxisMove) := repeat None distinct_moves.

(** moves/mod.rs:71 [iproduct!(Axis::iter(), Direction::iter(), Amount::iter())]: the last factor varies fastest. *)
Definition move_product : list (Axis * Direction * Amount) :=
  flat_map (fun a => flat_map (fun d => map (fun am => (a, d, am)) amount_iter) direction_iter) axis_iter.

(** moves/mod.rs:70-75: the loop over the enumerated product; [moves[i]] checks its index. *)
Fixpoint write_moves (i : nat) (items : list (Axis * Direction * Amount)) (slots : list (option AxisMove))
  : outcome (list (option AxisMove)) :=
  match items with
  | [] => Done slots
  | (a, d, am) :: items =>
      if i <? length slots then write_moves (S i) items (set_nth slots i (Some (mkMove (mkFace a d) am)))
      else Panic
  end.

(** What a slot is taken for by the [transmute]. *)
Inductive Slots := Initialised (moves : list AxisMove) | Undefined.

(** moves/mod.rs:77-81 [transmute] to an array of moves: undefined behaviour if a slot has not been written. *)
Fixpoint assume_init (slots : list (option AxisMove)) : Slots :=
  match slots with
  | [] => Initialised []
  | None :: _ => Undefined
  | Some m :: slots => match assume_init slots with Initialised ms => Initialised (m :: ms) | Undefined => Undefined end
  end.

(** moves/mod.rs:66-82 [AxisMove::all], and 96-102 [AxisMove::iter], which goes through it. *)
Definition axis_move_all : outcome Slots := map_o assume_init (write_moves 0 move_product uninit_moves).

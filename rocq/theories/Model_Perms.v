(** Model of /repo/barbarosa/src/cube_n/moves/perms.rs: the named algorithms. *)

From Coq Require Import List NArith String.
From Verif Require Import Model_Base Model_Moves Model_Parser.
Import ListNotations.
Local Open Scope string_scope.

(** The initialiser [text.try_into().unwrap()] of the lazy statics: generic/alg.rs:124-133
    ([Alg::parse]), the [unwrap] is [Panic]. *)
Definition named_alg (is_number : N -> bool) (t : text) : outcome (list AxisMove) :=
  bind_o (parse_alg (parse_move is_number) t) (fun r =>
    match r with Ok al => Done al | Err _ => Panic end).

(** perms.rs:10. *)
Definition SEXY_MOVE (is_number : N -> bool) := named_alg is_number (lit "R U R' U'").
(** perms.rs:17-18. *)
Definition pll_T (is_number : N -> bool) := named_alg is_number (lit "R U R' U' R' F R2 U' R' U' R U R' F'").
(** perms.rs:21-22. *)
Definition pll_U (is_number : N -> bool) := named_alg is_number (lit "R2 U' R' U' R U R U R U' R").
(** perms.rs:25-26. *)
Definition pll_J (is_number : N -> bool) := named_alg is_number (lit "R U R' F' R U R' U' R' F R2 U' R' U'").

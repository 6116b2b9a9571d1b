(** Model of the interactive playground, /repo/barbarosa/src/main.rs:26-57. *)

From Coq Require Import List Bool Arith NArith.
From Verif Require Import Model_Base Model_Space Model_Moves Model_Cubes Model_Orientable Model_Parser.
Import ListNotations.

(** main.rs:39 [stdin().lock().lines().next()]: each read gives a line without its line
    terminator, or an I/O error (for example invalid UTF-8); the end of the input is the end
    of the list. *)
Inductive Read := ReadLine (line : text) | ReadError.

(** main.rs:43 [cube.apply(&mov)] for an [Alg]: generic/alg.rs:146-160, the moves one after
    the other. *)
Fixpoint apply_extended (o : Orientable Size3) (al : list ExtendedAxisMove) : outcome (Orientable Size3) :=
  match al with
  | [] => Done o
  | m :: al => bind_o (ext_apply Size3 o m) (fun o => apply_extended o al)
  end.

(** main.rs:35 [Box<dyn std::error::Error>]: the error that is behind the pointer, that of
    the read (line 39, its content is left out) or that of the parser (line 41). *)
Inductive PlayError := NotRead | NotParsed (e : ParseError).

(** main.rs:36-48 [playground_loop]: the cube afterwards and the error, if [Ok(())] was not
    returned. [None] is the end of the input, where the [unwrap] of line 39 panics.  Errors of
    [flush] are not modelled. *)
Definition playground_loop (is_number : N -> bool) (o : Orientable Size3) (input : option Read)
  : outcome (Orientable Size3 * option PlayError) :=
  match input with
  | None => Panic
  | Some ReadError => Done (o, Some NotRead)
  | Some (ReadLine line) =>
      bind_o (parse_alg (parse_extended is_number) line) (fun r =>
        match r with
        | Err e => Done (o, Some (NotParsed e))
        | Ok al => map_o (fun o => (o, None)) (apply_extended o al)
        end)
  end.

(** What is printed: the cube (main.rs:45, 50) or an error (main.rs:54). *)
Inductive Event := Shown (c : CubeOf Size3) | ErrorShown (e : PlayError).

(** How a run of the program ends: [unwrap] at the end of the input, with the cube at that
    time, or a panic while a line is being applied. main.rs:39 and 43. *)
Inductive Stop := EndOfInput (o : Orientable Size3) | PanicInMove.

(** main.rs:52-56 the endless [loop]. *)
Fixpoint play (is_number : N -> bool) (o : Orientable Size3) (input : list Read) : list Event * Stop :=
  match input with
  | [] => ([], EndOfInput o)
  | r :: input =>
      match playground_loop is_number o (Some r) with
      | Panic => ([], PanicInMove)
      | Done (o, err) =>
          let (ev, stop) := play is_number o input in
          (match err with None => Shown (ob_cube o) | Some e => ErrorShown e end :: ev, stop)
      end
  end.

(** main.rs:26-57 [playground_3x3]. *)
Definition playground_3x3 (is_number : N -> bool) (input : list Read) : list Event * Stop :=
  let o := orientable_new (cube_solved Size3) in
  let (ev, stop) := play is_number o input in (Shown (ob_cube o) :: ev, stop).

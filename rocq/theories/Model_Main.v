(** Model of the command line program, /repo/barbarosa/src/main.rs:14-24, and of what its
    playground writes to the terminal. *)

From Coq Require Import List Bool Arith NArith.
From Verif Require Import Model_Base Model_Space Model_Moves Model_Cubes Model_Orientable Model_Parser
  Model_Visual Model_Print Model_Cache Model_Disk Model_Playground.
Import ListNotations.

(** main.rs:3-12 [CliArgs]. The reading of the command line by [clap] is not modelled. *)
Record CliArgs := mkArgs { build_mus_cache : bool; playground : bool }.

(** How the program ends: [main] returns, [Cache::init] panics (main.rs:18), or the endless
    loop of the playground (main.rs:52-56) is left by a panic. *)
Inductive MainEnd := MainReturns | CachePanics | PlaygroundStops (s : Stop).

(** A run of the program: the disks after each change, what the playground prints, the end. *)
Record MainRun := mkMain { mn_trace : list Disk; mn_shown : list Event; mn_end : MainEnd }.

(** main.rs:21-23. *)
Definition main_playground (is_number : N -> bool) (args : CliArgs) (input : list Read) : list Event * MainEnd :=
  if playground args
  then let (ev, stop) := playground_3x3 is_number input in (ev, PlaygroundStops stop)
  else ([], MainReturns).

(** main.rs:14-24 [main]. *)
Definition run_main (is_number : N -> bool) (args : CliArgs) (fe fc : Faults) (d : Disk) (input : list Read) : MainRun :=
  if build_mus_cache args then
    let r := cache_init fe fc d in
    match rn_result r with
    | Done (Ok _) => let (ev, e) := main_playground is_number args input in mkMain (rn_trace r) ev e
    | _ => mkMain (rn_trace r) [] CachePanics
    end
  else let (ev, e) := main_playground is_number args input in mkMain [] ev e.

(** What is on the screen for an event: main.rs:45 and 50 print the base cube with [Display];
    errors (main.rs:54) go to the other stream. The line break of [println!] and the prompt
    of main.rs:37 are left out. *)
Definition event_screen (e : Event) : outcome (list Ink) :=
  match e with Shown c => cube3_display c | ErrorShown _ => Done [] end.

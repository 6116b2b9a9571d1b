(** Model of the threads of one process that use the global cache
    (/repo/barbarosa/src/cube_n/cube3/mus/cache/mod.rs:20-32).

    [std::sync::OnceLock]: one initialiser runs at a time, the others wait; a value that has
    been stored is never changed; if the initialiser panics the lock is empty again, the
    panic goes on in the thread that ran it, and a waiting thread runs its own. Reads are
    atomic (acquire/release in std).  [Cache::init] itself is Model_Disk and
    Model_Concurrent; here it may return any cache of a given kind, or panic. *)

From Coq Require Import List.
From Verif Require Import Model_Base Model_Cubes Model_Mus Model_Cache Model_Concurrent.
Import ListNotations.

(** std [OnceLock] (cache/mod.rs:20 [CACHE_LOCK]): empty, being initialised by a thread, or full. *)
Inductive Lock := Empty | Busy (thread : nat) | Full (ca : Cache).

(** A thread: outside the functions of the module, inside [get_or_init] but not initialising
    (cache/mod.rs:24-26), running [Cache::init], or ended by a panic. *)
Inductive Thread := Outside | Asking (c : Cube3) | Initialising (c : Cube3) | Panicked.

(** What can be observed: a successful initialisation, a panic in it, and the answers of
    [get_or_init] and of [get]. Calls and returns of cache/mod.rs:24-32. *)
Inductive Event :=
| Initialised (thread : nat) (ca : Cache)
| InitPanicked (thread : nat)
| AnsweredInit (thread : nat) (c : Cube3) (value : outcome BinNums.N)
| AnsweredGet (thread : nat) (c : Cube3) (value : option (outcome BinNums.N)).

(** The lock, the threads and what was observed, the latest first. Not in /repo: the state of the process. *)
Record World := mkWorld { wo_lock : Lock; wo_threads : list Thread; wo_history : list Event }.

(** cache/mod.rs:30-32: what [OnceLock::get] sees. *)
Definition lock_content (l : Lock) : option Cache := match l with Full ca => Some ca | _ => None end.

Section Threads.
  (** What [Cache::init] may return. *)
  Context (init_returns : Cache -> Prop).

  (** One step of one thread: cache/mod.rs:24-32 and the [OnceLock] of std. *)
  Inductive world_step : World -> World -> Prop :=
  (* a thread is started *)
  | step_spawn l ts h : world_step (mkWorld l ts h) (mkWorld l (ts ++ [Outside]) h)
  (* cache/mod.rs:30-32 [get] *)
  | step_get l ts h t c : nth_error ts t = Some Outside ->
      world_step (mkWorld l ts h) (mkWorld l ts (AnsweredGet t c (cache_lock_get (lock_content l) c) :: h))
  (* cache/mod.rs:24-26 [get_or_init] is called *)
  | step_call l ts h t c : nth_error ts t = Some Outside ->
      world_step (mkWorld l ts h) (mkWorld l (set_nth ts t (Asking c)) h)
  (* the lock is full: answer *)
  | step_answer ca ts h t c : nth_error ts t = Some (Asking c) ->
      world_step (mkWorld (Full ca) ts h) (mkWorld (Full ca) (set_nth ts t Outside) (AnsweredInit t c (cache_get ca c) :: h))
  (* the lock is empty: become the initialiser *)
  | step_enter ts h t c : nth_error ts t = Some (Asking c) ->
      world_step (mkWorld Empty ts h) (mkWorld (Busy t) (set_nth ts t (Initialising c)) h)
  (* [Cache::init] returns *)
  | step_store ts h t c ca : nth_error ts t = Some (Initialising c) -> init_returns ca ->
      world_step (mkWorld (Busy t) ts h) (mkWorld (Full ca) (set_nth ts t (Asking c)) (Initialised t ca :: h))
  (* [Cache::init] panics *)
  | step_panic ts h t c : nth_error ts t = Some (Initialising c) ->
      world_step (mkWorld (Busy t) ts h) (mkWorld Empty (set_nth ts t Panicked) (InitPanicked t :: h)).

  (** Everything that can happen from the start of the process. Not in /repo: the executions of the process. *)
  Inductive world_reach : World -> Prop :=
  | world_start : world_reach (mkWorld Empty [] [])
  | world_next w w' : world_reach w -> world_step w w' -> world_reach w'.

  (** Several steps. Not in /repo. *)
  Inductive world_steps : World -> World -> Prop :=
  | steps_none w : world_steps w w
  | steps_more w w' w'' : world_step w w' -> world_steps w' w'' -> world_steps w w''.
End Threads.

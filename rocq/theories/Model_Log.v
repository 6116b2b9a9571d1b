(** [Cache::init] and [Cache::load] with the messages of a debug build, in the order in which
    messages and changes of the disk happen:
    /repo/barbarosa/src/cube_n/cube3/mus/cache/disk_storage.rs, generation.rs:46-81 and
    cache/mod.rs:60-71. Standard output is written line by line, so what has been printed before
    a crash is there after it. In a release build nothing is printed (disk_storage.rs:90-92). *)

From Coq Require Import String List Bool Arith NArith ZArith.
From Verif Require Import Model_Base Model_Moves Model_Parser Model_Mus Model_Cache Model_Disk Model_Stats Model_Report.
Import ListNotations.
Local Open Scope list_scope.

(** disk_storage.rs:46-52 [DiskCacheable::PATH]. *)
Definition path_text (p : Path) : text :=
  match p with
  | EdgesPath => lit "mus-cache/edges.barbarosa"
  | CornersPath => lit "mus-cache/corners.barbarosa"
  end.

(** A message about a table (disk_storage.rs:89-100 [print_with_timestamp::<T>(msg)]), or a new
    state of the disk (see Model_Disk). *)
Inductive Event := Says (p : Path) (msg : text) | Becomes (d : Disk).

(** What a call says and does, in order, and its result; see [Run] of Model_Disk. The calls of
    cache/disk_storage.rs:13-87. *)
Record Logged (A : Type) := mkLogged { lg_events : list Event; lg_result : outcome (result A io_error) }.
Arguments mkLogged {A}.
Arguments lg_events {A}.
Arguments lg_result {A}.

(** The disk after some events. Not in /repo. *)
Definition disk_now (d : Disk) (evs : list Event) : Disk :=
  fold_left (fun d e => match e with Says _ _ => d | Becomes d' => d' end) evs d.

(** The line that is printed for a message; [now] is the text of the clock. disk_storage.rs:94-99. *)
Definition printed_line (now : text) (p : Path) (msg : text) : text := report_line now msg (path_text p).

(** Sequencing with [?]. cache/disk_storage.rs:14-17, 21-24 and generation.rs:76-80. *)
Definition log_bind {A B} (d : Disk) (r : Logged A) (f : A -> Disk -> Logged B) : Logged B :=
  match lg_result r with
  | Done (Ok a) => let r2 := f a (disk_now d (lg_events r)) in mkLogged (lg_events r ++ lg_events r2) (lg_result r2)
  | Done (Err e) => mkLogged (lg_events r) (Done (Err e))
  | Panic => mkLogged (lg_events r) Panic
  end.
(** A message. cache/disk_storage.rs:89-100. *)
Definition log_says (p : Path) (msg : text) : Logged unit := mkLogged [Says p msg] (Done (Ok tt)).
(** A call of the file system, which says nothing. std. *)
Definition log_silent {A} (r : Run A) : Logged A := mkLogged (map Becomes (rn_trace r)) (rn_result r).

Section Partial.
  (** [PATH], [TOTAL_SET_SIZE] and what [build_partial] says and computes before it writes. *)
  Context (p : Path) (total : N) (talk : list text * outcome (list N)).

  (** disk_storage.rs:54-63 [load_partial]. *)
  Definition load_partial_log (ft : Faults) (d : Disk) : Logged (list N) :=
    log_bind d (log_says p (lit "Attempting to load cache from disk")) (fun _ d =>
    match fs_read (ft_read ft) d p with
    | Err e => mkLogged [] (Done (Err e))
    | Ok bytes =>
        if correct_cache_size total bytes then
          log_bind d (log_says p (lit "Cache has been loaded")) (fun _ _ => mkLogged [] (Done (Ok bytes)))
        else mkLogged [] Panic
    end).

  (** disk_storage.rs:67-87 [write_partial]. *)
  Definition write_partial_log (ft : Faults) (d : Disk) (bytes : list N) : Logged unit :=
    log_bind d (log_says p (lit "Writing cache to disk")) (fun _ d =>
    if correct_cache_size total bytes then
      let w := fs_write (ft_write ft) d p bytes in
      log_bind d
        (match rn_result w with
         | Done (Err NotFound) =>
             log_bind d (log_silent (fs_create_dir (ft_mkdir ft) d)) (fun _ d =>
             log_silent (fs_write (ft_write_again ft) d p bytes))
         | _ => log_silent w
         end)
        (fun _ _ => log_says p (lit "Cache has been written"))
    else mkLogged [] Panic).

  (** generation.rs:46-81 [build_partial]; the messages up to line 72 are those of [talking_build]. *)
  Definition build_partial_log (ft : Faults) (d : Disk) : Logged (list N) :=
    log_bind d (mkLogged (map (Says p) (fst talk)) (match snd talk with Done t => Done (Ok t) | Panic => Panic end)) (fun cache d =>
    log_bind d (write_partial_log ft d cache) (fun _ d =>
    log_bind d (log_says p (lit "Cache saved to disk.")) (fun _ _ => mkLogged [] (Done (Ok cache))))).

  (** disk_storage.rs:33-40 [load_or_build_partial]. *)
  Definition load_or_build_partial_log (ft : Faults) (d : Disk) : Logged (list N) :=
    let l := load_partial_log ft d in
    match lg_result l with
    | Done (Err NotFound) =>
        let b := build_partial_log ft (disk_now d (lg_events l)) in
        mkLogged (lg_events l ++ lg_events b) (lg_result b)
    | _ => l
    end.
End Partial.

(** disk_storage.rs:20-25 [load_or_build]; the clocks show the milliseconds since the start of each
    table at its reports. *)
Definition load_or_build_log (clock_e clock_c : nat -> Z) (fe fc : Faults) (d : Disk) : Logged Cache :=
  log_bind d (load_or_build_partial_log EdgesPath edges_total_set_size
                (talking_build half_edges_mus clock_e (path_text EdgesPath)) fe d) (fun edges d =>
  log_bind d (load_or_build_partial_log CornersPath corners_total_set_size
                (talking_build corners_mus clock_c (path_text CornersPath)) fc d) (fun corners _ =>
  mkLogged [] (Done (Ok (mkCache edges corners))))).

(** cache/mod.rs:60-66 [Cache::init]: an error is a panic. *)
Definition cache_init_log (clock_e clock_c : nat -> Z) (fe fc : Faults) (d : Disk) : Logged Cache :=
  let r := load_or_build_log clock_e clock_c fe fc d in
  mkLogged (lg_events r) (match lg_result r with Done (Err _) => Panic | x => x end).

(** cache/mod.rs:69-71 and disk_storage.rs:13-18 [Cache::load]. *)
Definition cache_load_log (fe fc : Faults) (d : Disk) : Logged Cache :=
  log_bind d (load_partial_log EdgesPath edges_total_set_size fe d) (fun edges d =>
  log_bind d (load_partial_log CornersPath corners_total_set_size fc d) (fun corners _ =>
  mkLogged [] (Done (Ok (mkCache edges corners))))).

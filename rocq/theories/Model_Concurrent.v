(** Model of several processes using the same cache directory at once
    (/repo/barbarosa/src/cube_n/cube3/mus/cache/{mod,disk_storage,generation}.rs).

    Model_Disk treats one process at a time; here the system calls of any number of
    processes interleave. The file system follows POSIX: a name refers to an inode, an open
    file keeps its inode, opening with truncation empties the inode whoever else has it
    open, a write at an offset beyond the end fills the gap with zeros, and one [fs::write]
    or [fs::read] is a loop of calls that each transfer some of the bytes. The threads of
    one process are in Model_Threads: the [OnceLock] lets one of them initialise.  Errors other than
    [NotFound] end the call without a cache, and are the same as a crash here. *)

From Coq Require Import List Bool Arith NArith.
From Verif Require Import Model_Base Model_Space Model_Moves Model_Mus Model_Cache Model_Disk.
Import ListNotations.

(** The inodes with the name they were created under, the directory and its entries.
    The operating system, seen through cache/disk_storage.rs:54-87. *)
Record FS := mkFS { fs_dir : bool; fs_edges : option nat; fs_corners : option nat; fs_inodes : list (Path * list N) }.
(** The inode a path refers to (POSIX, not in /repo). *)
Definition fs_link (fs : FS) (p : Path) : option nat :=
  match p with EdgesPath => fs_edges fs | CornersPath => fs_corners fs end.
(** Change what a path refers to (POSIX, not in /repo). *)
Definition set_link (fs : FS) (p : Path) (l : option nat) : FS :=
  match p with
  | EdgesPath => mkFS (fs_dir fs) l (fs_corners fs) (fs_inodes fs)
  | CornersPath => mkFS (fs_dir fs) (fs_edges fs) l (fs_inodes fs)
  end.
(** Change the content of an inode (POSIX, not in /repo). *)
Definition set_inode (fs : FS) (i : nat) (x : Path * list N) : FS :=
  mkFS (fs_dir fs) (fs_edges fs) (fs_corners fs) (set_nth (fs_inodes fs) i x).
(** Create an empty file (POSIX [open] with [O_CREAT], not in /repo). *)
Definition add_inode (fs : FS) (p : Path) : FS :=
  set_link (mkFS (fs_dir fs) (fs_edges fs) (fs_corners fs) (fs_inodes fs ++ [(p, [])])) p (Some (length (fs_inodes fs))).
(** [fs::create_dir_all] (std), used at disk_storage.rs:78. *)
Definition make_dir (fs : FS) : FS := mkFS true (fs_edges fs) (fs_corners fs) (fs_inodes fs).
(** Before the first use: no directory. cache/disk_storage.rs:47 and 51 name the files. *)
Definition empty_fs : FS := mkFS false None None [].

(** [write] at an offset.
    POSIX; [fs::write] of cache/disk_storage.rs:71 and 79 calls it until everything is written. *)
Definition write_at (content : list N) (offset : nat) (bytes : list N) : list N :=
  firstn offset content ++ repeat 0%N (offset - length content) ++ bytes ++ skipn (offset + length bytes) content.

(** [Cache::init] or [Cache::load]. cache/mod.rs:60-71. *)
Inductive Goal := DoInit | DoLoad.
(** Where a call is: opening the file to read it, reading it (bytes so far), opening it to
    write (a second time after making the directory?), making the directory, writing it.
    cache/disk_storage.rs:54-87. *)
Inductive Stage :=
| OpenRead
| Reading (i : nat) (got : list N)
| OpenWrite (table : list N) (again : bool)
| MakeDir (table : list N)
| Writing (table : list N) (i : nat) (offset : nat).
(** A process: busy with the edge table ([edges = None]) or, with the edge table ready,
    with the corner table; finished; or gone (crash, panic or error). cache/disk_storage.rs:20-25. *)
Inductive Proc :=
| Running (g : Goal) (edges : option (list N)) (st : Stage)
| Returned (ca : Cache)
| Stopped.

(** disk_storage.rs:20-25: edges first, then corners. *)
Definition busy_with (edges : option (list N)) : Path := match edges with None => EdgesPath | Some _ => CornersPath end.
(** disk_storage.rs:13-25 [load], [load_or_build]: a table is ready; go on with the corners or return the [Cache]. *)
Definition next_table (g : Goal) (edges : option (list N)) (table : list N) : Proc :=
  match edges with
  | None => Running g (Some table) OpenRead
  | Some e => Returned (mkCache e table)
  end.
(** The table built in memory (generation.rs:46-70) and the length a file should have. *)
Definition built (p : Path) : outcome (list N) :=
  match p with EdgesPath => build_table half_edges_mus | CornersPath => build_table corners_mus end.
(** index/mod.rs:64 [TOTAL_SET_SIZE], as used at disk_storage.rs:102-106. *)
Definition total_of (p : Path) : N :=
  match p with EdgesPath => edges_total_set_size | CornersPath => corners_total_set_size end.

(** One system call of one process: disk_storage.rs:13-87 and generation.rs:46-80, line by line below. *)
Inductive proc_step : FS -> Proc -> FS -> Proc -> Prop :=
(* disk_storage.rs:57 [fs::read]: open *)
| step_found fs g e i : fs_link fs (busy_with e) = Some i ->
    proc_step fs (Running g e OpenRead) fs (Running g e (Reading i []))
(* disk_storage.rs:37 and generation.rs:46-70: not found, build *)
| step_build fs e table : fs_link fs (busy_with e) = None -> built (busy_with e) = Done table ->
    correct_cache_size (total_of (busy_with e)) table = true ->
    proc_step fs (Running DoInit e OpenRead) fs (Running DoInit e (OpenWrite table false))
(* disk_storage.rs:57 [fs::read]: some bytes *)
| step_read fs g e i got p content k : nth_error (fs_inodes fs) i = Some (p, content) ->
    proc_step fs (Running g e (Reading i got)) fs (Running g e (Reading i (got ++ firstn k (skipn (length got) content))))
(* end of the file; disk_storage.rs:59, 102-106: the right size *)
| step_loaded fs g e i got p content : nth_error (fs_inodes fs) i = Some (p, content) -> length content <= length got ->
    correct_cache_size (total_of (busy_with e)) got = true ->
    proc_step fs (Running g e (Reading i got)) fs (next_table g e got)
(* disk_storage.rs:71 or 79 [fs::write]: open an existing file, emptying it *)
| step_truncate fs g e table again i p content : fs_link fs (busy_with e) = Some i -> nth_error (fs_inodes fs) i = Some (p, content) ->
    proc_step fs (Running g e (OpenWrite table again)) (set_inode fs i (p, [])) (Running g e (Writing table i 0))
(* or create it *)
| step_create fs g e table again : fs_link fs (busy_with e) = None -> fs_dir fs = true ->
    proc_step fs (Running g e (OpenWrite table again)) (add_inode fs (busy_with e)) (Running g e (Writing table (length (fs_inodes fs)) 0))
(* disk_storage.rs:73-78: the directory is missing *)
| step_no_dir fs g e table : fs_dir fs = false ->
    proc_step fs (Running g e (OpenWrite table false)) fs (Running g e (MakeDir table))
| step_mkdir fs g e table :
    proc_step fs (Running g e (MakeDir table)) (make_dir fs) (Running g e (OpenWrite table true))
(* [fs::write]: some bytes *)
| step_write fs g e table i offset p content k : nth_error (fs_inodes fs) i = Some (p, content) ->
    0 < k -> offset < length table ->
    proc_step fs (Running g e (Writing table i offset))
      (set_inode fs i (p, write_at content offset (firstn k (skipn offset table))))
      (Running g e (Writing table i (offset + length (firstn k (skipn offset table)))))
(* all bytes written *)
| step_written fs g e table i offset : length table <= offset ->
    proc_step fs (Running g e (Writing table i offset)) fs (next_table g e table)
(* a crash, an error, or a panic (wrong size, missing file for [load], missing directory again) *)
| step_stop fs g e st : proc_step fs (Running g e st) fs Stopped.

(** The whole system: a process takes a step, a process is started, a file is deleted, the
    empty directory is deleted. Not in /repo: the machine. *)
Record Sys := mkSys { sy_fs : FS; sy_procs : list Proc }.
(** The processes interleave in any order (operating system, not in /repo). *)
Inductive sys_step : Sys -> Sys -> Prop :=
| sys_proc fs procs n pr fs' pr' : nth_error procs n = Some pr -> proc_step fs pr fs' pr' ->
    sys_step (mkSys fs procs) (mkSys fs' (set_nth procs n pr'))
| sys_start fs procs g : sys_step (mkSys fs procs) (mkSys fs (procs ++ [Running g None OpenRead]))
| sys_delete fs procs p : sys_step (mkSys fs procs) (mkSys (set_link fs p None) procs)
| sys_rmdir fs procs : fs_edges fs = None -> fs_corners fs = None ->
    sys_step (mkSys fs procs) (mkSys (mkFS false None None (fs_inodes fs)) procs).

(** No process has run yet. Not in /repo: the initial state of the machine. *)
Definition sys_init : Sys := mkSys empty_fs [].
(** Everything that can happen from there. Not in /repo: the executions of the operating system. *)
Inductive sys_reach : Sys -> Prop :=
| sys_reach_init : sys_reach sys_init
| sys_reach_step s s' : sys_reach s -> sys_step s s' -> sys_reach s'.

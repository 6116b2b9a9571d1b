(** Model of the cache files:
    /repo/barbarosa/src/cube_n/cube3/mus/cache/disk_storage.rs, the end of
    [build_partial] (generation.rs:72-80) and [Cache::init], [Cache::load] (cache/mod.rs:60-71).

    The file system: the directory [mus-cache] and the two files in it. [fs::write] opens
    and truncates the file and then writes the bytes one after the other; a crash of the
    process can happen between any two of these steps and leaves what was written so far.
    (What a loss of power may leave is in Spec_Power.) Any call
    can also fail with an error other than [NotFound]. Model_Log adds the messages. *)

From Coq Require Import List Bool Arith NArith.
From Verif Require Import Model_Base Model_Space Model_Moves Model_Mus Model_Cache.
Import ListNotations.

(** [io::ErrorKind] (std) as far as disk_storage.rs:37, 73 looks at it. *)
Inductive io_error := NotFound | OtherError.

(** disk_storage.rs:42-52 [DiskCacheable::PATH]. *)
Inductive Path := EdgesPath | CornersPath.

(** The working directory: is there a [mus-cache], and the content of the two files (disk_storage.rs:46-52). *)
Record Disk := mkDisk { dk_dir : bool; dk_edges : option (list N); dk_corners : option (list N) }.
(** Before the first use. cache/disk_storage.rs:46-52 name the directory and the files. *)
Definition empty_disk : Disk := mkDisk false None None.
(** The content of a file, if it exists. cache/disk_storage.rs:57. *)
Definition file (d : Disk) (p : Path) : option (list N) :=
  if dk_dir d then match p with EdgesPath => dk_edges d | CornersPath => dk_corners d end else None.
(** A file with new content. cache/disk_storage.rs:71. *)
Definition with_file (d : Disk) (p : Path) (bytes : list N) : Disk :=
  match p with
  | EdgesPath => mkDisk (dk_dir d) (Some bytes) (dk_corners d)
  | CornersPath => mkDisk (dk_dir d) (dk_edges d) (Some bytes)
  end.

(** What a call does: the disks it goes through, in order, then a result, a panic, or an
    error. The calls of cache/disk_storage.rs:13-87. *)
Record Run (A : Type) := mkRun { rn_trace : list Disk; rn_result : outcome (result A io_error) }.
Arguments mkRun {A}.
Arguments rn_trace {A}.
Arguments rn_result {A}.
(** The disk after a call that ran to its end, and all disks a crash can leave.
    Not in /repo: what is left when a call has returned. *)
Definition final_disk {A} (d : Disk) (r : Run A) : Disk := last (rn_trace r) d.
(** All disks a crash during a call can leave. Not in /repo: a process can be killed between any two system calls. *)
Definition crash_disks {A} (d : Disk) (r : Run A) : list Disk := d :: rn_trace r.

(** Sequencing with [?]; the second call starts on the disk the first one left.
    cache/disk_storage.rs:14-17 and 21-24. *)
Definition run_bind {A B} (d : Disk) (r : Run A) (f : A -> Disk -> Run B) : Run B :=
  match rn_result r with
  | Done (Ok a) =>
      let r2 := f a (final_disk d r) in mkRun (rn_trace r ++ rn_trace r2) (rn_result r2)
  | Done (Err e) => mkRun (rn_trace r) (Done (Err e))
  | Panic => mkRun (rn_trace r) Panic
  end.

(** Faults of the file system. The errors matched in cache/disk_storage.rs:35-39 and 71-82. *)
Inductive WriteFault := NoFault | FailToOpen | FailAfter (written : nat).
(** The faults during one [load_or_build_partial] (disk_storage.rs:57, 71, 78, 79). *)
Record Faults := mkFaults { ft_read : bool; ft_write : WriteFault; ft_mkdir : bool; ft_write_again : WriteFault }.
(** A file system that works. Not in /repo. *)
Definition no_faults : Faults := mkFaults false NoFault false NoFault.

(** [fs::read]. std, cache/disk_storage.rs:57. *)
Definition fs_read (fault : bool) (d : Disk) (p : Path) : result (list N) io_error :=
  if fault then Err OtherError
  else match file d p with Some bytes => Ok bytes | None => Err NotFound end.
(** [fs::write]. std, cache/disk_storage.rs:71 and 79. *)
Definition write_steps (d : Disk) (p : Path) (bytes : list N) (n : nat) : list Disk :=
  map (fun k => with_file d p (firstn k bytes)) (seq 0 (S n)).
(** [fs::write] (std): open with truncation, then write byte by byte; used at disk_storage.rs:71, 79. *)
Definition fs_write (fault : WriteFault) (d : Disk) (p : Path) (bytes : list N) : Run unit :=
  if dk_dir d then
    match fault with
    | NoFault => mkRun (write_steps d p bytes (length bytes)) (Done (Ok tt))
    | FailToOpen => mkRun [] (Done (Err OtherError))
    | FailAfter n => mkRun (write_steps d p bytes n) (Done (Err OtherError))
    end
  else mkRun [] (Done (Err NotFound)).
(** [fs::create_dir_all(parent)]; a new directory is empty. std, cache/disk_storage.rs:78. *)
Definition fs_create_dir (fault : bool) (d : Disk) : Run unit :=
  if fault then mkRun [] (Done (Err OtherError))
  else mkRun [if dk_dir d then d else mkDisk true None None] (Done (Ok tt)).

Section Partial.
  (** [PATH], [TOTAL_SET_SIZE] and the table computed by [build_partial]. *)
  Context (p : Path) (total : N) (table : outcome (list N)).

  (** disk_storage.rs:102-106 [assert_correct_cache_size]. *)
  Definition correct_cache_size (bytes : list N) : bool := N.eqb (N.of_nat (length bytes)) total.

  (** disk_storage.rs:54-63 [load_partial]. *)
  Definition load_partial (ft : Faults) (d : Disk) : outcome (result (list N) io_error) :=
    match fs_read (ft_read ft) d p with
    | Err e => Done (Err e)
    | Ok bytes => if correct_cache_size bytes then Done (Ok bytes) else Panic
    end.

  (** disk_storage.rs:67-87 [write_partial]. *)
  Definition write_partial (ft : Faults) (d : Disk) (bytes : list N) : Run unit :=
    if correct_cache_size bytes then
      let w := fs_write (ft_write ft) d p bytes in
      match rn_result w with
      | Done (Err NotFound) =>
          run_bind d (fs_create_dir (ft_mkdir ft) d) (fun _ d =>
          fs_write (ft_write_again ft) d p bytes)
      | _ => w
      end
    else mkRun [] Panic.

  (** generation.rs:46-81 [build_partial]. *)
  Definition build_partial (ft : Faults) (d : Disk) : Run (list N) :=
    match table with
    | Panic => mkRun [] Panic
    | Done cache => run_bind d (write_partial ft d cache) (fun _ _ => mkRun [] (Done (Ok cache)))
    end.

  (** disk_storage.rs:33-40 [load_or_build_partial]. *)
  Definition load_or_build_partial (ft : Faults) (d : Disk) : Run (list N) :=
    match load_partial ft d with
    | Done (Ok cache) => mkRun [] (Done (Ok cache))
    | Done (Err NotFound) => build_partial ft d
    | r => mkRun [] r
    end.
End Partial.

(** disk_storage.rs:20-25 [load_or_build]. *)
Definition load_or_build (fe fc : Faults) (d : Disk) : Run Cache :=
  run_bind d (load_or_build_partial EdgesPath edges_total_set_size (build_table half_edges_mus) fe d) (fun edges d =>
  run_bind d (load_or_build_partial CornersPath corners_total_set_size (build_table corners_mus) fc d) (fun corners _ =>
  mkRun [] (Done (Ok (mkCache edges corners))))).

(** cache/mod.rs:60-66 [Cache::init]: an error is a panic. *)
Definition cache_init (fe fc : Faults) (d : Disk) : Run Cache :=
  let r := load_or_build fe fc d in
  mkRun (rn_trace r) (match rn_result r with Done (Err _) => Panic | x => x end).

(** cache/mod.rs:69-71 and disk_storage.rs:13-18 [Cache::load]. *)
Definition cache_load (fe fc : Faults) (d : Disk) : outcome (result Cache io_error) :=
  bind_o (load_partial EdgesPath edges_total_set_size fe d) (fun r =>
  match r with
  | Err e => Done (Err e)
  | Ok edges =>
      bind_o (load_partial CornersPath corners_total_set_size fc d) (fun r =>
      match r with
      | Err e => Done (Err e)
      | Ok corners => Done (Ok (mkCache edges corners))
      end)
  end).

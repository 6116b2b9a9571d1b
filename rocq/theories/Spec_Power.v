(** Specification vocabulary for C98: what is left of the cache files when the power fails.

    [fs::write] does not wait until the data is on the disk. After a loss of power a file may
    be missing, may be shorter than what was written, and parts that had not reached the disk
    read as zeros; other data does not appear in it. (Not in /repo: this is what the
    operating system guarantees at least.) *)

From Coq Require Import List NArith.
From Verif Require Import Model_Base Model_Disk.
Import ListNotations.

(** What may be left of the bytes of a file. *)
Definition left_of (before after : list N) : Prop :=
  length after <= length before /\
  forall j b, nth_error after j = Some b -> b = 0%N \/ nth_error before j = Some b.
(** What may be left of a file. *)
Definition file_left (before after : option (list N)) : Prop :=
  match before, after with
  | _, None => True
  | None, Some _ => False
  | Some b, Some a => left_of b a
  end.
(** What may be left of the directory with its files. *)
Definition power_fails (d d' : Disk) : Prop := forall p, file_left (file d p) (file d' p).

(** The disks that can be found: like the histories of C38, and the power may fail at any
    time, also while [Cache::init] runs, any number of times. *)
Inductive rough_history : Disk -> Prop :=
| at_first : rough_history empty_disk
| stopped d d' fe fc : rough_history d -> In d' (crash_disks d (cache_init fe fc d)) -> rough_history d'
| ended d fe fc : rough_history d -> rough_history (final_disk d (cache_init fe fc d))
| deleted d keep_edges keep_corners : rough_history d ->
    rough_history (mkDisk (dk_dir d) (if keep_edges : bool then dk_edges d else None) (if keep_corners : bool then dk_corners d else None))
| power_failed d d' : rough_history d -> power_fails d d' -> rough_history d'.

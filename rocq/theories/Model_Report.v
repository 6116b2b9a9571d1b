(** What the table builder prints in a debug build:
    /repo/barbarosa/src/cube_n/cube3/mus/cache/generation.rs:46-151 and
    disk_storage.rs:89-100. *)

From Coq Require Import String List Bool Arith NArith ZArith SpecFloat.
From Verif Require Import Model_Base Model_Moves Model_Parser Model_Mus Model_Cache Model_Stats.
Import ListNotations.
Local Open Scope list_scope.

(** [Display for usize] (core), used at generation.rs:67 and 144: as many digits as it takes. *)
Definition display_usize (n : N) : text := decimal_digits (S (N.size_nat n)) n [].
(** [Display for i64] (core), used at generation.rs:146 and 148; the precision of 143 has no
    effect on an integer. *)
Definition display_i64 (z : Z) : text :=
  match z with
  | Z0 => display_usize 0
  | Zpos p => display_usize (Npos p)
  | Zneg p => lit "-" ++ display_usize (Npos p)
  end.
(** [{: >8}] (core::fmt), generation.rs:142. *)
Definition pad_left (width : nat) (t : text) : text := repeat 32%N (width - length t) ++ t.

(** The magnitude of a finite [f64] in hundredths, to nearest, ties to even. *)
Definition hundredths (m : positive) (e : Z) : N :=
  match e with
  | Zneg k =>
      let num := (100 * Npos m)%N in
      let den := (2 ^ Npos k)%N in
      let q := (num / den)%N in
      let r := (num mod den)%N in
      if (2 * r <? den)%N then q
      else if (den <? 2 * r)%N then (q + 1)%N
      else if N.even q then q else (q + 1)%N
  | _ => (100 * Npos m * 2 ^ Z.to_N e)%N
  end.
(** Two decimals of a number of hundredths. *)
Definition display_hundredths (h : N) : text :=
  display_usize (h / 100) ++ lit "." ++ [48 + h / 10 mod 10; 48 + h mod 10]%N.
(** [{:.2}] of an [f64] (core::fmt::float with an exact number of decimals), generation.rs:142 and
    143: the sign is also written for a negative zero. *)
Definition fixed_2 (x : f64) : text :=
  match x with
  | S754_nan => lit "NaN"
  | S754_infinity s => (if s then lit "-" else []) ++ lit "inf"
  | S754_zero s => (if s then lit "-" else []) ++ display_hundredths 0
  | S754_finite s m e => (if s then lit "-" else []) ++ display_hundredths (hundredths m e)
  end.

(** chrono [Duration::num_seconds] of a number of milliseconds and [Duration::num_minutes] of a
    number of seconds: rounded towards zero; generation.rs:146 and 148. *)
Definition num_seconds (ms : Z) : Z := Z.quot ms 1000.
(** generation.rs:148 [num_minutes], see above. *)
Definition num_minutes (s : Z) : Z := Z.quot s 60.

(** generation.rs:138-151 [Display for Stats]. *)
Definition stats_text (st : Stats) : text :=
  pad_left 8 (display_usize (s_amount_cached st)) ++ lit " states cached (" ++
  fixed_2 (f64_mul (s_percent_cached st) (f64_of_Z 100)) ++ lit "%) in " ++
  display_i64 (num_seconds (s_time_elapsed_ms st)) ++ lit "s at " ++
  fixed_2 (s_states_per_second st) ++ lit " states/s (ETA: " ++
  display_i64 (num_minutes (s_eta_seconds st)) ++ lit "m)".

(** disk_storage.rs:89-100 [print_with_timestamp] in a debug build; [now] is the text of the
    clock (96), which is not modelled. *)
Definition report_line (now msg path : text) : text := now ++ lit ": " ++ msg ++ lit " (" ++ path ++ lit ")".

Section Build.
  Context {T : Type} (k : Indexed T) (clock : nat -> Z).

  (** generation.rs:59-70: the messages of the loop and its result. *)
  Fixpoint talking_loop (fuel i : nat) (move_depth : N) (cache : list N) : list text * outcome (list N) :=
    match fuel with
    | 0 => ([], Panic)
    | S fuel =>
        match stats_new cache (clock i) with
        | Panic => ([], Panic)
        | Done stats =>
            if N.eqb (s_amount_cached stats) (ix_total k) then ([lit "Finished caching! " ++ stats_text stats], Done cache)
            else
              let line := lit "Caching at depth " ++ display_usize move_depth ++ lit "; " ++ stats_text stats in
              match cache_neighbours_at_depth k cache move_depth with
              | Panic => ([line], Panic)
              | Done cache =>
                  let r := talking_loop fuel (S i) (move_depth + 1) cache in
                  (line :: fst r, snd r)
              end
        end
    end.
  (** generation.rs:46-74 [build_partial] with its messages, up to the write; the messages of the
      write (disk_storage.rs:68 and 84, generation.rs:78) are in Model_Log. *)
  Definition talking_build (path : text) : list text * outcome (list N) :=
    let cache := repeat entry_none (N.to_nat (ix_total k)) in
    let first := lit "Building partial cache for " ++ path ++ lit "." in
    if N.eqb (ix_total k) 0 then ([first], Panic)
    else
      let r := talking_loop 254 0 1 (set_nth cache 0 0%N) in
      match snd r with
      | Panic => (first :: fst r, Panic)
      | Done table => (first :: fst r ++ [lit "Caching done! Attempting to save to disk."], Done table)
      end.
End Build.

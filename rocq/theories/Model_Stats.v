(** The progress report of the table builder
    (/repo/barbarosa/src/cube_n/cube3/mus/cache/generation.rs:103-151) with its [f64] arithmetic,
    and the builder with its reports. *)

From Coq Require Import List Bool Arith NArith ZArith SpecFloat.
From Verif Require Import Model_Base Model_Moves Model_Mus Model_Cache.
Import ListNotations.

(** [f64] is IEEE binary64: core, used at generation.rs:103-131. *)
Definition f64 : Type := spec_float.
(** [/], generation.rs:104, 122 and 125. *)
Definition f64_div (a b : f64) : f64 := SFdiv 53 1024 a b.
(** [*], generation.rs:122. *)
Definition f64_mul (a b : f64) : f64 := SFmul 53 1024 a b.
(** [as f64] of a [usize] or an [i64] (to nearest), generation.rs:104, 122 and 125. *)
Definition f64_of_Z (z : Z) : f64 := binary_normalize 53 1024 z 0 false.
(** core [i64::MAX]. *)
Definition i64_max : Z := (2 ^ 63 - 1)%Z.
(** [as i64]: truncated, NaN is 0, saturating; generation.rs:126. *)
Definition f64_to_i64 (x : f64) : Z :=
  match x with
  | S754_nan | S754_zero _ => 0
  | S754_infinity s => if s then - i64_max - 1 else i64_max
  | S754_finite s m e =>
      let a := if 0 <=? e then Z.pos m * 2 ^ e else Z.pos m / 2 ^ (- e) in
      if s then Z.max (- i64_max - 1) (- a) else Z.min i64_max a
  end%Z.

(** chrono 0.4.26 [Duration::seconds], used at generation.rs:126: panics outside the range of a
    duration, whose milliseconds have to be an [i64]. *)
Definition duration_seconds (s : Z) : outcome Z :=
  if ((- (i64_max / 1000) <=? s) && (s <=? i64_max / 1000))%Z then Done s else Panic.

(** generation.rs:107-113 [struct Stats]; durations in milliseconds and seconds. *)
Record Stats := mkStats {
  s_amount_cached : N;
  s_percent_cached : f64;
  s_time_elapsed_ms : Z;
  s_states_per_second : f64;
  s_eta_seconds : Z
}.

(** generation.rs:103-105 [percent_cached]. *)
Definition percent_cached (cache : list N) (amount_cached : N) : f64 :=
  f64_div (f64_of_Z (Z.of_N amount_cached)) (f64_of_Z (Z.of_nat (length cache))).

(** generation.rs:116-136 [Stats::new]. [elapsed] is the difference of two readings of the wall
    clock in milliseconds (119 and 122); it can be anything, since the clock can be set while
    the program runs. The subtraction of 124 cannot overflow. *)
Definition stats_new (cache : list N) (elapsed : Z) : outcome Stats :=
  let amount := amount_cached cache in
  let states_per_second := f64_mul (f64_div (f64_of_Z (Z.of_N amount)) (f64_of_Z elapsed)) (f64_of_Z 1000) in
  let states_left := (Z.of_nat (length cache) - Z.of_N amount)%Z in
  let time_remaining := f64_div (f64_of_Z states_left) states_per_second in
  bind_o (duration_seconds (f64_to_i64 time_remaining)) (fun eta =>
  Done (mkStats amount (percent_cached cache amount) elapsed states_per_second eta)).

Section Build.
  Context {T : Type} (k : Indexed T) (clock : nat -> Z).

  (** generation.rs:59-70 with the reports; [clock i] is the time that has passed at the [i]-th
      report. The text of the reports is not modelled. *)
  Fixpoint reporting_loop (fuel i : nat) (move_depth : N) (cache : list N) : outcome (list N) :=
    match fuel with
    | 0 => Panic
    | S fuel =>
        bind_o (stats_new cache (clock i)) (fun stats =>
        if N.eqb (s_amount_cached stats) (ix_total k) then Done cache
        else bind_o (cache_neighbours_at_depth k cache move_depth) (reporting_loop fuel (S i) (move_depth + 1)))
    end.
  (** generation.rs:46-70 [build_partial] up to the loop, with the reports. *)
  Definition reporting_build : outcome (list N) :=
    let cache := repeat entry_none (N.to_nat (ix_total k)) in
    if N.eqb (ix_total k) 0 then Panic
    else reporting_loop 254 0 1 (set_nth cache 0 0%N).
End Build.

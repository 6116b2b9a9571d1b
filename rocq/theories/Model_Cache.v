(** Model of the MUS tables: building them
    (/repo/barbarosa/src/cube_n/cube3/mus/cache/generation.rs) and looking them up
    (cache/mod.rs, heuristics/mus.rs). The builder with its progress reports and their
    statistics is in Model_Stats; the text of the messages is not modelled. *)

From Coq Require Import List Bool Arith NArith ZArith.
From Verif Require Import Model_Base Model_Space Model_Moves Model_Pieces Model_PieceSet Model_Cubes Model_Mus Model_Float.
Import ListNotations.

(** What the builder uses of a type [T: Indexable + Deindexable + Movable<AxisMove>].
    cache/generation.rs:19-24 and 45-47. *)
Record Indexed (T : Type) := mkIndexed {
  ix_total : N;                         (* TOTAL_SET_SIZE *)
  ix_index : T -> outcome N;            (* Indexable::index *)
  ix_from_index : N -> outcome T;       (* Deindexable::from_index *)
  ix_moved : T -> AxisMove -> T         (* Movable::moved, generic/moves.rs:36-43 for arrays *)
}.
Arguments ix_total {T}.
Arguments ix_index {T}.
Arguments ix_from_index {T}.
Arguments ix_moved {T}.

(** mus/mod.rs:32-33 [CornersMUS], [HalfEdgesMUS]. *)
Definition corners_mus : Indexed (list Corner) :=
  mkIndexed _ corners_total_set_size corners_index corners_from_index corner_set_apply.
(** mus/mod.rs:33 [HalfEdgesMUS] with index/implementations.rs:55-69 and deindex/implementations.rs:39-57. *)
Definition half_edges_mus : Indexed (list Edge) :=
  mkIndexed _ edges_total_set_size edges_index edges_from_index edge_set_apply.

(** generation.rs:83-97 [PartialEntry]: a [u8] where 255 means "not cached". *)
Definition entry_none : N := 255.
(** generation.rs:91-97 [PartialEntry::get]. *)
Definition entry_get (e : N) : option N := if N.eqb e 255 then None else Some e.

(** generation.rs:99-101 [amount_cached]. *)
Definition amount_cached (cache : list N) : N :=
  N.of_nat (length (filter (fun e => match entry_get e with Some _ => true | None => false end) cache)).

Section Build.
  Context {T : Type} (k : Indexed T).

  (** generation.rs:33-40: the loop over [AxisMove::all()]; indexing outside the cache is
      [Panic]. *)
  Fixpoint cache_successors (state : T) (move_depth : N) (moves : list AxisMove) (cache : list N) : outcome (list N) :=
    match moves with
    | [] => Done cache
    | mov :: moves =>
        bind_o (ix_index k (ix_moved k state mov)) (fun i =>
        match nth_error cache (N.to_nat i) with
        | None => Panic
        | Some e =>
            cache_successors state move_depth moves
              (match entry_get e with None => set_nth cache (N.to_nat i) move_depth | Some _ => cache end)
        end)
    end.

  (** generation.rs:19-43 [cache_neighbours_at_depth]: the loop over the indices.
      [move_depth - 1] cannot underflow since [move_depth] starts at 1. *)
  Fixpoint cache_neighbours (indices : list nat) (move_depth : N) (cache : list N) : outcome (list N) :=
    match indices with
    | [] => Done cache
    | index :: indices =>
        match nth_error cache index with
        | None => Panic
        | Some e =>
            if match entry_get e with Some given => N.eqb given (move_depth - 1) | None => false end then
              bind_o (ix_from_index k (N.of_nat index)) (fun state =>
              bind_o (cache_successors state move_depth all_moves cache) (fun cache =>
              cache_neighbours indices move_depth cache))
            else cache_neighbours indices move_depth cache
        end
    end.
  (** generation.rs:19-43 [cache_neighbours_at_depth]: the loop from index 0. *)
  Definition cache_neighbours_at_depth (cache : list N) (move_depth : N) : outcome (list N) :=
    cache_neighbours (seq 0 (N.to_nat (ix_total k))) move_depth cache.

  (** generation.rs:59-70: [for move_depth in 1..]. The range counts in [u8]; its [next]
      computes the following value first, so that fetching 255 overflows, which is [Panic]
      as in a debug build. [fuel] is the number of depths left. *)
  Fixpoint build_loop (fuel : nat) (move_depth : N) (cache : list N) : outcome (list N) :=
    match fuel with
    | 0 => Panic
    | S fuel =>
        if N.eqb (amount_cached cache) (ix_total k) then Done cache
        else bind_o (cache_neighbours_at_depth cache move_depth) (build_loop fuel (move_depth + 1))
    end.

  (** generation.rs:46-70: the table made by [build_partial] before it is written. *)
  Definition build_table : outcome (list N) :=
    let cache := repeat entry_none (N.to_nat (ix_total k)) in
    if N.eqb (ix_total k) 0 then Panic     (* cache[0] *)
    else build_loop 254 1 (set_nth cache 0 0%N).
End Build.

(** cache/mod.rs:14-18 [struct Cache]. *)
Record Cache := mkCache { ca_edges : list N; ca_corners : list N }.

(** cache/mod.rs:37-49 [Cache::get]. An unchecked access outside the table is undefined
    behaviour; here it is [Panic], and [C34] is about when it happens. *)
Definition cache_get (ca : Cache) (c : Cube3) : outcome N :=
  bind_o (cube_indices c) (fun ix =>
    match nth_error (ca_corners ca) (N.to_nat (ix_corners ix)),
          nth_error (ca_edges ca) (N.to_nat (ix_edges1 ix)),
          nth_error (ca_edges ca) (N.to_nat (ix_edges2 ix)) with
    | Some corner_heuristic, Some e1, Some e2 => Done (N.max corner_heuristic (N.max e1 e2))
    | _, _, _ => Panic
    end).

(** cache/mod.rs:30-32 [get], with the state of the [OnceLock]. *)
Definition cache_lock_get (lock : option Cache) (c : Cube3) : option (outcome N) :=
  option_map (fun ca => cache_get ca c) lock.
(** cache/mod.rs:24-26 [get_or_init]: the new state of the lock and the value; [init] is the
    result of [Cache::init]. *)
Definition cache_get_or_init (init : outcome Cache) (lock : option Cache) (c : Cube3) : outcome (option Cache * N) :=
  match lock with
  | Some ca => map_o (fun v => (Some ca, v)) (cache_get ca c)
  | None => bind_o init (fun ca => map_o (fun v => (Some ca, v)) (cache_get ca c))
  end.

(** heuristics/mus.rs:16-18 [mus], and 4-10 [mus_with_fallback]; [u8 as f32] is exact. *)
Definition mus (init : outcome Cache) (lock : option Cache) (c : Cube3) : outcome (option Cache * f32) :=
  map_o (fun r => (fst r, f32_of_Z (Z.of_N (snd r)))) (cache_get_or_init init lock c).
(** heuristics/mus.rs:4-10 [mus_with_fallback]; [u8 as f32] is exact. *)
Definition mus_with_fallback (fallback : Cube3 -> outcome f32) (lock : option Cache) (c : Cube3) : outcome f32 :=
  match cache_lock_get lock c with
  | Some v => map_o (fun x => f32_of_Z (Z.of_N x)) v
  | None => fallback c
  end.

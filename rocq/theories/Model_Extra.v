(** Model of smaller conversions and constructors. *)

From Coq Require Import List Bool NArith.
From Verif Require Import Model_Base Model_Space Model_Moves Model_Pieces.
Import ListNotations.

(** pieces/edge.rs:256-268 [TryFrom<[Face; 2]> for Edge]. *)
Definition edge_try_from (a b : Face) : outcome (result Edge ParallelAxesError) :=
  bind_o (position_from_faces a b) (fun res =>
    match res with
    | Ok (normal_axis, slice_position) => Done (Ok (mkEdge normal_axis slice_position true))
    | Err e => Done (Err e)
    end).

(** generic/alg.rs:75-77 [random_unnormalized_with_rng]: [gen k] is the outcome of the [k]th
    call of [rng.gen()]; a panic there is a panic of the whole call. *)
Fixpoint random_unnormalized {M} (length : nat) (gen : nat -> outcome M) : outcome (list M) :=
  match length with
  | 0 => Done []
  | S n => bind_o (random_unnormalized n gen) (fun moves => bind_o (gen n) (fun m => Done (moves ++ [m])))
  end.

(** [RandGen] for [Face], [Amount] and [AxisMove] (derive macro): every field is generated, so
    the choices are a face and an amount; [WideAxisMove<N>] (moves/wide.rs:161-168) also
    draws a depth from [0..=N], here [d mod (N + 1)]. *)
Definition gen_wide (n : N) (choice : Face * Amount * N) : outcome WideAxisMove :=
  let '(f, a, d) := choice in wide_sample n f a (d mod (n + 1))%N.

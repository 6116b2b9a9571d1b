(** IEEE 754 single precision, the [f32] of the code, by the standard library's
    executable specification (Coq.Floats.SpecFloat, no axioms): 24 bits of precision,
    largest exponent 128, rounding to nearest even. *)

From Coq Require Import ZArith SpecFloat.
From Verif Require Import Model_Search.

(** Rust's [f32]. *)
Definition f32 : Type := spec_float.
(** [a + b]. generic/search/ida.rs:53, 74, 102. *)
Definition f32_add (a b : f32) : f32 := SFadd 24 128 a b.
(** [a - b]. cube3/heuristics/manhattan.rs:22. *)
Definition f32_sub (a b : f32) : f32 := SFsub 24 128 a b.
(** [a * b]. cube3/heuristics/manhattan.rs:43. *)
Definition f32_mul (a b : f32) : f32 := SFmul 24 128 a b.
(** [a / b]. cube3/heuristics/manhattan.rs:43 and cube3/cfop/cross.rs. *)
Definition f32_div (a b : f32) : f32 := SFdiv 24 128 a b.
(** [a < b], and [b > a]. generic/search/ida.rs:55-56. *)
Definition f32_ltb (a b : f32) : bool := SFltb a b.
(** [x.abs()]. cube3/heuristics/manhattan.rs:22. *)
Definition f32_abs (a : f32) : f32 := SFabs a.
(** [i as f32] for an integer [i]. *)
Definition f32_of_Z (z : Z) : f32 := binary_normalize 24 128 z 0 false.
(** The float nearest to [z] times a power of two. Not in /repo: names the values that occur. *)
Definition f32_scaled (q z : Z) : f32 := binary_normalize 24 128 z q false.

(** The costs of generic/search/ida.rs: [+], [<], [0.0], [1.0]. *)
Definition f32_costs : CostOps f32 := mkCostOps f32 f32_add f32_ltb (f32_of_Z 0) (f32_of_Z 1).

(** Model of the indices of partial cubes:
    /repo/barbarosa/src/cube_n/cube3/mus/{mod,index/mod,index/implementations,deindex/mod,
    deindex/implementations}.rs.

    [usize] values are modelled by [N] (indices of sets) and [nat] (positions and
    orientations of one piece, at most 12), without the 64-bit bound; all of them stay
    below 2^30 (see [C31] and [C32]). *)

From Coq Require Import List Bool Arith NArith.
From Verif Require Import Model_Base Model_Space Model_Moves Model_Pieces Model_PieceSet Model_Cubes Model_Invariants.
Import ListNotations.

(* ------------------------------------------------------------------ *)
(** * Factorial *)

(** A product of two [usize] values; overflow is a panic, as in a debug build and in
    constant evaluation. cube3/mus/index/mod.rs:60 and 64. *)
Definition usize_mul (a b : N) : outcome N :=
  if N.ltb (a * b) 18446744073709551616 then Done (a * b)%N else Panic.

(** index/mod.rs:18-24 [factorial]. *)
Fixpoint factorial_from (n : nat) : outcome N :=
  match n with
  | 0 => Done 1%N
  | S m => if Nat.eqb n 1 then Done 1%N
           else if Nat.leb n 20 then bind_o (factorial_from m) (fun f => usize_mul f (N.of_nat n))
           else Done 0%N
  end.
(** index/mod.rs:18-24 [factorial]; [usize] overflow is [Panic]. *)
Definition factorial (n : N) : outcome N :=
  if N.leb n 20 then factorial_from (N.to_nat n) else Done 0%N.

(* ------------------------------------------------------------------ *)
(** * Indexing *)

(** index/mod.rs:70-86 [disposition_multipliers::<T, N, T_POSITION_SET_SIZE>]: [n] of [t].
    The loop runs over the output array in reverse. *)
Fixpoint multipliers_loop (n : nat) (iteration_index multiplier : N) (output : list N) : list N :=
  match n with
  | 0 => output
  | S n => multipliers_loop n (iteration_index + 1) (multiplier * (iteration_index + 1)) (multiplier :: output)
  end.
(** index/mod.rs:70-86 [disposition_multipliers]: the whole array. *)
Definition disposition_multipliers (n t : nat) : list N :=
  multipliers_loop n (N.of_nat t - N.of_nat n) 1 [].

(** Number of [true]s. cube3/mus/index/mod.rs:97. *)
Definition count_true (l : list bool) : nat := length (filter (fun x => x) l).

(** index/mod.rs:89-103 [disposition_choices], given the position indices of the pieces;
    indexing outside [used] is [Panic]. *)
Fixpoint choices_loop (used : list bool) (input : list nat) : outcome (list nat) :=
  match input with
  | [] => Done []
  | elem_index :: input =>
      if Nat.ltb elem_index (length used) then
        let used_previously := count_true (firstn elem_index used) in
        map_o (cons (elem_index - used_previously)) (choices_loop (set_nth used elem_index true) input)
      else Panic
  end.
(** index/mod.rs:89-103 [disposition_choices]: starting with nothing used. *)
Definition disposition_choices (t : nat) (input : list nat) : outcome (list nat) :=
  choices_loop (repeat false t) input.

(** index/mod.rs:110-127 [position_disposition_index]. *)
Definition position_disposition_index (t : nat) (input : list nat) : outcome N :=
  map_o (fun choices =>
    fold_left N.add (map (fun x => (N.of_nat (fst x) * snd x)%N)
                         (combine choices (disposition_multipliers (length input) t))) 0%N)
    (disposition_choices t input).

(** index/mod.rs:133-146 [orientation_permutation_index], given the orientation indices and
    [ORIENTATION_SET_SIZE]. *)
Fixpoint orientation_loop (base : N) (input : list nat) (output multiplier : N) : N :=
  match input with
  | [] => output
  | o :: input => orientation_loop base input (output + N.of_nat o * multiplier) (multiplier * base)
  end.
(** index/mod.rs:133-146 [orientation_permutation_index]: the sum from multiplier 1. *)
Definition orientation_permutation_index (base : N) (input : list nat) : N :=
  orientation_loop base (rev input) 0 1.

(** index/implementations.rs:43-49 [OrientationIndexable for Edge]. *)
Definition edge_orientation_index (e : Edge) : nat := if e_oriented e then 0 else 1.

(** index/implementations.rs:76 [POSITION_SET_SIZE = factorial(8)] ([C50] proves that this and
    the next three values are those of the formulas). *)
Definition corners_position_set_size : N := 40320.
(** index/implementations.rs:86 [ORIENTATION_SET_SIZE = 3usize.pow(7)]. *)
Definition corners_orientation_set_size : N := 2187.
(** index/implementations.rs:60 [POSITION_SET_SIZE = factorial(12) / factorial(12 - 6)]. *)
Definition edges_position_set_size : N := 665280.
(** index/implementations.rs:68 [ORIENTATION_SET_SIZE = 2usize.pow(6)]. *)
Definition edges_orientation_set_size : N := 64.
(** index/mod.rs:64 [TOTAL_SET_SIZE] of [CornersMUS]. *)
Definition corners_total_set_size : N := corners_position_set_size * corners_orientation_set_size.
(** index/mod.rs:64 [TOTAL_SET_SIZE] of [HalfEdgesMUS]. *)
Definition edges_total_set_size : N := edges_position_set_size * edges_orientation_set_size.

(** index/mod.rs:57-60 [Indexable::index] for [CornersMUS] (implementations.rs:71-87);
    [[Corner; 8]] is a list of 8 corners. *)
Definition corners_index (cs : list Corner) : outcome N :=
  map_o (fun position_index =>
    (position_index * corners_orientation_set_size
     + orientation_permutation_index 3 (map corner_orientation_index (firstn 7 cs)))%N)
    (position_disposition_index 8 (map corner_position_index cs)).

(** The same for [HalfEdgesMUS] (implementations.rs:55-69). *)
Definition edges_index (es : list Edge) : outcome N :=
  map_o (fun position_index =>
    (position_index * edges_orientation_set_size
     + orientation_permutation_index 2 (map edge_orientation_index es))%N)
    (position_disposition_index 12 (map edge_position_index es)).

(** index/mod.rs:192-200 [adjust_second_edges_for_indexing], and the identical
    deindex/mod.rs:113-117 [adjust_second_edges_for_deindexing]. *)
Definition adjust_second_edges (es : list Edge) : list Edge :=
  map (fun e => edge_rotate e (mkRot AX Double)) es.

(** index/mod.rs:149-158 [edge_partition]. *)
Definition edge_partition (c : Cube3) : list Edge * list Edge :=
  (firstn 6 (c3_edges c), skipn 6 (c3_edges c)).

(** index/mod.rs:176-181 [struct CubeIndices]. *)
Record CubeIndices := mkIndices { ix_corners : N; ix_edges1 : N; ix_edges2 : N }.

(** index/mod.rs:163-171 [Cube3::indices]. *)
Definition cube_indices (c : Cube3) : outcome CubeIndices :=
  let (e1, e2) := edge_partition c in
  bind_o (corners_index (c3_corners c)) (fun ci =>
  bind_o (edges_index e1) (fun i1 =>
  bind_o (edges_index (adjust_second_edges e2)) (fun i2 =>
  Done (mkIndices ci i1 i2)))).

(* ------------------------------------------------------------------ *)
(** * Deindexing *)

(** deindex/mod.rs:34-44 [deindex_orientations]: the loop runs over the output in reverse. *)
Fixpoint deindex_orientations_loop (base : N) (n : nat) (remaining_index : N) (output : list nat) : list nat :=
  match n with
  | 0 => output
  | S n => deindex_orientations_loop base n (remaining_index / base)
             (N.to_nat (remaining_index mod base) :: output)
  end.
(** deindex/mod.rs:34-44 [deindex_orientations]: the whole array. *)
Definition deindex_orientations (base : N) (n : nat) (index : N) : list nat :=
  deindex_orientations_loop base n index [].

(** deindex/mod.rs:47-60 [deindex_choices]. *)
Fixpoint deindex_choices_loop (multipliers : list N) (remaining_index : N) : list nat :=
  match multipliers with
  | [] => []
  | m :: multipliers =>
      N.to_nat (remaining_index / m) :: deindex_choices_loop multipliers (remaining_index mod m)
  end.
(** deindex/mod.rs:47-60 [deindex_choices]: the whole array. *)
Definition deindex_choices (n t : nat) (index : N) : list nat :=
  deindex_choices_loop (disposition_multipliers n t) index.

(** deindex/mod.rs:62-81 [choices_to_permutations]; the [unwrap] of [nth] is [Panic]. *)
Definition nth_unused (used : list bool) (choice : nat) : option nat :=
  option_map fst (nth_error (filter (fun x => negb (snd x)) (combine (seq 0 (length used)) used)) choice).
(** deindex/mod.rs:62-81 [choices_to_permutations]: the loop. *)
Fixpoint permutations_loop (used : list bool) (choices : list nat) : outcome (list nat) :=
  match choices with
  | [] => Done []
  | choice :: choices =>
      match nth_unused used choice with
      | Some perm_index => map_o (cons perm_index) (permutations_loop (set_nth used perm_index true) choices)
      | None => Panic
      end
  end.
(** deindex/mod.rs:62-81 [choices_to_permutations]: starting with nothing used. *)
Definition choices_to_permutations (t : nat) (choices : list nat) : outcome (list nat) :=
  permutations_loop (repeat false t) choices.

(** deindex/mod.rs:83-88 [deindex_positions]. *)
Definition deindex_positions (n t : nat) (index : N) : outcome (list nat) :=
  choices_to_permutations t (deindex_choices n t index).

(** [SOLVED.corners.pieces()[i].clone()] for every [i]; indexing outside is [Panic].
    cube3/mus/deindex/implementations.rs:20 and 47. *)
Fixpoint get_all {A} (l : list A) (is : list nat) : outcome (list A) :=
  match is with
  | [] => Done []
  | i :: is => match nth_error l i with Some a => map_o (cons a) (get_all l is) | None => Panic end
  end.

(** [corners.iter_mut().zip(orientations.iter())]: pieces without a partner are unchanged.
    cube3/mus/deindex/implementations.rs:22 and 49. *)
Fixpoint zip_mut {A B} (f : A -> B -> A) (l : list A) (r : list B) : list A :=
  match l, r with
  | a :: l, b :: r => f a b :: zip_mut f l r
  | l, [] => l
  | [], _ => []
  end.

(** deindex/implementations.rs:21-25: [for _ in 0..*orientation { corner.twist() }]. *)
Fixpoint twist_times (c : Corner) (n : nat) : Corner :=
  match n with 0 => c | S n => twist_times (corner_twist c) n end.

(** deindex/implementations.rs:12-37 [Deindexable for CornersMUS]; the [expect] is
    [Panic]. *)
Definition corners_from_index (index : N) : outcome (list Corner) :=
  let position_index := (index / corners_orientation_set_size)%N in
  let orientation_index := (index mod corners_orientation_set_size)%N in
  bind_o (deindex_positions 8 8 position_index) (fun position_indices =>
  let orientations := deindex_orientations 3 7 orientation_index in
  bind_o (get_all corner_solved position_indices) (fun corners =>
  let corners := zip_mut twist_times corners orientations in
  match set_new corner_desc corners with
  | Err _ => Panic
  | Ok corner_set => fix_corner_multiplicity_o corner_set
  end)).

(** deindex/implementations.rs:39-57 [Deindexable for HalfEdgesMUS]. *)
Definition flip_if (e : Edge) (orientation : nat) : Edge :=
  if Nat.eqb orientation 0 then e else edge_flip e.
(** deindex/implementations.rs:39-57 [Deindexable::from_index for HalfEdgesMUS]. *)
Definition edges_from_index (index : N) : outcome (list Edge) :=
  let position_index := (index / edges_orientation_set_size)%N in
  let orientation_index := (index mod edges_orientation_set_size)%N in
  bind_o (deindex_positions 6 12 position_index) (fun position_indices =>
  let orientations := deindex_orientations 2 6 orientation_index in
  bind_o (get_all edge_solved position_indices) (fun edges =>
  Done (zip_mut flip_if edges orientations))).

(** deindex/mod.rs:92-107 [Cube3::from_indices]; the [expect]s are [Panic]. *)
Definition cube_from_indices (ix : CubeIndices) : outcome Cube3 :=
  bind_o (corners_from_index (ix_corners ix)) (fun corners =>
  bind_o (edges_from_index (ix_edges1 ix)) (fun e1 =>
  bind_o (edges_from_index (ix_edges2 ix)) (fun e2 =>
  match set_new corner_desc corners with
  | Err _ => Panic
  | Ok corners =>
      match set_new edge_desc (e1 ++ adjust_second_edges e2) with
      | Err _ => Panic
      | Ok edges => Done (mkCube3 edges corners)
      end
  end))).

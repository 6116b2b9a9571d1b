(** Model of /repo/barbarosa/src/cube_n/invariants.rs, of the position indices it uses
    (/repo/barbarosa/src/cube_n/cube3/mus/index/implementations.rs:14-52) and of the
    random cubes (/repo/barbarosa/src/cube_n/cube3/mod.rs:67-90,
    /repo/barbarosa/src/cube_n/cube2/mod.rs:38-48). *)

From Coq Require Import List Bool Arith ZArith Lia.
From Verif Require Import Model_Base Model_Space Model_Moves Model_Pieces Model_PieceSet Model_Cubes.
Import ListNotations.

(** mus/index/implementations.rs:14-21 [PositionIndexable for Corner]; a failing
    [expect] is [Panic]. *)
Definition corner_position_index_o (c : Corner) : outcome nat :=
  match find_index (fun p => vec3_eqb p (c_pos c)) corner_reference with
  | Some i => Done i
  | None => Panic
  end.
(** The same with a default, used where the panic is shown impossible. cube_n/invariants.rs:69. *)
Definition corner_position_index (c : Corner) : nat := from_outcome 0 (corner_position_index_o c).
Lemma corner_position_index_o_done c : corner_position_index_o c = Done (corner_position_index c).
Proof. destruct c as [[[] [] []] a]; reflexivity. Qed.

(** mus/index/implementations.rs:33-40 [PositionIndexable for Edge]. *)
Definition edge_position_index_o (e : Edge) : outcome nat :=
  match find_index (fun p => edgepos_eqb p (edge_position e)) edge_reference with
  | Some i => Done i
  | None => Panic
  end.
(** The same with a default, used where the panic is shown impossible. cube_n/invariants.rs:69. *)
Definition edge_position_index (e : Edge) : nat := from_outcome 0 (edge_position_index_o e).
Lemma edge_position_index_o_done e : edge_position_index_o e = Done (edge_position_index e).
Proof. destruct e as [[] [[] []] o]; reflexivity. Qed.

(** What one run of the [loop] body of [swap_cycles] does. cube_n/invariants.rs:59-73. *)
Inductive loop_step (S R : Type) := Continue (s : S) | Return (r : R).
Arguments Continue {S R} s.
Arguments Return {S R} r.

(** invariants.rs:54-74 [swap_cycles]: the body of the [loop].  [values] is the list of
    the position indices of the pieces; the state is [visited], [current_index] and
    [cycles] (an [i32], never larger than [N]).  Indexing outside an array is [Panic]. *)
Definition swap_cycles_body (values : list nat) (st : list bool * nat * nat)
  : outcome (loop_step (list bool * nat * nat) nat) :=
  let '(visited, current, cycles) := st in
  match nth_error visited current with
  | None => Panic
  | Some v =>
      let start :=
        if v then
          match find_index negb visited with
          | None => None
          | Some first_unvisited => Some (first_unvisited, S cycles)
          end
        else Some (current, cycles) in
      match start with
      | None => Done (Return cycles)
      | Some (current, cycles) =>
          match nth_error values current with
          | None => Panic
          | Some next => Done (Continue (set_nth visited current true, next, cycles))
          end
      end
  end.

(** The loop, with fuel; [None] means the fuel ran out. cube_n/invariants.rs:59-73. *)
Fixpoint swap_cycles_loop (fuel : nat) (values : list nat) (st : list bool * nat * nat)
  : option (outcome nat) :=
  match fuel with
  | 0 => None
  | S fuel =>
      match swap_cycles_body values st with
      | Panic => Some Panic
      | Done (Return r) => Some (Done r)
      | Done (Continue st) => swap_cycles_loop fuel values st
      end
  end.

(** invariants.rs:54-58: initial state.  The fuel is shown sufficient in Prop_Invariants
    ([C10_terminates]). *)
Definition swap_cycles_run (fuel : nat) (values : list nat) : option (outcome nat) :=
  swap_cycles_loop fuel values (repeat false (length values), 0, 0).
(** invariants.rs:53-76 [swap_cycles]: the initial state and the loop. *)
Definition swap_cycles (values : list nat) : nat :=
  match swap_cycles_run (S (length values)) values with
  | Some (Done r) => r
  | _ => 0
  end.

(** invariants.rs:43-51 [fix_swap_parity]; [swap] panics are [Panic]. *)
Definition fix_swap_parity_o (c : Cube3) : outcome Cube3 :=
  let edge_swap_parity := Nat.eqb (swap_cycles (map edge_position_index (c3_edges c)) mod 2) 0 in
  let corner_swap_parity := Nat.eqb (swap_cycles (map corner_position_index (c3_corners c)) mod 2) 0 in
  if negb (Bool.eqb edge_swap_parity corner_swap_parity) then
    match nth_error edge_reference 0, nth_error edge_reference 1 with
    | Some a, Some b =>
        map_o (fun es => mkCube3 es (c3_corners c)) (set_swap edge_desc (c3_edges c) a b)
    | _, _ => Panic
    end
  else Done c.

(** Change the last element of an array; [iter_mut_unchecked().last().expect(..)].
    cube_n/invariants.rs:82-86 and 102-106. *)
Fixpoint update_last {A} (f : A -> A) (l : list A) : outcome (list A) :=
  match l with
  | [] => Panic
  | [a] => Done [f a]
  | a :: r => map_o (cons a) (update_last f r)
  end.

(** invariants.rs:79-88 [fix_edge_flip_parity]. *)
Definition fix_edge_flip_parity_o (es : list Edge) : outcome (list Edge) :=
  if Nat.eqb (length (filter e_oriented es) mod 2) 1 then update_last edge_flip es else Done es.

(** Sum of a list of naturals. [Iterator::sum], cube_n/invariants.rs:97. *)
Definition sum (l : list nat) : nat := fold_right Nat.add 0 l.

(** Do something [n] times, stopping at a panic. cube_n/invariants.rs:101-107. *)
Fixpoint times_o {A} (n : nat) (f : A -> outcome A) (x : A) : outcome A :=
  match n with 0 => Done x | S n => bind_o (f x) (times_o n f) end.

(** invariants.rs:93-118 [fix_corner_multiplicity]; the [debug_assert!] is checked (as in
    a debug build), failing is [Panic]. *)
Definition fix_corner_multiplicity_o (cs : list Corner) : outcome (list Corner) :=
  let oriented_corners := Z.of_nat (sum (map corner_orientation_index cs)) in
  let corner_orientation_offset := Z.to_nat (Z.modulo (- oriented_corners) 3) in
  bind_o (times_o corner_orientation_offset (update_last corner_twist) cs) (fun cs =>
    if Nat.eqb (sum (map corner_orientation_index cs) mod 3) 0 then Done cs else Panic).

(** Random choices: generators for the two shuffles and streams of booleans and axes.
    [rng.gen()] for [bool] and for [Axis] (derived [RandGen], space/axis.rs:21) can give
    any value. *)
Record Rng3 := mkRng3 { rng_edges : nat -> nat; rng_corners : nat -> nat;
                        rng_flips : nat -> bool; rng_axes : nat -> Axis }.

(** [iter_mut_unchecked().for_each(..)] with the [i]th random value. *)
Fixpoint map_rng {A B} (f : A -> B -> A) (rng : nat -> B) (i : nat) (l : list A) : list A :=
  match l with
  | [] => []
  | a :: r => f a (rng i) :: map_rng f rng (S i) r
  end.

(** cube3/mod.rs:78-79: [edge.oriented = ..]. *)
Definition set_oriented (e : Edge) (b : bool) : Edge := mkEdge (e_normal e) (e_slice e) b.
(** cube3/mod.rs:80-82: [corner.orientation_axis = ..]. *)
Definition set_axis (c : Corner) (a : Axis) : Corner := mkCorner (c_pos c) a.

(** cube3/mod.rs:67-90 [Distribution<Cube3> for Standard]. *)
Definition cube3_sample (rng : Rng3) : outcome Cube3 :=
  let edges := shuffle (rng_edges rng) edge_solved in
  let corners := shuffle (rng_corners rng) corner_solved in
  let edges := map_rng set_oriented (rng_flips rng) 0 edges in
  let corners := map_rng set_axis (rng_axes rng) 0 corners in
  bind_o (fix_swap_parity_o (mkCube3 edges corners)) (fun c =>
  bind_o (fix_edge_flip_parity_o (c3_edges c)) (fun edges =>
  bind_o (fix_corner_multiplicity_o (c3_corners c)) (fun corners =>
  Done (mkCube3 edges corners)))).

(** cube2/mod.rs:38-48 [Distribution<Cube2> for Standard]. *)
Definition cube2_sample (rng : nat -> nat) : outcome Cube2 :=
  bind_o (fix_corner_multiplicity_o (shuffle rng corner_solved)) (fun corners =>
  Done (mkCube2 corners)).

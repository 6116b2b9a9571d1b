(** Model of /repo/barbarosa/src/cube_n/cube3/cfop/cross.rs and of
    /repo/barbarosa/src/cube_n/cube3/heuristics/manhattan.rs. *)

From Coq Require Import List Bool Arith ZArith.
From Verif Require Import Model_Base Model_Space Model_Moves Model_Pieces Model_PieceSet Model_Cubes
  Model_Visual Model_Search Model_Float.
Import ListNotations.

(* ------------------------------------------------------------------ *)
(** * cfop/cross.rs *)

(** cfop/cross.rs:21-23 [is_cross_edge]. *)
Definition is_cross_edge (original : EdgePos) (bottom : Face) : bool :=
  odir_eqb (direction_on_axis original (face_axis bottom)) (Some (face_dir bottom)).

(** cfop/cross.rs:26-35 [count_cross_pieces]; the [i32] count is an integer (it is at most
    12, so [as i32] cannot wrap). *)
Definition count_cross_pieces (c : Cube3) (bottom : Face) : Z :=
  Z.of_nat (length (filter (fun x =>
    edgepos_eqb (edge_position (snd x)) (fst x) && is_cross_edge (fst x) bottom && e_oriented (snd x))
    (iter_with_pos edge_desc (c3_edges c)))).

(** cfop/cross.rs:38-51 [get_cross_pieces]; [Panic] if a [debug_assert_eq!] fails. *)
Definition get_cross_pieces (bottom : Face) : outcome (list EdgePos) :=
  let n1 := axis_next (face_axis bottom) in
  let n2 := axis_next n1 in
  if axis_eqb (axis_next (axis_next n1)) (face_axis bottom) && axis_eqb (axis_next n2) (face_axis bottom) then
    Done [ (n1, mkVec2 Positive (face_dir bottom));
           (n1, mkVec2 Negative (face_dir bottom));
           (n2, mkVec2 (face_dir bottom) Positive);
           (n2, mkVec2 (face_dir bottom) Negative) ]
  else Panic.

(** cfop/cross.rs:88-90 = 100-102: the lower bounds of the cross edges. *)
Definition cross_edge_moves (c : Cube3) (bottom : Face) : list Z :=
  map (fun x => min_moves_to_solve (fst x) (snd x))
    (filter (fun x => is_cross_edge (fst x) bottom) (iter_with_pos edge_desc (c3_edges c))).

(** [Iterator::sum::<i32>], [Iterator::max]. *)
Definition sum_Z (l : list Z) : Z := fold_left Z.add l 0%Z.
(** [Iterator::max] (std), used at cfop/cross.rs:103. *)
Definition max_Z (l : list Z) : option Z :=
  match l with [] => None | x :: r => Some (fold_left Z.max r x) end.

(** cfop/cross.rs:86-93 [good_cross_heuristic]. *)
Definition good_cross_heuristic (c : Cube3) (bottom : Face) : f32 :=
  f32_div (f32_of_Z (sum_Z (cross_edge_moves c bottom))) (f32_of_Z 2).

(** cfop/cross.rs:98-105 [worse_but_admissable_cross_heuristic]; the [expect] is [Panic]. *)
Definition worse_but_admissable_cross_heuristic (c : Cube3) (bottom : Face) : outcome f32 :=
  match max_Z (cross_edge_moves c bottom) with Some m => Done (f32_of_Z m) | None => Panic end.

(** cfop/cross.rs:73-81 [solve_cross_directly]. *)
Definition cross_problem (bottom : Face) (heuristic : Cube3 -> f32) : Problem f32 Cube3 AxisMove :=
  mkProblem f32 Cube3 AxisMove cube3_eqb cube3_successors heuristic
    (fun c => Z.eqb (count_cross_pieces c bottom) 4).
(** cfop/cross.rs:73-81 [solve_cross_directly]. *)
Definition solve_cross_directly (fuel : nat) (c : Cube3) (bottom : Face) (heuristic : Cube3 -> f32)
  : search_result :=
  search f32_costs (cross_problem bottom heuristic) fuel 200 c.

(** cfop/cross.rs:58-62 [solve_cross_fast]. *)
Definition solve_cross_fast (fuel : nat) (c : Cube3) (bottom : Face) : search_result :=
  solve_cross_directly fuel c bottom (fun c => good_cross_heuristic c bottom).

(** cfop/cross.rs:67-71 [solve_cross].  The heuristic's [expect] cannot fail on a cube with
    twelve edges (proved in Prop_Cross), so the closure's value is used. *)
Definition solve_cross (fuel : nat) (c : Cube3) (bottom : Face) : search_result :=
  solve_cross_directly fuel c bottom
    (fun c => from_outcome (f32_of_Z 0) (worse_but_admissable_cross_heuristic c bottom)).

(* ------------------------------------------------------------------ *)
(** * heuristics/manhattan.rs *)

(** [Iterator::sum::<f32>], a left fold from zero (from minus zero in recent versions of std, which
    differs only in the sign of an empty sum). *)
Definition f32_sum (l : list f32) : f32 := fold_left f32_add l (f32_of_Z 0).

(** heuristics/manhattan.rs:21-23 [vec_manhattan]; the coordinates that occur are the
    integers -1, 0, 1, stored as [f32]. *)
Definition vec_manhattan (a b : Coord) : f32 :=
  let d x y := f32_abs (f32_sub (f32_of_Z x) (f32_of_Z y)) in
  let '(ax, ay, az) := a in let '(bx, by_, bz) := b in
  f32_sum [d ax bx; d ay by_; d az bz].

(** heuristics/manhattan.rs:26-28 [piece_manhattan], for edges and corners. *)
Definition edge_manhattan (original : EdgePos) (e : Edge) : f32 :=
  vec_manhattan (edge_coordinates (edge_position e)) (edge_coordinates original).
(** heuristics/manhattan.rs:26-28 [piece_manhattan], for corners. *)
Definition corner_manhattan (original : Vec3) (c : Corner) : f32 :=
  vec_manhattan (corner_coordinates (c_pos c)) (corner_coordinates original).

(** heuristics/manhattan.rs:30-36 [piece_set_manhattan]. *)
Definition edges_manhattan (s : list Edge) : f32 :=
  f32_sum (map (fun x => edge_manhattan (fst x) (snd x)) (iter_with_pos edge_desc s)).
(** heuristics/manhattan.rs:30-36 [piece_set_manhattan], for corners. *)
Definition corners_manhattan (s : list Corner) : f32 :=
  f32_sum (map (fun x => corner_manhattan (fst x) (snd x)) (iter_with_pos corner_desc s)).

(** heuristics/manhattan.rs:39-44 [manhattan]. *)
Definition manhattan (c : Cube3) : f32 :=
  f32_div (f32_add (edges_manhattan (c3_edges c)) (corners_manhattan (c3_corners c)))
          (f32_mul (f32_of_Z 8) (f32_of_Z 2)).

(** heuristics/manhattan.rs:47-55 [manhattan_filtered], for edges and corners. *)
Definition edges_manhattan_filtered (keep : EdgePos -> Edge -> bool) (s : list Edge) : f32 :=
  f32_sum (map (fun x => edge_manhattan (fst x) (snd x))
    (filter (fun x => keep (fst x) (snd x)) (iter_with_pos edge_desc s))).
(** heuristics/manhattan.rs:47-55 [manhattan_filtered], for corners. *)
Definition corners_manhattan_filtered (keep : Vec3 -> Corner -> bool) (s : list Corner) : f32 :=
  f32_sum (map (fun x => corner_manhattan (fst x) (snd x))
    (filter (fun x => keep (fst x) (snd x)) (iter_with_pos corner_desc s))).

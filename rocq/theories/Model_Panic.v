(** Moving a cube with every check of the code left in.

    [Model_Pieces] and [Model_Cubes] use total functions: where the code has an
    [unreachable!], [expect], [unwrap], [assert_eq!] or [debug_assert!] they take a default.
    Here the same functions are modelled once more with each failing check a [Panic] that
    stops everything after it.  A debug build is modelled: [debug_assert!]s are checked. *)

From Coq Require Import List Bool Arith NArith ZArith.
From Verif Require Import Model_Base Model_Space Model_Moves Model_Pieces Model_PieceSet Model_Cubes
  Model_NonRedundant Model_Orientable Model_OrientableMoves.
Import ListNotations.
Open Scope nat_scope.

(** [iter_mut().for_each(f)] where [f] may panic: the pieces in order.
    generic/piece/set.rs:184-186, moves/wide.rs:229-232. *)
Fixpoint each_o {A} (f : A -> outcome A) (l : list A) : outcome (list A) :=
  match l with
  | [] => Done []
  | a :: r => bind_o (f a) (fun a' => map_o (cons a') (each_o f r))
  end.

(* ------------------------------------------------------------------ *)
(** * Pieces *)

(** pieces/edge.rs:124-131 [Movable<AxisMove> for Edge]. *)
Definition edge_apply_p (e : Edge) (m : AxisMove) : outcome Edge :=
  bind_o (contains_edge_o (mv_face m) e) (fun b : bool =>
    if b then edge_rotate_o e (rot_of_move m) else Done e).

(** pieces/corner.rs:63-70 [Movable<AxisMove> for Corner]: nothing is checked. *)
Definition corner_apply_p (c : Corner) (m : AxisMove) : outcome Corner := Done (corner_apply c m).

(** pieces/wing.rs:70-74 [Rotatable for Wing]. *)
Definition wing_rotate_p (w : Wing) (r : AxisRotation) : outcome Wing :=
  map_o mkWing (edge_rotate_o (wg_edge w) r).

(** pieces/wing.rs:151-174 [is_in_wide_move]. *)
Definition wing_in_wide_p (w : Wing) (nd td mx : N) (m : WideAxisMove) : outcome bool :=
  let f := mv_face (w_move m) in
  map_o (fun b : bool =>
    if b then true
    else axis_eqb (e_normal (wg_edge w)) (face_axis f)
         && (N.leb nd (w_depth m) && dir_eqb (face_dir f) (wing_normal_dir w)))
    (contains_edge_o f (wg_edge w)).

(** pieces/center/corner.rs:62-67 [Rotatable]: nothing is checked. *)
Definition cc_rotate_p (c : CenterCorner) (r : AxisRotation) : outcome CenterCorner := Done (cc_rotate c r).
(** pieces/center/corner.rs:69-89 [is_in_wide_move]: nothing is checked. *)
Definition cc_in_wide_p (c : CenterCorner) (nd td mx : N) (m : WideAxisMove) : outcome bool :=
  Done (cc_in_wide c nd td mx m).

(** pieces/center/edge.rs:125-142 [is_in_wide_move]: [side_face] is reached only when the
    move is not on the main face. *)
Definition ce_in_wide_p (c : CenterEdge) (nd td mx : N) (m : WideAxisMove) : outcome bool :=
  let f := mv_face (w_move m) in
  if face_eqb f (ce_main c) then Done true
  else map_o (fun side => face_eqb f side && N.leb nd mx) (ce_side_face_o c).

(** pieces/center/wing.rs:60-66 [Rotatable]: [normal_axis] checks the rotated piece. *)
Definition cw_rotate_p (c : CenterWing) (r : AxisRotation) : outcome CenterWing :=
  bind_o (ce_rotate_o (cw_edge c) r) (fun e =>
  map_o (fun normal => mkCW e (xorb (cw_oriented c) (flips_edge_orientation r normal)))
        (ce_normal_axis_o e)).

(** pieces/center/wing.rs:121-131 [normal_direction]. *)
Definition cw_normal_dir_p (c : CenterWing) : outcome Direction :=
  map_o (fun normal => wing_normal_direction normal
           (mkVec2 (face_dir (ce_main (cw_edge c))) (ce_side_dir (cw_edge c))) (cw_oriented c))
        (ce_normal_axis_o (cw_edge c)).

(** pieces/center/wing.rs:144-174 [is_in_wide_move]: [side_face] is computed first; the
    [debug_assert_eq!] is checked. *)
Definition cw_in_wide_p (c : CenterWing) (nd td mx : N) (m : WideAxisMove) : outcome bool :=
  let main := ce_main (cw_edge c) in
  let f := mv_face (w_move m) in
  bind_o (ce_side_face_o (cw_edge c)) (fun side =>
  if face_eqb main f then Done true
  else if face_eqb side f then Done (N.leb nd (w_depth m))
  else if axis_eqb (face_axis main) (face_axis f) || axis_eqb (face_axis side) (face_axis f)
  then Done false
  else bind_o (ce_normal_axis_o (cw_edge c)) (fun normal =>
       if axis_eqb normal (face_axis f)
       then map_o (fun d => dir_eqb d (face_dir f) && N.leb td (w_depth m)) (cw_normal_dir_p c)
       else Panic)).

(** pieces/edge.rs:284-313 [min_moves_to_solve]; [direction_on_axis] may panic. The final
    [match] is exhaustive and is taken from [Model_Pieces.min_moves_to_solve]'s table. *)
Definition min_moves_to_solve_p (original : EdgePos) (e : Edge) : outcome Z :=
  if edge_is_solved e original then Done 0%Z
  else
    map_o (fun shared_axis =>
      match e_oriented e, axis_eqb (fst original) (e_normal e), shared_axis with
      | true, true, Some _ => 1
      | true, false, Some AX => 1
      | true, false, Some AY => 1
      | false, false, Some AZ => 1
      | true, _, None => 2
      | true, false, Some AZ => 2
      | false, false, Some AX => 2
      | false, false, Some AY => 2
      | false, false, None => 2
      | false, true, None => 3
      | false, true, Some _ => 3
      end%Z)
    (find_o (fun a =>
       bind_o (direction_on_axis_o (edge_position e) a) (fun d1 =>
       map_o (fun d2 => match d1 with Some _ => odir_eqb d1 d2 | None => false end)
             (direction_on_axis_o original a))) axis_iter).

(* ------------------------------------------------------------------ *)
(** * Cubes *)

(** moves/wide.rs:220-234 [Movable<WideAxisMove<M>> for DepthPieceSet]. *)
Definition depth_set_apply_p {P} (in_wide : P -> N -> N -> N -> WideAxisMove -> outcome bool)
  (rotate : P -> AxisRotation -> outcome P) (nd td mx : N) (s : list P) (m : WideAxisMove)
  : outcome (list P) :=
  each_o (fun p => bind_o (in_wide p nd td mx m) (fun b : bool =>
    if b then rotate p (rot_of_move (w_move m)) else Done p)) s.

(** generic/piece/set.rs:177-187 [Movable for PieceSet], corners. *)
Definition corners_p (s : list Corner) (m : AxisMove) : outcome (list Corner) :=
  each_o (fun c => corner_apply_p c m) s.
(** generic/piece/set.rs:177-187 [Movable for PieceSet], edges. *)
Definition edges_p (s : list Edge) (m : AxisMove) : outcome (list Edge) :=
  each_o (fun e => edge_apply_p e m) s.
(** moves/wide.rs:220-234 for [WingSet<ND>]. *)
Definition wings_p (nd mx : N) := depth_set_apply_p wing_in_wide_p wing_rotate_p nd 0 mx.
(** moves/wide.rs:220-234 for [CenterCornerSet<ND>]. *)
Definition ccs_p (nd mx : N) := depth_set_apply_p cc_in_wide_p cc_rotate_p nd 0 mx.
(** moves/wide.rs:220-234 for [CenterEdgeSet<ND>]. *)
Definition ces_p (nd mx : N) := depth_set_apply_p ce_in_wide_p ce_rotate_o nd 0 mx.
(** moves/wide.rs:220-234 for [CenterWingSet<ND, TD>]. *)
Definition cws_p (nd td mx : N) := depth_set_apply_p cw_in_wide_p cw_rotate_p nd td mx.

(** cube2/mod.rs:32-36 [Movable]. *)
Definition cube2_apply_p (c : Cube2) (m : AxisMove) : outcome Cube2 :=
  map_o mkCube2 (corners_p (c2_corners c) m).
(** cube3/mod.rs:49-54 [Movable]: the corners move first. *)
Definition cube3_apply_p (c : Cube3) (m : AxisMove) : outcome Cube3 :=
  bind_o (corners_p (c3_corners c) m) (fun k =>
  map_o (fun e => mkCube3 e k) (edges_p (c3_edges c) m)).
(** cube4/mod.rs:41-47 [Movable]. *)
Definition cube4_wide_p (c : Cube4) (m : WideAxisMove) : outcome Cube4 :=
  bind_o (corners_p (c4_corners c) (w_move m)) (fun a =>
  bind_o (wings_p 1 1 (c4_wings c) m) (fun b =>
  bind_o (ccs_p 1 1 (c4_centers c) m) (fun d => Done (mkCube4 a b d)))).
(** cube5/mod.rs:39-46 [Movable]. *)
Definition cube5_wide_p (c : Cube5) (m : WideAxisMove) : outcome Cube5 :=
  bind_o (corners_p (c5_corners c) (w_move m)) (fun a =>
  bind_o (edges_p (c5_edges c) (w_move m)) (fun b =>
  bind_o (ccs_p 1 1 (c5_center_corners c) m) (fun d =>
  bind_o (ces_p 1 1 (c5_center_edges c) m) (fun e => Done (mkCube5 a b d e))))).
(** cube6/mod.rs:56-65 [Movable]. *)
Definition cube6_wide_p (c : Cube6) (m : WideAxisMove) : outcome Cube6 :=
  bind_o (corners_p (c6_corners c) (w_move m)) (fun a =>
  bind_o (wings_p 1 2 (c6_wings_1 c) m) (fun w1 =>
  bind_o (wings_p 2 2 (c6_wings_2 c) m) (fun w2 =>
  bind_o (ccs_p 1 2 (c6_center_corners_1 c) m) (fun k1 =>
  bind_o (ccs_p 2 2 (c6_center_corners_2 c) m) (fun k2 =>
  bind_o (cws_p 1 2 2 (c6_center_wings c) m) (fun cw => Done (mkCube6 a w1 w2 k1 k2 cw))))))).
(** cube7/mod.rs:67-79 [Movable]. *)
Definition cube7_wide_p (c : Cube7) (m : WideAxisMove) : outcome Cube7 :=
  bind_o (corners_p (c7_corners c) (w_move m)) (fun a =>
  bind_o (edges_p (c7_edges c) (w_move m)) (fun e =>
  bind_o (wings_p 1 2 (c7_wings_1 c) m) (fun w1 =>
  bind_o (wings_p 2 2 (c7_wings_2 c) m) (fun w2 =>
  bind_o (ccs_p 1 2 (c7_center_corners_1 c) m) (fun k1 =>
  bind_o (ccs_p 2 2 (c7_center_corners_2 c) m) (fun k2 =>
  bind_o (cws_p 1 2 2 (c7_center_wings c) m) (fun cw =>
  bind_o (ces_p 1 2 (c7_center_edges_1 c) m) (fun e1 =>
  bind_o (ces_p 2 2 (c7_center_edges_2 c) m) (fun e2 =>
  Done (mkCube7 a e w1 w2 k1 k2 cw e1 e2)))))))))).

(** moves/wide.rs:135-141: [widen($max_width).unwrap()], then the wide move. *)
Definition apply_widened_p {C} (apply_wide : C -> WideAxisMove -> outcome C) (mx : N)
  (c : C) (m : AxisMove) : outcome C :=
  bind_o (widen_to mx m) (fun w => apply_wide c w).

(** [Movable<AxisMove>] of each cube.
    cube_n/cube2/mod.rs:32, cube3/mod.rs:49, moves/wide.rs:135-141 for the others. *)
Definition cube_apply_p (n : CubeSize) : CubeOf n -> AxisMove -> outcome (CubeOf n) :=
  match n with
  | Size2 => cube2_apply_p | Size3 => cube3_apply_p
  | Size4 => apply_widened_p cube4_wide_p 1 | Size5 => apply_widened_p cube5_wide_p 1
  | Size6 => apply_widened_p cube6_wide_p 2 | Size7 => apply_widened_p cube7_wide_p 2
  end.

(** [Movable<WideAxisMove>] of each cube: moves/wide.rs:122-126 for Cube2 and Cube3. *)
Definition cube_apply_wide_p (n : CubeSize) : CubeOf n -> WideAxisMove -> outcome (CubeOf n) :=
  match n with
  | Size2 => fun c w => cube2_apply_p c (w_move w)
  | Size3 => fun c w => cube3_apply_p c (w_move w)
  | Size4 => cube4_wide_p | Size5 => cube5_wide_p
  | Size6 => cube6_wide_p | Size7 => cube7_wide_p
  end.

(** moves/quarter.rs:51-55 [Movable<QuarterAxisMove>]. *)
Definition cube_apply_quarter_p (n : CubeSize) (c : CubeOf n) (q : QuarterAxisMove) : outcome (CubeOf n) :=
  cube_apply_p n c (move_of_quarter q).

(** moves/non_redundant.rs:364-370 [Movable<NonRedundantAxisMove>]. *)
Definition cube_apply_nr_p (n : CubeSize) (c : CubeOf n) (m : NRMove) : outcome (CubeOf n) :=
  apply_alg_o (cube_apply_p n) c (nr_moves m).

(* ------------------------------------------------------------------ *)
(** * Normalising *)

(** non_redundant.rs:172-237 [absorve]; adding amounts may reach [unreachable!]. *)
Definition absorve_p (acc : option NRMove) (other : AxisMove) : outcome (option NRMove * AbsorveResult) :=
  match acc with
  | None => Done (Some (NRSingle other), Absorved)
  | Some (NRSingle mov) =>
      if axis_eqb (face_axis (mv_face mov)) (face_axis (mv_face other)) then
        match face_dir (mv_face mov), face_dir (mv_face other) with
        | Positive, Positive | Negative, Negative =>
            map_o (fun s => match s with
                   | Some am => (Some (NRSingle (mkMove (mv_face mov) am)), Absorved)
                   | None => (None, Collapsed)
                   end) (amount_add_o (mv_amount mov) (mv_amount other))
        | Positive, Negative =>
            Done (Some (NRDouble (face_axis (mv_face mov)) (mv_amount mov) (mv_amount other)), Added)
        | Negative, Positive =>
            Done (Some (NRDouble (face_axis (mv_face mov)) (mv_amount other) (mv_amount mov)), Added)
        end
      else Done (acc, NotAdded)
  | Some (NRDouble a p n) =>
      if axis_eqb a (face_axis (mv_face other)) then
        match face_dir (mv_face other) with
        | Positive =>
            map_o (fun s => match s with
                   | Some am => (Some (NRDouble a am n), Absorved)
                   | None => (Some (nr_single a (dir_neg (face_dir (mv_face other))) n), Collapsed)
                   end) (amount_add_o p (mv_amount other))
        | Negative =>
            map_o (fun s => match s with
                   | Some am => (Some (NRDouble a p am), Absorved)
                   | None => (Some (nr_single a (dir_neg (face_dir (mv_face other))) p), Collapsed)
                   end) (amount_add_o n (mv_amount other))
        end
      else Done (acc, NotAdded)
  end.

(** non_redundant.rs:317-335, the [while let] loop of [normalized]; outer [None] means
    that the fuel ran out. *)
Fixpoint normalize_loop_p (fuel : nat) (input out : list AxisMove) (acc : option NRMove)
  : option (outcome (list AxisMove)) :=
  match fuel with
  | 0 => None
  | S fuel =>
      match input with
      | [] => Some (Done (offload acc out))
      | mov :: input =>
          match absorve_p acc mov with
          | Panic => Some Panic
          | Done (acc', NotAdded) =>
              match absorve_p None mov with
              | Panic => Some Panic
              | Done (acc'', _) => normalize_loop_p fuel input (offload acc' out) acc''
              end
          | Done (acc', Collapsed) =>
              match offload acc' out with
              | [] => normalize_loop_p fuel input [] None
              | top :: out' => normalize_loop_p fuel (top :: input) out' None
              end
          | Done (acc', _) => normalize_loop_p fuel input out acc'
          end
      end
  end.

(** non_redundant.rs:303-344 [Alg::normalized]. *)
Definition normalized_p (al : list AxisMove) : option (outcome (list AxisMove)) :=
  normalize_loop_p (normalize_fuel al) (rev al) [] None.

(* ------------------------------------------------------------------ *)
(** * Orientable cubes *)

(** orientable/mod.rs:53-66 generic [apply] for [AxisMove]. *)
Definition orientable_apply_p (n : CubeSize) (o : Orientable n) (m : AxisMove) : outcome (Orientable n) :=
  bind_o (or_rotations (ob_ori o)) (fun rots =>
  map_o (fun c => mkOrientable c (ob_ori o)) (cube_apply_p n (ob_cube o) (fold_left rotate_move rots m))).

(** moves/extended.rs:92-101: one turn of the [for dir in ..] loop of a slice move. *)
Definition slice_step_p (n : CubeSize) (r : AxisRotation) (wide : bool) (c : CubeOf n) (dir : Direction)
  : outcome (CubeOf n) :=
  let depth := if wide then half_depth n else 0%N in
  match wide_new (half_depth n) (mkFace (rot_axis r) dir) (amount_mul (rot_amount r) Negative) depth with
  | Ok w => cube_apply_wide_p n c w
  | Err _ => Panic
  end.

(** moves/extended.rs:68-108 [Movable<ExtendedAxisMove> for Orientable<CubeN>]. *)
Definition ext_apply_p (n : CubeSize) (o : Orientable n) (m : ExtendedAxisMove) : outcome (Orientable n) :=
  match m with
  | XRegular m => orientable_apply_p n o m
  | XRotation r => orientable_rotate o r
  | XWide w =>
      if N.ltb (cube_size_N n) (w_depth w) then orientable_rotate o (rot_of_move (w_move w))
      else
        let depth_opposite := (cube_size_N n - w_depth w)%N in
        bind_o (if N.ltb (w_depth w) depth_opposite then Done (o, w)
                else bind_o (orientable_rotate o (rot_of_move (w_move w))) (fun o =>
                     bind_o (wide_opposite u32_max w depth_opposite) (fun w => Done (o, w))))
          (fun ow => let (o, w) := ow in
             match wide_set_max_depth (half_depth n) w with
             | Ok w => map_o (fun c => mkOrientable c (ob_ori o)) (cube_apply_wide_p n (ob_cube o) w)
             | Err _ => Panic
             end)
  | XSlice r wide =>
      bind_o (slice_step_p n r wide (ob_cube o) Positive) (fun c =>
      bind_o (slice_step_p n r wide c Negative) (fun c =>
      orientable_rotate (mkOrientable c (ob_ori o)) r))
  end.

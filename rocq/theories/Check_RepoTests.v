(** The unit tests and documentation examples of /repo, replayed on the model.

    These are tests of the model, not theorems about it: the expected values were written by
    the authors of the code, so that a model that disagreed with the code on one of them would
    not compile here. Tests that use a seeded random generator are left out (the stream of
    [StdRng] is not modelled) if a theorem says the same about all inputs; that theorem is
    named instead. *)

From Coq Require Import List Bool Arith NArith ZArith String.
From Verif Require Import Model_Base Model_Space Model_Moves Model_Pieces Model_PieceSet Model_Cubes
  Model_Visual Model_NonRedundant Model_Parser Model_Perms Model_Orientable Model_Connect Model_Mus
  Model_Float Model_PrintFloat Model_Invariants Model_Search Model_Cross.
Import ListNotations.
Open Scope nat_scope.

(** The character class [NUMBER] of pest, on the characters that occur below. *)
Definition num (c : N) : bool := ((48 <=? c) && (c <=? 57))%N.
Definition move (s : string) : option AxisMove :=
  match parse_move num (lit s) with Done (Ok m) => Some m | _ => None end.
Definition alg (s : string) : list AxisMove :=
  match parse_alg (parse_move num) (lit s) with Done (Ok al) => al | _ => [] end.
Definition rejected {A E} (x : outcome (result A E)) : bool :=
  match x with Done (Err _) => true | _ => false end.
Definition named (x : outcome (list AxisMove)) : list AxisMove := match x with Done al => al | Panic => [] end.
Definition sexy := named (SEXY_MOVE num).
Definition T := named (pll_T num).
Definition U := named (pll_U num).
Definition J := named (pll_J num).
Fixpoint times {A} (k : nat) (l : list A) : list A := match k with 0 => [] | S k => l ++ times k l end.
(** The named algs are not empty, that is, they were parsed. *)
Example perms_parsed : (List.length sexy, List.length T, List.length U, List.length J) = (4, 14, 11, 14).
Proof. vm_compute. reflexivity. Qed.

(** * space/test.rs *)
Example text_next_around : map (fun f => next_around f AX) [fF; fU; fB; fD] = [fU; fB; fD; fF].
Proof. reflexivity. Qed.
Example test_cross : face_cross fR fU = Some fF /\ face_cross fU fR = Some fB /\ face_cross fF fU = Some fL.
Proof. repeat split. Qed.

(** * cube2/test.rs *)
Definition solves (n : CubeSize) (al : list AxisMove) : bool := cube_is_solved n (fold_left (cube_apply n) al (cube_solved n)).
Example trying_to_permute_edges_doesnt_unsolve : solves Size2 U = true.
Proof. vm_compute. reflexivity. Qed.
Example two_ts_solves : solves Size2 (T ++ T) = true.
Proof. vm_compute. reflexivity. Qed.
Example six_sexies_2 : solves Size2 (times 6 sexy) = true.
Proof. vm_compute. reflexivity. Qed.

(** * cube3/test.rs *)
Definition coordinates3 : list Coord :=
  map (fun e => edge_coordinates (edge_position e)) edge_solved ++ map (fun c => corner_coordinates (c_pos c)) corner_solved.
Definition coord_eqb (a b : Coord) : bool :=
  match a, b with (x, y, z), (x', y', z') => ((x =? x') && (y =? y') && (z =? z'))%Z end.
Example solved_cube_has_pieces_in_all_coordinates :
  List.length (nodup (fun a b : Coord => ltac:(decide equality; [apply Z.eq_dec|decide equality; apply Z.eq_dec])) coordinates3) = 20 /\
  forallb (fun x => forallb (fun y => forallb (fun z =>
    if List.length (filter (Z.eqb 0) [x; y; z]) <? 2 then existsb (coord_eqb (x, y, z)) coordinates3 else true)
    [-1; 0; 1]%Z) [-1; 0; 1]%Z) [-1; 0; 1]%Z = true.
Proof. vm_compute. auto. Qed.
(** [random_cube]: [C08_random_solvable]. *)
Example test_f : let target := edge_oriented (AY, mkVec2 Positive Positive) in
  match find_index (fun e => edge_eqb e target) edge_solved with
  | None => False
  | Some i => option_map (fun c => map edge_position (match nth_error (c3_edges c) i with Some e => [e] | None => [] end))
                (option_map (cube3_apply cube3_solved) (move "F")) = Some [(AX, mkVec2 Negative Positive)]
  end.
Proof. vm_compute. reflexivity. Qed.

(** * cube3/mus/deindex/test.rs ([random_indexes_deindexes], [index_deindex_journey]: [C33]) *)
Example index_deindex_orientations : deindex_orientations 3 6 (orientation_permutation_index 3 [2; 2; 0; 2; 2; 2]) = [2; 2; 0; 2; 2; 2].
Proof. vm_compute. reflexivity. Qed.
Example index_deindex_positions :
  bind_o (position_disposition_index 12 [4; 3; 5; 11; 10; 9]) (deindex_positions 6 12) = Done [4; 3; 5; 11; 10; 9].
Proof. vm_compute. reflexivity. Qed.
Definition through_indices (c : Cube3) : outcome Cube3 := bind_o (cube_indices c) cube_from_indices.
Example index_deindex_solved : through_indices cube3_solved = Done cube3_solved.
Proof. vm_compute. reflexivity. Qed.
Example index_deindex_edges : let c := fold_left cube3_apply (alg "R") cube3_solved in
  bind_o (through_indices c) (fun d => Done (c3_edges d)) = Done (c3_edges c).
Proof. vm_compute. reflexivity. Qed.
Example index_deindex_corners : let c := fold_left cube3_apply (alg "U") cube3_solved in
  bind_o (through_indices c) (fun d => Done (c3_corners d)) = Done (c3_corners c).
Proof. vm_compute. reflexivity. Qed.

(** * cube3/mus/index/test.rs *)
Definition fact (n : N) : N := match factorial n with Done x => x | Panic => 0%N end.
Example test_disposition_multipliers :
  disposition_multipliers 8 8 = map fact [7; 6; 5; 4; 3; 2; 1; 0]%N /\
  disposition_multipliers 6 12 = map (fun i => fact i / fact 6)%N [11; 10; 9; 8; 7; 6]%N.
Proof. vm_compute. auto. Qed.
Example first_permutation_indices :
  map (position_disposition_index 6) [[0; 1; 2; 3; 4; 5]; [0; 1; 2; 3; 5; 4]; [0; 1; 2; 4; 3; 5]; [0; 1; 2; 4; 5; 3]; [0; 1; 2; 5; 3; 4]; [0; 1; 2; 5; 4; 3]]
  = map Done [0; 1; 2; 3; 4; 5]%N.
Proof. vm_compute. reflexivity. Qed.
Example last_permutation_is_reverse : position_disposition_index 6 [5; 4; 3; 2; 1; 0] = Done (fact 6 - 1)%N.
Proof. vm_compute. reflexivity. Qed.
Example first_orientation_indices :
  map (orientation_permutation_index 3) [[0; 0; 0; 0; 0; 0; 0]; [0; 0; 0; 0; 0; 0; 1]; [0; 0; 0; 0; 0; 0; 2]; [0; 0; 0; 0; 0; 1; 0];
    [0; 0; 0; 0; 0; 1; 1]; [0; 0; 0; 0; 0; 1; 2]; [0; 0; 0; 0; 0; 2; 0]; [0; 0; 0; 0; 0; 2; 1]; [0; 0; 0; 0; 0; 2; 2]]
  = [0; 1; 2; 3; 4; 5; 6; 7; 8]%N.
Proof. vm_compute. reflexivity. Qed.
(** [Indexable::index] of a single corner or edge (index/mod.rs:57-60). *)
Definition corner_index (c : Corner) : nat := corner_position_index c * 3 + corner_orientation_index c.
Definition edge_index (e : Edge) : nat := edge_position_index e * 2 + edge_orientation_index e.
Definition twice {A} (f : A -> A) (a : A) : A := f (f a).
Example first_and_last_corner_index :
  map corner_index (firstn 1 corner_solved) = [0] /\ map (fun c => corner_index (twice corner_twist c)) (skipn 7 corner_solved) = [8 * 3 - 1].
Proof. vm_compute. auto. Qed.
Example first_and_last_edge_index :
  map edge_index (firstn 1 edge_solved) = [0] /\ map (fun e => edge_index (edge_flip e)) (skipn 11 edge_solved) = [12 * 2 - 1].
Proof. vm_compute. auto. Qed.
Example second_edges_adjustment_solved : adjust_second_edges (snd (edge_partition cube3_solved)) = fst (edge_partition cube3_solved).
Proof. vm_compute. reflexivity. Qed.
Example first_and_last_corner_set :
  corners_index corner_solved = Done 0%N /\
  corners_index (map (twice corner_twist) (rev corner_solved)) = Done (corners_total_set_size - 1)%N.
Proof. vm_compute. auto. Qed.
Example first_and_last_edge_set :
  let last := map edge_flip (rev (snd (edge_partition cube3_solved))) in
  edges_index (fst (edge_partition cube3_solved)) = Done 0%N /\
  position_disposition_index 12 (map edge_position_index last) = Done (edges_position_set_size - 1)%N /\
  orientation_permutation_index 2 (map edge_orientation_index last) = (edges_orientation_set_size - 1)%N /\
  edges_index last = Done (edges_total_set_size - 1)%N.
Proof. vm_compute. auto. Qed.

(** * cube3/cfop/test.rs: [C41_fast_sound]; pieces/test.rs: [C39_*]; cube3/mus/cache/test.rs:
    [C36_admissible]; generic/search/test.rs: [C37_solves_optimally]; visualization/test.rs: [C12] *)

(** * visualization/unfolded/test.rs *)
Definition q32 (num den : Z) : f32 := f32_div (f32_of_Z num) (f32_of_Z den).
Definition v32 (x y z : f32) : CoordF := (x, y, z).
Definition one := f32_of_Z 1.
Definition minus_one := f32_of_Z (-1).
Example closest_to_3 :
  square_indices_f 3 (v32 minus_one minus_one minus_one) fU = Some (0, 0) /\
  square_indices_f 3 (v32 (q32 (-15) 10) minus_one minus_one) fU = None /\
  square_indices_f 3 (v32 (f32_add (q32 (-15) 10) (q32 1 10000)) minus_one minus_one) fU <> None.
Proof. vm_compute. repeat split; discriminate. Qed.
Example closest_to_4 :
  square_indices_f 4 (v32 minus_one minus_one minus_one) fU = Some (0, 0) /\
  square_indices_f 4 (v32 (q32 33 100) one (q32 33 100)) fU = Some (2, 2) /\
  square_indices_f 4 (v32 (q32 1 2) one (q32 1 2)) fU = Some (2, 2) /\
  square_indices_f 4 (v32 one one one) fU = Some (3, 3) /\
  square_indices_f 4 (v32 (q32 (-1375) 1000) minus_one minus_one) fU = None /\
  square_indices_f 4 (v32 (q32 (-1374) 1000) minus_one minus_one) fU <> None.
Proof. vm_compute. repeat split; discriminate. Qed.

(** * pieces/wing/test.rs *)
Definition wing_at (a b : Face) (oriented : bool) : option Wing :=
  match position_from_faces a b with Done (Ok (n, s)) => Some (mkWing (mkEdge n s oriented)) | _ => None end.
Definition wing_from (a b : Face) (d : Direction) : option Wing :=
  match wing_try_from_faces a b d with Done (Ok w) => Some w | _ => None end.
(** Normal axis, normal direction and slice position. *)
Definition look (w : Wing) : Axis * Direction * Vec2 := (e_normal (wg_edge w), wing_normal_dir w, e_slice (wg_edge w)).
Fixpoint turns (w : Wing) (r : AxisRotation) (k : nat) : list Wing :=
  match k with 0 => [w] | S k => w :: turns (wing_rotate w r) r k end.
Definition looks (w : option Wing) (r : AxisRotation) (k : nat) : list (Axis * Direction * Vec2) :=
  match w with Some w => map look (turns w r k) | None => [] end.
Definition pp := mkVec2 Positive Positive.
Definition pn := mkVec2 Positive Negative.
Definition np := mkVec2 Negative Positive.
Definition nn := mkVec2 Negative Negative.
Example has_correct_direction :
  map (option_map wing_normal_dir) [wing_at fU fR true; wing_at fF fR true; wing_at fF fU true] = [Some Negative; Some Positive; Some Positive].
Proof. reflexivity. Qed.
Example turning_on_u_face :
  tl (looks (wing_from fR fU Positive) (mkRot AY Single) 3) = [(AX, Negative, pp); (AZ, Negative, np); (AX, Positive, pn)] /\
  looks (wing_from fR fF Positive) (mkRot AY Single) 1 = [(AY, Positive, pp); (AY, Positive, pn)].
Proof. vm_compute. auto. Qed.
Example turning_on_r_face :
  map fst (tl (looks (wing_at fU fR true) (mkRot AX Single) 3)) = [(AY, Negative); (AZ, Positive); (AY, Positive)] /\
  map snd (looks (wing_at fU fF true) (mkRot AX Single) 3) = [pp; pn; nn; np].
Proof. vm_compute. auto. Qed.
Example turning_on_f_face_inside_wings :
  map snd (firstn 1 (looks (wing_from fU fR Positive) (mkRot AZ Single) 0)) = [pp] /\
  tl (looks (wing_from fU fR Positive) (mkRot AZ Single) 3) = [(AZ, Positive, pn); (AZ, Positive, nn); (AZ, Positive, np)] /\
  option_map (fun w => last (turns w (mkRot AZ Single) 4) w) (wing_from fU fR Positive) = wing_at fU fR false.
Proof. vm_compute. auto. Qed.

(** * cube4/test.rs ([solve_unsolve_journey]: [C01_reversed_wide]) *)
Definition run4 (al : list WideAxisMove) : Cube4 := fold_left (cube_apply_wide Size4) al (cube_solved Size4).
Definition widened (n : N) (al : list AxisMove) (d : N) : list WideAxisMove := match alg_widen n al d with Ok ws => ws | Err _ => [] end.
Definition wide (n : N) (f : Face) (d : N) : list WideAxisMove := match wide_new n f Single d with Ok w => [w] | Err _ => [] end.
Definition expect_wing (c : Cube4) (ta tb : Face) (td : Direction) (ea eb : Face) (ed : Direction) : bool :=
  match wing_from ta tb td, wing_from ea eb ed with
  | Some target, Some expected =>
      match original_position_of_piece_at wing_desc (c4_wings c) target with Done found => wing_eqb found expected | Panic => false end
  | _, _ => false
  end.
Example just_solved : cube_is_solved Size4 (cube_solved Size4) = true.
Proof. vm_compute. reflexivity. Qed.
Example apply_move : List.length (wide 1 fR 1) = 1 /\ cube4_is_solved (run4 (wide 1 fR 1)) = false.
Proof. vm_compute. auto. Qed.
Example six_sexy_moves : solves Size4 (times 6 sexy) = true.
Proof. vm_compute. reflexivity. Qed.
Example four_wides : forallb (fun f => cube4_is_solved (run4 (times 4 (wide 1 f 1)))) [fU; fF; fR] = true /\
  expect_wing (run4 (wide 1 fF 1)) fR fF Positive fU fF Negative = true.
Proof. vm_compute. auto. Qed.
Example four_of_every_single_move :
  forallb (fun m => let c := run4 (times 4 (widened 1 [m] 1)) in
    cube4_is_solved c && cube4_is_solved (fold_left (cube_apply Size4) (times 4 [m]) c)) all_moves = true.
Proof. vm_compute. reflexivity. Qed.
Example six_wide_sexies : run4 (times 6 (widened 1 sexy 1)) = cube_solved Size4.
Proof. vm_compute. reflexivity. Qed.
Example two_wide_ts : let t := widened 1 T 1 in
  expect_wing (run4 (firstn 13 t)) fR fF Negative fR fU Negative = true /\
  expect_wing (run4 (firstn 14 t)) fU fF Positive fR fU Negative = true /\
  c4_wings (run4 (t ++ t)) = wing_solved /\ cube4_is_solved (run4 (t ++ t)) = true.
Proof. vm_compute. auto. Qed.
Example two_wide_js : let j := widened 1 J 1 in run4 (j ++ j) = cube_solved Size4 /\ cube4_is_solved (run4 (j ++ j)) = true.
Proof. vm_compute. auto. Qed.
Example random_amount_of_wide_u_perms : cube4_is_solved (run4 (times 5 (widened 1 U 1))) = true.
Proof. vm_compute. reflexivity. Qed.
Example regular_ass_t_perm_lol : solves Size4 (T ++ T) = true.
Proof. vm_compute. reflexivity. Qed.

(** * cube5/test.rs, cube6/test.rs, cube7/test.rs *)
Definition runs (n : CubeSize) (al : list WideAxisMove) : bool := cube_is_solved n (fold_left (cube_apply_wide n) al (cube_solved n)).
Example two_t_pems_solve_it : let t := widened 1 T 1 in runs Size5 t = false /\ runs Size5 (t ++ t) = true.
Proof. vm_compute. auto. Qed.
Example half_wide_t_perm : let t := flat_map (fun m => widened 1 [m] (if face_eqb (mv_face m) fR then 1 else 0)) T in
  runs Size5 t = false /\ runs Size5 (t ++ t) = true.
Proof. vm_compute. auto. Qed.
Example six_sexies_6 : runs Size6 (times 6 (widened 2 sexy 0)) = true.
Proof. vm_compute. reflexivity. Qed.
Example two_t_perms_of_varying_depths_6 : forallb (fun d => let t := widened 2 T d in negb (runs Size6 t) && runs Size6 (t ++ t)) [0; 1; 2]%N = true.
Proof. vm_compute. reflexivity. Qed.
Example four_of_each : forallb (fun m => forallb (fun d => runs Size6 (times 4 (widened 2 [m] d))) [0; 1; 2]%N) all_moves = true.
Proof. vm_compute. reflexivity. Qed.
Example center_wings_normal_directions :
  map (fun c => (ce_normal_axis (cw_edge c), cw_normal_dir c)) (firstn 2 cw_solved) = [(AZ, Negative); (AX, Positive)].
Proof. vm_compute. reflexivity. Qed.
Example six_sexies_7 : runs Size7 (times 6 (widened 2 sexy 0)) = true.
Proof. vm_compute. reflexivity. Qed.
Example two_t_perms_of_varying_depths_7 : forallb (fun d => let t := widened 2 T d in negb (runs Size7 t) && runs Size7 (t ++ t)) [0; 1; 2]%N = true.
Proof. vm_compute. reflexivity. Qed.

(** * moves/test.rs ([alg_and_inverse_solve_cube]: [C01_reversed_axis]; [quarter_moves]: [C23]) *)
Example rotates_u_face : map (fun a => rotate_face fU (mkRot AX a)) [Single; Double; Inverse] = [fB; fD; fF].
Proof. reflexivity. Qed.
Example rotates_d_face : map (fun a => rotate_face fD (mkRot AX a)) [Single; Double; Inverse] = [fF; fU; fB].
Proof. reflexivity. Qed.
Definition edge_from (a b : Face) : option Edge := match position_from_faces a b with Done (Ok p) => Some (edge_oriented p) | _ => None end.
Example rotates_edges :
  map (fun a => option_map (fun e => edge_rotate e (mkRot AZ a)) (edge_from fR fF)) [Single; Inverse; Double]
    = [option_map edge_flip (edge_from fD fF); option_map edge_flip (edge_from fU fF); edge_from fL fF] /\
  map (fun a => option_map (fun e => edge_rotate e (mkRot AY a)) (edge_from fU fB)) [Single; Inverse; Double]
    = [edge_from fU fR; edge_from fU fL; edge_from fU fF].
Proof. vm_compute. auto. Qed.
Example parses_moves : map move ["R2"; "L'"; "D"]%string = [Some (mkMove fR Double); Some (mkMove fL Inverse); Some (mkMove fD Single)].
Proof. vm_compute. reflexivity. Qed.
Definition micro : text := [181%N].
Example errors_on_invalid_algs : forallb (fun s => rejected (parse_move num s)) [lit "P"; micro; lit "R2'"] = true.
Proof. vm_compute. reflexivity. Qed.
Example errors_completely_when_parsing_invalid_move_in_alg :
  forallb (fun s => rejected (parse_alg (parse_move num) s)) [lit "R2 P"; lit "R2 " ++ micro; lit "R2 R2'"] = true.
Proof. vm_compute. reflexivity. Qed.
Example prints_moves : match wide_new 3 fR Double 2 with Ok w => display_wide w | Err _ => Panic end = Done (lit "3Rw2").
Proof. vm_compute. reflexivity. Qed.
Example six_sexy_moves_solves_cube : fold_left cube3_apply (times 6 sexy) cube3_solved = cube3_solved.
Proof. vm_compute. reflexivity. Qed.
Example two_t_perms_solve_cube : solves Size3 (T ++ T) = true.
Proof. vm_compute. reflexivity. Qed.
Definition x_moves : list text := map lit ["R"; "R'"; "R2"; "L"; "L'"; "L2"; "R L"; "R L'"; "R L2"; "R' L"; "R' L'"; "R' L2"; "R2 L"; "R2 L'"; "R2 L2"]%string.
Example non_redundant_of_axis : List.length (nr_of_axis AX) = 15 /\
  forallb (fun m => existsb (text_eqb (display_nr m)) x_moves) (nr_of_axis AX) = true.
Proof. vm_compute. auto. Qed.
Example non_redundant_given_last_axis : List.length (given_last_axis AX) = 30 /\
  existsb (fun m => existsb (text_eqb (display_nr m)) x_moves) (given_last_axis AX) = false.
Proof. vm_compute. auto. Qed.

(** * parser/test.rs *)
Definition amount_of (s : string) := parse_rule num r_amount amount_from_pest (lit s).
Example amount : map amount_of [""; "2"; "'"]%string = map (fun a => Done (Ok a)) [Single; Double; Inverse] /\
  forallb (fun s => rejected (amount_of s)) ["3"; " "; "2 "; " 2"]%string = true.
Proof. vm_compute. auto. Qed.
Example face : map (fun s => parse_face num (lit s)) ["U"; "D"; "L"; "R"; "F"; "B"]%string = map (fun f => Done (Ok f)) [fU; fD; fL; fR; fF; fB] /\
  forallb (fun s => rejected (parse_face num (lit s))) ["A"; "u"; " "; "U caca"; " U"]%string = true.
Proof. vm_compute. auto. Qed.
Example moves : map move ["R"; "R2"; "R'"; "B'"]%string = map Some [mkMove fR Single; mkMove fR Double; mkMove fR Inverse; mkMove fB Inverse] /\
  forallb (fun s => rejected (parse_move num (lit s))) ["R3"; "R2'"]%string = true.
Proof. vm_compute. auto. Qed.
Example wide_moves :
  map (fun s => parse_wide num 2 (lit s)) ["R"; "Rw"; "Rw2"; "Rw'"; "r'"; "2r'"; "2Rw'"]%string
    = map (fun x => match wide_new 2 fR (fst x) (snd x) with Ok w => Done (Ok w) | Err _ => Panic end)
        [(Single, 0); (Single, 1); (Double, 1); (Inverse, 1); (Inverse, 1); (Inverse, 2); (Inverse, 2)]%N /\
  forallb (fun s => rejected (parse_wide num 2 (lit s))) ["Rw3"; "rw"; "3Rw"]%string = true.
Proof. vm_compute. auto. Qed.
Definition ext (s : string) := parse_extended num (lit s).
Example extended_moves :
  map ext ["R"; "R2"]%string = map (fun s => bind_p (parse_move num (lit s)) (fun m => ret (XRegular m))) ["R"; "R2"]%string /\
  ext "Rw" = match parse_wide num 2 (lit "Rw") with Done (Ok w) => match ext_of_wide w with Done x => Done (Ok x) | Panic => Panic end | _ => Panic end /\
  map ext ["x"; "x2"; "z'"; "y"]%string = map (fun s => bind_p (parse_rotation num (lit s)) (fun r => ret (XRotation r))) ["x"; "x2"; "z'"; "y"]%string.
Proof. vm_compute. auto. Qed.

(** * orientable/test.rs and orientation.rs:143-156 *)
Example default_orientation : or_r_face ori_default = fR /\ or_u_face ori_default = fU.
Proof. vm_compute. auto. Qed.
Definition faces (o : outcome Orientation) : outcome (Face * Face) := bind_o o (fun o => Done (or_r_face o, or_u_face o)).
Definition x2 := or_rotate_o ori_default (mkRot AX Double).
Definition x2y' := bind_o x2 (fun o => or_rotate_o o (mkRot AY Inverse)).
Example rotates_orientation : faces x2 = Done (fR, fD) /\ faces x2y' = Done (fB, fD).
Proof. vm_compute. auto. Qed.
Definition base (o : outcome (Orientable Size3)) : outcome Cube3 := bind_o o (fun o => Done (ob_cube o)).
Example moves_rotated_simple :
  base (bind_o x2 (fun o => orientable_apply Size3 (mkOrientable (n := Size3) cube3_solved o) (mkMove fU Single)))
  = Done (cube3_apply cube3_solved (mkMove fD Single)).
Proof. vm_compute. reflexivity. Qed.
Example moves_rotated :
  base (bind_o x2y' (fun o => apply_alg_o (orientable_apply Size3) (mkOrientable (n := Size3) cube3_solved o) sexy))
  = Done (fold_left cube3_apply (alg "B D B' D'") cube3_solved).
Proof. vm_compute. reflexivity. Qed.
Example test_all_connects : forallb (fun from => forallb (fun to =>
  match connecting_rotation from to with
  | None => face_eqb from to
  | Some r => negb (face_eqb from to) && face_eqb (rotate_face from r) to
  end) face_iter) face_iter = true.
Proof. vm_compute. reflexivity. Qed.

(** * Documentation examples *)
(** non_redundant.rs:109-117 is [non_redundant_given_last_axis]. non_redundant.rs:138-171: *)
Definition nr_text (x : option NRMove) : option text := option_map display_nr x.
Fixpoint absorve_all (x : option NRMove) (l : list string) : list (option text) * option NRMove :=
  match l with
  | [] => ([], x)
  | s :: l => match move s with
              | Some m => let x' := fst (absorve x m) in let r := absorve_all x' l in (nr_text x' :: fst r, snd r)
              | None => ([], None)
              end
  end.
Example doc_absorve :
  let r := absorve_all None ["R2"; "R"; "L"; "R'"]%string in
  fst r = map (fun s => Some (lit s)) ["R2"; "R'"; "R' L"; "R2 L"]%string /\
  option_map (fun m => snd (absorve (snd r) m)) (move "F") = Some NotAdded /\
  snd (absorve_all (snd r) ["L'"; "R2"]%string) = None /\
  option_map (fun m => snd (absorve None m)) (move "F") <> Some NotAdded.
Proof. vm_compute. repeat split. discriminate. Qed.
(** non_redundant.rs:292-302: *)
Example doc_normalized : display_alg display_move (normalized (alg "L' F R' L2 R L2 F' L B F B D")) = lit "B2 F D".
Proof. vm_compute. reflexivity. Qed.
(** generic/moves.rs:57-66: *)
Example doc_connect : option_map (fun m => cube_connect Size3 cube3_solved (cube3_apply cube3_solved m)) (move "B'") = Some (move "B'").
Proof. vm_compute. reflexivity. Qed.

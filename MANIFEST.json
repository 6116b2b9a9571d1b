{
 "claims": [
  {
   "property": "C01",
   "status": "proved",
   "theorems": [
    "C01_reversed_axis",
    "C01_reversed_wide",
    "C01_reversed_quarter",
    "C01_reversed_non_redundant",
    "C01_reversed_twice"
   ],
   "note": "All four move types, every cube type Cube2..Cube7, every state."
  },
  {
   "property": "C02",
   "status": "proved",
   "theorems": [
    "C02_amount_is_quarter_turns",
    "C02_order_four",
    "C02_order_exactly_four",
    "C02_amount_add_exact",
    "C02_amounts_compose",
    "C02_same_axis_commute",
    "C02_wide_amount_is_quarter_turns",
    "C02_wide_amounts_compose",
    "C02_wide_same_axis_commute"
   ],
   "note": ""
  },
  {
   "property": "C03",
   "status": "proved",
   "theorems": [
    "C03_valid_after_history",
    "C03_valid_from_solved",
    "C03_validate_exact",
    "C03_shuffle_valid"
   ],
   "note": "Every history of moves (face, wide, quarter, non-redundant) on every cube type, plus shuffle for every RNG."
  },
  {
   "property": "C04",
   "status": "proved",
   "theorems": [
    "C04_new_exact"
   ],
   "note": ""
  },
  {
   "property": "C05",
   "status": "proved",
   "theorems": [
    "C05_lookups_inverse",
    "C05_lookups_never_panic",
    "C05_swap",
    "C05_at_index"
   ],
   "note": ""
  },
  {
   "property": "C06",
   "status": "proved",
   "theorems": [
    "C06_reachable_invariants",
    "C06_invariants_never_change"
   ],
   "note": "All histories; also every invariant is unchanged by moves from any valid state."
  },
  {
   "property": "C07",
   "status": "proved",
   "theorems": [
    "C07_invariants_solvable",
    "C07_solvable_within_200",
    "C07_solvable_exactly",
    "C07_reachable_exactly"
   ],
   "note": "Bound 139 moves; plus reachable = solvable = valid and invariant."
  },
  {
   "property": "C08",
   "status": "proved",
   "theorems": [
    "C08_random_solvable",
    "C08_every_solvable_possible"
   ],
   "note": "For every RNG, given as the sequence of its choices; also every solvable cube is an outcome for some RNG."
  },
  {
   "property": "C09",
   "status": "partial",
   "theorems": [
    "C09_random_solvable",
    "C09_every_state_refuted",
    "C09_outcomes_partial",
    "C09_solvable_exactly",
    "C09_each_once_partial"
   ],
   "note": "First half proved (always valid, solvable). Second half is false: corners are shuffled but never twisted, so e.g. the state after R is never produced (C09_every_state_refuted). Exact set of outcomes: C09_outcomes_partial."
  },
  {
   "property": "C10",
   "status": "proved",
   "theorems": [
    "C10_terminates",
    "C10_terminates_for_pieces",
    "C10_counts_cycles",
    "C10_sign",
    "C10_fix_swap_parity"
   ],
   "note": ""
  },
  {
   "property": "C11",
   "status": "proved",
   "theorems": [
    "C11_turn_moves_layer",
    "C11_turn_keeps_rest",
    "C11_alg_moves_stickers",
    "C11_solved_colours"
   ],
   "note": "Stated on the public colours and coordinates of the pieces; all states, valid or not."
  },
  {
   "property": "C12",
   "status": "proved",
   "theorems": [
    "C12_drawing_faithful",
    "C12_net_complete",
    "C12_net_adjacent",
    "C12_nine_of_each",
    "C12_drawing_injective",
    "C12_float"
   ],
   "note": ""
  },
  {
   "property": "C13",
   "status": "proved",
   "theorems": [
    "C13_is_solved_looks_solved",
    "C13_reachable",
    "C13_is_solved_pieces",
    "C13_is_solved_sets"
   ],
   "note": ""
  },
  {
   "property": "C14",
   "status": "proved",
   "theorems": [
    "C14_rotations_agree",
    "C14_sequences",
    "C14_inverse",
    "C14_cross",
    "C14_opposite",
    "C14_moves_conjugate",
    "C14_handedness"
   ],
   "note": ""
  },
  {
   "property": "C15",
   "status": "partial",
   "theorems": [
    "C15_wide_moves_partial",
    "C15_other_pieces_partial",
    "C15_widest_move_partial",
    "C15_center_edges_refuted",
    "C15_center_edges_exact",
    "C15_right_exactly",
    "C15_wings_any_size",
    "C15_center_wings_any_size",
    "C15_center_corners_any_size"
   ],
   "note": "False as stated: on the 5x5x5 and 7x7x7 the centre-edge pieces are compared with the const generic maximum depth instead of the depth of the move (C15_center_edges_refuted). Proved for every other piece of every cube, for all pieces of the 2,3,4,6 cubes, and for the widest move of every cube. Every wide move turns the centre edges like the widest move (C15_center_edges_exact), so the claim holds exactly for the cubes without centre edges and for widest moves (C15_right_exactly)."
  },
  {
   "property": "C16",
   "status": "partial",
   "theorems": [
    "C16_axis_move_refuted",
    "C16_axis_move_partial",
    "C16_small_cubes_partial",
    "C16_axis_move_physical"
   ],
   "note": "False as stated on Cube4..Cube7 (C16_axis_move_refuted): an AxisMove is the widest wide move. That characterisation is proved for every cube, state and move; the claim itself holds on Cube2 and Cube3."
  },
  {
   "property": "C17",
   "status": "partial",
   "theorems": [
    "C17_cubies_partial",
    "C17_cube5_refuted",
    "C17_cube5_partial"
   ],
   "note": "False on Cube5, which has no wings (C17_cube5_refuted); proved for all other cubes, and for Cube5 up to exactly the missing wings."
  },
  {
   "property": "C18",
   "status": "partial",
   "theorems": [
    "C18_false_positive_refuted",
    "C18_false_negative_refuted",
    "C18_claim_refuted",
    "C18_visible_implies_solved_partial",
    "C18_solved_implies_visible_partial",
    "C18_is_solved_exact_partial",
    "C18_cube5_exact_partial"
   ],
   "note": "False on Cube4, 6, 7 (a centre three-cycle between L and D is reported solved) and on Cube5 (an invisible centre cycle is reported unsolved). The true directions and the exact meaning on 4, 6, 7 (C18_is_solved_exact_partial) and on 5 (C18_cube5_exact_partial) are proved."
  },
  {
   "property": "C19",
   "status": "proved",
   "theorems": [
    "C19_normalized"
   ],
   "note": ""
  },
  {
   "property": "C20",
   "status": "partial",
   "theorems": [
    "C20_normalized_redundant_refuted",
    "C20_normalized_cancelling_refuted",
    "C20_normalized_irredundant_partial",
    "C20_normalized_fixpoints",
    "C20_redundant_only_if_shorter_partial",
    "C20_repeated_partial",
    "C20_passes_refuted"
   ],
   "note": "The full claim is false of the code: \"R F' F R L\" normalises to \"L R R\" (C20_normalized_redundant_refuted), and \"R' F' F R L\" to \"L R' R\". Proved instead: irredundant and idempotent for every alg in which no run on one axis cancels a face completely, or that is shortened by at most one move (C20_redundant_only_if_shorter_partial); the fixed points exactly; more passes than half of the length always give an irredundant alg (C20_repeated_partial), but no fixed number of passes does (C20_passes_refuted)."
  },
  {
   "property": "C21",
   "status": "proved",
   "theorems": [
    "C21_absorve_effect",
    "C21_absorve_not_added",
    "C21_absorve_collapsed"
   ],
   "note": ""
  },
  {
   "property": "C22",
   "status": "proved",
   "theorems": [
    "C22_random_alg"
   ],
   "note": "For every RNG, given as the sequence of its choices."
  },
  {
   "property": "C23",
   "status": "proved",
   "theorems": [
    "C23_quarter_alg",
    "C23_quarter_is_single"
   ],
   "note": ""
  },
  {
   "property": "C24",
   "status": "proved",
   "theorems": [
    "C24_alg_language",
    "C24_move_alg_language",
    "C24_move_roundtrip",
    "C24_alg_roundtrip",
    "C24_any_separator",
    "C24_alg_no_panic",
    "C24_nr_roundtrip"
   ],
   "note": ""
  },
  {
   "property": "C25",
   "status": "proved",
   "theorems": [
    "C25_move_language",
    "C25_rotation_language",
    "C25_parts_language",
    "C25_move_count",
    "C25_wide_language",
    "C25_extended_language",
    "C25_no_panic",
    "C25_unambiguous"
   ],
   "note": "The grammar's NUMBER class is a parameter of which only the ASCII part is assumed (number_class)."
  },
  {
   "property": "C26",
   "status": "partial",
   "theorems": [
    "C26_roundtrip_refuted",
    "C26_depth_0_1_partial",
    "C26_depth_2_8",
    "C26_depth_9",
    "C26_depth_max"
   ],
   "note": "False as stated: display writes depth+1 for depths >= 2 while the parser reads the digit as the depth itself and reads only one digit; display overflows at depth u32::MAX. C26_roundtrip_refuted gives the counterexample, C26_depth_0_1_partial the part that holds, C26_depth_2_8, C26_depth_9 and C26_depth_max what happens for every other depth."
  },
  {
   "property": "C27",
   "status": "proved",
   "theorems": [
    "C27_depth_bounded",
    "C27_constructors",
    "C27_sample",
    "C27_alg_widen"
   ],
   "note": ""
  },
  {
   "property": "C28",
   "status": "proved",
   "theorems": [
    "C28_search_sound",
    "C28_no_panic",
    "C28_solve_with_heuristic_sound"
   ],
   "note": "Every cost arithmetic including IEEE f32 with NaN; every heuristic, puzzle and depth limit."
  },
  {
   "property": "C29",
   "status": "proved",
   "theorems": [
    "C29_optimal",
    "C29_optimal_f32",
    "C29_complete",
    "C29_solve_with_heuristic",
    "C29_zero"
   ],
   "note": "Exact and IEEE f32 arithmetic, heuristics with values that are multiples of 2^-k and small enough for single precision; instance for solve_with_heuristic."
  },
  {
   "property": "C30",
   "status": "proved",
   "theorems": [
    "C30_terminates_finite",
    "C30_cube3_terminates",
    "C30_depth_bounded",
    "C30_no_repeats",
    "C30_costs_are_depths"
   ],
   "note": "Termination for every heuristic (also NaN) on finite state spaces, in particular every Cube3; depth bound for non-negative heuristics; no repeats and connectedness by an asserting copy of the searcher."
  },
  {
   "property": "C31",
   "status": "proved",
   "theorems": [
    "C31_corner_bijection",
    "C31_size",
    "C31_out_of_range",
    "C31_solved_is_zero"
   ],
   "note": ""
  },
  {
   "property": "C32",
   "status": "proved",
   "theorems": [
    "C32_half_edge_bijection",
    "C32_size",
    "C32_out_of_range",
    "C32_solved_is_zero"
   ],
   "note": ""
  },
  {
   "property": "C33",
   "status": "proved",
   "theorems": [
    "C33_round_trip",
    "C33_injective",
    "C33_from_indices",
    "C33_solved"
   ],
   "note": ""
  },
  {
   "property": "C34",
   "status": "partial",
   "theorems": [
    "C34_partial",
    "C34_no_mutation_partial",
    "C34_refuted"
   ],
   "note": "Holds for every cube with one piece at each position (C34_partial), hence for every safe caller that does not use PieceSet::iter_mut_unchecked (C34_no_mutation_partial). False in general: the safe public iter_mut_unchecked can put all corners on one place, and the corner index then lies beyond the table (C34_refuted)."
  },
  {
   "property": "C35",
   "status": "proved",
   "theorems": [
    "C35_corner_table",
    "C35_half_edge_table",
    "C35_corner_entries",
    "C35_half_edge_entries"
   ],
   "note": ""
  },
  {
   "property": "C36",
   "status": "proved",
   "theorems": [
    "C36_complete_cache_exists",
    "C36_mus_value",
    "C36_admissible",
    "C36_consistent",
    "C36_solved",
    "C36_public_functions"
   ],
   "note": ""
  },
  {
   "property": "C37",
   "status": "proved",
   "theorems": [
    "C37_solve_with_mus",
    "C37_never_panics"
   ],
   "note": ""
  },
  {
   "property": "C38",
   "status": "partial",
   "theorems": [
    "C38_init_never_partial",
    "C38_load_never_partial",
    "C38_load_panic",
    "C38_recovery_partial",
    "C38_clean_start",
    "C38_corrupt_stays",
    "C38_recovery_refuted"
   ],
   "note": "Never silently partial: proved for every fault, crash point and history. Recovery without help is refuted (C38_recovery_refuted: a crash during the first write leaves a short file on which every later init panics); C38_recovery_partial proves recovery when no file has a wrong length, e.g. after the files are deleted."
  },
  {
   "property": "C39",
   "status": "proved",
   "theorems": [
    "C39_min_moves_exact",
    "C39_min_moves_range"
   ],
   "note": "Every edge state, home and alg."
  },
  {
   "property": "C40",
   "status": "proved",
   "theorems": [
    "C40_heuristic_admissible",
    "C40_solve_cross"
   ],
   "note": "Every valid cube (solvable or not) and face, IEEE f32 costs; the alg, the returned cube and optimality."
  },
  {
   "property": "C41",
   "status": "proved",
   "theorems": [
    "C41_solve_cross_fast",
    "C41_at_most_one_more",
    "C41_sometimes_longer"
   ],
   "note": "Every valid cube and face, IEEE f32 costs; additionally the alg is at most 3 moves longer than a shortest cross."
  },
  {
   "property": "C42",
   "status": "proved",
   "theorems": [
    "C42_get_cross_pieces",
    "C42_count_cross_pieces",
    "C42_count_is_number"
   ],
   "note": ""
  },
  {
   "property": "C43",
   "status": "partial",
   "theorems": [
    "C43_value",
    "C43_overestimates_refuted",
    "C43_search_refuted",
    "C43_bound_partial",
    "C43_bound_f32_partial",
    "C43_search_near_optimal_partial",
    "C43_search_finds_partial"
   ],
   "note": "False: R2 is one move and is estimated at 1.5 (C43_overestimates_refuted), and after R2 L2 the search with this heuristic returns three moves (C43_search_refuted). Proved: the exact value of the heuristic, at most 1 per quarter turn and 1.5 per half turn of any solution; whatever the search with it returns is a solution at most two moves (and at most half) longer than a shortest one (C43_search_near_optimal_partial), and it finds one whenever there is one of at most 23 moves (C43_search_finds_partial)."
  },
  {
   "property": "C44",
   "status": "proved",
   "theorems": [
    "C44_connect_some",
    "C44_connect_none",
    "C44_connect_recovers",
    "C44_states_recover",
    "C44_states_ok",
    "C44_states_err",
    "C44_states_first"
   ],
   "note": ""
  },
  {
   "property": "C45",
   "status": "partial",
   "theorems": [
    "C45_tracks",
    "C45_tracks_from",
    "C45_every_orientation",
    "C45_try_from",
    "C45_rotations_no_panic",
    "C45_rotations_refuted",
    "C45_rotations_partial"
   ],
   "note": "The tracking part is proved for every sequence of rotations. rotations() is wrong for exactly 6 of the 24 orientations (C45_rotations_refuted, C45_rotations_partial)."
  },
  {
   "property": "C46",
   "status": "partial",
   "theorems": [
    "C46_rotations",
    "C46_wide_exact",
    "C46_wide_partial",
    "C46_wide_refuted",
    "C46_face_exact",
    "C46_face_partial",
    "C46_face_default_partial",
    "C46_face_refuted",
    "C46_face_big_refuted",
    "C46_deep_wide_partial",
    "C46_middle_wide_refuted",
    "C46_middle_wide_exact",
    "C46_slice_double_partial",
    "C46_slice_exact",
    "C46_slice_refuted",
    "C46_refuted"
   ],
   "note": "False on every cube (C46_refuted). Proved: rotations are right; exact effect of face moves and of wide moves up to half of the cube in every orientation (C46_face_exact, C46_wide_exact), the orientations in which they are right, very deep wide moves, half-turn slices; exact effect of the middle depths and of all slices (C46_middle_wide_exact, C46_slice_exact); refuted: wide moves in every other orientation, middle depths, quarter-turn slices, face moves on the big cubes."
  },
  {
   "property": "C47",
   "status": "partial",
   "theorems": [
    "C47_panic_exactly",
    "C47_refuted",
    "C47_partial"
   ],
   "note": "False: exactly the wide moves of depth N/2 .. N-N/2 panic (C47_panic_exactly), e.g. Rw on the 3x3x3."
  },
  {
   "property": "C48",
   "status": "proved",
   "theorems": [
    "C48_reversed",
    "C48_reversed_twice"
   ],
   "note": ""
  },
  {
   "property": "C49",
   "status": "proved",
   "theorems": [
    "C49_bad_line",
    "C49_read_error",
    "C49_good_line",
    "C49_session",
    "C49_session_total",
    "C49_shown_legal"
   ],
   "note": "stdin is a list of lines or read errors; a panic inside a move ends the session and is characterised (C49_session)."
  },
  {
   "property": "C50",
   "status": "proved",
   "theorems": [
    "C50_factorial",
    "C50_set_sizes"
   ],
   "note": ""
  },
  {
   "property": "C51",
   "status": "proved",
   "theorems": [
    "C51_texts",
    "C51_orders",
    "C51_orders_exact",
    "C51_T_slots",
    "C51_J_slots",
    "C51_U_slots",
    "C51_U_fixes_corners"
   ],
   "note": "Orders on all cubes and states; slots on the 3x3x3. The documentation of U names corners, which U does not move (C51_U_fixes_corners)."
  },
  {
   "property": "C52",
   "status": "proved",
   "theorems": [
    "C52_entries_right_or_zero",
    "C52_never_overestimates",
    "C52_solutions_optimal"
   ],
   "note": "Every interleaving, crash point and history. Processes are modelled at the level of system calls on POSIX files; threads of one process are serialised by the OnceLock and not modelled."
  },
  {
   "property": "C53",
   "status": "partial",
   "theorems": [
    "C53_quiet_files_partial",
    "C53_files_stay_partial",
    "C53_files_left_partial",
    "C53_exact_refuted"
   ],
   "note": "False (C53_exact_refuted): two concurrent first runs that both stop can leave a file of the right length that starts with zeros, which every later init accepts. Proved: if no process stops in the middle of a write, every file nobody is writing is complete (C53_quiet_files_partial), and a run of init leaves both files behind so that the next process reads them instead of building (C53_files_left_partial); C52 covers what holds in general."
  },
  {
   "property": "C54",
   "status": "proved",
   "theorems": [
    "C54_uniform",
    "C54_number_of_choices",
    "C54_number_of_cubes"
   ],
   "note": "Uniformity is stated by counting: every solvable cube comes from exactly 12 of the possible sequences of choices (C54_uniform); the sequences and the solvable cubes are counted (C54_number_of_choices, C54_number_of_cubes). That the random generator makes all choices equally likely is an assumption about the rand crate. C08 proves that only solvable cubes occur."
  },
  {
   "property": "C55",
   "status": "proved",
   "theorems": [
    "C55_outcomes",
    "C55_every_effect"
   ],
   "note": "IteratorRandom::choose is modelled as an arbitrary choice in each round. How likely the outcomes are is C75."
  },
  {
   "property": "C56",
   "status": "proved",
   "theorems": [
    "C56_picture",
    "C56_injective",
    "C56_default_scheme",
    "C56_usual_colours",
    "C56_float",
    "C56_float_display"
   ],
   "note": "The output is modelled as cells and line ends; the escape codes are crossterm's. The documentation of Unfolded says R F L for the middle row; the code prints L F R, which is what the theorem says. C56_float and C56_float_display carry it over to the f32 arithmetic of the code."
  },
  {
   "property": "C57",
   "status": "partial",
   "theorems": [
    "C57_three_partial",
    "C57_three_defined_partial",
    "C57_pieces_partial",
    "C57_refuted",
    "C57_corners_partial",
    "C57_float_pieces",
    "C57_float_nan",
    "C57_float_refuted",
    "C57_float_cells",
    "C57_float_infinite",
    "C57_float_points",
    "C57_float_points_refuted"
   ],
   "note": "False (C57_refuted): coordinates are scaled by N/3 instead of (N-1)/2, so on every square from 5x5 on the outermost stickers land in the wrong row, and on 2x2 the boundary is off. Proved for 3x3, the only size the library draws, for every rational point (C57_three_partial, C57_three_defined_partial), and for the corner stickers of 2x2 to 4x4 (C57_corners_partial). The f32 arithmetic agrees with exact arithmetic for the coordinates of pieces (C57_float_pieces) and, on all seven sizes, for every f32 at least 2^-18 away from the borders between the cells (C57_float_cells); infinities and NaN are covered by C57_float_infinite and C57_float_nan. The same for whole points and any distance from the face (C57_float_points), except that a point infinitely far in front of a face is given the first cell (C57_float_points_refuted). Within rounding error of a border it does not (C57_float_refuted)."
  },
  {
   "property": "C58",
   "status": "proved",
   "theorems": [
    "C58_constructors",
    "C58_widen_alg",
    "C58_invariant",
    "C58_to_extended"
   ],
   "note": "All constructors, all histories of API calls (axis_move is a public field and may be replaced)."
  },
  {
   "property": "C59",
   "status": "proved",
   "theorems": [
    "C59_moves",
    "C59_wide_moves",
    "C59_moves_each_once",
    "C59_wide_moves_each_once"
   ],
   "note": "The generator is an arbitrary sequence of choices."
  },
  {
   "property": "C60",
   "status": "proved",
   "theorems": [
    "C60_edge_between",
    "C60_symmetric",
    "C60_all_edges"
   ],
   "note": "All pairs of faces."
  },
  {
   "property": "C61",
   "status": "proved",
   "theorems": [
    "C61_answers",
    "C61_one_cache",
    "C61_answers_agree",
    "C61_no_deadlock"
   ],
   "note": "All interleavings of any number of threads; Cache::init is any nondeterministic function that may panic."
  },
  {
   "property": "C62",
   "status": "proved",
   "theorems": [
    "C62_unchanging_heuristic",
    "C62_sound",
    "C62_optimal",
    "C62_mus_with_fallback"
   ],
   "note": "All histories of answers. C62_mus_with_fallback: every schedule of the initialisation, with every cache that Cache::init can return next to other processes."
  },
  {
   "property": "C63",
   "status": "proved",
   "theorems": [
    "C63_lists",
    "C63_effects_differ",
    "C63_axis_runs",
    "C63_every_alg"
   ],
   "note": "All sizes; effects on every valid cube."
  },
  {
   "property": "C64",
   "status": "proved",
   "theorems": [
    "C64_wing_from_faces",
    "C64_wing_faces_order",
    "C64_every_wing",
    "C64_center_edge_from_faces",
    "C64_every_center_edge",
    "C64_center_wing_new",
    "C64_every_center_wing"
   ],
   "note": "Locations as in the specification of C15, for every size and depth."
  },
  {
   "property": "C65",
   "status": "proved",
   "theorems": [
    "C65_texts_differ",
    "C65_faces_named",
    "C65_center_wing_named"
   ],
   "note": "The plain form {:?}; derived Debug implementations are not modelled. The text of a corner opens with a brace and closes with a parenthesis."
  },
  {
   "property": "C66",
   "status": "partial",
   "theorems": [
    "C66_threshold_partial",
    "C66_report_partial",
    "C66_figures_partial",
    "C66_same_table_partial",
    "C66_refuted"
   ],
   "note": "Proved for clocks within three years of the start in either direction. False beyond: with a clock put forward by four years before the first report of the corner table, the estimated time left is not a chrono Duration and the builder panics (C66_refuted). C66_threshold_partial locates the limit for any table and clock up to the rounding of doubles; C66_figures_partial says what the figures are."
  },
  {
   "property": "C67",
   "status": "proved",
   "theorems": [
    "C67_face_moves",
    "C67_same_effect",
    "C67_reversed",
    "C67_connect",
    "C67_states_recover"
   ],
   "note": "The orientations in which the turned face is the right one are the subject of C46; here only the agreement between the kinds of moves."
  },
  {
   "property": "C68",
   "status": "partial",
   "theorems": [
    "C68_exact_partial",
    "C68_solved_looks_partial",
    "C68_turned_refuted",
    "C68_claim_refuted",
    "C68_base_refuted",
    "C68_default_partial",
    "C68_odd_partial",
    "C68_three_partial"
   ],
   "note": "False on every size: a solved cube that is turned as a whole is reported unsolved (C68_turned_refuted, C68_claim_refuted), and on 4, 6, 7 the result also differs from is_solved of the base cube (C68_base_refuted). Exact meaning: C68_exact_partial; a cube reported solved looks solved (C68_solved_looks_partial); on the 3x3x3 the orientation is the only difference (C68_three_partial)."
  },
  {
   "property": "C69",
   "status": "partial",
   "theorems": [
    "C69_exact_partial",
    "C69_crash_partial",
    "C69_refuted",
    "C69_never_returns_partial"
   ],
   "note": "False: the lines with a wide move written without a number or with 1 or 2 (`Rw`, `1Rw`, `2Rw`) are accepted by the parser and crash the program (C69_refuted). Proved: exactly these lines do, in any state; every other input is survived to its end (C69_exact_partial). The end of the input itself is an unwrap of None, so the program never returns from the playground (C69_never_returns_partial)."
  },
  {
   "property": "C70",
   "status": "partial",
   "theorems": [
    "C70_shown",
    "C70_screen",
    "C70_same_picture_partial",
    "C70_held_alike_partial",
    "C70_face_moves_partial",
    "C70_rotations_unseen",
    "C70_refuted"
   ],
   "note": "False: the playground prints the base cube, so whole-cube rotations (and those implied by slices and wide moves) are not shown: the empty session and the line `x` end with the same picture and different views (C70_refuted). Proved: after each line the picture is that of the base cube reached by all lines so far and is drawn without panic; two pictures agree exactly if the base cubes do; the claim holds for sessions that leave the cube held alike, such as those with face moves only."
  },
  {
   "property": "C71",
   "status": "proved",
   "theorems": [
    "C71_cache_is_built",
    "C71_builds",
    "C71_playground_apart",
    "C71_nothing_asked"
   ],
   "note": ""
  },
  {
   "property": "C72",
   "status": "proved",
   "theorems": [
    "C72_4x4x4_reachable",
    "C72_4x4x4_solvable",
    "C72_6x6x6_solvable",
    "C72_6x6x6_reachable",
    "C72_stickers_determine"
   ],
   "note": ""
  },
  {
   "property": "C73",
   "status": "proved",
   "theorems": [
    "C73_4x4x4",
    "C73_6x6x6"
   ],
   "note": ""
  },
  {
   "property": "C74",
   "status": "partial",
   "theorems": [
    "C74_7x7x7_solvable_partial",
    "C74_7x7x7_reachable_partial",
    "C74_5x5x5_reachable_partial",
    "C74_5x5x5_solvable_partial",
    "C74_7x7x7_looks_solved_partial",
    "C74_refuted",
    "C74_even_sizes_partial"
   ],
   "note": "False on the 5x5x5 and the 7x7x7: centre edges ignore the depth of a move, so they can never leave the edge piece they start at, and a single slice turn of a real cube gives a position that no word reaches (C74_refuted). True on the 4x4x4 and the 6x6x6 (C74_even_sizes_partial). Proved instead for the 5x5x5 and the 7x7x7: exactly which states are reachable and solvable (laws5 and laws7 of Spec_BigLaws), with the same bound on the number of moves, and which can be turned until is_solved is true."
  },
  {
   "property": "C75",
   "status": "partial",
   "theorems": [
    "C75_exact_partial",
    "C75_number_of_choices",
    "C75_equally_likely_partial",
    "C75_refuted"
   ],
   "note": "False for every length from one on (C75_refuted): a round that draws two moves when only one more fits keeps the first of them, which is always R, U or F, so an alg ending with one of these is four times as likely as the same alg ending with the opposite face, and every pair of neighbours on one axis makes an alg 30 times as likely, because it takes a round less. Proved instead: the exact number of choices behind each outcome (C75_exact_partial, of the number given by C75_number_of_choices), and exactly which outcomes are equally likely (C75_equally_likely_partial). That the generator makes all choices equally likely is an assumption about the rand crate."
  },
  {
   "property": "C76",
   "status": "proved",
   "theorems": [
    "C76_2x2x2",
    "C76_3x3x3",
    "C76_4x4x4",
    "C76_5x5x5",
    "C76_6x6x6",
    "C76_7x7x7",
    "C76_in_digits",
    "C76_taken_apart"
   ],
   "note": ""
  },
  {
   "property": "C77",
   "status": "proved",
   "theorems": [
    "C77_sets_panic_with_their_pieces",
    "C77_face_moves",
    "C77_wide_moves",
    "C77_quarter_turns",
    "C77_non_redundant_moves",
    "C77_algs",
    "C77_pieces",
    "C77_edge_distance",
    "C77_normalized",
    "C77_orientable",
    "C77_extended"
   ],
   "note": ""
  },
  {
   "property": "C78",
   "status": "proved",
   "theorems": [
    "C78_solved_decides",
    "C78_solved_decides_wide",
    "C78_rotated_wide",
    "C78_rotated",
    "C78_pieces"
   ],
   "note": ""
  },
  {
   "property": "C79",
   "status": "proved",
   "theorems": [
    "C79_algs_come_back",
    "C79_wide_algs_come_back",
    "C79_algs_period_exact",
    "C79_wide_algs_period_exact"
   ],
   "note": ""
  },
  {
   "property": "C80",
   "status": "proved",
   "theorems": [
    "C80_same_effect",
    "C80_same_state",
    "C80_small_part",
    "C80_solved_alike"
   ],
   "note": ""
  },
  {
   "property": "C81",
   "status": "proved",
   "theorems": [
    "C81_parity",
    "C81_parity_wide",
    "C81_nothing_is_even"
   ],
   "note": ""
  },
  {
   "property": "C82",
   "status": "proved",
   "theorems": [
    "C82_commute",
    "C82_commute_plain",
    "C82_no_idle_move",
    "C82_distinct",
    "C82_distinct_plain"
   ],
   "note": ""
  },
  {
   "property": "C83",
   "status": "proved",
   "theorems": [
    "C83_rounds",
    "C83_all_occur",
    "C83_most_rounds",
    "C83_most_needed",
    "C83_multiples"
   ],
   "note": ""
  },
  {
   "property": "C84",
   "status": "partial",
   "theorems": [
    "C84_types_agree_refuted",
    "C84_types_agree_partial",
    "C84_small_cubes",
    "C84_depth_0_type",
    "C84_types"
   ],
   "note": "False as stated on Cube4..Cube7 (C84_types_agree_refuted): held in a WideAxisMove<0>, a move of depth 0 is the widest wide move (see C16), in the other types it turns the outer layer. Proved for all types other than WideAxisMove<0>, and what that type does on every size."
  },
  {
   "property": "C85",
   "status": "partial",
   "theorems": [
    "C85_vectors",
    "C85_contains",
    "C85_same_order_refuted",
    "C85_exchanged",
    "C85_same_order_partial",
    "C85_edges",
    "C85_complete"
   ],
   "note": "The claim on the order of the coordinates is false across the y axis (C85_same_order_refuted): slice_coords gives (x, z), map_on_slice and edges use (z, x). Proved across the other axes, with the exchange stated for y; the claims on vectors and faces hold."
  },
  {
   "property": "C86",
   "status": "proved",
   "theorems": [
    "C86_edges",
    "C86_corners",
    "C86_parts",
    "C86_edges_home",
    "C86_corners_home"
   ],
   "note": ""
  },
  {
   "property": "C87",
   "status": "proved",
   "theorems": [
    "C87_wide_rounds",
    "C87_all_occur",
    "C87_most_rounds",
    "C87_most_needed",
    "C87_multiples",
    "C87_small_sizes"
   ],
   "note": ""
  },
  {
   "property": "C88",
   "status": "proved",
   "theorems": [
    "C88_next_axis",
    "C88_twist_turns_colours",
    "C88_orientation_index",
    "C88_back",
    "C88_needed_twists_differ",
    "C88_taken_apart",
    "C88_index_sum"
   ],
   "note": ""
  },
  {
   "property": "C89",
   "status": "proved",
   "theorems": [
    "C89_orientation_face",
    "C89_oriented",
    "C89_flip",
    "C89_flips",
    "C89_turns",
    "C89_direction_on_axis",
    "C89_contains_edge"
   ],
   "note": ""
  },
  {
   "property": "C90",
   "status": "proved",
   "theorems": [
    "C90_around",
    "C90_rotate_vec2",
    "C90_basis",
    "C90_axes",
    "C90_face_index",
    "C90_corner_faces",
    "C90_coords",
    "C90_wing",
    "C90_wings_apart"
   ],
   "note": ""
  },
  {
   "property": "C91",
   "status": "proved",
   "theorems": [
    "C91_text",
    "C91_clock_set_back",
    "C91_at_once",
    "C91_finished",
    "C91_corner_reports",
    "C91_half_edge_reports"
   ],
   "note": ""
  },
  {
   "property": "C92",
   "status": "proved",
   "theorems": [
    "C92_values",
    "C92_look",
    "C92_small",
    "C92_equal_look",
    "C92_big"
   ],
   "note": ""
  },
  {
   "property": "C93",
   "status": "proved",
   "theorems": [
    "C93_same_run",
    "C93_written",
    "C93_loaded",
    "C93_stopped",
    "C93_returns",
    "C93_panics",
    "C93_load_says",
    "C93_lines"
   ],
   "note": ""
  },
  {
   "property": "C94",
   "status": "proved",
   "theorems": [
    "C94_all",
    "C94_same",
    "C94_in_order",
    "C94_successors",
    "C94_successors_differ",
    "C94_successors_symmetric"
   ],
   "note": ""
  },
  {
   "property": "C95",
   "status": "proved",
   "theorems": [
    "C95_answer",
    "C95_nothing_to_remove",
    "C95_one_turn",
    "C95_follow",
    "C95_scramble",
    "C95_reversed_scramble",
    "C95_rotated_scramble",
    "C95_joined_scrambles"
   ],
   "note": ""
  },
  {
   "property": "C96",
   "status": "proved",
   "theorems": [
    "C96_random_outcomes",
    "C96_some_need_18",
    "C96_answers",
    "C96_short_scrambles_miss"
   ],
   "note": ""
  },
  {
   "property": "C97",
   "status": "proved",
   "theorems": [
    "C97_nothing_to_remove",
    "C97_compared",
    "C97_one_turn",
    "C97_follow",
    "C97_rotated",
    "C97_one_more"
   ],
   "note": ""
  },
  {
   "property": "C98",
   "status": "partial",
   "theorems": [
    "C98_entries_right_or_zero_partial",
    "C98_never_overestimates",
    "C98_solutions_optimal",
    "C98_init_without_faults",
    "C98_after_deletion",
    "C98_kept",
    "C98_right_tables_refuted"
   ],
   "note": "False as stated: a file of the right length is taken as it is, so after a loss of power that left only the length, every later init returns a table of zeros and the heuristic is 0 on every cube (C98_right_tables_refuted); such a file is never repaired (C98_kept). Proved instead for every history with losses of power: every entry of a returned table is the right one or 0 (C98_entries_right_or_zero_partial), so the heuristic never overestimates and solutions are still as short as possible; and deleting the files makes everything right again. What a loss of power can leave is an assumption, stated in Spec_Power.v."
  },
  {
   "property": "C99",
   "status": "proved",
   "theorems": [
    "C99_wide_errors",
    "C99_extended_errors",
    "C99_plain_errors",
    "C99_alg_errors",
    "C99_alg_errors_notation",
    "C99_only_these",
    "C99_deep_message",
    "C99_playground"
   ],
   "note": ""
  },
  {
   "property": "C100",
   "status": "proved",
   "theorems": [
    "C100_order",
    "C100_one",
    "C100_search",
    "C100_solver",
    "C100_solve_with_heuristic",
    "C100_same_answer",
    "C100_mus",
    "C100_mus_after_power_loss",
    "C100_mus_shared",
    "C100_zero",
    "C100_cross"
   ],
   "note": ""
  },
  {
   "property": "C101",
   "status": "proved",
   "theorems": [
    "C101_counting",
    "C101_rounds",
    "C101_unsolvable",
    "C101_better",
    "C101_mus",
    "C101_damage_costs"
   ],
   "note": ""
  },
  {
   "property": "C102",
   "status": "proved",
   "theorems": [
    "C102_at_most_eight",
    "C102_eight_needed",
    "C102_work",
    "C102_fast_at_most_eight"
   ],
   "note": ""
  },
  {
   "property": "C103",
   "status": "proved",
   "theorems": [
    "C103_hashes",
    "C103_set_of_cubes",
    "C103_set_of_big_cubes"
   ],
   "note": ""
  },
  {
   "property": "C104",
   "status": "partial",
   "theorems": [
    "C104_refuted",
    "C104_two_partial",
    "C104_held_partial"
   ],
   "note": "False as stated: R L' on a solved Cube2, Cube4 or Cube6 turns the whole cube, after which every face shows one colour but is_solved() is false, since it compares with the solved cube held one way (C104_refuted). Proved instead: a valid cube of even size shows one colour on every face exactly if some turns of the whole cube bring every colour to its own face (C104_held_partial); a valid 2x2x2 does so exactly if it is the solved cube turned as a whole, there are 24 such cubes, and is_solved() holds exactly for the one that shows every colour on its own face (C104_two_partial). How is_solved() of Cube4 and Cube6 compares with that one look is C18."
  },
  {
   "property": "C105",
   "status": "proved",
   "theorems": [
    "C105_shortest",
    "C105_unsolvable",
    "C105_table",
    "C105_search_with_table",
    "C105_corners_of_cube3",
    "C105_random",
    "C105_held"
   ],
   "note": ""
  },
  {
   "property": "C106",
   "status": "proved",
   "theorems": [
    "C106_fewest",
    "C106_unsolvable",
    "C106_mus",
    "C106_compared",
    "C106_parity",
    "C106_one_turn"
   ],
   "note": ""
  },
  {
   "property": "C107",
   "status": "proved",
   "theorems": [
    "C107_fewest",
    "C107_unsolvable",
    "C107_compared",
    "C107_half_of_mus",
    "C107_mus_overestimates",
    "C107_face_turns_not_enough"
   ],
   "note": ""
  },
  {
   "property": "C108",
   "status": "proved",
   "theorems": [
    "C108_plain",
    "C108_plain_none",
    "C108_wide",
    "C108_wide_reachable",
    "C108_wide_none",
    "C108_wide_decides",
    "C108_wide_at_most_plain",
    "C108_outer_turn"
   ],
   "note": ""
  },
  {
   "property": "C109",
   "status": "proved",
   "theorems": [
    "C109_local",
    "C109_shortest_inside",
    "C109_corner_table"
   ],
   "note": ""
  },
  {
   "property": "C110",
   "status": "proved",
   "theorems": [
    "C110_found",
    "C110_none",
    "C110_back",
    "C110_no_moves",
    "C110_detour",
    "C110_before",
    "C110_cube3",
    "C110_cube3_none"
   ],
   "note": ""
  },
  {
   "property": "C111",
   "status": "proved",
   "theorems": [
    "C111_two_searches",
    "C111_cross_first",
    "C111_fast_cross_first",
    "C111_longer"
   ],
   "note": ""
  }
 ]
}
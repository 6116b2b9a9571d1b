{"id": "C01", "title": "Reversed algorithm undoes the algorithm", "statement": "For every cube type Cube2..Cube7, every state of that type and every alg of its move type (AxisMove, WideAxisMove, QuarterAxisMove, NonRedundantAxisMove), applying the alg and then alg.reversed() gives back exactly the starting state.", "quantifier": "all cube types, all states (valid or not), all finite algs", "why_tests_cant": "algs are unbounded sequences and the state spaces are astronomically large (4.3e19 for the 3x3)", "anchors": ["barbarosa/src/generic/alg.rs: Alg::reversed", "barbarosa/src/generic/moves.rs: Move::inverse, Movable", "barbarosa/src/cube_n/moves/mod.rs: AxisMove::inverse", "barbarosa/src/cube_n/moves/wide.rs", "barbarosa/src/cube_n/moves/quarter.rs", "barbarosa/src/cube_n/moves/non_redundant.rs"]}
{"id": "C02", "title": "Turn amounts compose additively", "statement": "Turning one face by amount a and then by amount b has the same effect on every cube as turning it once by a+b (and no effect when a+b is None); two turns on the same axis commute; a single turn has order four.", "quantifier": "all faces, amounts and states of Cube2..Cube7 (same depth for wide moves)", "why_tests_cant": "must hold in every state; tests only check it from a few states", "anchors": ["barbarosa/src/cube_n/moves/amount.rs: Add, Mul", "barbarosa/src/cube_n/moves/mod.rs", "barbarosa/src/cube_n/moves/wide.rs: DepthPieceSet::apply"]}
{"id": "C03", "title": "Piece sets stay valid under every history of moves", "statement": "Starting from SOLVED (or any set accepted by PieceSet::new), after any finite sequence of moves each piece set still has exactly one piece at every position, i.e. validate() returns None.", "quantifier": "all cube types, all finite move histories", "why_tests_cant": "histories are unbounded and moves use the unchecked mutable iterator, so nothing re-validates at run time", "anchors": ["barbarosa/src/generic/piece/set.rs: PieceSet::validate, iter_mut_unchecked, Movable for PieceSet", "barbarosa/src/cube_n/moves/wide.rs: DepthPieceSet::apply"]}
{"id": "C04", "title": "PieceSet::new accepts exactly the duplicate-free arrays", "statement": "PieceSet::new(pieces) is Ok exactly when no two pieces have the same position; on Err the reported position really occurs twice; the accepted set is the given array unchanged.", "quantifier": "all arrays of pieces of every piece type", "why_tests_cant": "there are 24^24 arrays for the larger piece types", "anchors": ["barbarosa/src/generic/piece/set.rs: PieceSet::new, validate, find_duplicates"]}
{"id": "C05", "title": "Piece lookups are mutually inverse", "statement": "In every valid set, original_position_of_piece_at(q)=p exactly when piece_originally_at(p).position()=q, and neither lookup panics for any position; swap(a,b) exchanges exactly the two pieces that started at a and b.", "quantifier": "all valid sets and all positions", "why_tests_cant": "8!, 12!, 24! arrangements", "anchors": ["barbarosa/src/generic/piece/set.rs: piece_originally_at, original_position_of_piece_at, swap"]}
{"id": "C06", "title": "3x3 solvability invariants hold in every reachable state", "statement": "After any sequence of AxisMoves from Cube3::SOLVED: the edge permutation and corner permutation have the same parity, the number of flipped edges is even, and the sum of corner orientation indices is divisible by 3.", "quantifier": "all finite AxisMove histories from solved", "why_tests_cant": "unbounded histories", "anchors": ["barbarosa/src/cube_n/invariants.rs", "barbarosa/src/cube_n/cube3/mod.rs: Movable<AxisMove>", "barbarosa/src/cube_n/pieces/corner.rs: orientation_index", "barbarosa/src/cube_n/pieces/edge.rs"]}
{"id": "C07", "title": "Every invariant-respecting 3x3 state is solvable", "statement": "Every Cube3 whose piece sets are valid and that satisfies the three invariants (equal permutation parities, even flips, twist sum divisible by 3) can be brought to SOLVED by some sequence of AxisMoves, of length at most 200.", "quantifier": "all 4.3e19 invariant-respecting states", "why_tests_cant": "the state space cannot be enumerated", "anchors": ["barbarosa/src/cube_n/invariants.rs: module documentation", "barbarosa/src/cube_n/cube3/mod.rs", "barbarosa/src/cube_n/search.rs: maximum depth 200"]}
{"id": "C08", "title": "Random Cube3 is always solvable", "statement": "rng.gen::<Cube3>() returns, for every possible sequence of RNG outputs, a valid cube that satisfies the three invariants and can therefore be solved by AxisMoves.", "quantifier": "all RNG output sequences", "why_tests_cant": "12!*8!*2^12*3^8 outcomes before fixing", "anchors": ["barbarosa/src/cube_n/cube3/mod.rs: Distribution<Cube3>", "barbarosa/src/cube_n/invariants.rs: fix_swap_parity, swap_cycles, fix_edge_flip_parity, fix_corner_multiplicity"]}
{"id": "C09", "title": "Random Cube2 is valid and can be any 2x2 state", "statement": "rng.gen::<Cube2>() always returns a valid, solvable Cube2, and every solvable Cube2 state is a possible outcome for some RNG.", "quantifier": "all RNG output sequences / all solvable Cube2 states", "why_tests_cant": "a test samples a few outcomes and cannot show that a class of states is never produced", "anchors": ["barbarosa/src/cube_n/cube2/mod.rs: Distribution<Cube2>", "barbarosa/src/cube_n/invariants.rs: fix_corner_multiplicity"]}
{"id": "C10", "title": "swap_cycles measures permutation parity and terminates", "statement": "For every permutation of the pieces the cycle-counting loop terminates and returns the number of cycles minus one, whose parity determines the sign of the permutation; fixing with one swap always makes the edge and corner parities equal.", "quantifier": "all permutations of 8 and of 12 (termination: all arrays)", "why_tests_cant": "12! permutations", "anchors": ["barbarosa/src/cube_n/invariants.rs: swap_cycles, fix_swap_parity"]}
{"id": "C11", "title": "3x3 face turns move the stickers of a physical cube", "statement": "For every state and every AxisMove, the coloured stickers of Cube3 after the move are exactly those obtained by physically rotating the 9 stickers of that face and the 12 adjacent stickers by the given clockwise amount.", "quantifier": "all Cube3 states and all 18 moves (hence all algs)", "why_tests_cant": "a per-state property over 4.3e19 states relating two different representations", "anchors": ["barbarosa/src/cube_n/pieces/corner.rs: Movable", "barbarosa/src/cube_n/pieces/edge.rs: Movable, Rotatable", "barbarosa/src/cube_n/visualization/mod.rs: Colored"]}
{"id": "C12", "title": "The unfolded 3x3 drawing is complete and faithful", "statement": "For every valid Cube3, building Unfolded<3> never panics, every one of the 54 cells shows the physical sticker at that place, each colour is shown exactly 9 times, and two different cubes never give the same drawing.", "quantifier": "all valid Cube3 states", "why_tests_cant": "quantifies over all states and pairs of states", "anchors": ["barbarosa/src/cube_n/visualization/unfolded/mod.rs: Unfolded::from, populate_with, at_mut, indices, transform_coord", "barbarosa/src/cube_n/visualization/mod.rs: Colored"]}
{"id": "C13", "title": "Cube3::is_solved means every face has one colour", "statement": "For every Cube3 reachable from SOLVED, is_solved() holds exactly when each face of the physical cube shows its own colour on all 9 stickers, and exactly when every piece reports is_solved for its original position.", "quantifier": "all reachable Cube3 states", "why_tests_cant": "all states", "anchors": ["barbarosa/src/generic/mod.rs: Cube::is_solved", "barbarosa/src/generic/piece/set.rs: is_solved", "barbarosa/src/cube_n/pieces/corner.rs", "barbarosa/src/cube_n/pieces/edge.rs"]}
{"id": "C14", "title": "Faces, axes and vectors rotate consistently", "statement": "Rotating a Face, an Axis or a direction vector by any AxisRotation agrees with the same clockwise rotation of 3-space; rotating back by inverse() restores it; Face::cross is the right-handed cross product; opposite commutes with rotation.", "quantifier": "all faces, axes, vectors, rotations and finite sequences of rotations", "why_tests_cant": "sequences are unbounded", "anchors": ["barbarosa/src/cube_n/moves/rotation.rs: Rotatable, rotate_vec2", "barbarosa/src/cube_n/space/face.rs: next_around, prev_around, cross", "barbarosa/src/cube_n/space/axis.rs"]}
{"id": "C15", "title": "Wide moves turn exactly the right layers", "statement": "On Cube4..Cube7, applying WideAxisMove of depth d rotates exactly the pieces whose cubie lies in the d+1 outermost layers of that face, each to the cubie it reaches by physical rotation.", "quantifier": "all piece positions of every piece type, all faces, amounts and depths 0..max, hence all states", "why_tests_cant": "per piece type, depth and state; the existing tests compare only a few algs", "anchors": ["barbarosa/src/cube_n/moves/wide.rs: DepthPieceSet::apply", "barbarosa/src/cube_n/pieces/wing.rs: is_in_wide_move, wing_normal_direction", "barbarosa/src/cube_n/pieces/center/corner.rs", "barbarosa/src/cube_n/pieces/center/edge.rs", "barbarosa/src/cube_n/pieces/center/wing.rs"]}
{"id": "C16", "title": "A plain face move equals the depth-0 wide move", "statement": "On Cube4..Cube7, applying AxisMove m gives the same state as applying the WideAxisMove with the same face and amount and depth 0 (only the outer layer turns).", "quantifier": "all states of Cube4..Cube7 and all 18 moves", "why_tests_cant": "all states", "anchors": ["barbarosa/src/cube_n/moves/wide.rs: impl_movable_wide_move_inductively, Movable<WideAxisMove<0>>"]}
{"id": "C17", "title": "Big-cube models track every visible cubie", "statement": "For N=2..7, the piece sets of the N-cube together represent each movable surface cubie of an NxNxN cube exactly once.", "quantifier": "all surface cubies of every size", "why_tests_cant": "a structural completeness claim, not an input/output example", "anchors": ["barbarosa/src/cube_n/cube2/mod.rs", "barbarosa/src/cube_n/cube4/mod.rs", "barbarosa/src/cube_n/cube5/mod.rs", "barbarosa/src/cube_n/cube6/mod.rs", "barbarosa/src/cube_n/cube7/mod.rs"]}
{"id": "C18", "title": "Big-cube is_solved means every face has one colour", "statement": "For every state of Cube4..Cube7 reachable from SOLVED, is_solved() holds exactly when each face of the physical cube shows a single colour, its own.", "quantifier": "all reachable states", "why_tests_cant": "all states; a false positive needs a specific long algorithm", "anchors": ["barbarosa/src/cube_n/cube4/mod.rs: is_solved", "barbarosa/src/cube_n/cube5/mod.rs", "barbarosa/src/cube_n/pieces/center/corner.rs: is_solved", "barbarosa/src/cube_n/pieces/center/edge.rs: is_solved", "barbarosa/src/cube_n/pieces/center/wing.rs: is_solved"]}
{"id": "C19", "title": "normalized() has the same effect and never gets longer", "statement": "For every Alg<AxisMove>, normalized() terminates, its result has the same effect on every cube, and it is not longer than the input.", "quantifier": "all finite algs and all states", "why_tests_cant": "unbounded inputs; termination of a worklist loop that pushes back", "anchors": ["barbarosa/src/cube_n/moves/non_redundant.rs: Alg::normalized, absorve"]}
{"id": "C20", "title": "normalized() removes all obvious redundancies", "statement": "The result of normalized() never contains two consecutive moves of the same face, nor three consecutive moves of one axis, and normalizing again changes nothing.", "quantifier": "all finite algs", "why_tests_cant": "unbounded inputs", "anchors": ["barbarosa/src/cube_n/moves/non_redundant.rs: Alg::normalized"]}
{"id": "C21", "title": "absorve merges a move exactly", "statement": "Whenever absorve(acc, m) does not return NotAdded, the new accumulator has the same effect as doing the old accumulator and m in either order; NotAdded leaves the accumulator unchanged and is returned exactly when the axes differ; Collapsed exactly when a face cancels.", "quantifier": "all accumulators, moves and states", "why_tests_cant": "effect equality ranges over all states", "anchors": ["barbarosa/src/cube_n/moves/non_redundant.rs: absorve"]}
{"id": "C22", "title": "Random algs have exact length and no redundancy", "statement": "Alg::random_with_rng(n, rng) terminates with exactly n moves, and for every RNG no two consecutive moves use the same face and no three consecutive moves the same axis.", "quantifier": "all lengths and all RNG output sequences", "why_tests_cant": "unbounded lengths and arbitrary randomness", "anchors": ["barbarosa/src/cube_n/moves/non_redundant.rs: Alg::random_with_rng, given_last_axis, all, of_axis"]}
{"id": "C23", "title": "Quarter-turn conversion preserves the effect", "statement": "Converting an Alg<AxisMove> to Alg<QuarterAxisMove> has the same effect on every cube, and its length is the number of quarter turns needed.", "quantifier": "all finite algs and all states", "why_tests_cant": "unbounded inputs", "anchors": ["barbarosa/src/cube_n/moves/quarter.rs: From<Alg<AxisMove>>"]}
{"id": "C24", "title": "Move and alg text round-trips", "statement": "For every AxisMove and every Alg<AxisMove>, parse(to_string()) returns the original; an alg also parses to the same moves however it is separated by whitespace.", "quantifier": "all moves, all finite algs, all separators made of Unicode whitespace", "why_tests_cant": "unbounded algs and arbitrary separators", "anchors": ["barbarosa/src/generic/alg.rs: Parsable, Display", "barbarosa/src/cube_n/parser/mod.rs", "barbarosa/src/cube_n/moves/mod.rs: Display"]}
{"id": "C25", "title": "The parser accepts exactly the move notation", "statement": "AxisMove::parse(s) succeeds exactly for the 18 strings face+suffix (suffix empty, 2 or '), AxisRotation and ExtendedAxisMove (and Face, Axis and Amount alone) likewise accept exactly the documented notation, and everything else is rejected with an error, never a panic.", "quantifier": "all strings", "why_tests_cant": "infinitely many strings", "anchors": ["barbarosa/src/grammar/cube_n.pest", "barbarosa/src/cube_n/parser/mod.rs", "barbarosa/src/generic/parse.rs: Parsable::parse"]}
{"id": "C26", "title": "Wide-move text round-trips", "statement": "For every WideAxisMove<N>, WideAxisMove::<N>::parse(to_string()) returns the original move.", "quantifier": "all N, all depths 0..N, faces and amounts", "why_tests_cant": "N ranges over all u32", "anchors": ["barbarosa/src/cube_n/moves/wide.rs: Display", "barbarosa/src/cube_n/parser/mod.rs: FromPest for WideAxisMove", "barbarosa/src/grammar/cube_n.pest"]}
{"id": "C27", "title": "WideAxisMove never exceeds its maximum depth", "statement": "Every WideAxisMove<N> obtainable through the public API (new, set_depth, set_max_depth, inverse, widen, parse, random) has depth at most N, and the constructors fail exactly when the requested depth exceeds N.", "quantifier": "all N, all sequences of API calls, all RNGs", "why_tests_cant": "call histories and N are unbounded; the unchecked transmute relies on it", "anchors": ["barbarosa/src/cube_n/moves/wide.rs: new, set_depth, set_max_depth, Distribution", "barbarosa/src/cube_n/moves/mod.rs: widen", "barbarosa/src/cube_n/parser/mod.rs"]}
{"id": "C28", "title": "IDA* returns a real solution", "statement": "Whenever IDASearcher::search returns Some((alg, c)), applying alg to the start cube gives c and c satisfies the target predicate; Solver::solve's alg really solves the cube. This holds for every heuristic, including inadmissible ones and ones returning NaN.", "quantifier": "all puzzles, targets, heuristics, cost arithmetics, start states and depth limits", "why_tests_cant": "quantifies over arbitrary heuristics and states", "anchors": ["barbarosa/src/generic/search/ida.rs: search, search_impl", "barbarosa/src/generic/search/mod.rs: Solver", "barbarosa/src/cube_n/search.rs"]}
{"id": "C29", "title": "IDA* is optimal and complete for admissible heuristics", "statement": "If the heuristic never overestimates and takes integer values, search returns an alg no longer than any other alg reaching the target, and it does return one whenever some solution has length at most max_depth (plus the initial heuristic value).", "quantifier": "all puzzles with sound successors, all admissible integer heuristics, all start states", "why_tests_cant": "optimality compares against infinitely many other algs", "anchors": ["barbarosa/src/generic/search/ida.rs"]}
{"id": "C30", "title": "IDA* terminates and never revisits a state on its path", "statement": "For non-negative heuristics every call terminates with recursion depth bounded by the cost bound, and the explored path never contains the same state twice.", "quantifier": "all puzzles, heuristics >= 0, start states", "why_tests_cant": "termination over an infinite family of searches", "anchors": ["barbarosa/src/generic/search/ida.rs: search_impl"]}
{"id": "C31", "title": "Corner index is a bijection", "statement": "For corner arrays with distinct positions and twist sum divisible by 3, index() lies in 0..88179840 and from_index(index(c)) = c; for every i below 88179840, from_index(i) does not panic, is such an array, and index(from_index(i)) = i.", "quantifier": "all 88179840 corner states and indices", "why_tests_cant": "too many for unit tests; the lookup table is indexed unchecked", "anchors": ["barbarosa/src/cube_n/cube3/mus/index/mod.rs", "barbarosa/src/cube_n/cube3/mus/index/implementations.rs", "barbarosa/src/cube_n/cube3/mus/deindex/mod.rs", "barbarosa/src/cube_n/cube3/mus/deindex/implementations.rs"]}
{"id": "C32", "title": "Half-edge index is a bijection", "statement": "For arrays of 6 edges with distinct positions, index() lies in 0..42577920 and from_index inverts it; conversely every index below 42577920 decodes without panic to such an array with that index.", "quantifier": "all 42577920 half-edge states and indices", "why_tests_cant": "too many for unit tests", "anchors": ["barbarosa/src/cube_n/cube3/mus/index/mod.rs", "barbarosa/src/cube_n/cube3/mus/deindex/implementations.rs: HalfEdgesMUS"]}
{"id": "C33", "title": "Whole-cube indices round-trip", "statement": "For every valid Cube3 with twist sum divisible by 3, Cube3::from_indices(cube.indices()) == cube without panicking, so distinct such cubes have distinct index triples.", "quantifier": "all such cubes", "why_tests_cant": "4.3e19 states (and more, without the parity constraint)", "anchors": ["barbarosa/src/cube_n/cube3/mus/index/mod.rs: Cube3::indices, adjust_second_edges_for_indexing", "barbarosa/src/cube_n/cube3/mus/deindex/mod.rs: Cube3::from_indices"]}
{"id": "C34", "title": "Unchecked cache lookups stay in bounds", "statement": "For every Cube3 obtainable through the safe public API, the indices used by Cache::get with get_unchecked are smaller than the table lengths, so no out-of-bounds read happens.", "quantifier": "all Cube3 values a safe caller can build", "why_tests_cant": "memory safety for all states", "anchors": ["barbarosa/src/cube_n/cube3/mus/cache/mod.rs: Cache::get", "barbarosa/src/generic/piece/set.rs: iter_mut_unchecked", "barbarosa/src/cube_n/cube3/mus/index/mod.rs"]}
{"id": "C35", "title": "The MUS table builder terminates with exact distances", "statement": "build_partial terminates for both corner and half-edge tables without overflowing the u8 depth, and every entry of the resulting table is exactly the least number of AxisMoves that solves that partial state.", "quantifier": "all 88179840 + 42577920 entries, all solving sequences", "why_tests_cant": "minutes-long computation; exactness compares with all move sequences", "anchors": ["barbarosa/src/cube_n/cube3/mus/cache/generation.rs: build_partial, cache_neighbours_at_depth"]}
{"id": "C36", "title": "The MUS heuristic is admissible", "statement": "With a completely built cache, mus(cube) is at most the length of any alg that solves the cube, changes by at most 1 under any move, and is 0 on a solved cube.", "quantifier": "all valid cubes and all solving algs", "why_tests_cant": "all states and all algs", "anchors": ["barbarosa/src/cube_n/cube3/mus/cache/mod.rs: Cache::get", "barbarosa/src/cube_n/cube3/heuristics/mus.rs: mus", "barbarosa/src/cube_n/cube3/mus/index/mod.rs: adjust_second_edges_for_indexing"]}
{"id": "C37", "title": "solve_with_heuristic(mus) solves every solvable cube optimally", "statement": "For every valid Cube3 satisfying the invariants, cube.solve_with_heuristic(mus) returns Some(alg); alg solves the cube and no shorter alg does.", "quantifier": "all solvable cubes", "why_tests_cant": "4.3e19 states", "anchors": ["barbarosa/src/cube_n/search.rs: solve_with_heuristic", "barbarosa/src/cube_n/cube3/heuristics/mus.rs", "barbarosa/src/generic/search/ida.rs"]}
{"id": "C38", "title": "Cache files are never silently wrong after a crash", "statement": "For every crash point during building and writing the cache files, a later Cache::load or Cache::init either returns tables with the same contents as a fresh build, reports an error, or stops with the corruption panic; it never returns a partial table; and after a crash a later init recovers by itself.", "quantifier": "all crash points, all numbers of bytes persisted, all later calls", "why_tests_cant": "crash points are unbounded and not reachable from unit tests", "anchors": ["barbarosa/src/cube_n/cube3/mus/cache/disk_storage.rs: load_or_build_partial, load_partial, write_partial", "barbarosa/src/cube_n/cube3/mus/cache/generation.rs: build_partial"]}
{"id": "C39", "title": "min_moves_to_solve is the exact edge distance", "statement": "min_moves_to_solve(p, e) equals the least number of AxisMoves that brings edge e to position p correctly oriented; in particular it is between 0 and 3.", "quantifier": "all edges, target positions and move sequences", "why_tests_cant": "exactness compares with all move sequences", "anchors": ["barbarosa/src/cube_n/pieces/edge.rs: min_moves_to_solve"]}
{"id": "C40", "title": "The admissible cross heuristic is admissible and solve_cross is optimal", "statement": "worse_but_admissable_cross_heuristic never exceeds the length of any alg that solves the cross; for every valid Cube3 and face, solve_cross returns Some((alg, c)) where alg leads to c, c has all 4 cross edges solved and no shorter alg solves the cross.", "quantifier": "all valid cubes, faces and algs", "why_tests_cant": "all states and algs", "anchors": ["barbarosa/src/cube_n/cube3/cfop/cross.rs: solve_cross, worse_but_admissable_cross_heuristic, count_cross_pieces"]}
{"id": "C41", "title": "solve_cross_fast always returns a solved cross", "statement": "For every valid Cube3 and face, solve_cross_fast returns Some((alg, c)) with alg leading to c and the four cross edges solved in c. It usually, but not always, gives the shortest cross: its alg is never more than one move longer than the shortest, and for every face there is a cube for which it is one move longer.", "quantifier": "all valid cubes and faces", "why_tests_cant": "all states", "anchors": ["barbarosa/src/cube_n/cube3/cfop/cross.rs: solve_cross_fast, good_cross_heuristic"]}
{"id": "C42", "title": "Cross piece helpers agree", "statement": "get_cross_pieces(f) lists exactly the 4 positions for which is_cross_edge(.., f) holds, without repetition; count_cross_pieces is between 0 and 4 and equals 4 exactly when the four cross edges of that face are solved.", "quantifier": "all faces and all cubes", "why_tests_cant": "all states", "anchors": ["barbarosa/src/cube_n/cube3/cfop/cross.rs: get_cross_pieces, is_cross_edge, count_cross_pieces"]}
{"id": "C43", "title": "The manhattan heuristic never overestimates", "statement": "manhattan(cube) is at most the length of any alg that solves the cube (so searching with it gives shortest solutions).", "quantifier": "all cubes and solving algs", "why_tests_cant": "all states and algs", "anchors": ["barbarosa/src/cube_n/cube3/heuristics/manhattan.rs: manhattan"]}
{"id": "C44", "title": "connect and try_from_states recover the moves played", "statement": "For every valid Cube2 or Cube3 state and move m, connect(c, c.moved(m)) = Some(m); connect returns None exactly when no move connects; try_from_states on the list of states visited by an alg returns exactly that alg, and fails on any list with an unconnected pair.", "quantifier": "all valid states and all finite algs", "why_tests_cant": "uniqueness of the connecting move in all states; unbounded histories", "anchors": ["barbarosa/src/generic/moves.rs: connect", "barbarosa/src/generic/alg.rs: try_from_states", "barbarosa/src/cube_n/moves/mod.rs: AxisMove::all"]}
{"id": "C45", "title": "Orientation tracks whole-cube rotations", "statement": "After any sequence of rotations, an Orientable's orientation says where the original R and U faces are; rotating never panics; rotations() is a sequence of rotations that takes the default orientation to the current one.", "quantifier": "all sequences of rotations (all 24 orientations)", "why_tests_cant": "unbounded sequences", "anchors": ["barbarosa/src/cube_n/orientable/orientation.rs: rotate, rotations, connecting_rotation, connecting_rotation_with_face"]}
{"id": "C46", "title": "Moves on a rotated Orientable act on the face the user sees", "statement": "On Orientable<Cube3> (and other sizes), after any rotations a face move turns the face currently in that place, a slice move turns the middle slice, and a wide move turns the right layers, so the physical view of the cube changes exactly as the notation says.", "quantifier": "all reachable Orientable states and all extended moves", "why_tests_cant": "all states and move histories", "anchors": ["barbarosa/src/cube_n/orientable/mod.rs: Movable", "barbarosa/src/cube_n/moves/extended.rs: impl_movable_extended"]}
{"id": "C47", "title": "Extended moves never panic", "statement": "Applying any ExtendedAxisMove (in particular any move the parser can produce) to Orientable<Cube2..Cube7> does not panic.", "quantifier": "all extended moves, depths and states", "why_tests_cant": "depth is an arbitrary u32", "anchors": ["barbarosa/src/cube_n/moves/extended.rs: impl_movable_extended, opposite"]}
{"id": "C48", "title": "Extended moves are undone by their inverse", "statement": "For every Orientable<CubeN> state and every extended alg that runs without panic, running alg and then alg.reversed() restores the state, orientation included.", "quantifier": "all states, all extended algs", "why_tests_cant": "unbounded algs", "anchors": ["barbarosa/src/cube_n/moves/extended.rs: inverse, impl_movable_extended", "barbarosa/src/generic/alg.rs: reversed"]}
{"id": "C49", "title": "Playground never changes the cube on bad input", "statement": "In the playground loop, a line that does not parse leaves the cube unchanged and the loop continues; a line that parses is applied as a whole.", "quantifier": "all input lines and cube states", "why_tests_cant": "all inputs", "anchors": ["barbarosa/src/main.rs: playground_3x3", "barbarosa/src/generic/alg.rs: Parsable for Alg"]}
{"id": "C50", "title": "factorial is exact below its limit", "statement": "factorial(n) = n! for n <= 20 without overflowing 64 bits, and 0 for larger n.", "quantifier": "all n", "why_tests_cant": "all inputs", "anchors": ["barbarosa/src/cube_n/cube3/mus/index/mod.rs: factorial"]}
{"id": "C51", "title": "Named algorithms do what their documentation says in every state", "statement": "In every cube state: SEXY_MOVE applied 6 times, T twice and J twice and U three times have no effect; T swaps the pieces in the documented slots and leaves everything else in place.", "quantifier": "all states", "why_tests_cant": "effect must hold from every state, not only from solved", "anchors": ["barbarosa/src/cube_n/moves/perms.rs: SEXY_MOVE, pll::T, pll::U, pll::J"]}
{"id": "C52", "title": "Processes that share the cache directory never get an overestimating table", "statement": "Any number of processes may call Cache::init or load at the same time, crash, and be started again, and files may be deleted: every table a call returns has the right length, and the heuristic computed from it never overestimates, so solve_with_heuristic(mus) stays optimal.", "quantifier": "all interleavings of the system calls of any number of processes, all crash points, all histories", "why_tests_cant": "schedules and crash points", "anchors": ["barbarosa/src/cube_n/cube3/mus/cache/disk_storage.rs: load_or_build_partial, load_partial, write_partial", "barbarosa/src/cube_n/cube3/mus/cache/mod.rs: init, load"]}
{"id": "C53", "title": "Processes that share the cache directory get complete tables", "statement": "Under the same conditions every table a call returns is complete: every entry is the exact distance of its state.", "quantifier": "all interleavings of the system calls of any number of processes, all crash points, all histories", "why_tests_cant": "schedules and crash points", "anchors": ["barbarosa/src/cube_n/cube3/mus/cache/disk_storage.rs: load_or_build_partial, load_partial, write_partial", "barbarosa/src/cube_n/cube3/mus/cache/mod.rs: init, load"]}
{"id": "C54", "title": "Random Cube3 is uniform over the solvable cubes", "statement": "rng.gen::<Cube3>() gives every solvable cube with the same probability and nothing else: if all choices of the generator are equally likely, each of the 43252003274489856000 solvable cubes comes from the same number of choices.", "quantifier": "all solvable cubes and all choices of the generator", "why_tests_cant": "4.3e19 cubes; a test can only sample", "anchors": ["barbarosa/src/cube_n/cube3/mod.rs: Distribution<Cube3>", "barbarosa/src/cube_n/invariants.rs: fix_swap_parity, fix_edge_flip_parity, fix_corner_multiplicity", "barbarosa/src/generic/piece/set.rs: shuffle"]}
{"id": "C55", "title": "Random algs are exactly the irredundant algs in canonical order", "statement": "Alg::<AxisMove>::random(n) can produce exactly the algs of n moves with no repeated face, no three moves in a row on one axis, and the positive face first when two neighbours share an axis; every irredundant alg has the same effect on every cube as one of them.", "quantifier": "all lengths and all choices of the generator", "why_tests_cant": "the set of outcomes is exponential in n", "anchors": ["barbarosa/src/cube_n/moves/non_redundant.rs: random_with_rng, given_last_axis, of_axis, all"]}
{"id": "C56", "title": "The printed cube is a faithful net", "statement": "Printing a valid Cube3 never fails and shows the net U / L F R / D / B: every sticker is at its place in its colour, nothing else is coloured, and with six different colours (as in the default scheme) different cubes print differently. The default scheme has the usual colours: U white, D yellow, F green, B blue, R red, L orange.", "quantifier": "all valid cubes and all colour schemes", "why_tests_cant": "4.3e19 cubes", "anchors": ["barbarosa/src/cube_n/visualization/mod.rs: Color::write, Colorscheme, Display for Cube3", "barbarosa/src/cube_n/visualization/unfolded/mod.rs: write"]}
{"id": "C57", "title": "Square::at returns the closest cell", "statement": "For a square of any size N and any point, Square::at returns the cell of the face whose centre is closest to the point (None only outside).", "quantifier": "all sizes and all points", "why_tests_cant": "continuous input", "anchors": ["barbarosa/src/cube_n/visualization/unfolded/mod.rs: Square::at, indices, transform_coord"]}
{"id": "C58", "title": "Wide moves keep to their maximum depth and survive conversion", "statement": "WideAxisMove::<N>::new, widen, set_depth, set_max_depth and Alg::widen succeed exactly if the depth is at most N and give the move asked for; no WideAxisMove<N> built through the API has a depth above N; converting one to an ExtendedAxisMove never panics and the extended move does the same to the cube.", "quantifier": "all moves, depths, limits, and sequences of API calls", "why_tests_cant": "depths and limits are u32; the invariant is over all histories", "anchors": ["barbarosa/src/cube_n/moves/wide.rs: WideAxisMove, Alg::widen", "barbarosa/src/cube_n/moves/mod.rs: widen", "barbarosa/src/cube_n/moves/extended.rs: From<WideAxisMove<N>>"]}
{"id": "C59", "title": "random_unnormalized can produce every alg of the length", "statement": "Alg::random_unnormalized(n) never panics and its outcomes are exactly the algs of n moves (for WideAxisMove<N>: with depths at most N), each from exactly one sequence of choices, so that a fair generator gives them equally often.", "quantifier": "all lengths, limits and choices of the generator", "why_tests_cant": "unbounded", "anchors": ["barbarosa/src/generic/alg.rs: random_unnormalized_with_rng", "barbarosa/src/cube_n/moves/wide.rs: Distribution<WideAxisMove<N>>"]}
{"id": "C60", "title": "Edge::try_from gives the edge between two faces", "statement": "Edge::try_from([a, b]) fails exactly if the faces are parallel, otherwise it is the oriented edge at the place where a and b meet; the order of the faces does not matter and every oriented edge is obtained from its faces().", "quantifier": "all pairs of faces, all edges", "why_tests_cant": "the tests try a few pairs", "anchors": ["barbarosa/src/cube_n/pieces/edge.rs: TryFrom<[Face; 2]>, position_from_faces, faces"]}
{"id": "C61", "title": "Threads share one move-count cache, initialised once", "statement": "However any number of threads interleave get and get_or_init on the global cache, and whichever initialisations panic: at most one cache is ever stored and it is one that the initialiser returned, at most one thread initialises at a time, get answers None exactly until a cache is stored, every other answer is the one the stored cache gives, so all answers about a cube agree, and every waiting get_or_init can still be answered, also after panics.", "quantifier": "all numbers of threads, interleavings, cubes, and panics of the initialiser", "why_tests_cant": "schedules; the tests use one thread", "anchors": ["barbarosa/src/cube_n/cube3/mus/cache/mod.rs: CACHE_LOCK, get_or_init, get", "barbarosa/src/cube_n/cube3/heuristics/mus.rs"]}
{"id": "C62", "title": "Searches stay correct and optimal when the heuristic changes while they run", "statement": "A solution returned by the search is a solution, whatever values the heuristic returned at its calls and even if it depends on when it is called. If all its answers are between 0 and the length of every solution, the search finds a shortest solution; so searching with mus_with_fallback and an admissible fallback gives a shortest solution also when another thread fills the cache in the middle of the search.", "quantifier": "all histories of heuristic answers, all moments at which the cache appears, all caches that several processes sharing the directory can produce, all solvable cubes", "why_tests_cant": "the cache appears at an arbitrary call among millions", "anchors": ["barbarosa/src/cube_n/cube3/heuristics/mus.rs: mus_with_fallback", "barbarosa/src/generic/search/ida.rs", "barbarosa/src/cube_n/search.rs: solve_with_heuristic"]}
{"id": "C63", "title": "The non-redundant moves list every turn of parallel faces once", "statement": "NonRedundantAxisMove::all(), of_axis(a) and given_last_axis(a) list all 45, the 15 of the axis and the 30 of the other axes, without repetition; two different ones never have the same effect on any valid cube and none leaves it unchanged; any sequence of turns on one axis does nothing or the same as exactly one of them; and every alg has the effect of a sequence of them, no longer than the alg, in which the axis changes at every step.", "quantifier": "all axes, algs, cube sizes and valid cubes", "why_tests_cant": "algs are unbounded; distinct effects in every state", "anchors": ["barbarosa/src/cube_n/moves/non_redundant.rs: all, of_axis, given_last_axis, Movable"]}
{"id": "C64", "title": "Wings, centre edges and centre wings made from faces are where the faces say", "statement": "Wing::try_from_faces([a, b], d) and CenterEdge::try_from_faces(a, b) fail exactly if the faces are parallel, never panic, and otherwise give the piece at that place: for a wing the one on the edge of a and b displaced in direction d, for a centre edge the one on a displaced towards b; CenterWing::new likewise. Every wing, centre edge and centre wing is obtained, from its own faces and directions.", "quantifier": "all faces and directions, cubes of every size, every depth", "why_tests_cant": "the place depends on the size of the cube and the depth of the set", "anchors": ["barbarosa/src/cube_n/pieces/wing.rs: try_from_faces, new", "barbarosa/src/cube_n/pieces/center/edge.rs: try_from_faces", "barbarosa/src/cube_n/pieces/center/wing.rs: new"]}
{"id": "C65", "title": "The debug text of a piece identifies it", "statement": "The Debug texts of two different faces, colours, edges, corners, wings or centre wings differ, and the face letters in the text of an edge, corner or wing are exactly those of the faces of the cube that the piece is on (for a centre wing: the text gives its main face, side face and normal direction).", "quantifier": "all pieces, cubes of every size, every depth", "why_tests_cant": "all pairs of pieces", "anchors": ["barbarosa/src/cube_n/space/face.rs: Debug", "barbarosa/src/cube_n/visualization/mod.rs: Debug for Color", "barbarosa/src/cube_n/pieces/edge.rs: Debug", "barbarosa/src/cube_n/pieces/corner.rs: Debug", "barbarosa/src/cube_n/pieces/wing.rs: Debug", "barbarosa/src/cube_n/pieces/center/wing.rs: Debug"]}
{"id": "C66", "title": "Progress reports do not disturb the building of a table", "statement": "Building a move-count table with its progress reports (count, percentage, rate and estimated time left, from the wall clock) gives the same table as without them, and panics only if that would, whatever the clock shows at each report.", "quantifier": "all tables up to the size of the corner table, all clocks, also ones that stand still or are set back", "why_tests_cant": "depends on the wall clock at each report; the tests do not build the tables", "anchors": ["barbarosa/src/cube_n/cube3/mus/cache/generation.rs: Stats::new, percent_cached, build_partial"]}
{"id": "C67", "title": "All kinds of face moves agree on an orientable cube", "statement": "On every Orientable cube in every orientation, face moves never panic and never change how it is held; an alg, its normalised form, its quarter turns, its depth-0 wide moves, a grouping into non-redundant moves and its extended form all have the same effect; each is undone by its reverse; and connect and try_from_states recover the alg from the states.", "quantifier": "all cube sizes, orientable states and algs of any length", "why_tests_cant": "needs every orientation and every alg; the tests apply a few moves to a solved cube", "anchors": ["barbarosa/src/cube_n/orientable/mod.rs: Movable<M> for Orientable", "barbarosa/src/cube_n/moves/quarter.rs: Movable<QuarterAxisMove>", "barbarosa/src/cube_n/moves/wide.rs: Movable<WideAxisMove<0>>", "barbarosa/src/cube_n/moves/non_redundant.rs: Movable<NonRedundantAxisMove>", "barbarosa/src/generic/moves.rs: connect"]}
{"id": "C68", "title": "is_solved of an orientable cube does not depend on how it is held", "statement": "Orientable::is_solved() holds exactly if the cube looks solved: stickers that face the same way have the same colour.", "quantifier": "all cube sizes, valid cube states and orientations", "why_tests_cant": "a statement about every orientation and every state", "anchors": ["barbarosa/src/cube_n/orientable/mod.rs: Cube for Orientable", "barbarosa/src/generic/mod.rs: Cube::is_solved"]}
{"id": "C69", "title": "No line typed into the playground crashes it", "statement": "Whatever lines are typed into the interactive playground, it answers each with a picture or with an error message and goes on to the next line, until the end of the input.", "quantifier": "all inputs: any number of lines of any text, and failing reads", "why_tests_cant": "quantifies over all texts and over what was typed before; the tests never start the playground", "anchors": ["barbarosa/src/main.rs: playground_3x3, playground_loop", "barbarosa/src/cube_n/moves/extended.rs: Movable for Orientable"]}
{"id": "C70", "title": "The playground shows the cube as the user holds it", "statement": "After every line that is an algorithm the playground shows the cube reached by everything entered so far, so that two sessions that end with the same picture end with cubes that look the same to the person holding them.", "quantifier": "all pairs of inputs", "why_tests_cant": "quantifies over all sessions; the tests never look at what is shown", "anchors": ["barbarosa/src/main.rs: playground_3x3, playground_loop", "barbarosa/src/cube_n/visualization/mod.rs: Display for Cube3"]}
{"id": "C71", "title": "The command line options do what they say", "statement": "With --build-mus-cache the program either panics or leaves tables on the disk that a later load accepts (complete ones if nothing else wrote there); the playground neither reads nor changes the disk and starts unless building the cache failed; without options nothing happens.", "quantifier": "all combinations of the options, all disks, all faults of the file system, all inputs", "why_tests_cant": "quantifies over disks and faults; the program's main function is never tested", "anchors": ["barbarosa/src/main.rs: main, CliArgs", "barbarosa/src/cube_n/cube3/mus/cache/mod.rs: Cache::init"]}
{"id": "C72", "title": "Exactly the law-abiding 4x4x4 and 6x6x6 states are reachable, and all of them can be solved", "statement": "Turning a solved 4x4x4 or 6x6x6 with wide moves reaches exactly the well-formed states whose corner twists add up to a multiple of three, whose centre corners are rearranged evenly just when the corners are, and (6x6x6) whose centre wings stay at places of their own hand and are rearranged evenly just when corners and both rings of wings together are; wings are not restricted at all. Each such state can be turned back into the solved cube by fewer than 5424 wide moves that fit the cube.", "quantifier": "all states of the 4x4x4 and the 6x6x6, all words of wide moves", "why_tests_cant": "quantifies over more than 10^45 states; tests can only replay a few scrambles", "anchors": ["barbarosa/src/cube_n/cube4/mod.rs: Cube4", "barbarosa/src/cube_n/cube6/mod.rs: Cube6", "barbarosa/src/cube_n/pieces/wing.rs: is_in_wide_move; pieces/center/*.rs: is_in_wide_move"]}
{"id": "C73", "title": "A 4x4x4 or 6x6x6 put together at random can be turned until is_solved says so", "statement": "Take a 4x4x4 apart and put its pieces back anyhow: it can be turned until is_solved is true exactly if the corner twists add up to a multiple of three. For the 6x6x6 it is needed and enough that moreover, of the eight centre wings of each colour, four are at right-handed and four at left-handed places.", "quantifier": "all well-formed states of the 4x4x4 and the 6x6x6", "why_tests_cant": "quantifies over all ways of assembling the cube", "anchors": ["barbarosa/src/cube_n/cube4/mod.rs: Cube4", "barbarosa/src/cube_n/cube6/mod.rs: Cube6", "barbarosa/src/generic/mod.rs: Cube::is_solved"]}
{"id": "C74", "title": "Everything a real cube can be turned into, the cube of this library can be turned into", "statement": "If real layers are turned by wide moves that fit the cube, starting with the solved cube, there is a word of wide moves that makes the library's cube look the same piece by piece.", "quantifier": "all words of wide moves on the 4x4x4 to the 7x7x7", "why_tests_cant": "quantifies over all words and asks for the absence of any word, which no test can show", "anchors": ["barbarosa/src/cube_n/cube5/mod.rs: Cube5", "barbarosa/src/cube_n/cube7/mod.rs: Cube7", "barbarosa/src/cube_n/pieces/center/edge.rs: is_in_wide_move"]}
{"id": "C75", "title": "All outcomes of Alg::random are equally likely", "statement": "Given a fair generator, Alg::random(n) gives every alg it can give (C55) with the same probability.", "quantifier": "all lengths, all sequences of choices the generator may make, all outcomes", "why_tests_cant": "quantifies over all lengths and compares the sizes of sets of choices that grow like 30^n; a statistical test sees only short algs and large differences", "anchors": ["barbarosa/src/cube_n/moves/non_redundant.rs: Alg::random_with_rng, Alg::random, NonRedundantMove::given_last_axis"]}
{"id": "C76", "title": "How many states each cube has", "statement": "Turning a solved cube reaches exactly 8!*3^7 states of the 2x2x2 and 12!*2^11*8!*3^7/2 of the 3x3x3. With every piece told apart it is 8!*3^7*24!*(24!/2) for the 4x4x4, the 3x3x3 number times 24!/2 for this library's 5x5x5, and 8!*3^7 or the 3x3x3 number times (24!)^2*(24!/2)^4 for its 6x6x6 and 7x7x7. A 2x2x2, 3x3x3 or 4x4x4 put together anyhow can be solved in one case out of 3, 12 or 6.", "quantifier": "all reachable states of the 2x2x2 to the 7x7x7, all words of wide moves", "why_tests_cant": "counts up to 10^162 states", "anchors": ["barbarosa/src/cube_n/cube2/mod.rs: Cube2", "barbarosa/src/cube_n/cube3/mod.rs: Cube3", "barbarosa/src/cube_n/cube4/mod.rs: Cube4", "barbarosa/src/cube_n/cube5/mod.rs: Cube5", "barbarosa/src/cube_n/cube6/mod.rs: Cube6", "barbarosa/src/cube_n/cube7/mod.rs: Cube7"]}
{"id": "C77", "title": "Turning a cube never panics", "statement": "No unreachable!, expect, unwrap, assert or debug_assert on the way of a move can fail: applying any face move, wide move, quarter turn, non-redundant move or alg of these to any Cube2..Cube7 returns normally, also when the cube is not one that can be reached; the same holds for turning single pieces, for the number of moves an edge needs, for Alg::normalized, and for face moves on an Orientable held in any way.", "quantifier": "all cube sizes, all cubes (valid or not), all moves, depths and algs of any length, all orientations", "why_tests_cant": "each check would have to be tried with every piece in every place under every move; tests run a few algs on solved cubes", "anchors": ["barbarosa/src/cube_n/pieces/edge.rs: Edge::rotate, position_from_faces, direction_on_axis, min_moves_to_solve", "barbarosa/src/cube_n/space/face.rs: Face::contains_edge", "barbarosa/src/cube_n/space/axis.rs: Axis::get_handedness", "barbarosa/src/cube_n/pieces/center/edge.rs: rotate, side_face, normal_axis", "barbarosa/src/cube_n/pieces/center/wing.rs: is_in_wide_move", "barbarosa/src/cube_n/moves/wide.rs: impl_movable_wide_move_inductively", "barbarosa/src/cube_n/moves/amount.rs: Amount::add"]}
{"id": "C78", "title": "What an alg does to the solved cube decides what it does to every cube, from whichever side", "statement": "Two algs that turn the solved cube into the same state turn every cube into the same state, and they still do after both have been rotated by the same rotation (and only if they did before). Rotating a piece and a move together rotates the result of the move.", "quantifier": "all cube sizes, all cubes, all pairs of algs of plain or wide moves of any length, all rotations; all pieces in all places", "why_tests_cant": "two algs can be compared on a few cubes and in one direction only; agreement on those says nothing about the other cubes and directions", "anchors": ["barbarosa/src/cube_n/moves/rotation.rs: Rotatable for AxisMove, Rotatable for Alg<AxisMove>", "barbarosa/src/generic/moves.rs: Movable", "barbarosa/src/cube_n/moves/wide.rs: WideAxisMove", "barbarosa/src/cube_n/pieces: Corner, Edge, Wing, CenterCorner, CenterEdge, CenterWing: rotate, is_in_wide_move"]}
{"id": "C79", "title": "Every alg repeated often enough does nothing", "statement": "Doing any alg of plain moves 2520 times (Cube2, Cube4, Cube6) or 55440 times (Cube3, Cube5, Cube7) leaves every cube as it was; for algs of wide moves it is 2520 times (Cube2), 55440 (Cube3), 5354228880 (Cube4..Cube7). Only the multiples of these numbers work for all algs.", "quantifier": "all cube sizes, all cubes, all algs of any length, all numbers of repetitions", "why_tests_cant": "there are infinitely many algs, and the numbers of repetitions are far beyond what a test can run on a big cube", "anchors": ["barbarosa/src/generic/moves.rs: Movable::apply", "barbarosa/src/generic/alg.rs: Alg", "barbarosa/src/cube_n/moves/wide.rs: Movable for DepthPieceSet, impl_movable_wide_move_inductively"]}
{"id": "C80", "title": "Plain moves treat a big cube like a small one", "statement": "Since a plain AxisMove on Cube4..Cube7 turns all layers up to the middle, two algs of plain moves have the same effect on Cube4 or Cube6 exactly when they have on Cube2, and on Cube5 or Cube7 exactly when they have on Cube3; the corners (and edges) move as those of the small cube; and an alg solves (is_solved) the big cube exactly when it solves the small one.", "quantifier": "Cube4 to Cube7, all algs of plain moves of any length, all cubes", "why_tests_cant": "it is a statement about all pairs of algs; tests compare a few states", "anchors": ["barbarosa/src/cube_n/moves/wide.rs: impl_movable_wide_move_inductively", "barbarosa/src/cube_n/cube4/mod.rs: Cube4", "barbarosa/src/cube_n/cube5/mod.rs: Cube5", "barbarosa/src/cube_n/cube6/mod.rs: Cube6", "barbarosa/src/cube_n/cube7/mod.rs: Cube7"]}
{"id": "C81", "title": "Algs with the same effect have the same parity of quarter turns", "statement": "If two algs turn some valid cube into the same state, the numbers of quarter turns in them (1 for a clockwise turn, 2 for a half turn, 3 for a counter-clockwise turn) are both even or both odd; an alg that does nothing has an even number.", "quantifier": "all cube sizes, all valid cubes, all pairs of algs of plain or wide moves of any length", "why_tests_cant": "needs every pair of algs with the same effect", "anchors": ["barbarosa/src/generic/moves.rs: Movable", "barbarosa/src/cube_n/moves/amount.rs: Amount", "barbarosa/src/cube_n/cube2/mod.rs: Movable for Cube2"]}
{"id": "C82", "title": "Different moves do different things, and only moves about one axis commute", "statement": "On every valid cube every move changes the state, two different moves (of wide moves: those that fit the cube) lead to different states, and two moves done in either order give the same state exactly when they turn about the same axis.", "quantifier": "all cube sizes, all valid cubes, all pairs of plain moves, all pairs of wide moves of any depth", "why_tests_cant": "it must hold from every one of the states of the cube (more than 10^19 already for the 3x3x3)", "anchors": ["barbarosa/src/cube_n/moves/mod.rs: AxisMove", "barbarosa/src/cube_n/moves/wide.rs: WideAxisMove", "barbarosa/src/cube_n/cube3/mod.rs: Cube3::successors"]}
{"id": "C83", "title": "How often an alg has to be repeated until the cube is back", "statement": "Every alg of plain moves brings every valid cube back to where it was for the first time after the same number of rounds, which is one of 73 numbers on Cube3, Cube5 and Cube7 (at most 1260) and one of 17 numbers on Cube2, Cube4 and Cube6 (at most 45); each of these numbers is that of some alg, and later the cube is back exactly after the multiples.", "quantifier": "all cube sizes, all valid cubes, all algs of plain moves of any length", "why_tests_cant": "there are infinitely many algs and more than 10^19 states; sampling can neither exclude a 74th number nor a longer period", "anchors": ["barbarosa/src/generic/moves.rs: Movable::apply", "barbarosa/src/generic/alg.rs: Alg", "barbarosa/src/cube_n/pieces/corner.rs: Corner::rotate", "barbarosa/src/cube_n/pieces/edge.rs: Edge::rotate", "barbarosa/src/cube_n/moves/wide.rs: impl_movable_wide_move_inductively"]}
{"id": "C84", "title": "A wide move does the same in every type it can be held in", "statement": "Converting a wide move with set_max_depth to another of the types WideAxisMove<k> the cube accepts does not change what applying it does.", "quantifier": "all cube sizes, all pairs of accepted types, all wide moves that fit both, all states", "why_tests_cant": "the implementations are generated by a macro per size and type; tests apply only one type per size", "anchors": ["barbarosa/src/cube_n/moves/wide.rs: impl_movable_wide_move_inductively, Movable<WideAxisMove<0>>, WideAxisMove::set_max_depth", "barbarosa/src/cube_n/cube6/mod.rs", "barbarosa/src/cube_n/cube7/mod.rs"]}
{"id": "C85", "title": "Vectors of faces and axes, and the coordinates of a slice", "statement": "The vector of a face is its outward normal, whichever conversion makes it, and a face contains exactly the corner directions on its side; slice_coords of a vector reads the two coordinates across the normal in the order in which map_on_slice and the slice positions of edges use them.", "quantifier": "all faces, axes, vectors and functions on the slice", "why_tests_cant": "the order of the two coordinates is a convention kept in three places; a test on one axis does not see the others", "anchors": ["barbarosa/src/generic/utils.rs: slice_coords", "barbarosa/src/cube_n/space/axis.rs: Axis::map_on_slice, From<&Axis>", "barbarosa/src/cube_n/space/face.rs: From<&Face>, Face::coords, Face::contains_vector"]}
{"id": "C86", "title": "The manhattan distance of some of the pieces", "statement": "manhattan_filtered is exactly the sum of the taxicab distances from home of the pieces the filter keeps, without rounding; it is zero exactly when all of these are at home; the parts of a set kept and left out add up, and together give manhattan.", "quantifier": "all filters, all edge and corner sets (valid or not)", "why_tests_cant": "filters are arbitrary functions and the sums are in floating point, so a test can only sample them", "anchors": ["barbarosa/src/cube_n/cube3/heuristics/manhattan.rs: manhattan_filtered, manhattan, piece_set_manhattan, vec_manhattan"]}
{"id": "C87", "title": "How often an alg of wide moves has to be repeated until the cube is back", "statement": "Every alg of wide moves brings every valid cube back for the first time after the same number of rounds; the numbers that occur are exactly the divisors of 5354228880 on Cube6 and Cube7, of one of 47 numbers on Cube4 (the largest is 765765), of one of 24 on Cube5 (180180), and those of plain moves on Cube2 and Cube3; later the cube is back exactly after the multiples.", "quantifier": "all cube sizes, all valid cubes, all algs of wide moves of any length and any depth", "why_tests_cant": "a single run takes up to five thousand million rounds, and there are infinitely many algs", "anchors": ["barbarosa/src/cube_n/moves/wide.rs: WideAxisMove, impl_movable_wide_move_inductively", "barbarosa/src/generic/alg.rs: Alg", "barbarosa/src/cube_n/pieces/wing.rs: Wing", "barbarosa/src/cube_n/pieces/center/corner.rs: CenterCorner", "barbarosa/src/cube_n/pieces/center/wing.rs: CenterWing", "barbarosa/src/cube_n/pieces/center/edge.rs: CenterEdge"]}
{"id": "C88", "title": "Twisting corners, and the corner orientation index", "statement": "Corner::twist and Corner::next_axis are a third of a turn counter-clockwise seen from outside the cube: the corner stays and each of its three colours moves to the next face. orientation_index is the number of such twists that lead from the oriented corner to the given one, is below 3, and is 0 exactly for oriented corners. A reached 3x3x3 whose corners are twisted and edges flipped by hand can be solved again exactly if the number of twists is divisible by three and the number of flips is even. A turn changes the sum of all orientation indices by -6, -3, 0, 3 or 6.", "quantifier": "all corners and homes, all reachable cubes, all numbers of twists of each corner and flips of each edge, all turns", "why_tests_cant": "the author leaves the meaning of orientation_index open in a TODO; the claim on solvability ranges over every reachable state and every way to take it apart", "anchors": ["barbarosa/src/cube_n/pieces/corner.rs: Corner::twist, Corner::next_axis, Corner::orientation_index, Corner::is_oriented", "barbarosa/src/cube_n/invariants.rs: module documentation", "barbarosa/src/cube_n/visualization/mod.rs: Colored for Corner"]}
{"id": "C89", "title": "What the orientation of an edge means", "statement": "orientation_face is the U or D face of an edge that has one and the F or B face of the others, non_orientation_face the remaining face. An edge is oriented exactly if the colour of its home's orientation face shows on the orientation face of its place; flip exchanges its two colours; a rotation changes the orientation exactly if it carries the orientation sticker to the other face; of the turns only F, F', B, B' do. direction_on_axis and contains_edge agree with the coordinates of the edge.", "quantifier": "all edges, homes, faces, colours, rotations and turns", "why_tests_cant": "the convention is spread over five functions that have to agree for every place and rotation", "anchors": ["barbarosa/src/cube_n/pieces/edge.rs: Edge::orientation_face, Edge::non_orientation_face, Edge::flip, Edge::direction_on_axis, Edge::rotate", "barbarosa/src/cube_n/moves/rotation.rs: AxisRotation::flips_edge_orientation", "barbarosa/src/cube_n/space/face.rs: Face::contains_edge", "barbarosa/src/cube_n/visualization/mod.rs: Colored for Edge"]}
{"id": "C90", "title": "Faces, axes and sides of wings agree with the geometry of space", "statement": "next_around and prev_around are clockwise and counter-clockwise quarter turns around the axis; rotate_vec2 turns a slice clockwise in the right-handed basis given by Axis::basis; other, next, prev and offset are the third axis, the cyclic successor and predecessor and the number of steps; Face::index is the place in Face::iter and opposite faces are three apart; the faces of a corner are those whose layer it is in; the side of a wing given by normal_direction is carried along by every rotation.", "quantifier": "all faces, axes, vectors, amounts, corners and wings", "why_tests_cant": "these are hand-written tables on which all other code relies; a wrong entry shows only for some combinations", "anchors": ["barbarosa/src/cube_n/space/face.rs: Face::next_around, Face::prev_around, Face::index, Face::iter, Face::coords", "barbarosa/src/cube_n/space/axis.rs: Axis::basis, Axis::other, Axis::next, Axis::prev, Axis::offset", "barbarosa/src/cube_n/moves/rotation.rs: rotate_vec2", "barbarosa/src/cube_n/pieces/wing.rs: wing_normal_direction, Wing::new, Wing::rotate"]}
{"id": "C91", "title": "Progress reports say how far the table is", "statement": "While a move-count table is built, one message per round is printed until the greatest number of moves is reached, then a final one. The message of round d gives the number of states that can be solved in fewer than d moves, their percentage of all states to two decimals, the whole seconds since the start, the states per second to two decimals and the whole minutes left at that rate; the final one says 100.00% and 0 minutes. A message within the first millisecond says an infinite rate and 0 minutes; if the clock was set back to before the start, the time, the rate and the time left are those of as long after the start with minus signs.", "quantifier": "both tables, all rounds, all clocks within three years of the start (for the figures: at least a millisecond after it)", "why_tests_cant": "the messages depend on the clock, and the tests do not build the tables", "anchors": ["barbarosa/src/cube_n/cube3/mus/cache/generation.rs: Display for Stats, Stats::new, build_partial", "barbarosa/src/cube_n/cube3/mus/cache/disk_storage.rs: print_with_timestamp"]}
{"id": "C92", "title": "What == means", "statement": "== on faces, vectors, moves, rotations, wide moves, pieces, cubes and orientable cubes holds exactly for the same value. Two cubes with a piece at every position look the same exactly if their corners, edges and wings are equal and each centre place shows the same colour, so on Cube2 and Cube3 == holds exactly for cubes that look the same; on Cube4 to Cube7 equal cubes look the same, and R U R' U done five times gives a cube that looks solved and differs from the solved one.", "quantifier": "all values of these types; all pairs of cubes of each size with a piece at every position", "why_tests_cant": "pairs of states are far too many to compare, and the derived implementations hide which fields take part", "anchors": ["barbarosa/src/cube_n/pieces/corner.rs: Corner", "barbarosa/src/cube_n/pieces/edge.rs: Edge", "barbarosa/src/cube_n/pieces/wing.rs: Wing", "barbarosa/src/cube_n/pieces/center/corner.rs: CenterCorner", "barbarosa/src/cube_n/cube3/mod.rs: Cube3", "barbarosa/src/cube_n/moves/wide.rs: WideAxisMove", "barbarosa/src/cube_n/moves/rotation.rs: AxisRotation", "barbarosa/src/generic/piece/set.rs: PieceSet"]}
{"id": "C93", "title": "The messages about the cache files tell the truth", "statement": "With its messages Cache::init does to the disk exactly what it does without, and has the same result. Once it has said that a file has been written, the file is complete; if it has said that a file has been loaded, the file was there with the right length. A process stopped at any moment leaves each file as it was, or complete, unless the last line is the announcement that this file is being written. When init panics, the last line names the file that could not be read, has the wrong length or could not be written; when it returns, the messages are: attempt, loaded for a file that was there, and attempt, reports, writing, written, saved for one that was not, first about the edges, then about the corners. Cache::load likewise.", "quantifier": "all disks, file system faults, crash points and clocks within three years of the start", "why_tests_cant": "the messages matter after crashes and faults, at any point of a run that takes long; the tests do not build the tables", "anchors": ["barbarosa/src/cube_n/cube3/mus/cache/disk_storage.rs: load_partial, write_partial, load_or_build_partial, print_with_timestamp", "barbarosa/src/cube_n/cube3/mus/cache/generation.rs: build_partial", "barbarosa/src/cube_n/cube3/mus/cache/mod.rs: Cache::init, Cache::load"]}
{"id": "C94", "title": "All moves and all successors, each once", "statement": "AxisMove::all() returns each of the 18 moves exactly once and never reads a slot of its array that has not been written. Cube3::successors() pairs every move with the cube after it and contains nothing else; for a valid cube these are 18 different valid cubes, none of them the cube itself; and a cube is among the successors of another exactly if the other is among its own.", "quantifier": "all moves; all cubes", "why_tests_cant": "the array is made from uninitialised memory, where a slot that is missed may pass a test by luck; the claims about successors range over every state", "anchors": ["barbarosa/src/cube_n/moves/mod.rs: AxisMove::all, IntoEnumIterator for AxisMove", "barbarosa/src/cube_n/cube3/mod.rs: Cube3::successors"]}
{"id": "C95", "title": "Shortest solutions behave like distances", "statement": "With complete tables, solve_with_heuristic(mus) gives every solvable Cube3 one solution and no alg solves it with fewer moves. Such a solution has nothing normalized() could remove, never turns one face twice or one axis three times in a row, and is no longer than any scramble that leads to the cube; reversed it is a shortest scramble. One turn changes the length by at most one, after the first moves of a solution exactly the rest is needed, a scramble, its reverse and the same scramble done on another side are equally hard, and two scrambles after each other are at most as hard as both together.", "quantifier": "all complete caches, all solvable cubes, all scrambles of any length, all rotations", "why_tests_cant": "lengths of shortest solutions can only be compared over all algs and all cubes, not by running a few solves", "anchors": ["barbarosa/src/cube_n/search.rs: Cube3::solve_with_heuristic", "barbarosa/src/generic/search/ida.rs: IDASearcher", "barbarosa/src/generic/alg.rs: Alg::reversed, Alg::rotate", "barbarosa/src/cube_n/moves/non_redundant.rs: normalized"]}
{"id": "C96", "title": "How many algs Alg::random can give, and that short ones do not reach every cube", "statement": "Alg::random(n) has exactly 1, 18, 243, 3240, 43254, ... different outcomes for n = 0, 1, 2, 3, 4, ... (from n = 3 on twelve times the number before plus eighteen times the one before that). Some solvable Cube3 needs at least 18 moves: the solver answers with at least 18 moves for it, and no outcome of Alg::random(n) with n below 18 scrambles a solved cube into it. No shortest solution has more than 139 moves.", "quantifier": "all lengths n, all generators, all cubes and algs", "why_tests_cant": "numbers of outcomes and of cubes beyond 10^19 cannot be enumerated, and no run shows that a cube has no shorter solution", "anchors": ["barbarosa/src/cube_n/moves/non_redundant.rs: random_with_rng", "barbarosa/src/cube_n/search.rs: Cube3::solve_with_heuristic"]}
{"id": "C97", "title": "Shortest crosses compared", "statement": "A solution of the cross found by solve_cross never turns one face twice or one axis three times in a row and does not end with a turn of the opposite face. It is no longer than the solution of the whole cube, and solve_cross_fast needs no fewer and at most one more move. One turn of the cube changes the length by at most one, after the first moves of a solution exactly the rest is needed, and the cross of a face after a scramble is as hard as the cross of the rotated face after the rotated scramble.", "quantifier": "all faces, all valid cubes, all scrambles of any length, all rotations, all complete caches", "why_tests_cant": "lengths of shortest crosses can only be compared over all algs and all cubes", "anchors": ["barbarosa/src/cube_n/cube3/cfop/cross.rs: solve_cross, solve_cross_fast", "barbarosa/src/generic/alg.rs: Alg::rotate", "barbarosa/src/cube_n/search.rs: Cube3::solve_with_heuristic"]}
{"id": "C98", "title": "Cache files after a loss of power", "statement": "After a loss of power at any time, init and load return the right tables or report an error. (A loss of power may leave a file missing, cut short, or with zeros in place of data that had not reached the disk.)", "quantifier": "all histories of starts, crashes, failing file operations, deletions and losses of power, and everything a loss of power can leave", "why_tests_cant": "tests cannot cut the power at every byte of a write", "anchors": ["barbarosa/src/cube_n/cube3/mus/cache/disk_storage.rs: load_or_build_partial, load_partial, write_partial", "barbarosa/src/cube_n/cube3/mus/cache/mod.rs: init, load"]}
{"id": "C99", "title": "What the errors of the parsers say", "statement": "For every text, WideAxisMove::<N>::parse fails with the depth and N if the text is a wide move that is too deep, with an invalid digit if the depth is written with a number character that is not one of 0 to 9, and otherwise with an error of the grammar; ExtendedAxisMove::parse likewise, without the first case; AxisMove and AxisRotation only with an error of the grammar. A sequence of moves fails with the error of its first word that is refused. No text whatever gives the errors 'Found unexpected string' or 'Unexpected end of tokens'. The message for a move that is too deep contains its depth and N; the playground writes the message of the first bad word of a line after 'Error: '.", "quantifier": "all texts, all limits N, all lines typed at the playground", "why_tests_cant": "the set of texts is infinite, and that an error never occurs is a statement about all of them", "anchors": ["barbarosa/src/generic/parse.rs: ParseError, Parsable::parse", "barbarosa/src/cube_n/parser/mod.rs: from_pest", "barbarosa/src/cube_n/moves/wide.rs: WideMoveCreationError", "barbarosa/src/generic/alg.rs: Alg::parse", "barbarosa/src/main.rs: playground_3x3"]}
{"id": "C100", "title": "The first of the shortest solutions, whatever the heuristic", "statement": "For every solvable Cube3 and every heuristic that gives whole numbers and never overestimates, solve_with_heuristic returns the one shortest solution that comes first when algs are ordered by AxisMove::all (R R2 R' L L2 L' U ... B'). So all such heuristics give the same alg: zero, mus with complete tables, with tables damaged by a loss of power, or with tables that appear during the search. solve_cross likewise returns the first of the shortest crosses, and any IDA searcher the first of the shortest in the order of its successors.", "quantifier": "all solvable cubes, all heuristics that do not overestimate (also ones that change during the search), all states of the tables, all six faces for the cross", "why_tests_cant": "which of several shortest solutions is returned could differ on any one of the 43 quintillion cubes", "anchors": ["barbarosa/src/generic/search/ida.rs: IDASearcher::search, search_impl", "barbarosa/src/cube_n/search.rs: solve_with_heuristic", "barbarosa/src/cube_n/moves/mod.rs: AxisMove::all", "barbarosa/src/cube_n/cube3/cfop/cross.rs: solve_cross"]}
{"id": "C101", "title": "How much work the solver does", "statement": "For every solvable Cube3 whose shortest solution has n moves, and every heuristic that gives whole numbers and never overestimates, solve_with_heuristic makes exactly one round for each bound from the heuristic's value of the cube to n, examines in the round with bound b at most 1 + 18 (1 + 17 + ... + 17^b) states, and never nests its calls deeper than n + 2 (so at most 141). A heuristic that is nowhere smaller than another never makes it examine more states: mus never examines more than zero, and damaged tables never save work. For an unsolvable cube it makes 201 rounds and returns None.", "quantifier": "all solvable and unsolvable cubes, all heuristics that give whole numbers and do not overestimate, all states of the tables", "why_tests_cant": "the number of states examined is far too large to measure for most cubes, and the stack must suffice for all of them", "anchors": ["barbarosa/src/generic/search/ida.rs: IDASearcher::search, search_impl", "barbarosa/src/cube_n/search.rs: solve_with_heuristic", "barbarosa/src/cube_n/cube3/mus/mod.rs: mus"]}
{"id": "C102", "title": "No cross needs more than eight moves", "statement": "For every face and every valid cube the solution that solve_cross returns has at most eight moves, and so has that of solve_cross_fast. For every face there is a cube eight turns from the solved one for which solve_cross returns eight moves. The calls of the search for the cross are never nested deeper than ten, it takes at most nine rounds, and each round examines at most 1 + 18 (1 + 17 + ... + 17^8) states.", "quantifier": "all valid cubes (solvable or not), all six faces", "why_tests_cant": "the bound is over all 190080 arrangements of the four edges of each face within 10^20 cubes, and that fewer moves never suffice ranges over all algs", "anchors": ["barbarosa/src/cube_n/cube3/cfop/cross.rs: solve_cross, solve_cross_fast", "barbarosa/src/generic/search/ida.rs: IDASearcher::search"]}
{"id": "C103", "title": "Cubes and pieces as keys of hash tables", "statement": "Whatever the Hasher, values of the types that can be hashed (Cube2, Cube3, Cube4, all pieces, faces, axes, directions, positions) hash alike if they are ==; conversely two values that hash alike under every Hasher are ==, and what a value feeds to the Hasher determines it even when followed by other data, so different values collide only through the Hasher itself. A HashSet of Cube2 or Cube3 contains a valid cube exactly if one that looks the same was inserted, and its length is the number of different cubes inserted; a HashSet of Cube4 does the same with respect to ==, so it may hold several cubes that look the same.", "quantifier": "all values, all hashers, all sequences of inserted cubes", "why_tests_cant": "that no two of 43 quintillion cubes feed the same data to a hasher, and that this holds for every hasher, is beyond any set of examples", "anchors": ["barbarosa/src/generic/piece/set.rs: PieceSet", "barbarosa/src/cube_n/cube2/mod.rs: Cube2", "barbarosa/src/cube_n/cube3/mod.rs: Cube3", "barbarosa/src/cube_n/cube4/mod.rs: Cube4", "barbarosa/src/cube_n/moves/wide.rs: DepthPieceSet", "barbarosa/src/cube_n/pieces/edge.rs: Edge", "barbarosa/src/cube_n/pieces/corner.rs: Corner"]}
{"id": "C104", "title": "A 2x2x2, 4x4x4 or 6x6x6 that looks solved is solved", "statement": "These cubes have no fixed centres, so every colour can be on every side. For every state of a Cube2, Cube4 or Cube6 reached by turning, is_solved() holds exactly if every face shows one colour.", "quantifier": "all three even sizes, all sequences of moves; the proved part: all valid cubes", "why_tests_cant": "the 3674160 states of the smallest of these cubes are already many for a test, and those of the other two cannot be listed; a test also tends to turn as a solver of the 3x3x3 does, with centres that never move", "anchors": ["barbarosa/src/cube_n/cube2/mod.rs: Cube2", "barbarosa/src/cube_n/cube4/mod.rs: Cube4", "barbarosa/src/cube_n/cube6/mod.rs: Cube6", "barbarosa/src/generic/mod.rs: Cube::is_solved"]}
{"id": "C105", "title": "The searcher and the tables solve every 2x2x2 with as few moves as possible", "statement": "A user can build an IDASearcher for Cube2 that tries the moves of AxisMove::all. With every heuristic that gives whole numbers and never overestimates, and a limit of at least 125, Solver::solve returns for every solvable Cube2 an alg that solves it, has at most 125 moves, and no alg with fewer moves does; for an unsolvable one it returns None. Every Cube2 drawn at random gets an answer. With complete tables, mus of the Cube3 with the same corners and solved edges is exactly the number of moves a Cube2 needs, and can serve as such a heuristic. A Cube2 never needs more moves than a Cube3 with the same corners. A solved Cube2 turned as a whole needs at most four moves, and at least one unless is_solved() holds.", "quantifier": "all states of a Cube2, solvable or not, all such heuristics, all limits from 125 to 2^22, all random generators", "why_tests_cant": "the repository never searches a Cube2 in its tests, and that the answer is shortest for each of 88 million states and every heuristic cannot be tried out", "anchors": ["barbarosa/src/generic/search/ida.rs: IDASearcher::new, search", "barbarosa/src/generic/search/mod.rs: Solver::solve", "barbarosa/src/cube_n/cube2/mod.rs: Cube2", "barbarosa/src/cube_n/cube3/heuristics/mus.rs: mus"]}
{"id": "C106", "title": "Searching with quarter turns gives as few quarter turns as possible", "statement": "A user can build an IDASearcher for Cube3 that tries the twelve QuarterAxisMoves in any order. With every heuristic that gives whole numbers and never overestimates the quarter turns, and a limit of at least 278, Solver::solve returns for every solvable cube an alg that solves it with as few quarter turns as possible, at most 278; for an unsolvable one it returns None. mus with complete tables is such a heuristic. The number of quarter turns is at least the number of face turns of a shortest Alg<AxisMove> and at most twice that. All algs of quarter turns that solve a cube have lengths of the same parity, and one quarter turn changes the fewest number by exactly one.", "quantifier": "all cubes, all orders of the moves, all such heuristics, all limits from 278 to 2^22, all pairs of solutions", "why_tests_cant": "no test of the repository searches with quarter turns, and neither minimality nor the parity of all solutions can be seen from examples", "anchors": ["barbarosa/src/generic/search/ida.rs: IDASearcher::new, search", "barbarosa/src/generic/search/mod.rs: Solver::solve", "barbarosa/src/cube_n/moves/quarter.rs: QuarterAxisMove", "barbarosa/src/cube_n/cube3/heuristics/mus.rs: mus"]}
{"id": "C107", "title": "Searching with turns of parallel faces gives as few of them as possible, if the heuristic is halved", "statement": "A user can build an IDASearcher for Cube3 that tries NonRedundantAxisMove::all, whose moves turn one face or two parallel ones. With every heuristic that gives whole numbers and never overestimates the number of such moves, and a limit of at least 278, Solver::solve returns for every solvable cube an alg that solves it with as few of them as possible, at most 139; for an unsolvable one it returns None. The number is at most that of the face turns and at least half of it, so mus(cube) / 2.0 with complete tables can be used. mus itself cannot: it is 2 on a cube that one such move solves, and with a heuristic that never overestimates the face turns the search can return two moves where one is enough.", "quantifier": "all cubes, all such heuristics, all limits from 278 to 2^21; for the last part a cube and a heuristic are given", "why_tests_cant": "no test of the repository searches with these moves, minimality cannot be seen from examples, and an answer that is one move too long looks right", "anchors": ["barbarosa/src/generic/search/ida.rs: IDASearcher::new, search", "barbarosa/src/generic/search/mod.rs: Solver::solve", "barbarosa/src/cube_n/moves/non_redundant.rs: NonRedundantAxisMove, all, moves", "barbarosa/src/cube_n/cube3/heuristics/mus.rs: mus"]}
{"id": "C108", "title": "The searcher solves a 4x4x4 with as few wide moves as possible, and with plain moves only as a 2x2x2", "statement": "A user can build an IDASearcher for Cube4. If it tries all WideAxisMove<1>, then with every heuristic that gives whole numbers and never overestimates, Solver::solve returns for every cube that can be made to look solved within the limit an alg after which is_solved() holds, and no alg with fewer wide moves does that; with a limit of at least 5423 every cube put together from its pieces gets a shortest solution if its corner twists add up to full turns, and None otherwise; for a cube that turning produced the solution is not longer than the scramble. If it tries only AxisMove::all, a cube scrambled with AxisMoves is solved with the shortest solution of the Cube2 scrambled the same way, at most 125 moves; but a Cube4 with a single outer layer turned gets None, however high the limit.", "quantifier": "all states of a Cube4, all such heuristics, all limits up to 2^22, all scrambles", "why_tests_cant": "no test of the repository searches a Cube4, its states are too many to list, and that there is no solution with plain moves of any length cannot be tried out", "anchors": ["barbarosa/src/generic/search/ida.rs: IDASearcher::new, search", "barbarosa/src/generic/search/mod.rs: Solver::solve", "barbarosa/src/cube_n/cube4/mod.rs: Cube4, Movable", "barbarosa/src/cube_n/moves/wide.rs: WideAxisMove, Movable"]}
{"id": "C109", "title": "A search asks its closures only about states that moves lead to", "statement": "The result of Searcher::search depends only on what the heuristic, the successors, the target test and the comparison of states answer about states that moves lead to from the start: if two searchers agree there, they return the same, for every limit. So a heuristic that is a whole (or dyadic) number and never overestimates inside a set of states that no move leaves gives shortest solutions for every start in the set, whatever it says outside. For instance mus, asked about a Cube3 with the corners of a Cube4, guides a search with AxisMoves on every Cube4 with valid corners to a shortest solution.", "quantifier": "all types of states and moves, all closures, all costs, all limits; for the last part all Cube4 with valid corners and all limits up to 2^22", "why_tests_cant": "a test calls the searcher with closures that answer the same everywhere, and cannot vary them on all states that are not met", "anchors": ["barbarosa/src/generic/search/ida.rs: IDASearcher::new, search, search_impl", "barbarosa/src/generic/search/mod.rs: Searcher::search, Solver::solve", "barbarosa/src/cube_n/cube3/heuristics/mus.rs: mus", "barbarosa/src/cube_n/cube4/mod.rs: Cube4"]}
{"id": "C110", "title": "The searcher finds the shortest way from one cube to another", "statement": "Searcher::search with the target |x| x == goal and the moves of AxisMove::all finds, with every heuristic that gives whole numbers and never overestimates the way to the goal, an alg that leads from the given cube to the goal and is as short as possible, if there is one within the limit; if there is none it returns None. Shortest ways there and back have the same length, one being the reversed of the other; only equal cubes have a way of no moves; no detour is shorter; and moves made before both scrambles change nothing. Between two solvable Cube3 there always is a way, of at most 139 moves, and the ways are the solutions of a third cube; between a solvable and an unsolvable one there is none.", "quantifier": "all cubes of all sizes, all goals, all such heuristics, all limits up to 2^22", "why_tests_cant": "the repository's tests search only for the solved cube, and there are too many pairs of cubes to try", "anchors": ["barbarosa/src/generic/search/mod.rs: Searcher::search", "barbarosa/src/generic/search/ida.rs: IDASearcher::new, search", "barbarosa/src/generic/alg.rs: Alg::reversed", "barbarosa/src/cube_n/moves/mod.rs: AxisMove::all"]}
{"id": "C111", "title": "Solving in stages works, and costs at most so much", "statement": "The cube that Searcher::search returns is the one its alg leads to, so a second search, also with other moves and another target, can go on from it and the two algs together lead from the first cube to the second target. In particular solve_cross (or solve_cross_fast) followed by solve_with_heuristic with mus on the cube returned solves every solvable Cube3. The two algs together have at least as many moves as what solve_with_heuristic finds for the cube at once, at most 16 more, at most three times as many (two moves more than that for the fast cross), and at most 147; just as many exactly if the solution of the cross is the beginning of a shortest solution. They can have more: after R U they have four moves instead of two.", "quantifier": "all types of states and moves, all searches; for the second part all solvable cubes and all six faces", "why_tests_cant": "how much longer a solution in stages can be, over all solvable cubes, cannot be measured, since there are 43 quintillion of them", "anchors": ["barbarosa/src/generic/search/mod.rs: Searcher::search", "barbarosa/src/cube_n/cube3/cfop/cross.rs: solve_cross, solve_cross_fast", "barbarosa/src/cube_n/search.rs: solve_with_heuristic", "barbarosa/src/cube_n/cube3/heuristics/mus.rs: mus"]}

# Formal model of Odilf/barbarosa in Rocq (Coq 8.16.1)

## Approach

The library is purely functional apart from the RNG, a `OnceLock` and two cache
files.  It is modelled function by function as total computable Gallina
functions (`Model_*.v`), each with a comment citing the file and lines in
`/repo`.  Panics are explicit outcomes, loops are structural recursion or fuel
with the out-of-fuel case proved unreachable.  Specifications that do not use
the model's helpers live in `Spec_*.v` (geometry of an NxNxN cube, stickers,
notation strings, shortest distances ...).  Proofs are in `Proof_*.v`; the
property theorems are collected in `Prop_*.v` with `Print Assumptions` and an
`Example` showing that hypotheses are met by a concrete case.

Properties the code violates are kept in full and proved false
(`..._refuted`), together with a `..._partial` theorem saying what does hold.

## Plan per property

* **C01 Reversed algorithm undoes the algorithm.** Model every piece type, set, cube and move type; prove move-inverse by case analysis on (piece, move) and lift by induction on the alg and `map` over sets.
* **C02 Turn amounts compose additively.** Finite case analysis on pieces and amounts, lifted through `map`.
* **C03 Piece sets stay valid under every history of moves.** Rotation of a layer is an injection on positions (finite check per piece type/depth); `NoDup` of positions is an invariant; induction over histories.
* **C04 PieceSet::new accepts exactly the duplicate-free arrays.** Model `validate`/`find_duplicates` literally on lists; prove equivalence to `NoDup`.
* **C05 Piece lookups are mutually inverse.** Lists of pieces with `NoDup` positions of full length are permutations of the reference positions; find/index_of lemmas.
* **C06 3x3 solvability invariants hold in every reachable state.** Inversion parity of lists; each move multiplies parity by a constant, flips sum mod 2 and twists sum mod 3 are invariant; induction.
* **C07 Every invariant-respecting 3x3 state is solvable.** Stage tables of solving algs (generated outside, checked in Coq): piece by piece strong reduction; counting argument for the last pieces via the invariants.
* **C08 Random Cube3 is always solvable.** RNG is an arbitrary oracle; Fisher-Yates keeps `NoDup`; fix-up functions establish invariants; then C07.
* **C09 Random Cube2 is valid and can be any 2x2 state.** As C08 for validity; the surjectivity half is refuted (orientations are never randomised).
* **C10 swap_cycles measures permutation parity and terminates.** Loop modelled with fuel; loop invariant relates visited cycles to parity; out-of-fuel excluded.
* **C11 3x3 face turns move the stickers of a physical cube.** Separate sticker-level specification (coordinates and rotation matrices); simulation theorem.
* **C12 The unfolded 3x3 drawing is complete and faithful.** Model indices/populate with explicit panic; compare with the sticker specification.
* **C13 Cube3::is_solved means every face has one colour.** Equivalence of set equality, per-piece predicate and colours.
* **C14 Faces, axes and vectors rotate consistently.** Matrices over Z as specification; case analysis.
* **C15 Wide moves turn exactly the right layers.** Doubled-coordinate geometric specification for the N-cube; finite case analysis per piece type and depth. Expected violation for centre edges: refuted with witness, rest proved.
* **C16 A plain face move equals the depth-0 wide move.** Expected violation (moves are widened to the maximum): refuted with witness; what does happen is proved.
* **C17 Big-cube models track every visible cubie.** Enumerate surface cubies of the N-cube; compare with piece locations. Expected violation for Cube5 (no wings).
* **C18 Big-cube is_solved means every face has one colour.** Expected violation; witness algs found by search outside and replayed by vm_compute.
* **C19 normalized() has the same effect and never gets longer.** Worklist loop with measure; effect as function composition on arbitrary 'commuting' action and on all cube models.
* **C20 normalized() removes all obvious redundancies.** Expected violation, witness alg; weaker true part proved: a pass ends in canonical form or loses two moves, so repeated passes converge; a family of nested algs shows that no fixed number of passes is enough.
* **C21 absorve merges a move exactly.** Case analysis on the real function, effect on arbitrary states.
* **C22 Random algs have exact length and no redundancy.** RNG oracle; induction over the generated chunks.
* **C23 Quarter-turn conversion preserves the effect.** Induction over algs.
* **C24 Move and alg text round-trips.** PEG interpreter for the pest grammar; round trip by finite check per move and whitespace lemma by induction.
* **C25 The parser accepts exactly the move notation.** Language of the PEG grammar characterised for all strings of code points.
* **C26 Wide-move text round-trips.** Expected violation for depth >= 2; true part (depth 0, 1) proved for every N.
* **C27 WideAxisMove never exceeds its maximum depth.** Record with invariant; each public constructor analysed; closure by an inductive 'obtainable' predicate.
* **C28 IDA* returns a real solution.** Search generic over an arbitrary cost structure (no laws assumed), so IEEE floats incl. NaN are covered; fuel explicit.
* **C29 IDA* is optimal and complete for admissible heuristics.** Costs in Z (scaled); standard IDA* argument: bounds increase by 1, minimal exceeding cost <= optimal cost.
* **C30 IDA* terminates and never revisits a state on its path.** Fuel bound proved sufficient; NoDup of path invariant.
* **C31 Corner index is a bijection.** Lehmer-code style index modelled in Z; mutual inverse proofs for general n (induction), instantiated to 8 corners.
* **C32 Half-edge index is a bijection.** Same general development instantiated with 6 of 12.
* **C33 Whole-cube indices round-trip.** Combine C31, C32 and the x2 conjugation.
* **C34 Unchecked cache lookups stay in bounds.** In-bounds for valid sets; refuted for sets mutated through the safe `iter_mut_unchecked`.
* **C35 The MUS table builder terminates with exact distances.** BFS layer invariant over the table; depth bound from a solving table for corners and half edges.
* **C36 The MUS heuristic is admissible.** From C35 and the projection of cube solutions to partial solutions.
* **C37 solve_with_heuristic(mus) solves every solvable cube optimally.** C07 (length <= 200) + C36 + C29.
* **C38 Cache files are never silently wrong after a crash.** Files as optional byte strings with crash-prefix semantics; outcome type with the explicit panic; the self-recovery half is refuted.
* **C39 min_moves_to_solve is the exact edge distance.** Finite exact check: distance function is a BFS potential on the 24x12 (edge, target) pairs.
* **C40 The admissible cross heuristic is admissible and solve_cross is optimal.** C39 + C29; existence of cross solutions from the stage tables.
* **C41 solve_cross_fast always returns a solved cross.** C28 plus completeness for bounded inadmissible heuristics with half-integer costs.
* **C42 Cross piece helpers agree.** Finite check over faces plus counting lemma.
* **C43 The manhattan heuristic never overestimates.** Expected violation (R2 from solved scores 1.5); a proved 3/2 bound; from it, along a shortest solution every estimate is at most two moves above its length, so iterative deepening returns a solution at most two moves too long.
* **C44 connect and try_from_states recover the moves played.** Distinct moves have distinct effects on every valid state; induction for histories.
* **C45 Orientation tracks whole-cube rotations.** Orientation as a pair of faces; the `rotations()` half is expected to be violated.
* **C46 Moves on a rotated Orientable act on the face the user sees.** Expected violations for face, slice and wide moves: refuted with witnesses; the case of an unrotated Orientable with plain moves is proved.
* **C47 Extended moves never panic.** Exact characterisation of the panicking (size, depth) pairs; refuted as stated.
* **C48 Extended moves are undone by their inverse.** Case analysis per kind of move.
* **C49 Playground never changes the cube on bad input.** State machine for the playground loop using the alg parser model.
* **C50 factorial is exact below its limit.** Nat recursion vs `fact`; bound with N arithmetic.
* **C51 Named algorithms do what their documentation says in every state.** Effects computed once on pieces, lifted to all states through `map`.
* **C52 Processes that share the cache directory never get an overestimating table.** Interleaving semantics of the system calls of any number of processes on POSIX files (inodes, truncation, gaps filled with zeros); invariant 'every byte is right or 0' over all reachable states; then C36 and C29 for tables with zeros.
* **C53 Processes that share the cache directory get complete tables.** Invariant 'the written prefix of every inode is right' when no writer stops; a schedule of two writers that breaks it otherwise.
* **C54 Random Cube3 is uniform over the solvable cubes.** Choices of the generator as finite lists; bijection between choices and assembled cubes; the repair maps exactly 12 assembled cubes to each solvable one; counting by lists without duplicates.
* **C55 Random algs are exactly the irredundant algs in canonical order.** Induction over the rounds of the loop (outcomes are in order); greedy decomposition of an alg into rounds (every such alg is an outcome); reordering of neighbours for the effects.
* **C56 The printed cube is a faithful net.** Output as a list of cells; lines by a separate specification; composition with the drawing theorem C12.
* **C57 Square::at returns the closest cell.** transform_coord on rationals; linear arithmetic for N = 3; counterexamples for N = 2 and every N >= 5. Model_PrintFloat repeats drawing and printing with binary32 arithmetic and proves them equal to the exact ones; for coordinates at a distance of at least 2^-18 from the borders, a sandwich lemma for correct rounding (Proof_Round) carries representable bounds through the three operations.
* **C58 Wide moves keep to their maximum depth and survive conversion.** Case analysis of the constructors; invariant over an inductive type of API histories.
* **C59 random_unnormalized can produce every alg of the length.** Induction over the length.
* **C60 Edge::try_from gives the edge between two faces.** All 36 pairs of faces, all 24 edges, by computation; the place by the geometry specification.
* **C61 Threads share one move-count cache, initialised once.** Transition system of threads around the lock (Model_Threads), invariant: the lock is full exactly if one cache was stored, busy exactly if that thread initialises; the answers by induction over executions, progress by construction.
* **C62 Searches stay correct and optimal when the heuristic changes while they run.** Model_Timed: the search with a clock that counts the calls of the heuristic. Soundness for any cost type and any heuristic, optimality by the same argument as C29 with a heuristic per call, then from exact costs to f32; equal to Model_Search for constant heuristics.
* **C63 The non-redundant moves list every turn of parallel faces once.** The lists by computation; different effects by a computed corner position that two moves take apart, on any valid cube of any size; runs and algs by induction with the theorem about absorve (C21).
* **C64 Wings, centre edges and centre wings made from faces are where the faces say.** Case analysis on the faces; the location on a cube of any size and depth from the specification of C15 (Spec_BigCube).
* **C65 The debug text of a piece identifies it.** Model_Debug: the texts; injectivity by a computed comparison of all pairs, faces by the locations of Spec_BigCube.
* **C66 Progress reports do not disturb the building of a table.** Model_Stats: the statistics with binary64 arithmetic and the builder with its reports; error bounds for one division, multiplication and division (Proof_Double), invariant that the first entry stays filled in. False for a clock put forward by four years (Duration::seconds panics), hence partial with a refutation.
* **C67 All kinds of face moves agree on an orientable cube.** Model_OrientableMoves: the blanket implementations on Orientable. Turning a move by rotations() is injective and keeps parallel faces parallel, so face moves on an Orientable satisfy the same laws as on the base cube (move_action_ok), from which everything follows as for C19, C23, C44, C63.
* **C68 is_solved of an orientable cube does not depend on how it is held.** Spec_Orientable.view as what the user sees; is_solved is derived equality with SOLVED. False: a solved cube turned as a whole is reported unsolved, on every size. Exact meaning proved.
* **C69 No line typed into the playground crashes it.** The session of C49 and the exact condition of C47, which does not depend on the cube. False: `Rw` is a valid line and crashes the playground. Exact set of crashing lines proved.
* **C70 The playground shows the cube as the user holds it.** Model_Main.event_screen: the printed net (Model_Print) of what is shown; Spec_Orientable.view as what the user sees. The picture tells the base cube (by C56) but not how it is held: false, exact meaning proved.
* **C71 The command line options do what they say.** Model_Main: main on top of Model_Disk and Model_Playground, with all faults of Model_Disk; a successful partial load or build leaves exactly what it returned in its file.
* **C72 Exactly the law-abiding 4x4x4 and 6x6x6 states are reachable, and all of them can be solved.** Spec_BigLaws.laws4/laws6: the laws, piece kind by piece kind. Invariance under each wide move by finite tables lifted to sets (Proof_BigLaws); solving by three-cycles of each kind of piece: Data_Big holds one word per kind that moves three pieces of that kind only, conjugated to any three places (tables checked by the kernel), and Proof_Sort sorts any even permutation with them. The smaller cubes are parts of the 7x7x7.
* **C73 A 4x4x4 or 6x6x6 put together at random can be turned until is_solved says so.** As C72; pieces of a kind on one face look alike to is_solved, so parities of wings and centres can be repaired by exchanging two alike pieces.
* **C74 Everything a real cube can be turned into, the cube of this library can be turned into.** The exact laws of the 5x5x5 and the 7x7x7 as this code turns them (laws5, laws7). False: the code moves centre edges with the outer layers at any depth, so that they stay next to their edge pieces for ever; a slice turn of a real cube is out of reach.
* **C75 All outcomes of Alg::random are equally likely.** Counting instead of probabilities: Spec_Random.alg_choices are the lists of choices a fair generator makes equally often, 45*30^(n-1) of them. For each outcome the lists that lead to it are counted by induction over the rounds.
* **C76 How many states each cube has.** Spec_Count.number_of: a list without repetitions of exactly the states, and its length. From the laws of C07, C09, C72 and C74: rearrangements are counted through shuffles, those of one parity are half of them (exchange the first two pieces), centre edges are determined by the edges. The list is never computed.
* **C77 Turning a cube never panics.** Model_Panic models the moves once more with every failing check a Panic that stops what follows; the result is Done of what the total models compute, piece kind by piece kind (all places of one piece by cases), then by induction over piece lists and algs.
* **C78 What an alg does to the solved cube decides what it does to every cube, from whichever side.** Every cube is part of a 7x7x7 (as7), so a word of wide moves acts piece by piece (Proof_Words). Twisting a corner or flipping an edge in place commutes with all moves, so the solved pieces decide; rotating pieces and moves together is checked for all pieces, moves and quarter rotations and lifted to words by induction.
* **C79 Every alg repeated often enough does nothing.** Pigeonhole: a piece comes back to its place after at most 8 (12, 24) rounds, up to a twist that commutes with the alg; the numbers are the least common multiples. Exactness: for every prime power a short alg and a piece whose cycle has exactly that length.
* **C80 Plain moves treat a big cube like a small one.** Each wing, centre corner and centre wing goes along with a corner, each centre edge with an edge, under moves of all layers; this correspondence is one-to-one within a kind, so equality of effects transfers. is_solved of the big cubes through corner_set_is_solved and edge_set_is_solved.
* **C81 Algs with the same effect have the same parity of quarter turns.** The parity of the corner permutation (Proof_Invariants) changes with every quarter turn, on every size.
* **C82 Different moves do different things, and only moves about one axis commute.** For every two moves about different axes there is a corner place whose piece tells the two orders apart however it is twisted; every valid cube has a piece there. Depths are told apart by centre corners.
* **C83 How often an alg has to be repeated until the cube is back.** Corners and edges as numbered places with a turn modulo 3 or 2 (Proof_Orders). The cycles of a permutation are split off from the representatives that C10 counts; a cycle of length L whose pieces come back turned takes 3 L (2 L) rounds. All combinations of cycle lengths, parities and total turns are tabulated by recursion on the number of places, and the laws of C06 select those that occur. The numbers occur as powers of thirteen algs.
* **C84 A wide move does the same in every type it can be held in.** All implementations of Movable<WideAxisMove<k>> in one definition indexed by size and k (Model_Cubes). The claim is compared type by type; it fails for k = 0 because of C16.
* **C85 Vectors of faces and axes, and the coordinates of a slice.** slice_coords and the vector conversions are modelled in Model_Space and compared with the integer geometry of Spec_Geometry, by cases on axes and directions for arbitrary functions on the slice. The order claim fails across the y axis.
* **C86 The manhattan distance of some of the pieces.** The filtered sums of Model_Cross are computed exactly with the float lemmas of C43; parts and zeros by induction on the list of pieces.
* **C87 How often an alg of wide moves has to be repeated until the cube is back.** Each kind of piece is a permutation of at most 24 places (with turns for corners and edges), so every alg has a least number of rounds that divides the others (Proof_Rounds). The orders of permutations of 24 places are bounded, with their parity, by a table of the largest ones in the sense of divisibility (Data_Rounds, checked by recursion on the number of places); corners, edges and centre corners share their parity, the wings are free, and centre edges go with the edges. For each largest number an alg is given and its cycles are computed; the divisors are its powers. ‘Wide’ here means the moves as the code does them; on Cube5 to Cube7 the centre edges do not move like those of a real cube (C74, C75).
* **C88 Twisting corners, and the corner orientation index.** A third of a turn is written by Rodrigues' formula for 120 degrees with integer vectors; twist, next_axis and orientation_index are compared with it through the colours reported by Colored. Solvability of a cube taken apart follows from C07 by tracking the two sums; the change of the index sum from bounds summed over the eight places. Doc of is_oriented says X axis where the code has Y, and the module documentation of invariants.rs gives the opposite meaning of the index (C88_needed_twists_differ).
* **C89 What the orientation of an edge means.** Edge places are points with coordinates -1, 0, 1; each function is compared with dot products and with rotations of space, and the meaning of the orientation with the colours reported by Colored.
* **C90 Faces, axes and sides of wings agree with the geometry of space.** Each table is compared with the formula for clockwise rotations of integer vectors, cross products and dot products of Spec_Geometry.
* **C91 Progress reports say how far the table is.** Model_Report: Display for Stats with correct rounding of doubles to hundredths, and the loop with its messages. The text is read back by an independent reader of decimals; the sequence of reports from the invariant of the builder (C35): after d rounds the table is the final one with the entries up to d.
* **C92 What == means.** The derived `==` of each modelled type is a boolean function of the model; each is proved to decide equality. The look of a cube is the set of its stickers (Spec_BigCube). The sets of pieces are told apart by the distance of their places from the middle of the cube; within a set, a finite check shows that the stickers at a place determine the home and the orientation of the piece there, for centres only the face of the home.
* **C93 The messages about the cache files tell the truth.** Model_Log: Cache::init and Cache::load as sequences of events, messages and states of the disk, built like Model_Disk with the messages of Model_Report. Erasing the messages gives Model_Disk; the shape of what happens for one table gives an invariant of every prefix of the events.
* **C94 All moves and all successors, each once.** Model_All: AxisMove::all with an array of slots that may be unwritten; reading an unwritten slot and writing outside the array are failures. The loop is computed; the successors follow from C82 (different moves give different cubes) and C01.
* **C95 Shortest solutions behave like distances.** No new model: Spec_Optimal says what the solver answers (for all large enough fuel). C37 makes answers shortest; the rest follows by undoing, merging and joining algs (C01, C02, C19) and because the solved cube decides what an alg does (C78).
* **C96 How many algs Alg::random can give, and that short ones do not reach every cube.** No new model: the algs of C55 are those where each face may follow the one before; they are listed by their first face, without repetition, and counted by a recurrence. There are fewer of up to 17 moves than cubes (C76), and shortest solutions can be brought into this shape, so some cube is missed.
* **C97 Shortest crosses compared.** No new model: from C40 and C41 like C95; for rotations each edge of the cross is followed through the rotated alg (C78), and flipping an edge commutes with every move.
* **C98 Cache files after a loss of power.** No new model of code: Spec_Power states what a loss of power may leave of a file (it is not in /repo) and adds that step to the histories of C38. Invariant: every byte of a file is the right one or 0. The consequences for the heuristic and the search are those of C52. Refuted by a loss of power after the first init has ended.
* **C99 What the errors of the parsers say.** Model_Errors: Display of ParseError, WideMoveCreationError and ParseIntError, and the line of main.rs. Spec_Errors says which texts are refused and why, from the notation of C25. Case analysis of what the grammar accepts as the beginning of a wide move; sequences by induction on the words.
* **C100 The first of the shortest solutions, whatever the heuristic.** No new model: Spec_First says what the first of the shortest means. Induction on the rounds and the recursion of the search: a state that is passed over has no continuation within the bound, and of two children the one listed first is tried first.
* **C101 How much work the solver does.** No new model: Spec_Work is the searcher of Model_Search with a counter of the states it examines, and C101_counting shows that it returns the same. Bounds of the rounds: a failed round returns a minimum in (bound, bound + 1], whole numbers. Comparison of two heuristics: induction on the recursion, a state pruned by the better one has no solution within the bound. Seventeen: the state before is one of the eighteen successors and on the path.
* **C102 No cross needs more than eight moves.** No new model. The four edges of the D cross stand in 190080 ways; Proof_CrossData is a generated table of the shortest lengths. Nothing is assumed about it: Proof_CrossMax checks by computation in the kernel that every entry is at most 8, that from every non-zero entry a turn leads to a smaller one, that entry zero is the solved cross alone, that near the solved cross a turn changes the entry by at most one, and that three turns from one state of length eight no entry is below five (so seven moves cannot suffice: three from it, four from the solved cross). The turns of the table are those of edge_apply. Other faces by rotation, with the flips of C97. For the fast solver (also C41_at_most_one_more) the table check says that twice its estimate is at most two above twice the distance, and that from each state of length eight there is a way along which it is not above it; the bound of the search never passes such a way. The work by the lemmas of C101.
* **C103 Cubes and pieces as keys of hash tables.** Model_Hash: the numbers each derived Hash implementation hands to the hasher, any hasher as a state machine, and the hash set of std as a list of values with their hashes. The data handed over is proved uniquely decodable type by type, from directions up to cubes; the sets by an invariant over insertions; looks through C92.
* **C104 A 2x2x2, 4x4x4 or 6x6x6 that looks solved is solved.** No new model: stickers from Spec_BigCube, whole-cube turns as a face and the opposite one turned against each other. Refuted by R L'. For the 2x2x2 the six face colours are searched with the kernel, one face after the other, and fit the corners only in the 24 ways to hold a solved cube; C92 turns equal looks into equal cubes. For the larger sizes the corners alone are a 2x2x2, and a whole-cube turn moves every sticker because none is in a middle layer.
* **C105 The searcher and the tables solve every 2x2x2 with as few moves as possible.** The generic model of the searcher, instantiated with Cube2 as a user would. Optimality and completeness from the theorems about searchers for all puzzles (C28, C29, C30), solvability from C09, the table from the exact corner table (C35, C36) with the edge terms shown to be 0, whole-cube turns from C104.
* **C106 Searching with quarter turns gives as few quarter turns as possible.** The generic model of the searcher, instantiated with Cube3 and the quarter turns. Optimality and completeness as in C105; both ways between quarter turns and face turns through C23; parity through C81.
* **C107 Searching with turns of parallel faces gives as few of them as possible, if the heuristic is halved.** The generic model of the searcher, instantiated with Cube3 and the moves of NonRedundantAxisMove::all; costs in halves for mus / 2.0. Algs of face turns are rewritten with C63. The last part by computing one search and the exact table values of one cube.
* **C108 The searcher solves a 4x4x4 with as few wide moves as possible, and with plain moves only as a 2x2x2.** The generic model of the searcher, instantiated with Cube4; a WideAxisMove<1> is a face turn and one of two depths. Minimality and termination by C28-C30, that there is a solution by C72, that there is none by C73, and the part on plain moves by C78 and C80.
* **C109 A search asks its closures only about states that moves lead to.** By induction over the recursion of the searcher: the path holds only states that moves lead to. For the second part the heuristic is set to zero outside the set, where C29 applies, and the first part carries the result back. The instance uses the exact corner table (C36) and C105.
* **C110 The searcher finds the shortest way from one cube to another.** The generic model of the searcher with equality to the goal as the target: C28, C29 and C30. The laws of distances by C01, moves made before by C78, and the bound by C07 for the third cube.
* **C111 Solving in stages works, and costs at most so much.** Two uses of C28 for the first part. The bounds from C40, C41, C95 and C102: undoing the cross and then a shortest solution is a solution of the cube after the cross. The last part by trying all algs of up to two moves on one cube.

## Trusted base

* Coq 8.16.1's kernel, including its `vm_compute` reduction (used for finite checks over pieces, moves and
  orientations and for replaying witnesses), and coqchk, which rechecks everything without the VM.
* `Print Assumptions` stands at the end of every `Prop_*.v` file, once per theorem.  Every one of them prints
  "Closed under the global context": no axiom, neither ours nor of the standard library, is used by any theorem.
  (coqchk over all loaded files also lists seven parameters of `Coq.ssr.ssrunder`, a standard library module
  that some standard library file loads; no theorem depends on them.)
* Only the standard library is imported (List, Arith, NArith, ZArith, Lia, Floats.SpecFloat for the executable
  specification of IEEE 754).  No plugins, axioms, functors or module types.
* The reading of the Rust code: that the definitions in `Model_*.v` say what the cited lines do.  No
  extraction or translation tool is involved; the seeded wrong programs (`seeded/LOG.jsonl`) test that the
  theorems depend on the details of the model.
* The readings of the libraries the code calls, stated where they are used: `pest` (an interpreter of its
  parsing expressions in Model_Parser), `rand` (a random generator is an arbitrary sequence of choices, so the
  theorems hold for every generator and seed; `shuffle` is the Fisher-Yates loop), `nalgebra` vectors
  (pairs and triples), `core`/`std` (string splitting, integer parsing and printing, iterator adaptors,
  `fs::read`, `fs::write`, `fs::create_dir_all` on a POSIX file system), `f32` as IEEE binary32
  with round to nearest even.

## What is modelled

| code in /repo/barbarosa/src | model |
|---|---|
| cube_n/space/* | Model_Space |
| cube_n/moves/{amount,mod,rotation,wide,quarter}.rs, generic/{moves,alg}.rs | Model_Moves |
| cube_n/moves/non_redundant.rs | Model_NonRedundant |
| cube_n/moves/extended.rs, cube_n/orientable/* | Model_Orientable, Model_OrientableMoves (other kinds of moves, equality, `is_solved`, `connect`) |
| cube_n/moves/perms.rs | Model_Perms |
| cube_n/pieces/* | Model_Pieces; Model_Panic (all checks kept, also those of moves and cubes) |
| generic/piece/* | Model_PieceSet |
| cube_n/cube2..cube7/mod.rs, wide moves of sets | Model_Cubes, Model_Connect (derived equality) |
| cube_n/invariants.rs, random Cube2 and Cube3 | Model_Invariants |
| cube_n/visualization/* | Model_Visual (drawing), Model_Print (output, colours, rational coordinates), Model_PrintFloat (both with f32) |
| grammar/cube_n.pest, cube_n/parser, generic/parse.rs, Display of moves | Model_Parser |
| From/TryFrom, constructors and accessors of moves and edges, random algs | Model_Extra |
| generic/search/*, cube_n/search.rs | Model_Search, Model_Float |
| cube_n/cube3/cfop/cross.rs, heuristics/manhattan.rs | Model_Cross |
| cube_n/cube3/mus/{index,deindex} | Model_Mus |
| cube_n/cube3/mus/cache/{generation,mod}.rs, heuristics/mus.rs | Model_Cache |
| cube_n/cube3/mus/cache/disk_storage.rs | Model_Disk (one process at a time, faults and crashes), Model_Concurrent (many processes) |
| `Debug` texts of faces, colours and pieces | Model_Debug |
| cube_n/cube3/mus/cache/generation.rs (`Stats::new`, reports) | Model_Stats |
| cube_n/cube3/mus/cache/generation.rs (`Display for Stats`, messages) | Model_Report |
| cube_n/cube3/mus/cache/disk_storage.rs, mod.rs (messages of init and load) | Model_Log |
| cube_n/moves/mod.rs (the uninitialised array of AxisMove::all) | Model_All |
| cube_n/cube3/mus/cache/mod.rs (`OnceLock`), mus_with_fallback during a search | Model_Threads, Model_Timed |
| main.rs | Model_Playground, Model_Main |
| generic/parse.rs, moves/wide.rs, main.rs (messages of errors) | Model_Errors |
| the derives of Hash | Model_Hash |

Integers: depths are `u32` modelled by `N` with the overflow checks where they matter (C26, C47); `usize`
indices are `N` or `nat` with theorems that they stay far below 2^64 (C31, C32, C50).  Arithmetic overflow is
a panic, as in a debug build; `debug_assert!`s are checked as in a debug build.

Not modelled: terminal escape codes, the texts of errors of `pest` and of panics, the time in front of each message of the table
builder, the memory layout behind the four `transmute`s (moves/mod.rs:78, moves/wide.rs:92 and 150,
cache/generation.rs:74; the values are modelled), how hash tables lie in memory,
memory orderings below `OnceLock` (its reads are taken as atomic), performance, benches and tests.

A crash of the process leaves what was written so far.  A loss of power may leave less: what it can leave is an
assumption about the operating system, stated in Spec_Power.v and used by C98 only.

Conformance: Check_RepoTests.v replays the unit tests and documentation examples of /repo on the model, with the
expected values of their authors.  These are tests of the model, not claims.  They settle one point that the text of
/repo leaves open: `cartesian_array_map!`, which builds the lists of places, is a macro of another crate, and
`center_wings_normal_directions` (cube6/test.rs:60-71) shows that its first factor varies fastest.

## Findings

Properties that the code violates, with the theorem that shows it:

* **C09 Random Cube2 is valid and can be any 2x2 state.** First half proved (always valid, solvable). Second half is false: corners are shuffled but never twisted, so e.g. the state after R is never produced (C09_every_state_refuted). Exact set of outcomes: C09_outcomes_partial.
* **C15 Wide moves turn exactly the right layers.** False as stated: on the 5x5x5 and 7x7x7 the centre-edge pieces are compared with the const generic maximum depth instead of the depth of the move (C15_center_edges_refuted). Proved for every other piece of every cube, for all pieces of the 2,3,4,6 cubes, and for the widest move of every cube. Every wide move turns the centre edges like the widest move (C15_center_edges_exact), so the claim holds exactly for the cubes without centre edges and for widest moves (C15_right_exactly).
* **C16 A plain face move equals the depth-0 wide move.** False as stated on Cube4..Cube7 (C16_axis_move_refuted): an AxisMove is the widest wide move. That characterisation is proved for every cube, state and move; the claim itself holds on Cube2 and Cube3.
* **C17 Big-cube models track every visible cubie.** False on Cube5, which has no wings (C17_cube5_refuted); proved for all other cubes, and for Cube5 up to exactly the missing wings.
* **C18 Big-cube is_solved means every face has one colour.** False on Cube4, 6, 7 (a centre three-cycle between L and D is reported solved) and on Cube5 (an invisible centre cycle is reported unsolved). The true directions and the exact meaning on 4, 6, 7 (C18_is_solved_exact_partial) and on 5 (C18_cube5_exact_partial) are proved.
* **C20 normalized() removes all obvious redundancies.** The full claim is false of the code: "R F' F R L" normalises to "L R R" (C20_normalized_redundant_refuted), and "R' F' F R L" to "L R' R". Proved instead: irredundant and idempotent for every alg in which no run on one axis cancels a face completely, or that is shortened by at most one move (C20_redundant_only_if_shorter_partial); the fixed points exactly; more passes than half of the length always give an irredundant alg (C20_repeated_partial), but no fixed number of passes does (C20_passes_refuted).
* **C26 Wide-move text round-trips.** False as stated: display writes depth+1 for depths >= 2 while the parser reads the digit as the depth itself and reads only one digit; display overflows at depth u32::MAX. C26_roundtrip_refuted gives the counterexample, C26_depth_0_1_partial the part that holds, C26_depth_2_8, C26_depth_9 and C26_depth_max what happens for every other depth.
* **C34 Unchecked cache lookups stay in bounds.** Holds for every cube with one piece at each position (C34_partial), hence for every safe caller that does not use PieceSet::iter_mut_unchecked (C34_no_mutation_partial). False in general: the safe public iter_mut_unchecked can put all corners on one place, and the corner index then lies beyond the table (C34_refuted).
* **C38 Cache files are never silently wrong after a crash.** Never silently partial: proved for every fault, crash point and history. Recovery without help is refuted (C38_recovery_refuted: a crash during the first write leaves a short file on which every later init panics); C38_recovery_partial proves recovery when no file has a wrong length, e.g. after the files are deleted.
* **C43 The manhattan heuristic never overestimates.** False: R2 is one move and is estimated at 1.5 (C43_overestimates_refuted), and after R2 L2 the search with this heuristic returns three moves (C43_search_refuted). Proved: the exact value of the heuristic, at most 1 per quarter turn and 1.5 per half turn of any solution; whatever the search with it returns is a solution at most two moves (and at most half) longer than a shortest one (C43_search_near_optimal_partial), and it finds one whenever there is one of at most 23 moves (C43_search_finds_partial).
* **C45 Orientation tracks whole-cube rotations.** The tracking part is proved for every sequence of rotations. rotations() is wrong for exactly 6 of the 24 orientations (C45_rotations_refuted, C45_rotations_partial).
* **C46 Moves on a rotated Orientable act on the face the user sees.** False on every cube (C46_refuted). Proved: rotations are right; exact effect of face moves and of wide moves up to half of the cube in every orientation (C46_face_exact, C46_wide_exact), the orientations in which they are right, very deep wide moves, half-turn slices; exact effect of the middle depths and of all slices (C46_middle_wide_exact, C46_slice_exact); refuted: wide moves in every other orientation, middle depths, quarter-turn slices, face moves on the big cubes.
* **C47 Extended moves never panic.** False: exactly the wide moves of depth N/2 .. N-N/2 panic (C47_panic_exactly), e.g. Rw on the 3x3x3.
* **C53 Processes that share the cache directory get complete tables.** False (C53_exact_refuted): two concurrent first runs that both stop can leave a file of the right length that starts with zeros, which every later init accepts. Proved: if no process stops in the middle of a write, every file nobody is writing is complete (C53_quiet_files_partial), and a run of init leaves both files behind so that the next process reads them instead of building (C53_files_left_partial); C52 covers what holds in general.
* **C57 Square::at returns the closest cell.** False (C57_refuted): coordinates are scaled by N/3 instead of (N-1)/2, so on every square from 5x5 on the outermost stickers land in the wrong row, and on 2x2 the boundary is off. Proved for 3x3, the only size the library draws, for every rational point (C57_three_partial, C57_three_defined_partial), and for the corner stickers of 2x2 to 4x4 (C57_corners_partial). The f32 arithmetic agrees with exact arithmetic for the coordinates of pieces (C57_float_pieces) and, on all seven sizes, for every f32 at least 2^-18 away from the borders between the cells (C57_float_cells); infinities and NaN are covered by C57_float_infinite and C57_float_nan. The same for whole points and any distance from the face (C57_float_points), except that a point infinitely far in front of a face is given the first cell (C57_float_points_refuted). Within rounding error of a border it does not (C57_float_refuted).
* **C66 Progress reports do not disturb the building of a table.** Proved for clocks within three years of the start in either direction. False beyond: with a clock put forward by four years before the first report of the corner table, the estimated time left is not a chrono Duration and the builder panics (C66_refuted). C66_threshold_partial locates the limit for any table and clock up to the rounding of doubles; C66_figures_partial says what the figures are.
* **C68 is_solved of an orientable cube does not depend on how it is held.** False on every size: a solved cube that is turned as a whole is reported unsolved (C68_turned_refuted, C68_claim_refuted), and on 4, 6, 7 the result also differs from is_solved of the base cube (C68_base_refuted). Exact meaning: C68_exact_partial; a cube reported solved looks solved (C68_solved_looks_partial); on the 3x3x3 the orientation is the only difference (C68_three_partial).
* **C69 No line typed into the playground crashes it.** False: the lines with a wide move written without a number or with 1 or 2 (`Rw`, `1Rw`, `2Rw`) are accepted by the parser and crash the program (C69_refuted). Proved: exactly these lines do, in any state; every other input is survived to its end (C69_exact_partial). The end of the input itself is an unwrap of None, so the program never returns from the playground (C69_never_returns_partial).
* **C70 The playground shows the cube as the user holds it.** False: the playground prints the base cube, so whole-cube rotations (and those implied by slices and wide moves) are not shown: the empty session and the line `x` end with the same picture and different views (C70_refuted). Proved: after each line the picture is that of the base cube reached by all lines so far and is drawn without panic; two pictures agree exactly if the base cubes do; the claim holds for sessions that leave the cube held alike, such as those with face moves only.
* **C74 Everything a real cube can be turned into, the cube of this library can be turned into.** False on the 5x5x5 and the 7x7x7: centre edges ignore the depth of a move, so they can never leave the edge piece they start at, and a single slice turn of a real cube gives a position that no word reaches (C74_refuted). True on the 4x4x4 and the 6x6x6 (C74_even_sizes_partial). Proved instead for the 5x5x5 and the 7x7x7: exactly which states are reachable and solvable (laws5 and laws7 of Spec_BigLaws), with the same bound on the number of moves, and which can be turned until is_solved is true.
* **C75 All outcomes of Alg::random are equally likely.** False for every length from one on (C75_refuted): a round that draws two moves when only one more fits keeps the first of them, which is always R, U or F, so an alg ending with one of these is four times as likely as the same alg ending with the opposite face, and every pair of neighbours on one axis makes an alg 30 times as likely, because it takes a round less. Proved instead: the exact number of choices behind each outcome (C75_exact_partial, of the number given by C75_number_of_choices), and exactly which outcomes are equally likely (C75_equally_likely_partial). That the generator makes all choices equally likely is an assumption about the rand crate.
* **C84 A wide move does the same in every type it can be held in.** False as stated on Cube4..Cube7 (C84_types_agree_refuted): held in a WideAxisMove<0>, a move of depth 0 is the widest wide move (see C16), in the other types it turns the outer layer. Proved for all types other than WideAxisMove<0>, and what that type does on every size.
* **C85 Vectors of faces and axes, and the coordinates of a slice.** The claim on the order of the coordinates is false across the y axis (C85_same_order_refuted): slice_coords gives (x, z), map_on_slice and edges use (z, x). Proved across the other axes, with the exchange stated for y; the claims on vectors and faces hold.
* **C98 Cache files after a loss of power.** False as stated: a file of the right length is taken as it is, so after a loss of power that left only the length, every later init returns a table of zeros and the heuristic is 0 on every cube (C98_right_tables_refuted); such a file is never repaired (C98_kept). Proved instead for every history with losses of power: every entry of a returned table is the right one or 0 (C98_entries_right_or_zero_partial), so the heuristic never overestimates and solutions are still as short as possible; and deleting the files makes everything right again. What a loss of power can leave is an assumption, stated in Spec_Power.v.
* **C104 A 2x2x2, 4x4x4 or 6x6x6 that looks solved is solved.** False as stated: R L' on a solved Cube2, Cube4 or Cube6 turns the whole cube, after which every face shows one colour but is_solved() is false, since it compares with the solved cube held one way (C104_refuted). Proved instead: a valid cube of even size shows one colour on every face exactly if some turns of the whole cube bring every colour to its own face (C104_held_partial); a valid 2x2x2 does so exactly if it is the solved cube turned as a whole, there are 24 such cubes, and is_solved() holds exactly for the one that shows every colour on its own face (C104_two_partial). How is_solved() of Cube4 and Cube6 compares with that one look is C18.

Smaller observations made while modelling: the documentation of the unfolded net says `R F L` where the code
prints `L F R` (Spec_Unfolded); the documentation of the U permutation names corners (C51_U_fixes_corners);
`WideAxisMove`'s text form cannot be read back for depth 2 and more (C26); a progress report can say 100.00%
before the last one (C91_example), and the precision of `{eta:.2}` has no effect on whole minutes.

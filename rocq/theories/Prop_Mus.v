(** Properties of the indices of partial cubes (C31, C32, C33, C34, C50). *)

From Coq Require Import List Bool Arith NArith Lia Permutation.
From Verif Require Import Model_Base Model_Space Model_Moves Model_Pieces Model_PieceSet Model_Cubes Model_Invariants Model_Mus
  Spec_Sets Spec_Invariants Spec_Mus Proof_Moves Proof_Sets Proof_Random Proof_Mus Prop_Sets.
Import ListNotations.
Local Open Scope nat_scope.

(* ------------------------------------------------------------------ *)
(** * C31 Corner index is a bijection *)

Theorem C31_corner_bijection : numbering corner_state corner_states corners_index corners_from_index.
Proof. exact corners_numbering. Qed.
Theorem C31_size : corner_states = 88179840%N /\ corners_total_set_size = corner_states /\ corner_states = (product 8 * 3 ^ 7)%N.
Proof. repeat split; reflexivity. Qed.
(** Beyond the table, decoding panics. *)
Theorem C31_out_of_range : forall i, (corner_states <= i)%N -> corners_from_index i = Panic.
Proof.
  intros i H. unfold corner_states in H. unfold corners_from_index, corners_orientation_set_size. cbv zeta.
  rewrite deindex_out_of_range; [reflexivity|lia|]. change (rising (N.of_nat (8 - 8)) 8) with 40320%N.
  apply N.div_le_lower_bound; lia.
Qed.
(** The solved corners are number 0, where the table is started. *)
Theorem C31_solved_is_zero : corners_index corner_solved = Done 0%N.
Proof. reflexivity. Qed.

(** A state with twisted and permuted corners: after R. *)
Example C31_example : corner_state (corner_set_apply corner_solved (mkMove fR Single)) /\
  corners_index (corner_set_apply corner_solved (mkMove fR Single)) = Done 45749216%N.
Proof.
  split; [|reflexivity]. split; [reflexivity|]. split; [|reflexivity].
  apply corner_index_position. cbv. repeat constructor; cbn; intuition discriminate.
Qed.

(* ------------------------------------------------------------------ *)
(** * C32 Half-edge index is a bijection *)

Theorem C32_half_edge_bijection : numbering half_edge_state half_edge_states edges_index edges_from_index.
Proof. exact edges_numbering. Qed.
Theorem C32_size : half_edge_states = 42577920%N /\ edges_total_set_size = half_edge_states /\
  (half_edge_states * product 6 = product 12 * 2 ^ 6)%N.
Proof. repeat split; reflexivity. Qed.
Theorem C32_out_of_range : forall i, (half_edge_states <= i)%N -> edges_from_index i = Panic.
Proof.
  intros i H. unfold half_edge_states in H. unfold edges_from_index, edges_orientation_set_size. cbv zeta.
  rewrite deindex_out_of_range; [reflexivity|lia|]. change (rising (N.of_nat (12 - 6)) 6) with 665280%N.
  apply N.div_le_lower_bound; lia.
Qed.
Theorem C32_solved_is_zero :
  edges_index (firstn 6 edge_solved) = Done 0%N /\ edges_index (adjust_second_edges (skipn 6 edge_solved)) = Done 0%N.
Proof. split; reflexivity. Qed.

(** Four of the six edges moved and two of them flipped: after F. *)
Example C32_example : half_edge_state (map (fun e => edge_apply e (mkMove fF Single)) (firstn 6 edge_solved)) /\
  edges_index (map (fun e => edge_apply e (mkMove fF Single)) (firstn 6 edge_solved)) = Done 7580716%N.
Proof.
  split; [|reflexivity]. split; [reflexivity|].
  apply edge_index_position. cbv. repeat constructor; cbn; intuition discriminate.
Qed.

(* ------------------------------------------------------------------ *)
(** * C33 Whole-cube indices round-trip *)

Lemma nodup_app_inv {A} (l r : list A) : NoDup (l ++ r) -> NoDup l /\ NoDup r.
Proof.
  induction l as [|a l IH]; intros H; [split; [constructor|exact H]|]. cbn in H. inversion H as [|? ? N D]; subst.
  destruct (IH D) as [P Q]. split; [|exact Q]. constructor; [|exact P]. intros I. apply N, in_or_app. left. exact I.
Qed.
Lemma adjust_position e : edge_position_index (edge_rotate e (mkRot AX Double)) = (edge_position_index e + 6) mod 12.
Proof. destruct e as [[] [[] []] o]; reflexivity. Qed.
Lemma adjust_twice_one e : edge_rotate (edge_rotate e (mkRot AX Double)) (mkRot AX Double) = e.
Proof. destruct e as [[] [[] []] []]; reflexivity. Qed.
Lemma adjust_twice es : adjust_second_edges (adjust_second_edges es) = es.
Proof. unfold adjust_second_edges. rewrite map_map. rewrite <- (map_id es) at 2. apply map_ext, adjust_twice_one. Qed.
Lemma adjust_nodup es : NoDup (map edge_position es) -> NoDup (map edge_position (adjust_second_edges es)).
Proof.
  unfold adjust_second_edges. rewrite map_map. apply nodup_map_iff. intros a b.
  destruct a as [[] [[] []] o], b as [[] [[] []] o']; split; first [reflexivity|discriminate].
Qed.
Lemma halves c : one_piece_everywhere edge_desc (c3_edges c) ->
  half_edge_state (firstn 6 (c3_edges c)) /\ half_edge_state (adjust_second_edges (skipn 6 (c3_edges c))) /\
  NoDup (map edge_position (c3_edges c)).
Proof.
  intros W. apply (set_valid_spec _ edge_desc_ok) in W. destruct W as [L N]. cbn [pd_position edge_desc] in N.
  change (length (pd_reference edge_desc)) with 12 in L. pose proof N as N'.
  rewrite <- (firstn_skipn 6 (c3_edges c)), map_app in N'. apply nodup_app_inv in N'. destruct N' as [A B].
  split; [|split; [|exact N]].
  - split; [rewrite firstn_length, L; reflexivity|exact A].
  - split; [unfold adjust_second_edges; rewrite map_length, skipn_length, L; reflexivity|apply adjust_nodup, B].
Qed.
Lemma set_new_edges es : NoDup (map edge_position es) -> set_new edge_desc es = Ok es.
Proof. intros H. unfold set_new. rewrite (proj2 (validate_none edge_desc edge_desc_ok es) H). reflexivity. Qed.
Lemma eight_corners cs : one_piece_everywhere corner_desc cs -> length cs = 8 /\ NoDup (map c_pos cs).
Proof. intros W. apply (set_valid_spec _ corner_desc_ok) in W. destruct W as [L N]. split; [exact L|exact N]. Qed.

Theorem C33_round_trip : forall c, cube_well_formed Size3 c -> twists_divisible (c3_corners c) ->
  exists ix, cube_indices c = Done ix /\ cube_from_indices ix = Done c.
Proof.
  intros [es cs] [We Wc] T. cbn [c3_edges c3_corners] in *.
  destruct (halves (mkCube3 es cs) We) as (H1 & H2 & N). cbn [c3_edges] in *.
  destruct (eight_corners cs Wc) as [L8 N8].
  destruct (proj1 corners_numbering cs (conj L8 (conj N8 T))) as (ci & Ec & _ & Dc).
  destruct (proj1 edges_numbering _ H1) as (i1 & E1 & _ & D1).
  destruct (proj1 edges_numbering _ H2) as (i2 & E2 & _ & D2).
  exists (mkIndices ci i1 i2). unfold cube_indices, edge_partition, cube_from_indices. cbn [c3_edges c3_corners ix_corners ix_edges1 ix_edges2].
  rewrite Ec, E1, E2, Dc, D1, D2. cbn [bind_o]. split; [reflexivity|].
  rewrite set_new_corners by exact N8. rewrite adjust_twice, firstn_skipn. rewrite set_new_edges by exact N. reflexivity.
Qed.
(** Hence different cubes have different index triples. *)
Theorem C33_injective : forall c c',
  cube_well_formed Size3 c -> twists_divisible (c3_corners c) ->
  cube_well_formed Size3 c' -> twists_divisible (c3_corners c') ->
  cube_indices c = cube_indices c' -> c = c'.
Proof.
  intros c c' W T W' T' E.
  destruct (C33_round_trip c W T) as (ix & I & F). destruct (C33_round_trip c' W' T') as (ix' & I' & F').
  rewrite I, I' in E. injection E as <-. rewrite F in F'. injection F' as <-. reflexivity.
Qed.
(** Conversely a triple in range decodes to the cube with those indices, unless two edges
    collide, in which case decoding panics. *)
Theorem C33_from_indices : forall ix,
  (ix_corners ix < corner_states)%N -> (ix_edges1 ix < half_edge_states)%N -> (ix_edges2 ix < half_edge_states)%N ->
  (exists c, cube_from_indices ix = Done c /\ cube_well_formed Size3 c /\ twists_divisible (c3_corners c) /\ cube_indices c = Done ix) \/
  (cube_from_indices ix = Panic /\
   forall c, cube_well_formed Size3 c -> twists_divisible (c3_corners c) -> cube_indices c <> Done ix).
Proof.
  intros [ci i1 i2] Hc H1 H2. cbn [ix_corners ix_edges1 ix_edges2] in *.
  destruct (proj2 corners_numbering ci Hc) as (cs & Dc & (L8 & N8 & T) & Ec).
  destruct (proj2 edges_numbering i1 H1) as (e1 & D1 & (L1 & N1) & E1).
  destruct (proj2 edges_numbering i2 H2) as (e2 & D2 & (L2 & N2) & E2).
  assert (F : cube_from_indices (mkIndices ci i1 i2) =
    match set_new edge_desc (e1 ++ adjust_second_edges e2) with Err _ => Panic | Ok edges => Done (mkCube3 edges cs) end).
  { unfold cube_from_indices. cbn [ix_corners ix_edges1 ix_edges2]. rewrite Dc, D1, D2. cbn [bind_o].
    rewrite set_new_corners by exact N8. reflexivity. }
  destruct (set_new edge_desc (e1 ++ adjust_second_edges e2)) as [es|err] eqn:S.
  - left. assert (V : es = e1 ++ adjust_second_edges e2 /\ NoDup (map edge_position es)).
    { unfold set_new in S. destruct (set_validate edge_desc (e1 ++ adjust_second_edges e2)) eqn:V; [discriminate S|].
      injection S as <-. split; [reflexivity|]. apply (validate_none edge_desc edge_desc_ok) in V. exact V. }
    destruct V as [-> ND]. exists (mkCube3 (e1 ++ adjust_second_edges e2) cs). rewrite F. split; [reflexivity|].
    assert (LA : length (adjust_second_edges e2) = 6) by (unfold adjust_second_edges; rewrite map_length; exact L2).
    split; [|split; [exact T|]].
    + split; cbn [c3_edges c3_corners].
      * apply (set_valid_spec _ edge_desc_ok). split; [rewrite app_length, L1, LA; reflexivity|exact ND].
      * apply (set_valid_spec _ corner_desc_ok). split; [exact L8|exact N8].
    + unfold cube_indices, edge_partition. cbn [c3_edges c3_corners].
      rewrite firstn_app, L1, Nat.sub_diag, firstn_O, app_nil_r, firstn_all2 by lia.
      rewrite skipn_app, L1, Nat.sub_diag, skipn_all2 by lia. cbn [skipn app]. rewrite adjust_twice, Ec, E1, E2. reflexivity.
  - right. split; [exact F|]. intros c W Tc E. destruct (C33_round_trip c W Tc) as (ix & I & G).
    rewrite I in E. injection E as ->. rewrite F in G. discriminate G.
Qed.

(** The solved cube has indices 0, 0, 0. *)
Theorem C33_solved : cube_indices (mkCube3 edge_solved corner_solved) = Done (mkIndices 0 0 0).
Proof. reflexivity. Qed.
Example C33_example :
  cube_indices (cube3_apply (mkCube3 edge_solved corner_solved) (mkMove fF Single)) = Done (mkIndices 22308804 7580716 2616848).
Proof. reflexivity. Qed.
(** Two equal halves collide. *)
Example C33_example_collision : cube_from_indices (mkIndices 0 0 (fst (from_outcome (0%N, 0%N)
  (map_o (fun i => (i, i)) (edges_index (adjust_second_edges (firstn 6 edge_solved))))))) = Panic.
Proof. reflexivity. Qed.

(* ------------------------------------------------------------------ *)
(** * C34 Unchecked cache lookups stay in bounds *)

(** The numbers with which [Cache::get] indexes its tables are defined and below their
    lengths. *)
Definition lookups_in_bounds (c : Cube3) : Prop :=
  exists ix, cube_indices c = Done ix /\ (ix_corners ix < corner_states)%N /\
    (ix_edges1 ix < half_edge_states)%N /\ (ix_edges2 ix < half_edge_states)%N.

(** [PieceSet::iter_mut_unchecked] (set.rs:97-101), a safe public method: the caller may
    assign any piece to any place of the array; lengths stay. *)
Definition mutate {P} (f : nat -> P -> P) (s : list P) : list P :=
  map (fun x => f (fst x) (snd x)) (combine (seq 0 (length s)) s).

(** What a safe caller can do with the public API: build validated sets, apply moves,
    swap edges, and, if [mut], mutate pieces. *)
Inductive safe_cube (mut : bool) : Cube3 -> Prop :=
| safe_new es cs : length es = 12 -> length cs = 8 ->
    set_new edge_desc es = Ok es -> set_new corner_desc cs = Ok cs -> safe_cube mut (mkCube3 es cs)
| safe_move c m : safe_cube mut c -> safe_cube mut (cube3_apply c m)
| safe_swap_edges c es a b : safe_cube mut c -> set_swap edge_desc (c3_edges c) a b = Done es ->
    safe_cube mut (mkCube3 es (c3_corners c))
| safe_swap_corners c cs a b : safe_cube mut c -> set_swap corner_desc (c3_corners c) a b = Done cs ->
    safe_cube mut (mkCube3 (c3_edges c) cs)
| safe_mutate c f g : mut = true -> safe_cube mut c ->
    safe_cube mut (mkCube3 (mutate f (c3_edges c)) (mutate g (c3_corners c))).

Theorem C34_partial : forall c, cube_well_formed Size3 c -> lookups_in_bounds c.
Proof.
  intros [es cs] [We Wc]. cbn [c3_edges c3_corners] in *.
  destruct (halves (mkCube3 es cs) We) as (H1 & H2 & N). cbn [c3_edges] in *.
  destruct (eight_corners cs Wc) as [L8 N8].
  destruct (corners_index_value cs L8 N8) as (p & o & Ec & Bp & Bo & _ & _).
  destruct (proj1 edges_numbering _ H1) as (i1 & E1 & B1 & _).
  destruct (proj1 edges_numbering _ H2) as (i2 & E2 & B2 & _).
  exists (mkIndices (p * 2187 + o) i1 i2). unfold cube_indices, edge_partition. cbn [c3_edges c3_corners ix_corners ix_edges1 ix_edges2].
  rewrite Ec, E1, E2. split; [reflexivity|]. split; [unfold corner_states; lia|]. split; assumption.
Qed.
(** So it holds for a caller that does not use [iter_mut_unchecked]. *)
Theorem C34_no_mutation_partial : forall c, safe_cube false c -> lookups_in_bounds c.
Proof.
  intros c S. apply C34_partial. induction S as [es cs L12 L8 E C|c m S IH|c es a b S IH E|c cs a b S IH E|c f g M S IH].
  - unfold set_new in E, C. destruct (set_validate edge_desc es) eqn:VE; [discriminate E|].
    destruct (set_validate corner_desc cs) eqn:VC; [discriminate C|].
    apply (validate_none _ edge_desc_ok) in VE. apply (validate_none _ corner_desc_ok) in VC.
    split; [apply (set_valid_spec _ edge_desc_ok)|apply (set_valid_spec _ corner_desc_ok)]; split; assumption.
  - exact (C03_valid_after_history Size3 c [EvMove m] IH).
  - destruct IH as [We Wc]. split; cbn [c3_edges c3_corners]; [|exact Wc].
    destruct (C05_swap edge_desc (c3_edges c) a b KnownEdge (proj1 We)) as (es' & E' & _ & _ & _ & _ & W').
    rewrite E in E'. injection E' as <-. apply W'; assumption.
  - destruct IH as [We Wc]. split; cbn [c3_edges c3_corners]; [exact We|].
    destruct (C05_swap corner_desc (c3_corners c) a b KnownCorner (proj1 Wc)) as (cs' & E' & _ & _ & _ & _ & W').
    rewrite E in E'. injection E' as <-. apply W'; assumption.
  - discriminate M.
Qed.
Example C34_example : cube_well_formed Size3 (cube3_apply (mkCube3 edge_solved corner_solved) (mkMove fR Double)).
Proof. exact (C03_valid_from_solved Size3 [EvMove (mkMove fR Double)]). Qed.

(** The property is false: all corners put on the last place by [iter_mut_unchecked]. *)
Definition stacked : Cube3 := mkCube3 edge_solved (repeat (mkCorner (mkVec3 Negative Negative Negative) AY) 8).
Theorem C34_refuted : safe_cube true stacked /\ exists ix, cube_indices stacked = Done ix /\ (corner_states <= ix_corners ix)%N.
Proof.
  split.
  - assert (E : stacked = mkCube3 (mutate (fun _ e => e) edge_solved) (mutate (fun _ _ => mkCorner (mkVec3 Negative Negative Negative) AY) corner_solved)) by reflexivity.
    rewrite E. apply (safe_mutate true (mkCube3 edge_solved corner_solved)); [reflexivity|]. apply safe_new; reflexivity.
  - eexists. split; [vm_compute; reflexivity|]. cbn [ix_corners]. unfold corner_states. lia.
Qed.

(* ------------------------------------------------------------------ *)
(** * C50 factorial is exact below its limit *)

Theorem C50_factorial : forall n : N,
  factorial n = Done (if N.leb n 20 then product (N.to_nat n) else 0%N).
Proof.
  intros n. unfold factorial. destruct (N.leb_spec n 20) as [H|H]; [|reflexivity].
  assert (K : N.to_nat n <= 20) by lia. generalize dependent (N.to_nat n). clear. intros n H.
  do 21 (destruct n as [|n]; [reflexivity|]). lia.
Qed.
(** The constants of the tables are those of the formulas in the source. *)
Theorem C50_set_sizes :
  factorial 8 = Done corners_position_set_size /\ (3 ^ 7 = corners_orientation_set_size)%N /\
  bind_o (factorial 12) (fun a => bind_o (factorial 6) (fun b => Done (a / b)%N)) = Done edges_position_set_size /\
  (2 ^ 6 = edges_orientation_set_size)%N.
Proof. repeat split; reflexivity. Qed.
Example C50_example : factorial 20 = Done 2432902008176640000%N /\ factorial 21 = Done 0%N.
Proof. split; reflexivity. Qed.
Print Assumptions C31_corner_bijection.
Print Assumptions C31_size.
Print Assumptions C31_out_of_range.
Print Assumptions C31_solved_is_zero.
Print Assumptions C32_half_edge_bijection.
Print Assumptions C32_size.
Print Assumptions C32_out_of_range.
Print Assumptions C32_solved_is_zero.
Print Assumptions C33_round_trip.
Print Assumptions C33_injective.
Print Assumptions C33_from_indices.
Print Assumptions C33_solved.
Print Assumptions C34_partial.
Print Assumptions C34_no_mutation_partial.
Print Assumptions C34_refuted.
Print Assumptions C50_factorial.
Print Assumptions C50_set_sizes.

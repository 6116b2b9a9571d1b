(** Properties of the MUS tables and the MUS heuristic (C35, C36, C37). *)

From Coq Require Import List Bool Arith NArith ZArith Lia Permutation ZifyBool ZifyN ZifyNat.
From Verif Require Import Model_Base Model_Space Model_Moves Model_Pieces Model_PieceSet Model_Cubes Model_Invariants Model_Search
  Model_Float Model_Mus Model_Cache Spec_Sets Spec_Invariants Spec_Mus Spec_Cache
  Proof_Moves Proof_Sets Proof_Parity Proof_Solve Proof_Invariants Proof_Random Proof_Mus Proof_Cache Proof_Cross Prop_Sets Prop_Mus Prop_Search.
Import ListNotations.
Local Open Scope nat_scope.

(* ------------------------------------------------------------------ *)
(** * C35 The table builder terminates with exact distances *)

(** ** Corners *)

Lemma corner_state_valid cs : corner_state cs <-> set_valid corner_desc cs /\ twists_divisible cs.
Proof. unfold corner_state, set_valid. cbn [pd_position pd_reference corner_desc]. change (length corner_reference) with 8. tauto. Qed.
Lemma corner_state_move cs m : corner_state cs -> corner_state (corner_set_apply cs m).
Proof.
  rewrite !corner_state_valid. intros [V T]. split; [apply corner_set_valid, V|]. unfold twists_divisible. rewrite twists_move by exact V. exact T.
Qed.
Lemma corner_move_undo cs m : corner_set_apply (corner_set_apply cs m) (move_inverse m) = cs.
Proof. unfold corner_set_apply. rewrite map_map. rewrite <- (map_id cs) at 2. apply map_ext. intros c. apply corner_apply_inverse. Qed.
Lemma corner_solved_state : corner_state corner_solved.
Proof. apply corner_state_valid. split; [apply solved_valid, corner_desc_ok|reflexivity]. Qed.
Lemma corner_connected cs : corner_state cs -> exists al, length al <= 125 /\ fold_left corner_set_apply al cs = corner_solved.
Proof. rewrite corner_state_valid. intros [V T]. apply corners_solvable; assumption. Qed.

Theorem C35_corner_table : exists table, build_table corners_mus = Done table /\
  exact_table corner_states corners_from_index corner_set_apply corner_solved table.
Proof.
  refine (build_exact corners_mus corner_state corner_solved corners_numbering _ _ corner_solved_state eq_refl 125 _ corner_connected).
  - intros t m. apply corner_state_move.
  - intros t m _. apply corner_move_undo.
  - lia.
Qed.

(** ** Half the edges *)

Lemma half_edge_move es m : half_edge_state es -> half_edge_state (edge_set_apply es m).
Proof.
  intros [L D]. split; [unfold edge_set_apply; rewrite map_length; exact L|].
  unfold edge_set_apply. rewrite map_map.
  apply (nodup_map_iff (fun e => edge_position (edge_apply e m)) edge_position); [|exact D].
  intros a b. split; [apply edge_pos_inj|apply edge_pos_dep].
Qed.
Lemma edge_move_undo es m : edge_set_apply (edge_set_apply es m) (move_inverse m) = es.
Proof. unfold edge_set_apply. rewrite map_map. rewrite <- (map_id es) at 2. apply map_ext. intros c. apply edge_apply_inverse. Qed.
Lemma half_solved_state : half_edge_state (firstn 6 edge_solved).
Proof.
  destruct (halves cube3_solved) as (H & _); [|exact H]. apply (set_valid_spec _ edge_desc_ok), solved_valid, edge_desc_ok.
Qed.

(** Six edges can be completed to a solvable cube. *)
Lemma nodup_app_intro {A} (l r : list A) : NoDup l -> NoDup r -> (forall x, In x l -> ~ In x r) -> NoDup (l ++ r).
Proof.
  induction l as [|a l IH]; intros Dl Dr H; [exact Dr|]. inversion Dl as [|? ? N D]; subst. cbn. constructor.
  - intros I. apply in_app_or in I. destruct I as [I|I]; [exact (N I)|]. exact (H a (or_introl eq_refl) I).
  - apply IH; [exact D|exact Dr|]. intros x Hx. apply H. right. exact Hx.
Qed.
Lemma complete_edges es : half_edge_state es -> exists rest, set_valid edge_desc (es ++ rest).
Proof.
  intros [L D].
  set (ps := filter (fun p => negb (existsb (edgepos_eqb p) (map edge_position es))) edge_reference).
  assert (PS : forall p, In p ps <-> ~ In p (map edge_position es)).
  { intros p. unfold ps. rewrite filter_In, negb_true_iff, <- not_true_iff_false, (existsb_eqb _ edgepos_eqb_eq).
    split; [tauto|]. split; [apply edgepos_in_reference|assumption]. }
  assert (NP : NoDup ps) by (apply NoDup_filter, (do_nodup _ edge_desc_ok)).
  assert (ND : NoDup (map edge_position es ++ ps)).
  { apply nodup_app_intro; [exact D|exact NP|]. intros x Hx Hp. apply PS in Hp. exact (Hp Hx). }
  exists (map edge_oriented ps).
  assert (E : map edge_position (es ++ map edge_oriented ps) = map edge_position es ++ ps).
  { rewrite map_app, map_map. f_equal. rewrite <- (map_id ps) at 2. apply map_ext. intros [a b]. reflexivity. }
  split.
  - assert (P : Permutation (map edge_position es ++ ps) edge_reference).
    { apply NoDup_Permutation; [exact ND|apply (do_nodup _ edge_desc_ok)|]. intros p. split; [intros _; apply edgepos_in_reference|].
      intros _. apply in_or_app. destruct (existsb (edgepos_eqb p) (map edge_position es)) eqn:B.
      - left. apply (existsb_eqb _ edgepos_eqb_eq) in B. exact B.
      - right. apply PS. intros H. apply (existsb_eqb _ edgepos_eqb_eq) in H. congruence. }
    apply Permutation_length in P. rewrite <- E, map_length in P. exact P.
  - cbn [pd_position edge_desc]. rewrite E. exact ND.
Qed.
Lemma complete_even es : half_edge_state es -> exists rest, set_valid edge_desc (es ++ rest) /\ even_flips (es ++ rest).
Proof.
  intros H. destruct (complete_edges es H) as (rest & V). destruct (Nat.even (length (filter (fun e => negb (e_oriented e)) (es ++ rest)))) eqn:E.
  - exists rest. split; [exact V|exact E].
  - destruct (nonempty_last rest) as (r & x & ->).
    { intros ->. destruct V as [L _]. rewrite app_nil_r in L. destruct H as [L6 _]. rewrite L6 in L. discriminate L. }
    exists (r ++ [edge_flip x]). split.
    + refine (valid_same_positions edge_desc (es ++ r ++ [x]) _ _ V). rewrite !map_app. reflexivity.
    + unfold even_flips. rewrite app_assoc in *. rewrite filter_app, app_length, Nat.even_add in *. cbn [filter] in *.
      destruct x as [a s []]; cbn in *; destruct (Nat.even (length (filter _ (es ++ r)))); cbn in *; congruence.
Qed.
Definition swapped_corners : list Corner :=
  match corner_solved with a :: b :: l => b :: a :: l | l => l end.
Lemma swapped_valid : set_valid corner_desc swapped_corners.
Proof.
  split; [reflexivity|]. apply corner_index_position. cbv. repeat constructor; cbn; intuition discriminate.
Qed.
Lemma complete_cube es : half_edge_state es -> exists c, cube3_sets_valid c /\ invariants c /\ firstn 6 (c3_edges c) = es.
Proof.
  intros H. destruct (complete_even es H) as (rest & V & F).
  assert (FN : firstn 6 (es ++ rest) = es).
  { destruct H as [L _]. rewrite firstn_app, L, Nat.sub_diag, firstn_O, app_nil_r. apply firstn_all2. lia. }
  destruct (even_permutation (edge_permutation (es ++ rest))) eqn:E.
  - exists (mkCube3 (es ++ rest) corner_solved). split; [split; [exact V|apply solved_valid, corner_desc_ok]|].
    split; [|exact FN]. split; [exact E|]. split; [exact F|reflexivity].
  - exists (mkCube3 (es ++ rest) swapped_corners). split; [split; [exact V|apply swapped_valid]|].
    split; [|exact FN]. split; [exact E|]. split; [exact F|reflexivity].
Qed.
Lemma run3_edges al : forall c, c3_edges (run3 c al) = fold_left edge_set_apply al (c3_edges c).
Proof. induction al as [|m al IH]; intros c; [reflexivity|]. cbn [run3 fold_left]. apply (IH (cube3_apply c m)). Qed.
Lemma run3_corners al : forall c, c3_corners (run3 c al) = fold_left corner_set_apply al (c3_corners c).
Proof. induction al as [|m al IH]; intros c; [reflexivity|]. cbn [run3 fold_left]. apply (IH (cube3_apply c m)). Qed.
Lemma run_firstn n al : forall es, fold_left edge_set_apply al (firstn n es) = firstn n (fold_left edge_set_apply al es).
Proof. induction al as [|m al IH]; intros es; [reflexivity|]. cbn [fold_left]. rewrite <- IH. unfold edge_set_apply at 2 4. rewrite firstn_map. reflexivity. Qed.
Lemma run_skipn n al : forall es, fold_left edge_set_apply al (skipn n es) = skipn n (fold_left edge_set_apply al es).
Proof. induction al as [|m al IH]; intros es; [reflexivity|]. cbn [fold_left]. rewrite <- IH. unfold edge_set_apply at 2 4. rewrite skipn_map. reflexivity. Qed.
Lemma half_connected es : half_edge_state es -> exists al, length al <= 139 /\ fold_left edge_set_apply al es = firstn 6 edge_solved.
Proof.
  intros H. destruct (complete_cube es H) as (c & V & I & <-). destruct (solvable c V I) as (al & L & E).
  exists al. split; [exact L|]. rewrite run_firstn, <- run3_edges, E. reflexivity.
Qed.

Theorem C35_half_edge_table : exists table, build_table half_edges_mus = Done table /\
  exact_table half_edge_states edges_from_index edge_set_apply (firstn 6 edge_solved) table.
Proof.
  refine (build_exact half_edges_mus half_edge_state (firstn 6 edge_solved) edges_numbering _ _ half_solved_state eq_refl 139 _ half_connected).
  - intros t m. apply half_edge_move.
  - intros t m _. apply edge_move_undo.
  - lia.
Qed.

(** Seen from the states: the entry of every state is its distance. *)
Lemma table_entry {T} (S : T -> Prop) n f g moved (goal : T) table : numbering S n f g -> exact_table n g moved goal table ->
  forall t, S t -> exists i d, f t = Done i /\ nth_error table (N.to_nat i) = Some d /\ distance moved goal t (N.to_nat d).
Proof.
  intros [A _] [_ X] t H. destruct (A t H) as (i & E & B & G). destruct (X i B) as (t' & d & G' & N & D).
  rewrite G in G'. injection G' as <-. eauto.
Qed.
Theorem C35_corner_entries : forall table, build_table corners_mus = Done table ->
  forall cs, corner_state cs -> exists i d, corners_index cs = Done i /\ nth_error table (N.to_nat i) = Some d /\
    distance corner_set_apply corner_solved cs (N.to_nat d) /\ (d <= 125)%N.
Proof.
  intros table B cs H. destruct C35_corner_table as (t' & B' & X). rewrite B in B'. injection B' as <-.
  destruct (table_entry _ _ _ _ _ _ _ corners_numbering X cs H) as (i & d & E & N & D). exists i, d. repeat (split; [assumption|]).
  destruct (corner_connected cs H) as (al & L & S). apply (proj2 D) in S. lia.
Qed.
Theorem C35_half_edge_entries : forall table, build_table half_edges_mus = Done table ->
  forall es, half_edge_state es -> exists i d, edges_index es = Done i /\ nth_error table (N.to_nat i) = Some d /\
    distance edge_set_apply (firstn 6 edge_solved) es (N.to_nat d) /\ (d <= 139)%N.
Proof.
  intros table B es H. destruct C35_half_edge_table as (t' & B' & X). rewrite B in B'. injection B' as <-.
  destruct (table_entry _ _ _ _ _ _ _ edges_numbering X es H) as (i & d & E & N & D). exists i, d. repeat (split; [assumption|]).
  destruct (half_connected es H) as (al & L & S). apply (proj2 D) in S. lia.
Qed.

(** The corners after R are one move away. *)
Example C35_example : distance corner_set_apply corner_solved (corner_set_apply corner_solved (mkMove fR Single)) 1.
Proof.
  split; [exists [mkMove fR Inverse]; split; reflexivity|]. intros [|m al] E; [discriminate E|cbn; lia].
Qed.

(* ------------------------------------------------------------------ *)
(** * C36 The MUS heuristic is admissible *)

(** A complete cache: the two tables are those the builder makes. *)
Definition complete_cache (ca : Cache) : Prop :=
  build_table half_edges_mus = Done (ca_edges ca) /\ build_table corners_mus = Done (ca_corners ca).
Theorem C36_complete_cache_exists : exists ca, complete_cache ca.
Proof.
  destruct C35_half_edge_table as (te & Be & _). destruct C35_corner_table as (tc & Bc & _).
  exists (mkCache te tc). split; assumption.
Qed.

(** Turning the whole cube by x2 exchanges the two halves. *)
Definition x2_move (m : AxisMove) : AxisMove :=
  match face_axis (mv_face m) with
  | AX => m
  | _ => mkMove (opposite (mv_face m)) (mv_amount m)
  end.
Lemma x2_one e m : edge_rotate (edge_apply e m) (mkRot AX Double) = edge_apply (edge_rotate e (mkRot AX Double)) (x2_move m).
Proof. destruct e as [[] [[] []] []], m as [[[] []] []]; reflexivity. Qed.
Lemma x2_set es m : adjust_second_edges (edge_set_apply es m) = edge_set_apply (adjust_second_edges es) (x2_move m).
Proof. unfold adjust_second_edges, edge_set_apply. rewrite !map_map. apply map_ext. intros e. apply x2_one. Qed.
Lemma x2_run al : forall es, adjust_second_edges (fold_left edge_set_apply al es) = fold_left edge_set_apply (map x2_move al) (adjust_second_edges es).
Proof. induction al as [|m al IH]; intros es; [reflexivity|]. cbn [fold_left map]. rewrite IH, x2_set. reflexivity. Qed.
Lemma x2_move_twice m : x2_move (x2_move m) = m.
Proof. destruct m as [[[] []] []]; reflexivity. Qed.
Lemma x2_distance es goal d : distance edge_set_apply (adjust_second_edges goal) (adjust_second_edges es) d ->
  distance edge_set_apply goal es d.
Proof.
  intros [(al & L & E) M]. split.
  - exists (map x2_move al). split; [rewrite map_length; exact L|].
    rewrite <- (adjust_twice (fold_left _ _ _)), x2_run, map_map. rewrite <- (adjust_twice goal). f_equal. rewrite <- E. f_equal.
    rewrite <- (map_id al) at 2. apply map_ext, x2_move_twice.
  - intros al' E'. rewrite <- (map_length x2_move al'). apply M. rewrite <- x2_run, E'. reflexivity.
Qed.

(** The heuristic is the greatest of the numbers of moves needed for the corners, the first
    six edges and the last six edges, each taken alone. *)
Theorem C36_mus_value : forall ca c, complete_cache ca -> cube_well_formed Size3 c -> twists_divisible (c3_corners c) ->
  exists dc d1 d2, cache_get ca c = Done (N.max dc (N.max d1 d2)) /\
    distance corner_set_apply corner_solved (c3_corners c) (N.to_nat dc) /\
    distance edge_set_apply (firstn 6 edge_solved) (firstn 6 (c3_edges c)) (N.to_nat d1) /\
    distance edge_set_apply (skipn 6 edge_solved) (skipn 6 (c3_edges c)) (N.to_nat d2).
Proof.
  intros ca c [Be Bc] W T. pose proof W as [We Wc].
  destruct (halves c We) as (H1 & H2 & _). destruct (eight_corners _ Wc) as [L8 N8].
  destruct (C35_corner_entries _ Bc (c3_corners c) (conj L8 (conj N8 T))) as (ic & dc & Ec & Nc & Dc & _).
  destruct (C35_half_edge_entries _ Be _ H1) as (i1 & d1 & E1 & N1 & D1 & _).
  destruct (C35_half_edge_entries _ Be _ H2) as (i2 & d2 & E2 & N2 & D2 & _).
  exists dc, d1, d2. split.
  - unfold cache_get, cube_indices, edge_partition. rewrite Ec, E1, E2. cbn [bind_o ix_corners ix_edges1 ix_edges2].
    rewrite Nc, N1, N2. reflexivity.
  - split; [exact Dc|]. split; [exact D1|]. apply x2_distance. exact D2.
Qed.

Lemma run_well_formed al : forall c, cube_well_formed Size3 (fold_left cube3_apply al c) -> cube_well_formed Size3 c.
Proof.
  induction al as [|m al IH]; intros c H; [exact H|]. cbn [fold_left] in H. apply IH in H.
  rewrite <- (ma_inverse (cube_apply Size3) (cube_apply_ok Size3) c m).
  exact (cube_well_formed_move Size3 _ (move_inverse m) H).
Qed.
Lemma solved_well_formed al c : fold_left cube3_apply al c = cube3_solved -> cube_well_formed Size3 c /\ invariants c.
Proof.
  intros E. assert (W : cube_well_formed Size3 c).
  { apply (run_well_formed al). rewrite E. exact (cube_well_formed_solved Size3). }
  split; [exact W|]. apply cube3_sets_valid_spec in W. apply (invariants_run al c W).
  unfold run3. rewrite E. repeat split; reflexivity.
Qed.

Theorem C36_admissible : forall ca c al, complete_cache ca -> fold_left cube3_apply al c = cube3_solved ->
  exists v, cache_get ca c = Done v /\ (N.to_nat v <= length al)%nat.
Proof.
  intros ca c al CC E. destruct (solved_well_formed al c E) as [W (_ & _ & T)].
  destruct (C36_mus_value ca c CC W T) as (dc & d1 & d2 & G & (_ & Dc) & (_ & D1) & (_ & D2)).
  exists (N.max dc (N.max d1 d2)). split; [exact G|].
  specialize (Dc al). specialize (D1 al). specialize (D2 al).
  rewrite <- run3_corners in Dc. rewrite run_firstn, <- run3_edges in D1. rewrite run_skipn, <- run3_edges in D2.
  unfold run3 in *. rewrite E in *. specialize (Dc eq_refl). specialize (D1 eq_refl). specialize (D2 eq_refl). lia.
Qed.

Lemma distance_step {T} (moved : T -> AxisMove -> T) goal t m d d' :
  (forall t m, moved (moved t m) (move_inverse m) = t) ->
  distance moved goal t d -> distance moved goal (moved t m) d' -> d <= d' + 1 /\ d' <= d + 1.
Proof.
  intros I [(al & L & E) M] [(al' & L' & E') M']. split.
  - specialize (M (m :: al') E'). cbn in M. lia.
  - specialize (M' (move_inverse m :: al)). cbn [fold_left length] in M'. rewrite I in M'. specialize (M' E). lia.
Qed.
(** A move changes the heuristic by at most one; first for cubes whose twists add up. *)
Lemma lipschitz_divisible ca c m : complete_cache ca -> cube_well_formed Size3 c -> twists_divisible (c3_corners c) ->
  exists v v', cache_get ca c = Done v /\ cache_get ca (cube3_apply c m) = Done v' /\ (v <= v' + 1)%N /\ (v' <= v + 1)%N.
Proof.
  intros CC W T.
  assert (W' : cube_well_formed Size3 (cube3_apply c m)) by exact (cube_well_formed_move Size3 c m W).
  assert (T' : twists_divisible (c3_corners (cube3_apply c m))).
  { cbn [cube3_apply c3_corners]. unfold twists_divisible. rewrite twists_move; [exact T|]. apply cube3_sets_valid_spec in W. apply W. }
  destruct (C36_mus_value ca c CC W T) as (dc & d1 & d2 & G & Dc & D1 & D2).
  destruct (C36_mus_value ca _ CC W' T') as (dc' & d1' & d2' & G' & Dc' & D1' & D2').
  cbn [cube3_apply c3_corners c3_edges] in Dc', D1', D2'.
  unfold edge_set_apply in D1', D2'. rewrite firstn_map in D1'. rewrite skipn_map in D2'.
  fold (edge_set_apply (firstn 6 (c3_edges c)) m) in D1'. fold (edge_set_apply (skipn 6 (c3_edges c)) m) in D2'.
  fold edge_set_apply in D1', D2'.
  pose proof (distance_step _ _ _ _ _ _ corner_move_undo Dc Dc').
  pose proof (distance_step _ _ _ _ _ _ edge_move_undo D1 D1').
  pose proof (distance_step _ _ _ _ _ _ edge_move_undo D2 D2').
  exists (N.max dc (N.max d1 d2)), (N.max dc' (N.max d1' d2')). split; [exact G|]. split; [exact G'|]. lia.
Qed.

(** The index ignores the twist of the last corner. *)
Lemma corners_index_last l x x' : length l = 7 -> c_pos x = c_pos x' -> corners_index (l ++ [x]) = corners_index (l ++ [x']).
Proof.
  intros L E. unfold corners_index. rewrite !map_app. cbn [map]. rewrite (corner_index_pos_only _ _ E).
  rewrite !firstn_app, L, Nat.sub_diag, !firstn_O. reflexivity.
Qed.
Lemma divisible_twin c : cube_well_formed Size3 c -> exists c', cube_well_formed Size3 c' /\ twists_divisible (c3_corners c') /\
  cube_indices c' = cube_indices c /\ forall m, cube_indices (cube3_apply c' m) = cube_indices (cube3_apply c m).
Proof.
  destruct c as [es cs]. intros [We Wc]. cbn [c3_edges c3_corners] in *. destruct (eight_corners _ Wc) as [L8 N8].
  destruct (nonempty_last cs) as (l & x & ->); [intros ->; discriminate L8|].
  destruct (fix_corners_last l x) as (x' & _ & P & T). exists (mkCube3 es (l ++ [x'])).
  rewrite app_length in L8. cbn [length] in L8. split; [|split; [exact T|split]].
  - split; [exact We|]. cbn [c3_corners]. apply (set_valid_spec _ corner_desc_ok). apply (set_valid_spec _ corner_desc_ok) in Wc.
    refine (valid_same_positions corner_desc _ _ _ Wc). rewrite !map_app. cbn [map pd_position corner_desc]. rewrite P. reflexivity.
  - unfold cube_indices, edge_partition. cbn [c3_edges c3_corners]. rewrite (corners_index_last l x' x) by (assumption || lia). reflexivity.
  - intros m. unfold cube_indices, edge_partition. cbn [cube3_apply c3_edges c3_corners]. unfold corner_set_apply. rewrite !map_app. cbn [map].
    rewrite (corners_index_last _ (corner_apply x' m) (corner_apply x m)); [reflexivity|rewrite map_length; lia|].
    apply corner_pos_dep, P.
Qed.
Theorem C36_consistent : forall ca c m, complete_cache ca -> cube_well_formed Size3 c ->
  exists v v', cache_get ca c = Done v /\ cache_get ca (cube3_apply c m) = Done v' /\ (v <= v' + 1)%N /\ (v' <= v + 1)%N.
Proof.
  intros ca c m CC W. destruct (divisible_twin c W) as (c' & W' & T' & E & Em).
  unfold cache_get. rewrite <- E, <- Em. exact (lipschitz_divisible ca c' m CC W' T').
Qed.
Theorem C36_solved : forall ca, complete_cache ca -> cache_get ca cube3_solved = Done 0%N.
Proof.
  intros ca CC. destruct (C36_admissible ca cube3_solved [] CC eq_refl) as (v & G & L). rewrite G. f_equal. cbn in L. lia.
Qed.
(** Through the public functions: [mus] initialises the lock once and for all; with an
    initialised lock [mus_with_fallback] is the same function, without it is the fallback. *)
Theorem C36_public_functions : forall ca c fallback, complete_cache ca -> cube_well_formed Size3 c ->
  exists v, cache_get ca c = Done v /\
    mus (Done ca) None c = Done (Some ca, f32_of_Z (Z.of_N v)) /\
    (forall init, mus init (Some ca) c = Done (Some ca, f32_of_Z (Z.of_N v))) /\
    mus_with_fallback fallback (Some ca) c = Done (f32_of_Z (Z.of_N v)) /\
    mus_with_fallback fallback None c = fallback c.
Proof.
  intros ca c fb CC W. destruct (C36_consistent ca c (mkMove fR Single) CC W) as (v & _ & G & _).
  exists v. unfold mus, mus_with_fallback, cache_get_or_init, cache_lock_get. cbn [bind_o option_map]. rewrite G. repeat split; reflexivity.
Qed.

(** A cube two moves from solved, whose tables entries are positive. *)
Example C36_example : forall ca, complete_cache ca ->
  exists v, cache_get ca (fold_left cube3_apply [mkMove fR Single; mkMove fU Single] cube3_solved) = Done v /\ (v <= 2)%N /\ v <> 0%N.
Proof.
  intros ca CC. set (c := fold_left cube3_apply [mkMove fR Single; mkMove fU Single] cube3_solved).
  assert (W : cube_well_formed Size3 c) by exact (C03_valid_from_solved Size3 [EvMove (mkMove fR Single); EvMove (mkMove fU Single)]).
  destruct (C36_mus_value ca c CC W eq_refl) as (dc & d1 & d2 & G & ((al & L & E) & _) & _).
  destruct (C36_admissible ca c [mkMove fU Inverse; mkMove fR Inverse] CC eq_refl) as (v & G' & L').
  exists v. split; [exact G'|]. cbn in L'. split; [lia|]. rewrite G in G'. injection G' as <-.
  assert (dc <> 0%N); [|lia]. intros ->. destruct al; [discriminate E|discriminate L].
Qed.

(* ------------------------------------------------------------------ *)
(** * C37 solve_with_heuristic(mus) solves every solvable cube optimally *)

(** The value of the heuristic [mus] with the cache [ca]; 0 where it would panic, which by
    [C37_never_panics] is never reached. *)
Definition mus_value (ca : Cache) (c : Cube3) : f32 :=
  from_outcome (f32_of_Z 0) (map_o snd (mus (Done ca) (Some ca) c)).
Lemma table_small {T} n g moved (goal : T) table b : exact_table n g moved goal table ->
  (forall i t, (i < n)%N -> g i = Done t -> exists al, length al <= b /\ fold_left moved al t = goal) ->
  forall e, In e table -> (e <= N.of_nat b)%N.
Proof.
  intros [L X] C e I. apply In_nth_error in I. destruct I as (i & N).
  assert (i < length table) by (apply nth_error_Some; rewrite N; discriminate).
  destruct (X (N.of_nat i)) as (t & d & G & N' & D); [lia|]. rewrite Nat2N.id, N in N'. injection N' as <-.
  destruct (C (N.of_nat i) t) as (al & La & E); [lia|exact G|]. apply (proj2 D) in E. lia.
Qed.
Lemma cache_bounded ca c v : complete_cache ca -> cache_get ca c = Done v -> (v <= 139)%N.
Proof.
  intros [Be Bc] G. unfold cache_get in G. destruct (cube_indices c) as [ix|]; [|discriminate G]. cbn [bind_o] in G.
  destruct C35_corner_table as (tc & Bc' & Xc). rewrite Bc in Bc'. injection Bc' as <-.
  destruct C35_half_edge_table as (te & Be' & Xe). rewrite Be in Be'. injection Be' as <-.
  destruct (nth_error (ca_corners ca) _) as [a|] eqn:A; [|discriminate G].
  destruct (nth_error (ca_edges ca) (N.to_nat (ix_edges1 ix))) as [b|] eqn:B; [|discriminate G].
  destruct (nth_error (ca_edges ca) (N.to_nat (ix_edges2 ix))) as [d|] eqn:D; [|discriminate G]. injection G as <-.
  apply nth_error_In in A, B, D.
  assert (a <= 125)%N.
  { apply (table_small _ _ _ _ _ 125 Xc); [|exact A]. intros i t Hi E. destruct (proj2 corners_numbering i Hi) as (t' & E' & S & _).
    rewrite E in E'. injection E' as <-. apply corner_connected, S. }
  assert (HE : forall e, In e (ca_edges ca) -> (e <= 139)%N).
  { apply (table_small _ _ _ _ _ 139 Xe). intros i t Hi E. destruct (proj2 edges_numbering i Hi) as (t' & E' & S & _).
    rewrite E in E'. injection E' as <-. apply half_connected, S. }
  apply HE in B, D. lia.
Qed.

Theorem C37_solve_with_mus : forall ca c, complete_cache ca -> cube_well_formed Size3 c -> invariants c ->
  exists fuel0 al, (forall fuel, (fuel0 <= fuel)%nat ->
      solve_with_heuristic f32_costs (mus_value ca) fuel c = SolveDone (Some al)) /\
    fold_left cube3_apply al c = cube3_solved /\
    (forall al', fold_left cube3_apply al' c = cube3_solved -> (length al <= length al')%nat).
Proof.
  intros ca c CC W I.
  set (h := fun c => match cache_get ca c with Done v => Z.of_N v | Panic => 0%Z end).
  assert (E : forall x, mus_value ca x = f32_of_Z (h x)).
  { intros x. unfold mus_value, mus, cache_get_or_init, h. destruct (cache_get ca x); reflexivity. }
  apply cube3_sets_valid_spec in W. destruct (solvable c W I) as (al & _ & Sv).
  destruct (C29_solve_with_heuristic h) with (c := c) as (f0 & al' & R & S & O).
  - intros x. unfold h. destruct (cache_get ca x) as [v|] eqn:G; [|lia]. apply (cache_bounded ca x v CC) in G. lia.
  - intros x ax Ex. destruct (C36_admissible ca x ax CC Ex) as (v & G & L). unfold h. rewrite G. lia.
  - exists al. exact Sv.
  - exists f0, al'. split; [|split; assumption]. intros fuel Hf. rewrite <- (R fuel Hf). unfold solve_with_heuristic, solve.
    rewrite (search_ext f32_costs (cube3_problem (fun c => f32_of_Z (h c))) (cube3_problem (mus_value ca)) eq_refl eq_refl eq_refl E).
    reflexivity.
Qed.
(** On every cube the search can visit, [mus] has a value. *)
Theorem C37_never_panics : forall ca c al, complete_cache ca -> cube_well_formed Size3 c ->
  exists v, mus (Done ca) (Some ca) (fold_left cube3_apply al c) = Done (Some ca, v).
Proof.
  intros ca c al CC W. assert (W' : cube_well_formed Size3 (fold_left cube3_apply al c)).
  { revert c W. induction al as [|m al IH]; intros c W; [exact W|]. apply IH. exact (cube_well_formed_move Size3 c m W). }
  destruct (C36_public_functions ca _ (fun _ => Panic) CC W') as (v' & _ & _ & M' & _). eexists. apply M'.
Qed.

Example C37_example : cube_well_formed Size3 (cube3_apply (cube3_apply cube3_solved (mkMove fR Single)) (mkMove fU Double)) /\
  invariants (cube3_apply (cube3_apply cube3_solved (mkMove fR Single)) (mkMove fU Double)).
Proof.
  split; [exact (C03_valid_from_solved Size3 [EvMove (mkMove fR Single); EvMove (mkMove fU Double)])|].
  repeat split; reflexivity.
Qed.

Print Assumptions C35_corner_table.
Print Assumptions C35_half_edge_table.
Print Assumptions C35_corner_entries.
Print Assumptions C35_half_edge_entries.
Print Assumptions C36_complete_cache_exists.
Print Assumptions C36_mus_value.
Print Assumptions C36_admissible.
Print Assumptions C36_consistent.
Print Assumptions C36_solved.
Print Assumptions C36_public_functions.
Print Assumptions C37_solve_with_mus.
Print Assumptions C37_never_panics.

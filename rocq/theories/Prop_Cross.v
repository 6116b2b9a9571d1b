(** C39-C42: distances of edges, the cross heuristics and the cross solvers. *)

From Coq Require Import List Bool Arith ZArith SpecFloat Lia.
From Verif Require Import Model_Base Model_Space Model_Moves Model_Pieces Model_PieceSet Model_Cubes
  Model_Visual Model_Search Model_Float Model_Cross Spec_Search Spec_Geometry Spec_Stickers Spec_Sets Spec_Cross
  Proof_Sets Proof_Search Proof_Float Proof_FloatSearch Proof_Solve Proof_Invariants Proof_Cross Prop_Search.
Import ListNotations.
Open Scope nat_scope.

(* ------------------------------------------------------------------ *)
(** * C39: [min_moves_to_solve] *)

(** It is the length of a shortest alg that brings the edge home, for every edge and
    every home. *)
Theorem C39_min_moves_exact : forall (p : EdgePos) (e : Edge),
  (exists al, Z.of_nat (length al) = min_moves_to_solve p e /\ brings_edge p e al) /\
  (forall al, brings_edge p e al -> (min_moves_to_solve p e <= Z.of_nat (length al))%Z).
Proof.
  intros p e. split; [|intros al; apply min_moves_lower].
  destruct (min_moves_facts p e) as (B & _).
  destruct (min_moves_reached p (Z.to_nat (min_moves_to_solve p e)) e) as (al & L & H); [lia|].
  exists al. split; [lia|exact H].
Qed.

Theorem C39_min_moves_range : forall (p : EdgePos) (e : Edge),
  (0 <= min_moves_to_solve p e <= 3)%Z /\
  (min_moves_to_solve p e = 0%Z <-> e = mkEdge (fst p) (snd p) true).
Proof.
  intros p e. destruct (min_moves_facts p e) as (B & Z0 & _). split; [exact B|]. split; [exact Z0|].
  intros ->. apply min_moves_solved.
Qed.

(** All four values occur: UF at home, after F2 (so DF), at UB and flipped at home. *)
Example C39_values : let uf := (AX, mkVec2 Positive Positive) in
  map (fun al => min_moves_to_solve uf (fold_left edge_apply al (mkEdge AX (mkVec2 Positive Positive) true)))
    [[]; [mkMove fF Double]; [mkMove fF Double; mkMove fD Double]; [mkMove fF Single; mkMove fR Single; mkMove fU Single]]
  = [0; 1; 2; 3]%Z.
Proof. vm_compute. reflexivity. Qed.

Print Assumptions C39_min_moves_exact.
Print Assumptions C39_min_moves_range.

(* ------------------------------------------------------------------ *)
(** * C42: the helpers *)

Theorem C42_get_cross_pieces : forall f : Face, exists l,
  get_cross_pieces f = Done l /\ length l = 4 /\ NoDup l /\
  (forall p, In p l <-> edge_on_face p f) /\ (forall p, is_cross_edge p f = true <-> edge_on_face p f).
Proof.
  intros f.
  assert (X : forall g, exists l, get_cross_pieces g = Done l /\ length l = 4 /\ NoDup l /\
    (forall p, existsb (edgepos_eqb p) l = is_cross_edge p g)).
  { intros [[] []]; eexists; (split; [reflexivity|]); (split; [reflexivity|]);
      (split; [apply (find_dup_none _ edgepos_eqb_eq); reflexivity|]); intros [[] [[] []]]; reflexivity. }
  destruct (X f) as (l & E & L & N & H). exists l. repeat split; auto; intros Hp.
  - apply is_cross_edge_spec. rewrite <- H. apply (existsb_eqb _ edgepos_eqb_eq), Hp.
  - apply is_cross_edge_spec in Hp. rewrite <- H in Hp. apply (existsb_eqb _ edgepos_eqb_eq) in Hp. exact Hp.
  - apply is_cross_edge_spec, Hp.
  - apply is_cross_edge_spec, Hp.
Qed.

Theorem C42_count_cross_pieces : forall (c : Cube3) (f : Face), length (c3_edges c) = 12 ->
  (0 <= count_cross_pieces c f <= 4)%Z /\ (count_cross_pieces c f = 4%Z <-> cross_solved f c).
Proof. intros c f L. split; [apply count_le|apply count_four, L]. Qed.

(** The count is the number of solved edges among the four of the face. *)
Theorem C42_count_is_number : forall (c : Cube3) (f : Face), length (c3_edges c) = 12 ->
  exists is, NoDup is /\ count_cross_pieces c f = Z.of_nat (length is) /\
  forall i, In i is <-> exists p, nth_error edge_reference i = Some p /\ edge_on_face p f /\
    nth_error (c3_edges c) i = Some (mkEdge (fst p) (snd p) true).
Proof.
  intros c f L. unfold count_cross_pieces, iter_with_pos. cbn [pd_reference edge_desc].
  set (P := fun x : EdgePos * Edge => edgepos_eqb (edge_position (snd x)) (fst x) && is_cross_edge (fst x) f && e_oriented (snd x)).
  assert (G : forall l k, exists is, NoDup is /\ length (filter P l) = length is /\
    forall i, In i is <-> k <= i /\ exists x, nth_error l (i - k) = Some x /\ P x = true).
  { induction l as [|x l IH]; intros k; cbn [filter].
    - exists []. split; [constructor|]. split; [reflexivity|]. intros i. split; [intros []|].
      intros (_ & y & H & _). destruct (i - k); discriminate.
    - destruct (IH (S k)) as (is & N & E & I).
      assert (Shift : forall i, (S k <= i /\ exists x0, nth_error l (i - S k) = Some x0 /\ P x0 = true) <->
        (k < i /\ exists x0, nth_error (x :: l) (i - k) = Some x0 /\ P x0 = true)).
      { intros i. split; intros (Li & y & H1 & H2); (split; [lia|]); exists y; (split; [|exact H2]).
        - replace (i - k) with (S (i - S k)) by lia. exact H1.
        - replace (i - k) with (S (i - S k)) in H1 by lia. exact H1. }
      destruct (P x) eqn:Px.
      + exists (k :: is). split; [constructor; [|exact N]|].
        * intros H. apply I in H. lia.
        * split; [cbn; congruence|]. intros i. cbn [In]. rewrite I, Shift. split.
          -- intros [<-|(Li & H)]; [|split; [lia|exact H]]. split; [lia|]. exists x. rewrite Nat.sub_diag. auto.
          -- intros (Li & H). destruct (Nat.eq_dec k i); [left; assumption|right; split; [lia|exact H]].
      + exists is. split; [exact N|]. split; [exact E|]. intros i. rewrite I, Shift. split.
        * intros (Li & H). split; [lia|exact H].
        * intros (Li & y & H1 & H2). destruct (Nat.eq_dec k i) as [<-|Ne]; [|split; [lia|eauto]].
          rewrite Nat.sub_diag in H1. cbn in H1. injection H1 as <-. congruence. }
  destruct (G (combine edge_reference (c3_edges c)) 0) as (is & N & E & I). exists is. split; [exact N|].
  split; [rewrite E; reflexivity|]. intros i. rewrite I, Nat.sub_0_r. split.
  - intros (_ & [p e] & H & Px). apply combine_nth_error in H as (Hp & He). exists p. split; [exact Hp|].
    unfold P in Px. cbn [fst snd] in Px. apply andb_true_iff in Px as (Px & O). apply andb_true_iff in Px as (Q & X).
    split; [apply is_cross_edge_spec, X|]. apply edgepos_eqb_eq in Q. rewrite He. destruct e as [n s o]. cbn in *. subst. reflexivity.
  - intros (p & Hp & On & He). split; [lia|]. eexists. split; [apply combine_nth_error; split; [exact Hp|exact He]|].
    unfold P. cbn [fst snd e_oriented]. apply is_cross_edge_spec in On. rewrite On.
    rewrite (proj2 (edgepos_eqb_eq _ _)); [reflexivity|]. destruct p; reflexivity.
Qed.

Example C42_values :
  count_cross_pieces cube3_solved fD = 4%Z /\
  count_cross_pieces (cube3_apply cube3_solved (mkMove fF Single)) fD = 3%Z /\
  count_cross_pieces (cube3_apply cube3_solved (mkMove fU Single)) fU = 0%Z.
Proof. vm_compute. auto. Qed.

Print Assumptions C42_get_cross_pieces.
Print Assumptions C42_count_cross_pieces.
Print Assumptions C42_count_is_number.

(* ------------------------------------------------------------------ *)
(** * C40: the admissible heuristic and [solve_cross] *)

(** The heuristic does not panic, its value is a whole number between 0 and 3, and no alg
    that solves the cross is shorter. *)
Theorem C40_heuristic_admissible : forall (c : Cube3) (f : Face), length (c3_edges c) = 12 ->
  exists h : Z, worse_but_admissable_cross_heuristic c f = Done (f32_of_Z h) /\ (0 <= h <= 3)%Z /\
  forall al, cross_solved f (fold_left cube3_apply al c) -> (h <= Z.of_nat (length al))%Z.
Proof.
  intros c f L. destruct (cross_moves_facts c f) as (_ & B & L4). specialize (L4 L).
  unfold worse_but_admissable_cross_heuristic. pose proof (cross_moves_admissible c f) as Ad.
  destruct (cross_edge_moves c f) as [|x r] eqn:E; [discriminate|]. cbn [max_Z].
  exists (fold_left Z.max r x). pose proof (fold_max_in r x) as I. split; [reflexivity|]. split; [apply B, I|].
  intros al S. apply (Ad al S), I.
Qed.

Definition cross_exact (f : Face) : Problem Z Cube3 AxisMove :=
  mkProblem Z Cube3 AxisMove cube3_eqb cube3_successors
    (fun c => match max_Z (cross_edge_moves c f) with Some m => m | None => 0%Z end)
    (fun c => Z.eqb (count_cross_pieces c f) 4).

Lemma length_moved al : forall c : Cube3, length (c3_edges (fold_left cube3_apply al c)) = length (c3_edges c).
Proof.
  induction al as [|m al IH]; intros c; cbn [fold_left]; [reflexivity|]. rewrite IH. cbn. unfold edge_set_apply. apply map_length.
Qed.

(** Admissibility, only for cubes with twelve edges; other lists of edges are not values
    of the type and get the estimate of their first twelve. *)
Lemma max_bounds c f : (0 <= match max_Z (cross_edge_moves c f) with Some m => m | None => 0 end <= 3)%Z.
Proof.
  destruct (cross_moves_facts c f) as (_ & B & _). destruct (cross_edge_moves c f) as [|x r]; cbn [max_Z]; [lia|].
  apply B, fold_max_in.
Qed.

Lemma count_four_moves c f : count_cross_pieces c f = 4%Z -> max_Z (cross_edge_moves c f) = Some 0%Z \/ max_Z (cross_edge_moves c f) = None.
Proof.
  intros H. destruct (cross_moves_facts c f) as (Le & B & _).
  assert (A : forall z, In z (cross_edge_moves c f) -> z = 0%Z).
  { intros z I. unfold cross_edge_moves in I. apply in_map_iff in I as (x & <- & I). apply filter_In in I as (I & On).
    unfold count_cross_pieces in H.
    rewrite (filter_ext _ (fun x => (edgepos_eqb (edge_position (snd x)) (fst x) && e_oriented (snd x)) && is_cross_edge (fst x) f)) in H
      by (intros y; rewrite <- !andb_assoc; f_equal; apply andb_comm).
    destruct (filter_sub (fun x : EdgePos * Edge => edgepos_eqb (edge_position (snd x)) (fst x) && e_oriented (snd x))
      (fun x => is_cross_edge (fst x) f) (iter_with_pos edge_desc (c3_edges c))) as (L & Q).
    pose proof (filter_combine_le (fun p => is_cross_edge p f) edge_reference (c3_edges c)) as Y. rewrite cross_reference_length in Y.
    unfold iter_with_pos in *. cbn [pd_reference edge_desc] in *.
    assert (X : (edgepos_eqb (edge_position (snd x)) (fst x) && e_oriented (snd x))%bool = true).
    { apply Q; [lia|exact I|exact On]. }
    apply andb_true_iff in X as (X1 & X2). apply edgepos_eqb_eq in X1. destruct x as [p [n s o]]. cbn in *. subst p o. apply min_moves_solved. }
  destruct (cross_edge_moves c f) as [|x r]; cbn [max_Z]; [right; reflexivity|left]. f_equal. apply A, fold_max_in.
Qed.

Lemma cross_exact_admissible f : admissible (2 ^ 0) (cross_exact f) cube3_apply.
Proof.
  intros c al R. unfold reaches_target in R. cbn [cross_exact pr_is_target pr_heuristic] in *. apply Z.eqb_eq in R. change (2 ^ 0)%Z with 1%Z.
  assert (X : forall z, In z (cross_edge_moves c f) -> (z <= Z.of_nat (length al))%Z).
  { clear - R. revert c R. intros c R z I. unfold cross_edge_moves in I. apply in_map_iff in I as ([p e] & <- & I). apply filter_In in I as (I & On).
    cbn [fst snd] in *. apply min_moves_lower. unfold brings_edge.
    destruct (count_four_moves _ _ R) as [E|E].
    - unfold iter_with_pos in I. apply In_nth_error in I as (i & I). apply combine_nth_error in I as (Hp & He). cbn [pd_reference edge_desc] in Hp.
      assert (Re : forall al (c : Cube3), c3_edges (fold_left cube3_apply al c) = map (fun e => fold_left edge_apply al e) (c3_edges c)).
      { clear. induction al as [|m al IH]; intros c; cbn; [rewrite map_id; reflexivity|]. rewrite IH. cbn. unfold edge_set_apply. rewrite map_map. reflexivity. }
      assert (I2 : In (p, fold_left edge_apply al e) (filter (fun x : EdgePos * Edge => is_cross_edge (fst x) f) (iter_with_pos edge_desc (c3_edges (fold_left cube3_apply al c))))).
      { apply filter_In. split; [|exact On]. unfold iter_with_pos. apply (nth_error_In _ i). apply combine_nth_error. split; [exact Hp|].
        rewrite Re, nth_error_map, He. reflexivity. }
      assert (I3 : In (min_moves_to_solve p (fold_left edge_apply al e)) (cross_edge_moves (fold_left cube3_apply al c) f)).
      { unfold cross_edge_moves. apply (in_map (fun x => min_moves_to_solve (fst x) (snd x)) _ _ I2). }
      destruct (cross_moves_facts (fold_left cube3_apply al c) f) as (_ & B & _).
      pose proof (B _ I3). destruct (cross_edge_moves (fold_left cube3_apply al c) f) as [|x r]; [destruct I3|]. cbn [max_Z] in E. injection E as E.
      pose proof (fold_max_ge r x _ I3). apply min_moves_facts. lia.
    - exfalso. assert (L : length (cross_edge_moves (fold_left cube3_apply al c) f) = 0).
      { destruct (cross_edge_moves _ f); [reflexivity|discriminate]. }
      unfold count_cross_pieces in R. rewrite (filter_ext _ (fun x => (edgepos_eqb (edge_position (snd x)) (fst x) && e_oriented (snd x)) && is_cross_edge (fst x) f)) in R
        by (intros y; rewrite <- !andb_assoc; f_equal; apply andb_comm).
      destruct (filter_sub (fun x : EdgePos * Edge => edgepos_eqb (edge_position (snd x)) (fst x) && e_oriented (snd x))
        (fun x => is_cross_edge (fst x) f) (iter_with_pos edge_desc (c3_edges (fold_left cube3_apply al c)))) as (Le & _).
      unfold cross_edge_moves in L. rewrite map_length in L. lia. }
  destruct (cross_edge_moves c f) as [|x r]; cbn [max_Z]; [lia|]. specialize (X _ (fold_max_in r x)). lia.
Qed.

Lemma cross_equality f : equality_ok (cross_exact f).
Proof. intros a b. apply cube3_eqb_eq. Qed.
Lemma cross_complete f : successors_complete (cross_exact f) cube3_apply.
Proof. intros c m. apply in_map_iff. exists m. split; [reflexivity|apply all_moves_complete]. Qed.

Lemma solve_cross_dyadic fuel c f : solve_cross fuel c f = search f32_costs (dyadic_problem 0 (cross_exact f)) fuel 200 c.
Proof.
  unfold solve_cross, solve_cross_directly. apply search_ext; try reflexivity. intros x.
  cbn [cross_problem dyadic_problem cross_exact pr_heuristic]. unfold worse_but_admissable_cross_heuristic.
  destruct (max_Z (cross_edge_moves x f)); reflexivity.
Qed.

(** Every valid cube and every face: [solve_cross] returns an alg that leads to the
    returned cube, the cross is solved there, and no alg that solves it is shorter. *)
Theorem C40_solve_cross : forall (c : Cube3) (f : Face), cube_well_formed Size3 c ->
  exists fuel0 al c', (forall fuel, fuel0 <= fuel -> solve_cross fuel c f = SearchDone (Some (al, c'))) /\
    fold_left cube3_apply al c = c' /\ cross_solved f c' /\
    (forall al', cross_solved f (fold_left cube3_apply al' c) -> length al <= length al').
Proof.
  intros c f W. apply cube3_sets_valid_spec in W.
  assert (L12 : length (c3_edges c) = 12) by apply W.
  destruct (cross_solvable f c (distinct_valid c W) (full_valid c W) L12) as (al0 & La & S0).
  assert (T : forall al, reaches_target (cross_exact f) cube3_apply c al <-> cross_solved f (fold_left cube3_apply al c)).
  { intros al. unfold reaches_target. cbn [cross_exact pr_is_target]. rewrite Z.eqb_eq. apply count_four. rewrite length_moved. exact L12. }
  assert (B : forall x, (0 <= pr_heuristic (cross_exact f) x <= 3)%Z) by (intros x; apply max_bounds).
  destruct (C29_complete Cube3 AxisMove 0 3 (cross_exact f) cube3_apply ltac:(lia) (cross_equality f) (cross_complete f) B 200 ltac:(lia) ltac:(lia) c al0)
    as (f0 & [r c'] & F).
  { apply T, S0. }
  { right. split; [apply cross_exact_admissible|]. specialize (B c). change (2 ^ 0)%Z with 1%Z. lia. }
  assert (Sd : successors_sound (dyadic_problem 0 (cross_exact f)) cube3_apply).
  { intros x s m I. apply in_map_iff in I as (m' & [= <- <-] & _). reflexivity. }
  destruct (C28_search_sound _ _ _ _ _ _ Sd _ _ _ _ _ (F f0 (le_n _))) as (E1 & E2).
  exists f0, r, c'. split; [intros fuel Lf; rewrite solve_cross_dyadic; apply F, Lf|]. split; [exact E1|]. split.
  - rewrite <- E1. apply T. unfold reaches_target. rewrite E1. exact E2.
  - intros al' S'. apply (C29_optimal_f32 Cube3 AxisMove 0 3 (cross_exact f) cube3_apply ltac:(lia) (cross_equality f) (cross_complete f) B
      (cross_exact_admissible f) f0 200 ltac:(lia) c r c' (F f0 (le_n _))). apply T, S'.
Qed.

Example C40_run :
  let c := fold_left cube3_apply [mkMove fR Single; mkMove fF Inverse] cube3_solved in
  exists c', solve_cross 10 c fD = SearchDone (Some ([mkMove fF Single; mkMove fR Inverse], c')).
Proof. eexists. vm_compute. reflexivity. Qed.

Print Assumptions C40_heuristic_admissible.
Print Assumptions C40_solve_cross.

(* ------------------------------------------------------------------ *)
(** * C41: [solve_cross_fast] *)

Definition cross_halves (f : Face) : Problem Z Cube3 AxisMove :=
  mkProblem Z Cube3 AxisMove cube3_eqb cube3_successors (fun c => sum_Z (cross_edge_moves c f))
    (fun c => Z.eqb (count_cross_pieces c f) 4).

Lemma sum_bounds c f : (0 <= sum_Z (cross_edge_moves c f) <= 12)%Z.
Proof.
  destruct (cross_moves_facts c f) as (L & B & _). unfold sum_Z.
  destruct (fold_add_bounds 3 (cross_edge_moves c f) 0 B) as (I1 & I2). lia.
Qed.

Lemma solve_cross_fast_dyadic fuel c f : solve_cross_fast fuel c f = search f32_costs (dyadic_problem 1 (cross_halves f)) fuel 200 c.
Proof.
  unfold solve_cross_fast, solve_cross_directly. apply search_ext; try reflexivity. intros x.
  cbn [cross_problem dyadic_problem cross_halves pr_heuristic]. unfold good_cross_heuristic. apply half_exact, sum_bounds.
Qed.

Theorem C41_solve_cross_fast : forall (c : Cube3) (f : Face), cube_well_formed Size3 c ->
  exists fuel0 al c', (forall fuel, fuel0 <= fuel -> solve_cross_fast fuel c f = SearchDone (Some (al, c'))) /\
    fold_left cube3_apply al c = c' /\ cross_solved f c' /\
    (forall al', cross_solved f (fold_left cube3_apply al' c) -> length al <= length al' + 3).
Proof.
  intros c f W. apply cube3_sets_valid_spec in W.
  assert (L12 : length (c3_edges c) = 12) by apply W.
  destruct (cross_solvable f c (distinct_valid c W) (full_valid c W) L12) as (al0 & La & S0).
  assert (T : forall al, reaches_target (cross_halves f) cube3_apply c al <-> cross_solved f (fold_left cube3_apply al c)).
  { intros al. unfold reaches_target. cbn [cross_halves pr_is_target]. rewrite Z.eqb_eq. apply count_four. rewrite length_moved. exact L12. }
  assert (B : forall x, (0 <= pr_heuristic (cross_halves f) x <= 12)%Z) by (intros x; apply sum_bounds).
  assert (Eq : equality_ok (cross_halves f)) by (intros a b; apply cube3_eqb_eq).
  assert (Comp : successors_complete (cross_halves f) cube3_apply) by exact (cross_complete f).
  destruct (C29_complete Cube3 AxisMove 1 12 (cross_halves f) cube3_apply ltac:(lia) Eq Comp B 200 ltac:(lia) ltac:(lia) c al0)
    as (f0 & [r c'] & F).
  { apply T, S0. }
  { left. specialize (B c). change (2 ^ 1)%Z with 2%Z. lia. }
  assert (Sd : successors_sound (dyadic_problem 1 (cross_halves f)) cube3_apply).
  { intros x s m I. apply in_map_iff in I as (m' & [= <- <-] & _). reflexivity. }
  destruct (C28_search_sound _ _ _ _ _ _ Sd _ _ _ _ _ (F f0 (le_n _))) as (E1 & E2).
  exists f0, r, c'. split; [intros fuel Lf; rewrite solve_cross_fast_dyadic; apply F, Lf|]. split; [exact E1|]. split.
  - rewrite <- E1. apply T. unfold reaches_target. rewrite E1. exact E2.
  - intros al' S'. destruct (remove_loops cube3_apply cube3_eqb cube3_eqb_eq al' c) as (al2 & L2 & F2 & N2).
    rewrite <- F2 in S'. pose proof (F f0 (le_n _)) as R. rewrite (search_float 1 ltac:(lia) (cross_halves f) 12 B) in R by lia. unfold search in R.
    change (2 ^ 1)%Z with 2%Z in R.
    assert (P : (2 * Z.of_nat (length r) <= 2 * Z.of_nat (length al2) + 6)%Z); [|lia].
    refine (iter_found_bound 2 (cross_halves f) cube3_apply Eq (fun x => proj1 (B x)) Comp (2 * Z.of_nat (length al2) + 6) f0 c al2 (proj2 (T al2) S') N2 _ _ _ _ _ _ R).
    + intros i Hi. cbn [cross_halves pr_heuristic].
      destruct (cross_moves_facts (fold_left cube3_apply (firstn i al2) c) f) as (L4 & B3 & _).
      assert (Ad : forall z, In z (cross_edge_moves (fold_left cube3_apply (firstn i al2) c) f) -> (0 <= z <= Z.min 3 (Z.of_nat (length al2 - i)))%Z).
      { intros z Hz. specialize (B3 z Hz). rewrite <- (firstn_skipn i al2), fold_left_app in S'.
        pose proof (cross_moves_admissible _ f _ S' z Hz) as A. rewrite skipn_length in A. lia. }
      destruct (fold_add_bounds _ _ 0%Z Ad) as (_ & U). fold (sum_Z (cross_edge_moves (fold_left cube3_apply (firstn i al2) c) f)) in U. nia.
    + specialize (B c). cbn [cross_halves pr_heuristic] in *.
      destruct (cross_moves_facts c f) as (L4 & B3 & _).
      assert (Ad : forall z, In z (cross_edge_moves c f) -> (0 <= z <= Z.min 3 (Z.of_nat (length al2)))%Z).
      { intros z Hz. specialize (B3 z Hz). pose proof (cross_moves_admissible _ f _ S' z Hz) as A. lia. }
      destruct (fold_add_bounds _ _ 0%Z Ad) as (_ & U). fold (sum_Z (cross_edge_moves c f)) in U. nia.
Qed.

(** The documented "usually optimal" is not a guarantee: this heuristic overestimates. *)
Example C41_overestimates :
  let c := fold_left cube3_apply [mkMove fD Single] cube3_solved in
  good_cross_heuristic c fD = f32_of_Z 2 /\ cross_solved fD (cube3_apply c (mkMove fD Inverse)).
Proof.
  split; [vm_compute; reflexivity|]. apply count_four; vm_compute; reflexivity.
Qed.

Print Assumptions C41_solve_cross_fast.

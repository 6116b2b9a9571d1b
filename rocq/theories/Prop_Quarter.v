(** C106: searching with quarter turns. *)

From Coq Require Import List Bool Arith ZArith NArith Lia.
From Verif Require Import Model_Base Model_Float Model_Space Model_Moves Model_Pieces Model_PieceSet Model_Cubes Model_Invariants Model_Search Model_Mus Model_Cache
  Spec_Moves Spec_Search Spec_Sets Spec_Invariants Spec_Cache Spec_Words Proof_Sets Proof_Search Proof_Cross Prop_Moves Prop_Search Prop_Invariants Prop_Cache Prop_Words.
Import ListNotations.
Local Open Scope nat_scope.

(** generic/search/ida.rs:33-40 [IDASearcher::new] and generic/search/mod.rs:25-33 [Solver::solve] for [Cube3] and
    [QuarterAxisMove] (moves/quarter.rs:51-55): a user passes the quarter turns, in any order, a heuristic
    and a limit. *)
Definition quarter_searcher (moves : list QuarterAxisMove) (heuristic : Cube3 -> f32) : Problem f32 Cube3 QuarterAxisMove :=
  mkProblem f32 Cube3 QuarterAxisMove cube3_eqb (fun c => map (fun q => (apply_quarter cube3_apply c q, q)) moves) heuristic cube3_is_solved.
Definition quarter_solve (moves : list QuarterAxisMove) (heuristic : Cube3 -> f32) (max_depth : Z) (fuel : nat) (c : Cube3) : solve_result :=
  solve f32_costs (quarter_searcher moves heuristic) fuel max_depth c.

(** What the alg does. *)
Definition quarters (qs : list QuarterAxisMove) (c : Cube3) : Cube3 := fold_left (apply_quarter cube3_apply) qs c.
Definition fewest_quarters (c : Cube3) (qs : list QuarterAxisMove) : Prop :=
  quarters qs c = cube3_solved /\ forall qs', quarters qs' c = cube3_solved -> length qs <= length qs'.
Definition solvable3 (c : Cube3) : Prop := exists al, fold_left cube3_apply al c = cube3_solved.
Definition whole3 (heuristic : Cube3 -> f32) (estimate : Cube3 -> Z) : Prop :=
  forall c, heuristic c = f32_of_Z (estimate c) /\ (0 <= estimate c < 2 ^ 22)%Z.

Definition exactq (moves : list QuarterAxisMove) (est : Cube3 -> Z) : Problem Z Cube3 QuarterAxisMove :=
  mkProblem Z Cube3 QuarterAxisMove cube3_eqb (fun c => map (fun q => (apply_quarter cube3_apply c q, q)) moves) est cube3_is_solved.
Lemma solvedq x : cube3_is_solved x = true <-> x = cube3_solved.
Proof. apply cube3_eqb_eq. Qed.
Lemma soundq ms h : successors_sound (quarter_searcher ms h) (apply_quarter cube3_apply).
Proof. intros x s m I. apply in_map_iff in I as (m' & E & _). injection E as <- <-. reflexivity. Qed.
Lemma resultq ms h md fuel c qs : quarter_solve ms h md fuel c = SolveDone (Some qs) -> quarters qs c = cube3_solved.
Proof.
  unfold quarter_solve, solve. destruct (search f32_costs (quarter_searcher ms h) fuel md c) as [[[al' c']|]| |] eqn:E; try discriminate.
  destruct (C28_search_sound _ _ _ _ _ _ (soundq ms h) _ _ _ _ _ E) as (F & T). rewrite T. intros K. injection K as <-. unfold quarters. rewrite F. apply solvedq, T.
Qed.
Lemma dyadicq ms h est fuel md c : whole3 h est ->
  search f32_costs (quarter_searcher ms h) fuel md c = search f32_costs (dyadic_problem 0 (exactq ms est)) fuel md c.
Proof. intros W. apply search_ext; try reflexivity. intros x. apply (W x). Qed.

(** As face turns. *)
Lemma as_moves qs : forall c, quarters qs c = fold_left cube3_apply (map move_of_quarter qs) c.
Proof. unfold quarters. induction qs as [|q qs IH]; intros c; [reflexivity|]. cbn [fold_left map]. apply IH. Qed.
Lemma as_quarters al c : quarters (quarter_alg al) c = fold_left cube3_apply al c.
Proof. exact (proj1 (C23_quarter_alg al) Size3 c). Qed.
Lemma at_most_twice al : length (quarter_alg al) <= 2 * length al.
Proof. unfold quarter_alg. induction al as [|[f []] al IH]; cbn [flat_map quarters_of_move mv_amount app length] in *; lia. Qed.

Section Facts.
  Context (ms : list QuarterAxisMove) (Ms : forall q, In q ms) (h : Cube3 -> f32) (est : Cube3 -> Z) (W : whole3 h est).
  Lemma eqq : equality_ok (exactq ms est).
  Proof. intros a b. apply cube3_eqb_eq. Qed.
  Lemma completeq : successors_complete (exactq ms est) (apply_quarter cube3_apply).
  Proof. intros x m. apply in_map_iff. exists m. split; [reflexivity|apply Ms]. Qed.
  Lemma boundedq : forall c, (0 <= pr_heuristic (exactq ms est) c <= 2 ^ 22)%Z.
  Proof. intros c. pose proof (proj2 (W c)). cbn [exactq pr_heuristic]. lia. Qed.
  Context (Ad : forall c qs, quarters qs c = cube3_solved -> (est c <= Z.of_nat (length qs))%Z).
  Lemma admissibleq : admissible (2 ^ 0) (exactq ms est) (apply_quarter cube3_apply).
  Proof. intros x al R. apply solvedq in R. apply Ad in R. change (2 ^ 0)%Z with 1%Z. cbn [exactq pr_heuristic]. lia. Qed.
End Facts.

(** ** As few quarter turns as possible *)

Theorem C106_fewest : forall moves, (forall q : QuarterAxisMove, In q moves) ->
  forall heuristic estimate, whole3 heuristic estimate ->
  (forall c qs, quarters qs c = cube3_solved -> (estimate c <= Z.of_nat (length qs))%Z) ->
  forall max_depth, (278 <= max_depth < 2 ^ 22)%Z -> forall c, solvable3 c ->
  exists fuel0 qs, (forall fuel, fuel0 <= fuel -> quarter_solve moves heuristic max_depth fuel c = SolveDone (Some qs)) /\
    fewest_quarters c qs /\ length qs <= 278.
Proof.
  intros ms Ms h est W Ad md Md c Sv. apply C07_solvable_exactly in Sv as (Wf & I1 & I2 & I3).
  destruct (C07_invariants_solvable c Wf I1 I2 I3) as (al & L & S). rewrite <- as_quarters in S. pose proof (at_most_twice al) as L2.
  revert S L2. generalize (quarter_alg al). intros bl S L2.
  pose proof (boundedq ms h est W c) as B.
  destruct (C29_complete Cube3 QuarterAxisMove 0 (2 ^ 22) (exactq ms est) (apply_quarter cube3_apply) ltac:(lia) (eqq ms est) (completeq ms Ms est) (boundedq ms h est W) md ltac:(lia) ltac:(lia) c bl) as (f & [r c'] & F).
  { apply solvedq, S. }
  { right. split; [apply admissibleq, Ad|]. change (2 ^ 0)%Z with 1%Z. lia. }
  assert (F' : forall fuel, f <= fuel -> quarter_solve ms h md fuel c = SolveDone (Some r)).
  { intros fuel Lf. unfold quarter_solve, solve. specialize (F fuel Lf). rewrite <- (dyadicq ms h est _ _ _ W) in F. rewrite F.
    destruct (C28_search_sound _ _ _ _ _ _ (soundq ms h) _ _ _ _ _ F) as (_ & ->). reflexivity. }
  assert (O : forall qs', quarters qs' c = cube3_solved -> length r <= length qs').
  { intros al' R. apply (C29_optimal_f32 Cube3 QuarterAxisMove 0 (2 ^ 22) (exactq ms est) (apply_quarter cube3_apply) ltac:(lia) (eqq ms est) (completeq ms Ms est) (boundedq ms h est W) (admissibleq ms est Ad) f md ltac:(lia) c r c'); [apply F; lia|].
    apply solvedq, R. }
  exists f, r. split; [exact F'|]. split; [|specialize (O bl S); lia]. split; [|exact O]. apply (resultq ms h md f c r), F'. lia.
Qed.

Theorem C106_unsolvable : forall moves heuristic estimate, whole3 heuristic estimate ->
  forall max_depth, (0 <= max_depth < 2 ^ 22)%Z -> forall c, ~ solvable3 c ->
  forall fuel, (estimate c + max_depth + 1 < Z.of_nat fuel)%Z -> quarter_solve moves heuristic max_depth fuel c = SolveDone None.
Proof.
  intros ms h est W md Md c No fuel L.
  destruct (C30_depth_bounded Cube3 QuarterAxisMove 0 (2 ^ 22) (exactq ms est) ltac:(lia) (boundedq ms h est W) md ltac:(lia) ltac:(lia) c fuel) as (r & R).
  { change (2 ^ 0)%Z with 1%Z. cbn [exactq pr_heuristic]. lia. }
  unfold quarter_solve, solve. rewrite <- (dyadicq ms h est _ _ _ W) in R. rewrite R. destruct r as [[al c']|]; [|reflexivity].
  destruct (C28_search_sound _ _ _ _ _ _ (soundq ms h) _ _ _ _ _ R) as (F & T). destruct No. exists (map move_of_quarter al).
  rewrite <- as_moves. unfold quarters. rewrite F. apply solvedq, T.
Qed.

(** ** Quarter turns and face turns *)

(** A heuristic that never overestimates the face turns never overestimates the quarter turns, so
    [mus] can be used as it is. *)
Theorem C106_mus : forall ca, complete_cache ca -> forall moves, (forall q : QuarterAxisMove, In q moves) ->
  forall max_depth, (278 <= max_depth < 2 ^ 22)%Z -> forall c, solvable3 c ->
  exists fuel0 qs, (forall fuel, fuel0 <= fuel -> quarter_solve moves (mus_value ca) max_depth fuel c = SolveDone (Some qs)) /\
    fewest_quarters c qs.
Proof.
  intros ca CC ms Ms md Md c Sv. set (est := fun c => match cache_get ca c with Done v => Z.of_N v | Panic => 0%Z end).
  destruct (C106_fewest ms Ms (mus_value ca) est) with (max_depth := md) (c := c) as (f & qs & F & Q & _); [| |exact Md|exact Sv|eauto].
  - intros x. split.
    + unfold mus_value, mus, cache_get_or_init, est. destruct (cache_get ca x); reflexivity.
    + unfold est. destruct (cache_get ca x) as [v|] eqn:G; [|lia]. apply (cache_bounded ca _ v CC) in G. lia.
  - intros x qs' E. rewrite as_moves in E. destruct (C36_admissible ca x _ CC E) as (v & G & L). rewrite map_length in L. unfold est. rewrite G. lia.
Qed.

(** The number of quarter turns is between the number of face turns and twice that number. *)
Theorem C106_compared : forall c qs al, fewest_quarters c qs -> fold_left cube3_apply al c = cube3_solved ->
  (forall al', fold_left cube3_apply al' c = cube3_solved -> length al <= length al') ->
  length al <= length qs <= 2 * length al.
Proof.
  intros c qs al [Q Qm] S Sm. split.
  - rewrite as_moves in Q. specialize (Sm _ Q). rewrite map_length in Sm. exact Sm.
  - rewrite <- as_quarters in S. specialize (Qm _ S). pose proof (at_most_twice al). lia.
Qed.

(** All solutions have the same parity: a second search can only save an even number. *)
Lemma turns_parity qs : Nat.even (total_turns (map move_of_quarter qs)) = Nat.even (length qs).
Proof.
  unfold total_turns. induction qs as [|q qs IH]; [reflexivity|].
  change (Nat.even (quarter_turns (mv_amount (move_of_quarter q)) + list_sum (map (fun m => quarter_turns (mv_amount m)) (map move_of_quarter qs))) = Nat.even (1 + length qs)).
  rewrite !Nat.even_add, IH. destruct q as [f []]; reflexivity.
Qed.
Theorem C106_parity : forall c qs qs', quarters qs c = cube3_solved -> quarters qs' c = cube3_solved ->
  Nat.even (length qs) = Nat.even (length qs').
Proof.
  intros c qs qs' E E'. rewrite as_moves in E, E'. assert (W : cube_well_formed Size3 c) by (apply C07_solvable_exactly; eauto).
  rewrite <- !turns_parity. apply Bool.eq_iff_eq_true. rewrite !Nat.even_spec. apply (C81_parity Size3 _ _ c W). exact (eq_trans E (eq_sym E')).
Qed.
Lemma undo_quarter c q : apply_quarter cube3_apply (apply_quarter cube3_apply c q) (quarter_inverse q) = c.
Proof.
  unfold apply_quarter. replace (move_of_quarter (quarter_inverse q)) with (move_inverse (move_of_quarter q)) by (destruct q as [f []]; reflexivity).
  exact (C01_reversed_axis Size3 c [move_of_quarter q]).
Qed.
(** One quarter turn brings the cube exactly one quarter turn closer or one further away. *)
Theorem C106_one_turn : forall c q qs qs', fewest_quarters c qs -> fewest_quarters (apply_quarter cube3_apply c q) qs' ->
  length qs' = length qs + 1 \/ length qs = length qs' + 1.
Proof.
  intros c q qs qs' [E M] [E' M'].
  assert (L : length qs <= S (length qs')) by (apply (M (q :: qs')); exact E').
  assert (L' : length qs' <= S (length qs)). { apply (M' (quarter_inverse q :: qs)). unfold quarters. cbn [fold_left]. rewrite undo_quarter. exact E. }
  assert (P : Nat.even (length qs) = Nat.even (length (q :: qs'))) by (apply (C106_parity c); assumption).
  cbn [length] in P. rewrite Nat.even_succ, <- Nat.negb_even in P.
  assert (length qs <> length qs'). { intros X. rewrite X in P. destruct (Nat.even (length qs')); discriminate. }
  lia.
Qed.

(** Non-vacuity: the twelve quarter turns; R2, one face turn and two quarter turns. *)
Definition twelve : list QuarterAxisMove := flat_map (fun f => [mkQuarter f Positive; mkQuarter f Negative]) face_iter.
Example C106_example :
  (forall q, In q twelve) /\
  quarter_solve twelve (zero_heuristic f32_costs) 300 4 (cube3_apply cube3_solved (mkMove fR Double)) = SolveDone (Some [mkQuarter fR Positive; mkQuarter fR Positive]) /\
  fewest_quarters (cube3_apply cube3_solved (mkMove fR Double)) [mkQuarter fR Positive; mkQuarter fR Positive] /\
  solvable3 (cube3_apply cube3_solved (mkMove fR Double)) /\ (exists c, ~ solvable3 c).
Proof.
  split; [|split; [|split; [|split]]].
  - intros [[[] []] []]; cbn; auto 20.
  - vm_compute. reflexivity.
  - split; [vm_compute; reflexivity|]. intros [|q [|q' qs]] E; [vm_compute in E; discriminate E| |cbn; lia].
    exfalso. destruct q as [[[] []] []]; vm_compute in E; discriminate E.
  - exists [mkMove fR Double]. vm_compute. reflexivity.
  - exists (mkCube3 [] []). intros (al & E). assert (X : forall al, c3_edges (fold_left cube3_apply al (mkCube3 [] [])) = []) by (induction al0 as [|m bl IH]; [reflexivity|exact IH]).
    specialize (X al). rewrite E in X. discriminate X.
Qed.
Print Assumptions C106_fewest.
Print Assumptions C106_unsolvable.
Print Assumptions C106_mus.
Print Assumptions C106_compared.
Print Assumptions C106_parity.
Print Assumptions C106_one_turn.

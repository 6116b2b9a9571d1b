(** C28-C30: the IDA* searcher and [Solver::solve]. *)

From Coq Require Import List Bool Arith ZArith SpecFloat Lia.
From Verif Require Import Model_Base Model_Space Model_Moves Model_Pieces Model_PieceSet Model_Cubes
  Model_Search Model_Float Spec_Search Proof_Search Proof_Float Proof_FloatSearch Spec_Sets Spec_Invariants
  Proof_Moves Proof_Solve Prop_Moves Prop_Invariants.
Import ListNotations.
Open Scope nat_scope.

(* ------------------------------------------------------------------ *)
(** * C28: what is returned is a solution *)

(** For every cost type and arithmetic (so also for [f32] with infinities and NaN), every
    heuristic, every start and every depth limit. *)
Theorem C28_search_sound : forall (K C M : Type) (ops : CostOps K) (pr : Problem K C M) (app : C -> M -> C),
  successors_sound pr app ->
  forall fuel max_depth c al c',
  search ops pr fuel max_depth c = SearchDone (Some (al, c')) ->
  fold_left app al c = c' /\ pr_is_target pr c' = true.
Proof. intros K C M ops pr app S fuel md c al c' H. exact (iter_found ops pr app S fuel c _ _ _ _ H). Qed.

(** No panic: neither the [expect] on the path nor the [debug_assert] in [solve]. *)
Theorem C28_no_panic : forall (K C M : Type) (ops : CostOps K) (pr : Problem K C M) (app : C -> M -> C),
  successors_sound pr app ->
  forall fuel max_depth c,
  search ops pr fuel max_depth c <> SearchPanic /\ solve ops pr fuel max_depth c <> SolvePanic.
Proof.
  intros K C M ops pr app S fuel md c. split; [apply iter_no_panic|]. unfold solve.
  destruct (search ops pr fuel md c) as [[[al c']|]| |] eqn:E; try discriminate.
  - apply (C28_search_sound K C M ops pr app S) in E as (_ & ->). discriminate.
  - elim (iter_no_panic ops pr fuel c _ _ E).
Qed.

(** [Cube3::solve_with_heuristic] returns algs that solve the cube. *)
Theorem C28_solve_with_heuristic_sound : forall (heuristic : Cube3 -> f32) fuel c al,
  solve_with_heuristic f32_costs heuristic fuel c = SolveDone (Some al) ->
  fold_left cube3_apply al c = cube3_solved.
Proof.
  intros h fuel c al. unfold solve_with_heuristic, solve.
  assert (S : successors_sound (cube3_problem h) cube3_apply).
  { intros x s m I. apply in_map_iff in I as (m' & [= <- <-] & _). reflexivity. }
  destruct (search f32_costs (cube3_problem h) fuel 200 c) as [[[al' c']|]| |] eqn:E; try discriminate.
  destruct (C28_search_sound _ _ _ _ _ _ S _ _ _ _ _ E) as (F & T). rewrite T. intros [= <-].
  rewrite F. apply cube3_eqb_eq. exact T.
Qed.

(** Non-vacuity: the search runs and succeeds with a heuristic that is always NaN, with
    one that overestimates and with the zero heuristic. *)
Definition line_problem {K} (h : nat -> K) : Problem K nat bool :=
  mkProblem K nat bool Nat.eqb (fun n => [(n + 2, true); (Nat.pred n, false)]) h (fun n => n =? 7).
Definition line_app (n : nat) (b : bool) : nat := if b then n + 2 else Nat.pred n.
Example C28_line_sound {K} (h : nat -> K) : successors_sound (line_problem h) line_app.
Proof. intros c s m [[= <- <-]|[[= <- <-]|[]]]; reflexivity. Qed.
Example C28_zero_run :
  search f32_costs (line_problem (zero_heuristic f32_costs)) 20 200 2 = SearchDone (Some ([true; true; true; false], 7)).
Proof. vm_compute. reflexivity. Qed.
Example C28_overestimate_run :
  search f32_costs (line_problem (fun n => if n =? 2 then f32_of_Z 0 else f32_of_Z 9)) 20 200 2
  = SearchDone (Some ([true; true; true; false], 7)).
Proof. vm_compute. reflexivity. Qed.
Example C28_nan_run :
  search f32_costs (mkProblem f32 nat bool Nat.eqb (fun n => [((n + 1) mod 10, true)]) (fun _ => S754_nan) (fun n => n =? 7)) 20 0 2
  = SearchDone (Some ([true; true; true; true; true], 7)).
Proof. vm_compute. reflexivity. Qed.
Example C28_cube_run : let scramble := [mkMove fR Single; mkMove fU Inverse] in
  solve_with_heuristic f32_costs (zero_heuristic f32_costs) 10 (fold_left cube3_apply scramble cube3_solved)
  = SolveDone (Some [mkMove fU Single; mkMove fR Inverse]).
Proof. vm_compute. reflexivity. Qed.

Print Assumptions C28_search_sound.
Print Assumptions C28_no_panic.
Print Assumptions C28_solve_with_heuristic_sound.

(* ------------------------------------------------------------------ *)
(** * C29: optimal and complete *)

Section Statements.
  Open Scope Z_scope.

(** Exact arithmetic, heuristics that are multiples of 1/[u]: never longer than any
    other alg that reaches the target. *)
Theorem C29_optimal : forall (C M : Type) (u : Z) (pr : Problem Z C M) (app : C -> M -> C),
  0 < u -> equality_ok pr -> successors_complete pr app -> non_negative pr -> admissible u pr app ->
  forall fuel max_depth c al c', search (exact_costs u) pr fuel max_depth c = SearchDone (Some (al, c')) ->
  forall al', reaches_target pr app c al' -> (length al <= length al')%nat.
Proof.
  intros C M u pr app U E Comp NN Ad fuel md c al c' H al' R.
  refine (iter_optimal u U pr app E NN Comp Ad fuel c al' R _ _ al c' _ H). apply Ad, R.
Qed.

(** The same with the code's [f32]: the heuristic's values are multiples of 2^-k, and
    values and depth limit are small enough for single precision. *)
Theorem C29_optimal_f32 : forall (C M : Type) (k H : Z) (pr : Problem Z C M) (app : C -> M -> C),
  0 <= k <= 23 -> equality_ok pr -> successors_complete pr app ->
  (forall c, 0 <= pr_heuristic pr c <= H) -> admissible (2 ^ k) pr app ->
  forall fuel max_depth, 2 * H + 2 ^ k * (Z.max 0 (max_depth + 1) + 1) < 2 ^ 24 ->
  forall c al c', search f32_costs (dyadic_problem k pr) fuel max_depth c = SearchDone (Some (al, c')) ->
  forall al', reaches_target pr app c al' -> (length al <= length al')%nat.
Proof.
  intros C M k H pr app Hk E Comp B Ad fuel md Sm c al c' S. rewrite (search_float k Hk pr H B) in S by exact Sm.
  refine (C29_optimal C M (2 ^ k) pr app _ E Comp _ Ad fuel md c al c' S).
  - apply Z.pow_pos_nonneg; lia.
  - intros x. apply B.
Qed.

(** Completeness: if some alg reaches the target and everything on its way is estimated
    to cost at most the start's estimate plus [max_depth] units, a solution is found.
    With an admissible heuristic in whole moves this is every alg of length at most
    [max_depth] plus the start's estimate. *)
Theorem C29_complete : forall (C M : Type) (k H : Z) (pr : Problem Z C M) (app : C -> M -> C),
  0 <= k <= 23 -> equality_ok pr -> successors_complete pr app ->
  (forall c, 0 <= pr_heuristic pr c <= H) ->
  forall max_depth, 0 <= max_depth -> 2 * H + 2 ^ k * (max_depth + 2) < 2 ^ 24 ->
  forall c al, reaches_target pr app c al ->
  2 ^ k * Z.of_nat (length al) + H <= pr_heuristic pr c + max_depth \/
  (admissible (2 ^ k) pr app /\ 2 ^ k * Z.of_nat (length al) <= pr_heuristic pr c + max_depth) ->
  exists fuel0 r, forall fuel, (fuel0 <= fuel)%nat ->
    search f32_costs (dyadic_problem k pr) fuel max_depth c = SearchDone (Some r).
Proof.
  intros C M k H pr app Hk E Comp B md Md Sm c al R L.
  assert (U : 0 < 2 ^ k) by (apply Z.pow_pos_nonneg; lia).
  assert (NN : non_negative pr) by (intros x; apply B).
  set (n := Z.to_nat (md + 1)).
  set (f := Z.to_nat (H + 2 ^ k * (md + 2))).
  pose proof (B c) as Bc.
  assert (NF : search_iter (exact_costs (2 ^ k)) pr (S f) c n (pr_heuristic pr c) <> SearchFuel).
  { apply iter_terminates; [exact U|exact NN|]. subst n f. rewrite !Z2Nat.id by nia. nia. }
  destruct (remove_loops app (pr_eqb pr) E al c) as (al' & L' & F' & N').
  assert (R' : reaches_target pr app c al') by (unfold reaches_target in *; rewrite F'; exact R).
  assert (Fd : exists r, search_iter (exact_costs (2 ^ k)) pr (S f) c n (pr_heuristic pr c) = SearchDone (Some r)).
  { destruct L as [L|[Ad L]].
    - apply (iter_finds (2 ^ k) U pr app E Comp (2 ^ k * Z.of_nat (length al') + H) (S f) c al' R' N'); [|exact NF| |subst n; lia].
      + intros i Hi. pose proof (B (fold_left app (firstn i al') c)). nia.
      + subst n. rewrite Z2Nat.id by lia. nia.
    - apply (iter_finds (2 ^ k) U pr app E Comp (2 ^ k * Z.of_nat (length al')) (S f) c al' R' N'); [|exact NF| |subst n; lia].
      + apply path_costs; assumption.
      + subst n. rewrite Z2Nat.id by lia. nia. }
  destruct Fd as (r & Fd). exists (S f), r. intros fuel Lf.
  rewrite (search_float k Hk pr H B) by lia. unfold search. fold n.
  replace fuel with (S f + (fuel - S f))%nat by lia. rewrite iter_fuel; rewrite Fd; congruence.
Qed.

(** For the 3x3x3 as the code calls it: with an admissible whole-number heuristic,
    [solve_with_heuristic] finds a shortest solution of every solvable cube, and one
    exists exactly for the states of C07. *)
Theorem C29_solve_with_heuristic : forall h : Cube3 -> Z,
  (forall c, 0 <= h c < 2 ^ 22) ->
  (forall c al, fold_left cube3_apply al c = cube3_solved -> h c <= Z.of_nat (length al)) ->
  forall c, (exists al, fold_left cube3_apply al c = cube3_solved) ->
  exists fuel0 al, (forall fuel, (fuel0 <= fuel)%nat ->
      solve_with_heuristic f32_costs (fun c => f32_of_Z (h c)) fuel c = SolveDone (Some al)) /\
    fold_left cube3_apply al c = cube3_solved /\
    (forall al', fold_left cube3_apply al' c = cube3_solved -> (length al <= length al')%nat).
Proof.
  intros h B Ad c Sv. set (pr := mkProblem Z Cube3 AxisMove cube3_eqb cube3_successors h cube3_is_solved).
  assert (Solved : forall x, cube3_is_solved x = true <-> x = cube3_solved) by (intros x; apply cube3_eqb_eq).
  assert (E : equality_ok pr) by (intros a b; apply cube3_eqb_eq).
  assert (Comp : successors_complete pr cube3_apply).
  { intros x m. apply in_map_iff. exists m. split; [reflexivity|apply all_moves_complete]. }
  assert (Ad' : admissible (2 ^ 0) pr cube3_apply).
  { intros x al R. apply Solved in R. apply Ad in R. change (2 ^ 0) with 1. cbn [pr pr_heuristic]. lia. }
  assert (B' : forall c, 0 <= pr_heuristic pr c <= 2 ^ 22) by (intros x; specialize (B x); cbn; lia).
  apply C07_solvable_exactly in Sv as (W & I1 & I2 & I3).
  destruct (C07_invariants_solvable c W I1 I2 I3) as (al & L & S).
  destruct (C29_complete Cube3 AxisMove 0 (2 ^ 22) pr cube3_apply ltac:(lia) E Comp B' 200 ltac:(lia) ltac:(lia) c al) as (f & [r c'] & F).
  { apply Solved, S. }
  { right. split; [exact Ad'|]. specialize (B' c). change (2 ^ 0) with 1. lia. }
  assert (F' : forall fuel, (f <= fuel)%nat ->
    solve_with_heuristic f32_costs (fun c => f32_of_Z (h c)) fuel c = SolveDone (Some r)).
  { intros fuel Lf. unfold solve_with_heuristic, solve. specialize (F fuel Lf).
    change (cube3_problem (fun c => f32_of_Z (h c))) with (dyadic_problem 0 pr). rewrite F.
    assert (Sd : successors_sound (dyadic_problem 0 pr) cube3_apply).
    { intros x s m I. apply in_map_iff in I as (m' & [= <- <-] & _). reflexivity. }
    destruct (C28_search_sound _ _ _ _ _ _ Sd _ _ _ _ _ F) as (_ & ->). reflexivity. }
  exists f, r. split; [exact F'|]. split.
  - apply (C28_solve_with_heuristic_sound (fun c => f32_of_Z (h c)) f c r), F'. lia.
  - intros al' R. apply (C29_optimal_f32 Cube3 AxisMove 0 (2 ^ 22) pr cube3_apply ltac:(lia) E Comp B' Ad' f 200 ltac:(lia) c r c'); [apply F; lia|].
    apply Solved, R.
Qed.

(** In particular [zero], with which every alg of a length is tried before a longer one. *)
Theorem C29_zero : forall c, zero_heuristic f32_costs c = f32_of_Z 0 /\ ((exists al, fold_left cube3_apply al c = cube3_solved) ->
  exists fuel0 al, (forall fuel, (fuel0 <= fuel)%nat ->
      solve_with_heuristic f32_costs (zero_heuristic f32_costs) fuel c = SolveDone (Some al)) /\
    fold_left cube3_apply al c = cube3_solved /\
    (forall al', fold_left cube3_apply al' c = cube3_solved -> (length al <= length al')%nat)).
Proof. intros c. split; [reflexivity|]. apply (C29_solve_with_heuristic (fun _ => 0)); intros; lia. Qed.
End Statements.

(** Admissibility is needed: with a heuristic that overestimates, a longer alg is
    returned although a shorter one exists. *)
Example C29_needs_admissible :
  let pr h := mkProblem f32 nat nat Nat.eqb (fun n => map (fun m => ((n + m) mod 100, m)) [1; 4]) h (fun n => n =? 4) in
  search f32_costs (pr (fun n => if n =? 0 then f32_of_Z 9 else f32_of_Z 0)) 20 200 0 = SearchDone (Some ([1; 1; 1; 1], 4)) /\
  search f32_costs (pr (zero_heuristic f32_costs)) 20 200 0 = SearchDone (Some ([4], 4)).
Proof. vm_compute. auto. Qed.
(** Non-vacuity: an admissible heuristic that is not zero and a solvable cube. *)
Example C29_hypotheses : let h := fun c => if cube3_is_solved c then 0%Z else 1%Z in
  (forall c, (0 <= h c < 2 ^ 22)%Z) /\
  (forall c al, fold_left cube3_apply al c = cube3_solved -> (h c <= Z.of_nat (length al))%Z) /\
  h (cube3_apply cube3_solved (mkMove fR Single)) = 1%Z.
Proof.
  split; [|split; [|vm_compute; reflexivity]].
  - intros c. cbv beta zeta. destruct (cube3_is_solved c); lia.
  - intros c [|m al] S; cbv beta zeta.
    + cbn in S. subst c. vm_compute. discriminate.
    + destruct (cube3_is_solved c); cbn [length]; lia.
Qed.

Print Assumptions C29_optimal.
Print Assumptions C29_optimal_f32.
Print Assumptions C29_complete.
Print Assumptions C29_solve_with_heuristic.
Print Assumptions C29_zero.

(* ------------------------------------------------------------------ *)
(** * C30: termination, and no state twice on a path *)

(** On a finite state space the search always returns, whatever the costs and the
    heuristic (negative, infinite, NaN): recursion is never deeper than the number of
    states. *)
Theorem C30_terminates_finite : forall (K C M : Type) (ops : CostOps K) (pr : Problem K C M) (states : list C),
  equality_ok pr -> closed_under_successors pr states ->
  forall c max_depth, In c states -> exists r, forall fuel, length states <= fuel ->
  search ops pr fuel max_depth c = SearchDone r.
Proof.
  intros K C M ops pr all E Cl c md I.
  pose proof (iter_finite ops pr E all Cl (length all) c I (le_n _) (Z.to_nat (md + 1)) (pr_heuristic pr c)) as NF.
  pose proof (iter_no_panic ops pr (length all) c (Z.to_nat (md + 1)) (pr_heuristic pr c)) as NP.
  destruct (search_iter ops pr (length all) c (Z.to_nat (md + 1)) (pr_heuristic pr c)) as [r| |] eqn:R; try contradiction.
  exists r. intros fuel L. unfold search. replace fuel with (length all + (fuel - length all)) by lia.
  rewrite iter_fuel; rewrite R; congruence.
Qed.

(** All lists of a given length over a finite alphabet. *)
Fixpoint lists_of {A} (alphabet : list A) (n : nat) : list (list A) :=
  match n with 0 => [[]] | S n => flat_map (fun l => map (fun a => a :: l) alphabet) (lists_of alphabet n) end.
Lemma lists_of_complete {A} (alphabet : list A) (H : forall a, In a alphabet) l : In l (lists_of alphabet (length l)).
Proof.
  induction l as [|a l IH]; cbn; [auto|]. apply in_flat_map. exists l. split; [exact IH|]. apply in_map_iff. exists a. auto.
Qed.
Lemma lists_of_length {A} (alphabet : list A) n : forall l, In l (lists_of alphabet n) -> length l = n.
Proof.
  induction n as [|n IH]; cbn; intros l H; [destruct H as [<-|[]]; reflexivity|].
  apply in_flat_map in H as (l' & I & H). apply in_map_iff in H as (a & <- & _). cbn. rewrite (IH l' I). reflexivity.
Qed.

(** [Cube3::solve_with_heuristic] terminates on every cube, valid or not, with every
    heuristic. *)
Theorem C30_cube3_terminates : forall (K : Type) (ops : CostOps K) (heuristic : Cube3 -> K) (c : Cube3),
  exists fuel0 r, forall fuel, fuel0 <= fuel -> solve_with_heuristic ops heuristic fuel c = SolveDone r.
Proof.
  intros K ops h c.
  set (states := map (fun p => mkCube3 (fst p) (snd p))
    (list_prod (lists_of all_edge_states (length (c3_edges c))) (lists_of all_corner_states (length (c3_corners c))))).
  assert (In_states : forall x, In x states <-> length (c3_edges x) = length (c3_edges c) /\ length (c3_corners x) = length (c3_corners c)).
  { intros [es cs]. unfold states. rewrite in_map_iff. split.
    - intros ([es' cs'] & [= <- <-] & I). apply in_prod_iff in I as (I1 & I2). cbn [fst snd] in *.
      apply lists_of_length in I1. apply lists_of_length in I2. auto.
    - cbn [c3_edges c3_corners]. intros (L1 & L2). exists (es, cs). split; [reflexivity|]. apply in_prod.
      + rewrite <- L1. apply lists_of_complete, all_edge_states_complete.
      + rewrite <- L2. apply lists_of_complete, all_corner_states_complete. }
  destruct (C30_terminates_finite K Cube3 AxisMove ops (cube3_problem h) states) with (c := c) (max_depth := 200%Z) as (r & R).
  - intros a b. apply cube3_eqb_eq.
  - intros x s m I Is. apply in_map_iff in Is as (m' & [= <- <-] & _). apply In_states in I. apply In_states.
    destruct x as [es cs]. cbn [cube3_apply c3_edges c3_corners] in *. unfold edge_set_apply, corner_set_apply. rewrite !map_length. exact I.
  - apply In_states. auto.
  - exists (length states). assert (NP : solve ops (cube3_problem h) (length states) 200 c <> SolvePanic).
    { apply (C28_no_panic _ _ _ ops (cube3_problem h) cube3_apply).
      intros x s m I. apply in_map_iff in I as (m' & [= <- <-] & _). reflexivity. }
    assert (X : exists r, solve ops (cube3_problem h) (length states) 200 c = SolveDone r).
    { unfold solve in *. rewrite (R (length states) (le_n _)) in *. destruct r as [[al c']|]; [|eauto].
      destruct (pr_is_target _ c'); [eauto|contradiction]. }
    destruct X as (r' & X). exists r'. intros fuel L. unfold solve_with_heuristic. rewrite <- X.
    unfold solve. rewrite (R fuel L), (R (length states) (le_n _)). reflexivity.
Qed.

(** With costs that do not decrease the recursion is only as deep as the bound: enough
    room for [h + max_depth] moves, where [h] is the start's estimate. *)
Theorem C30_depth_bounded : forall (C M : Type) (k H : Z) (pr : Problem Z C M),
  (0 <= k <= 23)%Z -> (forall c, 0 <= pr_heuristic pr c <= H)%Z ->
  forall max_depth, (0 <= max_depth)%Z -> (2 * H + 2 ^ k * (max_depth + 2) < 2 ^ 24)%Z ->
  forall c fuel, (pr_heuristic pr c + 2 ^ k * (max_depth + 1) < 2 ^ k * Z.of_nat fuel)%Z ->
  exists r, search f32_costs (dyadic_problem k pr) fuel max_depth c = SearchDone r.
Proof.
  intros C M k H pr Hk B md Md Sm c fuel L. rewrite (search_float k Hk pr H B) by lia. unfold search.
  assert (U : (0 < 2 ^ k)%Z) by (apply Z.pow_pos_nonneg; lia). pose proof (B c) as Bc.
  destruct fuel as [|fuel]; [nia|].
  assert (NF : search_iter (exact_costs (2 ^ k)) pr (S fuel) c (Z.to_nat (md + 1)) (pr_heuristic pr c) <> SearchFuel).
  { apply iter_terminates; [exact U|intros x; apply B|]. rewrite Z2Nat.id by lia. nia. }
  pose proof (iter_no_panic (exact_costs (2 ^ k)) pr (S fuel) c (Z.to_nat (md + 1)) (pr_heuristic pr c)) as NP.
  destruct (search_iter _ _ _ _ _ _) as [r| |]; try contradiction. eauto.
Qed.

(** Every path explored has no state twice and follows successors: asserting so at each
    step changes nothing. *)
Theorem C30_no_repeats : forall (K C M : Type) (ops : CostOps K) (pr : Problem K C M),
  (forall a, pr_eqb pr a a = true) ->
  forall fuel c iterations bound,
  checked_iter ops pr (fun path _ _ => no_repeats (pr_eqb pr) path && connected_path pr path) fuel c iterations bound
  = search_iter ops pr fuel c iterations bound.
Proof.
  intros K C M ops pr Rf fuel c. apply iter_checked.
  - reflexivity.
  - intros bound x rest cur s m Ck _ I Ex. apply andb_true_iff in Ck as (N & P). apply andb_true_iff. split.
    + change (negb (existsb (pr_eqb pr s) (x :: rest)) && no_repeats (pr_eqb pr) (x :: rest) = true). rewrite Ex, N. reflexivity.
    + change (existsb (fun t => pr_eqb pr s (fst t)) (pr_successors pr x) && connected_path pr (x :: rest) = true).
      rewrite P, andb_true_r. apply existsb_exists. exists (s, m). split; [exact I|apply Rf].
Qed.

(** The accumulated cost is the length of the path, and after the first state no path is
    longer than one step past the bound. *)
Theorem C30_costs_are_depths : forall (C M : Type) (u : Z) (pr : Problem Z C M), non_negative pr ->
  forall fuel c iterations bound,
  checked_iter (exact_costs u) pr (fun path cost bound =>
    (cost =? u * (Z.of_nat (length path) - 1))%Z && ((length path =? 1) || (cost <=? bound + u)%Z)) fuel c iterations bound
  = search_iter (exact_costs u) pr fuel c iterations bound.
Proof.
  intros C M u pr NN fuel c. apply iter_checked.
  - intros b. cbn. rewrite Z.mul_0_r. reflexivity.
  - intros b x rest cur s m Ck B _ _. apply andb_true_iff in Ck as (Ck & _). apply Z.eqb_eq in Ck.
    cbn [exact_costs k_ltb k_add k_one] in *. apply Z.ltb_ge in B. pose proof (NN x). apply andb_true_iff. split.
    + apply Z.eqb_eq. cbn [length] in *. lia.
    + apply orb_true_iff. right. apply Z.leb_le. lia.
Qed.

Example C30_check_matters :
  checked_iter f32_costs (line_problem (zero_heuristic f32_costs)) (fun path _ _ => length path <? 3) 20 2 10 (f32_of_Z 0)
  = SearchPanic.
Proof. vm_compute. reflexivity. Qed.
Example C30_finite_states : closed_under_successors
  (mkProblem f32 nat nat Nat.eqb (fun n => [((n + 1) mod 10, 1)]) (fun _ => S754_nan) (fun n => n =? 77)) (seq 0 10).
Proof.
  intros c s m _ [[= <- <-]|[]]. apply in_seq. pose proof (Nat.mod_upper_bound (c + 1) 10 ltac:(discriminate)) as H. split; [apply Nat.le_0_l|exact H].
Qed.

Print Assumptions C30_terminates_finite.
Print Assumptions C30_cube3_terminates.
Print Assumptions C30_depth_bounded.
Print Assumptions C30_no_repeats.
Print Assumptions C30_costs_are_depths.

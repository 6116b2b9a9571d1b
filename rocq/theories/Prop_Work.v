(** C101: how much work a search does. *)

From Coq Require Import List Bool Arith NArith ZArith Lia ZifyBool ZifyN ZifyNat.
From Verif Require Import Model_Base Model_Space Model_Moves Model_Pieces Model_PieceSet Model_Cubes Model_Invariants Model_Search
  Model_Float Model_Mus Model_Cache Model_Disk
  Spec_Search Spec_Invariants Spec_Cache Spec_Power Spec_Work
  Proof_Moves Proof_Solve Proof_Search Proof_Float Proof_FloatSearch Proof_Work
  Prop_Moves Prop_Invariants Prop_Search Prop_Cache Prop_Concurrent Prop_Optimal Prop_Power.
Import ListNotations.
Open Scope nat_scope.

(** Counting does not disturb the search. *)
Theorem C101_counting : forall (K C M : Type) (ops : CostOps K) (pr : Problem K C M) fuel max_depth c,
  fst (counted_search ops pr fuel max_depth c) = search ops pr fuel max_depth c.
Proof. intros. apply counted_iter_same. Qed.

(** ** The problem with exact costs *)
Definition exact_problem (est : Cube3 -> Z) : Problem Z Cube3 AxisMove :=
  mkProblem Z Cube3 AxisMove cube3_eqb cube3_successors est cube3_is_solved.
Section Facts.
  Context (h : Cube3 -> f32) (est : Cube3 -> Z) (Wh : forall c, h c = f32_of_Z (est c) /\ (0 <= est c < 2 ^ 22)%Z).
  Let pr := exact_problem est.
  Lemma ex_solved x : cube3_is_solved x = true <-> x = cube3_solved.
  Proof. apply cube3_eqb_eq. Qed.
  Lemma ex_eq : equality_ok pr. Proof. intros a b. apply cube3_eqb_eq. Qed.
  Lemma ex_pos : non_negative pr. Proof. intros c. apply (Wh c). Qed.
  Lemma ex_sound : successors_sound pr cube3_apply.
  Proof. intros x s m I. apply in_map_iff in I as (m' & [= <- <-] & _). reflexivity. Qed.
  Lemma ex_complete : successors_complete pr cube3_apply.
  Proof. intros x m. apply in_map_iff. exists m. split; [reflexivity|apply all_moves_complete]. Qed.
  Lemma ex_admissible (WA : whole_and_admissible h est) : admissible 1 pr cube3_apply.
  Proof. clear Wh. intros x al R. apply ex_solved in R. apply (proj2 WA) in R. cbn [pr exact_problem pr_heuristic]. lia. Qed.
  Lemma ex_reaches c al : reaches_target pr cube3_apply c al <-> fold_left cube3_apply al c = cube3_solved.
  Proof. apply ex_solved. Qed.
  Lemma ex_bounded c : (0 <= pr_heuristic pr c <= 2 ^ 22)%Z.
  Proof. destruct (Wh c) as [_ B]. cbn [pr exact_problem pr_heuristic]. lia. Qed.
  Lemma ex_eighteen c : length (pr_successors pr c) = 18.
  Proof. cbn [pr exact_problem pr_successors]. unfold cube3_successors. rewrite map_length. reflexivity. Qed.

  Lemma ex_dyadic fuel c : counted_search f32_costs (dyadic_problem 0 pr) fuel 200 c = counted_search f32_costs (cube3_problem h) fuel 200 c.
  Proof.
    assert (X : forall x, pr_heuristic (dyadic_problem 0 pr) x = pr_heuristic (cube3_problem h) x) by (intros x; symmetry; apply (Wh x)).
    unfold counted_search. rewrite X. apply counted_iter_values; [reflexivity|reflexivity|reflexivity|exact X].
  Qed.
  (** The rounds are those of the exact search. *)
  Lemma ex_search fuel c : counted_search f32_costs (cube3_problem h) fuel 200 c =
    let r := counted_iter (exact_costs 1) pr fuel c 201 (est c) in (fst r, map (fun x => (f32_of_Z (fst x), snd x)) (snd r)).
  Proof.
    rewrite <- ex_dyadic. unfold counted_search. change (Z.to_nat (200 + 1)) with 201.
    pose proof (ex_bounded c) as B. cbn [pr exact_problem pr_heuristic] in B.
    exact (counted_iter_float pr (2 ^ 22) ex_bounded fuel c 201 (est c) (proj1 B) ltac:(lia)).
  Qed.
  Lemma ex_most b fuel c : (snd (counted_impl (exact_costs 1) pr fuel [c] 0%Z (Z.of_nat b) (Z.of_nat b + 1)%Z) <= most_states b)%N.
  Proof. apply (counted_most_start pr cube3_apply ex_eq ex_pos ex_sound ex_complete move_inverse undo_move ex_eighteen). lia. Qed.
End Facts.

Definition count (est : Cube3 -> Z) (fuel : nat) (c : Cube3) (b : nat) : N :=
  snd (counted_impl (exact_costs 1) (exact_problem est) fuel [c] 0%Z (Z.of_nat b) (Z.of_nat b + 1)%Z).
Lemma needs_139 c n : needs_moves c n -> n <= 139.
Proof.
  intros [(al & S & L) O]. assert (Sv : exists al, fold_left cube3_apply al c = cube3_solved) by (exists al; exact S).
  apply C07_solvable_exactly in Sv as (W & I1 & I2 & I3). destruct (C07_invariants_solvable c W I1 I2 I3) as (bl & Lb & Sb).
  specialize (O bl Sb). lia.
Qed.
Lemma needs_estimate h est c n : whole_and_admissible h est -> needs_moves c n -> (0 <= est c <= Z.of_nat n)%Z.
Proof. intros WA [(al & S & <-) _]. split; [apply (proj1 WA c)|apply (proj2 WA), S]. Qed.
Lemma shifted {A} (f : nat -> A) a n : map (fun i => f (a + i)) (seq 0 n) = map f (seq a n).
Proof.
  revert a. induction n as [|n IH]; intros a; [reflexivity|]. cbn [seq map]. rewrite Nat.add_0_r. f_equal.
  rewrite <- (IH (S a)), <- seq_shift, map_map. apply map_ext. intros i. f_equal. lia.
Qed.
Lemma all_rounds h est c n fuel : whole_and_admissible h est -> needs_moves c n -> n + 2 <= fuel ->
  exists al, counted_search f32_costs (cube3_problem h) fuel 200 c =
    (SearchDone (Some (al, cube3_solved)),
     map (fun b => (f32_of_Z (Z.of_nat b), count est fuel c b)) (seq (Z.to_nat (est c)) (n + 1 - Z.to_nat (est c)))).
Proof.
  intros WA N Fu. pose proof (needs_139 c n N) as N139. pose proof (needs_estimate h est c n WA N) as Es. destruct N as [(al & S & L) O].
  destruct (rounds_exact (exact_problem est) cube3_apply (ex_eq est) (ex_pos h est (proj1 WA)) (ex_sound est) (ex_complete est) (ex_admissible h est WA)
    fuel c n al) with (d := n - Z.to_nat (est c)) (n := 201) as (r & c' & E).
  - apply ex_reaches, S.
  - exact L.
  - intros bl R. apply ex_reaches in R. apply O, R.
  - lia.
  - lia.
  - lia.
  - pose proof (counted_iter_same (exact_costs 1) (exact_problem est) fuel c 201 (est c)) as Sm.
    exists r. rewrite (ex_search h est (proj1 WA)). cbv zeta. replace (Z.of_nat n - Z.of_nat (n - Z.to_nat (est c)))%Z with (est c) in E by lia.
    rewrite E in *. cbn [fst snd] in *.
    assert (c' = cube3_solved) as ->.
    { symmetry in Sm. destruct (C28_search_sound _ _ _ (exact_costs 1) (exact_problem est) cube3_apply (ex_sound est) fuel 200 c r c') as (_ & T).
      - unfold search. change (Z.to_nat (200 + 1)) with 201. exact Sm.
      - apply ex_solved, T. }
    apply f_equal. rewrite map_map. cbn [fst snd].
    rewrite <- (shifted (fun b => (f32_of_Z (Z.of_nat b), count est fuel c b))). replace (n + 1 - Z.to_nat (est c)) with (Datatypes.S (n - Z.to_nat (est c))) by lia.
    apply map_ext. intros i. unfold count. replace (Z.of_nat (Z.to_nat (est c) + i)) with (est c + Z.of_nat i)%Z by lia. reflexivity.
Qed.

(** ** The rounds *)

(** The bounds of the rounds are the estimate of the start and all whole numbers from there to
    the number of moves that are needed; in the round with bound b at least one and at most
    1 + 18 (1 + 17 + ... + 17^b) states are examined.  The calls of the search are never nested
    deeper than the number of moves that are needed and two (the fuel is their depth). *)
Theorem C101_rounds : forall heuristic estimate, whole_and_admissible heuristic estimate ->
  forall c n, needs_moves c n -> forall fuel, n + 2 <= fuel ->
  (exists al, solve_with_heuristic f32_costs heuristic fuel c = SolveDone (Some al) /\
    fold_left cube3_apply al c = cube3_solved /\ length al = n) /\
  exists states : nat -> N,
    rounds heuristic fuel c = map (fun b => (f32_of_Z (Z.of_nat b), states b)) (seq (Z.to_nat (estimate c)) (n + 1 - Z.to_nat (estimate c))) /\
    (forall b, 1 <= states b <= most_states b)%N.
Proof.
  intros h est WA c n N fuel Fu. destruct (all_rounds h est c n fuel WA N Fu) as (al & E). split.
  - exists al. assert (Sr : search f32_costs (cube3_problem h) fuel 200 c = SearchDone (Some (al, cube3_solved))) by (rewrite <- C101_counting, E; reflexivity).
    unfold solve_with_heuristic, solve. rewrite Sr.
    assert (Sd : successors_sound (cube3_problem h) cube3_apply).
    { intros x s m I. apply in_map_iff in I as (m' & [= <- <-] & _). reflexivity. }
    destruct (C28_search_sound _ _ _ _ _ _ Sd _ _ _ _ _ Sr) as (Fo & _).
    assert (O : length al = n).
    { assert (Sx : search f32_costs (dyadic_problem 0 (exact_problem est)) fuel 200 c = SearchDone (Some (al, cube3_solved))).
      { rewrite <- Sr, <- !C101_counting. rewrite (ex_dyadic h est (proj1 WA)). reflexivity. }
      pose proof (C29_optimal_f32 Cube3 AxisMove 0 (2 ^ 22) (exact_problem est) cube3_apply ltac:(lia) (ex_eq est) (ex_complete est) (ex_bounded h est (proj1 WA))
        (ex_admissible h est WA) fuel 200 ltac:(lia) c al cube3_solved Sx) as O.
      destruct N as [(bl & Sb & Lb) Os]. specialize (Os al Fo). specialize (O bl (proj2 (ex_reaches est c bl) Sb)). lia. }
    replace (pr_is_target (cube3_problem h) cube3_solved) with true by (symmetry; apply ex_solved; reflexivity). auto.
  - exists (count est fuel c). split; [unfold rounds; rewrite E; reflexivity|]. intros b. split; [|apply (ex_most h est (proj1 WA))].
    apply counted_at_least. lia.
Qed.

(** A cube that cannot be solved: all 201 rounds, and then no answer. *)
Theorem C101_unsolvable : forall heuristic estimate, (forall c, heuristic c = f32_of_Z (estimate c) /\ (0 <= estimate c < 2 ^ 22)%Z) ->
  forall c, (forall al, fold_left cube3_apply al c <> cube3_solved) -> forall fuel, Z.to_nat (estimate c) + 202 <= fuel ->
  solve_with_heuristic f32_costs heuristic fuel c = SolveDone None /\
  exists states : nat -> N,
    rounds heuristic fuel c = map (fun b => (f32_of_Z (Z.of_nat b), states b)) (seq (Z.to_nat (estimate c)) 201) /\
    (forall b, 1 <= states b <= most_states b)%N.
Proof.
  intros h est Wh c No fuel Fu. pose proof (proj2 (Wh c)) as B.
  pose proof (rounds_none (exact_problem est) cube3_apply (ex_pos h est Wh) (ex_sound est) fuel c (fun al R => No al (proj1 (ex_reaches est c al) R)) 201 (est c) ltac:(lia) ltac:(lia)) as E.
  assert (X : counted_search f32_costs (cube3_problem h) fuel 200 c = (SearchDone None, map (fun b => (f32_of_Z (Z.of_nat b), count est fuel c b)) (seq (Z.to_nat (est c)) 201))).
  { rewrite (ex_search h est Wh), E. cbv zeta. cbn [fst snd]. apply f_equal. rewrite map_map. cbn [fst snd].
    rewrite <- (shifted (fun b => (f32_of_Z (Z.of_nat b), count est fuel c b))).
    apply map_ext. intros i. unfold count. replace (Z.of_nat (Z.to_nat (est c) + i)) with (est c + Z.of_nat i)%Z by lia. reflexivity. }
  split.
  - assert (Sr : search f32_costs (cube3_problem h) fuel 200 c = SearchDone None) by (rewrite <- C101_counting, X; reflexivity).
    unfold solve_with_heuristic, solve. rewrite Sr. reflexivity.
  - exists (count est fuel c). split; [unfold rounds; rewrite X; reflexivity|]. intros b. split; [|apply (ex_most h est Wh)].
    apply counted_at_least. lia.
Qed.

(** ** A better heuristic never means more work *)
Theorem C101_better : forall h1 e1 h2 e2, whole_and_admissible h1 e1 -> whole_and_admissible h2 e2 ->
  (forall c, (e1 c <= e2 c)%Z) -> forall c n, needs_moves c n -> forall fuel, n + 2 <= fuel ->
  (examined h2 fuel c <= examined h1 fuel c)%N.
Proof.
  intros h1 e1 h2 e2 W1 W2 Le c n N fuel Fu. destruct (all_rounds h1 e1 c n fuel W1 N Fu) as (a1 & E1). destruct (all_rounds h2 e2 c n fuel W2 N Fu) as (a2 & E2).
  unfold examined, rounds. rewrite E1, E2. cbn [snd]. rewrite !map_map. cbn [snd].
  pose proof (needs_estimate h1 e1 c n W1 N). pose proof (needs_estimate h2 e2 c n W2 N). specialize (Le c) as Lc.
  assert (Cm : forall b, (b <= n)%nat -> (count e2 fuel c b <= count e1 fuel c b)%N).
  { intros b Hb. apply (compare_impl (exact_problem e1) (exact_problem e2) cube3_apply eq_refl eq_refl eq_refl (ex_sound e1) (ex_pos h1 e1 (proj1 W1)) (ex_admissible h2 e2 W2) Le).
    rewrite counted_impl_same. destruct fuel as [|fuel]; [lia|]. apply (impl_terminates 1 _ (ex_pos h1 e1 (proj1 W1))). lia. }
  replace (n + 1 - Z.to_nat (e1 c)) with (Z.to_nat (e2 c) - Z.to_nat (e1 c) + (n + 1 - Z.to_nat (e2 c))) by lia.
  rewrite seq_app, map_app, fold_right_app.
  replace (Z.to_nat (e1 c) + (Z.to_nat (e2 c) - Z.to_nat (e1 c))) with (Z.to_nat (e2 c)) by lia.
  assert (A : forall l x, (x <= fold_right N.add x (map (count e1 fuel c) l))%N) by (induction l as [|y l IH]; intros x; cbn [map fold_right]; [lia|specialize (IH x); lia]).
  etransitivity; [|apply A].
  assert (B : forall l, (forall b, In b l -> b <= n) -> (fold_right N.add 0 (map (count e2 fuel c) l) <= fold_right N.add 0 (map (count e1 fuel c) l))%N).
  { induction l as [|y l IH]; intros Hl; cbn [map fold_right]; [lia|]. specialize (IH (fun b I => Hl b (or_intror I))). specialize (Cm y (Hl y (or_introl eq_refl))). lia. }
  apply B. intros b I. apply in_seq in I. lia.
Qed.

(** ** The heuristics of the library *)

Lemma zero_whole : whole_and_admissible (zero_heuristic f32_costs) (fun _ => 0%Z).
Proof. split; intros; [split; [reflexivity|lia]|lia]. Qed.
Definition mus_estimate (ca : Cache) (c : Cube3) : Z := match cache_get ca c with Done v => Z.of_N v | Panic => 0%Z end.
Lemma nearly_panics ca full c : nearly (ca_edges ca) (ca_edges full) -> nearly (ca_corners ca) (ca_corners full) ->
  cache_get full c = Panic -> cache_get ca c = Panic.
Proof.
  intros [Le _] [Lc _]. unfold cache_get. destruct (cube_indices c) as [ix|]; [|reflexivity]. cbn [bind_o].
  assert (N : forall (a b : list N) i, length a = length b -> nth_error b i = None -> nth_error a i = None).
  { intros a b i L. rewrite !nth_error_None. lia. }
  destruct (nth_error (ca_corners full) _) as [x|] eqn:X; [|rewrite (N _ _ _ Lc X); reflexivity].
  destruct (nth_error (ca_corners ca) _) as [x'|]; [|reflexivity].
  destruct (nth_error (ca_edges full) (N.to_nat (ix_edges1 ix))) as [y|] eqn:Y; [|rewrite (N _ _ _ Le Y); reflexivity].
  destruct (nth_error (ca_edges ca) (N.to_nat (ix_edges1 ix))) as [y'|]; [|reflexivity].
  destruct (nth_error (ca_edges full) (N.to_nat (ix_edges2 ix))) as [z|] eqn:Z; [discriminate|rewrite (N _ _ _ Le Z); reflexivity].
Qed.
Lemma nearly_estimate ca full c : nearly (ca_edges ca) (ca_edges full) -> nearly (ca_corners ca) (ca_corners full) ->
  (0 <= mus_estimate ca c <= mus_estimate full c)%Z.
Proof.
  intros Ne Nc. unfold mus_estimate. destruct (cache_get full c) as [v|] eqn:G.
  - destruct (nearly_below ca full c v Ne Nc G) as (v' & -> & L). lia.
  - rewrite (nearly_panics ca full c Ne Nc G). lia.
Qed.
Lemma nearly_whole ca full : complete_cache full -> nearly (ca_edges ca) (ca_edges full) -> nearly (ca_corners ca) (ca_corners full) ->
  whole_and_admissible (mus_value ca) (mus_estimate ca).
Proof.
  intros CC Ne Nc. split.
  - intros c. split; [unfold mus_value, mus, cache_get_or_init, mus_estimate; destruct (cache_get ca c); reflexivity|].
    pose proof (nearly_estimate ca full c Ne Nc) as B. unfold mus_estimate in B at 3. destruct (cache_get full c) as [v|] eqn:G; [|lia].
    pose proof (cache_bounded full c v CC G). lia.
  - intros c al S. unfold mus_estimate. destruct (nearly_over ca full c al CC Ne Nc S) as (v & -> & L). lia.
Qed.
Lemma nearly_itself ca : nearly (ca_edges ca) (ca_edges ca) /\ nearly (ca_corners ca) (ca_corners ca).
Proof. split; (split; [reflexivity|auto]). Qed.

(** With complete tables: the calls are never nested deeper than 141, and never more states are
    examined than without a heuristic. *)
Theorem C101_mus : forall ca c n, complete_cache ca -> needs_moves c n ->
  n <= 139 /\
  (exists al, solve_with_heuristic f32_costs (mus_value ca) 141 c = SolveDone (Some al) /\ fold_left cube3_apply al c = cube3_solved /\ length al = n) /\
  (forall fuel, n + 2 <= fuel -> (examined (mus_value ca) fuel c <= examined (zero_heuristic f32_costs) fuel c)%N).
Proof.
  intros ca c n CC N. destruct (nearly_itself ca) as [Ne Nc]. pose proof (nearly_whole ca ca CC Ne Nc) as W. pose proof (needs_139 c n N) as L. split; [exact L|]. split.
  - apply (C101_rounds (mus_value ca) (mus_estimate ca) W c n N 141). lia.
  - intros fuel Fu. apply (C101_better _ _ _ _ zero_whole W) with (n := n); [|exact N|exact Fu].
    intros x. apply (nearly_estimate ca ca x Ne Nc).
Qed.
(** Tables damaged by losses of power (C98) never save work. *)
Theorem C101_damage_costs : forall d fe fc ca, rough_history d ->
  rn_result (cache_init fe fc d) = Done (Ok ca) \/ cache_load fe fc d = Done (Ok ca) ->
  exists full, complete_cache full /\ forall c n fuel, needs_moves c n -> n + 2 <= fuel ->
    (examined (mus_value full) fuel c <= examined (mus_value ca) fuel c)%N.
Proof.
  intros d fe fc ca H E. destruct (C98_entries_right_or_zero_partial d fe fc ca H E) as (full & CC & Ne & Nc). exists full. split; [exact CC|].
  intros c n fuel N Fu. destruct (nearly_itself full) as [Fe Fc].
  apply (C101_better _ _ _ _ (nearly_whole ca full CC Ne Nc) (nearly_whole full full CC Fe Fc)) with (n := n); [|exact N|exact Fu].
  intros x. apply (nearly_estimate ca full x Ne Nc).
Qed.

(** Non-vacuity: the cube after R needs one move; without a heuristic 1 + 18 states are examined in
    the first round and 38 in the second; a heuristic that knows the solved cube makes that 4 in
    one round. *)
Example C101_example : let c := cube3_apply cube3_solved (mkMove fR Single) in
  let h := fun x => if cube3_is_solved x then f32_of_Z 0 else f32_of_Z 1 in
  needs_moves c 1 /\ whole_and_admissible h (fun x => if cube3_is_solved x then 0%Z else 1%Z) /\
  map snd (rounds (zero_heuristic f32_costs) 3 c) = [19; 38]%N /\ map snd (rounds h 3 c) = [4]%N.
Proof.
  cbv zeta. split; [|split; [|split]].
  - split; [exists [mkMove fR Inverse]; split; vm_compute; reflexivity|]. intros [|m al] S; [vm_compute in S; discriminate S|cbn; lia].
  - split.
    + intros c. destruct (cube3_is_solved c); (split; [reflexivity|lia]).
    + intros c [|m al] S.
      * cbn in S. subst c. vm_compute. discriminate.
      * destruct (cube3_is_solved c); cbn [length]; lia.
  - vm_compute. reflexivity.
  - vm_compute. reflexivity.
Qed.
Print Assumptions C101_counting.
Print Assumptions C101_rounds.
Print Assumptions C101_unsolvable.
Print Assumptions C101_better.
Print Assumptions C101_mus.
Print Assumptions C101_damage_costs.

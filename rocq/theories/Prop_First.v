(** C100: the solver answers with the first of the shortest solutions, whatever the heuristic. *)

From Coq Require Import List Bool Arith NArith ZArith Lia.
From Verif Require Import Model_Base Model_Space Model_Moves Model_Pieces Model_PieceSet Model_Cubes Model_Invariants Model_Search Model_Timed
  Model_Float Model_Mus Model_Cache Model_Cross Model_Disk Model_Concurrent Model_Threads
  Spec_Search Spec_Sets Spec_Invariants Spec_Cache Spec_Cross Spec_Optimal Spec_Power Spec_First
  Proof_Moves Proof_Sets Proof_Cross Proof_Invariants Proof_Random Proof_Solve Proof_Search Proof_Timed Proof_FloatSearch Proof_First
  Prop_Moves Prop_Sets Prop_Invariants Prop_Search Prop_Cross Prop_Cache Prop_Concurrent Prop_Threads Prop_Optimal Prop_CrossLengths Prop_Power.
Import ListNotations.
Open Scope nat_scope.

(** The order is that of [AxisMove::all]; it is also the order of [Cube3::successors]. *)
Theorem C100_order : all_moves = moves_in_order /\ NoDup moves_in_order /\ (forall m, In m moves_in_order) /\
  forall c, map snd (cube3_successors c) = moves_in_order.
Proof.
  assert (E : all_moves = moves_in_order) by reflexivity. split; [exact E|]. split; [|split].
  - vm_compute. repeat constructor; cbn; intuition discriminate.
  - intros m. rewrite <- E. apply all_moves_complete.
  - intros c. unfold cube3_successors. rewrite map_map. cbn [snd]. rewrite map_id. exact E.
Qed.

Definition move_dec (a b : AxisMove) : {a = b} + {a <> b}.
Proof. repeat decide equality. Defined.
(** At most one alg is the first of the shortest. *)
Theorem C100_one : forall goal c al bl, first_of_shortest goal c al -> first_of_shortest goal c bl -> al = bl.
Proof.
  intros goal c al bl [Ga A] [Gb B]. destruct (A bl Gb) as [L1 F1]. destruct (B al Ga) as [L2 F2].
  assert (L : length al = length bl) by lia.
  apply (both_first move_dec (fun _ => moves_in_order) al bl L); [intros _; apply C100_order|apply F1, L|apply F2; lia].
Qed.

(** Any searcher with single-precision costs, any puzzle: of the shortest algs that reach the
    target it returns the one that comes first in the order in which [successors] lists the moves. *)
Theorem C100_search : forall (C M : Type) (k H : Z) (pr : Problem Z C M) (app : C -> M -> C),
  (0 <= k <= 23)%Z -> equality_ok pr -> successors_sound pr app -> successors_complete pr app ->
  (forall c, 0 <= pr_heuristic pr c <= H)%Z -> admissible (2 ^ k) pr app ->
  forall fuel max_depth, (2 * H + 2 ^ k * (Z.max 0 (max_depth + 1) + 1) < 2 ^ 24)%Z ->
  forall c al c', search f32_costs (dyadic_problem k pr) fuel max_depth c = SearchDone (Some (al, c')) ->
  forall bl, reaches_target pr app c bl ->
    length al <= length bl /\
    (length al = length bl -> not_after (fun pre => map snd (pr_successors pr (fold_left app pre c))) al bl).
Proof.
  intros C M k H pr app Hk E Sd Comp B Ad fuel md Sm c al c' S bl R.
  pose proof (C29_optimal_f32 C M k H pr app Hk E Comp B Ad fuel md Sm c al c' S) as O.
  split; [apply O, R|]. intros L. rewrite (search_float k Hk pr H B) in S by exact Sm.
  assert (U : (0 < 2 ^ k)%Z) by (apply Z.pow_pos_nonneg; lia).
  refine (iter_first (2 ^ k) U pr app E (fun x => proj1 (B x)) Sd Comp Ad fuel c bl R _ _ _ al c' _ S).
  - intros xl X. rewrite <- L. apply O, X.
  - apply Ad, R.
Qed.

(** ** Solving the whole cube *)

Lemma timed_first heuristic : never_more heuristic ->
  forall c fuel0 al, cube_well_formed Size3 c ->
  (forall fuel, fuel0 <= fuel -> timed_solve_with_heuristic f32_costs heuristic fuel c = SolveDone (Some al)) ->
  (forall bl, fold_left cube3_apply bl c = cube3_solved -> length al <= length bl) ->
  forall bl, fold_left cube3_apply bl c = cube3_solved -> length al = length bl -> not_after (fun _ => moves_in_order) al bl.
Proof.
  intros (est & Ans & Ad) c fuel0 al W A O bl Sb L.
  assert (Solved : forall x, cube3_is_solved x = true <-> x = cube3_solved) by (intros x; apply cube3_eqb_eq).
  assert (Sound : forall c s m, In (s, m) (cube3_successors c) -> s = cube3_apply c m).
  { intros x s m I. apply in_map_iff in I as (m' & [= <- <-] & _). reflexivity. }
  assert (Complete : forall c m, In (cube3_apply c m, m) (cube3_successors c)).
  { intros x m. apply in_map_iff. exists m. split; [reflexivity|apply all_moves_complete]. }
  assert (Stays : forall c m, cube_well_formed Size3 c -> cube_well_formed Size3 (cube3_apply c m)).
  { intros x m Wx. exact (cube_well_formed_move Size3 x m Wx). }
  set (hz := fun k c => Done (est k c)).
  assert (AnsZ : forall k c, cube_well_formed Size3 c -> exists z, hz k c = Done z /\ (0 <= z <= 2 ^ 22 - 1)%Z).
  { intros k x Wx. exists (est k x). split; [reflexivity|]. destruct (Ans k x Wx). lia. }
  assert (Same : forall t c, cube_well_formed Size3 c -> heuristic t c = map_o (f32_scaled (- 0)) (hz t c)).
  { intros t x Wx. destruct (Ans t x Wx) as (-> & _). reflexivity. }
  specialize (A (S (fuel0 + S (length bl))) ltac:(lia)).
  unfold timed_solve_with_heuristic, timed_solve in A.
  destruct (timed_search f32_costs cube3_eqb cube3_successors cube3_is_solved heuristic (S (fuel0 + S (length bl))) 200 c) as [[[r c']|]| |] eqn:E; try discriminate A.
  destruct (cube3_is_solved c'); [|discriminate A]. injection A as ->.
  unfold timed_search in E. destruct (Ans 0 c W) as (H0 & B0). rewrite H0 in E.
  change (f32_of_Z (est 0 c)) with (f32_scaled (- 0) (est 0 c)) in E.
  rewrite (timed_iter_float 0 ltac:(lia) cube3_eqb cube3_successors cube3_is_solved hz (cube_well_formed Size3) (2 ^ 22 - 1)) in E.
  2:{ intros x s m Wx I. rewrite (Sound _ _ _ I). apply Stays, Wx. }
  2:{ exact AnsZ. }
  2:{ exact Same. }
  2:{ exact W. }
  2:{ lia. }
  2:{ change (2 ^ 0)%Z with 1%Z. lia. }
  change (2 ^ 0)%Z with 1%Z in E.
  pose proof (timed_iter_first 1 ltac:(lia) cube3_eqb cube3_successors cube3_is_solved hz cube3_apply (cube_well_formed Size3)
    cube3_eqb_eq Sound Complete Stays) as Q.
  specialize (Q (fun k x Wx => ex_intro _ (est k x) (conj eq_refl (proj1 (proj2 (Ans k x Wx)))))).
  assert (AdZ : forall k c al z, cube3_is_solved (fold_left cube3_apply al c) = true -> hz k c = Done z -> (z <= 1 * Z.of_nat (length al))%Z).
  { intros k x ax z Tx [= <-]. rewrite Z.mul_1_l. apply Ad, Solved, Tx. }
  specialize (Q AdZ (fuel0 + S (length bl)) c bl W (proj2 (Solved _) Sb)).
  assert (Ob : forall xl, cube3_is_solved (fold_left cube3_apply xl c) = true -> length bl <= length xl).
  { intros xl X. rewrite <- L. apply O, Solved, X. }
  pose proof (Ad 0 c bl Sb) as A0. specialize (Q Ob ltac:(lia) (Z.to_nat (200 + 1)) (est 0 c) 1 al c' ltac:(lia) E).
  intros common m m' q q' Ea Eb Ne. destruct (Q common m m' q q' Ea Eb Ne) as (l1 & l2 & l3 & El).
  exists l1, l2, l3. rewrite <- El. symmetry. apply C100_order.
Qed.

(** Every cube that can be solved has a first shortest solution, and that is what the solver
    answers, also when the heuristic changes its mind during the search. *)
Theorem C100_solver : forall heuristic, never_more heuristic -> forall c, (exists al, fold_left cube3_apply al c = cube3_solved) ->
  exists fuel0 al, first_of_shortest (eq cube3_solved) c al /\
    forall fuel, fuel0 <= fuel -> timed_solve_with_heuristic f32_costs heuristic fuel c = SolveDone (Some al).
Proof.
  intros h NM c Sv. destruct NM as (est & Ans & Ad) eqn:ENM. clear ENM. pose proof Sv as Sv'. apply C07_solvable_exactly in Sv' as (W & _).
  destruct (C62_optimal h est Ans Ad c Sv) as (f0 & al & A & S & O). exists f0, al. split; [|exact A]. split; [symmetry; exact S|].
  intros bl Sb. symmetry in Sb. split; [apply O, Sb|].
  exact (timed_first h (ex_intro _ est (conj Ans Ad)) c f0 al W A O bl Sb).
Qed.
Theorem C100_solve_with_heuristic : forall heuristic : Cube3 -> f32, never_more (fun _ c => Done (heuristic c)) ->
  forall c, (exists al, fold_left cube3_apply al c = cube3_solved) ->
  exists fuel0 al, first_of_shortest (eq cube3_solved) c al /\
    forall fuel, fuel0 <= fuel -> solve_with_heuristic f32_costs heuristic fuel c = SolveDone (Some al).
Proof.
  intros h NM c Sv. destruct (C100_solver _ NM c Sv) as (f0 & al & F & A). exists f0, al. split; [exact F|].
  intros fuel Lf. rewrite <- (A fuel Lf). symmetry. exact (proj2 (C62_unchanging_heuristic f32 Cube3 AxisMove f32_costs (cube3_problem h) fuel 200 c)).
Qed.
(** So two heuristics lead to the same answer, if neither overestimates. *)
Theorem C100_same_answer : forall h1 h2, never_more h1 -> never_more h2 -> forall c, (exists al, fold_left cube3_apply al c = cube3_solved) ->
  exists fuel0, forall fuel, fuel0 <= fuel ->
    timed_solve_with_heuristic f32_costs h1 fuel c = timed_solve_with_heuristic f32_costs h2 fuel c.
Proof.
  intros h1 h2 N1 N2 c Sv. destruct (C100_solver h1 N1 c Sv) as (f1 & a1 & F1 & A1). destruct (C100_solver h2 N2 c Sv) as (f2 & a2 & F2 & A2).
  exists (f1 + f2). intros fuel Lf. rewrite A1, A2 by lia. rewrite (C100_one _ _ _ _ F1 F2). reflexivity.
Qed.

Lemma zero_never_more : never_more (fun _ c => Done (zero_heuristic f32_costs c)).
Proof. exists (fun _ _ => 0%Z). split; intros; [split; [reflexivity|lia]|lia]. Qed.
Lemma nearly_never_more ca full : complete_cache full -> nearly (ca_edges ca) (ca_edges full) -> nearly (ca_corners ca) (ca_corners full) ->
  never_more (fun _ c => Done (mus_value ca c)).
Proof.
  intros CC Ne Nc. exists (fun _ c => match cache_get ca c with Done v => Z.of_N v | Panic => 0%Z end). split.
  - intros _ c W. destruct (C36_consistent full c (mkMove fR Single) CC W) as (v & _ & G & _).
    destruct (nearly_below ca full c v Ne Nc G) as (v' & G' & L). rewrite G'.
    split; [unfold mus_value, mus, cache_get_or_init; rewrite G'; reflexivity|]. pose proof (cache_bounded full c v CC G). lia.
  - intros _ c al S. destruct (nearly_over ca full c al CC Ne Nc S) as (v & G & L). rewrite G. lia.
Qed.
Lemma answers_first ca c al : never_more (fun _ c => Done (mus_value ca c)) -> (exists bl, fold_left cube3_apply bl c = cube3_solved) ->
  answers ca c al <-> first_of_shortest (eq cube3_solved) c al.
Proof.
  intros NM Sv. destruct (C100_solve_with_heuristic (mus_value ca) NM c Sv) as (f & xl & F & A).
  assert (A' : answers ca c xl) by (exists f; exact A). split.
  - intros B. rewrite (answers_unique ca c al xl B A'). exact F.
  - intros B. rewrite (C100_one _ _ _ _ B F). exact A'.
Qed.
(** The move-count heuristic with complete tables ... *)
Theorem C100_mus : forall ca c al, complete_cache ca -> (exists bl, fold_left cube3_apply bl c = cube3_solved) ->
  answers ca c al <-> first_of_shortest (eq cube3_solved) c al.
Proof. intros ca c al CC. apply answers_first. apply (nearly_never_more ca ca CC); split; auto. Qed.
(** ... with tables damaged by losses of power (C98) ... *)
Theorem C100_mus_after_power_loss : forall d fe fc ca c al, rough_history d ->
  rn_result (cache_init fe fc d) = Done (Ok ca) \/ cache_load fe fc d = Done (Ok ca) ->
  (exists bl, fold_left cube3_apply bl c = cube3_solved) ->
  answers ca c al <-> first_of_shortest (eq cube3_solved) c al.
Proof.
  intros d fe fc ca c al H E. destruct (C98_entries_right_or_zero_partial d fe fc ca H E) as (full & CC & Ne & Nc).
  apply answers_first. exact (nearly_never_more ca full CC Ne Nc).
Qed.
(** ... with the tables other processes were writing (C52), which may appear at any time ... *)
Theorem C100_mus_shared : forall (fallback : Cube3 -> outcome f32) (lock : nat -> option Cache),
  never_more (fun _ => fallback) ->
  (forall k ca, lock k = Some ca -> exists s, sys_reach s /\ In (Returned ca) (sy_procs s)) ->
  forall c, (exists bl, fold_left cube3_apply bl c = cube3_solved) ->
  exists fuel0 al, first_of_shortest (eq cube3_solved) c al /\
    forall fuel, fuel0 <= fuel -> timed_solve_with_heuristic f32_costs (timed_mus_with_fallback fallback lock) fuel c = SolveDone (Some al).
Proof.
  intros fb lock (est & Fb & Ad) Lk. apply C100_solver.
  exists (fun k c => match lock k with None => est k c | Some ca => match cache_get ca c with Done v => Z.of_N v | Panic => 0%Z end end). split.
  - intros k x Wx. unfold timed_mus_with_fallback, mus_with_fallback, cache_lock_get.
    destruct (lock k) as [ca|] eqn:El; cbn [option_map]; [|apply Fb, Wx].
    destruct (Lk k ca El) as (s & HR & HI). destruct (C52_entries_right_or_zero s ca HR HI) as (full & CC & Ne & Nc).
    destruct (C36_consistent full x (mkMove fR Single) CC Wx) as (v & _ & G & _).
    destruct (nearly_below ca full x v Ne Nc G) as (v' & G' & L). rewrite G'. cbn [map_o]. split; [reflexivity|].
    pose proof (cache_bounded full x v CC G). lia.
  - intros k x al S. destruct (lock k) as [ca|] eqn:El; [|apply Ad, S].
    destruct (Lk k ca El) as (s & HR & HI). destruct (C52_never_overestimates s ca x al HR HI S) as (v & G & L). rewrite G. lia.
Qed.
(** ... and no tables at all. *)
Theorem C100_zero : forall c, (exists bl, fold_left cube3_apply bl c = cube3_solved) ->
  exists fuel0 al, first_of_shortest (eq cube3_solved) c al /\
    forall fuel, fuel0 <= fuel -> solve_with_heuristic f32_costs (zero_heuristic f32_costs) fuel c = SolveDone (Some al).
Proof. apply C100_solve_with_heuristic, zero_never_more. Qed.

(** ** The cross *)

Theorem C100_cross : forall f c al, cube_well_formed Size3 c -> cross_answers f c al <-> first_of_shortest (cross_solved f) c al.
Proof.
  intros f c al W.
  assert (F : forall al, cross_answers f c al -> first_of_shortest (cross_solved f) c al).
  { clear al. intros al A. destruct (cross_shortest f c al W A) as [S O]. split; [exact S|]. intros bl Sb. split; [apply O, Sb|].
    intros L. destruct A as (g & c' & A). specialize (A g (le_n _)). rewrite solve_cross_dyadic in A.
    assert (L12 : length (c3_edges c) = 12) by (apply cube3_sets_valid_spec in W; apply W).
    assert (Sd : successors_sound (cross_exact f) cube3_apply).
    { intros x s m I. apply in_map_iff in I as (m' & [= <- <-] & _). reflexivity. }
    assert (T : reaches_target (cross_exact f) cube3_apply c bl).
    { unfold reaches_target. cbn [cross_exact pr_is_target]. rewrite Z.eqb_eq. apply count_four; [|exact Sb]. rewrite length_moved. exact L12. }
    destruct (C100_search Cube3 AxisMove 0 3 (cross_exact f) cube3_apply ltac:(lia) (cross_equality f) Sd (cross_complete f)
      (fun x => max_bounds x f) (cross_exact_admissible f) g 200 ltac:(lia) c al c' A bl T) as [_ Q].
    intros common m m' q q' Ea Eb Ne. destruct (Q L common m m' q q' Ea Eb Ne) as (l1 & l2 & l3 & El).
    exists l1, l2, l3. rewrite <- El. symmetry. apply C100_order. }
  split; [apply F|]. intros B. destruct (C40_solve_cross c f W) as (f0 & xl & c' & R & _).
  assert (A : cross_answers f c xl) by (exists f0, c'; exact R). rewrite (C100_one _ _ _ _ B (F xl A)). exact A.
Qed.

(** Example: R L and L R both solve the cube after L' R', the answer is R L with either heuristic. *)
Example C100_example : let c := fold_left cube3_apply [mkMove fL Inverse; mkMove fR Inverse] cube3_solved in
  fold_left cube3_apply [mkMove fL Single; mkMove fR Single] c = cube3_solved /\
  solve_with_heuristic f32_costs (zero_heuristic f32_costs) 10 c = SolveDone (Some [mkMove fR Single; mkMove fL Single]) /\
  not_after (fun _ => moves_in_order) [mkMove fR Single; mkMove fL Single] [mkMove fL Single; mkMove fR Single] /\
  ~ not_after (fun _ => moves_in_order) [mkMove fL Single; mkMove fR Single] [mkMove fR Single; mkMove fL Single].
Proof.
  cbv zeta. split; [vm_compute; reflexivity|]. split; [vm_compute; reflexivity|]. split.
  - intros [|x common] m m' r r' E1 E2 _.
    + cbn in E1, E2. injection E1 as <- _. injection E2 as <- _. exists [], [mkMove fR Double; mkMove fR Inverse],
        (tl (tl (tl (tl moves_in_order)))). reflexivity.
    + cbn in E1, E2. injection E1 as <- _. discriminate E2.
  - intros H. destruct (H [] _ _ _ _ eq_refl eq_refl ltac:(discriminate)) as (l1 & l2 & l3 & E).
    destruct C100_order as (_ & N & _). rewrite E in N.
    assert (In (mkMove fR Single) l1).
    { destruct l1 as [|x l1]; [discriminate E|]. injection E as <- _. left. reflexivity. }
    apply in_split in H0 as (a & b & ->). rewrite <- app_assoc in N. apply NoDup_app_r in N. cbn in N. inversion N as [|? ? Na _]. apply Na.
    apply in_or_app. right. right. apply in_or_app. right. left. reflexivity.
Qed.
Print Assumptions C100_order.
Print Assumptions C100_one.
Print Assumptions C100_search.
Print Assumptions C100_solver.
Print Assumptions C100_solve_with_heuristic.
Print Assumptions C100_same_answer.
Print Assumptions C100_mus.
Print Assumptions C100_mus_after_power_loss.
Print Assumptions C100_mus_shared.
Print Assumptions C100_zero.
Print Assumptions C100_cross.

(** C111: solving in stages, the cross first. *)

From Coq Require Import List Bool Arith NArith ZArith Lia.
From Verif Require Import Model_Base Model_Space Model_Moves Model_Pieces Model_PieceSet Model_Cubes Model_Invariants Model_Search
  Model_Float Model_Mus Model_Cache Model_Cross Spec_Search Spec_Moves Spec_Sets Spec_Invariants Spec_Cache Spec_Cross Spec_Optimal Proof_Cross Proof_Moves Proof_Search
  Prop_Moves Prop_Sets Prop_Search Prop_Invariants Prop_Cross Prop_Cache Prop_Optimal Prop_CrossLengths Prop_CrossMax.
Import ListNotations.
Local Open Scope nat_scope.

(** ** Any two stages *)

(** generic/search/mod.rs:19-22 [Searcher::search] returns the alg and the cube it leads to, from which a second
    searcher can go on, also one with other moves: the two algs one after the other lead from the
    first cube to a target of the second search. *)
Theorem C111_two_searches : forall (K K' C M M' : Type) (ops : CostOps K) (ops' : CostOps K') (pr : Problem K C M) (pr' : Problem K' C M') app app',
  successors_sound pr app -> successors_sound pr' app' ->
  forall fuel fuel' depth depth' c al d bl e,
  search ops pr fuel depth c = SearchDone (Some (al, d)) -> search ops' pr' fuel' depth' d = SearchDone (Some (bl, e)) ->
  fold_left app' bl (fold_left app al c) = e /\ pr_is_target pr (fold_left app al c) = true /\ pr_is_target pr' e = true.
Proof.
  intros K K' C M M' ops ops' pr pr' app app' S S' f f' md md' c al d bl e A B.
  destruct (C28_search_sound _ _ _ _ _ _ S _ _ _ _ _ A) as (<- & T). destruct (C28_search_sound _ _ _ _ _ _ S' _ _ _ _ _ B) as (E & T'). auto.
Qed.

(** ** The cross, then the rest *)

(** What follows from a first stage of at most [n] moves more than a shortest solution of the cross. *)
Lemma stages ca c al xl : complete_cache ca -> (exists bl, solves bl c) -> answers ca c al ->
  exists bl, answers ca (fold_left cube3_apply xl c) bl /\ solves (xl ++ bl) c /\
    length al <= length xl + length bl <= length al + 2 * length xl /\ length bl <= 139 /\
    (length xl + length bl = length al <-> exists rest, solves (xl ++ rest) c /\ length (xl ++ rest) = length al).
Proof.
  intros CC S A. destruct (answers_shortest ca c al CC S A) as [X O].
  assert (S' : exists bl, solves bl (fold_left cube3_apply xl c)).
  { exists (rev (map move_inverse xl) ++ al). rewrite fold_left_app, undo_moves. exact X. }
  destruct (C95_answer ca _ CC S') as (bl & B & _ & XB & OB). exists bl. split; [exact B|].
  assert (Sx : solves (xl ++ bl) c) by (rewrite fold_left_app; exact XB). split; [exact Sx|].
  specialize (OB (rev (map move_inverse xl) ++ al)) as Ob. rewrite fold_left_app, undo_moves in Ob. specialize (Ob X).
  rewrite app_length, rev_length, map_length in Ob. pose proof (O _ Sx) as Oa. rewrite app_length in Oa. split; [lia|]. split.
  - apply C07_solvable_exactly in S' as (W & I1 & I2 & I3). destruct (C07_invariants_solvable _ W I1 I2 I3) as (wl & L & E). specialize (OB wl E). lia.
  - split.
    + intros E. exists bl. split; [exact Sx|]. rewrite app_length. exact E.
    + intros (rest & R & L). rewrite app_length in L. rewrite fold_left_app in R. specialize (OB rest R). lia.
Qed.

(** [solve_cross], then [solve_with_heuristic] with [mus] on the cube it returns: together they solve the cube, with at
    most 16 moves, and at most three times as many, as [solve_with_heuristic] alone; just as many exactly if
    the solution of the cross is the beginning of a shortest solution. *)
Theorem C111_cross_first : forall ca f c al, complete_cache ca -> (exists bl, solves bl c) -> answers ca c al ->
  exists fuel0 xl d bl, (forall fuel, fuel0 <= fuel -> solve_cross fuel c f = SearchDone (Some (xl, d))) /\ fold_left cube3_apply xl c = d /\ cross_solved f d /\
    answers ca d bl /\ solves (xl ++ bl) c /\
    length al <= length (xl ++ bl) <= length al + 16 /\ length (xl ++ bl) <= 3 * length al /\ length (xl ++ bl) <= 147 /\
    (length (xl ++ bl) = length al <-> exists rest, solves (xl ++ rest) c /\ length (xl ++ rest) = length al).
Proof.
  intros ca f c al CC S A. assert (W : cube_well_formed Size3 c) by (apply C07_solvable_exactly in S; apply S).
  destruct (C40_solve_cross c f W) as (g & xl & d & R & E & T & O).
  pose proof (C102_at_most_eight f c xl W (ex_intro _ g (ex_intro _ d R))) as L8.
  destruct (stages ca c al xl CC S A) as (bl & B & Sx & L & Lb & Q). rewrite E in B.
  destruct (answers_shortest ca c al CC S A) as [X _]. assert (Lx : length xl <= length al) by (apply O; rewrite X; apply solved_cross).
  exists g, xl, d, bl. split; [exact R|]. split; [exact E|]. split; [exact T|]. split; [exact B|]. split; [exact Sx|]. rewrite app_length.
  split; [lia|]. split; [lia|]. split; [lia|]. exact Q.
Qed.
(** The same after [solve_cross_fast]. *)
Theorem C111_fast_cross_first : forall ca f c al, complete_cache ca -> (exists bl, solves bl c) -> answers ca c al ->
  exists fuel0 xl d bl, (forall fuel, fuel0 <= fuel -> solve_cross_fast fuel c f = SearchDone (Some (xl, d))) /\ fold_left cube3_apply xl c = d /\ cross_solved f d /\
    answers ca d bl /\ solves (xl ++ bl) c /\
    length al <= length (xl ++ bl) <= length al + 16 /\ length (xl ++ bl) <= 3 * length al + 2 /\ length (xl ++ bl) <= 147 /\
    (length (xl ++ bl) = length al <-> exists rest, solves (xl ++ rest) c /\ length (xl ++ rest) = length al).
Proof.
  intros ca f c al CC S A. assert (W : cube_well_formed Size3 c) by (apply C07_solvable_exactly in S; apply S).
  destruct (C41_solve_cross_fast c f W) as (g & xl & d & R & E & T & _).
  assert (F : fast_cross_answers f c xl) by (exists g, d; exact R).
  pose proof (C102_fast_at_most_eight f c xl W F) as L8. pose proof (proj2 (C41_at_most_one_more f c xl W F)) as O.
  destruct (stages ca c al xl CC S A) as (bl & B & Sx & L & Lb & Q). rewrite E in B.
  destruct (answers_shortest ca c al CC S A) as [X _]. assert (Lx : length xl <= length al + 1) by (apply O; rewrite X; apply solved_cross).
  exists g, xl, d, bl. split; [exact R|]. split; [exact E|]. split; [exact T|]. split; [exact B|]. split; [exact Sx|]. rewrite app_length.
  split; [lia|]. split; [lia|]. split; [lia|]. exact Q.
Qed.

(** It can be longer: after R U the cross below is solved with R', and R U R' then takes three moves. *)
Lemma no_shorter (c : Cube3) : cube3_eqb c cube3_solved = false -> forallb (fun m => negb (cube3_eqb (cube3_apply c m) cube3_solved)) all_moves = true ->
  forall al, solves al c -> 2 <= length al.
Proof.
  intros H0 H1 [|m [|m' al]] E; cbn [fold_left length] in *; [|exfalso|lia].
  - rewrite (proj2 (cube3_eqb_eq c cube3_solved) E) in H0. discriminate.
  - rewrite forallb_forall in H1. specialize (H1 m (all_moves_complete m)). rewrite (proj2 (cube3_eqb_eq _ cube3_solved) E) in H1. discriminate.
Qed.
Theorem C111_longer : forall ca, complete_cache ca -> let c := scrambled [mkMove fR Single; mkMove fU Single] in
  exists al xl bl, answers ca c al /\ cross_answers fD c xl /\ answers ca (fold_left cube3_apply xl c) bl /\ length al = 2 /\ length (xl ++ bl) = 4.
Proof.
  intros ca CC c. assert (S : exists bl, solves bl c) by (exists [mkMove fU Inverse; mkMove fR Inverse]; vm_compute; reflexivity).
  destruct (C95_answer ca c CC S) as (al & A & _ & X & O). destruct (C111_cross_first ca fD c al CC S A) as (g & xl & d & bl & R & Ed & T & B & Sx & _).
  exists al, xl, bl. split; [exact A|]. assert (CX : cross_answers fD c xl) by (exists g, d; exact R). split; [exact CX|].
  assert (W : cube_well_formed Size3 c) by apply formed_scrambled.
  assert (L12 : forall l, length (c3_edges (fold_left cube3_apply l c)) = 12) by (intros l; rewrite length_moved; reflexivity).
  destruct (cross_shortest fD c xl W CX) as [SX OX].
  assert (Ex : xl = [mkMove fR Inverse]).
  { specialize (OX [mkMove fR Inverse]). assert (C1 : cross_solved fD (fold_left cube3_apply [mkMove fR Inverse] c)).
    { apply count_four; [apply L12|]. vm_compute. reflexivity. }
    specialize (OX C1). apply count_four in SX; [|apply L12]. destruct xl as [|m [|? ?]]; cbn [length] in OX; [vm_compute in SX; discriminate| |lia].
    assert (Q : forallb (fun m => negb (Z.eqb (count_cross_pieces (fold_left cube3_apply [m] c) fD) 4) || move_eqb m (mkMove fR Inverse)) all_moves = true) by (vm_compute; reflexivity).
    rewrite forallb_forall in Q. specialize (Q m (all_moves_complete m)). rewrite SX in Q. cbn in Q. apply move_eqb_eq in Q. subst m. reflexivity. }
  assert (La : length al = 2).
  { apply Nat.le_antisymm; [apply (O [mkMove fU Inverse; mkMove fR Inverse]); vm_compute; reflexivity|].
    apply (no_shorter c); [vm_compute; reflexivity|vm_compute; reflexivity|exact X]. }
  subst xl. rewrite Ed. split; [exact B|]. split; [exact La|]. rewrite <- Ed in B. set (d' := fold_left cube3_apply [mkMove fR Inverse] c) in *.
  assert (S' : exists l, solves l d') by (exists [mkMove fR Single; mkMove fU Inverse; mkMove fR Inverse]; vm_compute; reflexivity).
  destruct (answers_shortest ca d' bl CC S' B) as [XB OB]. cbn [app length]. f_equal.
  apply Nat.le_antisymm; [apply (OB [mkMove fR Single; mkMove fU Inverse; mkMove fR Inverse]); vm_compute; reflexivity|].
  assert (Q : forallb (fun m => negb (cube3_eqb (cube3_apply d' m) cube3_solved) &&
     forallb (fun m' => negb (cube3_eqb (cube3_apply (cube3_apply d' m) m') cube3_solved)) all_moves) all_moves = true) by (vm_compute; reflexivity).
  rewrite forallb_forall in Q. destruct bl as [|m bl]; [vm_compute in XB; discriminate|]. specialize (Q m (all_moves_complete m)).
  apply andb_true_iff in Q as [Q1 Q2]. cbn [fold_left] in XB. cbn [length]. apply le_n_S, (no_shorter (cube3_apply d' m)); [|exact Q2|exact XB].
  apply negb_true_iff, Q1.
Qed.

(** Two searches one after the other: up to a multiple of five in steps of two, then up to a multiple of
    seven in steps of three. *)
Example C111_example :
  let pr k t := mkProblem Z nat unit Nat.eqb (fun n => [(n + k, tt)]) (fun _ => 0%Z) (fun n => n mod t =? 0) in
  successors_sound (pr 2 5) (fun n _ => n + 2) /\ successors_sound (pr 3 7) (fun n _ => n + 3) /\
  search (exact_costs 1) (pr 2 5) 9 5 1 = SearchDone (Some ([tt; tt], 5)) /\ search (exact_costs 1) (pr 3 7) 9 5 5 = SearchDone (Some ([tt; tt; tt], 14)).
Proof.
  cbv zeta. split; [|split; [|split; vm_compute; reflexivity]]; intros c s m [E|[]]; injection E as <- _; reflexivity.
Qed.
Print Assumptions C111_two_searches.
Print Assumptions C111_cross_first.
Print Assumptions C111_fast_cross_first.
Print Assumptions C111_longer.

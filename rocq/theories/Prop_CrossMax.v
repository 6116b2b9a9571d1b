(** C102: no cross needs more than eight moves, and some need eight. *)

From Coq Require Import List Bool Arith NArith ZArith Lia.
From Verif Require Import Model_Base Model_Space Model_Moves Model_Pieces Model_PieceSet Model_Cubes Model_Search Model_Cross
  Spec_Moves Spec_Geometry Spec_Sets Spec_Invariants Spec_Cross Spec_Optimal
  Proof_Moves Proof_Sets Proof_Solve Proof_Invariants Proof_CrossMax
  Model_Float Model_Mus Spec_Search Spec_Work Proof_Search Proof_FloatSearch Proof_Cross Proof_Work
  Prop_Moves Prop_Sets Prop_Invariants Prop_Search Prop_Optimal Prop_Cross Prop_CrossLengths Prop_Work.
Import ListNotations.
Open Scope nat_scope.

(** ** From any face to D *)

Definition all_rotations : list AxisRotation := [mkRot AX Single; mkRot AX Double; mkRot AX Inverse; mkRot AY Single; mkRot AY Double; mkRot AY Inverse;
  mkRot AZ Single; mkRot AZ Double; mkRot AZ Inverse].
Lemma all_rotations_all r : In r all_rotations.
Proof. destruct r as [[] []]; cbn; tauto. Qed.
Lemma to_D f : exists r, rotate_face f r = fD.
Proof.
  assert (G : existsb (fun r => face_eqb (rotate_face f r) fD) all_rotations = true) by (destruct f as [[] []]; reflexivity).
  apply existsb_exists in G as (r & _ & E). exists r. destruct (rotate_face f r) as [[] []]; try discriminate E; reflexivity.
Qed.
Lemma from_D f : exists r, rotate_face fD r = f.
Proof.
  assert (G : existsb (fun r => face_eqb (rotate_face fD r) f) all_rotations = true) by (destruct f as [[] []]; reflexivity).
  apply existsb_exists in G as (r & _ & E). exists r. destruct (rotate_face fD r) as [[] []], f as [[] []]; try discriminate E; reflexivity.
Qed.
Lemma rotated_apart_checked : forallb (fun r => forallb (fun a => forallb (fun b =>
  Bool.eqb (apart (edge_rotate a r) (edge_rotate b r)) (apart a b)) edges24) edges24) all_rotations = true.
Proof. vm_compute. reflexivity. Qed.
Lemma rotated_apart a b r : apart (edge_rotate a r) (edge_rotate b r) = apart a b.
Proof.
  pose proof rotated_apart_checked as H. rewrite forallb_forall in H. specialize (H r (all_rotations_all r)).
  rewrite forallb_forall in H. specialize (H a (edges24_all a)). rewrite forallb_forall in H. specialize (H b (edges24_all b)).
  apply eqb_prop, H.
Qed.
Lemma edge_forth e r : edge_rotate (edge_rotate e r) (rot_inverse r) = e.
Proof. destruct e as [[] [[] []] []], r as [[] []]; reflexivity. Qed.

(** The edge as it is, or flipped. *)
Definition turned (o : bool) (e : Edge) : Edge := if o then e else flipped e.
Lemma turned_twice o e : turned o (turned o e) = e.
Proof. destruct o, e as [n s []]; reflexivity. Qed.
Lemma run_turned o al e : fold_left edge_apply al (turned o e) = turned o (fold_left edge_apply al e).
Proof. destruct o; [reflexivity|apply run_flipped]. Qed.
Lemma apart_turned_l o e b : apart (turned o e) b = apart e b.
Proof. destruct o; reflexivity. Qed.
Lemma apart_turned_r o e b : apart b (turned o e) = apart b e.
Proof. destruct o; reflexivity. Qed.

(** Where a place of the D cross comes from. *)
Definition origin (r : AxisRotation) (d : Edge) : EdgePos := edge_position (edge_rotate d (rot_inverse r)).
Definition upright (r : AxisRotation) (d : Edge) : bool := e_oriented (edge_rotate d (rot_inverse r)).
Lemma origin_home r d : edge_rotate d (rot_inverse r) = turned (upright r d) (home (origin r d)).
Proof. unfold upright, origin, turned, home. destruct (edge_rotate d (rot_inverse r)) as [n s []]; reflexivity. Qed.
Lemma origins f r : rotate_face f r = fD -> forall p, edge_on_face p f -> In p (map (origin r) [d1; d2; d3; d4]).
Proof.
  intros R p F. unfold edge_on_face in F. destruct f as [[] []], r as [[] []]; try discriminate R; clear R;
    destruct p as [[] [[] []]]; try discriminate F; vm_compute; tauto.
Qed.
Lemma origins_apart r : NoDup (map (origin r) [d1; d2; d3; d4]).
Proof. destruct r as [[] []]; repeat constructor; vm_compute; intuition discriminate. Qed.

Lemma apart_iff a b : apart a b = true <-> edge_position a <> edge_position b.
Proof.
  unfold apart. rewrite negb_true_iff. destruct (edgepos_eqb (edge_position a) (edge_position b)) eqn:E.
  - split; [discriminate|]. intros N. exfalso. apply N.
    destruct a as [[] [[] []] o], b as [[] [[] []] o']; try discriminate E; reflexivity.
  - split; [|reflexivity]. intros _ N. rewrite N in E. destruct b as [[] [[] []] o']; discriminate E.
Qed.
Lemma reference_nodup : NoDup edge_reference.
Proof. repeat constructor; cbn; intuition discriminate. Qed.

(** [e] is the edge of the cross that belongs at the place of [d] after the rotation, turned with
    it. *)
Definition shown (r : AxisRotation) (c : Cube3) (d e : Edge) : Prop :=
  forall i, nth_error edge_reference i = Some (origin r d) ->
  option_map (fun x => edge_rotate (turned (upright r d) x) r) (nth_error (c3_edges c) i) = Some e.
Lemma reference_index i j p : nth_error edge_reference i = Some p -> nth_error edge_reference j = Some p -> i = j.
Proof.
  intros N Nj. refine (proj1 (NoDup_nth_error _) reference_nodup i j _ _); [|congruence].
  assert (Q : nth_error edge_reference i <> None) by (rewrite N; discriminate). exact (proj1 (nth_error_Some edge_reference i) Q).
Qed.
Lemma four_shown r c : cube_well_formed Size3 c -> exists e1 e2 e3 e4, all_apart e1 e2 e3 e4 /\
  shown r c d1 e1 /\ shown r c d2 e2 /\ shown r c d3 e3 /\ shown r c d4 e4.
Proof.
  intros W. apply cube3_sets_valid_spec in W. destruct W as [[LE NE] _].
  assert (At : forall d, exists i e, nth_error edge_reference i = Some (origin r d) /\ nth_error (c3_edges c) i = Some e).
  { intros d. destruct (In_nth_error _ _ (reference_complete (origin r d))) as (i & N). exists i.
    assert (i < length (c3_edges c)) as Li. { rewrite LE. assert (Q : nth_error edge_reference i <> None) by (rewrite N; discriminate). exact (proj1 (nth_error_Some edge_reference i) Q). }
    destruct (nth_error (c3_edges c) i) as [e|] eqn:E; [exists e; split; [exact N|reflexivity]|]. apply nth_error_None in E. lia. }
  assert (Ap : forall d d' i i' e e', origin r d <> origin r d' ->
    nth_error edge_reference i = Some (origin r d) -> nth_error (c3_edges c) i = Some e ->
    nth_error edge_reference i' = Some (origin r d') -> nth_error (c3_edges c) i' = Some e' ->
    apart (edge_rotate (turned (upright r d) e) r) (edge_rotate (turned (upright r d') e') r) = true).
  { intros d d' i i' e e' Ne N E N' E'. rewrite rotated_apart, apart_turned_l, apart_turned_r. apply apart_iff. intros P.
    assert (i = i'); [|subst i'; rewrite N in N'; congruence].
    refine (proj1 (NoDup_nth_error _) NE i i' _ _); rewrite ?map_length, ?nth_error_map.
    - assert (Q : nth_error (c3_edges c) i <> None) by (rewrite E; discriminate). exact (proj1 (nth_error_Some _ i) Q).
    - rewrite E, E'. cbn. f_equal. exact P. }
  assert (Sh : forall d i e, nth_error edge_reference i = Some (origin r d) -> nth_error (c3_edges c) i = Some e ->
    shown r c d (edge_rotate (turned (upright r d) e) r)).
  { intros d i e N E j Nj. rewrite <- (reference_index i j _ N Nj), E. reflexivity. }
  destruct (At d1) as (i1 & e1 & N1 & E1), (At d2) as (i2 & e2 & N2 & E2), (At d3) as (i3 & e3 & N3 & E3), (At d4) as (i4 & e4 & N4 & E4).
  pose proof (origins_apart r) as ND. cbn [map] in ND.
  assert (D : origin r d1 <> origin r d2 /\ origin r d1 <> origin r d3 /\ origin r d1 <> origin r d4 /\
    origin r d2 <> origin r d3 /\ origin r d2 <> origin r d4 /\ origin r d3 <> origin r d4).
  { repeat (match goal with H : NoDup (_ :: _) |- _ => inversion H; subst; clear H end). cbn [In] in *. intuition congruence. }
  destruct D as (D12 & D13 & D14 & D23 & D24 & D34).
  exists (edge_rotate (turned (upright r d1) e1) r), (edge_rotate (turned (upright r d2) e2) r),
    (edge_rotate (turned (upright r d3) e3) r), (edge_rotate (turned (upright r d4) e4) r).
  split; [unfold all_apart; repeat split; eapply Ap; eassumption|]. repeat split; eapply Sh; eassumption.
Qed.
Lemma shown_moved r c d e bl : shown r c d e -> shown r (fold_left cube3_apply bl c) d (fold_left edge_apply (rotate_alg bl r) e).
Proof.
  intros H i N. specialize (H i N). rewrite edges_of_scrambled, nth_error_map. destruct (nth_error (c3_edges c) i) as [x|]; [|discriminate].
  cbn [option_map] in *. injection H as <-. rewrite run_rotated, run_turned. reflexivity.
Qed.
Lemma shown_solved f r c e1 e2 e3 e4 : rotate_face f r = fD -> shown r c d1 e1 -> shown r c d2 e2 -> shown r c d3 e3 -> shown r c d4 e4 ->
  (cross_solved f c <-> e1 = d1 /\ e2 = d2 /\ e3 = d3 /\ e4 = d4).
Proof.
  intros R S1 S2 S3 S4.
  assert (On : forall d, In d [d1; d2; d3; d4] -> edge_on_face (origin r d) f).
  { intros d I. unfold edge_on_face. destruct f as [[] []], r as [[] []]; try discriminate R; destruct I as [<-|[<-|[<-|[<-|[]]]]]; reflexivity. }
  split.
  - intros S. assert (G : forall d e, In d [d1; d2; d3; d4] -> shown r c d e -> e = d).
    { intros d e I Sh. destruct (In_nth_error _ _ (reference_complete (origin r d))) as (i & N). specialize (Sh i N).
      rewrite (S i _ N (On d I)) in Sh. cbn [option_map] in Sh. injection Sh as <-. change (mkEdge (fst (origin r d)) (snd (origin r d)) true) with (home (origin r d)).
      rewrite <- origin_home. apply edge_back. }
    repeat split; (apply G; [cbn; tauto|assumption]).
  - intros (-> & -> & -> & ->) i p N F.
    assert (G : forall d, shown r c d d -> nth_error edge_reference i = Some (origin r d) -> nth_error (c3_edges c) i = Some (home (origin r d))).
    { intros d Sh Nd. specialize (Sh i Nd). destruct (nth_error (c3_edges c) i) as [x|]; [|discriminate]. cbn [option_map] in Sh. injection Sh as E. apply f_equal.
      rewrite <- (turned_twice (upright r d) x), <- (edge_forth (turned (upright r d) x) r), E, origin_home. apply turned_twice. }
    destruct (origins f r R p F) as [<-|[<-|[<-|[<-|[]]]]]; apply G; assumption.
Qed.
Lemma rotated_twice al r : rotate_alg (rotate_alg al (rot_inverse r)) r = al.
Proof. unfold rotate_alg. rewrite map_map. rewrite <- (map_id al) at 2. apply map_ext. intros [[[] []] []]; destruct r as [[] []]; reflexivity. Qed.

(** The cross of every face of every cube can be made in at most eight moves. *)
Lemma cross_in_eight f c : cube_well_formed Size3 c -> exists bl, length bl <= 8 /\ cross_solved f (fold_left cube3_apply bl c).
Proof.
  intros W. destruct (to_D f) as (r & R). destruct (four_shown r c W) as (e1 & e2 & e3 & e4 & A & S1 & S2 & S3 & S4).
  destruct (proj1 four_eight _ _ _ _ A) as (al & L & B). exists (rotate_alg al (rot_inverse r)). split; [unfold rotate_alg; rewrite map_length; exact L|].
  apply (shown_solved f r _ _ _ _ _ R (shown_moved _ _ _ _ _ S1) (shown_moved _ _ _ _ _ S2) (shown_moved _ _ _ _ _ S3) (shown_moved _ _ _ _ _ S4)).
  rewrite rotated_twice. exact B.
Qed.

(** Whatever cube it is given and whatever face, the solution of the cross has at most eight
    moves. *)
Theorem C102_at_most_eight : forall f c al, cube_well_formed Size3 c -> cross_answers f c al -> length al <= 8.
Proof.
  intros f c al W A. destruct (cross_shortest f c al W A) as [_ O]. destruct (cross_in_eight f c W) as (bl & L & S).
  specialize (O bl S). lia.
Qed.
(** B F D2 L' R' U' L' R'. *)
Definition far_scramble : list AxisMove :=
  [mkMove fB Single; mkMove fF Single; mkMove fD Double; mkMove fL Inverse; mkMove fR Inverse; mkMove fU Inverse; mkMove fL Inverse; mkMove fR Inverse].
Lemma far1 : fold_left edge_apply far_scramble d1 = f1. Proof. vm_compute. reflexivity. Qed.
Lemma far2 : fold_left edge_apply far_scramble d2 = f2. Proof. vm_compute. reflexivity. Qed.
Lemma far3 : fold_left edge_apply far_scramble d3 = f3. Proof. vm_compute. reflexivity. Qed.
Lemma far4 : fold_left edge_apply far_scramble d4 = f4. Proof. vm_compute. reflexivity. Qed.
Lemma far_scramble_far al : cross_answers fD (scrambled far_scramble) al -> length al = 8.
Proof.
  intros A. apply Nat.le_antisymm; [exact (C102_at_most_eight fD _ al (formed_scrambled _) A)|].
  destruct (cross_shortest fD _ al (formed_scrambled _) A) as [S _]. unfold scrambled in S. rewrite <- fold_left_app in S.
  pose proof (proj1 (cross_scrambled fD (far_scramble ++ al)) S) as S0. clear S. rename S0 into S.
  assert (G : forall d f, fold_left edge_apply far_scramble d = f -> edge_on_face (edge_position d) fD -> home (edge_position d) = d ->
    fold_left edge_apply al f = d).
  { intros d f <- F H. specialize (S _ F). rewrite fold_left_app in S. change (mkEdge (fst (edge_position d)) (snd (edge_position d)) true) with (home (edge_position d)) in S.
    rewrite H in S. exact S. }
  exact (proj2 four_eight al (G d1 f1 far1 eq_refl eq_refl) (G d2 f2 far2 eq_refl eq_refl) (G d3 f3 far3 eq_refl eq_refl) (G d4 f4 far4 eq_refl eq_refl)).
Qed.
(** Eight moves are needed: on every face, for a cube reached by eight turns. *)
Theorem C102_eight_needed : forall f, exists s al, length s = 8 /\ cross_answers f (scrambled s) al /\ length al = 8.
Proof.
  intros f. destruct (from_D f) as (r & R). exists (rotate_alg far_scramble r).
  destruct (C40_solve_cross (scrambled far_scramble) fD (formed_scrambled _)) as (g & bl & c' & B & _).
  destruct (C40_solve_cross (scrambled (rotate_alg far_scramble r)) f (formed_scrambled _)) as (g' & al & c'' & A & _).
  assert (AA : cross_answers f (scrambled (rotate_alg far_scramble r)) al) by (exists g', c''; exact A).
  assert (BB : cross_answers fD (scrambled far_scramble) bl) by (exists g, c'; exact B).
  exists al. split; [unfold rotate_alg; rewrite map_length; reflexivity|]. split; [exact AA|].
  rewrite <- (far_scramble_far bl BB). symmetry. apply (C97_rotated fD far_scramble r bl al BB). rewrite R. exact AA.
Qed.

(** ** The work *)

(** The rounds of the search for the cross: the bound of each and how many states it examines. *)
Definition cross_rounds (f : Face) (fuel : nat) (c : Cube3) : list (f32 * N) :=
  snd (counted_search f32_costs (cross_problem f (fun c => from_outcome (f32_of_Z 0) (worse_but_admissable_cross_heuristic c f))) fuel 200 c).
Lemma cross_sound f : successors_sound (cross_exact f) cube3_apply.
Proof. intros x s m I. apply in_map_iff in I as (m' & [= <- <-] & _). reflexivity. Qed.
Lemma cross_bounded f c : (0 <= pr_heuristic (cross_exact f) c <= 3)%Z.
Proof. apply max_bounds. Qed.
Lemma cross_pos f : non_negative (cross_exact f).
Proof. intros c. apply cross_bounded. Qed.
Lemma cross_eighteen f c : length (pr_successors (cross_exact f) c) = 18.
Proof. cbn [cross_exact pr_successors]. unfold cube3_successors. rewrite map_length. reflexivity. Qed.
Lemma cross_counted f fuel c :
  counted_search f32_costs (cross_problem f (fun c => from_outcome (f32_of_Z 0) (worse_but_admissable_cross_heuristic c f))) fuel 200 c =
  let r := counted_iter (exact_costs 1) (cross_exact f) fuel c 201 (pr_heuristic (cross_exact f) c) in
  (fst r, map (fun x => (f32_of_Z (fst x), snd x)) (snd r)).
Proof.
  assert (X : forall x, pr_heuristic (cross_problem f (fun c => from_outcome (f32_of_Z 0) (worse_but_admissable_cross_heuristic c f))) x =
    pr_heuristic (dyadic_problem 0 (cross_exact f)) x).
  { intros x. cbn [cross_problem dyadic_problem cross_exact pr_heuristic]. unfold worse_but_admissable_cross_heuristic.
    destruct (max_Z (cross_edge_moves x f)); reflexivity. }
  unfold counted_search. change (Z.to_nat (200 + 1)) with 201. rewrite X.
  rewrite (counted_iter_values f32_costs (cross_problem f (fun c => from_outcome (f32_of_Z 0) (worse_but_admissable_cross_heuristic c f)))
    (dyadic_problem 0 (cross_exact f)) eq_refl eq_refl eq_refl X).
  pose proof (cross_bounded f c) as B.
  exact (counted_iter_float (cross_exact f) 3 (cross_bounded f) fuel c 201 (pr_heuristic (cross_exact f) c) (proj1 B) ltac:(lia)).
Qed.

(** The calls of the search are never nested deeper than ten, there are at most nine rounds and
    none of them examines more than 1 + 18 (1 + 17 + ... + 17^8) states. *)
Theorem C102_work : forall f c, cube_well_formed Size3 c -> exists al c', length al <= 8 /\ cross_solved f c' /\
  forall fuel, 10 <= fuel -> solve_cross fuel c f = SearchDone (Some (al, c')) /\
    1 <= length (cross_rounds f fuel c) <= 9 /\ Forall (fun round => snd round <= most_states 8)%N (cross_rounds f fuel c).
Proof.
  intros f c W. destruct (C40_solve_cross c f W) as (g & al & c' & R & E & S & O).
  pose proof (C102_at_most_eight f c al W (ex_intro _ g (ex_intro _ c' R))) as L8.
  exists al, c'. split; [exact L8|]. split; [exact S|]. intros fuel Fu.
  assert (L12 : length (c3_edges c) = 12) by (apply cube3_sets_valid_spec in W; apply W).
  assert (T : forall bl, reaches_target (cross_exact f) cube3_apply c bl <-> cross_solved f (fold_left cube3_apply bl c)).
  { intros bl. unfold reaches_target. cbn [cross_exact pr_is_target]. rewrite Z.eqb_eq. apply count_four. rewrite length_moved. exact L12. }
  pose proof (cross_bounded f c) as B.
  assert (Ra : reaches_target (cross_exact f) cube3_apply c al) by (apply T; rewrite E; exact S).
  pose proof (cross_exact_admissible f c al Ra) as Es.
  destruct (rounds_exact (cross_exact f) cube3_apply (cross_equality f) (cross_pos f) (cross_sound f) (cross_complete f) (cross_exact_admissible f)
    fuel c (length al) al Ra eq_refl) with (d := length al - Z.to_nat (pr_heuristic (cross_exact f) c)) (n := 201) as (r & x & Ex); try lia.
  { intros bl Rb. apply O, T, Rb. }
  replace (Z.of_nat (length al) - Z.of_nat (length al - Z.to_nat (pr_heuristic (cross_exact f) c)))%Z with (pr_heuristic (cross_exact f) c) in Ex by lia.
  pose proof (cross_counted f fuel c) as Cc. rewrite Ex in Cc. cbn zeta in Cc. cbn [fst snd] in Cc.
  assert (Sv : solve_cross fuel c f = SearchDone (Some (r, x))).
  { unfold solve_cross, solve_cross_directly. rewrite <- C101_counting, Cc. reflexivity. }
  split.
  - assert (Nf : solve_cross fuel c f <> SearchFuel) by (rewrite Sv; discriminate).
    rewrite <- (R (fuel + g) ltac:(lia)). unfold solve_cross, solve_cross_directly, search in *. symmetry. apply iter_fuel, Nf.
  - unfold cross_rounds. rewrite Cc. cbn [snd]. rewrite map_map, map_length, seq_length. split; [lia|].
    apply Forall_forall. intros y I. apply in_map_iff in I as (i & <- & I). apply in_seq in I. cbn [fst snd].
    apply (counted_most_start (cross_exact f) cube3_apply (cross_equality f) (cross_pos f) (cross_sound f) (cross_complete f) move_inverse undo_move (cross_eighteen f) 8). lia.
Qed.


(** ** The fast solver *)

Lemma turned_moves_checked : forallb (fun r => forallb (fun d => forallb (fun e =>
  Z.eqb (min_moves_to_solve (origin r d) e) (min_moves_to_solve (edge_position d) (edge_rotate (turned (upright r d) e) r))) edges24) [d1; d2; d3; d4]) all_rotations = true.
Proof. vm_compute. reflexivity. Qed.
Lemma turned_moves r d e : In d [d1; d2; d3; d4] ->
  min_moves_to_solve (origin r d) e = min_moves_to_solve (edge_position d) (edge_rotate (turned (upright r d) e) r).
Proof.
  intros I. pose proof turned_moves_checked as H. rewrite forallb_forall in H. specialize (H r (all_rotations_all r)).
  rewrite forallb_forall in H. specialize (H d I). rewrite forallb_forall in H. specialize (H e (edges24_all e)). apply Z.eqb_eq, H.
Qed.
Lemma doubled_moves_checked : forallb (fun e =>
  Z.eqb (min_moves_to_solve (edge_position d1) e) (Z.of_nat (get m1 e)) && Z.eqb (min_moves_to_solve (edge_position d2) e) (Z.of_nat (get m2 e)) &&
  Z.eqb (min_moves_to_solve (edge_position d3) e) (Z.of_nat (get m3 e)) && Z.eqb (min_moves_to_solve (edge_position d4) e) (Z.of_nat (get m4 e))) edges24 = true.
Proof. vm_compute. reflexivity. Qed.
Lemma doubled_moves e1 e2 e3 e4 : Z.of_nat (doubled e1 e2 e3 e4) =
  (min_moves_to_solve (edge_position d1) e1 + min_moves_to_solve (edge_position d2) e2 + min_moves_to_solve (edge_position d3) e3 + min_moves_to_solve (edge_position d4) e4)%Z.
Proof.
  pose proof doubled_moves_checked as H. rewrite forallb_forall in H.
  pose proof (H e1 (edges24_all e1)) as H1. pose proof (H e2 (edges24_all e2)) as H2. pose proof (H e3 (edges24_all e3)) as H3. pose proof (H e4 (edges24_all e4)) as H4.
  rewrite !andb_true_iff, !Z.eqb_eq in H1, H2, H3, H4. unfold doubled. lia.
Qed.

(** The index of a place. *)
Definition place (p : EdgePos) : nat :=
  (fix go l := match l with [] => 0 | q :: l => if edgepos_eqb q p then 0 else S (go l) end) edge_reference.
(** What the fast heuristic counts, in these terms. *)
Lemma shown_estimate f r c e1 e2 e3 e4 : rotate_face f r = fD -> length (c3_edges c) = 12 ->
  shown r c d1 e1 -> shown r c d2 e2 -> shown r c d3 e3 -> shown r c d4 e4 -> sum_Z (cross_edge_moves c f) = Z.of_nat (doubled e1 e2 e3 e4).
Proof.
  intros R L S1 S2 S3 S4. rewrite doubled_moves.
  assert (G : forall d e i x, In d [d1; d2; d3; d4] -> shown r c d e -> nth_error edge_reference i = Some (origin r d) -> nth_error (c3_edges c) i = Some x ->
    min_moves_to_solve (edge_position d) e = min_moves_to_solve (origin r d) x).
  { intros d e i x I Sh N E. specialize (Sh i N). rewrite E in Sh. cbn [option_map] in Sh. injection Sh as <-. symmetry. apply turned_moves, I. }
  assert (Ix : exists i1 i2 i3 i4 x1 x2 x3 x4,
    nth_error edge_reference i1 = Some (origin r d1) /\ nth_error edge_reference i2 = Some (origin r d2) /\
    nth_error edge_reference i3 = Some (origin r d3) /\ nth_error edge_reference i4 = Some (origin r d4) /\
    nth_error (c3_edges c) i1 = Some x1 /\ nth_error (c3_edges c) i2 = Some x2 /\ nth_error (c3_edges c) i3 = Some x3 /\ nth_error (c3_edges c) i4 = Some x4 /\
    sum_Z (cross_edge_moves c f) = (min_moves_to_solve (origin r d1) x1 + min_moves_to_solve (origin r d2) x2 +
      min_moves_to_solve (origin r d3) x3 + min_moves_to_solve (origin r d4) x4)%Z).
  { clear S1 S2 S3 S4 G. destruct c as [es cs]. cbn [c3_edges] in *.
    do 12 (destruct es as [|? es]; [discriminate L|]). destruct es; [|discriminate L]. clear L.
    exists (place (origin r d1)), (place (origin r d2)), (place (origin r d3)), (place (origin r d4)).
    unfold sum_Z, cross_edge_moves. destruct f as [[] []], r as [[] []]; try discriminate R; clear R;
      do 4 eexists; repeat (split; [reflexivity|]); lazy -[min_moves_to_solve Z.add]; ring. }
  destruct Ix as (i1 & i2 & i3 & i4 & x1 & x2 & x3 & x4 & N1 & N2 & N3 & N4 & E1 & E2 & E3 & E4 & ->).
  rewrite (G d1 e1 i1 x1), (G d2 e2 i2 x2), (G d3 e3 i3 x3), (G d4 e4 i4 x4); try assumption; try (cbn; tauto).
Qed.

Lemma shortest_no_repeat (target : Cube3 -> Prop) al : forall c, target (fold_left cube3_apply al c) ->
  (forall bl, target (fold_left cube3_apply bl c) -> length al <= length bl) -> NoDup (visited cube3_apply c al).
Proof.
  induction al as [|m al IH]; intros c S O; cbn [visited]; constructor.
  - intros [].
  - constructor.
  - intros I. apply visited_suffix in I as (a & b & -> & E). specialize (O b). cbn [fold_left] in S. rewrite fold_left_app, E in S. specialize (O S).
    cbn [length] in O. rewrite app_length in O. lia.
  - apply IH; [exact S|]. intros bl B. specialize (O (m :: bl) B). cbn [length] in O. lia.
Qed.
(** With a way along which the estimate stays low the fast solver finds no longer one. *)
Lemma fast_below f c X bl al : cube_well_formed Size3 c -> fast_cross_answers f c al ->
  cross_solved f (fold_left cube3_apply bl c) -> NoDup (visited cube3_apply c bl) ->
  (forall i, i <= length bl -> (2 * Z.of_nat i + sum_Z (cross_edge_moves (fold_left cube3_apply (firstn i bl) c) f) <= X)%Z) ->
  (2 * Z.of_nat (length al) <= X)%Z.
Proof.
  intros W (g & c' & A) S N B. specialize (A g (le_n _)). rewrite solve_cross_fast_dyadic in A.
  assert (Bh : forall x, (0 <= pr_heuristic (cross_halves f) x <= 12)%Z) by (intros x; apply sum_bounds).
  rewrite (search_float 1 ltac:(lia) (cross_halves f) 12 Bh) in A by lia. unfold search in A. change (2 ^ 1)%Z with 2%Z in A.
  assert (Eq : equality_ok (cross_halves f)) by (intros a b; apply cube3_eqb_eq).
  assert (L12 : length (c3_edges c) = 12) by (apply cube3_sets_valid_spec in W; apply W).
  assert (T : reaches_target (cross_halves f) cube3_apply c bl).
  { unfold reaches_target. cbn [cross_halves pr_is_target]. rewrite Z.eqb_eq. apply count_four; [rewrite length_moved; exact L12|exact S]. }
  refine (iter_found_bound 2 (cross_halves f) cube3_apply Eq (fun x => proj1 (Bh x)) (cross_complete f) X g c bl T N B _ _ _ _ _ A).
  specialize (B 0 ltac:(lia)). cbn [firstn fold_left] in B. cbn [cross_halves pr_heuristic]. lia.
Qed.

Lemma undo_moves s : forall c, fold_left cube3_apply (rev (map move_inverse s)) (fold_left cube3_apply s c) = c.
Proof. induction s as [|m s IH]; intros c; [reflexivity|]. cbn [map rev fold_left]. rewrite fold_left_app, IH. cbn [fold_left]. apply undo_move. Qed.
(** The fast solver is never more than one move above the shortest. *)
Theorem C41_at_most_one_more : forall f c al, cube_well_formed Size3 c -> fast_cross_answers f c al ->
  cross_solved f (fold_left cube3_apply al c) /\
  forall bl, cross_solved f (fold_left cube3_apply bl c) -> length al <= length bl + 1.
Proof.
  intros f c al W A. split; [apply (fast_shortest f c al W A)|].
  destruct (C40_solve_cross c f W) as (g & sl & c' & _ & E & S & O). rewrite <- E in S. clear g E c'.
  enough (2 * Z.of_nat (length al) <= 2 * Z.of_nat (length sl) + 2)%Z by (intros bl B; specialize (O bl B); lia).
  apply (fast_below f c _ sl al W A S).
  { apply (shortest_no_repeat (cross_solved f)); assumption. }
  intros i Hi. destruct (to_D f) as (r & R). destruct (four_shown r c W) as (e1 & e2 & e3 & e4 & Ap & S1 & S2 & S3 & S4).
  pose proof (apart_steps (rotate_alg (firstn i sl) r) _ _ _ _ Ap) as Ai.
  pose proof (shown_moved _ _ _ _ (firstn i sl) S1) as T1. pose proof (shown_moved _ _ _ _ (firstn i sl) S2) as T2.
  pose proof (shown_moved _ _ _ _ (firstn i sl) S3) as T3. pose proof (shown_moved _ _ _ _ (firstn i sl) S4) as T4.
  assert (L12 : length (c3_edges c) = 12) by (apply cube3_sets_valid_spec in W; apply W).
  destruct (Nat.le_gt_cases (length sl - i) 4) as [Near|Far].
  - rewrite (shown_estimate f r _ _ _ _ _ R ltac:(rewrite length_moved; exact L12) T1 T2 T3 T4).
    rewrite <- (firstn_skipn i sl), fold_left_app in S.
    pose proof (proj1 (shown_solved f r _ _ _ _ _ R (shown_moved _ _ _ _ (skipn i sl) T1) (shown_moved _ _ _ _ (skipn i sl) T2)
      (shown_moved _ _ _ _ (skipn i sl) T3) (shown_moved _ _ _ _ (skipn i sl) T4)) S) as (F1 & F2 & F3 & F4).
    assert (Lr : length (rotate_alg (skipn i sl) r) = length sl - i) by (unfold rotate_alg; rewrite map_length; apply skipn_length).
    pose proof (proj1 four_fast (rotate_alg (skipn i sl) r) _ _ _ _ Ai ltac:(lia) F1 F2 F3 F4) as D. lia.
  - pose proof (sum_bounds (fold_left cube3_apply (firstn i sl) c) f) as Sb. lia.
Qed.
(** It never takes more than eight moves either. *)
Theorem C102_fast_at_most_eight : forall f c al, cube_well_formed Size3 c -> fast_cross_answers f c al -> length al <= 8.
Proof.
  intros f c al W A. destruct (C40_solve_cross c f W) as (g & sl & c' & R' & E & S & O). rewrite <- E in S.
  pose proof (C102_at_most_eight f c sl W (ex_intro _ g (ex_intro _ c' R'))) as L8. clear g E c' R'.
  pose proof (proj2 (C41_at_most_one_more f c al W A) sl S) as L1.
  destruct (Nat.eq_dec (length sl) 8) as [Le|]; [|lia].
  destruct (to_D f) as (r & R). destruct (four_shown r c W) as (e1 & e2 & e3 & e4 & Ap & S1 & S2 & S3 & S4).
  assert (Sol : forall bl, cross_solved f (fold_left cube3_apply (rotate_alg bl (rot_inverse r)) c) <->
    fold_left edge_apply bl e1 = d1 /\ fold_left edge_apply bl e2 = d2 /\ fold_left edge_apply bl e3 = d3 /\ fold_left edge_apply bl e4 = d4).
  { intros bl. rewrite (shown_solved f r _ _ _ _ _ R (shown_moved _ _ _ _ _ S1) (shown_moved _ _ _ _ _ S2) (shown_moved _ _ _ _ _ S3) (shown_moved _ _ _ _ _ S4)).
    rewrite rotated_twice. reflexivity. }
  destruct (proj2 four_fast e1 e2 e3 e4 Ap) as (bl & Lb & B1 & B2 & B3 & B4 & Lo).
  { intros bl B1 B2 B3 B4. specialize (O _ (proj2 (Sol bl) (conj B1 (conj B2 (conj B3 B4))))). unfold rotate_alg in O. rewrite map_length in O. lia. }
  assert (Sb : cross_solved f (fold_left cube3_apply (rotate_alg bl (rot_inverse r)) c)) by (apply Sol; auto).
  assert (Lr : length (rotate_alg bl (rot_inverse r)) = 8) by (unfold rotate_alg; rewrite map_length; exact Lb).
  enough (2 * Z.of_nat (length al) <= 16)%Z by lia.
  apply (fast_below f c _ _ al W A Sb).
  - apply (shortest_no_repeat (cross_solved f)); [exact Sb|]. intros xl X. specialize (O xl X). lia.
  - intros i Hi. rewrite Lr in Hi. set (b := firstn i (rotate_alg bl (rot_inverse r))).
    assert (Eb : rotate_alg b r = firstn i bl).
    { unfold b. rewrite <- (rotated_twice bl r) at 2. unfold rotate_alg at 1. rewrite <- firstn_map. reflexivity. }
    assert (L12 : length (c3_edges c) = 12) by (apply cube3_sets_valid_spec in W; apply W).
    rewrite (shown_estimate f r _ _ _ _ _ R ltac:(rewrite length_moved; exact L12) (shown_moved _ _ _ _ b S1) (shown_moved _ _ _ _ b S2)
      (shown_moved _ _ _ _ b S3) (shown_moved _ _ _ _ b S4)).
    rewrite Eb. specialize (Lo i Hi). lia.
Qed.
(** The three lengths compared. *)
Theorem C97_one_more : forall f c xl zl, cube_well_formed Size3 c -> cross_answers f c xl -> fast_cross_answers f c zl ->
  length xl <= length zl <= length xl + 1.
Proof.
  intros f c xl zl W X Z. destruct (cross_shortest f c xl W X) as [SX OX]. destruct (C41_at_most_one_more f c zl W Z) as [SZ OZ].
  split; [apply OX, SZ|apply OZ, SX].
Qed.
(** And it is not always the shortest: on every face there is a cube, two or three turns from the
    solved one, for which it takes one move more. *)
Definition longer_scramble (f : Face) : list AxisMove :=
  match face_axis f with
  | AX => [mkMove f Single; mkMove fU Double]
  | AY => [mkMove f Single; mkMove fF Double]
  | AZ => [mkMove f Single; mkMove fR Single; mkMove f Inverse]
  end.
Lemma longer_checked : forallb (fun f => match solve_cross_fast 10 (scrambled (longer_scramble f)) f with
  | SearchDone (Some (al, _)) => Nat.ltb (length (longer_scramble f)) (length al) | _ => false end) [fU; fD; fL; fR; fF; fB] = true.
Proof. vm_compute. reflexivity. Qed.
Theorem C41_sometimes_longer : forall f, exists s al bl, length s <= 3 /\
  cross_answers f (scrambled s) al /\ fast_cross_answers f (scrambled s) bl /\ length bl = length al + 1.
Proof.
  intros f. set (s := longer_scramble f). exists s.
  destruct (C40_solve_cross (scrambled s) f (formed_scrambled _)) as (g & al & c' & A & E & S & O).
  destruct (C41_solve_cross_fast (scrambled s) f (formed_scrambled _)) as (g2 & bl & c2 & B & E2 & T & O2).
  assert (AA : cross_answers f (scrambled s) al) by (exists g, c'; exact A).
  assert (BB : fast_cross_answers f (scrambled s) bl) by (exists g2, c2; exact B).
  exists al, bl. split; [unfold s, longer_scramble; destruct (face_axis f); cbn; lia|]. split; [exact AA|]. split; [exact BB|].
  apply Nat.le_antisymm; [apply (C41_at_most_one_more f _ bl (formed_scrambled _) BB); rewrite E; exact S|].
  assert (La : length al <= length s).
  { rewrite <- (map_length move_inverse s), <- (rev_length (map move_inverse s)). apply O. unfold scrambled. rewrite undo_moves. exact (solved_cross f). }
  enough (length s < length bl) by lia.
  pose proof longer_checked as H. rewrite forallb_forall in H. specialize (H f ltac:(destruct f as [[] []]; cbn; tauto)). fold s in H.
  destruct (solve_cross_fast 10 (scrambled s) f) as [[[xl x]|]| |] eqn:F; try discriminate H. apply Nat.ltb_lt in H.
  enough (xl = bl) by (subst xl; exact H).
  assert (Nf : solve_cross_fast 10 (scrambled s) f <> SearchFuel) by (rewrite F; discriminate).
  pose proof (B (10 + g2) ltac:(lia)) as B2. unfold solve_cross_fast, solve_cross_directly, search in *. rewrite (iter_fuel f32_costs _ g2 10 _ _ _ Nf), F in B2. congruence.
Qed.

(** The hypotheses: a scrambled cube whose D cross needs exactly eight moves and is found with
    fuel ten. *)
Example C102_example : cube_well_formed Size3 (scrambled far_scramble) /\
  exists al c', solve_cross 10 (scrambled far_scramble) fD = SearchDone (Some (al, c')) /\ length al = 8 /\ cross_solved fD c'.
Proof.
  split; [apply formed_scrambled|]. destruct (C102_work fD (scrambled far_scramble) (formed_scrambled _)) as (al & c' & _ & S & F).
  exists al, c'. split; [apply (F 10), le_n|]. split; [|exact S]. apply far_scramble_far. exists 10, c'. intros fuel Fu. apply (F fuel Fu).
Qed.
Print Assumptions C102_at_most_eight.
Print Assumptions C102_eight_needed.
Print Assumptions C102_work.
Print Assumptions C41_at_most_one_more.
Print Assumptions C102_fast_at_most_eight.
Print Assumptions C41_sometimes_longer.
Print Assumptions C97_one_more.

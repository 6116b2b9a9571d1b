(** C97: the crosses the solver finds, compared with each other and with whole solutions. *)

From Coq Require Import List Bool Arith NArith ZArith Lia.
From Verif Require Import Model_Base Model_Space Model_Moves Model_Pieces Model_PieceSet Model_NonRedundant Model_Cubes Model_Invariants Model_Search
  Model_Float Model_Mus Model_Cache Model_Cross Spec_Moves Spec_Geometry Spec_Sets Spec_Invariants Spec_Cache Spec_Cross Spec_Words Spec_Optimal
  Proof_Moves Proof_NonRedundant Proof_Sets
  Prop_Moves Prop_Sets Prop_Invariants Prop_Cross Prop_Cache Prop_Words Prop_Optimal.
Import ListNotations.
Open Scope nat_scope.

(** [solve_cross] answers [al] (the fuel of the model only has to be large enough). *)
Definition cross_answers (f : Face) (c : Cube3) (al : list AxisMove) : Prop :=
  exists fuel0 c', forall fuel, fuel0 <= fuel -> solve_cross fuel c f = SearchDone (Some (al, c')).
(** The same for [solve_cross_fast]. *)
Definition fast_cross_answers (f : Face) (c : Cube3) (al : list AxisMove) : Prop :=
  exists fuel0 c', forall fuel, fuel0 <= fuel -> solve_cross_fast fuel c f = SearchDone (Some (al, c')).

Lemma cross_shortest f c al : cube_well_formed Size3 c -> cross_answers f c al ->
  cross_solved f (fold_left cube3_apply al c) /\
  forall bl, cross_solved f (fold_left cube3_apply bl c) -> length al <= length bl.
Proof.
  intros W (g & d & A). destruct (C40_solve_cross c f W) as (f0 & al' & c' & R & E & S & O).
  pose proof (A (g + f0) ltac:(lia)) as H. rewrite (R (g + f0)) in H by lia. injection H as <- <-. rewrite <- E in S. split; assumption.
Qed.
Lemma fast_shortest f c al : cube_well_formed Size3 c -> fast_cross_answers f c al ->
  cross_solved f (fold_left cube3_apply al c) /\
  forall bl, cross_solved f (fold_left cube3_apply bl c) -> length al <= length bl + 3.
Proof.
  intros W (g & d & A). destruct (C41_solve_cross_fast c f W) as (f0 & al' & c' & R & E & S & O).
  pose proof (A (g + f0) ltac:(lia)) as H. rewrite (R (g + f0)) in H by lia. injection H as <- <-. rewrite <- E in S. split; assumption.
Qed.
Lemma formed_moves c al : cube_well_formed Size3 c -> cube_well_formed Size3 (fold_left cube3_apply al c).
Proof. revert c. induction al as [|m al IH]; intros c W; [exact W|]. apply IH. exact (cube_well_formed_move Size3 c m W). Qed.
Lemma formed_scrambled s : cube_well_formed Size3 (scrambled s).
Proof. apply formed_moves. exact (cube_well_formed_solved Size3). Qed.

(** A turn of the opposite face leaves the cross as it is. *)
Lemma apart_edge (f : Face) a p : edge_on_face p f -> edge_apply (mkEdge (fst p) (snd p) true) (mkMove (opposite f) a) = mkEdge (fst p) (snd p) true.
Proof. destruct f as [[] []], p as [[] [[] []]], a; unfold edge_on_face; vm_compute; congruence. Qed.
Lemma cross_apart f c m : mv_face m = opposite f -> cross_solved f (cube3_apply c m) -> cross_solved f c.
Proof.
  intros M S. assert (K : forall c, cross_solved f c -> cross_solved f (cube3_apply c (move_inverse m))).
  { intros x X i p N F. specialize (X i p N F). cbn [cube3_apply c3_edges]. unfold edge_set_apply. rewrite nth_error_map, X. cbn [option_map].
    f_equal. destruct m as [g a]. cbn in M. subst g. exact (apart_edge f _ p F). }
  specialize (K _ S). rewrite undo_move in K. exact K.
Qed.

(** The solution of the cross never turns one face twice or one axis three times in a row and
    does not end with a turn of the opposite face. *)
Theorem C97_nothing_to_remove : forall f c al, cube_well_formed Size3 c -> cross_answers f c al ->
  irredundant al /\ forall l m, al = l ++ [m] -> mv_face m <> opposite f.
Proof.
  intros f c al W A. destruct (cross_shortest f c al W A) as [S O]. split; [split|].
  - intros m1 m2 (b & a & ->) F. destruct (merge_same m1 m2 F) as (l & L & E).
    specialize (O (b ++ l ++ a)). rewrite !fold_left_app, E in O. rewrite !fold_left_app in S. specialize (O S).
    rewrite !app_length in O. cbn [length] in O. lia.
  - intros m1 m2 m3 (b & a & ->) [F G]. destruct (merge_three m1 m2 m3 F G) as (l & L & E).
    specialize (O (b ++ l ++ a)). rewrite !fold_left_app, E in O. rewrite !fold_left_app in S. specialize (O S).
    rewrite !app_length in O. cbn [length] in O. lia.
  - intros l m -> M. rewrite fold_left_app in S. apply (cross_apart f _ m M) in S. specialize (O l S).
    rewrite app_length in O. cbn in O. lia.
Qed.

(** The cross takes no more moves than the whole cube; the fast cross no fewer than the
    shortest and at most three more. *)
Lemma solved_cross f : cross_solved f cube3_solved.
Proof. intros i p N _. do 12 (destruct i as [|i]; [injection N as <-; reflexivity|]). destruct i; discriminate. Qed.
Theorem C97_compared : forall ca f c al xl zl, complete_cache ca -> (exists bl, fold_left cube3_apply bl c = cube3_solved) ->
  answers ca c al -> cross_answers f c xl -> fast_cross_answers f c zl ->
  length xl <= length al /\ length xl <= length zl <= length xl + 3.
Proof.
  intros ca f c al xl zl CC S A X Z. pose proof (answers_shortest ca c al CC S A) as [E _].
  assert (W : cube_well_formed Size3 c) by (apply C07_solvable_exactly in S; apply S).
  destruct (cross_shortest f c xl W X) as [SX OX]. destruct (fast_shortest f c zl W Z) as [SZ OZ].
  split; [apply OX; rewrite E; apply solved_cross|]. split; [apply OX, SZ|apply OZ, SX].
Qed.

(** One turn changes the length by at most one; after the first moves exactly the rest is
    needed. *)
Theorem C97_one_turn : forall f c m al bl, cube_well_formed Size3 c ->
  cross_answers f c al -> cross_answers f (cube3_apply c m) bl -> length bl <= S (length al) /\ length al <= S (length bl).
Proof.
  intros f c m al bl W A B. destruct (cross_shortest f c al W A) as [XA OA].
  destruct (cross_shortest f _ bl (cube_well_formed_move Size3 c m W) B) as [XB OB]. split.
  - apply (OB (move_inverse m :: al)). cbn [fold_left]. rewrite undo_move. exact XA.
  - apply (OA (m :: bl)). exact XB.
Qed.
Theorem C97_follow : forall f c al bl rest, cube_well_formed Size3 c ->
  cross_answers f c (al ++ bl) -> cross_answers f (fold_left cube3_apply al c) rest -> length rest = length bl.
Proof.
  intros f c al bl rest W A B. destruct (cross_shortest f c _ W A) as [XA OA]. rewrite fold_left_app in XA.
  destruct (cross_shortest f _ rest (formed_moves c al W) B) as [XB OB]. specialize (OB bl XA).
  specialize (OA (al ++ rest)). rewrite fold_left_app in OA. specialize (OA XB). rewrite !app_length in OA. lia.
Qed.

(** ** From another side *)

Definition flipped (e : Edge) : Edge := mkEdge (e_normal e) (e_slice e) (negb (e_oriented e)).
Lemma apply_flipped e m : edge_apply (flipped e) m = flipped (edge_apply e m).
Proof. destruct e as [[] [[] []] []], m as [[[] []] []]; reflexivity. Qed.
Lemma run_flipped s : forall e, fold_left edge_apply s (flipped e) = flipped (fold_left edge_apply s e).
Proof. induction s as [|m s IH]; intros e; [reflexivity|]. cbn [fold_left]. rewrite apply_flipped. apply IH. Qed.
Lemma run_rotated r s : forall e, fold_left edge_apply (rotate_alg s r) (edge_rotate e r) = edge_rotate (fold_left edge_apply s e) r.
Proof.
  induction s as [|m s IH]; intros e; [reflexivity|]. cbn [rotate_alg map fold_left]. change (map (fun m => rotate_move m r) s) with (rotate_alg s r).
  destruct (C78_pieces (mkWide 0 m) r 1%N ltac:(lia)) as (_ & E & _). cbn [w_move] in E. rewrite <- E. apply IH.
Qed.
Lemma edges_of_scrambled s : forall c, c3_edges (fold_left cube3_apply s c) = map (fold_left edge_apply s) (c3_edges c).
Proof.
  induction s as [|m s IH]; intros c; [symmetry; apply map_id|]. cbn [fold_left]. rewrite IH. cbn [cube3_apply c3_edges].
  unfold edge_set_apply. apply map_map.
Qed.
Lemma solved_edge_nth i p : nth_error edge_reference i = Some p -> nth_error (c3_edges cube3_solved) i = Some (mkEdge (fst p) (snd p) true).
Proof. intros N. do 12 (destruct i as [|i]; [injection N as <-; reflexivity|]). destruct i; discriminate. Qed.
Lemma reference_complete p : In p edge_reference.
Proof. destruct p as [[] [[] []]]; cbn; tauto. Qed.
(** The cross is solved after a scramble if the scramble brings each of its edges back. *)
Lemma cross_scrambled f s : cross_solved f (scrambled s) <->
  forall p, edge_on_face p f -> fold_left edge_apply s (mkEdge (fst p) (snd p) true) = mkEdge (fst p) (snd p) true.
Proof.
  unfold cross_solved, scrambled. rewrite edges_of_scrambled. split.
  - intros H p F. destruct (In_nth_error _ _ (reference_complete p)) as (i & N). specialize (H i p N F).
    rewrite nth_error_map, (solved_edge_nth i p N) in H. cbn in H. congruence.
  - intros H i p N F. rewrite nth_error_map, (solved_edge_nth i p N). cbn [option_map]. f_equal. apply H, F.
Qed.
Lemma rotated_on_face p o f r : edge_on_face (edge_position (edge_rotate (mkEdge (fst p) (snd p) o) r)) (rotate_face f r) <-> edge_on_face p f.
Proof. unfold edge_on_face. destruct p as [[] [[] []]], o, f as [[] []], r as [[] []]; vm_compute; split; congruence. Qed.
Lemma edge_back e r : edge_rotate (edge_rotate e (rot_inverse r)) r = e.
Proof. destruct e as [[] [[] []] []], r as [[] []]; reflexivity. Qed.
Lemma face_back f r : rotate_face (rotate_face f r) (rot_inverse r) = f.
Proof. destruct f as [[] []], r as [[] []]; reflexivity. Qed.
Lemma cross_rotated f s r : cross_solved f (scrambled s) -> cross_solved (rotate_face f r) (scrambled (rotate_alg s r)).
Proof.
  rewrite !cross_scrambled. intros H p F. set (e := mkEdge (fst p) (snd p) true). rewrite <- (edge_back e r).
  rewrite run_rotated. f_equal. set (d := edge_rotate e (rot_inverse r)).
  assert (G : edge_on_face (e_normal d, e_slice d) f).
  { pose proof (proj2 (rotated_on_face p true (rotate_face f r) (rot_inverse r)) F) as G. rewrite face_back in G. exact G. }
  specialize (H _ G). cbn [fst snd] in H. destruct d as [n v []]; [exact H|].
  change (mkEdge n v false) with (flipped (mkEdge n v true)). rewrite run_flipped. f_equal. exact H.
Qed.

(** The cross of a face after a scramble is as hard as the cross of the rotated face after the
    rotated scramble. *)
Theorem C97_rotated : forall f s r al bl,
  cross_answers f (scrambled s) al -> cross_answers (rotate_face f r) (scrambled (rotate_alg s r)) bl -> length al = length bl.
Proof.
  assert (G : forall f s r al, cross_solved f (fold_left cube3_apply al (scrambled s)) ->
    cross_solved (rotate_face f r) (fold_left cube3_apply (rotate_alg al r) (scrambled (rotate_alg s r)))).
  { intros f s r al H. unfold scrambled in *. rewrite <- fold_left_app in H |- *. apply (cross_rotated f (s ++ al) r) in H.
    unfold rotate_alg in *. rewrite map_app in H. exact H. }
  assert (Ln : forall l q, length (rotate_alg l q) = length l) by (intros; apply map_length).
  intros f s r al bl A B. destruct (cross_shortest f _ al (formed_scrambled _) A) as [XA OA].
  destruct (cross_shortest _ _ bl (formed_scrambled _) B) as [XB OB].
  pose proof (OB _ (G f s r al XA)) as H. pose proof (G _ _ (rot_inverse r) bl XB) as K. rewrite face_back in K.
  assert (R : rotate_alg (rotate_alg s r) (rot_inverse r) = s).
  { unfold rotate_alg. rewrite map_map. rewrite <- (map_id s) at 2. apply map_ext. intros [[[] []] []]; destruct r as [[] []]; reflexivity. }
  rewrite R in K. specialize (OA _ K). rewrite Ln in *. lia.
Qed.

(** Every scramble has answers; after D2 the D cross needs one move, and so does the R cross
    after R2. *)
Example C97_example : exists al bl,
  cross_answers fD (scrambled [mkMove fD Double]) al /\ cross_answers fR (scrambled [mkMove fR Double]) bl /\
  length al = 1 /\ length bl = 1.
Proof.
  assert (G : forall f, In f [fD; fR] -> exists al, cross_answers f (scrambled [mkMove f Double]) al /\ length al = 1).
  { intros f I. destruct (C40_solve_cross (scrambled [mkMove f Double]) f (formed_scrambled _)) as (f0 & al & c' & R & E & S & O).
    exists al. split; [exists f0, c'; exact R|]. specialize (O [mkMove f Double]).
    destruct al as [|m [|m' al]]; [exfalso|reflexivity|].
    - cbn [fold_left] in E. subst c'. rewrite cross_scrambled in S.
      destruct I as [<-|[<-|[]]]; [specialize (S (AX, mkVec2 Negative Negative) eq_refl)|specialize (S (AZ, mkVec2 Positive Positive) eq_refl)];
        vm_compute in S; discriminate.
    - assert (1 < 1); [|lia]. eapply Nat.lt_le_trans; [|apply O]; [cbn; lia|]. destruct I as [<-|[<-|[]]]; exact (solved_cross _). }
  destruct (G fD) as (al & A & La); [now left|]. destruct (G fR) as (bl & B & Lb); [right; now left|].
  exists al, bl. repeat split; assumption.
Qed.
Print Assumptions C97_nothing_to_remove.
Print Assumptions C97_compared.
Print Assumptions C97_one_turn.
Print Assumptions C97_follow.
Print Assumptions C97_rotated.

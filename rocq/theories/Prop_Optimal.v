(** C95: the solutions the solver finds are as short as possible, and what follows from it.
    C96: how many algs [Alg::random] can give, and that some cubes need 18 moves. *)

From Coq Require Import List Bool Arith NArith ZArith Lia.
From Verif Require Import Model_Base Model_Space Model_Moves Model_Pieces Model_PieceSet Model_NonRedundant Model_Cubes Model_Invariants Model_Search
  Model_Float Model_Mus Model_Cache Spec_Moves Spec_Sets Spec_Invariants Spec_Cache Spec_Words Spec_Count Spec_BigLaws Spec_Optimal
  Proof_Moves Proof_NonRedundant Proof_Stickers Proof_Count
  Prop_Moves Prop_Sets Prop_Invariants Prop_Cache Prop_RandomAlg Prop_Words Prop_Count.
Import ListNotations.
Open Scope nat_scope.

(* ------------------------------------------------------------------ *)
(** * C95 *)

Notation solves al c := (fold_left cube3_apply al c = cube3_solved).

Lemma answers_unique ca c al bl : answers ca c al -> answers ca c bl -> al = bl.
Proof.
  intros (f & A) (g & B). pose proof (A (f + g) ltac:(lia)) as H. rewrite (B (f + g)) in H by lia. congruence.
Qed.
Lemma answers_shortest ca c al : complete_cache ca -> (exists bl, solves bl c) -> answers ca c al ->
  solves al c /\ forall bl, solves bl c -> length al <= length bl.
Proof.
  intros CC S A. apply C07_solvable_exactly in S as (W & I1 & I2 & I3).
  destruct (C37_solve_with_mus ca c CC W (conj I1 (conj I2 I3))) as (f & al' & R & X & O).
  assert (al = al') as ->; [|split; assumption]. apply (answers_unique ca c); [exact A|exists f; exact R].
Qed.

(** Every cube that can be solved gets one answer, a solution, and no solution is shorter. *)
Theorem C95_answer : forall ca c, complete_cache ca -> (exists bl, solves bl c) ->
  exists al, answers ca c al /\ (forall al', answers ca c al' -> al' = al) /\
    solves al c /\ forall bl, solves bl c -> length al <= length bl.
Proof.
  intros ca c CC S. pose proof S as S'. apply C07_solvable_exactly in S as (W & I1 & I2 & I3).
  destruct (C37_solve_with_mus ca c CC W (conj I1 (conj I2 I3))) as (f & al & R & X & O).
  exists al. assert (A : answers ca c al) by (exists f; exact R).
  split; [exact A|]. split; [|split; assumption]. intros al' A'. exact (answers_unique ca c _ _ A' A).
Qed.

Lemma merge_same (m1 m2 : AxisMove) : mv_face m1 = mv_face m2 -> exists l, length l <= 1 /\
  forall c, fold_left cube3_apply l c = cube3_apply (cube3_apply c m1) m2.
Proof.
  destruct m1 as [f a], m2 as [f' b]. cbn [mv_face]. intros <-.
  exists (match amount_add a b with Some s => [mkMove f s] | None => [] end).
  split; [destruct (amount_add a b); cbn; lia|]. intros c. pose proof (C02_amounts_compose Size3 c f a b) as H.
  change (cube_apply Size3) with cube3_apply in H. rewrite H. destruct (amount_add a b); reflexivity.
Qed.
Lemma merge_three (m1 m2 m3 : AxisMove) :
  face_axis (mv_face m1) = face_axis (mv_face m2) -> face_axis (mv_face m2) = face_axis (mv_face m3) ->
  exists l, length l <= 2 /\ forall c, fold_left cube3_apply l c = cube3_apply (cube3_apply (cube3_apply c m1) m2) m3.
Proof.
  intros A B. assert (Cm : forall c x y, face_axis (mv_face x) = face_axis (mv_face y) -> cube3_apply (cube3_apply c x) y = cube3_apply (cube3_apply c y) x).
  { intros c x y H. exact (C02_same_axis_commute Size3 c x y H). }
  assert (D : mv_face m1 = mv_face m2 \/ mv_face m2 = mv_face m3 \/ mv_face m1 = mv_face m3).
  { destruct m1 as [[a1 d1] x1], m2 as [[a2 d2] x2], m3 as [[a3 d3] x3]. cbn in A, B |- *. subst a2 a3. destruct d1, d2, d3; tauto. }
  destruct D as [D|[D|D]]; destruct (merge_same _ _ D) as (l & L & E).
  - exists (l ++ [m3]). rewrite app_length. cbn [length]. split; [lia|]. intros c. rewrite fold_left_app, E. reflexivity.
  - exists (m1 :: l). cbn [length]. split; [lia|]. intros c. cbn [fold_left]. apply E.
  - exists (m2 :: l). cbn [length]. split; [lia|]. intros c. cbn [fold_left]. rewrite E, (Cm c m1 m2 A). reflexivity.
Qed.
Lemma shortest_irredundant c al : solves al c -> (forall bl, solves bl c -> length al <= length bl) -> irredundant al.
Proof.
  intros S O. split.
  - intros m1 m2 (b & a & ->) F. destruct (merge_same m1 m2 F) as (l & L & E).
    specialize (O (b ++ l ++ a)). rewrite !fold_left_app, E in O. rewrite !fold_left_app in S. specialize (O S).
    rewrite !app_length in O. cbn [length] in O. lia.
  - intros m1 m2 m3 (b & a & ->) [F G]. destruct (merge_three m1 m2 m3 F G) as (l & L & E).
    specialize (O (b ++ l ++ a)). rewrite !fold_left_app, E in O. rewrite !fold_left_app in S. specialize (O S).
    rewrite !app_length in O. cbn [length] in O. lia.
Qed.

(** A solution never has two moves of one face or three of one axis in a row, and
    [normalized] makes it no shorter. *)
Theorem C95_nothing_to_remove : forall ca c al, complete_cache ca -> (exists bl, solves bl c) -> answers ca c al ->
  irredundant al /\ length (normalized al) = length al.
Proof.
  intros ca c al CC S A. destruct (answers_shortest ca c al CC S A) as [X O]. split; [exact (shortest_irredundant c al X O)|].
  destruct (C19_normalized al) as (_ & L & E).
  assert (X' : solves (normalized al) c) by exact (eq_trans (E Size3 c) X). specialize (O _ X'). lia.
Qed.

Lemma undo_move c m : cube3_apply (cube3_apply c m) (move_inverse m) = c.
Proof. exact (ma_inverse _ (cube_apply_ok Size3) c m). Qed.

(** One turn brings the cube at most one move closer or one move further away. *)
Theorem C95_one_turn : forall ca c m al bl, complete_cache ca -> (exists l, solves l c) ->
  answers ca c al -> answers ca (cube3_apply c m) bl -> length bl <= S (length al) /\ length al <= S (length bl).
Proof.
  intros ca c m al bl CC S A B. destruct (answers_shortest ca c al CC S A) as [XA OA].
  assert (S' : exists l, solves l (cube3_apply c m)).
  { exists (move_inverse m :: al). cbn [fold_left]. rewrite undo_move. exact XA. }
  destruct (answers_shortest ca _ bl CC S' B) as [XB OB]. split.
  - apply (OB (move_inverse m :: al)). cbn [fold_left]. rewrite undo_move. exact XA.
  - apply (OA (m :: bl)). exact XB.
Qed.

(** After the first moves of a solution the solver needs exactly the number of moves that
    are left. *)
Theorem C95_follow : forall ca c al bl rest, complete_cache ca -> (exists l, solves l c) ->
  answers ca c (al ++ bl) -> answers ca (fold_left cube3_apply al c) rest -> length rest = length bl.
Proof.
  intros ca c al bl rest CC S A B. destruct (answers_shortest ca _ _ CC S A) as [XA OA]. rewrite fold_left_app in XA.
  destruct (answers_shortest ca _ rest CC (ex_intro _ bl XA) B) as [XB OB]. specialize (OB bl XA).
  specialize (OA (al ++ rest)). rewrite fold_left_app in OA. specialize (OA XB). rewrite !app_length in OA. lia.
Qed.

Lemma reversed_solves s : solves (alg_reversed move_inverse s) (scrambled s).
Proof. exact (C01_reversed_axis Size3 cube3_solved s). Qed.
Lemma reversed_length (s : list AxisMove) : length (alg_reversed move_inverse s) = length s.
Proof. unfold alg_reversed. now rewrite map_length, rev_length. Qed.
Lemma scrambled_back c al : solves al c -> scrambled (alg_reversed move_inverse al) = c.
Proof. intros S. unfold scrambled. rewrite <- S. exact (C01_reversed_axis Size3 c al). Qed.

(** No solution is longer than the scramble, also after [normalized]; and the reversed
    solution is a scramble that gives the cube, of which there is no shorter one. *)
Theorem C95_scramble : forall ca s al, complete_cache ca -> answers ca (scrambled s) al ->
  length al <= length (normalized s) <= length s /\
  scrambled (alg_reversed move_inverse al) = scrambled s /\
  forall s', scrambled s' = scrambled s -> length (alg_reversed move_inverse al) <= length s'.
Proof.
  intros ca s al CC A. destruct (answers_shortest ca _ al CC (ex_intro _ _ (reversed_solves s)) A) as [X O].
  assert (G : forall s', scrambled s' = scrambled s -> length al <= length s').
  { intros s' E. rewrite <- (reversed_length s'). apply O. rewrite <- E. apply reversed_solves. }
  destruct (C19_normalized s) as (_ & L & E). split; [split; [apply G, (E Size3)|exact L]|].
  split; [exact (scrambled_back _ _ X)|]. intros s' H. rewrite reversed_length. exact (G s' H).
Qed.

(** A scramble and its reverse are equally hard. *)
Lemma undo3 c al : fold_left cube3_apply (alg_reversed move_inverse al) (fold_left cube3_apply al c) = c.
Proof. exact (C01_reversed_axis Size3 c al). Qed.
Lemma nothing3 al c : solves al cube3_solved -> fold_left cube3_apply al c = c.
Proof. intros H. exact (proj1 (C78_solved_decides Size3 al []) H c). Qed.
Lemma reversed_le s al : solves al (scrambled s) -> exists bl, length bl = length al /\ solves bl (scrambled (alg_reversed move_inverse s)).
Proof.
  intros X. exists (alg_reversed move_inverse al). split; [apply reversed_length|].
  unfold scrambled in *. rewrite <- fold_left_app in X. pose proof (nothing3 _ (fold_left cube3_apply (alg_reversed move_inverse s) cube3_solved) X) as K.
  assert (U : fold_left cube3_apply s (fold_left cube3_apply (alg_reversed move_inverse s) cube3_solved) = cube3_solved).
  { pose proof (undo3 cube3_solved (alg_reversed move_inverse s)) as U. rewrite C01_reversed_twice in U. exact U. }
  rewrite fold_left_app, U in K. rewrite <- K. apply undo3.
Qed.
Theorem C95_reversed_scramble : forall ca s al bl, complete_cache ca ->
  answers ca (scrambled s) al -> answers ca (scrambled (alg_reversed move_inverse s)) bl -> length al = length bl.
Proof.
  intros ca s al bl CC A B.
  destruct (answers_shortest ca _ al CC (ex_intro _ _ (reversed_solves _)) A) as [XA OA].
  destruct (answers_shortest ca _ bl CC (ex_intro _ _ (reversed_solves _)) B) as [XB OB].
  destruct (reversed_le s al XA) as (l & L & X). specialize (OB l X).
  destruct (reversed_le _ bl XB) as (l' & L' & X'). rewrite C01_reversed_twice in X'. specialize (OA l' X'). lia.
Qed.

(** A scramble done on another side of the cube is as hard. *)
Lemma rotated_le s al r : solves al (scrambled s) -> solves (rotate_alg al r) (scrambled (rotate_alg s r)).
Proof.
  unfold scrambled. rewrite <- !fold_left_app. intros X.
  assert (E : rotate_alg s r ++ rotate_alg al r = rotate_alg (s ++ al) r) by (unfold rotate_alg; now rewrite map_app).
  rewrite E. exact (proj2 (C78_rotated Size3 (s ++ al) [] r) X).
Qed.
Theorem C95_rotated_scramble : forall ca s r al bl, complete_cache ca ->
  answers ca (scrambled s) al -> answers ca (scrambled (rotate_alg s r)) bl -> length al = length bl.
Proof.
  intros ca s r al bl CC A B.
  destruct (answers_shortest ca _ al CC (ex_intro _ _ (reversed_solves _)) A) as [XA OA].
  destruct (answers_shortest ca _ bl CC (ex_intro _ _ (reversed_solves _)) B) as [XB OB].
  assert (Ln : forall l q, length (rotate_alg l q) = length l) by (intros; apply map_length).
  pose proof (OB _ (rotated_le s al r XA)) as H. pose proof (rotated_le _ bl (rot_inverse r) XB) as K.
  assert (R : rotate_alg (rotate_alg s r) (rot_inverse r) = s).
  { unfold rotate_alg. rewrite map_map. rewrite <- (map_id s) at 2. apply map_ext. intros [[[] []] []]; destruct r as [[] []]; reflexivity. }
  rewrite R in K. specialize (OA _ K). rewrite Ln in *. lia.
Qed.

(** Two scrambles after each other are at most as hard as both together. *)
Theorem C95_joined_scrambles : forall ca s t al bl cl, complete_cache ca ->
  answers ca (scrambled s) al -> answers ca (scrambled t) bl -> answers ca (scrambled (s ++ t)) cl ->
  length cl <= length al + length bl.
Proof.
  intros ca s t al bl cl CC A B D.
  destruct (answers_shortest ca _ al CC (ex_intro _ _ (reversed_solves _)) A) as [XA _].
  destruct (answers_shortest ca _ bl CC (ex_intro _ _ (reversed_solves _)) B) as [XB _].
  destruct (answers_shortest ca _ cl CC (ex_intro _ _ (reversed_solves _)) D) as [_ O].
  specialize (O (bl ++ al)). rewrite app_length in O. rewrite Nat.add_comm. apply O.
  unfold scrambled in *. rewrite !fold_left_app. rewrite <- fold_left_app in XB.
  pose proof (nothing3 _ (fold_left cube3_apply s cube3_solved) XB) as K. rewrite fold_left_app in K.
  rewrite K. exact XA.
Qed.

(** The hypotheses are met: a complete cache exists ([C36_complete_cache_exists]) and scrambles
    can be solved; the solver finds R' for R and nothing for nothing. *)
Example C95_example : forall ca, complete_cache ca ->
  answers ca (scrambled []) [] /\
  exists al, answers ca (scrambled [mkMove fR Single]) al /\ length al = 1.
Proof.
  intros ca CC. split.
  - destruct (C95_answer ca (scrambled []) CC (ex_intro _ _ (reversed_solves _))) as (al & A & _ & _ & O).
    specialize (O [] eq_refl). destruct al; [exact A|cbn in O; lia].
  - destruct (C95_answer ca (scrambled [mkMove fR Single]) CC (ex_intro _ _ (reversed_solves _))) as (al & A & _ & S & O).
    exists al. split; [exact A|]. specialize (O _ (reversed_solves _)). cbn in O.
    destruct al as [|m [|m' al]]; [|reflexivity|cbn in O; lia]. exfalso.
    exact (C02_order_exactly_four Size3 fR Single S).
Qed.

(* ------------------------------------------------------------------ *)
(** * C96 *)

(** ** Listing the algs *)

Definition may_follow (f g : Face) : bool :=
  negb (axis_eqb (face_axis f) (face_axis g)) || (dir_eqb (face_dir f) Positive && dir_eqb (face_dir g) Negative).
Definition in_shape (al : list AxisMove) : Prop := irredundant al /\ positive_first al.
Lemma in_shape_nil : in_shape [].
Proof. split; [split|]; repeat intro; exfalso; eapply segment_nil; eassumption. Qed.
Lemma in_shape_cons m l : in_shape (m :: l) <->
  in_shape l /\ match l with [] => True | m2 :: _ => may_follow (mv_face m) (mv_face m2) = true end.
Proof.
  unfold in_shape. rewrite irredundant_cons, positive_cons. destruct l as [|m2 r]; [cbn; tauto|].
  split.
  - intros ((I & G) & P & O). split; [split; assumption|]. destruct G as [G _].
    destruct m as [[a d] x], m2 as [[b e] y]. unfold may_follow, ordered, axis_of_move in *. cbn in *.
    destruct a, b; try reflexivity; rewrite (O eq_refl) in *; destruct e; try reflexivity; exfalso; apply G; reflexivity.
  - intros ((I & P) & M). split; split; try assumption.
    + split; [intros E; rewrite E in M; destruct (mv_face m2) as [[] []]; discriminate|]. destruct r as [|m3 r]; [exact Logic.I|].
      intros [A B]. apply positive_cons in P as [_ O]. cbn in O. specialize (O B).
      unfold may_follow in M. unfold axis_of_move in A. rewrite A, O in M. destruct (face_axis (mv_face m2)), (face_dir (mv_face m)); discriminate.
    + cbn. intros A. unfold may_follow in M. unfold axis_of_move in A. rewrite A in M.
      destruct (face_dir (mv_face m)); [reflexivity|]. destruct (face_axis (mv_face m2)); discriminate.
Qed.

Definition all_faces : list Face := [fR; fU; fF; fL; fD; fB].
Definition all_amounts : list Amount := [Single; Double; Inverse].
Fixpoint starting (f : Face) (n : nat) : list (list AxisMove) :=
  match n with
  | 0 => map (fun a => [mkMove f a]) all_amounts
  | S k => flat_map (fun g => flat_map (fun al => map (fun a => mkMove f a :: al) all_amounts) (starting g k))
                    (filter (may_follow f) all_faces)
  end.
Lemma starting_in n : forall f al, In al (starting f n) <->
  length al = S n /\ in_shape al /\ exists a r, al = mkMove f a :: r.
Proof.
  induction n as [|n IH]; intros f al.
  - cbn [starting]. rewrite in_map_iff. split.
    + intros (a & <- & _). split; [reflexivity|]. split; [apply in_shape_cons; split; [apply in_shape_nil|exact Logic.I]|eauto].
    + intros (L & _ & a & r & ->). destruct r; [|discriminate]. exists a. split; [reflexivity|destruct a; cbn; tauto].
  - cbn [starting]. rewrite in_flat_map. split.
    + intros (g & G & H). apply filter_In in G as [_ G]. apply in_flat_map in H as (r & R & H).
      apply in_map_iff in H as (a & <- & _). apply IH in R as (L & S & b & q & ->).
      split; [cbn [length] in *; lia|]. split; [|eauto]. apply in_shape_cons. split; [exact S|exact G].
    + intros (L & S & a & r & ->). apply in_shape_cons in S as [S M]. destruct r as [|[g b] r]; [discriminate|].
      exists g. split; [apply filter_In; split; [destruct g as [[] []]; cbn; tauto|exact M]|].
      apply in_flat_map. exists (mkMove g b :: r). split; [apply IH; split; [cbn in *; lia|split; [exact S|eauto]]|].
      apply in_map_iff. exists a. split; [reflexivity|destruct a; cbn; tauto].
Qed.
Lemma starting_nodup n : forall f, NoDup (starting f n).
Proof.
  induction n as [|n IH]; intros f; cbn [starting].
  - unfold all_amounts. cbn. repeat constructor; cbn; intuition discriminate.
  - apply (NoDup_flat_map_key _ (fun al => option_map mv_face (nth_error al 1)) (fun g => Some g)).
    + intros g _. apply (NoDup_flat_map_key _ (@tl AxisMove) (fun al => al)).
      * intros al _. unfold all_amounts. cbn. repeat constructor; cbn; intuition discriminate.
      * intros al x H. apply in_map_iff in H as (a & <- & _). reflexivity.
      * rewrite map_id. apply IH.
    + intros g x H. apply in_flat_map in H as (al & A & H). apply in_map_iff in H as (a & <- & _).
      apply starting_in in A as (_ & _ & b & r & ->). reflexivity.
    + apply FinFun.Injective_map_NoDup; [intros a b [= ->]; reflexivity|]. apply NoDup_filter.
      unfold all_faces. repeat constructor; cbn; intuition discriminate.
Qed.
Definition in_shape_list (n : nat) : list (list AxisMove) :=
  match n with 0 => [[]] | S k => flat_map (fun f => starting f k) all_faces end.
Lemma in_shape_list_in n al : In al (in_shape_list n) <-> length al = n /\ in_shape al.
Proof.
  destruct n as [|n]; cbn [in_shape_list].
  - split; [intros [<-|[]]; split; [reflexivity|apply in_shape_nil]|]. intros [L _]. destruct al; [now left|discriminate].
  - rewrite in_flat_map. split.
    + intros (f & _ & H). apply starting_in in H. tauto.
    + intros (L & S). destruct al as [|[f a] al]; [discriminate|]. exists f. split; [destruct f as [[] []]; cbn; tauto|].
      apply starting_in. split; [exact L|]. split; [exact S|eauto].
Qed.
Lemma in_shape_list_nodup n : NoDup (in_shape_list n).
Proof.
  destruct n as [|n]; cbn [in_shape_list]; [repeat constructor; cbn; tauto|].
  apply (NoDup_flat_map_key _ (fun al => option_map mv_face (nth_error al 0)) (fun g => Some g)).
  - intros f _. apply starting_nodup.
  - intros f x H. apply starting_in in H as (_ & _ & a & r & ->). reflexivity.
  - unfold all_faces. cbn [map]. repeat constructor; cbn; intuition discriminate.
Qed.

(** ** Counting them *)

Fixpoint with_dir (n : nat) : nat * nat :=
  match n with 0 => (3, 3) | S k => let (p, q) := with_dir k in (3 * (2 * p + 3 * q), 3 * (2 * p + 2 * q)) end.
Lemma length_times_three (f : Face) l : length (flat_map (fun al => map (fun a => mkMove f a :: al) all_amounts) l) = 3 * length l.
Proof. induction l as [|al l IH]; [reflexivity|]. cbn [flat_map]. rewrite app_length, IH. cbn [length]. unfold all_amounts. rewrite map_length. cbn [length]. lia. Qed.
Lemma starting_length n : forall f, length (starting f n) = match face_dir f with Positive => fst (with_dir n) | Negative => snd (with_dir n) end.
Proof.
  induction n as [|n IH]; intros f; [destruct (face_dir f); reflexivity|]. cbn [starting with_dir].
  destruct (with_dir n) as [p q]. cbn [fst snd] in *.
  destruct f as [[] []]; cbn [filter may_follow all_faces face_axis face_dir axis_eqb dir_eqb negb orb andb fR fU fF fL fD fB flat_map];
    rewrite ?app_length, ?length_times_three, !IH; cbn [face_dir fR fU fF fL fD fB length]; lia.
Qed.
Lemma in_shape_length n : N.of_nat (length (in_shape_list n)) = alg_count n.
Proof.
  destruct n as [|n]; [reflexivity|]. cbn [in_shape_list].
  assert (E : length (flat_map (fun f => starting f n) all_faces) = 3 * (fst (with_dir n) + snd (with_dir n))).
  { unfold all_faces. cbn [flat_map]. rewrite !app_length, !starting_length. cbn [face_dir fR fU fF fL fD fB length]. lia. }
  rewrite E. clear E. revert n.
  assert (G : forall n, N.of_nat (3 * (fst (with_dir n) + snd (with_dir n))) = alg_count (S n) /\
                        N.of_nat (3 * (fst (with_dir (S n)) + snd (with_dir (S n)))) = alg_count (S (S n))).
  { induction n as [|n [A B]]; [split; reflexivity|]. split; [exact B|].
    change (alg_count (S (S (S n)))) with (12 * alg_count (S (S n)) + 18 * alg_count (S n))%N. rewrite <- A, <- B.
    cbn [with_dir]. destruct (with_dir n) as [p q]. cbn [fst snd]. lia. }
  intros n. apply G.
Qed.

(** [Alg::random(n)] has exactly this many different outcomes. *)
Theorem C96_random_outcomes : forall n, number_of (fun al => exists rng, random_alg n rng = Some (Done al)) (alg_count n).
Proof.
  intros n. exists (in_shape_list n). split; [apply in_shape_list_nodup|]. split; [|apply in_shape_length].
  intros al. rewrite C55_outcomes, in_shape_list_in. reflexivity.
Qed.

(** ** Some cubes need eighteen moves *)

Lemma solves_in_shape c al : solves al c -> exists s, in_shape s /\ length s <= length al /\ scrambled s = c.
Proof.
  intros X. pose (k := S (length al)).
  destruct (C20_repeated_partial (alg_reversed move_inverse al) k) as (I & _ & _ & E); [rewrite reversed_length; unfold k; lia|].
  destruct (in_order_props _ _ (le_n _) I) as (L & I' & P & _ & _ & E').
  exists (in_order (times k normalized (alg_reversed move_inverse al))). split; [split; assumption|]. split.
  - rewrite L. rewrite <- (reversed_length al). generalize (alg_reversed move_inverse al). generalize k. clear.
    induction k as [|k IH]; intros l; [reflexivity|]. cbn [times]. etransitivity; [apply C19_normalized|apply IH].
  - rewrite <- (scrambled_back c al X). unfold scrambled. etransitivity; [symmetry; exact (E' Size3 cube3_solved)|exact (E Size3 cube3_solved)].
Qed.
Fixpoint algs_up_to (k : nat) : N := match k with 0 => alg_count 0 | S j => algs_up_to j + alg_count k end.
Lemma up_to k : exists l, (forall al, length al <= k -> in_shape al -> In al l) /\ N.of_nat (length l) = algs_up_to k.
Proof.
  induction k as [|k (l & H & L)].
  - exists [[]]. split; [|reflexivity]. intros al A _. destruct al; [now left|cbn in A; lia].
  - exists (l ++ in_shape_list (S k)). split.
    + intros al A X. apply in_app_iff. destruct (Nat.eq_dec (length al) (S k)) as [E|E]; [right; apply in_shape_list_in; split; assumption|].
      left. apply H; [lia|exact X].
    + rewrite app_length, Nnat.Nat2N.inj_add, L, in_shape_length. reflexivity.
Qed.
Lemma cube3_dec (a b : Cube3) : {a = b} + {a <> b}.
Proof. destruct (cube3_eqb a b) eqn:E; [left; apply cube3_eqb_eq, E|right; intros ->; rewrite (proj2 (cube3_eqb_eq b b) eq_refl) in E; discriminate]. Qed.
Lemma not_all_in (big small : list Cube3) : NoDup big -> length small < length big -> exists c, In c big /\ ~ In c small.
Proof.
  intros N L. destruct (Forall_Exists_dec (fun c => In c small) (fun c => in_dec cube3_dec c small) big) as [F|E].
  - exfalso. apply (Nat.lt_irrefl (length big)). eapply Nat.le_lt_trans; [|exact L]. apply NoDup_incl_length; [exact N|].
    intros c I. exact (proj1 (Forall_forall _ _) F c I).
  - apply Exists_exists in E. exact E.
Qed.

Lemma small_lt (a b : nat) : (N.of_nat a < N.of_nat b)%N -> a < b.
Proof. lia. Qed.
Theorem C96_some_need_18 : exists c, (exists al, solves al c) /\ forall al, solves al c -> 18 <= length al.
Proof.
  destruct C76_in_digits as (_ & (cubes & N & I & L) & _). destruct (up_to 17) as (l & H & K).
  destruct (not_all_in cubes (map scrambled l) N) as (c & C & M).
  { rewrite map_length. assert (G : (algs_up_to 17 < 43252003274489856000)%N) by reflexivity. apply small_lt. rewrite K.
    exact (eq_ind _ (fun x => (algs_up_to 17 < x)%N) G _ (eq_sym L)). }
  exists c. split; [apply reachable3, I, C|]. intros al S. destruct (le_lt_dec 18 (length al)) as [G|G]; [exact G|]. exfalso. apply M.
  destruct (solves_in_shape c al S) as (s & A & B & <-). apply in_map, H; [lia|exact A].
Qed.

(** Some answer of the solver has at least eighteen moves, and none more than 139. *)
Theorem C96_answers : forall ca, complete_cache ca ->
  (exists c al, answers ca c al /\ solves al c /\ 18 <= length al) /\
  (forall c al, (exists bl, solves bl c) -> answers ca c al -> length al <= 139).
Proof.
  intros ca CC. split.
  - destruct C96_some_need_18 as (c & S & H). destruct (C95_answer ca c CC S) as (al & A & _ & X & _).
    exists c, al. split; [exact A|]. split; [exact X|]. apply H, X.
  - intros c al S A. destruct (answers_shortest ca c al CC S A) as [_ O].
    apply C07_solvable_exactly in S as (W & I1 & I2 & I3). destruct (C07_invariants_solvable c W I1 I2 I3) as (bl & L & X).
    specialize (O bl X). lia.
Qed.

(** Scrambling with [Alg::random(n)] for an [n] below eighteen misses some cube for every
    generator. *)
Theorem C96_short_scrambles_miss : exists c, (exists al, solves al c) /\
  forall n rng al, n < 18 -> random_alg n rng = Some (Done al) -> scrambled al <> c.
Proof.
  destruct C96_some_need_18 as (c & S & H). exists c. split; [exact S|]. intros n rng al N R E.
  pose proof (H (alg_reversed move_inverse al)) as K. rewrite <- E in K. specialize (K (reversed_solves al)).
  rewrite reversed_length in K. destruct (proj1 (C55_outcomes n al) (ex_intro _ rng R)) as [L _]. lia.
Qed.

Example C96_example : alg_count 2 = 243%N /\ alg_count 3 = 3240%N /\
  random_alg 2 (fun _ => 0) <> random_alg 2 (fun _ => 4).
Proof. repeat split; try reflexivity. vm_compute. discriminate. Qed.
Print Assumptions C95_answer.
Print Assumptions C95_nothing_to_remove.
Print Assumptions C95_one_turn.
Print Assumptions C95_follow.
Print Assumptions C95_scramble.
Print Assumptions C95_reversed_scramble.
Print Assumptions C95_rotated_scramble.
Print Assumptions C95_joined_scrambles.
Print Assumptions C96_random_outcomes.
Print Assumptions C96_some_need_18.
Print Assumptions C96_answers.
Print Assumptions C96_short_scrambles_miss.

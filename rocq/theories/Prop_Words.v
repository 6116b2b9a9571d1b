(** C78 to C82: what whole sequences of moves do.

    C78: what an alg does to the solved cube decides what it does to every cube, and two algs
    that do the same still do when both are rotated.  C79: an alg repeated often enough does
    nothing.  C80: under plain moves the 4x4x4 and 6x6x6 behave like the 2x2x2, the 5x5x5 and
    7x7x7 like the 3x3x3.  C81: algs that do the same have the same parity of quarter turns.
    C82: which moves commute, and that different moves do different things. *)

From Coq Require Import List Bool Arith NArith ZArith Lia.
From Verif Require Import Model_Base Model_Space Model_Moves Model_Pieces Model_PieceSet Model_Cubes
  Spec_Moves Spec_Sets Spec_BigLaws Spec_Words Proof_Moves Proof_Sets Proof_Stickers Proof_BigSolve Proof_BigLaws Proof_Words.
Import ListNotations.
Open Scope nat_scope.

(* ------------------------------------------------------------------ *)
(** * C78: the solved cube decides, from whichever side *)

Theorem C78_solved_decides : forall n (al bl : list AxisMove),
  after n al (cube_solved n) = after n bl (cube_solved n) <-> forall c, after n al c = after n bl c.
Proof.
  intros n al bl. split; [|auto]. intros H c. rewrite !after_face in *. apply same_everywhere, H.
Qed.
Theorem C78_solved_decides_wide : forall n (al bl : list WideAxisMove),
  after_wide n al (cube_solved n) = after_wide n bl (cube_solved n) <-> forall c, after_wide n al c = after_wide n bl c.
Proof. intros n al bl. split; [|auto]. intros H c. apply same_everywhere, H. Qed.

Lemma rotate_wide_back w r : rotate_wide (rotate_wide w r) (rot_inverse r) = w.
Proof. destruct w as [d [[[] []] x]], r as [[] []]; reflexivity. Qed.
Lemma rotate_wide_alg_back al r : rotate_wide_alg (rotate_wide_alg al r) (rot_inverse r) = al.
Proof. unfold rotate_wide_alg. rewrite map_map. rewrite <- (map_id al) at 2. apply map_ext. intros w. apply rotate_wide_back. Qed.
Theorem C78_rotated_wide : forall n (al bl : list WideAxisMove) r,
  after_wide n (rotate_wide_alg al r) (cube_solved n) = after_wide n (rotate_wide_alg bl r) (cube_solved n) <->
  after_wide n al (cube_solved n) = after_wide n bl (cube_solved n).
Proof.
  intros n al bl r. split; [|apply same_rotated]. intros H. apply (same_rotated n _ _ (rot_inverse r)) in H.
  rewrite !rotate_wide_alg_back in H. exact H.
Qed.
Lemma face_word_rotate n al r : face_word n (rotate_alg al r) = rotate_wide_alg (face_word n al) r.
Proof. unfold face_word, rotate_alg, rotate_wide_alg. rewrite !map_map. reflexivity. Qed.
(** [Alg::rotate]. *)
Theorem C78_rotated : forall n (al bl : list AxisMove) r,
  after n (rotate_alg al r) (cube_solved n) = after n (rotate_alg bl r) (cube_solved n) <->
  after n al (cube_solved n) = after n bl (cube_solved n).
Proof. intros n al bl r. rewrite !after_face, !face_word_rotate. apply C78_rotated_wide. Qed.

(** Rotating pieces and moves together: what the move does to the rotated pieces are the
    rotated pieces after the move.  The depths are those of the cubes of the crate. *)
Theorem C78_pieces : forall (w : WideAxisMove) (r : AxisRotation) (nd : N),
  (nd = 1 \/ nd = 2)%N ->
  (forall c, corner_rotate (corner_apply c (w_move w)) r = corner_apply (corner_rotate c r) (rotate_move (w_move w) r)) /\
  (forall e, edge_rotate (edge_apply e (w_move w)) r = edge_apply (edge_rotate e r) (rotate_move (w_move w) r)) /\
  (forall s, map (fun p => wing_rotate p r) (wings_apply nd 2 s w) = wings_apply nd 2 (map (fun p => wing_rotate p r) s) (rotate_wide w r)) /\
  (forall s, map (fun p => cc_rotate p r) (ccs_apply nd 2 s w) = ccs_apply nd 2 (map (fun p => cc_rotate p r) s) (rotate_wide w r)) /\
  (forall s, map (fun p => ce_rotate p r) (ces_apply nd 2 s w) = ces_apply nd 2 (map (fun p => ce_rotate p r) s) (rotate_wide w r)) /\
  (forall s, map (fun p => cw_rotate p r) (cws_apply 1 2 2 s w) = cws_apply 1 2 2 (map (fun p => cw_rotate p r) s) (rotate_wide w r)).
Proof.
  intros w r nd D. split; [|split; [|split; [|split; [|split]]]].
  - intros c. pose proof (turn_act r (QCorner c) w) as H. injection H as H. exact H.
  - intros e. pose proof (turn_act r (QEdge e) w) as H. injection H as H. exact H.
  - intros s. unfold wings_apply, depth_set_apply. rewrite !map_map. apply map_ext. intros p.
    destruct D as [->| ->]; [pose proof (turn_act r (QWing1 p) w) as H|pose proof (turn_act r (QWing2 p) w) as H]; injection H as H; exact H.
  - intros s. unfold ccs_apply, depth_set_apply. rewrite !map_map. apply map_ext. intros p.
    destruct D as [->| ->]; [pose proof (turn_act r (QCC1 p) w) as H|pose proof (turn_act r (QCC2 p) w) as H]; injection H as H; exact H.
  - intros s. unfold ces_apply, depth_set_apply. rewrite !map_map. apply map_ext. intros p.
    destruct D as [->| ->]; [pose proof (turn_act r (QCE1 p) w) as H|pose proof (turn_act r (QCE2 p) w) as H]; injection H as H; exact H.
  - intros s. unfold cws_apply, depth_set_apply. rewrite !map_map. apply map_ext. intros p.
    pose proof (turn_act r (QCW p) w) as H. injection H as H. exact H.
Qed.

(** U2 D2 U2 D2 does nothing, so its rotation R2 L2 R2 L2 does not either; R U and U R differ. *)
Example C78_example :
  after Size7 [mkMove fU Double; mkMove fD Double; mkMove fU Double; mkMove fD Double] (cube_solved Size7) = after Size7 [] (cube_solved Size7) /\
  rotate_alg [mkMove fU Double; mkMove fD Single] (mkRot AZ Single) <> [mkMove fU Double; mkMove fD Single] /\
  after Size7 (rotate_alg [mkMove fU Double; mkMove fD Double; mkMove fU Double; mkMove fD Double] (mkRot AZ Single)) (cube_solved Size7) = cube_solved Size7 /\
  after Size4 [mkMove fR Single; mkMove fU Single] (cube_solved Size4) <> after Size4 [mkMove fU Single; mkMove fR Single] (cube_solved Size4).
Proof.
  assert (E : after Size7 [mkMove fU Double; mkMove fD Double; mkMove fU Double; mkMove fD Double] (cube_solved Size7) = after Size7 [] (cube_solved Size7)) by (vm_compute; reflexivity).
  split; [exact E|]. split; [vm_compute; discriminate|]. split.
  - exact (proj2 (C78_rotated Size7 _ [] _) E).
  - vm_compute. discriminate.
Qed.

(* ------------------------------------------------------------------ *)
(** * C79: an alg repeated often enough does nothing *)

Theorem C79_algs_come_back : forall n (al : list AxisMove) c, N.iter (period_of_algs n) (after n al) c = c.
Proof. intros. apply face_period, N.divide_refl. Qed.
Theorem C79_wide_algs_come_back : forall n (al : list WideAxisMove) c, N.iter (period_of_wide_algs n) (after_wide n al) c = c.
Proof. intros. apply wide_period, N.divide_refl. Qed.
(** Exactly the multiples of these numbers do for all algs, so they are the least. *)
Theorem C79_algs_period_exact : forall n k,
  (forall (al : list AxisMove) c, N.iter k (after n al) c = c) <-> (period_of_algs n | k)%N.
Proof. intros n k. split; [intros H; apply face_exact; intros al; apply H|]. intros D al c. apply face_period, D. Qed.
Theorem C79_wide_algs_period_exact : forall n k,
  (forall (al : list WideAxisMove) c, Forall (fits n) al -> N.iter k (after_wide n al) c = c) <-> (period_of_wide_algs n | k)%N.
Proof. intros n k. split; [intros H; apply wide_exact; intros al F; apply H, F|]. intros D al c _. apply wide_period, D. Qed.

(** R U on the 3x3x3 comes back after 105 rounds and not after 35, 21 or 15. *)
Example C79_example :
  (period_of_algs Size3 = 528 * 105)%N /\
  N.iter 105 (after Size3 [mkMove fR Single; mkMove fU Single]) cube3_solved = cube3_solved /\
  N.iter 35 (after Size3 [mkMove fR Single; mkMove fU Single]) cube3_solved <> cube3_solved /\
  N.iter 21 (after Size3 [mkMove fR Single; mkMove fU Single]) cube3_solved <> cube3_solved /\
  N.iter 15 (after Size3 [mkMove fR Single; mkMove fU Single]) cube3_solved <> cube3_solved.
Proof. vm_compute. repeat split; discriminate. Qed.

(* ------------------------------------------------------------------ *)
(** * C80: plain moves treat a big cube like a small one *)

Theorem C80_same_effect : forall n (al bl : list AxisMove),
  (forall c, after n al c = after n bl c) <-> (forall c, after (small_size n) al c = after (small_size n) bl c).
Proof. intros n al bl. rewrite <- !C78_solved_decides. apply same_as_core. Qed.
Theorem C80_same_state : forall n (al bl : list AxisMove),
  after n al (cube_solved n) = after n bl (cube_solved n) <->
  after (small_size n) al (cube_solved (small_size n)) = after (small_size n) bl (cube_solved (small_size n)).
Proof. exact same_as_core. Qed.
(** Its corners (and edges) are those of a small cube. *)
Lemma small_part_apply n c m : small_part n (cube_apply n c m) = cube_apply (small_size n) (small_part n c) m.
Proof. rewrite apply_is_wide. destruct n; reflexivity. Qed.
Theorem C80_small_part : forall n (al : list AxisMove) c,
  small_part n (after n al c) = after (small_size n) al (small_part n c).
Proof.
  intros n al. induction al as [|m al IH]; intros c; [reflexivity|].
  change (small_part n (after n al (cube_apply n c m)) = after (small_size n) al (cube_apply (small_size n) (small_part n c) m)).
  rewrite IH, small_part_apply. reflexivity.
Qed.
Lemma small_part_solved n : small_part n (cube_solved n) = cube_solved (small_size n).
Proof. destruct n; reflexivity. Qed.
Lemma small_is_solved n c : cube_is_solved (small_size n) c = true <-> c = cube_solved (small_size n).
Proof. destruct n; cbn [small_size cube_is_solved]; try apply cube2_eqb_eq; apply cube3_eqb_eq. Qed.
Lemma solved_is_solved n : cube_is_solved n (cube_solved n) = true.
Proof. destruct n; vm_compute; reflexivity. Qed.
Lemma big_small_solved n c : cube_well_formed n c -> cube_is_solved n c = true -> small_part n c = cube_solved (small_size n).
Proof.
  intros W S. destruct n; cbn [cube_well_formed] in W.
  - apply cube2_eqb_eq, S.
  - apply cube3_eqb_eq, S.
  - cbn [cube_is_solved] in S. unfold cube4_is_solved in S. rewrite !andb_true_iff in S. destruct S as [[S _] _].
    apply corner_set_is_solved in S; [|apply W]. cbn [small_part]. rewrite S. reflexivity.
  - apply cube5_eqb_eq in S. rewrite S. reflexivity.
  - cbn [cube_is_solved] in S. unfold cube6_is_solved in S. rewrite !andb_true_iff in S. destruct S as [[[[[S _] _] _] _] _].
    apply corner_set_is_solved in S; [|apply W]. cbn [small_part]. rewrite S. reflexivity.
  - cbn [cube_is_solved] in S. unfold cube7_is_solved in S. rewrite !andb_true_iff in S. destruct S as [[[[[[[[S E] _] _] _] _] _] _] _].
    apply corner_set_is_solved in S; [|apply W]. apply edge_set_is_solved in E; [|apply W]. cbn [small_part]. rewrite S, E. reflexivity.
Qed.
Lemma after_well_formed n al : forall c, cube_well_formed n c -> cube_well_formed n (after n al c).
Proof. induction al as [|m al IH]; intros c W; [exact W|]. apply (IH (cube_apply n c m)), cube_well_formed_move, W. Qed.
(** So an alg solves (as [is_solved] says) a big cube exactly when it solves the small one. *)
Theorem C80_solved_alike : forall n (al : list AxisMove),
  cube_is_solved n (after n al (cube_solved n)) =
  cube_is_solved (small_size n) (after (small_size n) al (cube_solved (small_size n))).
Proof.
  intros n al. apply eq_iff_eq_true. rewrite small_is_solved, <- small_part_solved at 1. rewrite <- C80_small_part. split; intros H.
  - apply big_small_solved; [|exact H]. apply after_well_formed, cube_well_formed_solved.
  - rewrite C80_small_part, small_part_solved in H. pose proof (proj2 (C80_same_state n al []) H) as E. rewrite E. apply solved_is_solved.
Qed.

Example C80_example :
  after Size2 [mkMove fR Single; mkMove fL Inverse] (cube_solved Size2) <> cube_solved Size2 /\
  after Size6 [mkMove fR Single; mkMove fL Inverse] (cube_solved Size6) <> cube_solved Size6 /\
  cube_is_solved Size7 (N.iter 105 (after Size7 [mkMove fR Single; mkMove fU Single]) (cube_solved Size7)) = true.
Proof. split; [vm_compute; discriminate|]. split; [vm_compute; discriminate|]. vm_compute. reflexivity. Qed.

(* ------------------------------------------------------------------ *)
(** * C81: the parity of the quarter turns *)

Theorem C81_parity : forall n (al bl : list AxisMove) c,
  cube_well_formed n c -> after n al c = after n bl c -> Nat.Even (total_turns al) <-> Nat.Even (total_turns bl).
Proof.
  intros n al bl c W H. rewrite !after_face in H. apply (same_parity_wide n _ _ c W) in H. rewrite !face_moves in H.
  rewrite <- !Nat.even_spec, <- !Nat.negb_odd, H. tauto.
Qed.
Theorem C81_parity_wide : forall n (al bl : list WideAxisMove) c,
  cube_well_formed n c -> after_wide n al c = after_wide n bl c ->
  Nat.Even (total_turns (map w_move al)) <-> Nat.Even (total_turns (map w_move bl)).
Proof. intros n al bl c W H. apply (same_parity_wide n _ _ c W) in H. rewrite <- !Nat.even_spec, <- !Nat.negb_odd, H. tauto. Qed.
(** So an alg that does nothing has an even number of quarter turns. *)
Theorem C81_nothing_is_even : forall n (al : list AxisMove) c,
  cube_well_formed n c -> after n al c = c -> Nat.Even (total_turns al).
Proof. intros n al c W H. apply (C81_parity n al [] c W); [exact H|]. exists 0. reflexivity. Qed.

Example C81_example :
  cube_well_formed Size5 (cube_solved Size5) /\
  after Size5 [mkMove fR Double; mkMove fR Single] (cube_solved Size5) = after Size5 [mkMove fR Inverse] (cube_solved Size5) /\
  total_turns [mkMove fR Double; mkMove fU Single] = 3 /\ total_turns [mkMove fR Inverse] = 3.
Proof. split; [apply cube_well_formed_solved|]. split; [vm_compute; reflexivity|]. split; reflexivity. Qed.

(* ------------------------------------------------------------------ *)
(** * C82: telling moves apart *)

(** On any cube with every piece in a place of its own, two wide moves commute exactly when
    they turn about the same axis. *)
Theorem C82_commute : forall n c (w1 w2 : WideAxisMove), cube_well_formed n c ->
  (cube_apply_wide n (cube_apply_wide n c w1) w2 = cube_apply_wide n (cube_apply_wide n c w2) w1 <->
   face_axis (mv_face (w_move w1)) = face_axis (mv_face (w_move w2))).
Proof.
  intros n c w1 w2 W. split; [apply axes_differ, W|].
  destruct w1 as [d1 [[a1 e1] x1]], w2 as [d2 [[a2 e2] x2]]. cbn. intros ->. apply (wa_comm _ (cube_apply_wide_ok n)).
Qed.
Theorem C82_commute_plain : forall n c (m1 m2 : AxisMove), cube_well_formed n c ->
  (cube_apply n (cube_apply n c m1) m2 = cube_apply n (cube_apply n c m2) m1 <->
   face_axis (mv_face m1) = face_axis (mv_face m2)).
Proof. intros n c m1 m2 W. rewrite !apply_is_wide. apply (C82_commute n c (mkWide _ m1) (mkWide _ m2) W). Qed.
(** Every move changes the cube, and different moves change it differently. *)
Theorem C82_no_idle_move : forall n c (w : WideAxisMove), cube_well_formed n c -> cube_apply_wide n c w <> c.
Proof. intros n c w W. apply wide_move_moves, W. Qed.
Theorem C82_distinct : forall n c (w1 w2 : WideAxisMove), cube_well_formed n c -> fits n w1 -> fits n w2 ->
  cube_apply_wide n c w1 = cube_apply_wide n c w2 -> w1 = w2.
Proof. exact wide_differ. Qed.
Theorem C82_distinct_plain : forall n c (m1 m2 : AxisMove), cube_well_formed n c ->
  (cube_apply n c m1 = cube_apply n c m2 <-> m1 = m2) /\ cube_apply n c m1 <> c.
Proof.
  intros n c m1 m2 W. rewrite !apply_is_wide. split; [|apply wide_move_moves, W]. split; [|congruence].
  intros H. exact (wide_moves_differ n c _ _ W H).
Qed.

Example C82_example :
  cube_well_formed Size6 (cube_apply Size6 (cube_solved Size6) (mkMove fR Single)) /\
  fits Size6 (mkWide 2 (mkMove fR Single)) /\ fits Size6 (mkWide 1 (mkMove fR Single)) /\
  cube_apply_wide Size6 (cube_solved Size6) (mkWide 2 (mkMove fR Single)) <> cube_apply_wide Size6 (cube_solved Size6) (mkWide 1 (mkMove fR Single)).
Proof.
  split; [apply cube_well_formed_move, cube_well_formed_solved|]. split; [vm_compute; discriminate|]. split; [vm_compute; discriminate|].
  vm_compute. discriminate.
Qed.
Print Assumptions C78_solved_decides.
Print Assumptions C78_solved_decides_wide.
Print Assumptions C78_rotated_wide.
Print Assumptions C78_rotated.
Print Assumptions C78_pieces.
Print Assumptions C79_algs_come_back.
Print Assumptions C79_wide_algs_come_back.
Print Assumptions C79_algs_period_exact.
Print Assumptions C79_wide_algs_period_exact.
Print Assumptions C80_same_effect.
Print Assumptions C80_same_state.
Print Assumptions C80_small_part.
Print Assumptions C80_solved_alike.
Print Assumptions C81_parity.
Print Assumptions C81_parity_wide.
Print Assumptions C81_nothing_is_even.
Print Assumptions C82_commute.
Print Assumptions C82_commute_plain.
Print Assumptions C82_no_idle_move.
Print Assumptions C82_distinct.
Print Assumptions C82_distinct_plain.

(** C45 - C48: orientable cubes and extended moves. *)

From Coq Require Import List Bool Arith NArith ZArith Lia ZifyBool ZifyN.
From Verif Require Import Model_Base Model_Space Model_Moves Model_Pieces Model_PieceSet Model_Cubes
  Model_Orientable Spec_Moves Spec_Geometry Spec_Stickers Spec_BigCube Spec_Orientable
  Proof_Moves Proof_Geometry Proof_BigCube Prop_Moves Prop_Geometry Prop_BigCube.
Import ListNotations.
Local Open Scope nat_scope.

(* ------------------------------------------------------------------ *)
(** * C45 *)

Lemma rotate_space_add r a b : rotate_space r (v3_add a b) = v3_add (rotate_space r a) (rotate_space r b).
Proof.
  unfold rotate_space, v3_add. rewrite unit_normal, !turn_normal. destruct r as [[] []], a as [x y z], b as [x' y' z'];
    cbn [quarter_turns times rot_axis rot_amount qf v3_add px py pz]; apply mkV3_eq; lia.
Qed.
Lemma rotate_space_scale r k a : rotate_space r (v3_scale k a) = v3_scale k (rotate_space r a).
Proof.
  unfold rotate_space, v3_scale. rewrite unit_normal, !turn_normal. destruct r as [[] []], a as [x y z];
    cbn [quarter_turns times rot_axis rot_amount qf v3_scale px py pz]; apply mkV3_eq; lia.
Qed.

Lemma or_rotate_faces o r : or_r_face (or_rotate o r) = rotate_face (or_r_face o) r /\
  or_u_face (or_rotate o r) = rotate_face (or_u_face o) r.
Proof. destruct o as [[[] []] [] []], r as [[] []]; split; reflexivity. Qed.
Lemma cross_rotate f g r : face_axis f <> face_axis g ->
  cross (normal (rotate_face f r)) (normal (rotate_face g r)) = rotate_space r (cross (normal f) (normal g)).
Proof. destruct f as [[] []], g as [[] []], r as [[] []]; intros H; try (exfalso; apply H; reflexivity); reflexivity. Qed.
Lemma or_axes o : face_axis (or_r_face o) <> face_axis (or_u_face o).
Proof. destruct o as [[[] []] [] []]; discriminate. Qed.

Lemma orientation_map_rotate o r v :
  orientation_map (or_rotate o r) v = rotate_space r (orientation_map o v).
Proof.
  unfold orientation_map, frame_map. destruct (or_rotate_faces o r) as [-> ->].
  rewrite cross_rotate by apply or_axes. rewrite !rotate_face_space, !rotate_space_add, !rotate_space_scale. reflexivity.
Qed.
Lemma orientation_map_default v : orientation_map ori_default v = v.
Proof.
  destruct v as [x y z]. unfold orientation_map, frame_map, v3_add, v3_scale. cbn [px py pz].
  change (normal (or_r_face ori_default)) with (mkV3 1 0 0). change (normal (or_u_face ori_default)) with (mkV3 0 1 0).
  change (cross (mkV3 1 0 0) (mkV3 0 1 0)) with (mkV3 0 0 1). cbn [px py pz]. apply mkV3_eq; lia.
Qed.

(** A sequence of rotations, as performed by [Orientation::rotate]. *)
Fixpoint rotate_seq (rs : list AxisRotation) (o : Orientation) : outcome Orientation :=
  match rs with
  | [] => Done o
  | r :: rs => bind_o (or_rotate_o o r) (rotate_seq rs)
  end.
Lemma rotate_seq_done rs : forall o, rotate_seq rs o = Done (fold_left or_rotate rs o).
Proof. induction rs as [|r rs IH]; intros o; [reflexivity|]. cbn [rotate_seq]. rewrite or_rotate_o_done. apply IH. Qed.

(** After any sequence of rotations from the default orientation (no panic), the reported
    faces are where the original R and U faces have gone; hence the orientation is the
    whole rotation of space. *)
Theorem C45_tracks : forall rs, exists o,
  rotate_seq rs ori_default = Done o /\
  normal (or_r_face o) = rotate_all rs (normal fR) /\
  normal (or_u_face o) = rotate_all rs (normal fU) /\
  forall v, orientation_map o v = rotate_all rs v.
Proof.
  intros rs. exists (fold_left or_rotate rs ori_default). split; [apply rotate_seq_done|].
  assert (M : forall v, orientation_map (fold_left or_rotate rs ori_default) v = rotate_all rs v).
  { intros v. unfold rotate_all. rewrite <- (orientation_map_default v) at 2. generalize ori_default.
    induction rs as [|r rs IH]; intros o; [reflexivity|]. cbn [fold_left]. rewrite IH, orientation_map_rotate. reflexivity. }
  split; [|split; [|exact M]].
  - rewrite <- M. generalize (fold_left or_rotate rs ori_default). intros [[[] []] [] []]; reflexivity.
  - rewrite <- M. generalize (fold_left or_rotate rs ori_default). intros [[[] []] [] []]; reflexivity.
Qed.

(** The same starting from any orientation. *)
Theorem C45_tracks_from : forall o rs, exists o',
  rotate_seq rs o = Done o' /\ forall v, orientation_map o' v = rotate_all rs (orientation_map o v).
Proof.
  intros o rs. exists (fold_left or_rotate rs o). split; [apply rotate_seq_done|].
  intros v. unfold rotate_all. revert o. induction rs as [|r rs IH]; intros o; [reflexivity|].
  cbn [fold_left]. rewrite IH, orientation_map_rotate. reflexivity.
Qed.

(** Every orientation is reached, by at most two rotations, and is determined by its two
    faces. *)
Definition all_rotations : list AxisRotation :=
  flat_map (fun x => map (mkRot x) [Single; Double; Inverse]) [AX; AY; AZ].
Definition path_to (o : Orientation) : option (list AxisRotation) :=
  find_first (fun rs => ori_eqb (fold_left or_rotate rs ori_default) o)
    ([] :: map (fun r => [r]) all_rotations ++
     flat_map (fun r => map (fun r' => [r; r']) all_rotations) all_rotations).
Theorem C45_every_orientation : forall o,
  (exists rs, rotate_seq rs ori_default = Done o /\ length rs <= 2) /\
  or_try_from (or_r_face o) (or_u_face o) = Done (Ok o).
Proof.
  intros o. split; [|destruct o as [[[] []] [] []]; reflexivity].
  destruct (path_to o) as [rs|] eqn:P; [|destruct o as [[[] []] [] []]; vm_compute in P; discriminate P].
  exists rs. rewrite rotate_seq_done.
  destruct o as [[[] []] [] []]; vm_compute in P; injection P as <-; (split; [reflexivity|cbn; lia]).
Qed.

(** [TryFrom<[Face; 2]>]: fails exactly for parallel faces, and otherwise reports the two
    faces it was given. *)
Theorem C45_try_from : forall r u,
  (face_axis r = face_axis u /\ or_try_from r u = Done (Err (SameAxis (face_axis r)))) \/
  (face_axis r <> face_axis u /\
   exists o, or_try_from r u = Done (Ok o) /\ or_r_face o = r /\ or_u_face o = u).
Proof.
  intros [[] []] [[] []];
    first [left; split; reflexivity
          |right; split; [discriminate|eexists; split; [reflexivity|split; reflexivity]]].
Qed.

(** The last part of C45: [rotations()] takes the default orientation to this one. *)
Definition rotations_right (o : Orientation) : Prop :=
  exists rs, or_rotations o = Done rs /\ rotate_seq rs ori_default = Done o.

(** It does not panic for any orientation ... *)
Theorem C45_rotations_no_panic : forall o, exists rs, or_rotations o = Done rs /\ length rs <= 2.
Proof. intros [[[] []] [] []]; eexists; (split; [reflexivity|cbn; lia]). Qed.

(** ... but it is wrong for 6 of the 24 orientations, for example after [x2], where it
    answers [z2]. *)
Theorem C45_rotations_refuted :
  let o := or_rotate ori_default (mkRot AX Double) in
  or_rotations o = Done [mkRot AZ Double] /\ ~ rotations_right o.
Proof.
  cbn zeta. split; [reflexivity|]. intros (rs & E & F). vm_compute in E. injection E as <-.
  vm_compute in F. discriminate F.
Qed.

(** Exactly these are wrong: (r_face, u_face) = (R,D), (L,F), (U,B), (D,F), (F,R), (B,R). *)
Definition wrong_rotations : list (Face * Face) := [(fR, fD); (fL, fF); (fU, fB); (fD, fF); (fF, fR); (fB, fR)].
Theorem C45_rotations_partial : forall o,
  rotations_right o <-> ~ In (or_r_face o, or_u_face o) wrong_rotations.
Proof.
  assert (D : forall o, rotations_right o <-> match or_rotations o with
     Done rs => ori_eqb (fold_left or_rotate rs ori_default) o | Panic => false end = true).
  { intros o. unfold rotations_right. split.
    - intros (rs & E & F). rewrite E. apply ori_eqb_eq. rewrite rotate_seq_done in F. injection F as F. exact F.
    - destruct (or_rotations o) as [rs|]; [|discriminate]. intros H. exists rs. split; [reflexivity|].
      rewrite rotate_seq_done. apply ori_eqb_eq in H. rewrite H. reflexivity. }
  intros o. rewrite D. destruct o as [[[] []] [] []]; vm_compute; intuition (try discriminate).
Qed.

Example C45_example :
  rotate_seq [mkRot AX Double; mkRot AY Inverse] ori_default = Done (mkOri fB Negative Negative) /\
  or_u_face (mkOri fB Negative Negative) = fD /\
  or_rotations (mkOri fB Negative Negative) = Done [mkRot AY Inverse; mkRot AZ Double].
Proof. repeat split; reflexivity. Qed.

(* ------------------------------------------------------------------ *)
(** * C46: what the user sees *)

(** The property, for one cube size: whenever a move succeeds, the view changes as the
    notation says. *)
Definition C46_claim (n : CubeSize) : Prop := forall (o o' : Orientable n) m,
  ext_apply n o m = Done o' -> view n o' = map (ext_turn n m) (view n o).

(** Rotations of the whole cube are always right. *)
Theorem C46_rotations : forall n (o : Orientable n) r, exists o',
  ext_apply n o (XRotation r) = Done o' /\ view n o' = map (ext_turn n (XRotation r)) (view n o).
Proof.
  intros n [c o] r. exists (mkOrientable c (or_rotate o r)). split.
  - cbn [ext_apply]. unfold orientable_rotate. cbn [ob_ori ob_cube]. rewrite or_rotate_o_done. reflexivity.
  - unfold view. cbn [ob_ori ob_cube]. rewrite map_map. apply map_ext. intros s. unfold ext_turn, hold. cbn [turned_by st_cubie st_normal st_color ext_space].
    rewrite !orientation_map_rotate. reflexivity.
Qed.

(** The face that is now at the place where the original face [f] has been taken. *)
Definition held_face (o : Orientation) (f : Face) : Face :=
  match path_to o with Some rs => fold_left rotate_face rs f | None => f end.
Lemma held_face_normal o f : normal (held_face o f) = orientation_map o (normal f).
Proof. destruct o as [[[] []] [] []], f as [[] []]; vm_compute; reflexivity. Qed.

Lemma orientation_map_dot o a b : dot (orientation_map o a) (orientation_map o b) = dot a b.
Proof.
  assert (N : forall r u : Face, face_axis r <> face_axis u ->
    let i := normal r in let j := normal u in let k := cross i j in
    dot i i = 1%Z /\ dot j j = 1%Z /\ dot k k = 1%Z /\ dot i j = 0%Z /\ dot i k = 0%Z /\ dot j k = 0%Z).
  { intros [[] []] [[] []] H; try (exfalso; apply H; reflexivity); repeat split; reflexivity. }
  specialize (N _ _ (or_axes o)). cbn zeta in N. unfold orientation_map, frame_map.
  revert N. generalize (cross (normal (or_r_face o)) (normal (or_u_face o))).
  generalize (normal (or_r_face o)) (normal (or_u_face o)).
  intros [i1 i2 i3] [j1 j2 j3] [k1 k2 k3] (II & JJ & KK & IJ & IK & JK).
  destruct a as [x y z], b as [x' y' z']. unfold dot, v3_add, v3_scale in *. cbn [px py pz] in *.
  transitivity (x * x' * (i1 * i1 + i2 * i2 + i3 * i3) + y * y' * (j1 * j1 + j2 * j2 + j3 * j3) + z * z' * (k1 * k1 + k2 * k2 + k3 * k3)
    + (x * y' + y * x') * (i1 * j1 + i2 * j2 + i3 * j3) + (x * z' + z * x') * (i1 * k1 + i2 * k2 + i3 * k3)
    + (y * z' + z * y') * (j1 * k1 + j2 * k2 + j3 * k3))%Z; [ring|]. rewrite II, JJ, KK, IJ, IK, JK. ring.
Qed.
Lemma orientation_map_move o m v :
  orientation_map o (move_space m v) = move_space (mkMove (held_face o (mv_face m)) (mv_amount m)) (orientation_map o v).
Proof.
  destruct (path_to o) as [rs|] eqn:P; [|destruct o as [[[] []] [] []]; vm_compute in P; discriminate P].
  assert (Q : fold_left or_rotate rs ori_default = o).
  { destruct o as [[[] []] [] []]; vm_compute in P; injection P as <-; reflexivity. }
  unfold held_face. rewrite P. clear P. subst o.
  assert (M : forall v, orientation_map (fold_left or_rotate rs ori_default) v = rotate_all rs v).
  { destruct (C45_tracks rs) as (o & E & _ & _ & M). rewrite rotate_seq_done in E. injection E as ->. exact M. }
  rewrite !M. clear M. revert m v. induction rs as [|r rs IH]; intros m v; [destruct m; reflexivity|].
  unfold rotate_all in *. cbn [fold_left]. rewrite <- C14_moves_conjugate, IH.
  destruct m as [f a]. reflexivity.
Qed.

(** How the view changes when the base cube is turned by a wide move of the right depth. *)
Definition held_wide (o : Orientation) (w : WideAxisMove) : WideAxisMove :=
  mkWide (w_depth w) (mkMove (held_face o (mv_face (w_move w))) (mv_amount (w_move w))).

Lemma hold_turn n o w s :
  hold o (turn_wide_sticker n w s) = turn_wide_sticker n (held_wide o w) (hold o s).
Proof.
  unfold turn_wide_sticker, held_wide, in_layers, hold. cbn [w_move w_depth mv_face mv_amount st_cubie st_normal st_color].
  rewrite held_face_normal, orientation_map_dot. destruct (_ <=? _)%Z; [|reflexivity].
  cbn [st_cubie st_normal st_color]. rewrite !orientation_map_move. reflexivity.
Qed.

Lemma centres_fixed n w : (w_depth w <= widest n)%N ->
  map (turn_wide_sticker n w) (centre_stickers n) = centre_stickers n.
Proof.
  intros H. destruct w as [d [f a]]. cbn [w_depth] in H.
  assert (B : (widest n <= 2)%N) by (destruct n; vm_compute; discriminate).
  assert (K : d = 0%N \/ d = 1%N \/ d = 2%N) by lia.
  destruct n; try reflexivity; destruct K as [->|[->| ->]]; try (exfalso; apply H; reflexivity);
    destruct f as [[] []], a; vm_compute; reflexivity.
Qed.

Lemma view_wide n (c : CubeOf n) o w : (w_depth w <= widest n)%N ->
  cube_stickers n (cube_apply_wide n c w) = map (turn_wide_sticker n w) (cube_stickers n c) ->
  view n (mkOrientable (cube_apply_wide n c w) o)
  = map (turn_wide_sticker n (held_wide o w)) (view n (mkOrientable c o)).
Proof.
  intros H E. unfold view. cbn [ob_cube ob_ori]. rewrite E, <- (centres_fixed n w H) at 1.
  rewrite <- map_app, !map_map. apply map_ext. intros s. apply hold_turn.
Qed.
Lemma face_of_normal o f g : normal g = orientation_map o (normal f) -> g = held_face o f.
Proof. intros H. apply normal_inj. rewrite held_face_normal. exact H. Qed.

Definition no_center_edges (n : CubeSize) : Prop := n = Size2 \/ n = Size3 \/ n = Size4 \/ n = Size6.

Lemma half_widest n : half_depth n = widest n.
Proof. reflexivity. Qed.
Lemma set_depth_ok w n : (w_depth w <= widest n)%N -> wide_set_max_depth (half_depth n) w = Ok w.
Proof. intros H. unfold wide_set_max_depth. rewrite half_widest. replace (widest n <? w_depth w)%N with false by lia. reflexivity. Qed.

(** A wide move of at most half of the cube turns the right number of layers, but those of
    the face [f] of the base cube, wherever that face is now ([g]); the orientation of the
    cube is not taken into account.  (All cubes for which C15 holds.) *)
Theorem C46_wide_exact : forall n (o : Orientable n) w g,
  no_center_edges n \/ w_depth w = widest n -> (w_depth w <= widest n)%N ->
  normal g = orientation_map (ob_ori o) (normal (mv_face (w_move w))) ->
  exists o', ext_apply n o (XWide w) = Done o' /\ ob_ori o' = ob_ori o /\
    view n o' = map (ext_turn n (XWide (mkWide (w_depth w) (mkMove g (mv_amount (w_move w)))))) (view n o).
Proof.
  intros n [c o] w g Hn Hd Hg. cbn [ob_ori ob_cube] in *. apply face_of_normal in Hg. subst g.
  exists (mkOrientable (cube_apply_wide n c w) o). split; [|split; [reflexivity|]].
  - cbn [ext_apply ob_ori ob_cube].
    assert (B : (2 * widest n + 2 <= cube_size_N n)%N) by (destruct n; vm_compute; discriminate).
    replace (cube_size_N n <? w_depth w)%N with false by lia.
    replace (w_depth w <? cube_size_N n - w_depth w)%N with true by lia. cbn [bind_o].
    rewrite set_depth_ok by exact Hd. reflexivity.
  - apply (view_wide n c o w Hd). destruct Hn as [Hn|Hn].
    + apply C15_wide_moves_partial; assumption.
    + apply C15_widest_move_partial; assumption.
Qed.

(** So such a wide move is right when the rotations so far leave its face where it was
    (for example in the default orientation) ... *)
Theorem C46_wide_partial : forall n (o o' : Orientable n) w,
  no_center_edges n \/ w_depth w = widest n -> (w_depth w <= widest n)%N ->
  orientation_map (ob_ori o) (normal (mv_face (w_move w))) = normal (mv_face (w_move w)) ->
  ext_apply n o (XWide w) = Done o' -> view n o' = map (ext_turn n (XWide w)) (view n o).
Proof.
  intros n o o' w Hn Hd Hf E.
  destruct (C46_wide_exact n o w _ Hn Hd (eq_sym Hf)) as (o'' & E' & _ & V).
  rewrite E in E'. injection E' as <-. rewrite V. destruct w as [d [f a]]. reflexivity.
Qed.

(** Decidable comparison of views, for the counterexamples. *)
Definition sticker_eqb (a b : Sticker) : bool :=
  v3_eqb (st_cubie a) (st_cubie b) && v3_eqb (st_normal a) (st_normal b) && face_eqb (st_color a) (st_color b).
Fixpoint view_eqb (a b : list Sticker) : bool :=
  match a, b with
  | [], [] => true
  | x :: a, y :: b => sticker_eqb x y && view_eqb a b
  | _, _ => false
  end.
Lemma view_eqb_refl a : view_eqb a a = true.
Proof.
  induction a as [|[[x y z] [x' y' z'] f] a IH]; [reflexivity|]. cbn [view_eqb]. rewrite IH. unfold sticker_eqb, v3_eqb.
  cbn [st_cubie st_normal st_color px py pz]. rewrite !Z.eqb_refl. destruct f as [[] []]; reflexivity.
Qed.
(** The move is performed without panic, and the view afterwards is not what it should be. *)
Definition goes_wrong (n : CubeSize) (o : Orientable n) (m : ExtendedAxisMove) : Prop :=
  exists o', ext_apply n o m = Done o' /\ view n o' <> map (ext_turn n m) (view n o).
Definition goes_wrongb (n : CubeSize) (o : Orientable n) (m : ExtendedAxisMove) : bool :=
  match ext_apply n o m with
  | Done o' => negb (view_eqb (view n o') (map (ext_turn n m) (view n o)))
  | Panic => false
  end.
Lemma goes_wrongb_sound n o m : goes_wrongb n o m = true -> goes_wrong n o m.
Proof.
  unfold goes_wrongb, goes_wrong. destruct (ext_apply n o m) as [o'|]; [|discriminate].
  intros H. exists o'. split; [reflexivity|]. intros E. rewrite E, view_eqb_refl in H. discriminate H.
Qed.

(** ... and in every orientation other than the default one some wide move is wrong, on
    every cube. *)
Theorem C46_wide_refuted : forall n ori, ori <> ori_default -> exists f,
  goes_wrong n (mkOrientable (cube_solved n) ori) (XWide (mkWide (widest n) (mkMove f Single))).
Proof.
  intros n ori H.
  destruct (find_first (fun f => goes_wrongb n (mkOrientable (cube_solved n) ori) (XWide (mkWide (widest n) (mkMove f Single)))) face_iter)
    as [f|] eqn:F.
  - exists f. apply goes_wrongb_sound. clear H. unfold face_iter in F. cbn [find_first] in F.
    repeat match type of F with (if ?b then _ else _) = _ => destruct b eqn:?; [injection F as <-; assumption|] end. discriminate F.
  - exfalso. revert F. destruct n, ori as [[[] []] [] []]; first [exfalso; apply H; reflexivity|intros F; vm_compute in F; discriminate F].
Qed.

(** A face move.  The code turns the face of the base cube that [rotations()] would take
    the face [f] to (it should be the one that [rotations()] takes to [f]); on the big
    cubes it turns half of the cube (see C16). *)
Lemma rotate_move_fold rs : forall m,
  fold_left rotate_move rs m = mkMove (fold_left rotate_face rs (mv_face m)) (mv_amount m).
Proof. induction rs as [|r rs IH]; intros [f a]; [reflexivity|]. cbn [fold_left]. rewrite IH. reflexivity. Qed.
Lemma rotate_face_fold rs : forall f, normal (fold_left rotate_face rs f) = rotate_all rs (normal f).
Proof.
  unfold rotate_all. induction rs as [|r rs IH]; intros f; [reflexivity|]. cbn [fold_left]. rewrite IH, rotate_face_space. reflexivity.
Qed.
Theorem C46_face_exact : forall n (o : Orientable n) m rs g,
  or_rotations (ob_ori o) = Done rs ->
  normal g = orientation_map (ob_ori o) (rotate_all rs (normal (mv_face m))) ->
  exists o', ext_apply n o (XRegular m) = Done o' /\ ob_ori o' = ob_ori o /\
    view n o' = map (ext_turn n (XWide (mkWide (widest n) (mkMove g (mv_amount m))))) (view n o).
Proof.
  intros n [c o] m rs g R Hg. cbn [ob_ori ob_cube] in *. rewrite <- rotate_face_fold in Hg.
  apply face_of_normal in Hg. subst g.
  exists (mkOrientable (cube_apply n c (fold_left rotate_move rs m)) o). split; [|split; [reflexivity|]].
  - cbn [ext_apply]. unfold orientable_apply. cbn [ob_ori ob_cube]. rewrite R. reflexivity.
  - rewrite rotate_move_fold. rewrite C16_axis_move_partial.
    set (w := mkWide (widest n) (mkMove (fold_left rotate_face rs (mv_face m)) (mv_amount m))).
    assert (D : w_depth w = widest n) by reflexivity.
    refine (eq_trans (view_wide n c o w _ (C15_widest_move_partial n c w D)) _); [rewrite D; apply N.le_refl|reflexivity].
Qed.

(** On the 2x2x2 and the 3x3x3 all face moves are right in exactly 8 of the 24
    orientations. *)
Definition right_faces : list (Face * Face) :=
  [(fR, fU); (fL, fU); (fL, fD); (fL, fB); (fU, fR); (fD, fL); (fF, fD); (fB, fD)].
Definition faces_right (n : CubeSize) (ori : Orientation) : Prop := forall c m o',
  ext_apply n (mkOrientable c ori) (XRegular m) = Done o' ->
  view n o' = map (ext_turn n (XRegular m)) (view n (mkOrientable c ori)).
Lemma right_faces_turn ori rs f : In (or_r_face ori, or_u_face ori) right_faces -> or_rotations ori = Done rs ->
  normal f = orientation_map ori (rotate_all rs (normal f)).
Proof.
  intros H R. destruct ori as [[[] []] [] []]; vm_compute in R; injection R as <-;
    first [exfalso; vm_compute in H; intuition discriminate | destruct f as [[] []]; reflexivity].
Qed.
Theorem C46_face_partial : forall n ori, n = Size2 \/ n = Size3 ->
  (faces_right n ori <-> In (or_r_face ori, or_u_face ori) right_faces).
Proof.
  intros n ori Hn. split.
  - intros H.
    assert (G : forall f, goes_wrongb n (mkOrientable (cube_solved n) ori) (XRegular (mkMove f Single)) = false).
    { intros f. destruct (goes_wrongb _ _ _) eqn:E; [|reflexivity]. exfalso. apply goes_wrongb_sound in E.
      destruct E as (o' & E & W). apply W, (H _ _ _ E). }
    clear H. pose proof (G fR) as GR. pose proof (G fU) as GU. pose proof (G fF) as GF. clear G.
    destruct Hn as [->| ->]; destruct ori as [[[] []] [] []];
      first [vm_compute; tauto | exfalso; vm_compute in GR; discriminate GR | exfalso; vm_compute in GU; discriminate GU
            | exfalso; vm_compute in GF; discriminate GF].
  - intros H c m o' E. destruct (C45_rotations_no_panic ori) as (rs & R & _).
    destruct (C46_face_exact n (mkOrientable c ori) m rs (mv_face m) R (right_faces_turn ori rs _ H R)) as (o'' & E' & _ & V).
    rewrite E in E'. injection E' as <-. rewrite V. apply map_ext. intros s.
    destruct Hn as [->| ->]; destruct m; reflexivity.
Qed.

(** In particular they are right in the default orientation, and after [y] the move [R]
    is wrong. *)
Theorem C46_face_default_partial : forall n c, n = Size2 \/ n = Size3 -> forall m,
  exists o', ext_apply n (orientable_new c) (XRegular m) = Done o' /\
    view n o' = map (ext_turn n (XRegular m)) (view n (orientable_new c)).
Proof.
  intros n c Hn m. eexists. split; [reflexivity|].
  apply (proj2 (C46_face_partial n ori_default Hn) (or_introl eq_refl)). reflexivity.
Qed.
Theorem C46_face_refuted : forall n, exists o,
  ext_apply n (orientable_solved n) (XRotation (mkRot AY Single)) = Done o /\
  goes_wrong n o (XRegular (mkMove fR Single)).
Proof.
  intros n. eexists. split; [reflexivity|]. apply goes_wrongb_sound. destruct n; vm_compute; reflexivity.
Qed.
(** On the bigger cubes they are wrong even in the default orientation. *)
Theorem C46_face_big_refuted : forall n, n <> Size2 -> n <> Size3 ->
  goes_wrong n (orientable_solved n) (XRegular (mkMove fR Single)).
Proof. intros n H2 H3. apply goes_wrongb_sound. destruct n; try congruence; vm_compute; reflexivity. Qed.

(* Every sticker of the view is on a cubie of the grid. *)
Definition grid3 (n : CubeSize) (p : V3) : Prop := on_grid n (px p) /\ on_grid n (py p) /\ on_grid n (pz p).
Definition grid3b (n : CubeSize) (p : V3) : bool :=
  let g x := (- (sizeZ n - 1) <=? x)%Z && (x <=? sizeZ n - 1)%Z && Z.even (x + sizeZ n - 1) in
  g (px p) && g (py p) && g (pz p).
Lemma grid3b_sound n p : grid3b n p = true -> grid3 n p.
Proof. unfold grid3b, grid3, on_grid. cbn zeta. rewrite !andb_true_iff, !Z.leb_le. tauto. Qed.
Lemma set_grid n (c : CubeOf n) : Forall (fun set => forall s, In s (set_stickers (sizeZ n) set) -> grid3 n (st_cubie s)) (cube_sets n c).
Proof.
  assert (C : forall n' s l, In s (set_stickers (sizeZ n') (SetCorner l)) -> grid3 n' (st_cubie s)).
  { intros n' s l H. cbn [set_stickers] in H. apply in_flat_map in H. destruct H as ([q x] & _ & H). cbn [fst snd] in H.
    apply in_map_iff in H. destruct H as (fc & <- & _). cbn [st_cubie].
    apply grid3b_sound. destruct x as [[[] [] []] o]; destruct n'; vm_compute; reflexivity. }
  assert (E : forall n' s l, n' = Size3 \/ n' = Size5 \/ n' = Size7 -> In s (set_stickers (sizeZ n') (SetEdge l)) -> grid3 n' (st_cubie s)).
  { intros n' s l Hn H. cbn [set_stickers] in H. apply in_flat_map in H. destruct H as ([q x] & _ & H). cbn [fst snd] in H.
    apply in_map_iff in H. destruct H as (fc & <- & _). cbn [st_cubie].
    apply grid3b_sound. destruct x as [[] [[] []] o]; destruct Hn as [->|[->| ->]]; vm_compute; reflexivity. }
  assert (W : forall n' nd s l, (n', nd) = (Size4, 1%Z) \/ (n', nd) = (Size6, 1%Z) \/ (n', nd) = (Size6, 2%Z) \/
      (n', nd) = (Size7, 1%Z) \/ (n', nd) = (Size7, 2%Z) -> In s (set_stickers (sizeZ n') (SetWing nd l)) -> grid3 n' (st_cubie s)).
  { intros n' nd s l Hn H. cbn [set_stickers] in H. apply in_flat_map in H. destruct H as ([q x] & _ & H). cbn [fst snd] in H.
    apply in_map_iff in H. destruct H as (fc & <- & _). cbn [st_cubie].
    apply grid3b_sound. destruct x as [[[] [[] []] []]]; destruct Hn as [[= -> ->]|[[= -> ->]|[[= -> ->]|[[= -> ->]|[= -> ->]]]]]; vm_compute; reflexivity. }
  assert (CC : forall n' nd s l, (nd = 1%Z /\ n' <> Size2 /\ n' <> Size3) \/ (nd = 2%Z /\ (n' = Size6 \/ n' = Size7)) ->
      In s (set_stickers (sizeZ n') (SetCenterCorner nd l)) -> grid3 n' (st_cubie s)).
  { intros n' nd s l Hn H. cbn [set_stickers] in H. apply in_map_iff in H. destruct H as ([q x] & <- & _). cbn [st_cubie fst snd].
    apply grid3b_sound. destruct x as [[[] [] []] []]; destruct Hn as [(-> & N2 & N3)|(-> & [->| ->])]; try (destruct n'; try congruence); vm_compute; reflexivity. }
  assert (CE : forall n' nd s l, (nd = 1%Z /\ (n' = Size5 \/ n' = Size7)) \/ (nd = 2%Z /\ n' = Size7) ->
      In s (set_stickers (sizeZ n') (SetCenterEdge nd l)) -> grid3 n' (st_cubie s)).
  { intros n' nd s l Hn H. cbn [set_stickers] in H. apply in_map_iff in H. destruct H as ([q x] & <- & _). cbn [st_cubie fst snd].
    apply grid3b_sound. destruct x as [[[] []] [] []]; destruct Hn as [(-> & [->| ->])|(-> & ->)]; vm_compute; reflexivity. }
  assert (CW : forall n' s l, n' = Size6 \/ n' = Size7 ->
      In s (set_stickers (sizeZ n') (SetCenterWing 1 2 l)) -> grid3 n' (st_cubie s)).
  { intros n' s l Hn H. cbn [set_stickers] in H. apply in_map_iff in H. destruct H as ([q x] & <- & _). cbn [st_cubie fst snd].
    apply grid3b_sound. destruct x as [[[[] []] [] []] []]; destruct Hn as [->| ->]; vm_compute; reflexivity. }
  assert (FC : forall (P : PieceSetOf -> Prop) x l, P x -> Forall P l -> Forall P (x :: l)) by (intros; constructor; assumption).
  destruct n; cbn [cube_sets]; repeat (apply FC; [intros s H|]); try apply Forall_nil;
    first [ apply (C _ _ _ H) | refine (E _ _ _ _ H) | refine (W _ _ _ _ _ H) | refine (CC _ _ _ _ _ H)
          | refine (CE _ _ _ _ _ H) | refine (CW _ _ _ _ H) ];
    first [ tauto | left; split; [reflexivity|split; discriminate] | right; split; tauto ].
Qed.
Lemma centre_grid n s : In s (centre_stickers n) -> grid3 n (st_cubie s).
Proof.
  intros H. apply grid3b_sound. destruct n; cbn in H; intuition (subst; vm_compute; reflexivity).
Qed.
Lemma on_grid_opp n x : on_grid n x -> on_grid n (- x).
Proof.
  unfold on_grid. intros [H E]. split; [lia|]. rewrite Z.even_spec in *. destruct E as [k E]. exists (sizeZ n - 1 - k)%Z. lia.
Qed.
Lemma grid3_rotate n r p : grid3 n p -> grid3 n (rotate_space r p).
Proof.
  intros (X & Y & Z'). pose proof (on_grid_opp _ _ X). pose proof (on_grid_opp _ _ Y). pose proof (on_grid_opp _ _ Z').
  unfold rotate_space, grid3. rewrite unit_normal, !turn_normal. destruct r as [[] []], p as [x y z];
    cbn [quarter_turns times rot_axis rot_amount qf px py pz] in *; rewrite ?Z.opp_involutive; auto.
Qed.
Lemma orientation_map_path o : exists rs, forall v, orientation_map o v = rotate_all rs v.
Proof.
  destruct (C45_every_orientation o) as [(rs & E & _) _]. exists rs.
  destruct (C45_tracks rs) as (o' & E' & _ & _ & M). rewrite E in E'. injection E' as <-. exact M.
Qed.
Lemma grid3_hold n o p : grid3 n p -> grid3 n (orientation_map o p).
Proof.
  destruct (orientation_map_path o) as (rs & ->). unfold rotate_all. revert p.
  induction rs as [|r rs IH]; intros p H; [exact H|]. cbn [fold_left]. apply IH, grid3_rotate, H.
Qed.
Lemma view_grid n (o : Orientable n) s : In s (view n o) -> grid3 n (st_cubie s).
Proof.
  unfold view. rewrite in_map_iff. intros (t & <- & H). unfold hold. cbn [st_cubie]. apply grid3_hold.
  apply in_app_iff in H. destruct H as [H|H]; [|apply centre_grid, H].
  unfold cube_stickers in H. apply in_flat_map in H. destruct H as (set & Hs & H).
  pose proof (set_grid n (ob_cube o)) as G. rewrite Forall_forall in G. exact (G set Hs s H) || exact (G set Hs t H).
Qed.
Lemma grid3_dot n p f : grid3 n p -> on_grid n (dot p (normal f)).
Proof.
  intros (X & Y & Z'). pose proof (on_grid_opp _ _ X). pose proof (on_grid_opp _ _ Y). pose proof (on_grid_opp _ _ Z').
  destruct p as [x y z]. unfold dot. cbn [px py pz] in *.
  assert (M : exists k, (x * px (normal f) + y * py (normal f) + z * pz (normal f) = k)%Z /\ on_grid n k);
    [|destruct M as (k & -> & M); exact M].
  destruct f as [[] []]; cbn [normal px py pz unit v3_scale scalar face_axis face_dir].
  - exists x. split; [lia|auto]. - exists (- x)%Z. split; [lia|auto].
  - exists y. split; [lia|auto]. - exists (- y)%Z. split; [lia|auto].
  - exists z. split; [lia|auto]. - exists (- z)%Z. split; [lia|auto].
Qed.

(** A wide move of depth more than [N] is a rotation of the whole cube, which is right. *)
Theorem C46_deep_wide_partial : forall n (o : Orientable n) w, (cube_size_N n < w_depth w)%N ->
  exists o', ext_apply n o (XWide w) = Done o' /\ view n o' = map (ext_turn n (XWide w)) (view n o).
Proof.
  intros n o w H. destruct (C46_rotations n o (rot_of_move (w_move w))) as (o' & E & V). exists o'. split.
  - rewrite <- E. cbn [ext_apply]. replace (cube_size_N n <? w_depth w)%N with true by lia. reflexivity.
  - rewrite V. apply map_ext_in. intros s Hs. apply view_grid in Hs. unfold ext_turn. cbn [turned_by ext_space].
    unfold in_layers. destruct (grid3_dot n _ (mv_face (w_move w)) Hs) as [G _].
    replace (_ <=? _)%Z with true by (unfold sizeZ in *; lia). rewrite !rot_of_move_space. reflexivity.
Qed.

(** For depths between half of the cube and [N] the move is wrong, even in the default
    orientation (where it does not panic, see C47): the cube is rotated as well, and layers
    on the opposite side are turned the wrong way. *)
Theorem C46_middle_wide_refuted : forall n d, (cube_size_N n - cube_size_N n / 2 < d <= cube_size_N n)%N ->
  goes_wrong n (orientable_solved n) (XWide (mkWide d (mkMove fR Single))).
Proof.
  intros n d H. apply goes_wrongb_sound.
  assert (K : (d = 2 \/ d = 3 \/ d = 4 \/ d = 5 \/ d = 6 \/ d = 7)%N)
    by (destruct n; cbn in H; lia).
  destruct n, K as [->|[->|[->|[->|[->| ->]]]]]; first [exfalso; vm_compute in H; clear -H; intuition discriminate|vm_compute; reflexivity].
Qed.

(** What such a move does instead, in every orientation: the cube is rotated as a whole as the
    move says, and then the [N - d + 1] outermost layers of the face opposite to [f] of the base
    cube, wherever that face is after the rotation ([g]), are turned by the amount of the move. *)
Theorem C46_middle_wide_exact : forall n (o : Orientable n) w o1 g,
  no_center_edges n \/ (w_depth w + widest n = cube_size_N n)%N ->
  (cube_size_N n - cube_size_N n / 2 < w_depth w <= cube_size_N n)%N ->
  ext_apply n o (XRotation (rot_of_move (w_move w))) = Done o1 ->
  normal g = orientation_map (ob_ori o1) (v3_scale (-1) (normal (mv_face (w_move w)))) ->
  exists o', ext_apply n o (XWide w) = Done o' /\ ob_ori o' = ob_ori o1 /\
    view n o' = map (ext_turn n (XWide (mkWide (cube_size_N n - w_depth w) (mkMove g (mv_amount (w_move w))))))
                  (map (ext_turn n (XRotation (rot_of_move (w_move w)))) (view n o)).
Proof.
  intros n o w o1 g Hn Hd R Hg.
  assert (S1 : (1 <= cube_size_N n / 2)%N) by (destruct n; vm_compute; discriminate).
  assert (S2 : (cube_size_N n <= u32_max)%N) by (destruct n; vm_compute; discriminate).
  assert (S3 : (2 * (cube_size_N n / 2) <= cube_size_N n)%N) by (destruct n; vm_compute; discriminate).
  assert (W : widest n = (cube_size_N n / 2 - 1)%N) by (destruct n; reflexivity).
  set (w' := mkWide (cube_size_N n - w_depth w) (mkMove (opposite (mv_face (w_move w))) (mv_amount (w_move w)))).
  assert (O : normal (opposite (mv_face (w_move w))) = v3_scale (-1) (normal (mv_face (w_move w))))
    by (destruct w as [d [[[] []] a]]; reflexivity).
  destruct (C46_wide_exact n o1 w' g) as (o' & E & F & V).
  - destruct Hn as [Hn|Hn]; [left; exact Hn|right]. cbn [w' w_depth]. lia.
  - cbn [w' w_depth]. lia.
  - cbn [w' w_move mv_face]. rewrite O. exact Hg.
  - exists o'. split; [|split; [exact F|]].
    + rewrite <- E. cbn [ext_apply]. cbn [ext_apply] in R. rewrite R. cbn [bind_o].
      replace (cube_size_N n <? w_depth w)%N with false by lia.
      replace (w_depth w <? cube_size_N n - w_depth w)%N with false by lia.
      unfold wide_opposite, move_widen, wide_new. replace (u32_max <? cube_size_N n - w_depth w)%N with false by lia. cbn [bind_o].
      fold w'. cbn [w' w_depth]. replace (cube_size_N n <? cube_size_N n - w_depth w)%N with false by lia.
      replace (cube_size_N n - w_depth w <? cube_size_N n - (cube_size_N n - w_depth w))%N with true by lia. reflexivity.
    + rewrite V. cbn [w' w_move w_depth mv_amount]. f_equal.
      destruct (C46_rotations n o (rot_of_move (w_move w))) as (o2 & E2 & V2). rewrite R in E2. injection E2 as <-. exact V2.
Qed.
(** For example [4Rw] (depth 3) on the 4x4x4 after [y]. *)
Example C46_middle_wide_example : exists o,
  ext_apply Size4 (orientable_solved Size4) (XRotation (mkRot AY Single)) = Done o /\
  match ext_apply Size4 o (XWide (mkWide 3 (mkMove fR Single))) with
  | Done o' => view_eqb (view Size4 o')
      (map (ext_turn Size4 (XWide (mkWide 1 (mkMove (held_face (ob_ori o') fL) Single))))
        (map (ext_turn Size4 (XRotation (mkRot AX Single))) (view Size4 o)))
  | Panic => false
  end = true.
Proof. eexists. split; [reflexivity|]. vm_compute. reflexivity. Qed.

(** Slices: the two outer slabs are turned by faces pointing in opposite directions with
    the same amount, that is, against each other; with a half turn that makes no
    difference. *)
Lemma wide_new_ok n f a d : (d <= n)%N -> wide_new n f a d = Ok (mkWide d (mkMove f a)).
Proof. intros H. unfold wide_new. replace (n <? d)%N with false by lia. reflexivity. Qed.
Definition slice_depth (n : CubeSize) (wide : bool) : N := if wide then half_depth n else 0%N.
Definition slice_wide (n : CubeSize) (r : AxisRotation) (wide : bool) (d : Direction) : WideAxisMove :=
  mkWide (slice_depth n wide) (mkMove (mkFace (rot_axis r) d) (amount_mul (rot_amount r) Negative)).
Lemma slice_apply n (o : Orientable n) r wide :
  ext_apply n o (XSlice r wide) =
  Done (mkOrientable (cube_apply_wide n (cube_apply_wide n (ob_cube o) (slice_wide n r wide Positive)) (slice_wide n r wide Negative))
                     (or_rotate (ob_ori o) r)).
Proof.
  cbn [ext_apply]. unfold slice_step. fold (slice_depth n wide).
  assert (D : (slice_depth n wide <= half_depth n)%N) by (unfold slice_depth; destruct wide; lia).
  rewrite !wide_new_ok by exact D. cbn [bind_o].
  unfold orientable_rotate. cbn [ob_ori ob_cube]. rewrite or_rotate_o_done. reflexivity.
Qed.

Lemma half_turn_twice x v : rotate_space (mkRot x Double) (rotate_space (mkRot x Double) v) = v.
Proof.
  unfold rotate_space. rewrite unit_normal, !turn_normal. destruct x, v as [a b c];
    cbn [quarter_turns times rot_axis rot_amount qf px py pz]; apply mkV3_eq; lia.
Qed.
Lemma half_turn_dot x d v : dot (rotate_space (mkRot x Double) v) (normal (mkFace x d)) = dot v (normal (mkFace x d)).
Proof.
  unfold rotate_space. rewrite unit_normal, !turn_normal. destruct x, d, v as [a b c];
    cbn [quarter_turns times rot_axis rot_amount qf px py pz]; unfold dot;
    cbn [normal px py pz unit v3_scale scalar face_axis face_dir]; lia.
Qed.
Lemma dot_normal x d v : dot v (normal (mkFace x d)) = (scalar d * dot v (unit x))%Z.
Proof. destruct v as [a b c], x, d; unfold dot; cbn [normal px py pz unit v3_scale scalar face_axis face_dir]; lia. Qed.
Lemma on_grid_unit n p x : grid3 n p -> on_grid n (dot p (unit x)).
Proof. intros H. pose proof (grid3_dot n p (mkFace x Positive) H) as G. rewrite dot_normal in G. cbn [scalar] in G. rewrite Z.mul_1_l in G. exact G. Qed.
Lemma odd_even_size n : sizeZ n = (2 * Z.of_N (widest n) + 2)%Z \/ sizeZ n = (2 * Z.of_N (widest n) + 3)%Z.
Proof. destruct n; vm_compute; auto. Qed.

Lemma slice_double n x d wide s : grid3 n (st_cubie s) ->
  let w e := mkWide (slice_depth n wide) (mkMove (mkFace x e) Double) in
  ext_turn n (XRotation (mkRot x Double)) (turn_wide_sticker n (w (dir_neg d)) (turn_wide_sticker n (w d) s))
  = ext_turn n (XSlice (mkRot x Double) wide) s.
Proof.
  intros G w. subst w. destruct s as [p q c]. cbn [st_cubie] in G. pose proof (on_grid_unit n p x G) as [B P].
  assert (R : forall e v, move_space (mkMove (mkFace x e) Double) v = rotate_space (mkRot x Double) v).
  { intros e v. rewrite <- rot_of_move_space. unfold rot_of_move. cbn [mv_face mv_amount face_axis face_dir]. destruct e; reflexivity. }
  unfold ext_turn, turn_wide_sticker, in_layers. cbn [turned_by w_move w_depth mv_face mv_amount st_cubie st_normal st_color ext_space rot_axis].
  assert (T : (sizeZ n - 1 - 2 * Z.of_N (slice_depth n wide) <=? Z.abs (dot p (unit x)))%Z
     = negb (if wide then (dot p (unit x) =? 0)%Z else (Z.abs (dot p (unit x)) <? sizeZ n - 1)%Z)).
  { unfold slice_depth. rewrite half_widest. rewrite Z.even_spec in P. destruct P as [k P].
    destruct wide; [|change (Z.of_N 0) with 0%Z]; destruct (odd_even_size n) as [S|S]; lia. }
  assert (W : forall (b : bool), (match (if b then true else false) with true => (dot p (unit x) =? 0)%Z | false => (Z.abs (dot p (unit x)) <? sizeZ n - 1)%Z end)
     = (if b then (dot p (unit x) =? 0)%Z else (Z.abs (dot p (unit x)) <? sizeZ n - 1)%Z)) by (intros []; reflexivity).
  assert (L : (0 < sizeZ n - 1 - 2 * Z.of_N (slice_depth n wide))%Z).
  { unfold slice_depth. rewrite half_widest. destruct wide; destruct (odd_even_size n) as [S|S]; lia. }
  rewrite !dot_normal. replace (if wide then (dot p (unit x) =? 0)%Z else (Z.abs (dot p (unit x)) <? sizeZ n - 1)%Z)
    with (negb (sizeZ n - 1 - 2 * Z.of_N (slice_depth n wide) <=? Z.abs (dot p (unit x)))%Z) by (rewrite T, negb_involutive; reflexivity).
  clear T W. set (L0 := (sizeZ n - 1 - 2 * Z.of_N (slice_depth n wide))%Z) in *.
  destruct (L0 <=? scalar d * dot p (unit x))%Z eqn:D1.
  - cbn [st_cubie st_normal st_color]. rewrite !R.
    assert (D2 : (L0 <=? scalar (dir_neg d) * dot (rotate_space (mkRot x Double) p) (unit x))%Z = false).
    { rewrite <- dot_normal, half_turn_dot, dot_normal. destruct d; cbn [scalar dir_neg] in *; lia. }
    rewrite ?dot_normal, D2. cbn [st_cubie st_normal st_color]. rewrite !half_turn_twice.
    replace (L0 <=? Z.abs (dot p (unit x)))%Z with true by (destruct d; cbn [scalar] in *; lia). reflexivity.
  - cbn [st_cubie st_normal st_color]. rewrite ?dot_normal.
    destruct (L0 <=? scalar (dir_neg d) * dot p (unit x))%Z eqn:D2.
    + cbn [st_cubie st_normal st_color]. rewrite !R, !half_turn_twice.
      replace (L0 <=? Z.abs (dot p (unit x)))%Z with true by (destruct d; cbn [scalar dir_neg] in *; lia). reflexivity.
    + cbn [st_cubie st_normal st_color].
      replace (L0 <=? Z.abs (dot p (unit x)))%Z with false by (destruct d; cbn [scalar dir_neg] in *; lia). reflexivity.
Qed.

Theorem C46_slice_double_partial : forall n (o : Orientable n) x wide e,
  no_center_edges n \/ wide = true ->
  orientation_map (ob_ori o) (normal (mkFace x Positive)) = normal (mkFace x e) ->
  exists o', ext_apply n o (XSlice (mkRot x Double) wide) = Done o' /\
    view n o' = map (ext_turn n (XSlice (mkRot x Double) wide)) (view n o).
Proof.
  intros n [c o] x wide e Hn He. cbn [ob_ori ob_cube] in *. eexists. split; [apply slice_apply|]. cbn [ob_ori ob_cube].
  destruct (C46_rotations n (mkOrientable (cube_apply_wide n (cube_apply_wide n c (slice_wide n (mkRot x Double) wide Positive))
     (slice_wide n (mkRot x Double) wide Negative)) o) (mkRot x Double)) as (o' & E & V).
  cbn [ext_apply] in E. unfold orientable_rotate in E. cbn [ob_ori ob_cube] in E. rewrite or_rotate_o_done in E. cbn [map_o] in E.
  injection E as <-. rewrite V. clear V.
  assert (D : (slice_depth n wide <= widest n)%N) by (unfold slice_depth; rewrite half_widest; destruct wide; lia).
  assert (S : forall c' d, cube_stickers n (cube_apply_wide n c' (slice_wide n (mkRot x Double) wide d))
     = map (turn_wide_sticker n (slice_wide n (mkRot x Double) wide d)) (cube_stickers n c')).
  { intros c' d. destruct Hn as [Hn| ->].
    - apply C15_wide_moves_partial; assumption.
    - apply C15_widest_move_partial. reflexivity. }
  rewrite (view_wide n _ o (slice_wide n (mkRot x Double) wide Negative) D (S _ _)).
  rewrite (view_wide n c o (slice_wide n (mkRot x Double) wide Positive) D (S _ _)).
  rewrite !map_map. apply map_ext_in. intros s Hs.
  rewrite <- (slice_double n x e wide s (view_grid n _ s Hs)). unfold held_wide, slice_wide.
  cbn [w_move w_depth mv_face mv_amount rot_axis rot_amount amount_mul].
  rewrite <- (face_of_normal o (mkFace x Positive) (mkFace x e) (eq_sym He)).
  rewrite <- (face_of_normal o (mkFace x Negative) (mkFace x (dir_neg e))); [reflexivity|].
  change (mkFace x Negative) with (mkFace x (dir_neg Positive)).
  assert (O : forall f, normal (mkFace (face_axis f) (dir_neg (face_dir f))) = v3_scale (-1) (normal f)) by (intros [[] []]; reflexivity).
  pose proof (O (mkFace x e)) as O1. pose proof (O (mkFace x Positive)) as O2. cbn [face_axis face_dir] in O1, O2.
  rewrite O1, O2, <- He. clear. destruct o as [[[] []] [] []], x; reflexivity.
Qed.

(** What a slice move does, in every orientation: the outer slabs of the two faces of its axis
    of the base cube, wherever these faces are now ([p] and [q]), are both turned by the inverse of
    its amount, each as seen from its own side, and then the whole cube is rotated. *)
Theorem C46_slice_exact : forall n (o : Orientable n) r wide p q,
  no_center_edges n \/ wide = true ->
  normal p = orientation_map (ob_ori o) (normal (mkFace (rot_axis r) Positive)) ->
  normal q = orientation_map (ob_ori o) (normal (mkFace (rot_axis r) Negative)) ->
  let slab f := XWide (mkWide (if wide then widest n else 0) (mkMove f (rot_amount (rot_inverse r)))) in
  exists o', ext_apply n o (XSlice r wide) = Done o' /\
    ext_apply n o (XRotation r) = Done (mkOrientable (ob_cube o) (ob_ori o')) /\
    view n o' = map (ext_turn n (XRotation r)) (map (ext_turn n (slab q)) (map (ext_turn n (slab p)) (view n o))).
Proof.
  intros n [c o] r wide p q Hn Hp Hq slab. cbn [ob_ori ob_cube] in *. eexists. split; [apply slice_apply|]. cbn [ob_ori ob_cube].
  split; [cbn [ext_apply]; unfold orientable_rotate; cbn [ob_ori ob_cube]; rewrite or_rotate_o_done; reflexivity|].
  apply face_of_normal in Hp. apply face_of_normal in Hq. subst p q.
  destruct (C46_rotations n (mkOrientable (cube_apply_wide n (cube_apply_wide n c (slice_wide n r wide Positive))
     (slice_wide n r wide Negative)) o) r) as (o' & E & V).
  cbn [ext_apply] in E. unfold orientable_rotate in E. cbn [ob_ori ob_cube] in E. rewrite or_rotate_o_done in E. cbn [map_o] in E.
  injection E as <-. rewrite V. clear V.
  assert (D : (slice_depth n wide <= widest n)%N) by (unfold slice_depth; rewrite half_widest; destruct wide; lia).
  assert (S : forall c' d, cube_stickers n (cube_apply_wide n c' (slice_wide n r wide d))
     = map (turn_wide_sticker n (slice_wide n r wide d)) (cube_stickers n c')).
  { intros c' d. destruct Hn as [Hn| ->].
    - apply C15_wide_moves_partial; assumption.
    - apply C15_widest_move_partial. reflexivity. }
  rewrite (view_wide n _ o (slice_wide n r wide Negative) D (S _ _)).
  rewrite (view_wide n c o (slice_wide n r wide Positive) D (S _ _)).
  reflexivity.
Qed.
(** For example [M] on the 4x4x4 after [x y], where the result is none that a slice turn gives. *)
Example C46_slice_exact_example : exists o o',
  bind_o (ext_apply Size4 (orientable_solved Size4) (XRotation (mkRot AX Single)))
    (fun o => ext_apply Size4 o (XRotation (mkRot AY Single))) = Done o /\
  ext_apply Size4 o (XSlice (mkRot AX Single) false) = Done o' /\
  view_eqb (view Size4 o')
      (map (ext_turn Size4 (XRotation (mkRot AX Single)))
        (map (ext_turn Size4 (XWide (mkWide 0 (mkMove (held_face (ob_ori o) fL) Inverse))))
          (map (ext_turn Size4 (XWide (mkWide 0 (mkMove (held_face (ob_ori o) fR) Inverse)))) (view Size4 o)))) = true.
Proof. eexists. eexists. split; [reflexivity|]. split; [reflexivity|]. vm_compute. reflexivity. Qed.

(** A quarter-turn slice is wrong on every cube, even from the solved cube. *)
Theorem C46_slice_refuted : forall n x wide,
  goes_wrong n (orientable_solved n) (XSlice (mkRot x Single) wide) /\
  goes_wrong n (orientable_solved n) (XSlice (mkRot x Inverse) wide).
Proof. intros n x wide. split; apply goes_wrongb_sound; destruct n, x, wide; vm_compute; reflexivity. Qed.

(** So the property fails on every cube. *)
Theorem C46_refuted : forall n, ~ C46_claim n.
Proof.
  intros n H. destruct (C46_slice_refuted n AX false) as [(o' & E & W) _]. apply W, (H _ _ _ E).
Qed.

Example C46_example :
  goes_wrongb Size3 (orientable_solved Size3) (XRegular (mkMove fF Inverse)) = false /\
  goes_wrongb Size4 (orientable_solved Size4) (XWide (mkWide 1 (mkMove fF Inverse))) = false /\
  goes_wrongb Size4 (orientable_solved Size4) (XSlice (mkRot AX Double) false) = false /\
  goes_wrongb Size4 (orientable_solved Size4) (XWide (mkWide 5 (mkMove fF Inverse))) = false.
Proof. repeat split; vm_compute; reflexivity. Qed.

(* ------------------------------------------------------------------ *)
(** * C47: which moves panic *)

Definition C47_claim (n : CubeSize) : Prop := forall (o : Orientable n) m, ext_apply n o m <> Panic.

(** Exactly the wide moves of about half of the cube. *)
Theorem C47_panic_exactly : forall n (o : Orientable n) m,
  ext_apply n o m = Panic <->
  exists w, m = XWide w /\ (cube_size_N n / 2 <= w_depth w <= cube_size_N n - cube_size_N n / 2)%N.
Proof.
  intros n o m. assert (S : (2 * (cube_size_N n / 2) <= cube_size_N n)%N) by (destruct n; vm_compute; discriminate).
  assert (S1 : (1 <= cube_size_N n / 2)%N) by (destruct n; vm_compute; discriminate).
  assert (S2 : (cube_size_N n <= u32_max)%N) by (destruct n; vm_compute; discriminate).
  destruct m as [m|r|w|r wide].
  - split; [|intros (w & [=] & _)]. cbn [ext_apply]. unfold orientable_apply.
    destruct (C45_rotations_no_panic (ob_ori o)) as (rs & -> & _). discriminate.
  - split; [|intros (w & [=] & _)]. cbn [ext_apply]. unfold orientable_rotate. rewrite or_rotate_o_done. discriminate.
  - cbn [ext_apply]. unfold wide_set_max_depth, orientable_rotate, half_depth, wide_opposite, move_widen, wide_new.
    rewrite or_rotate_o_done. cbn [map_o bind_o].
    generalize dependent (cube_size_N n / 2)%N. intros h. intros S S1.
    destruct (cube_size_N n <? w_depth w)%N eqn:A.
    + split; [discriminate|]. intros (w' & [= <-] & H). lia.
    + destruct (w_depth w <? cube_size_N n - w_depth w)%N eqn:B; cbn [bind_o].
      * destruct (h - 1 <? w_depth w)%N eqn:C.
        -- split; [|reflexivity]. intros _. exists w. split; [reflexivity|]. lia.
        -- split; [discriminate|]. intros (w' & [= <-] & H). lia.
      * replace (u32_max <? cube_size_N n - w_depth w)%N with false by lia. cbn [bind_o w_depth].
        destruct (h - 1 <? cube_size_N n - w_depth w)%N eqn:C.
        -- split; [|reflexivity]. intros _. exists w. split; [reflexivity|]. lia.
        -- split; [discriminate|]. intros (w' & [= <-] & H). lia.
  - rewrite slice_apply. split; [discriminate|]. intros (w & [=] & _).
Qed.
Theorem C47_refuted : forall n, ~ C47_claim n.
Proof.
  intros n H. apply (H (orientable_solved n) (XWide (mkWide (cube_size_N n / 2) (mkMove fR Single)))).
  apply C47_panic_exactly. eexists. split; [reflexivity|]. cbn [w_depth]. destruct n; vm_compute; split; discriminate.
Qed.
Theorem C47_partial : forall n (o : Orientable n) m,
  (forall w, m = XWide w -> (w_depth w < cube_size_N n / 2)%N \/ (cube_size_N n - cube_size_N n / 2 < w_depth w)%N) ->
  exists o', ext_apply n o m = Done o'.
Proof.
  intros n o m H. destruct (ext_apply n o m) as [o'|] eqn:E; [exists o'; reflexivity|].
  apply C47_panic_exactly in E. destruct E as (w & -> & B). specialize (H w eq_refl). lia.
Qed.
(** For example [Rw] on the 3x3x3. *)
Example C47_example :
  ext_apply Size3 (orientable_solved Size3) (XWide (mkWide 1 (mkMove fR Single))) = Panic /\
  ext_apply Size3 (orientable_solved Size3) (XWide (mkWide 0 (mkMove fR Single))) <> Panic.
Proof. split; [reflexivity|discriminate]. Qed.

(* ------------------------------------------------------------------ *)
(** * C48: inverses *)

(** Applying an algorithm of extended moves (generic/alg.rs:76-85 [Movable<Alg<M>>]). *)
Fixpoint ext_run (n : CubeSize) (o : Orientable n) (al : list ExtendedAxisMove) : outcome (Orientable n) :=
  match al with
  | [] => Done o
  | m :: al => bind_o (ext_apply n o m) (fun o => ext_run n o al)
  end.

Lemma or_rotate_inverse o r : or_rotate (or_rotate o r) (rot_inverse r) = o.
Proof. destruct o as [[[] []] [] []], r as [[] []]; reflexivity. Qed.
Lemma rot_of_inverse m : rot_of_move (move_inverse m) = rot_inverse (rot_of_move m).
Proof. destruct m as [[[] []] []]; reflexivity. Qed.
Lemma ext_apply_inverse n (o o' : Orientable n) m :
  ext_apply n o m = Done o' -> ext_apply n o' (ext_inverse m) = Done o.
Proof.
  destruct o as [c o]. destruct m as [m|r|w|r wide].
  - cbn [ext_apply ext_inverse]. unfold orientable_apply. cbn [ob_ori ob_cube].
    destruct (C45_rotations_no_panic o) as (rs & E & _). rewrite E. cbn [map_o]. intros [= <-]. cbn [ob_ori ob_cube].
    rewrite E. cbn [map_o]. rewrite !rotate_move_fold. unfold move_inverse at 1. cbn [mv_face mv_amount].
    do 2 f_equal. exact (ma_inverse _ (cube_apply_ok n) c (mkMove (fold_left rotate_face rs (mv_face m)) (mv_amount m))).
  - cbn [ext_apply ext_inverse]. unfold orientable_rotate. rewrite or_rotate_o_done. intros [= <-]. cbn [ob_ori ob_cube].
    rewrite or_rotate_o_done. cbn [map_o]. rewrite or_rotate_inverse. reflexivity.
  - cbn [ext_apply ext_inverse]. unfold wide_set_max_depth, orientable_rotate, wide_opposite, move_widen, wide_new.
    cbn [ob_ori ob_cube]. rewrite or_rotate_o_done. cbn [map_o bind_o wide_inverse w_depth w_move].
    rewrite rot_of_inverse.
    destruct (cube_size_N n <? w_depth w)%N.
    + intros [= <-]. cbn [ob_ori ob_cube]. rewrite or_rotate_o_done. cbn [map_o]. rewrite or_rotate_inverse. reflexivity.
    + destruct (w_depth w <? cube_size_N n - w_depth w)%N; cbn [bind_o].
      * destruct (half_depth n <? w_depth w)%N eqn:C; [discriminate|]. intros [= <-]. unfold wide_inverse. cbn [w_depth w_move ob_ori ob_cube].
        rewrite C. do 2 f_equal. apply (wa_inverse _ (cube_apply_wide_ok n)).
      * destruct (u32_max <? cube_size_N n - w_depth w)%N; cbn [bind_o]; [discriminate|]. cbn [w_depth ob_ori ob_cube].
        destruct (half_depth n <? cube_size_N n - w_depth w)%N eqn:C; [discriminate|]. intros [= <-]. cbn [w_depth ob_ori ob_cube].
        rewrite or_rotate_o_done. cbn [map_o bind_o w_depth ob_ori ob_cube]. rewrite C, or_rotate_inverse. do 2 f_equal.
        exact (wa_inverse _ (cube_apply_wide_ok n) c (mkWide (cube_size_N n - w_depth w) (mkMove (opposite (mv_face (w_move w))) (mv_amount (w_move w))))).
  - cbn [ext_inverse]. rewrite slice_apply. intros [= <-]. rewrite slice_apply. cbn [ob_ori ob_cube].
    rewrite or_rotate_inverse. do 2 f_equal.
    set (p := slice_wide n r wide Positive). set (q := slice_wide n r wide Negative).
    change (slice_wide n (rot_inverse r) wide Positive) with (wide_inverse p).
    change (slice_wide n (rot_inverse r) wide Negative) with (wide_inverse q).
    rewrite (C02_wide_same_axis_commute n c p q eq_refl), (wa_inverse _ (cube_apply_wide_ok n)).
    apply (wa_inverse _ (cube_apply_wide_ok n)).
Qed.

Lemma ext_run_app n al : forall (o : Orientable n) al',
  ext_run n o (al ++ al') = bind_o (ext_run n o al) (fun o => ext_run n o al').
Proof.
  induction al as [|m al IH]; intros o al'; [reflexivity|]. cbn [ext_run app].
  destruct (ext_apply n o m); [|reflexivity]. cbn [bind_o]. apply IH.
Qed.

Theorem C48_reversed : forall n (o o' : Orientable n) al,
  ext_run n o al = Done o' -> ext_run n o' (alg_reversed ext_inverse al) = Done o.
Proof.
  intros n o o' al. revert o. induction al as [|m al IH]; intros o.
  - intros [= <-]. reflexivity.
  - cbn [ext_run]. destruct (ext_apply n o m) as [o1|] eqn:E; [|discriminate]. cbn [bind_o]. intros R.
    apply IH in R. unfold alg_reversed in *. cbn [map rev]. rewrite ?map_app.
    first [rewrite ext_run_app, R | cbn [rev]; rewrite map_app, ext_run_app, R].
    cbn [bind_o ext_run map]. rewrite (ext_apply_inverse n o o1 m E). reflexivity.
Qed.
(** Reversing twice gives the same alg. *)
Theorem C48_reversed_twice : forall al, alg_reversed ext_inverse (alg_reversed ext_inverse al) = al.
Proof.
  assert (I : forall m, ext_inverse (ext_inverse m) = m).
  { intros [[[[] []] []]|[[] []]|[d [[[] []] []]]|[[] []] w]; reflexivity. }
  intros al. unfold alg_reversed. rewrite ?map_rev, ?rev_involutive, ?map_map.
  rewrite <- (map_id al) at 2. apply map_ext, I.
Qed.
(** The hypothesis holds, for example, for [Rw x U2 M' 3Fw] on the 4x4x4 (depth 4 for the
    last one). *)
Example C48_example :
  let al := [XWide (mkWide 1 (mkMove fR Single)); XRotation (mkRot AX Single); XRegular (mkMove fU Double);
             XSlice (mkRot AX Single) false; XWide (mkWide 4 (mkMove fF Single))] in
  exists o', ext_run Size4 (orientable_solved Size4) al = Done o' /\
    ob_ori o' <> ori_default /\ c4_centers (ob_cube o') <> c4_centers cube4_solved.
Proof.
  cbn zeta. eexists. split; [vm_compute; reflexivity|]. split; [intros H; vm_compute in H; discriminate H|].
  intros H; vm_compute in H; discriminate H.
Qed.
Print Assumptions C45_tracks.
Print Assumptions C45_tracks_from.
Print Assumptions C45_every_orientation.
Print Assumptions C45_try_from.
Print Assumptions C45_rotations_no_panic.
Print Assumptions C45_rotations_refuted.
Print Assumptions C45_rotations_partial.
Print Assumptions C46_rotations.
Print Assumptions C46_wide_exact.
Print Assumptions C46_middle_wide_exact.
Print Assumptions C46_slice_exact.
Print Assumptions C46_wide_partial.
Print Assumptions C46_wide_refuted.
Print Assumptions C46_face_exact.
Print Assumptions C46_face_partial.
Print Assumptions C46_face_default_partial.
Print Assumptions C46_face_refuted.
Print Assumptions C46_face_big_refuted.
Print Assumptions C46_deep_wide_partial.
Print Assumptions C46_middle_wide_refuted.
Print Assumptions C46_slice_double_partial.
Print Assumptions C46_slice_refuted.
Print Assumptions C46_refuted.
Print Assumptions C47_panic_exactly.
Print Assumptions C47_refuted.
Print Assumptions C47_partial.
Print Assumptions C48_reversed.
Print Assumptions C48_reversed_twice.

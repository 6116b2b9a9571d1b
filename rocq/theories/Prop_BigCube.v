(** C15-C18: the NxNxN cubes as physical objects. *)

From Coq Require Import List Bool Arith NArith ZArith Lia Permutation.
From Verif Require Import Model_Base Model_Space Model_Moves Model_Pieces Model_PieceSet Model_Cubes
  Model_Visual Spec_Moves Spec_Geometry Spec_Stickers Spec_Sets Spec_BigCube
  Proof_Moves Proof_Sets Proof_Geometry Proof_Stickers Proof_BigCube.
Import ListNotations.
Open Scope Z_scope.

(* ------------------------------------------------------------------ *)
(** * C15: wide moves turn exactly the right layers *)

(** The deepest wide move of each cube type: [N/2 - 1]. *)
Definition widest (n : CubeSize) : N := (cube_size_N n / 2 - 1)%N.

Lemma widest_max n : widest n = max_depth n.
Proof. destruct n; reflexivity. Qed.

(** The full claim would be: for every [n], state and wide move of depth at most
    [widest n], the stickers afterwards are the physically turned stickers. *)
Definition C15_claim (n : CubeSize) : Prop :=
  forall (c : CubeOf n) (w : WideAxisMove), (w_depth w <= widest n)%N ->
    cube_stickers n (cube_apply_wide n c w) = map (turn_wide_sticker n w) (cube_stickers n c).

(** It holds for the cubes without centre edges ... *)
Theorem C15_wide_moves_partial : forall n, n = Size2 \/ n = Size3 \/ n = Size4 \/ n = Size6 -> C15_claim n.
Proof.
  intros n Hn c w Hw. rewrite widest_max in Hw. pose proof (cube_turn_no_ce n c w Hw) as E.
  destruct Hn as [->|[->|[->| ->]]]; exact E.
Qed.

(** ... it holds for all pieces other than centre edges on every cube ... *)
Theorem C15_other_pieces_partial : forall n (c : CubeOf n) (w : WideAxisMove), (w_depth w <= widest n)%N ->
  let others := filter (fun s => match s with SetCenterEdge _ _ => false | _ => true end) in
  flat_map (set_stickers (sizeZ n)) (others (cube_sets n (cube_apply_wide n c w)))
  = map (turn_wide_sticker n w) (flat_map (set_stickers (sizeZ n)) (others (cube_sets n c))).
Proof.
  intros n c w Hw others. rewrite widest_max in Hw. pose proof (cube_turn_no_ce n c w Hw) as E.
  assert (F : forall l, others l = filter (fun s => negb (is_center_edges s)) l).
  { intros l. subst others. induction l as [|[] l IH]; cbn; congruence. }
  rewrite !F. exact E.
Qed.

(** ... and for the widest move of every cube. *)
Theorem C15_widest_move_partial : forall n (c : CubeOf n) (w : WideAxisMove), w_depth w = widest n ->
  cube_stickers n (cube_apply_wide n c w) = map (turn_wide_sticker n w) (cube_stickers n c).
Proof. intros n c w Hw. rewrite widest_max in Hw. exact (cube_turn_max n c w Hw). Qed.

(** It fails for the centre edges of the 5x5x5 and the 7x7x7: a turn of the outermost
    layer of R also moves the centre edges of the next layer. *)
Theorem C15_center_edges_refuted : ~ C15_claim Size5 /\ ~ C15_claim Size7.
Proof.
  split; intros H; specialize (H (cube_solved _) (mkWide 0 (mkMove fR Single)) ltac:(vm_compute; discriminate));
    apply (f_equal (map st_cubie)) in H; vm_compute in H; discriminate H.
Qed.

(** What happens to them instead: every wide move turns the centre edges like the widest
    move of the cube. Together with [C15_other_pieces_partial] this is the effect of every
    wide move on every cube. *)
Theorem C15_center_edges_exact : forall n (c : CubeOf n) (w : WideAxisMove),
  let center_edges := filter (fun s => match s with SetCenterEdge _ _ => true | _ => false end) in
  flat_map (set_stickers (sizeZ n)) (center_edges (cube_sets n (cube_apply_wide n c w)))
  = map (turn_wide_sticker n (mkWide (widest n) (w_move w)))
      (flat_map (set_stickers (sizeZ n)) (center_edges (cube_sets n c))).
Proof.
  intros n c [d m] center_edges. rewrite widest_max.
  assert (T : forall s, turn_wide_sticker n (mkWide (max_depth n) m) s = turn_k (sizeZ n) (mkWide (max_depth n) m) s)
    by (intros; apply turn_k_size).
  rewrite (map_ext _ _ T). clear T.
  destruct n; try reflexivity;
    cbn [max_depth cube_sets cube_apply_wide cube5_apply_wide cube7_apply_wide center_edges filter flat_map
         c5_corners c5_edges c5_center_corners c5_center_edges c7_corners c7_edges c7_wings_1 c7_wings_2
         c7_center_corners_1 c7_center_corners_2 c7_center_wings c7_center_edges_1 c7_center_edges_2 w_move];
    unfold sizeZ; cbn [cube_size_N]; rewrite ?app_nil_r, ?map_app.
  - refine (ces_turn _ (mkWide 1 m) _ 1 1 _ _ _ _); cbn; lia.
  - apply f_equal2.
    + refine (ces_turn _ (mkWide 2 m) _ 1 2 _ _ _ _); cbn; lia.
    + refine (ces_turn _ (mkWide 2 m) _ 2 2 _ _ _ _); cbn; lia.
Qed.

(** The moves for which the claim holds in every state are exactly those of the cubes
    without centre edges and the widest ones. *)
Theorem C15_right_exactly : forall n (w : WideAxisMove), (w_depth w <= widest n)%N ->
  ((forall c : CubeOf n, cube_stickers n (cube_apply_wide n c w) = map (turn_wide_sticker n w) (cube_stickers n c))
   <-> (n <> Size5 /\ n <> Size7) \/ w_depth w = widest n).
Proof.
  intros n w Hw. split.
  - intros H. specialize (H (cube_solved n)). apply (f_equal (map st_cubie)) in H.
    destruct n; try (left; split; discriminate); right; destruct w as [d [[a dir] am]]; cbn in Hw |- *;
      change (widest Size5) with 1%N in *; change (widest Size7) with 2%N in *.
    + assert (D : d = 0%N \/ d = 1%N) by lia. destruct D as [-> | ->]; [exfalso|reflexivity].
      destruct a, dir, am; vm_compute in H; discriminate H.
    + assert (D : d = 0%N \/ d = 1%N \/ d = 2%N) by lia. destruct D as [-> | [-> | ->]]; [exfalso|exfalso|reflexivity];
        destruct a, dir, am; vm_compute in H; discriminate H.
  - intros [[H5 H7]|E] c; [|apply C15_widest_move_partial, E].
    apply C15_wide_moves_partial; [|exact Hw]. destruct n; tauto.
Qed.

(** Piece by piece, for cubes of any size [k]: the membership test and the rotation of
    each kind of piece agree with geometry (centre edges: the depth test is the wrong
    one, but the rotation is right). *)
Theorem C15_wings_any_size : forall (k : Z) (nd : N) (w : Wing) (m : WideAxisMove) mx,
  2 * Z.of_N (w_depth m) < k - 1 -> Z.of_N (w_depth m) + Z.of_N nd < k - 1 ->
  wing_loc k (Z.of_N nd) (if wing_in_wide w nd 0 mx m then wing_rotate w (rot_of_move (w_move m)) else w)
  = (let p := wing_loc k (Z.of_N nd) w in
     if k - 1 - 2 * Z.of_N (w_depth m) <=? dot p (normal (mv_face (w_move m)))
     then move_space (w_move m) p else p).
Proof.
  intros k nd w m mx H1 H2. cbn zeta. rewrite (wing_layer k nd 0 mx w m H1 H2). unfold layer.
  destruct (_ <=? _); [|reflexivity]. rewrite wing_loc_rotate, rot_of_move_space. reflexivity.
Qed.

Theorem C15_center_wings_any_size : forall (k : Z) (nd td : N) (c : CenterWing) (m : WideAxisMove) mx,
  2 * Z.of_N (w_depth m) < k - 1 -> Z.of_N (w_depth m) + Z.of_N nd < k - 1 ->
  Z.of_N (w_depth m) + Z.of_N td < k - 1 ->
  cw_loc k (Z.of_N nd) (Z.of_N td) (if cw_in_wide c nd td mx m then cw_rotate c (rot_of_move (w_move m)) else c)
  = (let p := cw_loc k (Z.of_N nd) (Z.of_N td) c in
     if k - 1 - 2 * Z.of_N (w_depth m) <=? dot p (normal (mv_face (w_move m)))
     then move_space (w_move m) p else p).
Proof.
  intros k nd td c m mx H1 H2 H3. cbn zeta. rewrite (cw_layer k nd td mx c m H1 H2 H3). unfold layer.
  destruct (_ <=? _); [|reflexivity]. rewrite cw_loc_rotate, rot_of_move_space. reflexivity.
Qed.

Theorem C15_center_corners_any_size : forall (k : Z) (nd : N) (c : CenterCorner) (m : WideAxisMove) mx,
  2 * Z.of_N (w_depth m) < k - 1 -> Z.of_N (w_depth m) + Z.of_N nd < k - 1 -> 2 * Z.of_N nd <= k - 1 ->
  cc_loc k (Z.of_N nd) (if cc_in_wide c nd 0 mx m then cc_rotate c (rot_of_move (w_move m)) else c)
  = (let p := cc_loc k (Z.of_N nd) c in
     if k - 1 - 2 * Z.of_N (w_depth m) <=? dot p (normal (mv_face (w_move m)))
     then move_space (w_move m) p else p).
Proof.
  intros k nd c m mx H1 H2 H3. cbn zeta. rewrite (cc_layer k nd 0 mx c m H1 H2 H3). unfold layer.
  destruct (_ <=? _); [|reflexivity]. rewrite cc_loc_rotate, rot_of_move_space. reflexivity.
Qed.

(** Non-vacuous: on the 4x4x4, depth 1 moves the centres next to R, depth 0 does not. *)
Example C15_example :
  (w_depth (mkWide 1 (mkMove fR Single)) <= widest Size4)%N /\
  turn_wide_sticker Size4 (mkWide 1 (mkMove fR Single)) (mkSticker (mkV3 1 3 1) (normal fU) fU)
    = mkSticker (mkV3 1 1 (-3)) (normal fB) fU /\
  turn_wide_sticker Size4 (mkWide 0 (mkMove fR Single)) (mkSticker (mkV3 1 3 1) (normal fU) fU)
    = mkSticker (mkV3 1 3 1) (normal fU) fU.
Proof. split; [vm_compute; discriminate|]. split; reflexivity. Qed.

(* ------------------------------------------------------------------ *)
(** * C16: a plain face move on a big cube *)

(** The claim: an [AxisMove] is the wide move of depth 0. *)
Definition C16_claim (n : CubeSize) : Prop :=
  forall (c : CubeOf n) (m : AxisMove), cube_apply n c m = cube_apply_wide n c (mkWide 0 m).

(** False for all big cubes: an [AxisMove] turns the widest slab. *)
Theorem C16_axis_move_refuted : ~ C16_claim Size4 /\ ~ C16_claim Size5 /\ ~ C16_claim Size6 /\ ~ C16_claim Size7.
Proof.
  split; [|split; [|split]]; intros H; specialize (H (cube_solved _) (mkMove fR Single)).
  - apply (f_equal c4_centers) in H. vm_compute in H. discriminate H.
  - apply (f_equal c5_center_corners) in H. vm_compute in H. discriminate H.
  - apply (f_equal c6_center_corners_1) in H. vm_compute in H. discriminate H.
  - apply (f_equal c7_center_corners_1) in H. vm_compute in H. discriminate H.
Qed.

(** What it does instead, on every cube and state ... *)
Theorem C16_axis_move_partial : forall n (c : CubeOf n) (m : AxisMove),
  cube_apply n c m = cube_apply_wide n c (mkWide (widest n) m).
Proof.
  intros n c m. destruct n; try reflexivity; cbn [cube_apply cube_apply_wide];
    unfold cube4_apply, cube5_apply, cube6_apply, cube7_apply; rewrite apply_widened_eq; reflexivity.
Qed.

(** ... so the claim holds for the 2x2x2 and the 3x3x3. *)
Theorem C16_small_cubes_partial : C16_claim Size2 /\ C16_claim Size3.
Proof. split; intros c m; reflexivity. Qed.

(** Physically: a face move turns the [N/2] outermost layers. *)
Theorem C16_axis_move_physical : forall n (c : CubeOf n) (m : AxisMove),
  cube_stickers n (cube_apply n c m) = map (turn_wide_sticker n (mkWide (widest n) m)) (cube_stickers n c).
Proof. intros n c m. rewrite C16_axis_move_partial. apply C15_widest_move_partial. reflexivity. Qed.

Example C16_example :
  cube_apply Size4 cube4_solved (mkMove fR Single) <> cube4_solved /\
  cube_apply Size4 cube4_solved (mkMove fR Single) <> cube_apply_wide Size4 cube4_solved (mkWide 0 (mkMove fR Single)).
Proof.
  split; intros H; apply (f_equal c4_centers) in H; vm_compute in H; discriminate H.
Qed.

(* ------------------------------------------------------------------ *)
(** * C17: every movable cubie is represented exactly once *)

Definition C17_claim (n : CubeSize) : Prop :=
  forall c : CubeOf n, cube_well_formed n c ->
    NoDup (cube_locations n c) /\ forall p, In p (cube_locations n c) <-> movable_cubie n p.

Theorem C17_cubies_partial : forall n, n <> Size5 -> C17_claim n.
Proof.
  intros n Hn c W. pose proof (locations_perm n _ _ (cube_well_formed_solved n) W) as P.
  destruct (complete_locations_spec n _ (solved_complete n Hn)) as [N H]. split.
  - apply (Permutation_NoDup P N).
  - intros p. rewrite <- H. split; apply Permutation_in; [apply Permutation_sym|]; exact P.
Qed.

(** The 5x5x5 has no wings: the 24 cubies next to its corners are missing, and only
    they. *)
Theorem C17_cube5_refuted : ~ C17_claim Size5.
Proof.
  intros H. destruct (H _ (cube_well_formed_solved Size5)) as [_ H'].
  destruct (H' (mkV3 4 4 2)) as [_ I].
  assert (M : movable_cubie Size5 (mkV3 4 4 2)).
  { apply movableb_spec. cbn. repeat split; auto; vm_compute; auto 10. }
  apply I, (existsb_eqb _ v3_eqb_eq) in M. vm_compute in M. discriminate M.
Qed.

Theorem C17_cube5_partial : forall c : Cube5, cube_well_formed Size5 c ->
  NoDup (cube_locations Size5 c) /\
  forall p, In p (cube_locations Size5 c) <->
    movable_cubie Size5 p /\ ~ (exists q : Wing, p = wing_loc 5 1 q).
Proof.
  intros c W. pose proof (locations_perm Size5 _ _ (cube_well_formed_solved Size5) W) as P.
  set (l := cube_locations Size5 cube5_solved ++ map (wing_loc 5 1) wing_solved).
  assert (C : complete_locations Size5 l = true) by (vm_compute; reflexivity).
  destruct (complete_locations_spec Size5 _ C) as [N H]. subst l.
  assert (N1 : NoDup (cube_locations Size5 cube5_solved)).
  { clear - N. induction (cube_locations Size5 cube5_solved) as [|a l IH]; [constructor|].
    cbn in N. inversion N; subst. constructor; [rewrite in_app_iff in H1; tauto|auto]. }
  split; [apply (Permutation_NoDup P N1)|].
  intros p. transitivity (In p (cube_locations Size5 cube5_solved)).
  { split; apply Permutation_in; [apply Permutation_sym|]; exact P. }
  rewrite <- H, in_app_iff. split.
  - intros I. split; [auto|]. intros (q & ->).
    assert (J : In (wing_loc 5 1 q) (map (wing_loc 5 1) wing_solved)) by (apply in_map, wing_in_solved).
    clear - N I J. induction (cube_locations Size5 cube5_solved) as [|a l IH]; [contradiction|].
    cbn in N. inversion N; subst. destruct I as [->|I]; [apply H1, in_app_iff; auto|auto].
  - intros [[I|I] Nw]; [exact I|]. exfalso. apply Nw. apply in_map_iff in I as (q & <- & _). eauto.
Qed.

Example C17_example :
  cube_well_formed Size7 cube7_solved /\ length (cube_locations Size7 cube7_solved) = 212%nat.
Proof. split; [apply (cube_well_formed_solved Size7)|vm_compute; reflexivity]. Qed.

(* ------------------------------------------------------------------ *)
(** * C18: what [is_solved] means on big cubes *)

Definition run_wide (n : CubeSize) (al : list WideAxisMove) : CubeOf n :=
  fold_left (cube_apply_wide n) al (cube_solved n).

Definition C18_claim (n : CubeSize) : Prop :=
  forall al, Forall (fun w => (w_depth w <= widest n)%N) al ->
    (cube_is_solved n (run_wide n al) = true <-> shows_solved n (run_wide n al)).

(** A three-cycle of centres between the faces L and D (both "negative"):
    R2w (Rw R') (Uw U') (R Rw') U (Rw R') (U Uw') (R Rw') U' R2w. *)
Definition wd (d : N) (f : Face) (a : Amount) := mkWide d (mkMove f a).
Definition centre_cycle : list WideAxisMove :=
  [wd 1 fR Double; wd 1 fR Single; wd 0 fR Inverse; wd 1 fU Single; wd 0 fU Inverse; wd 0 fR Single;
   wd 1 fR Inverse; wd 0 fU Single; wd 1 fR Single; wd 0 fR Inverse; wd 0 fU Single; wd 1 fU Inverse;
   wd 0 fR Single; wd 1 fR Inverse; wd 0 fU Inverse; wd 1 fR Double].
(** A three-cycle of centres inside the face L. *)
Definition same_face_cycle : list WideAxisMove :=
  [wd 1 fF Single; wd 1 fR Single; wd 0 fR Inverse; wd 1 fU Single; wd 0 fU Inverse; wd 0 fR Single;
   wd 1 fR Inverse; wd 0 fU Inverse; wd 1 fR Single; wd 0 fR Inverse; wd 0 fU Single; wd 1 fU Inverse;
   wd 0 fR Single; wd 1 fR Inverse; wd 0 fU Single; wd 1 fF Inverse].

Definition shows_solvedb (n : CubeSize) (c : CubeOf n) : bool :=
  forallb (fun s => v3_eqb (st_normal s) (normal (st_color s))) (cube_stickers n c).
Lemma shows_solvedb_spec n c : shows_solvedb n c = true <-> shows_solved n c.
Proof.
  unfold shows_solvedb, shows_solved. rewrite forallb_forall. split; intros H s Hs.
  - apply v3_eqb_eq, H, Hs.
  - apply v3_eqb_eq, H, Hs.
Qed.

(** On the 4x4x4, 6x6x6 and 7x7x7 a visibly unsolved cube is reported as solved. *)
Theorem C18_false_positive_refuted : forall n, n = Size4 \/ n = Size6 \/ n = Size7 ->
  Forall (fun w => (w_depth w <= widest n)%N) centre_cycle /\
  cube_is_solved n (run_wide n centre_cycle) = true /\ ~ shows_solved n (run_wide n centre_cycle).
Proof.
  intros n H. rewrite <- shows_solvedb_spec, not_true_iff_false.
  destruct H as [->|[->| ->]]; (split; [repeat constructor; vm_compute; discriminate|split; vm_compute; reflexivity]).
Qed.

(** On the 5x5x5 a visibly solved cube is reported as unsolved. *)
Theorem C18_false_negative_refuted :
  Forall (fun w => (w_depth w <= widest Size5)%N) same_face_cycle /\
  shows_solved Size5 (run_wide Size5 same_face_cycle) /\
  cube_is_solved Size5 (run_wide Size5 same_face_cycle) = false.
Proof.
  split; [repeat constructor; vm_compute; discriminate|].
  split; [apply shows_solvedb_spec; vm_compute; reflexivity|vm_compute; reflexivity].
Qed.

Theorem C18_claim_refuted : ~ C18_claim Size4 /\ ~ C18_claim Size5 /\ ~ C18_claim Size6 /\ ~ C18_claim Size7.
Proof.
  assert (A : forall n, n = Size4 \/ n = Size6 \/ n = Size7 -> ~ C18_claim n).
  { intros n Hn H. destruct (C18_false_positive_refuted n Hn) as (F & T & S). apply S, (H _ F), T. }
  split; [apply A; auto|]. split; [|split; apply A; auto].
  intros H. destruct C18_false_negative_refuted as (F & S & E). apply (H _ F) in S.
  change (cube_is_solved Size5 (run_wide Size5 same_face_cycle) = true) in S. congruence.
Qed.

(** What holds for every state: a visibly solved cube is reported solved, except on the
    5x5x5. *)
Theorem C18_visible_implies_solved_partial : forall n (c : CubeOf n),
  n <> Size5 -> cube_well_formed n c -> shows_solved n c -> cube_is_solved n c = true.
Proof.
  intros n c Hn W H.
  assert (A : forall s, In s (cube_sets n c) -> forall x, In x (set_stickers (sizeZ n) s) -> on_own_face x).
  { intros s Hs x Hx. apply H. apply in_flat_map. eauto. }
  destruct n; try contradiction.
  - cbn in W. to_valid. cbn [cube_is_solved]. unfold cube2_is_solved. apply cube2_eqb_eq.
    assert (E : set_is_solved corner_desc (c2_corners c) = true).
    { apply (corners_own 2). apply (A (SetCorner (c2_corners c))). left; reflexivity. }
    apply (corner_set_is_solved _ (proj1 W)) in E. destruct c; cbn in *. subst. reflexivity.
  - cbn in W. to_valid. destruct W as [We Wc]. cbn [cube_is_solved]. unfold cube3_is_solved. apply cube3_eqb_eq.
    assert (E : set_is_solved corner_desc (c3_corners c) = true).
    { apply (corners_own 3). apply (A (SetCorner (c3_corners c))). left; reflexivity. }
    assert (E' : set_is_solved edge_desc (c3_edges c) = true).
    { apply (edges_own 3). apply (A (SetEdge (c3_edges c))). right; left; reflexivity. }
    apply (corner_set_is_solved _ (proj1 Wc)) in E. apply (edge_set_is_solved _ (proj1 We)) in E'.
    destruct c; cbn in *. subst. reflexivity.
  - apply big_is_solved; [auto|]. intros s Hs x Hx. specialize (A s Hs x Hx).
    destruct s; auto using own_same_sign.
  - apply big_is_solved; [auto|]. intros s Hs x Hx. specialize (A s Hs x Hx).
    destruct s; auto using own_same_sign.
  - apply big_is_solved; [auto|]. intros s Hs x Hx. specialize (A s Hs x Hx).
    destruct s; auto using own_same_sign.
Qed.

(** On the 2x2x2, 3x3x3 and 5x5x5, a cube reported solved is visibly solved. *)
Theorem C18_solved_implies_visible_partial : forall n (c : CubeOf n),
  n = Size2 \/ n = Size3 \/ n = Size5 -> cube_is_solved n c = true -> shows_solved n c.
Proof.
  intros n c Hn H. destruct Hn as [->|[->| ->]]; cbn [cube_is_solved] in H.
  - apply cube2_eqb_eq in H. subst c. apply shows_solvedb_spec. vm_compute. reflexivity.
  - apply cube3_eqb_eq in H. subst c. apply shows_solvedb_spec. vm_compute. reflexivity.
  - apply cube5_eqb_eq in H. subst c. apply shows_solvedb_spec. vm_compute. reflexivity.
Qed.

(** On the 4x4x4, 6x6x6 and 7x7x7 [is_solved] means exactly: every sticker is on its own
    face, except that a centre-corner sticker only has to be on a face of the right sign
    (R, U, F against L, D, B). *)
Theorem C18_is_solved_exact_partial : forall n (c : CubeOf n), n = Size4 \/ n = Size6 \/ n = Size7 ->
  (cube_is_solved n c = true <->
   forall set s, In set (cube_sets n c) -> In s (set_stickers (sizeZ n) set) ->
     match set with
     | SetCenterCorner _ _ =>
         exists f, st_normal s = normal f /\ face_dir f = face_dir (st_color s)
     | _ => st_normal s = normal (st_color s)
     end).
Proof.
  intros n c Hn. rewrite (big_is_solved n c Hn).
  assert (S : forall k nd l s, In s (set_stickers k (SetCenterCorner nd l)) ->
            (on_same_sign s <-> exists f, st_normal s = normal f /\ face_dir f = face_dir (st_color s))).
  { intros k nd l s Hs. cbn in Hs. apply in_map_iff in Hs as ([o p] & <- & _). unfold on_same_sign. cbn [st_normal st_color].
    split.
    - intros E. exists (cc_face p). split; [reflexivity|]. cbn [fst snd] in *. revert E.
      destruct (cc_face p) as [[] []], (cc_face o) as [a' []]; cbn; intros E; first [reflexivity|discriminate E].
    - intros (f & E & D). apply normal_inj in E. cbn [fst snd] in *. rewrite <- D, E. destruct f as [[] []]; reflexivity. }
  split.
  - intros H set s Hset Hs. specialize (H set Hset s Hs). destruct set; try exact H. eapply S; eauto.
  - intros H set Hset s Hs. specialize (H set s Hset Hs). destruct set; try exact H. eapply S; eauto.
Qed.

Lemma map_inj_lists {A B} (f : A -> B) : (forall x y, f x = f y -> x = y) ->
  forall l l', map f l = map f l' -> l = l'.
Proof.
  intros I l. induction l as [|x l IH]; intros [|y l'] E; try discriminate; [reflexivity|].
  injection E as E1 E2. f_equal; auto.
Qed.

(** On the 5x5x5 [is_solved] means exactly: it looks solved, and in addition every single
    piece, so also each of the four alike centre pieces of a kind on a face, is in its own
    place. *)
Theorem C18_cube5_exact_partial : forall c : Cube5, cube_well_formed Size5 c ->
  (cube_is_solved Size5 c = true <->
   shows_solved Size5 c /\ cube_locations Size5 c = cube_locations Size5 (cube_solved Size5)).
Proof.
  intros c W. split.
  - intros H. split; [apply C18_solved_implies_visible_partial; auto|].
    cbn [cube_is_solved] in H. apply cube5_eqb_eq in H. subst c. reflexivity.
  - intros [H L].
    assert (A : forall s, In s (cube_sets Size5 c) -> forall x, In x (set_stickers 5 s) -> on_own_face x).
    { intros s Hs x Hx. apply H. apply in_flat_map. eauto. }
    cbn in W. to_valid. destruct W as (W1 & W2 & W3 & W4).
    cbn [cube_is_solved]. unfold cube5_is_solved. apply cube5_eqb_eq.
    assert (E : set_is_solved corner_desc (c5_corners c) = true).
    { apply (corners_own 5). apply (A (SetCorner (c5_corners c))). left; reflexivity. }
    assert (E' : set_is_solved edge_desc (c5_edges c) = true).
    { apply (edges_own 5). apply (A (SetEdge (c5_edges c))). right; left; reflexivity. }
    apply (corner_set_is_solved _ (proj1 W1)) in E. apply (edge_set_is_solved _ (proj1 W2)) in E'.
    destruct c as [co ed cc ce]. cbn [c5_corners c5_edges c5_center_corners c5_center_edges] in *. subst co ed.
    unfold cube_locations in L. cbn [cube_sets flat_map cube_solved cube5_solved set_locations
      c5_corners c5_edges c5_center_corners c5_center_edges] in L. rewrite ?app_nil_r in L.
    apply app_inv_head, app_inv_head in L.
    apply proj1 in W3, W4.
    assert (LC : length (map (cc_loc (sizeZ Size5) 1) cc) = length (map (cc_loc (sizeZ Size5) 1) cc_solved))
      by (rewrite !map_length; exact W3).
    assert (M : map (cc_loc (sizeZ Size5) 1) cc = map (cc_loc (sizeZ Size5) 1) cc_solved /\
                map (ce_loc (sizeZ Size5) 1) ce = map (ce_loc (sizeZ Size5) 1) ce_solved).
    { revert LC L. generalize (map (cc_loc (sizeZ Size5) 1) cc), (map (cc_loc (sizeZ Size5) 1) cc_solved). clear.
      intros a. induction a as [|x a IH]; intros [|y b] LC L; cbn in LC; try discriminate; cbn in L; [auto|].
      injection L as -> L. destruct (IH b ltac:(lia) L) as [-> ->]. auto. }
    destruct M as [Mc Me]. unfold cube5_solved. f_equal.
    + revert Mc. apply map_inj_lists. intros [[[] [] []] []] [[[] [] []] []] F; vm_compute in F; first [reflexivity|discriminate F].
    + revert Me. apply map_inj_lists. intros [[[] []] [] []] [[[] []] [] []] F; vm_compute in F; first [reflexivity|discriminate F].
Qed.

Example C18_example :
  shows_solved Size6 cube6_solved /\ cube_is_solved Size6 (run_wide Size6 [wd 1 fR Single]) = false.
Proof. split; [apply shows_solvedb_spec|]; vm_compute; reflexivity. Qed.

Print Assumptions C15_wide_moves_partial.
Print Assumptions C15_other_pieces_partial.
Print Assumptions C15_widest_move_partial.
Print Assumptions C15_center_edges_refuted.
Print Assumptions C15_center_edges_exact.
Print Assumptions C15_right_exactly.
Print Assumptions C15_wings_any_size.
Print Assumptions C15_center_wings_any_size.
Print Assumptions C15_center_corners_any_size.
Print Assumptions C16_axis_move_refuted.
Print Assumptions C16_axis_move_partial.
Print Assumptions C16_small_cubes_partial.
Print Assumptions C16_axis_move_physical.
Print Assumptions C17_cubies_partial.
Print Assumptions C17_cube5_refuted.
Print Assumptions C17_cube5_partial.
Print Assumptions C18_false_positive_refuted.
Print Assumptions C18_false_negative_refuted.
Print Assumptions C18_claim_refuted.
Print Assumptions C18_visible_implies_solved_partial.
Print Assumptions C18_solved_implies_visible_partial.
Print Assumptions C18_is_solved_exact_partial.
Print Assumptions C18_cube5_exact_partial.

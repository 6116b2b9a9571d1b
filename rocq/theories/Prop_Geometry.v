(** C11-C14: the 3x3 as a physical object, its drawing, and rotations. *)

From Coq Require Import List Bool Arith ZArith Lia.
From Verif Require Import Model_Base Model_Space Model_Moves Model_Pieces Model_PieceSet Model_Cubes
  Model_Visual Spec_Moves Spec_Geometry Spec_Stickers Spec_Sets Spec_Unfolded
  Proof_Moves Proof_Sets Proof_Geometry Proof_Stickers.
Import ListNotations.
Open Scope nat_scope.

(* ------------------------------------------------------------------ *)
(** * C11: a face turn moves the stickers of a physical cube *)

(** Stickers of cubies in the layer of the face are carried along by the rotation of
    space, all others stay. *)
Theorem C11_turn_moves_layer : forall (c : Cube3) (m : AxisMove) (p n : V3),
  dot p (normal (mv_face m)) = 1%Z ->
  color_at (cube3_apply c m) (move_space m p) (move_space m n) = color_at c p n.
Proof. intros c m p n H. pose proof (color_at_turn c m p n) as E. rewrite H in E. exact E. Qed.

Theorem C11_turn_keeps_rest : forall (c : Cube3) (m : AxisMove) (p n : V3),
  dot p (normal (mv_face m)) <> 1%Z -> color_at (cube3_apply c m) p n = color_at c p n.
Proof.
  intros c m p n H. pose proof (color_at_turn c m p n) as E.
  apply Z.eqb_neq in H. rewrite H in E. exact E.
Qed.

(** For whole algs: a sticker is carried along by each turn whose layer it is in. *)
Definition carry (pn : V3 * V3) (m : AxisMove) : V3 * V3 :=
  if Z.eqb (dot (fst pn) (normal (mv_face m))) 1
  then (move_space m (fst pn), move_space m (snd pn)) else pn.

Theorem C11_alg_moves_stickers : forall (al : list AxisMove) (c : Cube3) (p n : V3),
  let pn := fold_left carry al (p, n) in
  color_at (fold_left cube3_apply al c) (fst pn) (snd pn) = color_at c p n.
Proof.
  induction al as [|m al IH]; intros c p n; [reflexivity|]. cbn zeta in *. cbn [fold_left].
  destruct (carry (p, n) m) as [p' n'] eqn:E. rewrite IH. unfold carry in E. cbn [fst snd] in E.
  rewrite <- (color_at_turn c m p n). destruct (_ =? _)%Z; injection E as <- <-; reflexivity.
Qed.

(** The starting point: on the solved cube every face shows its own colour. *)
Theorem C11_solved_colours : forall p f, facelet p f -> color_at cube3_solved p (normal f) = Some f.
Proof. exact solved_looks_solved. Qed.

(** Non-vacuous: after R the front sticker of the UFR corner shows the colour of D. *)
Example C11_example :
  dot (mkV3 1 (-1) 1) (normal fR) = 1%Z /\
  move_space (mkMove fR Single) (mkV3 1 (-1) 1) = mkV3 1 1 1 /\
  color_at (cube3_apply cube3_solved (mkMove fR Single)) (mkV3 1 1 1) (normal fF) = Some fD.
Proof. repeat split; vm_compute; reflexivity. Qed.

(* ------------------------------------------------------------------ *)
(** * C12: the unfolded drawing *)

(** It never panics and every cell shows the sticker of the facelet it stands for. *)
Theorem C12_drawing_faithful : forall c : Cube3, cube_well_formed Size3 c ->
  exists u, unfold_cube3 c = Done u /\
    forall f x y, x < 3 -> y < 3 ->
      facelet (cell_cubie f x y) f /\
      exists col, unfolded_at u f x y = Some col /\
                  color_at c (cell_cubie f x y) (normal f) = Some col.
Proof.
  intros c W. apply cube3_valid_spec in W. destruct (unfold_faithful c W) as (u & E & H).
  exists u. split; [exact E|]. intros f x y Hx Hy. split.
  - destruct x as [|[|[|x]]]; [| | |lia]; (destruct y as [|[|[|y]]]; [| | |lia]);
      destruct f as [[] []]; vm_compute; repeat split; first [reflexivity|intros E'; discriminate E'].
  - destruct (H f x y Hx Hy) as [E1 (col & E2)]. exists col. split; [exact E2|congruence].
Qed.

(** The cells are laid out as a net: all facelets occur, and squares that touch on
    paper touch on the cube. *)
Theorem C12_net_complete : forall p f, facelet p f ->
  exists x y, x < 3 /\ y < 3 /\ cell_cubie f x y = p.
Proof.
  intros [a b c] f (Ha & Hb & Hc & D). cbn in Ha, Hb, Hc.
  exists (Z.to_nat (dot (mkV3 a b c) (normal (net_down f)) + 1)),
         (Z.to_nat (dot (mkV3 a b c) (normal (net_right f)) + 1)).
  apply bounded3 in Ha. apply bounded3 in Hb. apply bounded3 in Hc.
  destruct Ha as [ -> |[ -> | -> ]], Hb as [ -> |[ -> | -> ]], Hc as [ -> |[ -> | -> ]], f as [[] []];
    first [discriminate D|vm_compute; repeat split; lia].
Qed.

Theorem C12_net_adjacent : forall i, i < 3 ->
  cell_cubie fU 2 i = cell_cubie fF 0 i /\ cell_cubie fF 2 i = cell_cubie fD 0 i /\
  cell_cubie fD 2 i = cell_cubie fB 0 i /\ cell_cubie fL i 2 = cell_cubie fF i 0 /\
  cell_cubie fF i 2 = cell_cubie fR i 0.
Proof. intros [|[|[|i]]] H; [| | |lia]; vm_compute; auto. Qed.

(** Every colour is drawn exactly nine times. *)
Theorem C12_nine_of_each : forall (c : Cube3) u, cube_well_formed Size3 c -> unfold_cube3 c = Done u ->
  forall col : Color,
    length (filter (fun '(f, x, y) => match unfolded_at u f x y with
                                      | Some col' => face_eqb col' col | None => false end) all_cells) = 9.
Proof.
  intros c u W E col. apply cube3_valid_spec in W. rewrite <- (color_count c col W), filter_length_map.
  destruct (unfold_faithful c W) as (u' & E' & H). rewrite E in E'. injection E' as <-.
  apply filter_length_ext. intros [[f x] y] Hin. cbn [cell_key fst snd].
  assert (x < 3 /\ y < 3) as [Hx Hy].
  { unfold all_cells in Hin. apply in_flat_map in Hin as (g & _ & Hin).
    apply in_flat_map in Hin as (x' & Hx & Hin). apply in_map_iff in Hin as (y' & [= -> -> ->] & Hy).
    cbn in Hx, Hy. lia. }
  rewrite (proj1 (H f x y Hx Hy)). reflexivity.
Qed.

(** Different cubes give different drawings. *)
Theorem C12_drawing_injective : forall c1 c2 : Cube3,
  cube_well_formed Size3 c1 -> cube_well_formed Size3 c2 ->
  unfold_cube3 c1 = unfold_cube3 c2 -> c1 = c2.
Proof.
  intros c1 c2 W1 W2 E. apply cube3_valid_spec in W1. apply cube3_valid_spec in W2.
  apply same_colors_same_cube; auto. intros p f Hf.
  destruct (C12_net_complete p f Hf) as (x & y & Hx & Hy & <-).
  destruct (unfold_faithful c1 W1) as (u1 & E1 & H1). destruct (unfold_faithful c2 W2) as (u2 & E2 & H2).
  rewrite E, E2 in E1. injection E1 as ->.
  destruct (H1 f x y Hx Hy) as [A _]. destruct (H2 f x y Hx Hy) as [B _]. congruence.
Qed.

Example C12_example :
  let c := fold_left cube3_apply [mkMove fR Single; mkMove fU Inverse] cube3_solved in
  cube_well_formed Size3 c /\
  exists u, unfold_cube3 c = Done u /\ unfolded_at u fF 0 2 <> unfolded_at u fF 1 1 /\
            unfold_cube3 cube3_solved <> Done u.
Proof.
  split; [repeat apply (cube_well_formed_move Size3); apply (cube_well_formed_solved Size3)|].
  eexists. split; [vm_compute; reflexivity|]. split; [vm_compute; discriminate|].
  vm_compute. discriminate.
Qed.

(* ------------------------------------------------------------------ *)
(** * C13: what [Cube3::is_solved] means *)

Theorem C13_is_solved_looks_solved : forall c : Cube3, cube_well_formed Size3 c ->
  (cube_is_solved Size3 c = true <-> looks_solved c).
Proof.
  intros c W. apply cube3_valid_spec in W. cbn. unfold cube3_is_solved. rewrite cube3_eqb_eq.
  split; [intros ->; apply solved_looks_solved|apply looks_solved_solved, W].
Qed.

(** ... in particular for everything reachable from the solved cube. *)
Theorem C13_reachable : forall al : list AxisMove,
  let c := fold_left cube3_apply al cube3_solved in
  (cube_is_solved Size3 c = true <-> looks_solved c).
Proof.
  intros al c. apply C13_is_solved_looks_solved. subst c. apply cube3_valid_spec.
  assert (H : cube3_valid cube3_solved) by (apply cube3_valid_spec, (cube_well_formed_solved Size3)).
  revert H. generalize cube3_solved. induction al as [|m al IH]; intros c H; [exact H|].
  cbn. apply IH, cube3_valid_spec, (cube_well_formed_move Size3), cube3_valid_spec, H.
Qed.

(** ... and exactly when every piece reports [is_solved] for its original position. *)
Theorem C13_is_solved_pieces : forall c : Cube3, cube_well_formed Size3 c ->
  (cube_is_solved Size3 c = true <->
   (forall i e o, nth_error (c3_edges c) i = Some e -> nth_error edge_reference i = Some o ->
      edge_is_solved e o = true) /\
   (forall i k o, nth_error (c3_corners c) i = Some k -> nth_error corner_reference i = Some o ->
      corner_is_solved k o = true)).
Proof.
  intros c W. apply cube3_valid_spec in W. destruct W as [[Le _] [Lc _]].
  change (cube_is_solved Size3 c) with (cube3_is_solved c). unfold cube3_is_solved.
  rewrite cube3_eqb_eq. split.
  - intros ->. cbn [c3_edges c3_corners cube3_solved]. unfold edge_solved, corner_solved.
    split; intros i p o Hp Ho; rewrite nth_error_map, Ho in Hp; injection Hp as <-.
    + unfold edge_is_solved. rewrite (proj2 (edgepos_eqb_eq _ _)); [reflexivity|]. destruct o; reflexivity.
    + unfold corner_is_solved. rewrite (proj2 (vec3_eqb_eq _ _)); reflexivity.
  - intros [He Hc]. destruct c as [es ks]. unfold cube3_solved. cbn [c3_edges c3_corners] in *. f_equal.
    + apply list_eq_nth; [exact Le|]. intros i o e Ho H. specialize (He i e o H Ho).
      unfold edge_is_solved in He. apply andb_true_iff in He as [E1 E2]. apply edgepos_eqb_eq in E1.
      destruct e as [n s b]. cbn in E2. subst b o. reflexivity.
    + apply list_eq_nth; [exact Lc|]. intros i o k Ho H. specialize (Hc i k o H Ho).
      unfold corner_is_solved in Hc. apply andb_true_iff in Hc as [E1 E2].
      apply vec3_eqb_eq in E1. apply axis_eqb_eq in E2. destruct k as [p a]. cbn in E1, E2. subst. reflexivity.
Qed.

(** ... and the piece sets' own [is_solved] agrees. *)
Theorem C13_is_solved_sets : forall c : Cube3, cube_well_formed Size3 c ->
  cube_is_solved Size3 c = set_is_solved edge_desc (c3_edges c) && set_is_solved corner_desc (c3_corners c).
Proof.
  intros c W. apply cube3_valid_spec in W. destruct W as [[Le _] [Lc _]].
  apply eq_true_iff_eq. cbn. unfold cube3_is_solved. rewrite cube3_eqb_eq, andb_true_iff.
  rewrite (edge_set_is_solved _ Le), (corner_set_is_solved _ Lc). unfold cube3_solved. destruct c; cbn.
  split; [intros [= -> ->]; auto|intros [-> ->]; auto].
Qed.

Example C13_example :
  let c := fold_left cube3_apply [mkMove fR Single; mkMove fU Double] cube3_solved in
  let c' := fold_left cube3_apply [mkMove fU Double; mkMove fR Inverse] c in
  cube_is_solved Size3 c = false /\ cube_is_solved Size3 c' = true.
Proof. split; vm_compute; reflexivity. Qed.

(* ------------------------------------------------------------------ *)
(** * C14: faces, axes and vectors rotate consistently *)

Theorem C14_rotations_agree : forall (r : AxisRotation) (f : Face) (v : Vec3) (a : Axis),
  normal (rotate_face f r) = rotate_space r (normal f) /\
  point (rotate_vec3 v r) = rotate_space r (point v) /\
  (rotate_space r (unit a) = unit (rotate_axis a r) \/
   rotate_space r (unit a) = v3_neg (unit (rotate_axis a r))).
Proof. intros. split; [apply rotate_face_space|split; [apply rotate_vec3_space|apply rotate_axis_space]]. Qed.

(** The same for any sequence of rotations. *)
Theorem C14_sequences : forall (rs : list AxisRotation) (f : Face) (v : Vec3) (a : Axis),
  let space x := fold_left (fun x r => rotate_space r x) rs x in
  normal (fold_left rotate_face rs f) = space (normal f) /\
  point (fold_left rotate_vec3 rs v) = space (point v) /\
  (space (unit a) = unit (fold_left rotate_axis rs a) \/
   space (unit a) = v3_neg (unit (fold_left rotate_axis rs a))).
Proof.
  cbn zeta.
  assert (Neg : forall r x, rotate_space r (v3_neg x) = v3_neg (rotate_space r x)).
  { intros r [x y z]. unfold rotate_space. rewrite unit_normal, !turn_normal. unfold v3_neg, v3_scale.
    destruct r as [[] []]; cbn [quarter_turns times rot_axis rot_amount qf px py pz]; apply mkV3_eq; lia. }
  assert (NegS : forall rs x, fold_left (fun x r => rotate_space r x) rs (v3_neg x)
                       = v3_neg (fold_left (fun x r => rotate_space r x) rs x)).
  { induction rs as [|r rs IH]; intros x; cbn [fold_left]; [reflexivity|]. rewrite Neg. apply IH. }
  assert (NN : forall x, v3_neg (v3_neg x) = x).
  { intros [x y z]. unfold v3_neg, v3_scale. cbn [px py pz]. apply mkV3_eq; lia. }
  induction rs as [|r rs IH]; intros f v a; cbn [fold_left]; [auto|].
  destruct (IH (rotate_face f r) (rotate_vec3 v r) (rotate_axis a r)) as (H1 & H2 & H3).
  rewrite H1, H2, rotate_face_space, rotate_vec3_space. split; [reflexivity|split; [reflexivity|]].
  destruct (rotate_axis_space a r) as [E|E]; rewrite E; [exact H3|].
  rewrite NegS. destruct H3 as [H3|H3]; rewrite H3; [right; reflexivity|left; apply NN].
Qed.

(** [inverse] undoes a rotation, of pieces of space and of the things that move. *)
Theorem C14_inverse : forall (r : AxisRotation) (f : Face) (v : Vec3) (a : Axis) (x : V3) (m : AxisMove),
  rotate_face (rotate_face f r) (rot_inverse r) = f /\
  rotate_vec3 (rotate_vec3 v r) (rot_inverse r) = v /\
  rotate_axis (rotate_axis a r) (rot_inverse r) = a /\
  rotate_move (rotate_move m r) (rot_inverse r) = m /\
  rotate_space (rot_inverse r) (rotate_space r x) = x.
Proof.
  intros r f v a x m. repeat split.
  - destruct f as [[] []], r as [[] []]; reflexivity.
  - destruct v as [[] [] []], r as [[] []]; reflexivity.
  - destruct a, r as [[] []]; reflexivity.
  - destruct m as [[[] []] []], r as [[] []]; reflexivity.
  - unfold rotate_space. rewrite !unit_normal, !turn_normal.
    destruct r as [[] []], x; cbn; rewrite ?Z.opp_involutive; reflexivity.
Qed.

(** [cross] is the right-handed cross product; it is undefined exactly for parallel
    faces. *)
Theorem C14_cross : forall a b : Face,
  match face_cross a b with
  | Some c => normal c = cross (normal a) (normal b)
  | None => cross (normal a) (normal b) = mkV3 0 0 0
  end.
Proof. intros [[] []] [[] []]; reflexivity. Qed.

(** [opposite] is negation and commutes with rotation; moves rotate with their face and
    keep their direction seen from outside. *)
Theorem C14_opposite : forall (f : Face) (r : AxisRotation),
  normal (opposite f) = v3_neg (normal f) /\
  rotate_face (opposite f) r = opposite (rotate_face f r).
Proof. intros [[] []] [[] []]; split; reflexivity. Qed.

Theorem C14_moves_conjugate : forall (m : AxisMove) (r : AxisRotation) (x : V3),
  move_space (rotate_move m r) (rotate_space r x) = rotate_space r (move_space m x).
Proof.
  intros m r x. unfold move_space, rotate_space. rewrite !unit_normal, !turn_normal.
  destruct m as [[[] []] []], r as [[] []], x; cbn; rewrite ?Z.opp_involutive; reflexivity.
Qed.

(** Handedness: [next]/[prev] and [get_handedness] follow the cyclic order x, y, z. *)
Theorem C14_handedness : forall (a b : Axis),
  (forall d, next_with_handedness a d = b <-> get_handedness a b = Done (Ok d)) /\
  (a = b <-> get_handedness a b = Done (Err (SameAxis a))) /\
  cross (unit a) (unit (axis_next a)) = unit (axis_next (axis_next a)).
Proof.
  intros a b. split; [|split].
  - intros d. destruct a, b, d; cbv; split; intros E; try reflexivity; discriminate E.
  - destruct a, b; cbv; split; intros E; try reflexivity; discriminate E.
  - destruct a; reflexivity.
Qed.

Example C14_example :
  rotate_face fF (mkRot AX Single) = fU /\ face_cross fR fU = Some fF /\
  point (rotate_vec3 (mkVec3 Positive Positive Negative) (mkRot AY Single)) = mkV3 1 1 1.
Proof. repeat split; reflexivity. Qed.

Print Assumptions C11_turn_moves_layer.
Print Assumptions C11_turn_keeps_rest.
Print Assumptions C11_alg_moves_stickers.
Print Assumptions C11_solved_colours.
Print Assumptions C12_drawing_faithful.
Print Assumptions C12_net_complete.
Print Assumptions C12_net_adjacent.
Print Assumptions C12_nine_of_each.
Print Assumptions C12_drawing_injective.
Print Assumptions C13_is_solved_looks_solved.
Print Assumptions C13_reachable.
Print Assumptions C13_is_solved_pieces.
Print Assumptions C13_is_solved_sets.
Print Assumptions C14_rotations_agree.
Print Assumptions C14_sequences.
Print Assumptions C14_inverse.
Print Assumptions C14_cross.
Print Assumptions C14_opposite.
Print Assumptions C14_moves_conjugate.
Print Assumptions C14_handedness.

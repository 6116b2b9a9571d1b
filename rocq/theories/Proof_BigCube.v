(** Proofs about the physical NxNxN cube. *)

From Coq Require Import List Bool Arith NArith ZArith Lia Permutation.
From Verif Require Import Model_Base Model_Space Model_Moves Model_Pieces Model_PieceSet Model_Cubes
  Model_Visual Spec_Moves Spec_Geometry Spec_Stickers Spec_Sets Spec_BigCube
  Proof_Moves Proof_Sets Proof_Geometry Proof_Stickers.
Import ListNotations.
Open Scope Z_scope.

(** ** Linearity *)

Lemma v3_eta a b : px a = px b -> py a = py b -> pz a = pz b -> a = b.
Proof. destruct a, b; cbn; congruence. Qed.

Lemma times_add n (f : V3 -> V3) a b :
  (forall a b, f (v3_add a b) = v3_add (f a) (f b)) -> times n f (v3_add a b) = v3_add (times n f a) (times n f b).
Proof. intros H. induction n; cbn; [reflexivity|]. rewrite IHn. apply H. Qed.
Lemma times_scale n (f : V3 -> V3) k a :
  (forall a, f (v3_scale k a) = v3_scale k (f a)) -> times n f (v3_scale k a) = v3_scale k (times n f a).
Proof. intros H. induction n; cbn; [reflexivity|]. rewrite IHn. apply H. Qed.

Lemma quarter_add u a b : quarter_cw u (v3_add a b) = v3_add (quarter_cw u a) (quarter_cw u b).
Proof. apply v3_eta; unfold quarter_cw, v3_add, v3_scale, cross, dot; cbn [px py pz]; ring. Qed.
Lemma quarter_scale u k a : quarter_cw u (v3_scale k a) = v3_scale k (quarter_cw u a).
Proof. apply v3_eta; unfold quarter_cw, v3_add, v3_scale, cross, dot; cbn [px py pz]; ring. Qed.

Lemma rotate_space_add r a b : rotate_space r (v3_add a b) = v3_add (rotate_space r a) (rotate_space r b).
Proof. apply times_add, quarter_add. Qed.
Lemma rotate_space_scale r k a : rotate_space r (v3_scale k a) = v3_scale k (rotate_space r a).
Proof. apply times_scale, quarter_scale. Qed.

Lemma dot_add a b n : dot (v3_add a b) n = dot a n + dot b n.
Proof. unfold dot, v3_add; cbn [px py pz]; ring. Qed.
Lemma dot_scale k a n : dot (v3_scale k a) n = k * dot a n.
Proof. unfold dot, v3_scale; cbn [px py pz]; ring. Qed.

(** ** Rotating a piece rotates its location *)

Lemma corner_loc_rotate k c r : corner_loc k (corner_rotate c r) = rotate_space r (corner_loc k c).
Proof. unfold corner_loc. rewrite rotate_space_scale. cbn [corner_rotate c_pos]. rewrite rotate_vec3_space. reflexivity. Qed.

Lemma edge_point_rotate e r :
  to_v3 (edge_coordinates (edge_position (edge_rotate e r)))
  = rotate_space r (to_v3 (edge_coordinates (edge_position e))).
Proof.
  unfold rotate_space. rewrite unit_normal, turn_normal.
  destruct e as [[] [[] []] []], r as [[] []]; reflexivity.
Qed.
Lemma edge_loc_rotate k e r : edge_loc k (edge_rotate e r) = rotate_space r (edge_loc k e).
Proof. unfold edge_loc. rewrite rotate_space_scale, edge_point_rotate. reflexivity. Qed.

Definition wing_arm (w : Wing) : V3 := v3_scale (scalar (wing_normal_dir w)) (unit (e_normal (wg_edge w))).
Lemma v3_scale_scale a b v : v3_scale (a * b) v = v3_scale a (v3_scale b v).
Proof. apply v3_eta; unfold v3_scale; cbn [px py pz]; ring. Qed.
Lemma wing_loc_arm k nd w :
  wing_loc k nd w = v3_add (edge_loc k (wg_edge w)) (v3_scale (k - 1 - 2 * nd) (wing_arm w)).
Proof. unfold wing_loc, wing_arm. rewrite v3_scale_scale. reflexivity. Qed.
Lemma wing_arm_rotate w r : wing_arm (wing_rotate w r) = rotate_space r (wing_arm w).
Proof.
  unfold rotate_space. rewrite unit_normal, turn_normal.
  destruct w as [[[] [[] []] []]], r as [[] []]; reflexivity.
Qed.
Lemma wing_loc_rotate k nd w r : wing_loc k nd (wing_rotate w r) = rotate_space r (wing_loc k nd w).
Proof.
  rewrite !wing_loc_arm, rotate_space_add, rotate_space_scale, wing_arm_rotate.
  cbn [wing_rotate wg_edge]. rewrite edge_loc_rotate. reflexivity.
Qed.

Lemma cc_loc_face k nd c :
  cc_loc k nd c = v3_add (v3_scale (k - 1 - 2 * nd) (point (cc_pos c)))
                         (v3_scale (2 * nd) (normal (cc_face c))).
Proof.
  destruct c as [[x y z] a]. apply v3_eta; unfold cc_loc, cc_face, normal, v3_add, v3_scale; destruct a;
    cbn [px py pz axis_eqb cc_axis cc_pos vget vx vy vz point face_axis face_dir unit]; ring.
Qed.
Lemma cc_face_rotate c r : cc_face (cc_rotate c r) = rotate_face (cc_face c) r.
Proof. destruct c as [[[] [] []] []], r as [[] []]; reflexivity. Qed.
Lemma cc_loc_rotate k nd c r : cc_loc k nd (cc_rotate c r) = rotate_space r (cc_loc k nd c).
Proof.
  rewrite !cc_loc_face, rotate_space_add, !rotate_space_scale, cc_face_rotate, rotate_face_space.
  cbn [cc_rotate cc_pos]. rewrite rotate_vec3_space. reflexivity.
Qed.

Lemma ce_main_rotate c r : ce_main (ce_rotate c r) = rotate_face (ce_main c) r.
Proof. destruct c as [[[] []] [] []], r as [[] []]; reflexivity. Qed.
Lemma ce_side_rotate c r : ce_side_face (ce_rotate c r) = rotate_face (ce_side_face c) r.
Proof. destruct c as [[[] []] [] []], r as [[] []]; reflexivity. Qed.
Lemma ce_loc_rotate k nd c r : ce_loc k nd (ce_rotate c r) = rotate_space r (ce_loc k nd c).
Proof.
  unfold ce_loc. rewrite rotate_space_add, !rotate_space_scale, ce_main_rotate, ce_side_rotate,
    !rotate_face_space. reflexivity.
Qed.

Definition cw_arm (c : CenterWing) : V3 := v3_scale (scalar (cw_normal_dir c)) (unit (ce_normal_axis (cw_edge c))).
Lemma cw_loc_arm k nd td c :
  cw_loc k nd td c = v3_add (ce_loc k nd (cw_edge c)) (v3_scale (k - 1 - 2 * td) (cw_arm c)).
Proof. unfold cw_loc, cw_arm. rewrite v3_scale_scale. reflexivity. Qed.
Lemma cw_arm_rotate c r : cw_arm (cw_rotate c r) = rotate_space r (cw_arm c).
Proof.
  unfold rotate_space. rewrite unit_normal, turn_normal.
  destruct c as [[[[] []] [] []] []], r as [[] []]; reflexivity.
Qed.
Lemma cw_loc_rotate k nd td c r : cw_loc k nd td (cw_rotate c r) = rotate_space r (cw_loc k nd td c).
Proof.
  rewrite !cw_loc_arm, rotate_space_add, rotate_space_scale, cw_arm_rotate.
  cbn [cw_rotate cw_edge]. rewrite ce_loc_rotate. reflexivity.
Qed.

(** ** Being in the turning layers *)

Definition layer (k : Z) (f : Face) (d : Z) (p : V3) : bool := k - 1 - 2 * d <=? dot p (normal f).

Lemma corner_layer k f d c :
  0 <= d -> 2 * d < k - 1 -> contains_vector f (c_pos c) = layer k f d (corner_loc k c).
Proof.
  intros H0 H1. unfold layer, corner_loc. rewrite dot_scale.
  assert (E : (contains_vector f (c_pos c) = true /\ dot (point (c_pos c)) (normal f) = 1) \/
              (contains_vector f (c_pos c) = false /\ dot (point (c_pos c)) (normal f) = -1)).
  { destruct c as [[[] [] []] a], f as [[] []]; first [left; split; reflexivity|right; split; reflexivity]. }
  destruct E as [[-> ->]|[-> ->]]; symmetry; [apply Z.leb_le; lia|apply Z.leb_gt; lia].
Qed.

Lemma edge_layer k f d e :
  0 <= d -> 2 * d < k - 1 -> contains_edge f e = layer k f d (edge_loc k e).
Proof.
  intros H0 H1. unfold layer, edge_loc. rewrite dot_scale.
  assert (E : (contains_edge f e = true /\ dot (to_v3 (edge_coordinates (edge_position e))) (normal f) = 1) \/
              (contains_edge f e = false /\ dot (to_v3 (edge_coordinates (edge_position e))) (normal f) = -1) \/
              (contains_edge f e = false /\ dot (to_v3 (edge_coordinates (edge_position e))) (normal f) = 0)).
  { destruct e as [[] [[] []] b], f as [[] []];
      first [left; split; reflexivity|right; left; split; reflexivity|right; right; split; reflexivity]. }
  destruct E as [[-> ->]|[[-> ->]|[-> ->]]]; symmetry; [apply Z.leb_le; lia|apply Z.leb_gt; lia|apply Z.leb_gt; lia].
Qed.

Lemma leb_of_N a b : N.leb a b = (Z.of_N a <=? Z.of_N b).
Proof. apply eq_true_iff_eq. rewrite N.leb_le, Z.leb_le. lia. Qed.

Ltac by_leb :=
  symmetry; first [apply Z.leb_le; lia | apply Z.leb_gt; lia].

Lemma wing_layer k nd td mx w m :
  let d := Z.of_N (w_depth m) in
  2 * d < k - 1 -> d + Z.of_N nd < k - 1 ->
  wing_in_wide w nd td mx m = layer k (mv_face (w_move m)) d (wing_loc k (Z.of_N nd) w).
Proof.
  intros d H1 H2. unfold layer. rewrite wing_loc_arm, dot_add, dot_scale. unfold edge_loc. rewrite dot_scale.
  unfold wing_in_wide. rewrite leb_of_N. fold d. set (f := mv_face (w_move m)).
  assert (E : (contains_edge f (wg_edge w) = true /\
               dot (to_v3 (edge_coordinates (edge_position (wg_edge w)))) (normal f) = 1 /\
               dot (wing_arm w) (normal f) = 0) \/
              (contains_edge f (wg_edge w) = false /\ axis_eqb (e_normal (wg_edge w)) (face_axis f) = true /\
               dot (to_v3 (edge_coordinates (edge_position (wg_edge w)))) (normal f) = 0 /\
               dot (wing_arm w) (normal f) = if dir_eqb (face_dir f) (wing_normal_dir w) then 1 else -1) \/
              (contains_edge f (wg_edge w) = false /\ axis_eqb (e_normal (wg_edge w)) (face_axis f) = false /\
               dot (to_v3 (edge_coordinates (edge_position (wg_edge w)))) (normal f) = -1 /\
               dot (wing_arm w) (normal f) = 0)).
  { clearbody f. destruct w as [[[] [[] []] []]], f as [[] []];
      first [left; repeat split; reflexivity|right; left; repeat split; reflexivity
            |right; right; repeat split; reflexivity]. }
  destruct E as [(-> & -> & ->)|[(-> & -> & -> & ->)|(-> & -> & -> & ->)]].
  - by_leb.
  - destruct (dir_eqb _ _).
    + rewrite andb_true_r. apply eq_true_iff_eq. rewrite !Z.leb_le. lia.
    + rewrite andb_false_r. by_leb.
  - by_leb.
Qed.

Lemma cc_layer k nd td mx c m :
  let d := Z.of_N (w_depth m) in
  2 * d < k - 1 -> d + Z.of_N nd < k - 1 -> 2 * Z.of_N nd <= k - 1 ->
  cc_in_wide c nd td mx m = layer k (mv_face (w_move m)) d (cc_loc k (Z.of_N nd) c).
Proof.
  intros d H1 H2 H3. unfold layer. rewrite cc_loc_face, dot_add, !dot_scale.
  unfold cc_in_wide. rewrite leb_of_N. fold d. set (f := mv_face (w_move m)).
  assert (E : dot (point (cc_pos c)) (normal f)
                = (if dir_eqb (vget (cc_pos c) (face_axis f)) (face_dir f) then 1 else -1) /\
              dot (normal (cc_face c)) (normal f) =
                if axis_eqb (cc_axis c) (face_axis f)
                then if dir_eqb (vget (cc_pos c) (face_axis f)) (face_dir f) then 1 else -1 else 0).
  { clearbody f. destruct c as [[[] [] []] []], f as [[] []]; split; reflexivity. }
  destruct E as [-> ->]. destruct (dir_eqb _ _), (axis_eqb _ _).
  - rewrite orb_true_r. by_leb.
  - rewrite orb_false_r. apply eq_true_iff_eq. rewrite !Z.leb_le. lia.
  - by_leb.
  - by_leb.
Qed.

(** The test of the code for centre edges, with the depth it should compare with. *)
Lemma ce_layer k nd c f d :
  0 <= d -> 2 * d < k - 1 -> 0 <= nd -> d + nd < k - 1 ->
  (if face_eqb f (ce_main c) then true else face_eqb f (ce_side_face c) && (nd <=? d))
  = layer k f d (ce_loc k nd c).
Proof.
  intros H0 H1 H2 H3. unfold layer, ce_loc. rewrite dot_add, !dot_scale.
  assert (E : (face_eqb f (ce_main c) = true /\ dot (normal (ce_main c)) (normal f) = 1 /\
               dot (normal (ce_side_face c)) (normal f) = 0) \/
              (face_eqb f (ce_main c) = false /\ face_eqb f (ce_side_face c) = true /\
               dot (normal (ce_main c)) (normal f) = 0 /\ dot (normal (ce_side_face c)) (normal f) = 1) \/
              (face_eqb f (ce_main c) = false /\ face_eqb f (ce_side_face c) = false /\
               ((dot (normal (ce_main c)) (normal f) = -1 /\ dot (normal (ce_side_face c)) (normal f) = 0) \/
                (dot (normal (ce_main c)) (normal f) = 0 /\ dot (normal (ce_side_face c)) (normal f) = -1) \/
                (dot (normal (ce_main c)) (normal f) = 0 /\ dot (normal (ce_side_face c)) (normal f) = 0)))).
  { destruct c as [[[] []] [] []], f as [[] []];
      first [left; repeat split; reflexivity|right; left; repeat split; reflexivity
            |right; right; split; [reflexivity|split; [reflexivity|]];
             first [left; repeat split; reflexivity|right; left; repeat split; reflexivity
                   |right; right; repeat split; reflexivity]]. }
  destruct E as [(-> & -> & ->)|[(-> & -> & -> & ->)|(-> & -> & [[-> ->]|[[-> ->]|[-> ->]]])]]; cbn [andb].
  - by_leb.
  - apply eq_true_iff_eq. rewrite !Z.leb_le. lia.
  - by_leb.
  - by_leb.
  - by_leb.
Qed.

Lemma ce_in_wide_layer k nd td mx c m :
  let d := Z.of_N (w_depth m) in
  2 * d < k - 1 -> d + Z.of_N nd < k - 1 -> (nd <= w_depth m)%N -> (nd <= mx)%N ->
  ce_in_wide c nd td mx m = layer k (mv_face (w_move m)) d (ce_loc k (Z.of_N nd) c).
Proof.
  intros d H1 H2 H3 H4. rewrite <- ce_layer by lia. unfold ce_in_wide.
  destruct (N.leb_spec nd mx); [|lia]. replace (Z.of_N nd <=? d) with true; [reflexivity|by_leb].
Qed.

Lemma cw_layer k nd td mx c m :
  let d := Z.of_N (w_depth m) in
  2 * d < k - 1 -> d + Z.of_N nd < k - 1 -> d + Z.of_N td < k - 1 ->
  cw_in_wide c nd td mx m = layer k (mv_face (w_move m)) d (cw_loc k (Z.of_N nd) (Z.of_N td) c).
Proof.
  intros d H1 H2 H3. unfold layer. rewrite cw_loc_arm. unfold ce_loc. rewrite !dot_add, !dot_scale.
  unfold cw_in_wide, cw_in_wide_o. rewrite !leb_of_N. fold d. set (f := mv_face (w_move m)).
  set (mn := ce_main (cw_edge c)). set (sd := ce_side_face (cw_edge c)). set (na := ce_normal_axis (cw_edge c)).
  assert (E : (face_eqb mn f = true /\ dot (normal mn) (normal f) = 1 /\
               dot (normal sd) (normal f) = 0 /\ dot (cw_arm c) (normal f) = 0) \/
              (face_eqb mn f = false /\ face_eqb sd f = true /\ dot (normal mn) (normal f) = 0 /\
               dot (normal sd) (normal f) = 1 /\ dot (cw_arm c) (normal f) = 0) \/
              (face_eqb mn f = false /\ face_eqb sd f = false /\
               axis_eqb (face_axis mn) (face_axis f) || axis_eqb (face_axis sd) (face_axis f) = true /\
               dot (cw_arm c) (normal f) = 0 /\
               ((dot (normal mn) (normal f) = -1 /\ dot (normal sd) (normal f) = 0) \/
                (dot (normal mn) (normal f) = 0 /\ dot (normal sd) (normal f) = -1))) \/
              (face_eqb mn f = false /\ face_eqb sd f = false /\
               axis_eqb (face_axis mn) (face_axis f) || axis_eqb (face_axis sd) (face_axis f) = false /\
               axis_eqb na (face_axis f) = true /\ dot (normal mn) (normal f) = 0 /\
               dot (normal sd) (normal f) = 0 /\
               dot (cw_arm c) (normal f) = if dir_eqb (cw_normal_dir c) (face_dir f) then 1 else -1)).
  { clearbody f. subst mn sd na. destruct c as [[[[] []] [] []] []], f as [[] []];
      first [left; repeat split; reflexivity
            |right; left; repeat split; reflexivity
            |right; right; right; repeat split; reflexivity
            |right; right; left; split; [reflexivity|split; [reflexivity|split; [reflexivity|split; [reflexivity|]]]];
             first [left; split; reflexivity|right; split; reflexivity]]. }
  destruct E as [(-> & -> & -> & ->)|[(-> & -> & -> & -> & ->)|[(-> & -> & -> & -> & [[-> ->]|[-> ->]])|
                 (-> & -> & -> & -> & -> & -> & ->)]]]; cbn [from_outcome].
  - by_leb.
  - apply eq_true_iff_eq. rewrite !Z.leb_le. lia.
  - by_leb.
  - by_leb.
  - destruct (dir_eqb _ _); cbn [andb].
    + apply eq_true_iff_eq. rewrite !Z.leb_le. lia.
    + by_leb.
Qed.

(** ** Stickers of pieces under wide moves *)

Definition turn_k (k : Z) (w : WideAxisMove) (s : Sticker) : Sticker :=
  if layer k (mv_face (w_move w)) (Z.of_N (w_depth w)) (st_cubie s)
  then mkSticker (move_space (w_move w) (st_cubie s)) (move_space (w_move w) (st_normal s)) (st_color s)
  else s.

Lemma turn_k_size n w s : turn_wide_sticker n w s = turn_k (sizeZ n) w s.
Proof. reflexivity. Qed.

(** Stickers at one location with given faces and colours. *)
Definition at_loc (p : V3) (l : list (Face * Color)) : list Sticker :=
  map (fun fc => mkSticker p (normal (fst fc)) (snd fc)) l.
Definition rot_colors (r : AxisRotation) (l : list (Face * Color)) : list (Face * Color) :=
  map (fun fc => (rotate_face (fst fc) r, snd fc)) l.

Lemma at_loc_turn k w p l (b : bool) p' l' :
  b = layer k (mv_face (w_move w)) (Z.of_N (w_depth w)) p ->
  p' = (if b then rotate_space (rot_of_move (w_move w)) p else p) ->
  l' = (if b then rot_colors (rot_of_move (w_move w)) l else l) ->
  at_loc p' l' = map (turn_k k w) (at_loc p l).
Proof.
  intros Hb -> ->. unfold at_loc. rewrite map_map. destruct b.
  - unfold rot_colors. rewrite map_map. apply map_ext. intros [f c]. cbn [fst snd].
    unfold turn_k. cbn [st_cubie st_normal st_color]. rewrite <- Hb, rotate_face_space, !rot_of_move_space.
    reflexivity.
  - apply map_ext. intros [f c]. unfold turn_k. cbn [st_cubie]. rewrite <- Hb. reflexivity.
Qed.

Lemma rot_colors_combine r l (cs : list Color) :
  rot_colors r (combine l cs) = combine (map (fun f => rotate_face f r) l) cs.
Proof. revert cs; induction l as [|f l IH]; intros [|c cs]; cbn; try reflexivity. f_equal. apply IH. Qed.

Lemma corner_colors_rotate c o r : corner_colors (corner_rotate c r) o = rot_colors r (corner_colors c o).
Proof.
  unfold corner_colors. rewrite !corner_colors_split, rot_colors_combine. f_equal.
  destruct c as [[[] [] []] []], r as [[] []]; reflexivity.
Qed.
Lemma edge_colors_rotate e o r : edge_colors (edge_rotate e r) o = rot_colors r (edge_colors e o).
Proof.
  rewrite !edge_colors_split, rot_colors_combine. f_equal.
  destruct e as [[] [[] []] []], r as [[] []]; reflexivity.
Qed.

(** The edge a wing looks like. *)
Definition wing_as_edge (o w : Wing) : Edge :=
  mkEdge (e_normal (wg_edge w)) (e_slice (wg_edge w)) (Bool.eqb (e_oriented (wg_edge w)) (e_oriented (wg_edge o))).
Lemma wing_as_edge_rotate o w r : wing_as_edge o (wing_rotate w r) = edge_rotate (wing_as_edge o w) r.
Proof. destruct o as [[n s b]], w as [[[] [[] []] []]], r as [[] []], b; reflexivity. Qed.

Section SetStickers.
  Variables (k : Z) (w : WideAxisMove).
  Hypothesis Hd : 2 * Z.of_N (w_depth w) < k - 1.

  Lemma corners_turn s :
    set_stickers k (SetCorner (corner_set_apply s (w_move w))) = map (turn_k k w) (set_stickers k (SetCorner s)).
  Proof.
    unfold set_stickers, corner_set_apply. rewrite combine_map_r, flat_map_map_in, map_flat_map.
    apply flat_map_ext'. intros [o c]. cbn [fst snd].
    apply (at_loc_turn k w (corner_loc k c) (corner_colors c o) (contains_vector (mv_face (w_move w)) (c_pos c))).
    - apply corner_layer; lia.
    - unfold corner_apply. destruct (contains_vector _ _); [apply corner_loc_rotate|reflexivity].
    - unfold corner_apply. destruct (contains_vector _ _); [apply corner_colors_rotate|reflexivity].
  Qed.

  Lemma edges_turn s :
    set_stickers k (SetEdge (edge_set_apply s (w_move w))) = map (turn_k k w) (set_stickers k (SetEdge s)).
  Proof.
    unfold set_stickers, edge_set_apply. rewrite combine_map_r, flat_map_map_in, map_flat_map.
    apply flat_map_ext'. intros [o c]. cbn [fst snd].
    apply (at_loc_turn k w (edge_loc k c) (edge_colors c o) (contains_edge (mv_face (w_move w)) c)).
    - apply edge_layer; lia.
    - unfold edge_apply. destruct (contains_edge _ _); [apply edge_loc_rotate|reflexivity].
    - unfold edge_apply. destruct (contains_edge _ _); [apply edge_colors_rotate|reflexivity].
  Qed.

  Lemma wings_turn nd mx s :
    Z.of_N (w_depth w) + Z.of_N nd < k - 1 ->
    set_stickers k (SetWing (Z.of_N nd) (wings_apply nd mx s w))
    = map (turn_k k w) (set_stickers k (SetWing (Z.of_N nd) s)).
  Proof.
    intros H. unfold set_stickers, wings_apply, depth_set_apply. rewrite combine_map_r, flat_map_map_in, map_flat_map.
    apply flat_map_ext'. intros [o c]. cbn [fst snd]. unfold wing_stickers.
    apply (at_loc_turn k w (wing_loc k (Z.of_N nd) c) (edge_colors (wing_as_edge o c) (edge_position (wg_edge o)))
             (wing_in_wide c nd 0 mx w)).
    - apply wing_layer; auto.
    - destruct (wing_in_wide _ _ _ _ _); [apply wing_loc_rotate|reflexivity].
    - destruct (wing_in_wide _ _ _ _ _); [|reflexivity].
      fold (wing_as_edge o (wing_rotate c (rot_of_move (w_move w)))).
      rewrite wing_as_edge_rotate. apply edge_colors_rotate.
  Qed.

  Lemma one_sticker_turn p f (col : Color) (b : bool) p' f' :
    b = layer k (mv_face (w_move w)) (Z.of_N (w_depth w)) p ->
    p' = (if b then rotate_space (rot_of_move (w_move w)) p else p) ->
    f' = (if b then rotate_face f (rot_of_move (w_move w)) else f) ->
    mkSticker p' (normal f') col = turn_k k w (mkSticker p (normal f) col).
  Proof.
    intros Hb Hp Hf. pose proof (at_loc_turn k w p [(f, col)] b p' [(f', col)] Hb Hp) as E.
    assert ([(f', col)] = if b then rot_colors (rot_of_move (w_move w)) [(f, col)] else [(f, col)])
      by (subst f'; destruct b; reflexivity).
    specialize (E H). cbn in E. injection E. auto.
  Qed.

  Lemma ccs_turn nd mx s :
    Z.of_N (w_depth w) + Z.of_N nd < k - 1 -> 2 * Z.of_N nd <= k - 1 ->
    set_stickers k (SetCenterCorner (Z.of_N nd) (ccs_apply nd mx s w))
    = map (turn_k k w) (set_stickers k (SetCenterCorner (Z.of_N nd) s)).
  Proof.
    intros H H'. unfold set_stickers, ccs_apply, depth_set_apply. rewrite combine_map_r, !map_map.
    apply map_ext. intros [o c]. cbn [fst snd]. apply (one_sticker_turn _ _ _ (cc_in_wide c nd 0 mx w)).
    - apply cc_layer; auto.
    - destruct (cc_in_wide _ _ _ _ _); [apply cc_loc_rotate|reflexivity].
    - destruct (cc_in_wide _ _ _ _ _); [apply cc_face_rotate|reflexivity].
  Qed.

  Lemma ces_turn nd mx s :
    Z.of_N (w_depth w) + Z.of_N nd < k - 1 -> (nd <= w_depth w)%N -> (nd <= mx)%N ->
    set_stickers k (SetCenterEdge (Z.of_N nd) (ces_apply nd mx s w))
    = map (turn_k k w) (set_stickers k (SetCenterEdge (Z.of_N nd) s)).
  Proof.
    intros H H' H''. unfold set_stickers, ces_apply, depth_set_apply. rewrite combine_map_r, !map_map.
    apply map_ext. intros [o c]. cbn [fst snd]. apply (one_sticker_turn _ _ _ (ce_in_wide c nd 0 mx w)).
    - apply ce_in_wide_layer; auto.
    - destruct (ce_in_wide _ _ _ _ _); [apply ce_loc_rotate|reflexivity].
    - destruct (ce_in_wide _ _ _ _ _); [apply ce_main_rotate|reflexivity].
  Qed.

  Lemma cws_turn nd td mx s :
    Z.of_N (w_depth w) + Z.of_N nd < k - 1 -> Z.of_N (w_depth w) + Z.of_N td < k - 1 ->
    set_stickers k (SetCenterWing (Z.of_N nd) (Z.of_N td) (cws_apply nd td mx s w))
    = map (turn_k k w) (set_stickers k (SetCenterWing (Z.of_N nd) (Z.of_N td) s)).
  Proof.
    intros H H'. unfold set_stickers, cws_apply, depth_set_apply. rewrite combine_map_r, !map_map.
    apply map_ext. intros [o c]. cbn [fst snd]. apply (one_sticker_turn _ _ _ (cw_in_wide c nd td mx w)).
    - apply cw_layer; auto.
    - destruct (cw_in_wide _ _ _ _ _); [apply cw_loc_rotate|reflexivity].
    - destruct (cw_in_wide _ _ _ _ _); [cbn [cw_rotate cw_edge]; apply ce_main_rotate|reflexivity].
  Qed.
End SetStickers.

(** ** Whole cubes *)

Definition max_depth (n : CubeSize) : N :=
  match n with Size2 | Size3 => 0 | Size4 | Size5 => 1 | Size6 | Size7 => 2 end%N.

Definition is_center_edges (s : PieceSetOf) : bool := match s with SetCenterEdge _ _ => true | _ => false end.

Definition stickers_of (k : Z) (l : list PieceSetOf) : list Sticker := flat_map (set_stickers k) l.

Ltac turn_sets :=
  unfold stickers_of; cbn [flat_map filter is_center_edges negb]; rewrite ?app_nil_r, ?map_app;
  repeat match goal with |- _ ++ _ = _ ++ _ => apply f_equal2 end.

Lemma cube_turn_no_ce n c w : (w_depth w <= max_depth n)%N ->
  stickers_of (sizeZ n) (filter (fun s => negb (is_center_edges s)) (cube_sets n (cube_apply_wide n c w)))
  = map (turn_k (sizeZ n) w)
      (stickers_of (sizeZ n) (filter (fun s => negb (is_center_edges s)) (cube_sets n c))).
Proof.
  destruct n; cbn [max_depth sizeZ cube_size_N cube_sets cube_apply_wide];
    cbn [apply_wide0 cube2_apply cube3_apply cube4_apply_wide cube5_apply_wide cube6_apply_wide cube7_apply_wide
         c2_corners c3_corners c3_edges c4_corners c4_wings c4_centers c5_corners c5_edges c5_center_corners
         c5_center_edges c6_corners c6_wings_1 c6_wings_2 c6_center_corners_1 c6_center_corners_2 c6_center_wings
         c7_corners c7_edges c7_wings_1 c7_wings_2 c7_center_corners_1 c7_center_corners_2 c7_center_wings
         c7_center_edges_1 c7_center_edges_2];
    intros H; unfold sizeZ; cbn [cube_size_N]; turn_sets;
    first [apply corners_turn; lia | apply edges_turn; lia
          | refine (wings_turn _ w _ 1 _ _ _); lia | refine (wings_turn _ w _ 2 _ _ _); lia
          | refine (ccs_turn _ w _ 1 _ _ _ _); lia | refine (ccs_turn _ w _ 2 _ _ _ _); lia
          | refine (cws_turn _ w _ 1 2 _ _ _ _); lia].
Qed.

Lemma cube_turn_max n c w : w_depth w = max_depth n ->
  stickers_of (sizeZ n) (cube_sets n (cube_apply_wide n c w))
  = map (turn_k (sizeZ n) w) (stickers_of (sizeZ n) (cube_sets n c)).
Proof.
  destruct n; cbn [max_depth sizeZ cube_size_N cube_sets cube_apply_wide];
    cbn [apply_wide0 cube2_apply cube3_apply cube4_apply_wide cube5_apply_wide cube6_apply_wide cube7_apply_wide
         c2_corners c3_corners c3_edges c4_corners c4_wings c4_centers c5_corners c5_edges c5_center_corners
         c5_center_edges c6_corners c6_wings_1 c6_wings_2 c6_center_corners_1 c6_center_corners_2 c6_center_wings
         c7_corners c7_edges c7_wings_1 c7_wings_2 c7_center_corners_1 c7_center_corners_2 c7_center_wings
         c7_center_edges_1 c7_center_edges_2];
    intros H; unfold sizeZ; cbn [cube_size_N]; turn_sets;
    first [apply corners_turn; lia | apply edges_turn; lia
          | refine (wings_turn _ w _ 1 _ _ _); lia | refine (wings_turn _ w _ 2 _ _ _); lia
          | refine (ccs_turn _ w _ 1 _ _ _ _); lia | refine (ccs_turn _ w _ 2 _ _ _ _); lia
          | refine (ces_turn _ w _ 1 _ _ _ _ _); lia | refine (ces_turn _ w _ 2 _ _ _ _ _); lia
          | refine (cws_turn _ w _ 1 2 _ _ _ _); lia].
Qed.

(** ** Completeness of the locations *)

Definition grid (n : CubeSize) : list Z :=
  map (fun i => 2 * Z.of_nat i - (sizeZ n - 1)) (seq 0 (N.to_nat (cube_size_N n))).

Lemma grid_spec n x : In x (grid n) <-> on_grid n x.
Proof.
  unfold grid, on_grid, sizeZ. rewrite in_map_iff. split.
  - intros (i & <- & Hi). apply in_seq in Hi. split; [lia|].
    replace (2 * Z.of_nat i - (Z.of_N (cube_size_N n) - 1) + Z.of_N (cube_size_N n) - 1) with (2 * Z.of_nat i) by lia.
    apply Z.even_spec. exists (Z.of_nat i). reflexivity.
  - intros [H E]. apply Z.even_spec in E as (y & Hy). exists (Z.to_nat y).
    assert (0 <= y) by lia. split; [rewrite Z2Nat.id by lia; lia|].
    apply in_seq. split; [lia|]. rewrite Nat.add_0_l. apply Nat2Z.inj_lt. rewrite Z2Nat.id, N_nat_Z by lia. lia.
Qed.

Definition movableb (n : CubeSize) (p : V3) : bool :=
  let m := sizeZ n - 1 in
  ((Z.abs (px p) =? m) || (Z.abs (py p) =? m) || (Z.abs (pz p) =? m)) &&
  negb ((px p =? 0) && (py p =? 0)) && negb ((py p =? 0) && (pz p =? 0)) && negb ((px p =? 0) && (pz p =? 0)).

Lemma movableb_spec n p :
  movable_cubie n p <-> In (px p) (grid n) /\ In (py p) (grid n) /\ In (pz p) (grid n) /\ movableb n p = true.
Proof.
  unfold movable_cubie, movableb. rewrite !grid_spec, !andb_true_iff, !negb_true_iff, !andb_false_iff, !orb_true_iff,
    !Z.eqb_neq, !Z.eqb_eq.
  pose proof (Z.eq_decidable (px p) 0). pose proof (Z.eq_decidable (py p) 0). pose proof (Z.eq_decidable (pz p) 0).
  unfold Decidable.decidable in *. tauto.
Qed.

Definition all_points (n : CubeSize) : list V3 :=
  flat_map (fun x => flat_map (fun y => map (fun z => mkV3 x y z) (grid n)) (grid n)) (grid n).

Lemma all_points_spec n p : In p (all_points n) <-> In (px p) (grid n) /\ In (py p) (grid n) /\ In (pz p) (grid n).
Proof.
  unfold all_points. rewrite in_flat_map. split.
  - intros (x & Hx & H). apply in_flat_map in H as (y & Hy & H). apply in_map_iff in H as (z & <- & Hz). cbn. auto.
  - intros (Hx & Hy & Hz). exists (px p). split; [exact Hx|]. apply in_flat_map. exists (py p). split; [exact Hy|].
    apply in_map_iff. exists (pz p). split; [destruct p; reflexivity|exact Hz].
Qed.

(** Decidable form: the list is duplicate-free and has exactly the movable cubies. *)
Definition complete_locations (n : CubeSize) (l : list V3) : bool :=
  match find_duplicates v3_eqb l with None => true | Some _ => false end &&
  Nat.eqb (length l) (length (filter (movableb n) (all_points n))) &&
  forallb (fun p => existsb (v3_eqb p) l) (filter (movableb n) (all_points n)).

Lemma filter_nodup {A} (p : A -> bool) l : NoDup l -> NoDup (filter p l).
Proof. apply NoDup_filter. Qed.

Lemma complete_locations_spec n l : complete_locations n l = true ->
  NoDup l /\ forall p, In p l <-> movable_cubie n p.
Proof.
  unfold complete_locations. rewrite !andb_true_iff. intros [[H1 H2] H3].
  assert (N : NoDup l).
  { destruct (find_duplicates v3_eqb l) eqn:E; [discriminate|]. apply (find_dup_none _ v3_eqb_eq), E. }
  split; [exact N|]. apply Nat.eqb_eq in H2. rewrite forallb_forall in H3.
  assert (I : incl (filter (movableb n) (all_points n)) l).
  { intros p Hp. apply (existsb_eqb _ v3_eqb_eq), H3, Hp. }
  assert (M : forall p, In p (filter (movableb n) (all_points n)) <-> movable_cubie n p).
  { intros p. rewrite filter_In, all_points_spec, movableb_spec. tauto. }
  assert (ND : NoDup (filter (movableb n) (all_points n))).
  { apply NoDup_filter. apply (find_dup_none _ v3_eqb_eq). destruct n; vm_compute; reflexivity. }
  intros p. split.
  - intros Hp. apply M. refine (NoDup_length_incl ND _ I p Hp). rewrite H2. apply le_n.
  - intros Hp. apply I, M, Hp.
Qed.

Lemma map_perm_pos {P Pos} (d : PieceDesc P Pos) (OK : desc_ok d) {T} (loc : P -> T) (loc' : Pos -> T) s s' :
  (forall p, loc p = loc' (pd_position d p)) -> set_valid d s -> set_valid d s' ->
  Permutation (map loc s) (map loc s').
Proof.
  intros H V V'. rewrite (map_ext _ (fun p => loc' (pd_position d p)) H s).
  rewrite (map_ext _ (fun p => loc' (pd_position d p)) H s').
  rewrite <- !(map_map (pd_position d) loc'). apply Permutation_map.
  rewrite (set_valid_perm d OK s V), (set_valid_perm d OK s' V'). reflexivity.
Qed.

Lemma locations_perm n c c' :
  cube_well_formed n c -> cube_well_formed n c' ->
  Permutation (cube_locations n c) (cube_locations n c').
Proof.
  intros W W'. unfold cube_locations.
  destruct n; cbn [cube_well_formed] in W, W'; cbn [cube_sets flat_map]; rewrite ?app_nil_r; to_valid;
    repeat match goal with H : _ /\ _ |- _ => destruct H end;
    repeat match goal with |- Permutation (_ ++ _) (_ ++ _) => apply Permutation_app end; cbn [set_locations];
    match goal with
    | |- Permutation (map (corner_loc ?k) _) _ =>
        apply (map_perm_pos corner_desc corner_desc_ok _ (fun p => v3_scale (k - 1) (point p)))
    | |- Permutation (map (edge_loc ?k) _) _ =>
        apply (map_perm_pos edge_desc edge_desc_ok _ (fun p => v3_scale (k - 1) (to_v3 (edge_coordinates p))))
    | |- Permutation (map (wing_loc ?k ?nd) _) _ => apply (map_perm_pos wing_desc wing_desc_ok _ (wing_loc k nd))
    | |- Permutation (map (cc_loc ?k ?nd) _) _ => apply (map_perm_pos cc_desc cc_desc_ok _ (cc_loc k nd))
    | |- Permutation (map (ce_loc ?k ?nd) _) _ => apply (map_perm_pos ce_desc ce_desc_ok _ (ce_loc k nd))
    | |- Permutation (map (cw_loc ?k ?nd ?td) _) _ => apply (map_perm_pos cw_desc cw_desc_ok _ (cw_loc k nd td))
    end; auto.
Qed.

Lemma solved_complete n : n <> Size5 -> complete_locations n (cube_locations n (cube_solved n)) = true.
Proof. destruct n; intros H; try contradiction; vm_compute; reflexivity. Qed.

(** ** Solved looks *)

Definition on_own_face (s : Sticker) : Prop := st_normal s = normal (st_color s).

(** Only the sign of the face matters for centre corners (the code's test). *)
Definition on_same_sign (s : Sticker) : Prop :=
  px (st_normal s) + py (st_normal s) + pz (st_normal s) = scalar (face_dir (st_color s)).

Lemma set_is_solved_forall {P Pos} (d : PieceDesc P Pos) s :
  set_is_solved d s = true <-> forall o p, In (o, p) (combine (pd_reference d) s) -> pd_is_solved d p o = true.
Proof.
  unfold set_is_solved, iter_with_pos. rewrite forallb_forall. split.
  - intros H o p Hi. apply (H (o, p) Hi).
  - intros H [o p] Hi. apply H, Hi.
Qed.

Lemma flat_map_forall {A B} (g : A -> list B) l (Q : B -> Prop) :
  (forall b, In b (flat_map g l) -> Q b) <-> forall a, In a l -> forall b, In b (g a) -> Q b.
Proof.
  split.
  - intros H a Ha b Hb. apply H, in_flat_map. eauto.
  - intros H b Hb. apply in_flat_map in Hb as (a & Ha & Hb). eauto.
Qed.
Lemma map_forall {A B} (g : A -> B) l (Q : B -> Prop) :
  (forall b, In b (map g l) -> Q b) <-> forall a, In a l -> Q (g a).
Proof.
  split.
  - intros H a Ha. apply H, in_map, Ha.
  - intros H b Hb. apply in_map_iff in Hb as (a & <- & Ha). auto.
Qed.

Lemma at_loc_own p l :
  (forall s, In s (at_loc p l) -> on_own_face s) <-> forall f col, In (f, col) l -> col = f.
Proof.
  unfold at_loc. rewrite map_forall. unfold on_own_face. split.
  - intros H f col Hi. symmetry. apply normal_inj, (H (f, col) Hi).
  - intros H [f col] Hi. cbn. rewrite (H f col Hi). reflexivity.
Qed.

Lemma corner_own_iff c o :
  (forall f col, In (f, col) (corner_colors c o) -> col = f) <-> corner_is_solved c o = true.
Proof.
  split.
  - intros H. rewrite (corner_colors_match c o H). destruct o as [[] [] []]; reflexivity.
  - unfold corner_is_solved. rewrite andb_true_iff, vec3_eqb_eq. intros [<- E]. apply axis_eqb_eq in E.
    destruct c as [p a]. cbn in E. subst a. unfold corner_colors. rewrite corner_colors_split. cbn [c_pos c_axis].
    intros f col Hi. revert Hi. generalize (cur_faces 3 p AY). intros l. induction l as [|x l IH]; cbn; [tauto|].
    intros [[= -> ->]|Hi]; auto.
Qed.
Lemma edge_own_iff e o :
  (forall f col, In (f, col) (edge_colors e o) -> col = f) <-> edge_is_solved e o = true.
Proof.
  split.
  - intros H. rewrite (edge_colors_match e o H). destruct o as [[] [[] []]]; reflexivity.
  - unfold edge_is_solved. rewrite andb_true_iff, edgepos_eqb_eq. intros [<- E].
    unfold edge_colors. rewrite E. cbn. intros f col [[= <- <-]|[[= <- <-]|[]]]; reflexivity.
Qed.
Lemma wing_own_iff w o :
  (forall f col, In (f, col) (edge_colors (wing_as_edge o w) (edge_position (wg_edge o))) -> col = f)
  <-> wing_eqb w o = true.
Proof.
  rewrite edge_own_iff, wing_eqb_eq. unfold edge_is_solved. rewrite andb_true_iff, edgepos_eqb_eq.
  unfold wing_as_edge, edge_position. cbn. rewrite eqb_true_iff.
  destruct w as [[n s b]], o as [[n' s' b']]; cbn. split; [intros [[= -> ->] ->]; auto|intros [= -> -> ->]; auto].
Qed.

Lemma corners_own k s :
  (forall x, In x (set_stickers k (SetCorner s)) -> on_own_face x) <-> set_is_solved corner_desc s = true.
Proof.
  cbn [set_stickers]. rewrite flat_map_forall, set_is_solved_forall. split.
  - intros H o p Hi. specialize (H (o, p) Hi). cbn [fst snd] in H. apply corner_own_iff.
    apply (at_loc_own (corner_loc k p)), H.
  - intros H [o p] Hi. cbn [fst snd]. apply (at_loc_own (corner_loc k p)), corner_own_iff, H, Hi.
Qed.
Lemma edges_own k s :
  (forall x, In x (set_stickers k (SetEdge s)) -> on_own_face x) <-> set_is_solved edge_desc s = true.
Proof.
  cbn [set_stickers]. rewrite flat_map_forall, set_is_solved_forall. split.
  - intros H o p Hi. specialize (H (o, p) Hi). cbn [fst snd] in H. apply edge_own_iff.
    apply (at_loc_own (edge_loc k p)), H.
  - intros H [o p] Hi. cbn [fst snd]. apply (at_loc_own (edge_loc k p)), edge_own_iff, H, Hi.
Qed.
Lemma wings_own k nd s :
  (forall x, In x (set_stickers k (SetWing nd s)) -> on_own_face x) <-> set_is_solved wing_desc s = true.
Proof.
  cbn [set_stickers]. rewrite flat_map_forall, set_is_solved_forall. split.
  - intros H o p Hi. specialize (H (o, p) Hi). cbn [fst snd] in H. apply wing_own_iff.
    apply (at_loc_own (wing_loc k nd p)), H.
  - intros H [o p] Hi. cbn [fst snd]. apply (at_loc_own (wing_loc k nd p)), wing_own_iff, H, Hi.
Qed.
Lemma ccs_own k nd s :
  (forall x, In x (set_stickers k (SetCenterCorner nd s)) -> on_same_sign x) <-> set_is_solved cc_desc s = true.
Proof.
  cbn [set_stickers]. rewrite map_forall, set_is_solved_forall. unfold on_same_sign.
  assert (E : forall o p : CenterCorner,
    px (normal (cc_face p)) + py (normal (cc_face p)) + pz (normal (cc_face p)) = scalar (face_dir (cc_face o))
    <-> cc_is_solved p o = true).
  { intros [[[] [] []] []] [[[] [] []] []]; vm_compute; split; intros H; first [reflexivity|discriminate H]. }
  split.
  - intros H o p Hi. apply E. apply (H (o, p) Hi).
  - intros H [o p] Hi. apply E. apply H, Hi.
Qed.
Lemma ces_own k nd s :
  (forall x, In x (set_stickers k (SetCenterEdge nd s)) -> on_own_face x) <-> set_is_solved ce_desc s = true.
Proof.
  cbn [set_stickers]. rewrite map_forall, set_is_solved_forall. unfold on_own_face. split.
  - intros H o p Hi. apply face_eqb_eq. apply normal_inj, (H (o, p) Hi).
  - intros H [o p] Hi. cbn. f_equal. apply face_eqb_eq, (H o p Hi).
Qed.
Lemma cws_own k nd td s :
  (forall x, In x (set_stickers k (SetCenterWing nd td s)) -> on_own_face x) <-> set_is_solved cw_desc s = true.
Proof.
  cbn [set_stickers]. rewrite map_forall, set_is_solved_forall. unfold on_own_face. split.
  - intros H o p Hi. apply face_eqb_eq. apply normal_inj, (H (o, p) Hi).
  - intros H [o p] Hi. cbn. f_equal. apply face_eqb_eq, (H o p Hi).
Qed.

Lemma own_same_sign s : on_own_face s -> on_same_sign s.
Proof.
  unfold on_own_face, on_same_sign. intros ->. destruct (st_color s) as [[] []]; reflexivity.
Qed.

(** What a set has to look like for the set's [is_solved]. *)
Definition set_ok (k : Z) (s : PieceSetOf) : Prop :=
  forall x, In x (set_stickers k s) ->
    match s with SetCenterCorner _ _ => on_same_sign x | _ => on_own_face x end.

Lemma big_is_solved n c : n = Size4 \/ n = Size6 \/ n = Size7 ->
  (cube_is_solved n c = true <-> forall s, In s (cube_sets n c) -> set_ok (sizeZ n) s).
Proof.
  intros H. destruct n; try (exfalso; destruct H as [H|[H|H]]; discriminate H);
    cbn [cube_is_solved]; unfold cube4_is_solved, cube6_is_solved, cube7_is_solved;
    rewrite !andb_true_iff; cbn [cube_sets In];
    (split;
     [ intros Hs s Hin; repeat (destruct Hin as [<-|Hin]); try contradiction; unfold set_ok;
       first [apply corners_own|apply edges_own|apply wings_own|apply ccs_own|apply ces_own|apply cws_own];
       tauto
     | intros Hs; repeat split;
       match goal with
       | |- set_is_solved corner_desc _ = true => eapply corners_own
       | |- set_is_solved edge_desc _ = true => eapply edges_own
       | |- set_is_solved wing_desc _ = true => eapply wings_own
       | |- set_is_solved cc_desc _ = true => eapply ccs_own
       | |- set_is_solved ce_desc _ = true => eapply ces_own
       | |- set_is_solved cw_desc _ = true => eapply cws_own
       end; eapply Hs; eauto 12 ]).
Qed.

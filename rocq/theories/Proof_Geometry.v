(** Proofs about rotations of space and stickers. *)

From Coq Require Import List Bool ZArith Lia.
From Verif Require Import Model_Base Model_Space Model_Moves Model_Pieces Model_PieceSet Model_Cubes
  Model_Visual Spec_Moves Spec_Geometry Spec_Stickers.
Import ListNotations.
Open Scope Z_scope.

Lemma mkV3_eq a b c a' b' c' : a = a' -> b = b' -> c = c' -> mkV3 a b c = mkV3 a' b' c'.
Proof. congruence. Qed.

(** Clockwise quarter turns around the normals of the faces, explicitly. *)
Definition qf (f : Face) (v : V3) : V3 :=
  match f with
  | mkFace AX Positive => mkV3 (px v) (pz v) (- py v)
  | mkFace AX Negative => mkV3 (px v) (- pz v) (py v)
  | mkFace AY Positive => mkV3 (- pz v) (py v) (px v)
  | mkFace AY Negative => mkV3 (pz v) (py v) (- px v)
  | mkFace AZ Positive => mkV3 (py v) (- px v) (pz v)
  | mkFace AZ Negative => mkV3 (- py v) (px v) (pz v)
  end.

Lemma quarter_cw_normal f v : quarter_cw (normal f) v = qf f v.
Proof.
  destruct v as [x y z], f as [[] []]; unfold quarter_cw, cross, dot, v3_add, v3_scale, normal, unit; cbn;
    apply mkV3_eq; ring.
Qed.

Lemma unit_normal a : unit a = normal (mkFace a Positive).
Proof. destruct a; reflexivity. Qed.

Lemma times_ext {A} n (f g : A -> A) x : (forall y, f y = g y) -> times n f x = times n g x.
Proof. intros H. induction n; cbn; [reflexivity|]. rewrite IHn. apply H. Qed.

Lemma turn_normal f n v : turn (normal f) n v = times n (qf f) v.
Proof. unfold turn. apply times_ext. intros; apply quarter_cw_normal. Qed.

Lemma qf_4 f v : qf f (qf f (qf f (qf f v))) = v.
Proof. destruct f as [[] []], v; cbn; rewrite ?Z.opp_involutive; reflexivity. Qed.

Lemma move_space_inverse m v : move_space (move_inverse m) (move_space m v) = v.
Proof.
  unfold move_space. cbn [move_inverse mv_face mv_amount]. rewrite !turn_normal.
  destruct m as [f []]; cbn; apply qf_4.
Qed.

Lemma move_space_inj m v w : move_space m v = move_space m w -> v = w.
Proof.
  intros E. rewrite <- (move_space_inverse m v), E. apply move_space_inverse.
Qed.

Lemma dot_qf f v : dot (qf f v) (normal f) = dot v (normal f).
Proof. destruct f as [[] []], v; unfold dot; cbn; ring. Qed.

Lemma dot_move_space m v : dot (move_space m v) (normal (mv_face m)) = dot v (normal (mv_face m)).
Proof.
  unfold move_space. rewrite turn_normal. destruct m as [f []]; cbn; rewrite ?dot_qf; reflexivity.
Qed.

(** An [AxisMove] turns space like the [AxisRotation] it converts to. *)
Lemma rot_of_move_space m v : rotate_space (rot_of_move m) v = move_space m v.
Proof.
  unfold rotate_space, move_space, rot_of_move. cbn [rot_axis rot_amount].
  rewrite unit_normal, !turn_normal. destruct m as [[[] []] []], v; cbn;
    rewrite ?Z.opp_involutive; reflexivity.
Qed.

(** ** Faces and vectors *)

Lemma rotate_face_space f r : normal (rotate_face f r) = rotate_space r (normal f).
Proof.
  unfold rotate_space. rewrite unit_normal, turn_normal.
  destruct f as [[] []], r as [[] []]; reflexivity.
Qed.
Lemma rotate_vec3_space v r : point (rotate_vec3 v r) = rotate_space r (point v).
Proof.
  unfold rotate_space. rewrite unit_normal, turn_normal.
  destruct v as [[] [] []], r as [[] []]; reflexivity.
Qed.
Lemma rotate_axis_space a r :
  rotate_space r (unit a) = unit (rotate_axis a r) \/
  rotate_space r (unit a) = v3_neg (unit (rotate_axis a r)).
Proof.
  unfold rotate_space. rewrite (unit_normal (rot_axis r)), turn_normal.
  destruct a, r as [[] []]; (left; reflexivity) || (right; reflexivity).
Qed.
Lemma normal_inj f g : normal f = normal g -> f = g.
Proof. destruct f as [[] []], g as [[] []]; intros E; first [reflexivity|discriminate E]. Qed.
Lemma point_inj f g : point f = point g -> f = g.
Proof. destruct f as [[] [] []], g as [[] [] []]; intros E; first [reflexivity|discriminate E]. Qed.

(** ** Stickers of one piece *)

(** What a move does to a sticker. *)
Definition turn_sticker (m : AxisMove) (s : Sticker) : Sticker :=
  if dot (st_cubie s) (normal (mv_face m)) =? 1
  then mkSticker (move_space m (st_cubie s)) (move_space m (st_normal s)) (st_color s)
  else s.

Fixpoint cur_faces (n : nat) (pos : Vec3) (a : Axis) : list Face :=
  match n with
  | O => []
  | S n => mkFace a (vget pos a) :: cur_faces n pos (corner_next_axis pos a)
  end.
Lemma corner_colors_split n pos orig a b :
  corner_colors_loop n pos orig a b = combine (cur_faces n pos a) (cur_faces n orig b).
Proof. revert a b; induction n as [|n IH]; intros; cbn; [reflexivity|]. f_equal. apply IH. Qed.

Definition turn_facelet (m : AxisMove) (x : V3 * V3) : V3 * V3 :=
  if dot (fst x) (normal (mv_face m)) =? 1 then (move_space m (fst x), move_space m (snd x)) else x.
Definition corner_facelets (c : Corner) : list (V3 * V3) :=
  map (fun f => (to_v3 (corner_coordinates (c_pos c)), normal f)) (cur_faces 3 (c_pos c) (c_axis c)).

Lemma corner_facelets_apply c m :
  corner_facelets (corner_apply c m) = map (turn_facelet m) (corner_facelets c).
Proof. destruct c as [[[] [] []] []], m as [[[] []] []]; vm_compute; reflexivity. Qed.

Definition mk_st (x : (V3 * V3) * Color) : Sticker := mkSticker (fst (fst x)) (snd (fst x)) (snd x).

Lemma piece_stickers_combine (l : list Face) (cs : list Color) p :
  piece_stickers p (combine l cs) = map mk_st (combine (map (fun f => (to_v3 p, normal f)) l) cs).
Proof.
  revert cs; induction l as [|f l IH]; intros [|c cs]; cbn; try reflexivity.
  f_equal. apply IH.
Qed.
Lemma map_turn_combine m l (cs : list Color) :
  map mk_st (combine (map (turn_facelet m) l) cs) = map (turn_sticker m) (map mk_st (combine l cs)).
Proof.
  revert cs; induction l as [|[p n] l IH]; intros [|c cs]; cbn; try reflexivity.
  f_equal; [|apply IH]. unfold mk_st, turn_sticker, turn_facelet. cbn.
  destruct (_ =? _); reflexivity.
Qed.

Lemma corner_stickers_apply c o m :
  piece_stickers (corner_coordinates (c_pos (corner_apply c m))) (corner_colors (corner_apply c m) o)
  = map (turn_sticker m) (piece_stickers (corner_coordinates (c_pos c)) (corner_colors c o)).
Proof.
  unfold corner_colors. rewrite !corner_colors_split, !piece_stickers_combine.
  fold (corner_facelets (corner_apply c m)). fold (corner_facelets c).
  rewrite corner_facelets_apply. apply map_turn_combine.
Qed.

Definition edge_cur_faces (e : Edge) : list Face :=
  let f1 := orientation_face (edge_position e) in
  let f2 := non_orientation_face (edge_position e) in
  if e_oriented e then [f1; f2] else [f2; f1].
Lemma edge_colors_split e o :
  edge_colors e o = combine (edge_cur_faces e) [orientation_face o; non_orientation_face o].
Proof. unfold edge_colors, edge_cur_faces. destruct (e_oriented e); reflexivity. Qed.
Definition edge_facelets (e : Edge) : list (V3 * V3) :=
  map (fun f => (to_v3 (edge_coordinates (edge_position e)), normal f)) (edge_cur_faces e).
Lemma edge_facelets_apply e m :
  edge_facelets (edge_apply e m) = map (turn_facelet m) (edge_facelets e).
Proof. destruct e as [[] [[] []] []], m as [[[] []] []]; vm_compute; reflexivity. Qed.
Lemma edge_stickers_apply e o m :
  piece_stickers (edge_coordinates (edge_position (edge_apply e m))) (edge_colors (edge_apply e m) o)
  = map (turn_sticker m) (piece_stickers (edge_coordinates (edge_position e)) (edge_colors e o)).
Proof.
  rewrite !edge_colors_split, !piece_stickers_combine.
  fold (edge_facelets (edge_apply e m)). fold (edge_facelets e).
  rewrite edge_facelets_apply. apply map_turn_combine.
Qed.

(** ** Stickers of the cube *)

Lemma combine_map_r {A B C} (f : B -> C) (l : list A) (l' : list B) :
  combine l (map f l') = map (fun x => (fst x, f (snd x))) (combine l l').
Proof. revert l'; induction l; intros [|b l']; cbn; try reflexivity. f_equal. auto. Qed.

Lemma flat_map_map_in {A B C} (f : B -> list C) (g : A -> B) l :
  flat_map f (map g l) = flat_map (fun x => f (g x)) l.
Proof. induction l; cbn; congruence. Qed.
Lemma map_flat_map {A B C} (f : B -> C) (g : A -> list B) l :
  map f (flat_map g l) = flat_map (fun x => map f (g x)) l.
Proof. induction l; cbn; [reflexivity|]. rewrite map_app. congruence. Qed.
Lemma flat_map_ext' {A B} (f g : A -> list B) l : (forall a, f a = g a) -> flat_map f l = flat_map g l.
Proof. intros H. induction l; cbn; congruence. Qed.

Lemma centres_turn m :
  map (turn_sticker m) (map (fun f => mkSticker (normal f) (normal f) f) face_iter)
  = map (fun f => mkSticker (normal f) (normal f) f) face_iter.
Proof. destruct m as [[[] []] []]; vm_compute; reflexivity. Qed.

Lemma cube3_stickers_apply c m :
  cube3_stickers (cube3_apply c m) = map (turn_sticker m) (cube3_stickers c).
Proof.
  unfold cube3_stickers. rewrite !map_app, centres_turn. f_equal.
  unfold cube3_apply, corner_set_apply, edge_set_apply, iter_with_pos; cbn [c3_corners c3_edges].
  rewrite !combine_map_r, !flat_map_map_in, !map_flat_map.
  f_equal; apply flat_map_ext'; intros [o p]; cbn [fst snd].
  - apply corner_stickers_apply.
  - apply edge_stickers_apply.
Qed.

Lemma find_first_map {A B} (f : A -> B) p q l :
  (forall a, p (f a) = q a) -> find_first p (map f l) = option_map f (find_first q l).
Proof.
  intros H. induction l as [|a l IH]; cbn; [reflexivity|]. rewrite H.
  destruct (q a); [reflexivity|exact IH].
Qed.

Lemma v3_eqb_iff a b c d : (a = b <-> c = d) -> v3_eqb a b = v3_eqb c d.
Proof.
  intros H. destruct (v3_eqb a b) eqn:E1, (v3_eqb c d) eqn:E2; try reflexivity.
  - apply v3_eqb_eq, H, v3_eqb_eq in E1. congruence.
  - apply v3_eqb_eq, H, v3_eqb_eq in E2. congruence.
Qed.

Lemma v3_eqb_neq a b : a <> b -> v3_eqb a b = false.
Proof. intros H. destruct (v3_eqb a b) eqn:E; [apply v3_eqb_eq in E; contradiction|reflexivity]. Qed.

Lemma color_at_turn c m p n :
  color_at (cube3_apply c m)
    (if dot p (normal (mv_face m)) =? 1 then move_space m p else p)
    (if dot p (normal (mv_face m)) =? 1 then move_space m n else n) = color_at c p n.
Proof.
  unfold color_at. rewrite cube3_stickers_apply.
  rewrite (find_first_map (turn_sticker m) _ (fun s => v3_eqb (st_cubie s) p && v3_eqb (st_normal s) n)).
  - destruct (find_first _ _) as [s|]; cbn; [|reflexivity].
    unfold turn_sticker. destruct (_ =? _); reflexivity.
  - intros s. unfold turn_sticker.
    destruct (dot (st_cubie s) (normal (mv_face m)) =? 1) eqn:Es; cbn [st_cubie st_normal];
    destruct (dot p (normal (mv_face m)) =? 1) eqn:Ep.
    + f_equal; apply v3_eqb_iff; (split; [apply move_space_inj|congruence]).
    + rewrite (v3_eqb_neq (move_space m _) p), (v3_eqb_neq (st_cubie s) p); [reflexivity| |];
        intros E; rewrite <- E, ?dot_move_space in Ep; congruence.
    + rewrite (v3_eqb_neq (st_cubie s) (move_space m p)), (v3_eqb_neq (st_cubie s) p); [reflexivity| |];
        intros E; rewrite E, ?dot_move_space in Es; congruence.
    + reflexivity.
Qed.

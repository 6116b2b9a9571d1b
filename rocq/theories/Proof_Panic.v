(** None of the checks made while a cube is moved can fail. *)

From Coq Require Import List Bool Arith NArith ZArith.
From Verif Require Import Model_Base Model_Space Model_Moves Model_Pieces Model_PieceSet Model_Cubes
  Model_NonRedundant Model_Orientable Model_OrientableMoves Model_Panic Proof_NonRedundant.
Import ListNotations.
Open Scope nat_scope.

Lemma each_o_done {A} (f : A -> outcome A) g l : (forall a, f a = Done (g a)) -> each_o f l = Done (map g l).
Proof. intros H. induction l as [|a l IH]; cbn; [reflexivity|]. rewrite H, IH. reflexivity. Qed.

Lemma edge_apply_p_done e m : edge_apply_p e m = Done (edge_apply e m).
Proof.
  unfold edge_apply_p, edge_apply. rewrite contains_edge_o_done. cbn [bind_o].
  destruct (contains_edge _ _); [apply edge_rotate_o_done|reflexivity].
Qed.

Lemma corners_p_done s m : corners_p s m = Done (corner_set_apply s m).
Proof. apply each_o_done. reflexivity. Qed.
Lemma edges_p_done s m : edges_p s m = Done (edge_set_apply s m).
Proof. apply (each_o_done _ (fun e => edge_apply e m)). intros; apply edge_apply_p_done. Qed.

Lemma depth_set_apply_p_done {P} (iw : P -> N -> N -> N -> WideAxisMove -> outcome bool) iw' rt rt' nd td mx s m :
  (forall p, iw p nd td mx m = Done (iw' p nd td mx m)) -> (forall p r, rt p r = Done (rt' p r)) ->
  depth_set_apply_p iw rt nd td mx s m = Done (depth_set_apply iw' rt' nd td mx s m).
Proof.
  intros H1 H2. unfold depth_set_apply_p, depth_set_apply.
  apply each_o_done. intros p. rewrite H1. cbn. destruct (iw' _ _ _ _ _); [apply H2|reflexivity].
Qed.

Lemma wing_rotate_p_done w r : wing_rotate_p w r = Done (wing_rotate w r).
Proof. unfold wing_rotate_p. rewrite edge_rotate_o_done. reflexivity. Qed.
Lemma wing_in_wide_p_done w nd td mx m : wing_in_wide_p w nd td mx m = Done (wing_in_wide w nd td mx m).
Proof.
  unfold wing_in_wide_p, wing_in_wide. rewrite contains_edge_o_done. cbn.
  destruct (contains_edge _ _); [reflexivity|]. destruct (axis_eqb _ _); reflexivity.
Qed.
Lemma ce_in_wide_p_done c nd td mx m : ce_in_wide_p c nd td mx m = Done (ce_in_wide c nd td mx m).
Proof.
  unfold ce_in_wide_p, ce_in_wide. rewrite ce_side_face_o_done.
  destruct (face_eqb _ _); reflexivity.
Qed.
Lemma cw_rotate_p_done c r : cw_rotate_p c r = Done (cw_rotate c r).
Proof.
  unfold cw_rotate_p, cw_rotate. rewrite ce_rotate_o_done. cbn [bind_o].
  rewrite ce_normal_axis_o_done. reflexivity.
Qed.
Lemma cw_in_wide_p_done c nd td mx m : cw_in_wide_p c nd td mx m = Done (cw_in_wide c nd td mx m).
Proof.
  rewrite <- cw_in_wide_o_done. unfold cw_in_wide_p, cw_in_wide_o, cw_normal_dir_p, cw_normal_dir.
  rewrite ce_side_face_o_done, ce_normal_axis_o_done. cbn [bind_o map_o].
  destruct (face_eqb _ _); [reflexivity|]. destruct (face_eqb _ _); [reflexivity|].
  destruct (_ || _); [reflexivity|]. destruct (axis_eqb _ _); reflexivity.
Qed.

Lemma wings_p_done nd mx s m : wings_p nd mx s m = Done (wings_apply nd mx s m).
Proof. apply depth_set_apply_p_done; intros; [apply wing_in_wide_p_done|apply wing_rotate_p_done]. Qed.
Lemma ccs_p_done nd mx s m : ccs_p nd mx s m = Done (ccs_apply nd mx s m).
Proof. apply depth_set_apply_p_done; reflexivity. Qed.
Lemma ces_p_done nd mx s m : ces_p nd mx s m = Done (ces_apply nd mx s m).
Proof. apply depth_set_apply_p_done; intros; [apply ce_in_wide_p_done|apply ce_rotate_o_done]. Qed.
Lemma cws_p_done nd td mx s m : cws_p nd td mx s m = Done (cws_apply nd td mx s m).
Proof. apply depth_set_apply_p_done; intros; [apply cw_in_wide_p_done|apply cw_rotate_p_done]. Qed.

Ltac sets := rewrite ?corners_p_done, ?edges_p_done, ?wings_p_done, ?ccs_p_done, ?ces_p_done, ?cws_p_done;
  reflexivity.

Lemma cube_apply_wide_p_done n c w : cube_apply_wide_p n c w = Done (cube_apply_wide n c w).
Proof.
  destruct n; cbn [cube_apply_wide_p cube_apply_wide].
  - unfold cube2_apply_p. sets.
  - unfold cube3_apply_p. sets.
  - unfold cube4_wide_p. sets.
  - unfold cube5_wide_p. sets.
  - unfold cube6_wide_p. sets.
  - unfold cube7_wide_p. sets.
Qed.

Lemma cube_apply_p_done n c m : cube_apply_p n c m = Done (cube_apply n c m).
Proof.
  destruct n; cbn [cube_apply_p cube_apply];
    unfold cube4_apply, cube5_apply, cube6_apply, cube7_apply, apply_widened_p, apply_widened;
    rewrite ?widen_to_done; cbn [bind_o].
  - exact (cube_apply_wide_p_done Size2 c (mkWide 0 m)).
  - exact (cube_apply_wide_p_done Size3 c (mkWide 0 m)).
  - exact (cube_apply_wide_p_done Size4 c _).
  - exact (cube_apply_wide_p_done Size5 c _).
  - exact (cube_apply_wide_p_done Size6 c _).
  - exact (cube_apply_wide_p_done Size7 c _).
Qed.

Lemma apply_alg_o_done {C M} (f : C -> M -> outcome C) g al :
  (forall c m, f c m = Done (g c m)) -> forall c, apply_alg_o f c al = Done (apply_alg g c al).
Proof. intros H. induction al as [|m al IH]; intros c; cbn; [reflexivity|]. rewrite H. apply IH. Qed.

Lemma min_moves_p_done p e : min_moves_to_solve_p p e = Done (min_moves_to_solve p e).
Proof. destruct p as [[] [[] []]], e as [[] [[] []] []]; reflexivity. Qed.

Lemma absorve_p_done acc m : absorve_p acc m = Done (absorve acc m).
Proof.
  unfold absorve_p, absorve. destruct acc as [[k|a p q]|]; [| |reflexivity];
    rewrite ?amount_add_o_done; cbn [map_o]; destruct (axis_eqb _ _); try reflexivity.
  - destruct (face_dir (mv_face k)), (face_dir (mv_face m)); try reflexivity; cbn;
      destruct (amount_add _ _); reflexivity.
  - destruct (face_dir (mv_face m)); cbn; destruct (amount_add _ _); reflexivity.
Qed.

Lemma normalize_loop_p_done fuel : forall input out acc,
  normalize_loop_p fuel input out acc = option_map Done (normalize_loop fuel input out acc).
Proof.
  induction fuel as [|fuel IH]; intros input out acc; [reflexivity|].
  cbn [normalize_loop_p normalize_loop]. destruct input as [|mov input]; [reflexivity|].
  rewrite absorve_p_done. destruct (absorve acc mov) as [acc' []]; try apply IH.
  destruct (offload acc' out); apply IH.
Qed.

Lemma orientable_apply_p_same n o m : orientable_apply_p n o m = orientable_apply n o m.
Proof.
  unfold orientable_apply_p, orientable_apply. destruct (or_rotations _); [|reflexivity].
  cbn [bind_o map_o]. rewrite cube_apply_p_done. reflexivity.
Qed.

Lemma slice_step_p_same n r w c d : slice_step_p n r w c d = slice_step n r w c d.
Proof. unfold slice_step_p, slice_step. destruct (wide_new _ _ _ _); [apply cube_apply_wide_p_done|reflexivity]. Qed.

Lemma ext_apply_p_same n o m : ext_apply_p n o m = ext_apply n o m.
Proof.
  destruct m as [m|r|w|r wide]; cbn [ext_apply_p ext_apply].
  - apply orientable_apply_p_same.
  - reflexivity.
  - destruct (N.ltb _ _); [reflexivity|].
    match goal with |- bind_o ?x _ = bind_o ?x _ => destruct x as [[o' w']|] end; [|reflexivity].
    cbn [bind_o]. destruct (wide_set_max_depth _ _); [|reflexivity].
    rewrite cube_apply_wide_p_done. reflexivity.
  - rewrite slice_step_p_same. destruct (slice_step _ _ _ _ _); [|reflexivity]. cbn [bind_o].
    rewrite slice_step_p_same. reflexivity.
Qed.

(** C67 - C68: face moves of every kind on orientable cubes, and what [is_solved] means
    for them. *)

From Coq Require Import List Bool Arith NArith ZArith Lia.
From Verif Require Import Model_Base Model_Space Model_Moves Model_Pieces Model_PieceSet Model_Cubes
  Model_Connect Model_NonRedundant Model_Orientable Model_OrientableMoves
  Spec_Moves Spec_Geometry Spec_Stickers Spec_Sets Spec_BigCube Spec_Orientable
  Proof_Moves Proof_NonRedundant Proof_Sets Proof_Geometry Proof_BigCube Prop_Moves Prop_Geometry Prop_BigCube Prop_Connect Prop_Orientable.
Import ListNotations.
Open Scope nat_scope.

(* ------------------------------------------------------------------ *)
(** * C67 *)

Definition rotations_of (o : Orientation) : list AxisRotation := from_outcome [] (or_rotations o).
Lemma rotations_of_done o : or_rotations o = Done (rotations_of o).
Proof. destruct (C45_rotations_no_panic o) as (rs & R & _). unfold rotations_of. rewrite R. reflexivity. Qed.

Definition seen (o : Orientation) (m : AxisMove) : AxisMove := fold_left rotate_move (rotations_of o) m.
Definition oact (n : CubeSize) (o : Orientable n) (m : AxisMove) : Orientable n :=
  mkOrientable (cube_apply n (ob_cube o) (seen (ob_ori o) m)) (ob_ori o).
Lemma orientable_apply_oact n o m : orientable_apply n o m = Done (oact n o m).
Proof. unfold orientable_apply, oact, seen. rewrite rotations_of_done. reflexivity. Qed.

Lemma apply_alg_done {C M} (app : C -> M -> outcome C) (act : C -> M -> C) :
  (forall c m, app c m = Done (act c m)) -> forall al c, apply_alg_o app c al = Done (fold_left act al c).
Proof. intros H al. induction al as [|m al IH]; intros c; [reflexivity|]. cbn [apply_alg_o fold_left]. rewrite H. apply IH. Qed.
Lemma run_oact n al o : apply_alg_o (orientable_apply n) o al = Done (fold_left (oact n) al o).
Proof. apply apply_alg_done, orientable_apply_oact. Qed.

Lemma seen_face o f a : seen o (mkMove f a) = mkMove (fold_left rotate_face (rotations_of o) f) a.
Proof. unfold seen. rewrite rotate_move_fold. reflexivity. Qed.
Lemma rotate_face_axis rs : forall a d, exists b s, forall e,
  fold_left rotate_face rs (mkFace a e) = mkFace b (if dir_eqb e d then s else dir_neg s).
Proof.
  induction rs as [|r rs IH]; intros a d.
  - exists a, d. intros e. cbn. destruct d, e; reflexivity.
  - assert (R : exists b s, forall e, rotate_face (mkFace a e) r = mkFace b (if dir_eqb e d then s else dir_neg s)).
    { destruct r as [[] []], a, d;
        first [exists AX, Positive; intros []; reflexivity|exists AX, Negative; intros []; reflexivity
              |exists AY, Positive; intros []; reflexivity|exists AY, Negative; intros []; reflexivity
              |exists AZ, Positive; intros []; reflexivity|exists AZ, Negative; intros []; reflexivity]. }
    destruct R as (b & s & R). destruct (IH b s) as (b' & s' & H). exists b', s'. intros e. cbn [fold_left].
    rewrite R, H. destruct d, e, s; reflexivity.
Qed.

Lemma oact_ok n : move_action_ok (oact n).
Proof.
  split; intros c; unfold oact; cbn [ob_cube ob_ori].
  - intros f x y. rewrite !seen_face, (ma_add _ (cube_apply_ok n)). destruct (amount_add x y) as [s|]; [rewrite seen_face|destruct c]; reflexivity.
  - intros a e1 e2 x y. f_equal. rewrite !seen_face. destruct (rotate_face_axis (rotations_of (ob_ori c)) a Positive) as (b & s & R).
    rewrite !R. apply (ma_comm _ (cube_apply_ok n)).
Qed.

(** Face moves never panic on an orientable cube and never change how it is held; the
    base cube gets the alg turned by [rotations()]. *)
Theorem C67_face_moves : forall n (o : Orientable n) (al : list AxisMove), exists rs,
  or_rotations (ob_ori o) = Done rs /\
  apply_alg_o (orientable_apply n) o al =
    Done (mkOrientable (fold_left (cube_apply n) (fold_left rotate_alg rs al) (ob_cube o)) (ob_ori o)).
Proof.
  intros n o al. exists (rotations_of (ob_ori o)). split; [apply rotations_of_done|]. rewrite run_oact. f_equal.
  assert (M : forall rs al, fold_left rotate_alg rs al = map (fun m => fold_left rotate_move rs m) al).
  { clear. induction rs as [|r rs IH]; intros al; [symmetry; apply map_id|]. cbn [fold_left]. rewrite IH. unfold rotate_alg. apply map_map. }
  rewrite M. fold (seen (ob_ori o)). revert o. induction al as [|m al IH]; intros o; [destruct o; reflexivity|].
  cbn [fold_left map]. rewrite IH. reflexivity.
Qed.

(** Every way of writing the same turns has the same effect: the normalised alg, quarter
    turns, wide moves of depth 0, non-redundant moves, extended moves. *)
Theorem C67_same_effect : forall n (o : Orientable n) (al : list AxisMove),
  let result := apply_alg_o (orientable_apply n) o al in
  apply_alg_o (orientable_apply n) o (normalized al) = result /\
  apply_alg_o (orientable_apply_quarter n) o (quarter_alg al) = result /\
  (exists ws, alg_widen 0 al 0 = Ok ws /\ apply_alg_o (orientable_apply_wide0 n) o ws = result) /\
  (forall nl, nr_alg nl = al -> apply_alg_o (orientable_apply_nr n) o nl = result) /\
  apply_alg_o (ext_apply n) o (map XRegular al) = result.
Proof.
  intros n o al result. subst result. rewrite !run_oact.
  split; [f_equal; apply normalized_effect, oact_ok|]. split; [|split; [|split]].
  - rewrite (apply_alg_done _ (fun o q => oact n o (move_of_quarter q))) by (intros; apply orientable_apply_oact).
    f_equal. apply quarter_alg_effect, oact_ok.
  - exists (map (mkWide 0) al). split.
    + induction al as [|[f a] al IH]; [reflexivity|]. cbn [alg_widen map]. rewrite IH. reflexivity.
    + rewrite (apply_alg_done _ (fun o w => oact n o (w_move w))) by (intros; apply orientable_apply_oact). f_equal.
      revert o. induction al as [|m al IH]; intros o; [reflexivity|]. cbn [map fold_left w_move]. apply IH.
  - intros nl <-. rewrite (apply_alg_done _ (apply_nr (oact n))) by (intros; apply run_oact). f_equal.
    revert o. induction nl as [|m nl IH]; intros o; [reflexivity|]. cbn [fold_left nr_alg flat_map]. unfold nr_alg in *.
    rewrite fold_left_app, <- IH. reflexivity.
  - rewrite <- run_oact. revert o. induction al as [|m al IH]; intros o; [reflexivity|]. cbn [map apply_alg_o ext_apply].
    destruct (orientable_apply n o m) as [o'|]; [apply IH|reflexivity].
Qed.

(** Each kind of alg is undone by its reverse. *)
Theorem C67_reversed : forall n (o : Orientable n),
  (forall al o', apply_alg_o (orientable_apply n) o al = Done o' ->
     apply_alg_o (orientable_apply n) o' (alg_reversed move_inverse al) = Done o) /\
  (forall al o', apply_alg_o (orientable_apply_quarter n) o al = Done o' ->
     apply_alg_o (orientable_apply_quarter n) o' (alg_reversed quarter_inverse al) = Done o) /\
  (forall al o', apply_alg_o (orientable_apply_nr n) o al = Done o' ->
     apply_alg_o (orientable_apply_nr n) o' (alg_reversed nr_inverse al) = Done o).
Proof.
  assert (G : forall n M (app : Orientable n -> M -> outcome (Orientable n)) act inv,
    (forall c m, app c m = Done (act c m)) -> (forall c m, act (act c m) (inv m) = c) ->
    forall al o o', apply_alg_o app o al = Done o' -> apply_alg_o app o' (alg_reversed inv al) = Done o).
  { intros n M app act inv D I al o o'. rewrite !(apply_alg_done _ _ D). intros [= <-]. f_equal.
    revert o. induction al as [|m al IH]; intros o; [reflexivity|]. unfold alg_reversed in *. cbn [rev fold_left].
    rewrite map_app, fold_left_app, IH. cbn. apply I. }
  intros n o. split; [|split]; intros al o'.
  - apply (G _ _ _ (oact n)); [apply orientable_apply_oact|]. intros. apply (ma_inverse _ (oact_ok n)).
  - apply (G _ _ _ (fun o q => oact n o (move_of_quarter q))); [intros; apply orientable_apply_oact|].
    intros c [f d]. pose proof (ma_inverse _ (oact_ok n) c (move_of_quarter (mkQuarter f d))) as E. destruct d; exact E.
  - apply (G _ _ _ (apply_nr (oact n))); [intros; apply run_oact|]. intros. apply apply_nr_inverse, oact_ok.
Qed.

(** The moves can be recovered from the states, as on the bare cubes. *)
Fixpoint orientable_states (n : CubeSize) (o : Orientable n) (al : list AxisMove) : outcome (list (Orientable n)) :=
  match al with
  | [] => Done [o]
  | m :: r => bind_o (orientable_apply n o m) (fun o' => map_o (cons o) (orientable_states n o' r))
  end.

Lemma rotate_face_inj rs f g : fold_left rotate_face rs f = fold_left rotate_face rs g -> f = g.
Proof.
  revert f g. induction rs as [|r rs IH]; intros f g; [auto|]. cbn [fold_left]. intros E. apply IH in E.
  revert E. destruct r as [[] []], f as [[] []], g as [[] []]; cbn; intros E; first [reflexivity|discriminate E].
Qed.
Lemma seen_inj o m m' : seen o m = seen o m' -> m = m'.
Proof.
  destruct m as [f a], m' as [g b]. rewrite !seen_face. intros [= E ->]. f_equal. apply (rotate_face_inj _ _ _ E).
Qed.
Lemma orientable_eqb_eq n a b : orientable_eqb n a b = true <-> a = b.
Proof.
  unfold orientable_eqb. rewrite andb_true_iff, cube_eqb_eq, ori_eqb_eq. destruct a, b; cbn.
  split; [intros [-> ->]; reflexivity|intros [= -> ->]; auto].
Qed.
Lemma find_o_done {A} (p : A -> outcome bool) (q : A -> bool) l :
  (forall a, p a = Done (q a)) -> find_o p l = Done (find_first q l).
Proof. intros H. induction l as [|a l IH]; [reflexivity|]. cbn [find_o find_first]. rewrite H. cbn [bind_o]. destruct (q a); auto. Qed.
Lemma orientable_connect_done n a b :
  orientable_connect n a b = Done (find_first (fun m => orientable_eqb n (oact n a m) b) all_moves).
Proof. apply find_o_done. intros m. rewrite orientable_apply_oact. reflexivity. Qed.

Theorem C67_connect : forall n (a b : Orientable n),
  (exists r, orientable_connect n a b = Done r) /\
  (forall m, orientable_connect n a b = Done (Some m) -> orientable_apply n a m = Done b) /\
  (orientable_connect n a b = Done None <-> ~ exists m, orientable_apply n a m = Done b) /\
  (forall m, cube_well_formed n (ob_cube a) -> orientable_apply n a m = Done b -> orientable_connect n a b = Done (Some m)).
Proof.
  intros n a b. rewrite orientable_connect_done.
  assert (S : forall m, find_first (fun m => orientable_eqb n (oact n a m) b) all_moves = Some m -> oact n a m = b).
  { intros m H. apply find_first_Some in H. apply orientable_eqb_eq, H. }
  assert (N : find_first (fun m => orientable_eqb n (oact n a m) b) all_moves = None <-> ~ exists m, oact n a m = b).
  { rewrite find_first_None. split.
    - intros H (m & E). specialize (H m (all_moves_complete m)). cbv beta in H.
      rewrite (proj2 (orientable_eqb_eq n _ _) E) in H. discriminate.
    - intros H m _. destruct (orientable_eqb n (oact n a m) b) eqn:E; [|reflexivity].
      exfalso. apply H. exists m. apply orientable_eqb_eq, E. }
  split; [eauto|]. split; [|split].
  - intros m [= H]. rewrite orientable_apply_oact. f_equal. apply S, H.
  - split.
    + intros [= H]. apply N in H. intros (m & E). apply H. exists m. rewrite orientable_apply_oact in E. injection E as E. exact E.
    + intros H. f_equal. apply N. intros (m & E). apply H. exists m. rewrite orientable_apply_oact, E. reflexivity.
  - intros m W E. rewrite orientable_apply_oact in E. injection E as E. f_equal.
    remember (find_first _ _) as r eqn:F. destruct r as [m'|].
    + f_equal. pose proof (S m' eq_refl) as F'. clear F. rename F' into F. rewrite <- E in F. unfold oact in F. injection F as F.
      apply (apply_injective n _ _ _ W) in F. apply (seen_inj _ _ _ F).
    + exfalso. apply (proj1 N eq_refl). eauto.
Qed.

Theorem C67_states_recover : forall n (o : Orientable n) (al : list AxisMove), cube_well_formed n (ob_cube o) ->
  exists states, orientable_states n o al = Done states /\
    orientable_try_from_states n states = Done (Ok al).
Proof.
  intros n o al. revert o. induction al as [|m al IH]; intros o W; [eexists; split; reflexivity|].
  destruct (IH (oact n o m)) as (st & S & T).
  { unfold oact. cbn [ob_cube]. apply cube_well_formed_move, W. }
  assert (H : exists r, st = oact n o m :: r).
  { destruct al; cbn [orientable_states] in S; [injection S as <-; eauto|].
    rewrite orientable_apply_oact in S. cbn [bind_o] in S. destruct (orientable_states n _ al); [injection S as <-; eauto|discriminate]. }
  destruct H as (r & ->). exists (o :: oact n o m :: r). split.
  - cbn [orientable_states]. rewrite orientable_apply_oact. cbn [bind_o]. rewrite S. reflexivity.
  - cbn [orientable_try_from_states]. cbn [orientable_try_from_states] in T.
    rewrite (proj2 (proj2 (proj2 (C67_connect n o (oact n o m)))) m W (orientable_apply_oact n o m)).
    cbn [bind_o]. rewrite T. reflexivity.
Qed.

(** A scrambled cube held with another face in front, and an alg that is shortened. *)
Example C67_example :
  let o := mkOrientable (n := Size3) (cube_apply Size3 cube3_solved (mkMove fR Single)) (or_rotate ori_default (mkRot AY Single)) in
  let al := [mkMove fR Single; mkMove fR Single; mkMove fU Double] in
  cube_well_formed Size3 (ob_cube o) /\ normalized al <> al /\ quarter_alg al <> [] /\
  nr_alg [NRSingle (mkMove fR Single); NRSingle (mkMove fR Single); NRSingle (mkMove fU Double)] = al /\
  apply_alg_o (orientable_apply Size3) o al <> Done o.
Proof.
  split; [apply (cube_well_formed_move Size3), (cube_well_formed_solved Size3)|].
  split; [vm_compute; discriminate|]. split; [discriminate|]. split; [reflexivity|].
  intros H. apply (f_equal (fun x : outcome (Orientable Size3) => match x with Done o => c3_corners (ob_cube o) | Panic => [] end)) in H.
  vm_compute in H. discriminate H.
Qed.

(* ------------------------------------------------------------------ *)
(** * C68: [is_solved] of an orientable cube *)

(** What a person calls solved, however the cube is held: stickers that face the same way
    have the same colour. *)
Definition looks_solved (n : CubeSize) (o : Orientable n) : Prop :=
  forall s s', In s (view n o) -> In s' (view n o) -> st_normal s = st_normal s' -> st_color s = st_color s'.

Definition C68_claim (n : CubeSize) : Prop :=
  forall (o : Orientable n), cube_well_formed n (ob_cube o) ->
    (orientable_is_solved n o = true <-> looks_solved n o).

(** What it means exactly: every piece is where [SOLVED] has it, and the cube is held with
    R to the right and U on top. *)
Theorem C68_exact_partial : forall n (o : Orientable n),
  orientable_is_solved n o = true <->
  ob_cube o = cube_solved n /\ or_r_face (ob_ori o) = fR /\ or_u_face (ob_ori o) = fU.
Proof.
  intros n [c o]. unfold orientable_is_solved. rewrite orientable_eqb_eq. unfold orientable_solved, orientable_new. cbn [ob_cube ob_ori].
  split.
  - intros [= -> ->]. repeat split; reflexivity.
  - intros (-> & R & U). f_equal. destruct o as [[[] []] [] []]; first [reflexivity|discriminate R|discriminate U].
Qed.

Lemma orientation_map_normal_inj o f g : orientation_map o (normal f) = orientation_map o (normal g) -> f = g.
Proof. destruct o as [[[] []] [] []], f as [[] []], g as [[] []]; intros H; vm_compute in H; first [reflexivity|discriminate H]. Qed.

(** A cube whose stickers are all on their own faces looks solved however it is held. *)
Lemma shows_looks n (c : CubeOf n) o : shows_solved n c -> looks_solved n (mkOrientable c o).
Proof.
  intros H s s' Hs Hs' E. unfold view in *. cbn [ob_cube ob_ori] in *.
  assert (A : forall x, In x (cube_stickers n c ++ centre_stickers n) -> st_normal x = normal (st_color x)).
  { intros x Hx. apply in_app_or in Hx as [Hx|Hx]; [apply H, Hx|]. unfold centre_stickers in Hx.
    destruct (Z.odd _); [|destruct Hx]. apply in_map_iff in Hx as (f & <- & _). reflexivity. }
  apply in_map_iff in Hs as (x & <- & Hx). apply in_map_iff in Hs' as (x' & <- & Hx'). unfold hold in *. cbn [st_normal st_color] in *.
  rewrite (A x Hx), (A x' Hx') in E. apply (orientation_map_normal_inj _ _ _ E).
Qed.

(** So a cube reported solved looks solved ... *)
Theorem C68_solved_looks_partial : forall n (o : Orientable n), orientable_is_solved n o = true -> looks_solved n o.
Proof.
  intros n [c o] H. apply C68_exact_partial in H as (E & _). cbn [ob_cube] in E. subst c. apply shows_looks.
  apply shows_solvedb_spec. destruct n; vm_compute; reflexivity.
Qed.

(** ... but a solved cube that has been turned as a whole is reported unsolved, whichever
    way it was turned: on every cube size, after any rotations that do not bring it back. *)
Theorem C68_turned_refuted : forall n rs o,
  apply_alg_o (ext_apply n) (orientable_solved n) (map XRotation rs) = Done o ->
  looks_solved n o /\
  (orientable_is_solved n o = false <-> rotate_all rs (normal fR) <> normal fR \/ rotate_all rs (normal fU) <> normal fU).
Proof.
  intros n rs o H.
  assert (R : forall rs (p : Orientable n), apply_alg_o (ext_apply n) p (map XRotation rs)
     = Done (mkOrientable (ob_cube p) (fold_left or_rotate rs (ob_ori p)))).
  { clear. induction rs as [|r rs IH]; intros [c o]; [reflexivity|]. cbn [map apply_alg_o ext_apply]. unfold orientable_rotate.
    cbn [ob_ori ob_cube]. rewrite or_rotate_o_done. cbn [map_o bind_o]. rewrite IH. reflexivity. }
  rewrite R in H. injection H as <-. split.
  { apply shows_looks, shows_solvedb_spec. destruct n; vm_compute; reflexivity. }
  cbn [ob_ori orientable_solved orientable_new].
  destruct (C45_tracks rs) as (o & S & HR & HU & _). rewrite rotate_seq_done in S. injection S as S.
  rewrite S, <- HR, <- HU. rewrite <- not_true_iff_false, C68_exact_partial. cbn [ob_cube ob_ori orientable_solved orientable_new].
  split.
  - intros N. destruct (face_eqb (or_r_face o) fR) eqn:A; [|left; intros E; apply normal_inj in E; rewrite E in A; discriminate A].
    destruct (face_eqb (or_u_face o) fU) eqn:B; [|right; intros E; apply normal_inj in E; rewrite E in B; discriminate B].
    exfalso. apply N. apply face_eqb_eq in A, B. auto.
  - intros [N|N] (_ & A & B); apply N; congruence.
Qed.

Theorem C68_claim_refuted : forall n, ~ C68_claim n.
Proof.
  intros n H. specialize (H (mkOrientable (cube_solved n) (or_rotate ori_default (mkRot AX Single))) (cube_well_formed_solved n)).
  set (o := mkOrientable (cube_solved n) (or_rotate ori_default (mkRot AX Single))) in H.
  destruct (C68_turned_refuted n [mkRot AX Single] o eq_refl) as [L E].
  apply H in L. destruct E as [_ E]. rewrite E in L; [discriminate|]. right. vm_compute. discriminate.
Qed.

(** On the 4x4x4, 6x6x6 and 7x7x7 it also differs from [is_solved] of the base cube, which
    accepts centre pieces of one face exchanged: a cube held in the default way, solved to
    the eye and for the base cube. *)
Theorem C68_base_refuted : forall n, n = Size4 \/ n = Size6 \/ n = Size7 ->
  let o := mkOrientable (run_wide n same_face_cycle) ori_default in
  looks_solved n o /\ cube_is_solved n (ob_cube o) = true /\ orientable_is_solved n o = false.
Proof.
  intros n Hn o. subst o. split; [|split].
  - apply shows_looks, shows_solvedb_spec. destruct Hn as [->|[->| ->]]; vm_compute; reflexivity.
  - destruct Hn as [->|[->| ->]]; vm_compute; reflexivity.
  - destruct Hn as [->|[->| ->]]; vm_compute; reflexivity.
Qed.

(** On the 2x2x2 and 3x3x3, held in the default way, looking solved is being solved,
    provided the colours are those of [SOLVED] (each sticker on its own face). *)
Theorem C68_default_partial : forall n (o : Orientable n), n = Size2 \/ n = Size3 -> cube_well_formed n (ob_cube o) ->
  ob_ori o = ori_default ->
  (orientable_is_solved n o = true <-> shows_solved n (ob_cube o)).
Proof.
  intros n [c o] Hn W E. cbn [ob_cube ob_ori] in *. subst o. rewrite C68_exact_partial. cbn [ob_cube ob_ori]. split.
  - intros (-> & _). apply shows_solvedb_spec. destruct n; vm_compute; reflexivity.
  - intros S. split; [|split; reflexivity].
    assert (N5 : n <> Size5) by (destruct Hn as [->| ->]; discriminate).
    pose proof (C18_visible_implies_solved_partial n c N5 W S) as I.
    destruct Hn as [->| ->]; cbn [cube_is_solved] in I; [apply cube2_eqb_eq in I|apply cube3_eqb_eq in I]; exact I.
Qed.

Lemma sticker_normal n (c : CubeOf n) s : In s (cube_stickers n c) -> exists f, st_normal s = normal f.
Proof.
  unfold cube_stickers. rewrite in_flat_map. intros (set & _ & H). destruct set; cbn [set_stickers] in H.
  1-3: apply in_flat_map in H as ([o p] & _ & H); unfold wing_stickers in H; apply in_map_iff in H as (fc & <- & _); eexists; reflexivity.
  all: apply in_map_iff in H as ([o p] & <- & _); eexists; reflexivity.
Qed.

(** On the cubes with fixed face centres, looking solved means that every sticker is on
    the face of its colour, however the cube is held; on the 3x3x3 that the base cube is
    [SOLVED]. So there the orientation is the only difference. *)
Theorem C68_odd_partial : forall n (o : Orientable n), n = Size3 \/ n = Size5 \/ n = Size7 ->
  (looks_solved n o <-> shows_solved n (ob_cube o)).
Proof.
  intros n [c o] Hn. cbn [ob_cube]. split; [|apply shows_looks].
  intros H s Hs. destruct (sticker_normal n c s Hs) as (f & E).
  assert (F : In (mkSticker (v3_scale (sizeZ n - 1) (normal f)) (normal f) f) (centre_stickers n)).
  { unfold centre_stickers. replace (Z.odd (sizeZ n)) with true by (destruct Hn as [->|[->| ->]]; reflexivity).
    apply (in_map (fun f => mkSticker (v3_scale (sizeZ n - 1) (normal f)) (normal f) f)).
    destruct f as [[] []]; cbn; tauto. }
  rewrite E. f_equal. symmetry.
  specialize (H (hold o s) (hold o (mkSticker (v3_scale (sizeZ n - 1) (normal f)) (normal f) f))).
  apply H.
  - apply in_map, in_or_app. left. exact Hs.
  - apply in_map, in_or_app. right. exact F.
  - cbn [hold st_normal]. rewrite E. reflexivity.
Qed.
Theorem C68_three_partial : forall (o : Orientable Size3), cube_well_formed Size3 (ob_cube o) ->
  (looks_solved Size3 o <-> ob_cube o = cube_solved Size3).
Proof.
  intros o W. rewrite C68_odd_partial by auto. split.
  - intros S. apply cube3_eqb_eq. apply (C18_visible_implies_solved_partial Size3 _ ltac:(discriminate) W S).
  - intros ->. apply shows_solvedb_spec. vm_compute. reflexivity.
Qed.

Example C68_example :
  orientable_is_solved Size3 (orientable_solved Size3) = true /\
  cube_well_formed Size3 (cube_solved Size3) /\
  rotate_all [mkRot AX Single] (normal fU) <> normal fU.
Proof. split; [vm_compute; reflexivity|]. split; [apply cube_well_formed_solved|vm_compute; discriminate]. Qed.
Print Assumptions C67_face_moves.
Print Assumptions C67_same_effect.
Print Assumptions C67_reversed.
Print Assumptions C67_connect.
Print Assumptions C67_states_recover.
Print Assumptions C68_exact_partial.
Print Assumptions C68_solved_looks_partial.
Print Assumptions C68_turned_refuted.
Print Assumptions C68_claim_refuted.
Print Assumptions C68_base_refuted.
Print Assumptions C68_default_partial.
Print Assumptions C68_odd_partial.
Print Assumptions C68_three_partial.

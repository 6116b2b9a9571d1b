(** C51: the named algorithms. *)

From Coq Require Import List Bool Arith NArith Lia.
From Verif Require Import Model_Base Model_Space Model_Moves Model_Pieces Model_PieceSet Model_Cubes
  Model_Parser Model_Perms Spec_Moves Proof_Moves.
Import ListNotations.
Local Open Scope list_scope.

(** What an algorithm does to a cube, piece by piece. *)
Lemma fold_map {P} (f : P -> AxisMove -> P) al : forall s,
  fold_left (fun s m => map (fun p => f p m) s) al s = map (fun p => fold_left f al p) s.
Proof.
  induction al as [|m al IH]; intros s; [symmetry; apply map_id|]. cbn [fold_left]. rewrite IH, map_map. reflexivity.
Qed.
Definition wide_piece {P} (in_wide : P -> N -> N -> N -> WideAxisMove -> bool) (rotate : P -> AxisRotation -> P)
  (nd td mx : N) (p : P) (m : AxisMove) : P :=
  if in_wide p nd td mx (mkWide mx m) then rotate p (rot_of_move m) else p.

Lemma alg2 al : forall c, apply_alg (cube_apply Size2) c al = mkCube2 (map (fun p => fold_left corner_apply al p) (c2_corners c)).
Proof.
  intros c. rewrite <- fold_map. revert c. induction al as [|m al IH]; intros c; [destruct c; reflexivity|]. exact (IH (cube2_apply c m)).
Qed.
Lemma alg3 al : forall c, apply_alg (cube_apply Size3) c al =
  mkCube3 (map (fun p => fold_left edge_apply al p) (c3_edges c)) (map (fun p => fold_left corner_apply al p) (c3_corners c)).
Proof.
  intros c. rewrite <- !fold_map. revert c. induction al as [|m al IH]; intros c; [destruct c; reflexivity|]. exact (IH (cube3_apply c m)).
Qed.
Lemma alg4 al : forall c, apply_alg (cube_apply Size4) c al =
  mkCube4 (map (fun p => fold_left corner_apply al p) (c4_corners c))
          (map (fun p => fold_left (wide_piece wing_in_wide wing_rotate 1 0 1) al p) (c4_wings c))
          (map (fun p => fold_left (wide_piece cc_in_wide cc_rotate 1 0 1) al p) (c4_centers c)).
Proof.
  intros c. rewrite <- !fold_map. revert c. induction al as [|m al IH]; intros c; [destruct c; reflexivity|].
  change (apply_alg (cube_apply Size4) c (m :: al)) with (apply_alg (cube_apply Size4) (cube4_apply c m) al).
  unfold cube4_apply at 1. rewrite apply_widened_eq. exact (IH (cube4_apply_wide c (mkWide 1 m))).
Qed.
Lemma alg5 al : forall c, apply_alg (cube_apply Size5) c al =
  mkCube5 (map (fun p => fold_left corner_apply al p) (c5_corners c))
          (map (fun p => fold_left edge_apply al p) (c5_edges c))
          (map (fun p => fold_left (wide_piece cc_in_wide cc_rotate 1 0 1) al p) (c5_center_corners c))
          (map (fun p => fold_left (wide_piece ce_in_wide ce_rotate 1 0 1) al p) (c5_center_edges c)).
Proof.
  intros c. rewrite <- !fold_map. revert c. induction al as [|m al IH]; intros c; [destruct c; reflexivity|].
  change (apply_alg (cube_apply Size5) c (m :: al)) with (apply_alg (cube_apply Size5) (cube5_apply c m) al).
  unfold cube5_apply at 1. rewrite apply_widened_eq. exact (IH (cube5_apply_wide c (mkWide 1 m))).
Qed.
Lemma alg6 al : forall c, apply_alg (cube_apply Size6) c al =
  mkCube6 (map (fun p => fold_left corner_apply al p) (c6_corners c))
          (map (fun p => fold_left (wide_piece wing_in_wide wing_rotate 1 0 2) al p) (c6_wings_1 c))
          (map (fun p => fold_left (wide_piece wing_in_wide wing_rotate 2 0 2) al p) (c6_wings_2 c))
          (map (fun p => fold_left (wide_piece cc_in_wide cc_rotate 1 0 2) al p) (c6_center_corners_1 c))
          (map (fun p => fold_left (wide_piece cc_in_wide cc_rotate 2 0 2) al p) (c6_center_corners_2 c))
          (map (fun p => fold_left (wide_piece cw_in_wide cw_rotate 1 2 2) al p) (c6_center_wings c)).
Proof.
  intros c. rewrite <- !fold_map. revert c. induction al as [|m al IH]; intros c; [destruct c; reflexivity|].
  change (apply_alg (cube_apply Size6) c (m :: al)) with (apply_alg (cube_apply Size6) (cube6_apply c m) al).
  unfold cube6_apply at 1. rewrite apply_widened_eq. exact (IH (cube6_apply_wide c (mkWide 2 m))).
Qed.
Lemma alg7 al : forall c, apply_alg (cube_apply Size7) c al =
  mkCube7 (map (fun p => fold_left corner_apply al p) (c7_corners c))
          (map (fun p => fold_left edge_apply al p) (c7_edges c))
          (map (fun p => fold_left (wide_piece wing_in_wide wing_rotate 1 0 2) al p) (c7_wings_1 c))
          (map (fun p => fold_left (wide_piece wing_in_wide wing_rotate 2 0 2) al p) (c7_wings_2 c))
          (map (fun p => fold_left (wide_piece cc_in_wide cc_rotate 1 0 2) al p) (c7_center_corners_1 c))
          (map (fun p => fold_left (wide_piece cc_in_wide cc_rotate 2 0 2) al p) (c7_center_corners_2 c))
          (map (fun p => fold_left (wide_piece cw_in_wide cw_rotate 1 2 2) al p) (c7_center_wings c))
          (map (fun p => fold_left (wide_piece ce_in_wide ce_rotate 1 0 2) al p) (c7_center_edges_1 c))
          (map (fun p => fold_left (wide_piece ce_in_wide ce_rotate 2 0 2) al p) (c7_center_edges_2 c)).
Proof.
  intros c. rewrite <- !fold_map. revert c. induction al as [|m al IH]; intros c; [destruct c; reflexivity|].
  change (apply_alg (cube_apply Size7) c (m :: al)) with (apply_alg (cube_apply Size7) (cube7_apply c m) al).
  unfold cube7_apply at 1. rewrite apply_widened_eq. exact (IH (cube7_apply_wide c (mkWide 2 m))).
Qed.

(** An algorithm that fixes every piece of every kind fixes every cube. *)
Definition fixes_pieces (al : list AxisMove) : Prop :=
  (forall p, fold_left corner_apply al p = p) /\ (forall p, fold_left edge_apply al p = p) /\
  (forall nd mx p, In (nd, mx) [(1, 1); (1, 2); (2, 2)]%N -> fold_left (wide_piece wing_in_wide wing_rotate nd 0 mx) al p = p) /\
  (forall nd mx p, In (nd, mx) [(1, 1); (1, 2); (2, 2)]%N -> fold_left (wide_piece cc_in_wide cc_rotate nd 0 mx) al p = p) /\
  (forall nd mx p, In (nd, mx) [(1, 1); (1, 2); (2, 2)]%N -> fold_left (wide_piece ce_in_wide ce_rotate nd 0 mx) al p = p) /\
  (forall p, fold_left (wide_piece cw_in_wide cw_rotate 1 2 2) al p = p).
Lemma map_fixed {A} (f : A -> A) : (forall x, f x = x) -> forall l, map f l = l.
Proof. intros H l. rewrite <- (map_id l) at 2. apply map_ext, H. Qed.
Lemma fixes_cubes al : fixes_pieces al -> forall n c, apply_alg (cube_apply n) c al = c.
Proof.
  intros (C & E & W & CC & CE & CW) n c.
  destruct n; [rewrite alg2|rewrite alg3|rewrite alg4|rewrite alg5|rewrite alg6|rewrite alg7];
    rewrite !map_fixed; try (destruct c; reflexivity); intros p;
    first [apply C|apply E|apply CW|apply W; cbn; tauto|apply CC; cbn; tauto|apply CE; cbn; tauto].
Qed.
Ltac fixes := repeat split;
  [intros [[[] [] []] []]; vm_compute; reflexivity
  |intros [[] [[] []] []]; vm_compute; reflexivity
  |intros nd mx [[[] [[] []] []]] H; cbn in H; repeat (destruct H as [[= <- <-]|H]; [vm_compute; reflexivity|]); destruct H
  |intros nd mx [[[] [] []] []] H; cbn in H; repeat (destruct H as [[= <- <-]|H]; [vm_compute; reflexivity|]); destruct H
  |intros nd mx [[[] []] [] []] H; cbn in H; repeat (destruct H as [[= <- <-]|H]; [vm_compute; reflexivity|]); destruct H
  |intros [[[[] []] [] []] []]; vm_compute; reflexivity].

Lemma times_alg n al k c :
  times k (fun c => apply_alg (cube_apply n) c al) c = apply_alg (cube_apply n) c (List.concat (repeat al k)).
Proof.
  assert (S : forall k c, apply_alg (cube_apply n) (times k (fun c => apply_alg (cube_apply n) c al) c) al
    = times k (fun c => apply_alg (cube_apply n) c al) (apply_alg (cube_apply n) c al)).
  { clear k c. intros k. induction k as [|k IH]; intros c; [reflexivity|]. cbn [times]. rewrite IH. reflexivity. }
  revert c. induction k as [|k IH]; intros c; [reflexivity|]. cbn [times repeat List.concat].
  rewrite S, IH. unfold apply_alg. rewrite fold_left_app. reflexivity.
Qed.

(** The initialisers do not panic; the algorithms are the ones written. *)
Definition mv (f : Face) := mkMove f Single.
Definition mvi (f : Face) := mkMove f Inverse.
Definition mv2 (f : Face) := mkMove f Double.
Theorem C51_texts : forall isn,
  SEXY_MOVE isn = Done [mv fR; mv fU; mvi fR; mvi fU] /\
  pll_T isn = Done [mv fR; mv fU; mvi fR; mvi fU; mvi fR; mv fF; mv2 fR; mvi fU; mvi fR; mvi fU; mv fR; mv fU; mvi fR; mvi fF] /\
  pll_U isn = Done [mv2 fR; mvi fU; mvi fR; mvi fU; mv fR; mv fU; mv fR; mv fU; mv fR; mvi fU; mv fR] /\
  pll_J isn = Done [mv fR; mv fU; mvi fR; mvi fF; mv fR; mv fU; mvi fR; mvi fU; mvi fR; mv fF; mv2 fR; mvi fU; mvi fR; mvi fU].
Proof. intros isn. repeat split; vm_compute; reflexivity. Qed.

(** On every cube, in every state: order 6, 2, 3 and 2. *)
Definition has_order (al : list AxisMove) (k : nat) : Prop :=
  forall n (c : CubeOf n), times k (fun c => apply_alg (cube_apply n) c al) c = c.
Theorem C51_orders : forall isn,
  (exists al, SEXY_MOVE isn = Done al /\ has_order al 6) /\
  (exists al, pll_T isn = Done al /\ has_order al 2) /\
  (exists al, pll_U isn = Done al /\ has_order al 3) /\
  (exists al, pll_J isn = Done al /\ has_order al 2).
Proof.
  intros isn. destruct (C51_texts isn) as (S & T & U & J).
  repeat split; eexists; (split; [eassumption|]); intros n c; rewrite times_alg; apply fixes_cubes; fixes.
Qed.
(** ... and not fewer, from the solved 3x3x3. *)
Theorem C51_orders_exact : forall isn al k,
  (SEXY_MOVE isn = Done al /\ 0 < k < 6) \/ (pll_T isn = Done al /\ 0 < k < 2) \/
  (pll_U isn = Done al /\ 0 < k < 3) \/ (pll_J isn = Done al /\ 0 < k < 2) ->
  cube_is_solved Size3 (times k (fun c => apply_alg (cube_apply Size3) c al) (cube_solved Size3)) = false.
Proof.
  intros isn al k H. destruct (C51_texts isn) as (S & T & U & J). rewrite S, T, U, J in H.
  destruct H as [[[= <-] H]|[[[= <-] H]|[[[= <-] H]|[[= <-] H]]]].
  - assert (K : k = 1 \/ k = 2 \/ k = 3 \/ k = 4 \/ k = 5) by lia.
    destruct K as [->|[->|[->|[->| ->]]]]; vm_compute; reflexivity.
  - assert (K : k = 1) by lia. subst k. vm_compute. reflexivity.
  - assert (K : k = 1 \/ k = 2) by lia. destruct K as [->| ->]; vm_compute; reflexivity.
  - assert (K : k = 1) by lia. subst k. vm_compute. reflexivity.
Qed.

(** Slots. *)
Definition edge_slot (a b : Face) : option EdgePos :=
  match position_from_faces a b with Done (Ok p) => Some p | _ => None end.
Definition RUF := mkVec3 Positive Positive Positive.
Definition RUB := mkVec3 Positive Positive Negative.
Definition RU : EdgePos := (AZ, mkVec2 Positive Positive).
Definition LU : EdgePos := (AZ, mkVec2 Negative Positive).
Definition UF : EdgePos := (AX, mkVec2 Positive Positive).
Definition UB : EdgePos := (AX, mkVec2 Positive Negative).
Example slots_right : edge_slot fR fU = Some RU /\ edge_slot fL fU = Some LU /\ edge_slot fU fF = Some UF /\ edge_slot fU fB = Some UB.
Proof. repeat split; reflexivity. Qed.

(** [p'] is [p] after a permutation of slots that keeps stickers on the U face on the U face;
    a piece in a slot that does not take part is not changed at all. *)
Definition corner_moved (perm : Vec3 -> Vec3) (p p' : Corner) : Prop :=
  c_pos p' = perm (c_pos p) /\ (c_axis p = AY <-> c_axis p' = AY) /\ (perm (c_pos p) = c_pos p -> p' = p).
Definition edge_moved (perm : EdgePos -> EdgePos) (p p' : Edge) : Prop :=
  edge_position p' = perm (edge_position p) /\ e_oriented p' = e_oriented p.
Definition permutes (al : list AxisMove) (pc : Vec3 -> Vec3) (pe : EdgePos -> EdgePos) : Prop :=
  forall c : CubeOf Size3, let c' := apply_alg (cube_apply Size3) c al in
  Forall2 (corner_moved pc) (c3_corners c) (c3_corners c') /\
  Forall2 (edge_moved pe) (c3_edges c) (c3_edges c').

Definition exchange {A} (eqb : A -> A -> bool) (a b x : A) : A :=
  if eqb x a then b else if eqb x b then a else x.
Definition cycle3 {A} (eqb : A -> A -> bool) (a b c x : A) : A :=
  if eqb x a then b else if eqb x b then c else if eqb x c then a else x.

Lemma Forall2_map_r {A} (R : A -> A -> Prop) f l : (forall x, R x (f x)) -> Forall2 R l (map f l).
Proof. intros H. induction l; constructor; auto. Qed.
Ltac slots := intros c; cbn zeta; rewrite alg3; cbn [c3_corners c3_edges]; split; apply Forall2_map_r;
  [intros [[[] [] []] []]; vm_compute; repeat split; intros; first [reflexivity|discriminate]
  |intros [[] [[] []] []]; vm_compute; repeat split; intros; first [reflexivity|discriminate]].

(** T swaps RUF-RUB and RU-LU, J swaps RUF-RUB and RU-UF, and both do nothing else. *)
Theorem C51_T_slots : forall isn, exists al, pll_T isn = Done al /\
  permutes al (exchange vec3_eqb RUF RUB) (exchange edgepos_eqb RU LU).
Proof. intros isn. destruct (C51_texts isn) as (_ & T & _ & _). eexists. split; [eassumption|]. slots. Qed.
Theorem C51_J_slots : forall isn, exists al, pll_J isn = Done al /\
  permutes al (exchange vec3_eqb RUF RUB) (exchange edgepos_eqb RU UF).
Proof. intros isn. destruct (C51_texts isn) as (_ & _ & _ & J). eexists. split; [eassumption|]. slots. Qed.

(** The documentation of U ("cycles RUF->RUB->RUL") names three corners, one of which does
    not exist: U does not move any corner, it cycles three edges. *)
Theorem C51_U_slots : forall isn, exists al, pll_U isn = Done al /\
  permutes al (fun x => x) (cycle3 edgepos_eqb RU UB LU).
Proof. intros isn. destruct (C51_texts isn) as (_ & _ & U & _). eexists. split; [eassumption|]. slots. Qed.
Theorem C51_U_fixes_corners : forall isn al, pll_U isn = Done al ->
  forall c : CubeOf Size3, c3_corners (apply_alg (cube_apply Size3) c al) = c3_corners c.
Proof.
  intros isn al H c. destruct (C51_texts isn) as (_ & _ & U & _). rewrite U in H. injection H as <-.
  rewrite alg3. cbn [c3_corners]. apply map_fixed. intros [[[] [] []] []]; vm_compute; reflexivity.
Qed.

Example C51_example :
  cube_is_solved Size3 (apply_alg (cube_apply Size3) (cube_solved Size3) [mv fR; mv fU; mvi fR; mvi fU]) = false /\
  exchange vec3_eqb RUF RUB RUF = RUB /\ exchange edgepos_eqb RU LU UF = UF.
Proof. repeat split; vm_compute; reflexivity. Qed.

Print Assumptions C51_texts.
Print Assumptions C51_orders.
Print Assumptions C51_orders_exact.
Print Assumptions C51_T_slots.
Print Assumptions C51_J_slots.
Print Assumptions C51_U_slots.
Print Assumptions C51_U_fixes_corners.

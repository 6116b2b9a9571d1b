(** C64: the pieces of big cubes that are made from faces are where the faces say; C65: the
    [Debug] text of a piece tells where it is and which piece state it is. *)

From Coq Require Import List Bool Arith NArith ZArith Lia String.
From Verif Require Import Model_Base Model_Space Model_Moves Model_Pieces Model_PieceSet Model_Cubes Model_Visual Model_Parser Model_Debug
  Spec_Moves Spec_Geometry Spec_Stickers Spec_BigCube.
Import ListNotations.
Open Scope Z_scope.
Open Scope list_scope.

(** * C64: pieces from faces *)

(** The axis that is neither [a] nor [b]. *)
Definition third_axis (a b x : Axis) : Prop := x <> a /\ x <> b.

(** [Wing::try_from_faces] never panics, fails exactly for parallel faces, and otherwise gives
    the wing on the edge between the faces that is displaced in the given direction, on a cube
    of any size [k] and at any depth [nd]. *)
Theorem C64_wing_from_faces : forall (a b : Face) (d : Direction),
  (face_axis a = face_axis b -> wing_try_from_faces a b d = Done (Err (SameAxis (face_axis a)))) /\
  (face_axis a <> face_axis b -> exists w x, wing_try_from_faces a b d = Done (Ok w) /\ third_axis (face_axis a) (face_axis b) x /\
     forall k nd, wing_loc k nd w =
       v3_add (v3_add (v3_scale (k - 1) (normal a)) (v3_scale (k - 1) (normal b))) (v3_scale (k - 1 - 2 * nd) (normal (mkFace x d)))).
Proof.
  intros [a da] [b db] d. split; intros H; cbn [face_axis] in H.
  - subst b. destruct a, da, db, d; reflexivity.
  - destruct a, b; try congruence;
      (match goal with |- context [wing_try_from_faces (mkFace ?a _) (mkFace ?b _)] =>
         let x := match constr:((a, b)) with (AX, AY) => AZ | (AY, AX) => AZ | (AX, AZ) => AY | (AZ, AX) => AY | _ => AX end in
         destruct da, db, d; eexists; exists x end);
      (split; [reflexivity|]); (split; [split; discriminate|]);
      intros k nd; unfold wing_loc, edge_loc, v3_add, v3_scale; cbn; f_equal; lia.
Qed.
(** The order of the faces does not matter, and every wing is obtained from its faces and its
    normal direction. *)
Theorem C64_wing_faces_order : forall a b d, face_axis a <> face_axis b -> wing_try_from_faces a b d = wing_try_from_faces b a d.
Proof. intros [[] []] [[] []] []; cbn; intros H; try congruence; reflexivity. Qed.
Theorem C64_every_wing : forall w : Wing,
  wing_try_from_faces (fst (edge_faces (wg_edge w))) (snd (edge_faces (wg_edge w))) (wing_normal_dir w) = Done (Ok w).
Proof. intros [[[] [[] []] []]]; reflexivity. Qed.

(** [CenterEdge::try_from_faces]: on the main face, displaced towards the side face. *)
Theorem C64_center_edge_from_faces : forall main side : Face,
  (face_axis main = face_axis side -> ce_try_from_faces main side = Done (Err (SameAxis (face_axis main)))) /\
  (face_axis main <> face_axis side -> exists c, ce_try_from_faces main side = Done (Ok c) /\ ce_main c = main /\
     ce_side_face_o c = Done side /\
     forall k nd, ce_loc k nd c = v3_add (v3_scale (k - 1) (normal main)) (v3_scale (k - 1 - 2 * nd) (normal side))).
Proof.
  intros [a da] [b db]. split; intros H; cbn [face_axis] in H.
  - subst b. destruct a, da, db; reflexivity.
  - destruct a, b; try congruence; destruct da, db; (eexists; split; [reflexivity|]; split; [reflexivity|]; split; reflexivity).
Qed.
Theorem C64_every_center_edge : forall c : CenterEdge, ce_try_from_faces (ce_main c) (ce_side_face c) = Done (Ok c).
Proof. intros [[[] []] [] []]; reflexivity. Qed.

(** [CenterWing::new]: on the main face, displaced towards the side face and, along the third
    axis, in the given normal direction. *)
Theorem C64_center_wing_new : forall (main : Face) (h side_dir normal_dir : Direction) (side normal_axis : Axis),
  next_with_handedness (face_axis main) h = side -> third_axis (face_axis main) side normal_axis ->
  forall k nd td, cw_loc k nd td (cw_new main h side_dir normal_dir) =
    v3_add (v3_add (v3_scale (k - 1) (normal main)) (v3_scale (k - 1 - 2 * nd) (normal (mkFace side side_dir))))
           (v3_scale (k - 1 - 2 * td) (normal (mkFace normal_axis normal_dir))).
Proof.
  intros [a da] h sd nd0 side na <- [N1 N2] k nd td. cbn [face_axis] in *.
  destruct a, da, h, sd, nd0, na; cbn in N1, N2; try congruence; unfold cw_loc, ce_loc, v3_add, v3_scale; cbn; f_equal; lia.
Qed.
Theorem C64_every_center_wing : forall c : CenterWing,
  cw_new (ce_main (cw_edge c)) (ce_hand (cw_edge c)) (ce_side_dir (cw_edge c)) (cw_normal_dir c) = c.
Proof. intros [[[[] []] [] []] []]; reflexivity. Qed.

Example C64_example : exists w, wing_try_from_faces fF fU Positive = Done (Ok w) /\ wing_loc 4 1 w = mkV3 1 3 3.
Proof. eexists. split; reflexivity. Qed.

(** * C65: the texts of pieces *)

(** The texts of two different values differ. *)
Theorem C65_texts_differ :
  (forall a b, debug_face a = debug_face b -> a = b) /\
  (forall a b, display_face a = display_face b -> a = b) /\
  (forall a b, debug_color a = debug_color b -> a = b) /\
  (forall a b, debug_edge a = debug_edge b -> a = b) /\
  (forall a b, debug_corner a = debug_corner b -> a = b) /\
  (forall a b, debug_wing a = debug_wing b -> a = b) /\
  (forall a b, debug_center_wing a = debug_center_wing b -> a = b).
Proof.
  assert (R : forall t, text_eqb t t = true) by (induction t as [|x t IH]; [reflexivity|cbn; rewrite N.eqb_refl; exact IH]).
  assert (D : forall T (eqb : T -> T -> bool) (l : list T) (f : T -> text), (forall x, In x l) -> (forall a b, eqb a b = true -> a = b) ->
    forallb (fun a => forallb (fun b => eqb a b || negb (text_eqb (f a) (f b))) l) l = true ->
    forall a b, f a = f b -> a = b).
  { intros T eqb l f A E H a b F. rewrite forallb_forall in H. specialize (H a (A a)). rewrite forallb_forall in H. specialize (H b (A b)).
    apply orb_prop in H as [H|H]; [apply E, H|]. rewrite F, R in H. discriminate. }
  split; [|split; [|split; [|split; [|split; [|split]]]]].
  - intros [[] []] [[] []] H; try reflexivity; vm_compute in H; discriminate.
  - intros [[] []] [[] []] H; try reflexivity; vm_compute in H; discriminate.
  - intros [[] []] [[] []] H; try reflexivity; vm_compute in H; discriminate.
  - apply (D _ edge_eqb (map wg_edge wing_solved)).
    + intros [[] [[] []] []]; vm_compute; tauto.
    + intros a b. apply edge_eqb_eq.
    + vm_compute. reflexivity.
  - apply (D _ corner_eqb (flat_map (fun p => map (mkCorner p) [AX; AY; AZ]) corner_reference)).
    + intros [[[] [] []] []]; vm_compute; tauto.
    + intros a b. apply corner_eqb_eq.
    + vm_compute. reflexivity.
  - apply (D _ wing_eqb wing_solved).
    + intros [[[] [[] []] []]]; vm_compute; tauto.
    + intros [a] [b] H. unfold wing_eqb in H. cbn [wg_edge] in H. apply edge_eqb_eq in H. congruence.
    + vm_compute. reflexivity.
  - intros a b H. apply (D _ cw_eqb cw_solved (fun c => from_outcome [] (debug_center_wing c))); [| | |rewrite H; reflexivity].
    + intros [[[[] []] [] []] []]; vm_compute; tauto.
    + intros [[[[] []] [] []] []] [[[[] []] [] []] []] K; try discriminate; reflexivity.
    + vm_compute. reflexivity.
Qed.

(** The letters between two markers of a text: what stands after [before] up to the comma. *)
Definition names_faces (before : string) (t : text) (fs : list Face) : Prop :=
  exists rest, t = lit before ++ flat_map display_face fs ++ lit "," ++ rest.

(** The letters in the text of an edge, a corner or a wing are those of the faces of the cube
    that the piece is on. *)
Definition touches (k : Z) (p : V3) (f : Face) : Prop := dot p (normal f) = k - 1.
Theorem C65_faces_named : forall k : Z, 2 <= k ->
  (forall e, exists fs, names_faces "Edge { faces: " (debug_edge e) fs /\ NoDup fs /\ forall f, In f fs <-> touches k (edge_loc k e) f) /\
  (forall c, exists fs, names_faces "Corner { faces: " (debug_corner c) fs /\ NoDup fs /\ forall f, In f fs <-> touches k (corner_loc k c) f) /\
  (forall w nd, 0 < nd < k - 1 -> exists fs, names_faces "Wing { faces: " (debug_wing w) fs /\ NoDup fs /\ forall f, In f fs <-> touches k (wing_loc k nd w) f).
Proof.
  intros k K. split; [|split].
  - intros e. exists [fst (edge_faces e); snd (edge_faces e)]. split; [|split].
    + destruct e as [[] [[] []] o]; eexists; reflexivity.
    + destruct e as [[] [[] []] o]; repeat constructor; cbn; intuition discriminate.
    + intros f. unfold touches, edge_loc, v3_scale, dot. destruct e as [[] [[] []] o], f as [[] []]; cbn -[Z.mul Z.add Z.sub];
        (split; [intros H; repeat destruct H as [H|H]; try discriminate H; try lia; destruct H|intros H; first [left; reflexivity|right; left; reflexivity|lia]]).
  - intros c. exists (corner_faces c). split; [|split].
    + destruct c as [[[] [] []] o]; eexists; reflexivity.
    + destruct c as [[[] [] []] o]; repeat constructor; cbn; intuition discriminate.
    + intros f. unfold touches, corner_loc, v3_scale, dot. destruct c as [[[] [] []] o], f as [[] []]; cbn -[Z.mul Z.add Z.sub];
        (split; [intros H; repeat destruct H as [H|H]; try discriminate H; try lia; destruct H|
                 intros H; first [left; reflexivity|right; left; reflexivity|right; right; left; reflexivity|lia]]).
  - intros w nd N. exists [fst (edge_faces (wg_edge w)); snd (edge_faces (wg_edge w))]. split; [|split].
    + destruct w as [[[] [[] []] o]]; eexists; reflexivity.
    + destruct w as [[[] [[] []] o]]; repeat constructor; cbn; intuition discriminate.
    + intros f. unfold touches, wing_loc, edge_loc, v3_scale, v3_add, dot. destruct w as [[[] [[] []] []]], f as [[] []]; cbn -[Z.mul Z.add Z.sub];
        (split; [intros H; repeat destruct H as [H|H]; try discriminate H; try lia; destruct H|intros H; first [left; reflexivity|right; left; reflexivity|lia]]).
Qed.
(** The text of a centre wing gives its place: main face, side face and normal direction. *)
Theorem C65_center_wing_named : forall c : CenterWing, exists main side d x,
  (exists rest, debug_center_wing c = Done (lit "CenterWing { main_face: Face { " ++ display_face main ++ lit " }, side_face: Face { " ++ display_face side ++
     lit " }, normal_direction: " ++ lit (match d with Positive => "Positive" | Negative => "Negative" end) ++ lit "," ++ rest)) /\
  third_axis (face_axis main) (face_axis side) x /\
  forall k nd td, cw_loc k nd td c = v3_add (v3_add (v3_scale (k - 1) (normal main)) (v3_scale (k - 1 - 2 * nd) (normal side)))
    (v3_scale (k - 1 - 2 * td) (normal (mkFace x d))).
Proof.
  intros c. exists (ce_main (cw_edge c)), (ce_side_face (cw_edge c)), (cw_normal_dir c), (ce_normal_axis (cw_edge c)).
  split; [|split].
  - destruct c as [[[[] []] [] []] []]; eexists; vm_compute; reflexivity.
  - destruct c as [[[[] []] [] []] []]; split; discriminate.
  - intros k nd td. destruct c as [[[[] []] [] []] []]; unfold cw_loc, ce_loc, v3_add, v3_scale; cbn; f_equal; lia.
Qed.

Example C65_example : debug_edge (mkEdge AX (mkVec2 Positive Negative) false) = lit "Edge { faces: UB, oriented: false }" /\
  debug_corner (corner_oriented (mkVec3 Positive Positive Positive)) = lit "Corner { faces: RUF, orientation_axis: Y)".
Proof. split; reflexivity. Qed.
Print Assumptions C64_wing_from_faces.
Print Assumptions C64_wing_faces_order.
Print Assumptions C64_every_wing.
Print Assumptions C64_center_edge_from_faces.
Print Assumptions C64_every_center_edge.
Print Assumptions C64_center_wing_new.
Print Assumptions C64_every_center_wing.
Print Assumptions C65_texts_differ.
Print Assumptions C65_faces_named.
Print Assumptions C65_center_wing_named.

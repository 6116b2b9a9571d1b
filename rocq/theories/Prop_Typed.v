(** C84: wide moves held in different types.  C85: vectors and slices. *)

From Coq Require Import List Bool Arith NArith ZArith Lia.
From Verif Require Import Model_Base Model_Space Model_Moves Model_Pieces Model_PieceSet Model_Cubes Model_Visual
  Spec_Moves Spec_Geometry Proof_BigCube Prop_BigCube.
Import ListNotations.

(** ** C84 *)

(** A wide move that fits into two types does the same whichever of them it is held in;
    [wide_set_max_depth] is the conversion between them. *)
Definition C84_claim (n : CubeSize) : Prop := forall j k f g w v c,
  cube_apply_typed n j = Some f -> cube_apply_typed n k = Some g ->
  (w_depth w <= j)%N -> wide_set_max_depth k w = Ok v -> g c v = f c w.

(** False: held in a [WideAxisMove<0>], R turns half of the cube. *)
Theorem C84_types_agree_refuted : ~ C84_claim Size4 /\ ~ C84_claim Size5 /\ ~ C84_claim Size6 /\ ~ C84_claim Size7.
Proof.
  repeat split; intros H;
    [specialize (H 1%N 0%N) | specialize (H 1%N 0%N) | specialize (H 2%N 0%N) | specialize (H 2%N 0%N)];
    specialize (H _ _ (mkWide 0 (mkMove fR Single)) (mkWide 0 (mkMove fR Single)) (cube_solved _) eq_refl eq_refl ltac:(cbn; lia) eq_refl);
    [apply (f_equal c4_centers) in H|apply (f_equal c5_center_corners) in H|apply (f_equal c6_center_corners_1) in H|apply (f_equal c7_center_corners_1) in H];
    vm_compute in H; discriminate H.
Qed.

Lemma typed_wide n k f : (0 < k)%N -> cube_apply_typed n k = Some f -> f = cube_apply_wide n.
Proof.
  intros K H. unfold cube_apply_typed in H. replace (k =? 0)%N with false in H by (symmetry; apply N.eqb_neq; lia).
  destruct n; try discriminate; destruct (k =? 1)%N; try (injection H as <-; reflexivity); try discriminate;
    destruct (k =? 2)%N; try discriminate; injection H as <-; reflexivity.
Qed.

(** It is true of the types other than [WideAxisMove<0>] ... *)
Theorem C84_types_agree_partial : forall n j k f g w v c,
  (0 < j)%N -> (0 < k)%N -> cube_apply_typed n j = Some f -> cube_apply_typed n k = Some g ->
  (w_depth w <= j)%N -> wide_set_max_depth k w = Ok v -> g c v = f c w.
Proof.
  intros n j k f g w v c J K F G L E. apply typed_wide in F; [|exact J]. apply typed_wide in G; [|exact K]. subst f g.
  unfold wide_set_max_depth in E. destruct (N.ltb k (w_depth w)); [discriminate|]. injection E as <-. reflexivity.
Qed.
(** ... and of the 2x2x2 and the 3x3x3, which have no other type. *)
Theorem C84_small_cubes : C84_claim Size2 /\ C84_claim Size3.
Proof.
  split; intros j k f g w v c F G L E; unfold cube_apply_typed in F, G;
    destruct (j =? 0)%N; try discriminate; destruct (k =? 0)%N; try discriminate; injection F as <-; injection G as <-;
    unfold wide_set_max_depth in E; destruct (N.ltb k (w_depth w)); try discriminate; injection E as <-; reflexivity.
Qed.
(** What a [WideAxisMove<0>] does, on every size: the widest move of the cube. *)
Theorem C84_depth_0_type : forall n f w c, cube_apply_typed n 0 = Some f ->
  f c w = cube_apply_wide n c (mkWide (widest n) (w_move w)).
Proof. intros n f w c [= <-]. unfold apply_wide0. apply C16_axis_move_partial. Qed.
(** Which types there are: the depths of the cube's layers that can be turned. *)
Theorem C84_types : forall n k, cube_apply_typed n k <> None <-> (k <= cube_size_N n / 2 - 1)%N.
Proof.
  intros n k. unfold cube_apply_typed. destruct (N.eqb_spec k 0); [subst; split; [intros _; destruct n; cbn; lia|discriminate]|].
  destruct (N.eqb_spec k 1); [subst; destruct n; cbn; split; try discriminate; try lia; intros H; exfalso; apply H; reflexivity|].
  destruct (N.eqb_spec k 2); [subst; destruct n; cbn; split; try discriminate; try lia; intros H; exfalso; apply H; reflexivity|].
  destruct n; cbn; (split; [intros H; exfalso; apply H; reflexivity|lia]).
Qed.

(** Rw on a 6x6x6 as a [WideAxisMove<1>] and as a [WideAxisMove<2>]. *)
Example C84_example :
  let w := mkWide 1 (mkMove fR Single) in
  wide_set_max_depth 2 w = Ok w /\ cube_apply_typed Size6 1 <> None /\
  cube_apply_wide Size6 (cube_solved Size6) w <> cube_solved Size6 /\
  cube_apply_wide Size6 (cube_solved Size6) w <> cube_apply_wide Size6 (cube_solved Size6) (mkWide 2 (mkMove fR Single)).
Proof.
  cbn zeta. split; [reflexivity|]. split; [discriminate|].
  split; intros H; [apply (f_equal c6_wings_1) in H|apply (f_equal c6_wings_2) in H]; vm_compute in H; discriminate H.
Qed.

(** ** C85 *)
Open Scope Z_scope.

Definition as_v3 (v : Z * Z * Z) : V3 := let '(x, y, z) := v in mkV3 x y z.

(** The three ways to a face's vector agree, with each other and with the geometry. *)
Theorem C85_vectors : forall (f : Face) (a : Axis),
  as_v3 (vector_of_face f) = normal f /\ face_coords f = vector_of_face f /\
  as_v3 (vector_of_axis a) = unit a /\ vector_of_face (mkFace a Positive) = vector_of_axis a /\
  as_v3 (vector_of_face (opposite f)) = v3_neg (as_v3 (vector_of_face f)).
Proof. intros [[] []] []; repeat split. Qed.
(** A face contains the vectors on its side, and those only. *)
Theorem C85_contains : forall (f : Face) (v : Vec3),
  contains_vector f v = true <-> dot (as_v3 (vector_of_face f)) (point v) = 1.
Proof. intros [[] []] [[] [] []]; cbv; split; (reflexivity || discriminate). Qed.

(** [slice_coords] reads the coordinates that [map_on_slice] writes, in the same order. *)
Definition vec2_pair (v : Vec2) : Direction * Direction := (v0 v, v1 v).
Definition C85_claim (normal : Axis) : Prop := forall (v : Vec3) (f : Vec2 -> Vec2),
  let '(a, b) := slice_coords (vx v) (vy v) (vz v) normal in
  let w := map_on_slice normal v f in
  slice_coords (vx w) (vy w) (vz w) normal = vec2_pair (f (mkVec2 a b)).
(** False across the y axis ... *)
Theorem C85_same_order_refuted : ~ C85_claim AY.
Proof.
  intros H. specialize (H (mkVec3 Positive Positive Positive) (fun _ => mkVec2 Positive Negative)).
  vm_compute in H. discriminate H.
Qed.
(** ... where the two coordinates are exchanged ... *)
Theorem C85_exchanged : forall (v : Vec3) (f : Vec2 -> Vec2),
  let '(b, a) := slice_coords (vx v) (vy v) (vz v) AY in
  let w := map_on_slice AY v f in
  slice_coords (vx w) (vy w) (vz w) AY = (v1 (f (mkVec2 a b)), v0 (f (mkVec2 a b))).
Proof. intros [x y z] f. cbn. reflexivity. Qed.
(** ... and true across the others. *)
Theorem C85_same_order_partial : C85_claim AX /\ C85_claim AZ.
Proof. split; intros [x y z] f; cbn; reflexivity. Qed.
(** So for the coordinates of an edge: they are its position in the slice, exchanged if
    the edge lies along the y axis. *)
Theorem C85_edges : forall p : EdgePos,
  let '(x, y, z) := edge_coordinates p in
  slice_coords x y z (fst p) =
    match fst p with
    | AY => (scalar (v1 (snd p)), scalar (v0 (snd p)))
    | _ => (scalar (v0 (snd p)), scalar (v1 (snd p)))
    end.
Proof. intros [[] [[] []]]; reflexivity. Qed.
(** The coordinate it leaves out is the one along the normal. *)
Theorem C85_complete : forall {T} (x y z : T) (a : Axis),
  let '(p, q) := slice_coords x y z a in
  forall u, In u [x; y; z] <-> In u [p; q] \/ u = match a with AX => x | AY => y | AZ => z end.
Proof. intros T x y z []; cbn; intros u; intuition congruence. Qed.

Example C85_example : slice_coords 1 2 3 AY = (1, 3) /\ slice_coords 1 2 3 AX = (2, 3) /\ slice_coords 1 2 3 AZ = (1, 2) /\
  vector_of_face fL = (-1, 0, 0) /\ contains_vector fL (mkVec3 Negative Positive Positive) = true.
Proof. repeat split. Qed.
Print Assumptions C84_types_agree_refuted.
Print Assumptions C84_types_agree_partial.
Print Assumptions C84_small_cubes.
Print Assumptions C84_depth_0_type.
Print Assumptions C84_types.
Print Assumptions C85_vectors.
Print Assumptions C85_contains.
Print Assumptions C85_same_order_refuted.
Print Assumptions C85_exchanged.
Print Assumptions C85_same_order_partial.
Print Assumptions C85_edges.
Print Assumptions C85_complete.

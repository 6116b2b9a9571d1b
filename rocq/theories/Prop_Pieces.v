(** C88-C90: twisted corners, flipped edges, and the small functions of faces, axes and
    pieces, each in terms of the physical cube. *)

From Coq Require Import List Bool Arith ZArith Lia Permutation.
From Verif Require Import Model_Base Model_Space Model_Moves Model_Pieces Model_PieceSet Model_Cubes
  Model_Visual Model_Invariants Spec_Moves Spec_Geometry Spec_Stickers Spec_Sets Spec_Invariants
  Proof_Moves Proof_Sets Proof_Parity Proof_Invariants Proof_Random Prop_Invariants.
Import ListNotations.
Open Scope nat_scope.

(* ------------------------------------------------------------------ *)
(** * C88: twisting corners *)

(** [w] is [v] after a third of a turn around the diagonal through the corner [p],
    counter-clockwise seen from outside the cube: Rodrigues' formula for 120 degrees around
    [p / sqrt 3], doubled. *)
Definition third_ccw (p v w : V3) : Prop :=
  v3_scale 2 w = v3_add (v3_add (v3_scale (dot p v) p) (cross p v)) (v3_neg v).

(** The face of the corner at [p] that is across the axis [a]. *)
Definition face_on (p : Vec3) (a : Axis) : Face := mkFace a (vget p a).

(** [next_axis] is a third of a turn counter-clockwise. *)
Theorem C88_next_axis : forall (p : Vec3) (a : Axis),
  third_ccw (point p) (normal (face_on p a)) (normal (face_on p (corner_next_axis p a))).
Proof. intros [[] [] []] []; reflexivity. Qed.

(** [twist] leaves the corner where it is and carries each of its three colours to the next
    face counter-clockwise. *)
Lemma in_pairs (x : Face * Color) l :
  In x l <-> existsb (fun y => face_eqb (fst x) (fst y) && face_eqb (snd x) (snd y)) l = true.
Proof.
  rewrite existsb_exists. split.
  - intros I. exists x. split; [exact I|]. destruct x as [[[] []] [[] []]]; reflexivity.
  - intros (y & I & E). apply andb_true_iff in E. destruct E as [E1 E2].
    apply face_eqb_eq in E1. apply face_eqb_eq in E2. destruct x, y. cbn in E1, E2. subst. exact I.
Qed.

Lemma twist_shifts c home : corner_colors (corner_twist c) home =
  map (fun x => (face_on (c_pos c) (corner_next_axis (c_pos c) (face_axis (fst x))), snd x)) (corner_colors c home).
Proof. destruct c as [[[] [] []] []], home as [[] [] []]; reflexivity. Qed.
Lemma corner_colors_on c home : forallb (fun x => contains_vector (fst x) (c_pos c)) (corner_colors c home) = true.
Proof. destruct c as [[[] [] []] []], home as [[] [] []]; reflexivity. Qed.
Lemma third_ccw_face p f f' g : contains_vector f' p = true -> third_ccw (point p) (normal f) (normal g) ->
  (face_on p (corner_next_axis p (face_axis f')) = g <-> f' = f).
Proof.
  destruct p as [[] [] []], f as [[] []], g as [[] []]; intros C T; cbv in T; try discriminate T; clear T;
    destruct f' as [[] []]; cbv in C; try discriminate C; vm_compute; split; congruence.
Qed.

Theorem C88_twist_turns_colours : forall (c : Corner) (home : Vec3) (f g : Face) (col : Color),
  third_ccw (point (c_pos c)) (normal f) (normal g) ->
  c_pos (corner_twist c) = c_pos c /\
  (In (f, col) (corner_colors c home) <-> In (g, col) (corner_colors (corner_twist c) home)).
Proof.
  intros c home f g col T. split; [reflexivity|]. rewrite twist_shifts, in_map_iff.
  pose proof (corner_colors_on c home) as O. rewrite forallb_forall in O. split.
  - intros I. exists (f, col). split; [|exact I]. cbn [fst snd]. f_equal.
    apply (third_ccw_face _ f f g (O _ I) T). reflexivity.
  - intros ((f' & col') & E & I). injection E as E <-. cbn [fst snd] in E.
    apply (third_ccw_face _ f f' g (O _ I) T) in E. subst f'. exact I.
Qed.

(** [orientation_index] is the number of counter-clockwise twists that lead from the
    oriented corner to this one; it is 0, 1 or 2, and 0 exactly if the corner is oriented,
    that is, if its U/D sticker is on the U/D axis. *)
Theorem C88_orientation_index : forall c : Corner,
  corner_orientation_index c < 3 /\
  (forall k, times k corner_twist (corner_oriented (c_pos c)) = c <-> k mod 3 = corner_orientation_index c) /\
  (corner_is_oriented c = true <-> corner_orientation_index c = 0) /\
  (corner_is_oriented c = true <-> c = corner_oriented (c_pos c)).
Proof.
  assert (T3 : forall c, times 3 corner_twist c = c) by (intros [[[] [] []] []]; reflexivity).
  assert (TM : forall k c, times k corner_twist c = times (k mod 3) corner_twist c).
  { intros k c. rewrite (Nat.div_mod k 3) at 1 by discriminate. rewrite Nat.add_comm.
    induction (k / 3) as [|q IH]; [rewrite Nat.mul_0_r, Nat.add_0_r; reflexivity|].
    replace (k mod 3 + 3 * S q) with ((k mod 3 + 3 * q) + 3) by lia.
    rewrite <- IH. generalize (k mod 3 + 3 * q) as n. clear -T3. intros n.
    assert (A : forall a b x, times (a + b) corner_twist x = times a corner_twist (times b corner_twist x)).
    { clear. induction a as [|a IH]; intros b x; [reflexivity|]. cbn [Nat.add times]. rewrite IH. reflexivity. }
    rewrite A, T3. reflexivity. }
  intros c. split; [destruct c as [[[] [] []] []]; cbv; lia|].
  split; [|destruct c as [[[] [] []] []]; vm_compute; intuition discriminate].
  intros k. rewrite TM. pose proof (Nat.mod_upper_bound k 3 ltac:(discriminate)) as B.
  destruct (k mod 3) as [|[|[|n]]]; [| | |lia]; destruct c as [[[] [] []] []]; vm_compute; intuition discriminate.
Qed.

(** Back to the oriented corner it takes the rest of the three twists.  The module
    documentation of invariants.rs (17-18) calls this number the orientation index; it is
    another number for every corner that is not oriented. *)
Theorem C88_back : forall (c : Corner) (k : nat),
  times k corner_twist c = corner_oriented (c_pos c) <-> (corner_orientation_index c + k) mod 3 = 0.
Proof.
  intros c k. destruct (C88_orientation_index c) as (B & H & _).
  assert (T3 : forall c, times 3 corner_twist c = c) by (intros [[[] [] []] []]; reflexivity).
  assert (A : forall a b x, times (a + b) corner_twist x = times a corner_twist (times b corner_twist x)).
  { clear. induction a as [|a IH]; intros b x; [reflexivity|]. cbn [Nat.add times]. rewrite IH. reflexivity. }
  assert (E : c = times (corner_orientation_index c) corner_twist (corner_oriented (c_pos c)))
    by (symmetry; apply H, Nat.mod_small, B).
  rewrite E at 1. rewrite <- A, (Nat.add_comm k).
  destruct (C88_orientation_index (corner_oriented (c_pos c))) as (_ & H0 & _).
  change (c_pos (corner_oriented (c_pos c))) with (c_pos c) in H0.
  replace (corner_orientation_index (corner_oriented (c_pos c))) with 0 in H0; [apply H0|].
  destruct (c_pos c) as [[] [] []]; reflexivity.
Qed.
Theorem C88_needed_twists_differ : forall c : Corner, corner_is_oriented c = false ->
  times (corner_orientation_index c) corner_twist c <> corner_oriented (c_pos c).
Proof. intros [[[] [] []] []]; vm_compute; intros E; congruence. Qed.

(** A cube that was taken apart: every corner twisted and every edge flipped by hand.  It
    can be solved again exactly if the number of twists is divisible by three and the number
    of flips is even. *)
Definition twist_by (ks : list nat) (cs : list Corner) : list Corner :=
  map (fun kc => times (fst kc) corner_twist (snd kc)) (combine ks cs).
Definition flip_by (bs : list bool) (es : list Edge) : list Edge :=
  map (fun be : bool * Edge => if fst be then edge_flip (snd be) else snd be) (combine bs es).

Lemma twists_index c : twists c = corner_orientation_index c.
Proof. destruct c as [[[] [] []] []]; reflexivity. Qed.
Lemma twist_pos k c : c_pos (times k corner_twist c) = c_pos c.
Proof. induction k as [|k IH]; [reflexivity|]. cbn [times]. rewrite <- IH. reflexivity. Qed.
Lemma twist_index k c : twists (times k corner_twist c) mod 3 = (k + twists c) mod 3.
Proof.
  induction k as [|k IH]; [reflexivity|]. cbn [times Nat.add].
  assert (S1 : forall x, twists (corner_twist x) mod 3 = S (twists x) mod 3) by (intros [[[] [] []] []]; reflexivity).
  rewrite S1. rewrite <- (Nat.add_1_r (twists _)), <- (Nat.add_1_r (k + _)).
  rewrite Nat.add_mod, IH, <- Nat.add_mod by discriminate. reflexivity.
Qed.
Lemma twist_by_sum : forall ks cs, length ks = length cs ->
  list_sum (map twists (twist_by ks cs)) mod 3 = (list_sum ks + list_sum (map twists cs)) mod 3.
Proof.
  induction ks as [|k ks IH]; intros [|c cs] L; try discriminate L; [reflexivity|].
  cbn [twist_by combine map list_sum fold_right fst snd] in *. fold (list_sum ks).
  change (fold_right Nat.add 0) with list_sum in *. fold (twist_by ks cs).
  rewrite Nat.add_mod, twist_index, IH, <- Nat.add_mod by (try discriminate; now injection L).
  f_equal. lia.
Qed.
Lemma twist_by_pos : forall ks cs, length ks = length cs -> map c_pos (twist_by ks cs) = map c_pos cs.
Proof.
  induction ks as [|k ks IH]; intros [|c cs] L; try discriminate L; [reflexivity|].
  unfold twist_by in *. cbn [combine map fst snd]. rewrite twist_pos, IH by now injection L. reflexivity.
Qed.
Lemma flip_by_pos : forall bs es, length bs = length es -> map edge_position (flip_by bs es) = map edge_position es.
Proof.
  induction bs as [|b bs IH]; intros [|e es] L; try discriminate L; [reflexivity|].
  unfold flip_by in *. cbn [combine map fst snd]. rewrite IH by now injection L. destruct b; reflexivity.
Qed.
Lemma flip_by_count : forall bs es, length bs = length es ->
  Nat.odd (length (filter (fun e => negb (e_oriented e)) (flip_by bs es))) =
  xorb (Nat.odd (length (filter (fun b => b) bs))) (Nat.odd (length (filter (fun e => negb (e_oriented e)) es))).
Proof.
  induction bs as [|b bs IH]; intros [|e es] L; try discriminate L; [reflexivity|].
  unfold flip_by in *. cbn [combine map fst snd filter].
  specialize (IH es ltac:(now injection L)).
  destruct b; cbn [edge_flip e_oriented]; destruct (e_oriented e); cbn [negb length];
    rewrite ?Nat.odd_succ, <- ?Nat.negb_odd, IH;
    destruct (Nat.odd (length (filter (fun b => b) bs))), (Nat.odd (length (filter (fun e => negb (e_oriented e)) es))); reflexivity.
Qed.

Theorem C88_taken_apart : forall (al : list AxisMove) (ks : list nat) (bs : list bool),
  length ks = 8 -> length bs = 12 ->
  let c := fold_left cube3_apply al cube3_solved in
  (exists al', fold_left cube3_apply al' (mkCube3 (flip_by bs (c3_edges c)) (twist_by ks (c3_corners c))) = cube3_solved)
  <-> list_sum ks mod 3 = 0 /\ Nat.even (length (filter (fun b => b) bs)) = true.
Proof.
  intros al ks bs Lk Lb c. destruct (C06_reachable_invariants al) as (W & I1 & I2 & I3). fold c in W, I1, I2, I3.
  rewrite C07_solvable_exactly. cbn [c3_edges c3_corners].
  apply cube3_sets_valid_spec in W. destruct W as [VE VC].
  assert (LE : length bs = length (c3_edges c)).
  { rewrite Lb. destruct VE as [L _]. rewrite L. reflexivity. }
  assert (LC : length ks = length (c3_corners c)).
  { rewrite Lk. destruct VC as [L _]. rewrite L. reflexivity. }
  assert (W' : cube_well_formed Size3 (mkCube3 (flip_by bs (c3_edges c)) (twist_by ks (c3_corners c)))).
  { apply cube3_sets_valid_spec. split.
    - apply (valid_same_positions edge_desc (c3_edges c)); [|exact VE]. cbn. apply flip_by_pos, LE.
    - apply (valid_same_positions corner_desc (c3_corners c)); [|exact VC]. cbn. apply twist_by_pos, LC. }
  assert (P : equal_parities (mkCube3 (flip_by bs (c3_edges c)) (twist_by ks (c3_corners c)))).
  { unfold equal_parities in *. cbn [c3_edges c3_corners].
    unfold edge_permutation, corner_permutation in *.
    rewrite <- (map_map edge_position (place edgepos_eqb edge_reference)),
            <- (map_map c_pos (place vec3_eqb corner_reference)) in *.
    rewrite flip_by_pos, twist_by_pos by assumption. exact I1. }
  assert (F : even_flips (flip_by bs (c3_edges c)) <-> Nat.even (length (filter (fun b => b) bs)) = true).
  { unfold even_flips in *. rewrite <- !Nat.negb_odd in *. rewrite flip_by_count by assumption.
    destruct (Nat.odd (length (filter (fun b => b) bs))), (Nat.odd (length (filter (fun e => negb (e_oriented e)) _))); cbn in *; intuition congruence. }
  assert (T : twists_divisible (twist_by ks (c3_corners c)) <-> list_sum ks mod 3 = 0).
  { unfold twists_divisible in *. rewrite twist_by_sum by assumption.
    rewrite Nat.add_mod, I3, Nat.add_0_r, Nat.mod_mod by discriminate. reflexivity. }
  rewrite F, T. tauto.
Qed.

(** One twisted corner, or one flipped edge, is enough; two corners twisted against each
    other are not. *)
Example C88_taken_apart_example :
  list_sum [0; 0; 1; 0; 0; 0; 0; 0] mod 3 <> 0 /\ list_sum [0; 1; 0; 0; 0; 0; 0; 2] mod 3 = 0 /\
  Nat.even (length (filter (fun b => b) [true; false; false; false; false; true; false; false; false; false; false; false])) = true.
Proof. vm_compute. repeat split; congruence. Qed.

Example C88_twist_example :
  let c := corner_oriented (mkVec3 Positive Positive Positive) in
  third_ccw (point (c_pos c)) (normal fU) (normal fF) /\
  corner_colors c (c_pos c) = [(fU, fU); (fF, fF); (fR, fR)] /\
  corner_colors (corner_twist c) (c_pos c) = [(fF, fU); (fR, fF); (fU, fR)] /\
  corner_orientation_index (corner_twist c) = 1.
Proof. repeat split; reflexivity. Qed.

(** A turn changes the sum of the orientation indices by -6, -3, 0, 3 or 6; a half turn
    and the turns of U and D leave it as it is.  (invariants.rs:19 says 0 or 6.) *)
Definition index_sum (cs : list Corner) : Z := Z.of_nat (list_sum (map corner_orientation_index cs)).

Definition delta_bounds (m : AxisMove) (p : Vec3) : Z * Z :=
  let d a := (Z.of_nat (corner_orientation_index (corner_apply (mkCorner p a) m))
              - Z.of_nat (corner_orientation_index (mkCorner p a)))%Z in
  (Z.min (d AX) (Z.min (d AY) (d AZ)), Z.max (d AX) (Z.max (d AY) (d AZ))).
Definition sumZ (l : list Z) : Z := fold_right Z.add 0%Z l.
Lemma sumZ_perm l l' : Permutation l l' -> sumZ l = sumZ l'.
Proof. unfold sumZ. induction 1; cbn [fold_right] in *; lia. Qed.
Lemma index_sum_sumZ cs : index_sum cs = sumZ (map (fun c => Z.of_nat (corner_orientation_index c)) cs).
Proof.
  unfold index_sum. induction cs as [|c cs IH]; [reflexivity|]. cbn [map sumZ fold_right].
  fold (sumZ (map (fun c => Z.of_nat (corner_orientation_index c)) cs)). rewrite <- IH.
  change (list_sum (corner_orientation_index c :: map corner_orientation_index cs))
    with (corner_orientation_index c + list_sum (map corner_orientation_index cs)). lia.
Qed.
Lemma index_sum_bounds m : forall cs,
  (sumZ (map fst (map (delta_bounds m) (map c_pos cs))) <=
   index_sum (map (fun c => corner_apply c m) cs) - index_sum cs <=
   sumZ (map snd (map (delta_bounds m) (map c_pos cs))))%Z.
Proof.
  intros cs. rewrite !index_sum_sumZ. induction cs as [|c cs IH]; [cbn; lia|].
  cbn [map sumZ fold_right]. unfold sumZ in IH. 
  assert (B : (fst (delta_bounds m (c_pos c)) <=
     Z.of_nat (corner_orientation_index (corner_apply c m)) - Z.of_nat (corner_orientation_index c)
     <= snd (delta_bounds m (c_pos c)))%Z).
  { destruct c as [p a]. unfold delta_bounds. cbn [c_pos fst snd]. destruct a; lia. }
  lia.
Qed.

Theorem C88_index_sum : forall (c : Cube3) (m : AxisMove), cube_well_formed Size3 c ->
  let change := (index_sum (c3_corners (cube3_apply c m)) - index_sum (c3_corners c))%Z in
  In change [-6; -3; 0; 3; 6]%Z /\
  (mv_amount m = Double \/ face_axis (mv_face m) = AY -> change = 0%Z).
Proof.
  intros c m W change. apply cube3_sets_valid_spec in W. destruct W as [_ VC].
  pose proof (twists_move (c3_corners c) m VC) as T.
  assert (P : Permutation (map c_pos (c3_corners c)) corner_reference).
  { exact (set_valid_perm _ corner_desc_ok _ VC). }
  pose proof (index_sum_bounds m (c3_corners c)) as B.
  rewrite (sumZ_perm _ _ (Permutation_map fst (Permutation_map (delta_bounds m) P))) in B.
  rewrite (sumZ_perm _ _ (Permutation_map snd (Permutation_map (delta_bounds m) P))) in B.
  change (map (fun x => corner_apply x m) (c3_corners c)) with (c3_corners (cube3_apply c m)) in B.
  fold change in B.
  assert (M : (change mod 3 = 0)%Z).
  { unfold change, index_sum. rewrite Zminus_mod.
    replace (list_sum (map corner_orientation_index (c3_corners (cube3_apply c m))))
      with (list_sum (map twists (corner_set_apply (c3_corners c) m)))
      by (change (corner_set_apply (c3_corners c) m) with (c3_corners (cube3_apply c m)); f_equal; apply map_ext, twists_index).
    replace (list_sum (map corner_orientation_index (c3_corners c)))
      with (list_sum (map twists (c3_corners c))) by (f_equal; apply map_ext, twists_index).
    change 3%Z with (Z.of_nat 3). rewrite <- !Nat2Z.inj_mod, T, Z.sub_diag. reflexivity. }
  assert (R : (-6 <= change <= 6)%Z /\
    (mv_amount m = Double \/ face_axis (mv_face m) = AY -> (-2 <= change <= 2)%Z)).
  { clearbody change. set (lo := sumZ (map fst _)) in B. set (hi := sumZ (map snd _)) in B. clear -B.
    destruct m as [[[] []] []]; vm_compute in lo, hi; subst lo hi; (split; [lia|]);
      cbn [mv_amount mv_face face_axis]; intros [E|E]; first [discriminate E|lia]. }
  destruct R as [R1 R2]. split.
  - apply Z.mod_divide in M; [|discriminate]. destruct M as [q M]. cbn [In]. lia.
  - intros H. specialize (R2 H). apply Z.mod_divide in M; [|discriminate]. destruct M as [q M]. lia.
Qed.

(** All five changes happen on cubes that are reached by turns. *)
Example C88_index_sum_example :
  let cube al := fold_left cube3_apply al cube3_solved in
  let change al m := (index_sum (c3_corners (cube3_apply (cube al) m)) - index_sum (c3_corners (cube al)))%Z in
  let R := mkMove fR Single in let U := mkMove fU Single in let F := mkMove fF Single in
  change [] R = 6%Z /\ change [R] (mkMove fR Inverse) = (-6)%Z /\ change [] U = 0%Z /\
  change [R; U; F] R = 3%Z /\ change [R; U; F; R] (mkMove fR Inverse) = (-3)%Z.
Proof. vm_compute. repeat split; reflexivity. Qed.

(* ------------------------------------------------------------------ *)
(** * C89: the orientation of edges *)

(** The centre of the cubie at an edge position. *)
Definition edge_point (p : EdgePos) : V3 := to_v3 (edge_coordinates p).

(** The orientation face is the U or D face of an edge that has one, the F or B face of any
    other edge; the other face is the remaining one. *)
Theorem C89_orientation_face : forall (p : EdgePos) (f : Face),
  (dot (normal f) (edge_point p) = 1%Z <-> f = orientation_face p \/ f = non_orientation_face p) /\
  orientation_face p <> non_orientation_face p /\
  face_axis (orientation_face p) = (if Z.eqb (py (edge_point p)) 0 then AZ else AY).
Proof.
  intros [[] [[] []]] [[] []]; (split; [vm_compute; intuition (congruence || discriminate)|]);
    (split; [intros E; discriminate E|reflexivity]).
Qed.

(** An edge is oriented exactly if the colour that its home has on the orientation face
    shows on the orientation face of the place it is at. *)
Theorem C89_oriented : forall (e : Edge) (home : EdgePos),
  (e_oriented e = true <-> In (orientation_face (edge_position e), orientation_face home) (edge_colors e home)) /\
  (e_oriented e = false <-> In (non_orientation_face (edge_position e), orientation_face home) (edge_colors e home)).
Proof.
  intros e home. rewrite !in_pairs.
  destruct e as [[] [[] []] []], home as [[] [[] []]]; vm_compute; intuition discriminate.
Qed.

(** [flip] leaves the edge where it is and exchanges its two colours. *)
Theorem C89_flip : forall (e : Edge) (home : EdgePos) (f g : Face) (col : Color),
  dot (normal f) (edge_point (edge_position e)) = 1%Z -> dot (normal g) (edge_point (edge_position e)) = 1%Z -> f <> g ->
  edge_position (edge_flip e) = edge_position e /\
  (In (f, col) (edge_colors e home) <-> In (g, col) (edge_colors (edge_flip e) home)) /\
  edge_flip (edge_flip e) = e.
Proof.
  intros e home f g col F G N. split; [reflexivity|]. unfold edge_colors. cbn zeta.
  generalize (orientation_face home) (non_orientation_face home). intros h1 h2.
  destruct e as [[] [[] []] []], f as [[] []]; vm_compute in F; try discriminate F; clear F;
    destruct g as [[] []]; vm_compute in G; try discriminate G; clear G; try congruence; clear N;
    (split; [|reflexivity]);
    cbn [e_oriented edge_flip edge_position e_normal e_slice negb orientation_face non_orientation_face fst snd v0 v1 In];
    unfold fF, fB, fU, fD, fR, fL; split; intros [E|[E|[]]]; inversion E; subst; auto.
Qed.

(** A rotation of an edge carries its orientation sticker to a place where that sticker
    belongs, unless [flips_edge_orientation] says so; the orientation is changed exactly
    then. *)
Theorem C89_flips : forall (e : Edge) (r : AxisRotation),
  let carried := rotate_space r (normal (orientation_face (edge_position e))) in
  let belongs := normal (orientation_face (edge_position (edge_rotate e r))) in
  edge_point (edge_position (edge_rotate e r)) = rotate_space r (edge_point (edge_position e)) /\
  (flips_edge_orientation r (e_normal e) = false <-> carried = belongs) /\
  (e_oriented (edge_rotate e r) = e_oriented e <-> carried = belongs).
Proof.
  intros [[] [[] []] []] [[] []]; cbn zeta; (split; [reflexivity|]); vm_compute; intuition (congruence || discriminate).
Qed.

(** By turns of faces only F, F', B and B' change the orientation of an edge, and they
    change it of the four edges they move. *)
Theorem C89_turns : forall (e : Edge) (m : AxisMove),
  e_oriented (edge_apply e m) <> e_oriented e <->
  (mv_face m = fF \/ mv_face m = fB) /\ mv_amount m <> Double /\
  dot (normal (mv_face m)) (edge_point (edge_position e)) = 1%Z.
Proof. intros [[] [[] []] []] [[[] []] []]; vm_compute; intuition (congruence || discriminate). Qed.

(** The direction of an edge position on an axis is its coordinate there; there is none on
    the axis where the coordinate is 0. *)
Theorem C89_direction_on_axis : forall (p : EdgePos) (a : Axis), exists o,
  direction_on_axis_o p a = Done o /\
  dot (unit a) (edge_point p) = match o with Some d => scalar d | None => 0%Z end.
Proof. intros [[] [[] []]] []; eexists; split; reflexivity. Qed.

(** A face contains an edge exactly if the edge is one step out along its normal; these are
    the two faces of the edge. *)
Theorem C89_contains_edge : forall (f : Face) (e : Edge), exists b,
  contains_edge_o f e = Done b /\
  (b = true <-> dot (normal f) (edge_point (edge_position e)) = 1%Z) /\
  (b = true <-> f = fst (edge_faces e) \/ f = snd (edge_faces e)).
Proof.
  intros [[] []] [[] [[] []] []]; eexists; (split; [reflexivity|]); vm_compute; intuition (congruence || discriminate).
Qed.

Example C89_example :
  let e := edge_oriented (AZ, mkVec2 Positive Positive) in   (* the edge UR *)
  edge_point (edge_position e) = mkV3 1 1 0 /\ orientation_face (edge_position e) = fU /\
  e_oriented (edge_apply e (mkMove fR Single)) = true /\
  edge_position (edge_apply e (mkMove fR Single)) = (AY, mkVec2 Negative Positive) /\
  orientation_face (AY, mkVec2 Negative Positive) = fB /\
  flips_edge_orientation (mkRot AZ Inverse) (e_normal e) = true.
Proof. repeat split; reflexivity. Qed.

(* ------------------------------------------------------------------ *)
(** * C90: faces and axes *)

(** [next_around] and [prev_around] are quarter turns of the face around the axis, clockwise
    and counter-clockwise seen from its tip. *)
Theorem C90_around : forall (f : Face) (a : Axis),
  normal (next_around f a) = turn (unit a) 1 (normal f) /\
  normal f = turn (unit a) 1 (normal (prev_around f a)) /\
  prev_around (next_around f a) a = f /\ next_around (prev_around f a) a = f.
Proof. intros [[] []] []; repeat split; reflexivity. Qed.

(** [rotate_vec2] turns a slice clockwise seen from the tip of its axis, in the basis given
    by [basis]; the basis with the axis is right-handed. *)
Definition in_slice (a : Axis) (v : Vec2) : V3 :=
  v3_add (v3_scale (scalar (v0 v)) (unit (fst (basis a)))) (v3_scale (scalar (v1 v)) (unit (snd (basis a)))).
Theorem C90_rotate_vec2 : forall (a : Axis) (x : Amount) (v : Vec2),
  in_slice a (rotate_vec2 x v) = rotate_space (mkRot a x) (in_slice a v).
Proof. intros [] [] [[] []]; reflexivity. Qed.
Theorem C90_basis : forall a : Axis,
  cross (unit (fst (basis a))) (unit (snd (basis a))) = unit a /\
  cross (unit a) (unit (fst (basis a))) = unit (snd (basis a)).
Proof. intros []; split; reflexivity. Qed.

(** [other] is the third axis, if there is one; [prev] undoes [next]; three steps of [next]
    go through all axes and come back; [offset] is the number of steps from one axis to
    another. *)
Theorem C90_axes : forall a b : Axis,
  (forall c, axis_other a b = Some c <-> a <> b /\ c <> a /\ c <> b) /\
  (axis_other a b = None <-> a = b) /\
  axis_prev (axis_next a) = a /\ axis_next (axis_prev a) = a /\
  axis_next (axis_next (axis_next a)) = a /\ axis_next a <> a /\
  (0 <= offset a b < 3)%Z /\ times (Z.to_nat (offset a b)) axis_next a = b.
Proof.
  intros [] []; (split; [intros []; vm_compute; intuition (congruence || discriminate)|]);
    repeat split; try reflexivity; try (intros E; discriminate E); vm_compute; congruence.
Qed.

(** The numbers of the faces are their places in [iter], which goes through the six faces
    in the order R, U, F, L, D, B; opposite faces are three apart. *)
Theorem C90_face_index : forall f g : Face,
  nth_error face_iter (face_index f) = Some f /\ face_index f < 6 /\
  (face_index f = face_index g <-> f = g) /\
  face_index (opposite f) = (face_index f + 3) mod 6.
Proof.
  intros f g. split; [destruct f as [[] []]; reflexivity|].
  split; [destruct f as [[] []]; cbn; lia|].
  split; [|destruct f as [[] []]; reflexivity].
  split; [|intros ->; reflexivity]. destruct f as [[] []], g as [[] []]; cbn; congruence.
Qed.

(** The faces of a corner, and the faces that contain a corner position, are the three
    faces whose layer it is in. *)
Theorem C90_corner_faces : forall (c : Corner) (f : Face),
  (In f (corner_faces c) <-> dot (normal f) (point (c_pos c)) = 1%Z) /\
  (contains_vector f (c_pos c) = true <-> dot (normal f) (point (c_pos c)) = 1%Z) /\
  NoDup (corner_faces c).
Proof.
  intros c f. split; [|split].
  - destruct c as [[[] [] []] []], f as [[] []]; vm_compute; intuition (congruence || discriminate).
  - destruct c as [[[] [] []] []], f as [[] []]; vm_compute; intuition (congruence || discriminate).
  - destruct c as [[[] [] []] []]; unfold corner_faces; repeat constructor; cbn; intuition discriminate.
Qed.

(** The coordinates of axes and faces are their unit vectors and outward normals. *)
Theorem C90_coords : forall (a : Axis) (f : Face),
  to_v3 (vector_of_axis a) = unit a /\ to_v3 (face_coords f) = normal f /\ to_v3 (vector_of_face f) = normal f.
Proof. intros [] [[] []]; repeat split; reflexivity. Qed.

(** The normal direction of a wing is consistent with rotation: the wing stands on its edge,
    off the middle to the side of its normal direction, and is carried along by every
    rotation of space; [new] makes the wing on the given side. *)
Definition wing_point (w : Wing) : V3 :=
  v3_add (v3_scale 2 (edge_point (edge_position (wg_edge w))))
         (v3_scale (scalar (wing_normal_dir w)) (unit (e_normal (wg_edge w)))).
Theorem C90_wing : forall (w : Wing) (r : AxisRotation) (a : Axis) (s : Vec2) (d : Direction),
  wing_point (wing_rotate w r) = rotate_space r (wing_point w) /\
  wing_point (wing_new a s d) = v3_add (v3_scale 2 (in_slice a s)) (v3_scale (scalar d) (unit a)) /\
  wing_new (e_normal (wg_edge w)) (e_slice (wg_edge w)) (wing_normal_dir w) = w.
Proof.
  intros w r a s d. split; [destruct w as [[[] [[] []] []]], r as [[] []]; reflexivity|].
  split; [destruct a, s as [[] []], d; reflexivity|destruct w as [[[] [[] []] []]]; reflexivity].
Qed.
Theorem C90_wings_apart : forall w w' : Wing, wing_point w = wing_point w' -> w = w'.
Proof.
  intros [[[] [[] []] []]] [[[] [[] []] []]] E; vm_compute in E; first [reflexivity|discriminate E].
Qed.

Example C90_example :
  next_around fF AX = fU /\ prev_around fF AX = fD /\ axis_other AX AZ = Some AY /\
  offset AZ AX = 1%Z /\ face_index fL = 3 /\
  wing_point (wing_new AZ (mkVec2 Positive Positive) Negative) = mkV3 2 2 (-1).
Proof. repeat split; reflexivity. Qed.

Print Assumptions C88_next_axis.
Print Assumptions C88_twist_turns_colours.
Print Assumptions C88_orientation_index.
Print Assumptions C88_back.
Print Assumptions C88_needed_twists_differ.
Print Assumptions C88_taken_apart.
Print Assumptions C88_index_sum.
Print Assumptions C89_orientation_face.
Print Assumptions C89_oriented.
Print Assumptions C89_flip.
Print Assumptions C89_flips.
Print Assumptions C89_turns.
Print Assumptions C89_direction_on_axis.
Print Assumptions C89_contains_edge.
Print Assumptions C90_around.
Print Assumptions C90_rotate_vec2.
Print Assumptions C90_basis.
Print Assumptions C90_axes.
Print Assumptions C90_face_index.
Print Assumptions C90_corner_faces.
Print Assumptions C90_coords.
Print Assumptions C90_wing.
Print Assumptions C90_wings_apart.

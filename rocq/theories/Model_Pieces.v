(** Model of the pieces: /repo/barbarosa/src/cube_n/pieces/{corner,edge,wing}.rs and
    /repo/barbarosa/src/cube_n/pieces/center/{corner,edge,wing}.rs.

    Functions containing [unreachable!]/[expect]/[assert!] are modelled twice: the
    faithful version ([..._o]) returns an [outcome]; the total version takes a
    default in the panic case; a lemma shows that the panic never happens. *)

From Coq Require Import List Bool Arith NArith ZArith Lia.
From Verif Require Import Model_Base Model_Space Model_Moves.
Import ListNotations.

(** The value, or a default after a panic. Not in /repo: reads a value where no panic is possible. *)
Definition from_outcome {A} (d : A) (x : outcome A) : A :=
  match x with Done a => a | Panic => d end.

(* ------------------------------------------------------------------ *)
(** * Corners *)

(** pieces/corner.rs:22-29 [struct Corner]. *)
Record Corner := mkCorner { c_pos : Vec3; c_axis : Axis }.

(** pieces/corner.rs:21 derived [PartialEq]. *)
Definition corner_eqb (a b : Corner) : bool :=
  vec3_eqb (c_pos a) (c_pos b) && axis_eqb (c_axis a) (c_axis b).

(** pieces/corner.rs:155-157 [is_oriented] ([ORIENTED_AXIS] is Y, line 91). *)
Definition corner_is_oriented (c : Corner) : bool := axis_eqb (c_axis c) AY.

(** pieces/corner.rs:38-40 [Piece::is_solved]. *)
Definition corner_is_solved (c : Corner) (original : Vec3) : bool :=
  vec3_eqb (c_pos c) original && corner_is_oriented c.

(** pieces/corner.rs:44-51 [REFERENCE_POSITIONS]. [cartesian_array_map!] is a macro of the crate
    cartesian_array_product; its first factor varies fastest (the test
    [center_wings_normal_directions] in cube6/test.rs:60-71 shows this: the second centre wing
    is on U). The same holds for the other piece sets below. *)
Definition corner_reference : list Vec3 :=
  flat_map (fun z => flat_map (fun y => map (fun x => mkVec3 x y z)
    [Positive; Negative]) [Positive; Negative]) [Positive; Negative].

(** pieces/corner.rs:93-98 [Corner::oriented]. *)
Definition corner_oriented (p : Vec3) : Corner := mkCorner p AY.

(** pieces/corner.rs:53 [SOLVED]. *)
Definition corner_solved : list Corner := map corner_oriented corner_reference.

(** pieces/corner.rs:56-61 [Rotatable for Corner]. *)
Definition corner_rotate (c : Corner) (r : AxisRotation) : Corner :=
  mkCorner (rotate_vec3 (c_pos c) r) (rotate_axis (c_axis c) r).

(** pieces/corner.rs:63-70 [Movable<AxisMove> for Corner]. *)
Definition corner_apply (c : Corner) (m : AxisMove) : Corner :=
  if contains_vector (mv_face m) (c_pos c) then corner_rotate c (rot_of_move m) else c.

(** pieces/corner.rs:101-107 [faces]. *)
Definition corner_faces (c : Corner) : list Face :=
  [mkFace AX (vx (c_pos c)); mkFace AY (vy (c_pos c)); mkFace AZ (vz (c_pos c))].

(** pieces/corner.rs:109-116 [is_even_position_parity]. *)
Definition is_even_position_parity (p : Vec3) : bool :=
  Nat.eqb (Nat.modulo (length (filter (fun d => dir_eqb d Negative) [vx p; vy p; vz p])) 2) 0.

(** pieces/corner.rs:121-130 [orientation_index]. *)
Definition corner_orientation_index (c : Corner) : nat :=
  let axis_index := Z.of_nat (axis_num (c_axis c)) in
  if is_even_position_parity (c_pos c)
  then Z.to_nat (Z.modulo (axis_index - 1) 3)
  else Z.to_nat (Z.modulo (1 - axis_index) 3).

(** pieces/corner.rs:134-140 [next_axis]. *)
Definition corner_next_axis (p : Vec3) (a : Axis) : Axis :=
  if is_even_position_parity p then axis_next a else axis_prev a.

(** pieces/corner.rs:143-149 [twist]. *)
Definition corner_twist (c : Corner) : Corner :=
  mkCorner (c_pos c)
    (if is_even_position_parity (c_pos c) then axis_next (c_axis c) else axis_prev (c_axis c)).

(* ------------------------------------------------------------------ *)
(** * Edges *)

(** pieces/edge.rs:24-48 [struct Edge]. *)
Record Edge := mkEdge { e_normal : Axis; e_slice : Vec2; e_oriented : bool }.

(** pieces/edge.rs:23 derived [PartialEq]. *)
Definition edge_eqb (a b : Edge) : bool :=
  axis_eqb (e_normal a) (e_normal b) && vec2_eqb (e_slice a) (e_slice b)
  && Bool.eqb (e_oriented a) (e_oriented b).

(** pieces/edge.rs:51 [type Position = (Axis, Vec2)]. *)
Definition EdgePos : Type := Axis * Vec2.
(** Derived [PartialEq] of the position. pieces/edge.rs, the derived comparison of [(Axis, Vec2)]. *)
Definition edgepos_eqb (a b : EdgePos) : bool :=
  axis_eqb (fst a) (fst b) && vec2_eqb (snd a) (snd b).

(** pieces/edge.rs:53-55 [position]. *)
Definition edge_position (e : Edge) : EdgePos := (e_normal e, e_slice e).

(** pieces/edge.rs:57-59 [is_solved]. *)
Definition edge_is_solved (e : Edge) (original : EdgePos) : bool :=
  edgepos_eqb (edge_position e) original && e_oriented e.

(** pieces/edge.rs:64-82 [REFERENCE_POSITIONS]. *)
Definition edge_reference : list EdgePos :=
  [ (AX, mkVec2 Positive Positive);
    (AX, mkVec2 Positive Negative);
    (AY, mkVec2 Positive Positive);
    (AY, mkVec2 Positive Negative);
    (AZ, mkVec2 Positive Positive);
    (AZ, mkVec2 Negative Positive);
    (AX, mkVec2 Negative Negative);
    (AX, mkVec2 Negative Positive);
    (AY, mkVec2 Negative Positive);
    (AY, mkVec2 Negative Negative);
    (AZ, mkVec2 Positive Negative);
    (AZ, mkVec2 Negative Negative) ].

(** pieces/edge.rs:154-156 [Edge::oriented]. *)
Definition edge_oriented (p : EdgePos) : Edge := mkEdge (fst p) (snd p) true.

(** pieces/edge.rs:92-98 [SOLVED]. *)
Definition edge_solved : list Edge := map edge_oriented edge_reference.

(** pieces/edge.rs:159-167 [faces]. *)
Definition edge_faces (e : Edge) : Face * Face :=
  let x := axis_next (e_normal e) in
  let y := axis_next x in
  (mkFace x (v0 (e_slice e)), mkFace y (v1 (e_slice e))).

(** pieces/edge.rs:172-182 [flipped], [flip]. *)
Definition edge_flip (e : Edge) : Edge :=
  mkEdge (e_normal e) (e_slice e) (negb (e_oriented e)).

(** pieces/edge.rs:187-203 [position_from_faces]; the inner [unreachable!] is
    [Panic]. *)
Definition position_from_faces (a b : Face) : outcome (result EdgePos ParallelAxesError) :=
  match axis_other (face_axis a) (face_axis b) with
  | None => Done (Err (SameAxis (face_axis a)))
  | Some normal =>
      let x := axis_next normal in
      let y := axis_next x in
      if axis_eqb x (face_axis a) && axis_eqb y (face_axis b)
      then Done (Ok (normal, mkVec2 (face_dir a) (face_dir b)))
      else if axis_eqb x (face_axis b) && axis_eqb y (face_axis a)
      then Done (Ok (normal, mkVec2 (face_dir b) (face_dir a)))
      else Panic
  end.

(** pieces/edge.rs:101-122 [Rotatable for Edge]. *)
Definition edge_rotate_o (e : Edge) (r : AxisRotation) : outcome Edge :=
  let oriented := xorb (e_oriented e) (flips_edge_orientation r (e_normal e)) in
  if axis_eqb (rot_axis r) (e_normal e)
  then Done (mkEdge (e_normal e) (rotate_vec2 (rot_amount r) (e_slice e)) oriented)
  else
    let (fa, fb) := edge_faces e in
    bind_o (position_from_faces (rotate_face fa r) (rotate_face fb r)) (fun res =>
      match res with
      | Ok (n, s) => Done (mkEdge n s oriented)
      | Err _ => Panic
      end).
(** pieces/edge.rs:101-122, total version. *)
Definition edge_rotate (e : Edge) (r : AxisRotation) : Edge :=
  from_outcome e (edge_rotate_o e r).

Lemma edge_rotate_o_done e r : edge_rotate_o e r = Done (edge_rotate e r).
Proof. destruct e as [[] [[] []] []], r as [[] []]; reflexivity. Qed.

(** space/face.rs:170-179 [Face::contains_edge]; the [unreachable!] arm is [Panic]. *)
Definition contains_edge_o (f : Face) (e : Edge) : outcome bool :=
  match offset (e_normal e) (face_axis f) with
  | 0%Z => Done false
  | 1%Z => Done (dir_eqb (v0 (e_slice e)) (face_dir f))
  | 2%Z => Done (dir_eqb (v1 (e_slice e)) (face_dir f))
  | _ => Panic
  end.
(** space/face.rs:170-179, total version. *)
Definition contains_edge (f : Face) (e : Edge) : bool :=
  from_outcome false (contains_edge_o f e).

Lemma contains_edge_o_done f e : contains_edge_o f e = Done (contains_edge f e).
Proof. destruct f as [[] []], e as [[] [[] []] []]; reflexivity. Qed.

(** pieces/edge.rs:124-131 [Movable<AxisMove> for Edge]. *)
Definition edge_apply (e : Edge) (m : AxisMove) : Edge :=
  if contains_edge (mv_face m) e then edge_rotate e (rot_of_move m) else e.

(** pieces/edge.rs:206-212 [orientation_face]. *)
Definition orientation_face (p : EdgePos) : Face :=
  match fst p with
  | AX => mkFace AY (v0 (snd p))
  | AY => mkFace AZ (v0 (snd p))
  | AZ => mkFace AY (v1 (snd p))
  end.

(** pieces/edge.rs:215-221 [non_orientation_face]. *)
Definition non_orientation_face (p : EdgePos) : Face :=
  match fst p with
  | AX => mkFace AZ (v1 (snd p))
  | AY => mkFace AX (v1 (snd p))
  | AZ => mkFace AX (v0 (snd p))
  end.

(** pieces/edge.rs:226-243 [direction_on_axis]; the [unreachable!] is [Panic]. *)
Definition direction_on_axis_o (p : EdgePos) (a : Axis) : outcome (option Direction) :=
  let (normal, s) := p in
  if axis_eqb a normal then Done None
  else let (b1, b2) := basis normal in
       if axis_eqb a b1 then Done (Some (v0 s))
       else if axis_eqb a b2 then Done (Some (v1 s))
       else Panic.
(** pieces/edge.rs:226-243, total version. *)
Definition direction_on_axis (p : EdgePos) (a : Axis) : option Direction :=
  from_outcome None (direction_on_axis_o p a).

Lemma direction_on_axis_o_done p a : direction_on_axis_o p a = Done (direction_on_axis p a).
Proof. destruct p as [[] [[] []]], a; reflexivity. Qed.

(** [Option<Direction>] equality used in pieces/edge.rs:296. *)
Definition odir_eqb (a b : option Direction) : bool :=
  match a, b with
  | Some x, Some y => dir_eqb x y
  | None, None => true
  | _, _ => false
  end.

(** pieces/edge.rs:284-313 [min_moves_to_solve]. *)
Definition min_moves_to_solve (original : EdgePos) (e : Edge) : Z :=
  if edge_is_solved e original then 0%Z
  else
    let shared_axis :=
      find_first (fun a =>
        let d1 := direction_on_axis (edge_position e) a in
        let d2 := direction_on_axis original a in
        match d1 with Some _ => odir_eqb d1 d2 | None => false end) axis_iter in
    match e_oriented e, axis_eqb (fst original) (e_normal e), shared_axis with
    | true, true, Some _ => 1
    | true, false, Some AX => 1
    | true, false, Some AY => 1
    | false, false, Some AZ => 1
    | true, _, None => 2
    | true, false, Some AZ => 2
    | false, false, Some AX => 2
    | false, false, Some AY => 2
    | false, false, None => 2
    | false, true, None => 3
    | false, true, Some _ => 3
    end%Z.

(* ------------------------------------------------------------------ *)
(** * Wings *)

(** pieces/wing.rs:28-30 [struct Wing]; its position is itself (32-38) and
    [is_solved] is equality (40-42). *)
Record Wing := mkWing { wg_edge : Edge }.
(** pieces/wing.rs:27 derived [PartialEq]. *)
Definition wing_eqb (a b : Wing) : bool := edge_eqb (wg_edge a) (wg_edge b).

(** pieces/wing.rs:44-68 [SOLVED] and [REFERENCE_POSITIONS]. *)
Definition wing_solved : list Wing :=
  flat_map (fun o => flat_map (fun s2 => flat_map (fun s1 => map (fun a =>
     mkWing (mkEdge a (mkVec2 s1 s2) o)) [AX; AY; AZ])
     [Positive; Negative]) [Positive; Negative]) [true; false].

(** pieces/wing.rs:70-74 [Rotatable for Wing]. *)
Definition wing_rotate (w : Wing) (r : AxisRotation) : Wing :=
  mkWing (edge_rotate (wg_edge w) r).

(** pieces/wing.rs:108-122 [wing_normal_direction]. *)
Definition wing_normal_direction (normal : Axis) (s : Vec2) (pseudo_oriented : bool) : Direction :=
  if xorb (xorb (axis_eqb normal AZ) (dir_eqb (v0 s) (v1 s))) pseudo_oriented
  then Negative else Positive.

(** pieces/wing.rs:88-94 [normal_direction]. *)
Definition wing_normal_dir (w : Wing) : Direction :=
  wing_normal_direction (e_normal (wg_edge w)) (e_slice (wg_edge w)) (e_oriented (wg_edge w)).

(** pieces/wing.rs:126-133 [Wing::new]. *)
Definition wing_new (normal : Axis) (s : Vec2) (d : Direction) : Wing :=
  mkWing (mkEdge normal s (dir_eqb (wing_normal_direction normal s true) d)).

(** pieces/wing.rs:142-148 [try_from_faces]. *)
Definition wing_try_from_faces (a b : Face) (d : Direction)
  : outcome (result Wing ParallelAxesError) :=
  map_o (fun r => bind_r r (fun p => Ok (wing_new (fst p) (snd p) d)))
        (position_from_faces a b).

(** pieces/wing.rs:151-174 [is_in_wide_move]; [nd] is the normal depth. The const
    generic [M] and the tangent depth are unused by the code. *)
Definition wing_in_wide (w : Wing) (nd td mx : N) (m : WideAxisMove) : bool :=
  let f := mv_face (w_move m) in
  if contains_edge f (wg_edge w) then true
  else if axis_eqb (e_normal (wg_edge w)) (face_axis f)
       then N.leb nd (w_depth m) && dir_eqb (face_dir f) (wing_normal_dir w)
       else false.

(* ------------------------------------------------------------------ *)
(** * Centre corners *)

(** pieces/center/corner.rs:20-23 [struct CenterCorner]. *)
Record CenterCorner := mkCC { cc_pos : Vec3; cc_axis : Axis }.
(** pieces/center/corner.rs:19 derived [PartialEq]. *)
Definition cc_eqb (a b : CenterCorner) : bool :=
  vec3_eqb (cc_pos a) (cc_pos b) && axis_eqb (cc_axis a) (cc_axis b).

(** pieces/center/corner.rs:32-34 [is_solved] (and the inherent copy at 96-98):
    compares the directions along the two main axes only. *)
Definition cc_is_solved (c original : CenterCorner) : bool :=
  dir_eqb (vget (cc_pos c) (cc_axis c)) (vget (cc_pos original) (cc_axis original)).

(** pieces/center/corner.rs:37-60 [SOLVED], [REFERENCE_POSITIONS]. *)
Definition cc_solved : list CenterCorner :=
  flat_map (fun a => flat_map (fun z => flat_map (fun y => map (fun x =>
     mkCC (mkVec3 x y z) a) [Positive; Negative])
     [Positive; Negative]) [Positive; Negative]) [AX; AY; AZ].

(** pieces/center/corner.rs:62-67 [Rotatable]. *)
Definition cc_rotate (c : CenterCorner) (r : AxisRotation) : CenterCorner :=
  mkCC (rotate_vec3 (cc_pos c) r) (rotate_axis (cc_axis c) r).

(** pieces/center/corner.rs:69-89 [is_in_wide_move]. *)
Definition cc_in_wide (c : CenterCorner) (nd td mx : N) (m : WideAxisMove) : bool :=
  let f := mv_face (w_move m) in
  if dir_eqb (vget (cc_pos c) (face_axis f)) (face_dir f)
  then N.leb nd (w_depth m) || axis_eqb (cc_axis c) (face_axis f)
  else false.

(* ------------------------------------------------------------------ *)
(** * Centre edges *)

(** pieces/center/edge.rs:22-35 [struct CenterEdge]. *)
Record CenterEdge := mkCE { ce_main : Face; ce_hand : Direction; ce_side_dir : Direction }.
(** pieces/center/edge.rs:21 derived [PartialEq]. *)
Definition ce_eqb (a b : CenterEdge) : bool :=
  face_eqb (ce_main a) (ce_main b) && dir_eqb (ce_hand a) (ce_hand b)
  && dir_eqb (ce_side_dir a) (ce_side_dir b).

(** pieces/center/edge.rs:44-46 [is_solved]. *)
Definition ce_is_solved (c original : CenterEdge) : bool := face_eqb (ce_main c) (ce_main original).

(** pieces/center/edge.rs:49-63 [REFERENCE_POSITIONS], [SOLVED]. *)
Definition ce_solved : list CenterEdge :=
  flat_map (fun s => flat_map (fun h => map (fun f => mkCE f h s)
     [fR; fU; fF; fL; fD; fB]) [Positive; Negative]) [Positive; Negative].

(** pieces/center/edge.rs:104-110 [side_face]; [debug_assert_ne!] is checked. *)
Definition ce_side_face_o (c : CenterEdge) : outcome Face :=
  let side_axis := next_with_handedness (face_axis (ce_main c)) (ce_hand c) in
  if axis_eqb side_axis (face_axis (ce_main c)) then Panic
  else Done (mkFace side_axis (ce_side_dir c)).
(** pieces/center/edge.rs:104-110, total version. *)
Definition ce_side_face (c : CenterEdge) : Face := from_outcome fR (ce_side_face_o c).

Lemma ce_side_face_o_done c : ce_side_face_o c = Done (ce_side_face c).
Proof. destruct c as [[[] []] [] []]; reflexivity. Qed.

(** pieces/center/edge.rs:65-80 [Rotatable]; the [expect] is [Panic]. *)
Definition ce_rotate_o (c : CenterEdge) (r : AxisRotation) : outcome CenterEdge :=
  bind_o (ce_side_face_o c) (fun sf =>
  let side := rotate_face sf r in
  let main := rotate_face (ce_main c) r in
  bind_o (get_handedness (face_axis main) (face_axis side)) (fun h =>
  match h with
  | Ok h => Done (mkCE main h (face_dir side))
  | Err _ => Panic
  end)).
(** pieces/center/edge.rs:65-80, total version. *)
Definition ce_rotate (c : CenterEdge) (r : AxisRotation) : CenterEdge :=
  from_outcome c (ce_rotate_o c r).

Lemma ce_rotate_o_done c r : ce_rotate_o c r = Done (ce_rotate c r).
Proof. destruct c as [[[] []] [] []], r as [[] []]; reflexivity. Qed.

(** pieces/center/edge.rs:93-101 [try_from_faces]. *)
Definition ce_try_from_faces (main side : Face) : outcome (result CenterEdge ParallelAxesError) :=
  map_o (fun r => bind_r r (fun h => Ok (mkCE main h (face_dir side))))
        (get_handedness (face_axis main) (face_axis side)).

(** pieces/center/edge.rs:113-122 [normal_axis]; the [assert_eq!] and [unwrap] are
    checked. *)
Definition ce_normal_axis_o (c : CenterEdge) : outcome Axis :=
  let output := next_with_handedness (face_axis (ce_main c)) (dir_neg (ce_hand c)) in
  bind_o (ce_side_face_o c) (fun side =>
  match axis_other (face_axis (ce_main c)) (face_axis side) with
  | None => Panic
  | Some o => if axis_eqb o output then Done output else Panic
  end).
(** pieces/center/edge.rs:113-122, total version. *)
Definition ce_normal_axis (c : CenterEdge) : Axis := from_outcome AX (ce_normal_axis_o c).

Lemma ce_normal_axis_o_done c : ce_normal_axis_o c = Done (ce_normal_axis c).
Proof. destruct c as [[[] []] [] []]; reflexivity. Qed.

(** pieces/center/edge.rs:125-142 [is_in_wide_move]: compares the normal depth with
    the const generic [M] ([mx]), not with the depth of the move. *)
Definition ce_in_wide (c : CenterEdge) (nd td mx : N) (m : WideAxisMove) : bool :=
  let f := mv_face (w_move m) in
  if face_eqb f (ce_main c) then true
  else face_eqb f (ce_side_face c) && N.leb nd mx.

(* ------------------------------------------------------------------ *)
(** * Centre wings *)

(** pieces/center/wing.rs:26-29 [struct CenterWing]. *)
Record CenterWing := mkCW { cw_edge : CenterEdge; cw_oriented : bool }.
(** pieces/center/wing.rs:25 derived [PartialEq]. *)
Definition cw_eqb (a b : CenterWing) : bool :=
  ce_eqb (cw_edge a) (cw_edge b) && Bool.eqb (cw_oriented a) (cw_oriented b).

(** pieces/center/wing.rs:38-40 [is_solved]. *)
Definition cw_is_solved (c original : CenterWing) : bool :=
  face_eqb (ce_main (cw_edge c)) (ce_main (cw_edge original)).

(** pieces/center/wing.rs:43-58 [REFERENCE_POSITIONS], [SOLVED]. *)
Definition cw_solved : list CenterWing :=
  flat_map (fun o => flat_map (fun s => flat_map (fun h => map (fun f =>
     mkCW (mkCE f h s) o) [fR; fU; fF; fL; fD; fB])
     [Positive; Negative]) [Positive; Negative]) [true; false].

(** pieces/center/wing.rs:60-66 [Rotatable]: the flip uses the normal axis after the
    rotation of the centre edge. *)
Definition cw_rotate (c : CenterWing) (r : AxisRotation) : CenterWing :=
  let e := ce_rotate (cw_edge c) r in
  mkCW e (xorb (cw_oriented c) (flips_edge_orientation r (ce_normal_axis e))).

(** pieces/center/wing.rs:121-131 [normal_direction]. *)
Definition cw_normal_dir (c : CenterWing) : Direction :=
  wing_normal_direction (ce_normal_axis (cw_edge c))
    (mkVec2 (face_dir (ce_main (cw_edge c))) (ce_side_dir (cw_edge c))) (cw_oriented c).

(** pieces/center/wing.rs:70-90 [CenterWing::new]. *)
Definition cw_new (main : Face) (h side_dir normal_dir : Direction) : CenterWing :=
  let e := mkCE main h side_dir in
  mkCW e (dir_eqb (wing_normal_direction (ce_normal_axis e)
                     (mkVec2 (face_dir main) side_dir) true) normal_dir).

(** pieces/center/wing.rs:144-174 [is_in_wide_move]; the [debug_assert_eq!] is the
    [Panic] case of the faithful version. *)
Definition cw_in_wide_o (c : CenterWing) (nd td mx : N) (m : WideAxisMove) : outcome bool :=
  let main := ce_main (cw_edge c) in
  let side := ce_side_face (cw_edge c) in
  let f := mv_face (w_move m) in
  if face_eqb main f then Done true
  else if face_eqb side f then Done (N.leb nd (w_depth m))
  else if axis_eqb (face_axis main) (face_axis f) || axis_eqb (face_axis side) (face_axis f)
  then Done false
  else if axis_eqb (ce_normal_axis (cw_edge c)) (face_axis f)
  then Done (dir_eqb (cw_normal_dir c) (face_dir f) && N.leb td (w_depth m))
  else Panic.
(** pieces/center/wing.rs:144-174, total version. *)
Definition cw_in_wide (c : CenterWing) (nd td mx : N) (m : WideAxisMove) : bool :=
  from_outcome false (cw_in_wide_o c nd td mx m).

Lemma cw_in_wide_o_done c nd td mx m : cw_in_wide_o c nd td mx m = Done (cw_in_wide c nd td mx m).
Proof. destruct c as [[[[] []] [] []] []], m as [d [[[] []] []]]; reflexivity. Qed.

(* ------------------------------------------------------------------ *)
(** * Equality and enumeration lemmas *)

Lemma corner_eqb_eq a b : corner_eqb a b = true <-> a = b.
Proof.
  unfold corner_eqb; rewrite andb_true_iff, vec3_eqb_eq, axis_eqb_eq.
  destruct a, b; simpl; split; [intros [-> ->]|intros [= -> ->]]; auto.
Qed.

Lemma edgepos_eqb_eq a b : edgepos_eqb a b = true <-> a = b.
Proof.
  unfold edgepos_eqb; rewrite andb_true_iff, axis_eqb_eq, vec2_eqb_eq.
  destruct a, b; simpl; split; [intros [-> ->]|intros [= -> ->]]; auto.
Qed.

Lemma edge_eqb_eq a b : edge_eqb a b = true <-> a = b.
Proof.
  unfold edge_eqb; rewrite !andb_true_iff, axis_eqb_eq, vec2_eqb_eq, eqb_true_iff.
  destruct a, b; simpl; split; [intros [[-> ->] ->]|intros [= -> -> ->]]; auto.
Qed.

Lemma wing_eqb_eq a b : wing_eqb a b = true <-> a = b.
Proof.
  unfold wing_eqb; rewrite edge_eqb_eq. destruct a, b; simpl; split; congruence.
Qed.

Lemma cc_eqb_eq a b : cc_eqb a b = true <-> a = b.
Proof.
  unfold cc_eqb; rewrite andb_true_iff, vec3_eqb_eq, axis_eqb_eq.
  destruct a, b; simpl; split; [intros [-> ->]|intros [= -> ->]]; auto.
Qed.

Lemma ce_eqb_eq a b : ce_eqb a b = true <-> a = b.
Proof.
  unfold ce_eqb; rewrite !andb_true_iff, face_eqb_eq, !dir_eqb_eq.
  destruct a, b; simpl; split; [intros [[-> ->] ->]|intros [= -> -> ->]]; auto.
Qed.

Lemma cw_eqb_eq a b : cw_eqb a b = true <-> a = b.
Proof.
  unfold cw_eqb; rewrite andb_true_iff, ce_eqb_eq, eqb_true_iff.
  destruct a, b; simpl; split; [intros [-> ->]|intros [= -> ->]]; auto.
Qed.

(** Sequences of moves as functions on single pieces, for every cube size at once. *)

From Coq Require Import List Bool Arith NArith ZArith Lia Permutation.
From Verif Require Import Model_Base Model_Space Model_Moves Model_Pieces Model_PieceSet Model_Cubes
  Model_Visual Spec_Moves Spec_Geometry Spec_Sets Spec_Invariants Spec_BigLaws Spec_Words
  Proof_Moves Proof_Sets Proof_Parity Proof_Invariants Proof_Sort Data_Big Proof_BigSolve Proof_BigLaws.
Import ListNotations.
Open Scope nat_scope.

(* ------------------------------------------------------------------ *)
(** * Every cube as part of a 7x7x7 *)

Definition as7 (n : CubeSize) : CubeOf n -> Cube7 :=
  match n with
  | Size2 => fun c => mkCube7 (c2_corners c) [] [] [] [] [] [] [] []
  | Size3 => fun c => mkCube7 (c3_corners c) (c3_edges c) [] [] [] [] [] [] []
  | Size4 => fun c => mkCube7 (c4_corners c) [] (c4_wings c) [] (c4_centers c) [] [] [] []
  | Size5 => fun c => mkCube7 (c5_corners c) (c5_edges c) [] [] (c5_center_corners c) [] [] (c5_center_edges c) []
  | Size6 => fun c => mkCube7 (c6_corners c) [] (c6_wings_1 c) (c6_wings_2 c)
                       (c6_center_corners_1 c) (c6_center_corners_2 c) (c6_center_wings c) [] []
  | Size7 => fun c => c
  end.
Lemma as7_wide n c w : as7 n (cube_apply_wide n c w) = cube7_apply_wide (as7 n c) w.
Proof. destruct n; reflexivity. Qed.
Lemma as7_inj n a b : as7 n a = as7 n b -> a = b.
Proof.
  destruct n; cbn [as7]; try (intros H; exact H); intros H; injection H; clear H; destruct a, b; cbn; intros; subst; reflexivity.
Qed.

Definition pieces_of (n : CubeSize) (c : CubeOf n) : list Cubie := cubies (as7 n c).
Lemma pieces_inj n a b : pieces_of n a = pieces_of n b -> a = b.
Proof. intros H. apply as7_inj, cubies_inj, H. Qed.
Lemma pieces_after n al : forall c, pieces_of n (after_wide n al c) = map (run al) (pieces_of n c).
Proof.
  induction al as [|w al IH]; intros c; [symmetry; apply map_id|].
  change (pieces_of n (after_wide n al (cube_apply_wide n c w)) = map (run (w :: al)) (pieces_of n c)).
  rewrite IH. unfold pieces_of. rewrite as7_wide, cubies_apply, map_map. reflexivity.
Qed.

(** A plain move turns all layers up to the middle. *)
Definition all_layers (n : CubeSize) : N := (cube_size_N n / 2 - 1)%N.
Definition face_word (n : CubeSize) (al : list AxisMove) : list WideAxisMove := map (mkWide (all_layers n)) al.
Lemma apply_is_wide n (c : CubeOf n) m : cube_apply n c m = cube_apply_wide n c (mkWide (all_layers n) m).
Proof.
  destruct n; try reflexivity; cbn [cube_apply cube_apply_wide]; unfold cube4_apply, cube5_apply, cube6_apply, cube7_apply;
    rewrite apply_widened_eq; reflexivity.
Qed.
Lemma after_face n al : forall c, after n al c = after_wide n (face_word n al) c.
Proof.
  induction al as [|m al IH]; intros c; [reflexivity|].
  change (after n al (cube_apply n c m) = after_wide n (face_word n al) (cube_apply_wide n c (mkWide (all_layers n) m))).
  rewrite IH, apply_is_wide. reflexivity.
Qed.

(** The kinds of piece of each size. *)
Definition kinds_of (n : CubeSize) : list nat :=
  match n with
  | Size2 => [0] | Size3 => [0; 1] | Size4 => [0; 2; 4] | Size5 => [0; 1; 4; 8]
  | Size6 => [0; 2; 3; 4; 5; 6; 7] | Size7 => [0; 1; 2; 3; 4; 5; 6; 7; 8; 9]
  end.
Lemma pieces_kind n c q : In q (pieces_of n c) -> In (kind q) (kinds_of n).
Proof.
  unfold pieces_of, cubies. rewrite !in_app_iff, !in_map_iff.
  intros H; repeat destruct H as [H|H]; destruct H as (p & <- & Hp); destruct n; cbn [as7 c7_corners c7_edges c7_wings_1
    c7_wings_2 c7_center_corners_1 c7_center_corners_2 c7_center_wings c7_center_edges_1 c7_center_edges_2] in Hp;
    try contradiction; cbn [kind]; try destruct (right_handed p); cbn; tauto.
Qed.
Lemma map_agree {A B} (f g : A -> B) l : map f l = map g l <-> forall x, In x l -> f x = g x.
Proof.
  split; [|apply map_ext_in]. induction l as [|x l IH]; intros H y []; subst; cbn [map] in H; [congruence|].
  apply IH; [congruence|assumption].
Qed.
(** Two words have the same effect on a cube if and only if they have on each of its pieces. *)
Lemma same_on_cube n al bl c : after_wide n al c = after_wide n bl c <-> forall q, In q (pieces_of n c) -> run al q = run bl q.
Proof.
  rewrite <- map_agree, <- !pieces_after. split; [congruence|apply pieces_inj].
Qed.

(* ------------------------------------------------------------------ *)
(** * Depths beyond the middle *)

Definition cut (w : WideAxisMove) : WideAxisMove := mkWide (N.min (w_depth w) 2) (w_move w).
Lemma leb_min k d : (k <=? 2)%N = true -> (k <=? N.min d 2)%N = (k <=? d)%N.
Proof. intros H. apply N.leb_le in H. destruct (N.leb_spec k d), (N.leb_spec k (N.min d 2)); lia || reflexivity. Qed.
Lemma act_cut q w : act q (cut w) = act q w.
Proof.
  destruct w as [d m]. unfold cut. cbn [w_depth w_move].
  destruct q as [p|p|p|p|p|p|p|p|p]; cbn [act]; f_equal; unfold mo_act, wide_act; cbn [mo_in mo_rot wing_mover cc_mover cw_mover ce_mover w_move].
  - unfold wing_in_wide. cbn [w_depth w_move]. rewrite leb_min; reflexivity.
  - unfold wing_in_wide. cbn [w_depth w_move]. rewrite leb_min; reflexivity.
  - unfold cc_in_wide. cbn [w_depth w_move]. rewrite ?leb_min; reflexivity.
  - unfold cc_in_wide. cbn [w_depth w_move]. rewrite ?leb_min; reflexivity.
  - unfold cw_in_wide, cw_in_wide_o. cbn [w_depth w_move]. rewrite ?leb_min; reflexivity.
Qed.
Lemma cut_in w : In (cut w) all_wide.
Proof. apply all_wide_complete. unfold deep, cut. cbn [w_depth]. lia. Qed.

(* ------------------------------------------------------------------ *)
(** * Pieces and moves seen from another side *)

Definition turn (r : AxisRotation) (q : Cubie) : Cubie :=
  match q with
  | QCorner p => QCorner (corner_rotate p r)
  | QEdge p => QEdge (edge_rotate p r)
  | QWing1 p => QWing1 (wing_rotate p r)
  | QWing2 p => QWing2 (wing_rotate p r)
  | QCC1 p => QCC1 (cc_rotate p r)
  | QCC2 p => QCC2 (cc_rotate p r)
  | QCW p => QCW (cw_rotate p r)
  | QCE1 p => QCE1 (ce_rotate p r)
  | QCE2 p => QCE2 (ce_rotate p r)
  end.

Definition single_rotations : list AxisRotation := [mkRot AX Single; mkRot AY Single; mkRot AZ Single].
Lemma turn_table : forallb (fun r => forallb (fun w => forallb (fun q =>
  cubie_eqb (turn r (act q w)) (act (turn r q) (rotate_wide w r))) all_cubies) all_wide) single_rotations = true.
Proof. vm_compute. reflexivity. Qed.
Lemma turn_single r q w : In r single_rotations -> turn r (act q w) = act (turn r q) (rotate_wide w r).
Proof.
  intros R. rewrite <- (act_cut q w), <- (act_cut (turn r q)). change (cut (rotate_wide w r)) with (rotate_wide (cut w) r).
  pose proof turn_table as T. rewrite forallb_forall in T. specialize (T r R). rewrite forallb_forall in T. specialize (T _ (cut_in w)).
  rewrite forallb_forall in T. apply cubie_eqb_eq, T, all_cubies_complete.
Qed.
Lemma turn_times_table : forallb (fun a => forallb (fun q =>
  cubie_eqb (turn (mkRot a Double) q) (turn (mkRot a Single) (turn (mkRot a Single) q)) &&
  cubie_eqb (turn (mkRot a Inverse) q) (turn (mkRot a Single) (turn (mkRot a Single) (turn (mkRot a Single) q)))) all_cubies) [AX; AY; AZ] = true.
Proof. vm_compute. reflexivity. Qed.
Lemma turn_times a q :
  turn (mkRot a Double) q = turn (mkRot a Single) (turn (mkRot a Single) q) /\
  turn (mkRot a Inverse) q = turn (mkRot a Single) (turn (mkRot a Single) (turn (mkRot a Single) q)).
Proof.
  pose proof turn_times_table as T. rewrite forallb_forall in T. specialize (T a ltac:(destruct a; cbn; tauto)).
  rewrite forallb_forall in T. specialize (T q (all_cubies_complete q)). apply andb_true_iff in T. rewrite !cubie_eqb_eq in T. exact T.
Qed.
Lemma rotate_wide_times a w :
  rotate_wide w (mkRot a Double) = rotate_wide (rotate_wide w (mkRot a Single)) (mkRot a Single) /\
  rotate_wide w (mkRot a Inverse) = rotate_wide (rotate_wide (rotate_wide w (mkRot a Single)) (mkRot a Single)) (mkRot a Single).
Proof. destruct w as [d [[[] []] x]], a; split; reflexivity. Qed.
Lemma turn_act r q w : turn r (act q w) = act (turn r q) (rotate_wide w r).
Proof.
  destruct r as [a []].
  - apply turn_single. destruct a; cbn; tauto.
  - rewrite !(proj1 (turn_times _ _)), (proj1 (rotate_wide_times _ _)), !turn_single by (destruct a; cbn; tauto). reflexivity.
  - rewrite !(proj2 (turn_times _ _)), (proj2 (rotate_wide_times _ _)), !turn_single by (destruct a; cbn; tauto). reflexivity.
Qed.
Lemma turn_run r al : forall q, turn r (run al q) = run (rotate_wide_alg al r) (turn r q).
Proof. induction al as [|w al IH]; intros q; [reflexivity|]. cbn [rotate_wide_alg map]. rewrite !run_cons, IH, turn_act. reflexivity. Qed.
Lemma turn_back r q : turn (rot_inverse r) (turn r q) = q.
Proof.
  assert (T : forallb (fun r => forallb (fun q => cubie_eqb (turn (rot_inverse r) (turn r q)) q) all_cubies)
    (flat_map (fun a => map (mkRot a) [Single; Double; Inverse]) [AX; AY; AZ]) = true) by (vm_compute; reflexivity).
  rewrite forallb_forall in T. specialize (T r). rewrite forallb_forall in T. apply cubie_eqb_eq, T; [|apply all_cubies_complete].
  destruct r as [[] []]; cbn; tauto.
Qed.
Lemma rot_inverse_twice r : rot_inverse (rot_inverse r) = r.
Proof. destruct r as [[] []]; reflexivity. Qed.
Lemma turn_kind n r q : In (kind (turn r q)) (kinds_of n) <-> In (kind q) (kinds_of n).
Proof.
  assert (T : forall r q, kind (turn r q) = kind q).
  { intros r' q'. destruct q' as [| | | | | |p| |]; try reflexivity. cbn [turn kind].
    destruct r' as [[] []], p as [[[[] []] [] []] []]; reflexivity. }
  rewrite T. tauto.
Qed.

(* ------------------------------------------------------------------ *)
(** * What happens to the solved cube decides what happens to every cube *)

(** Twist a corner or flip an edge in its place. *)
Definition corner_handed (v : Vec3) : bool :=
  xorb (dir_eqb (vx v) Positive) (xorb (dir_eqb (vy v) Positive) (dir_eqb (vz v) Positive)).
Definition twist (q : Cubie) : Cubie :=
  match q with
  | QCorner p => QCorner (mkCorner (c_pos p) (if corner_handed (c_pos p) then axis_next (c_axis p) else axis_next (axis_next (c_axis p))))
  | QEdge p => QEdge (mkEdge (e_normal p) (e_slice p) (negb (e_oriented p)))
  | q => q
  end.

Lemma twist_table : forallb (fun w => forallb (fun q => cubie_eqb (twist (act q w)) (act (twist q) w)) all_cubies) all_wide = true.
Proof. vm_compute. reflexivity. Qed.
Lemma twist_act q w : twist (act q w) = act (twist q) w.
Proof.
  rewrite <- (act_cut q w), <- (act_cut (twist q)).
  pose proof twist_table as T. rewrite forallb_forall in T. specialize (T _ (cut_in w)).
  rewrite forallb_forall in T. apply cubie_eqb_eq, T, all_cubies_complete.
Qed.
Lemma twist_run al : forall q, twist (run al q) = run al (twist q).
Proof. induction al as [|w al IH]; intros q; [reflexivity|]. rewrite !run_cons, IH, twist_act. reflexivity. Qed.

Lemma solved_covers_table : forallb (fun n => forallb (fun q =>
  negb (existsb (Nat.eqb (kind q)) (kinds_of n)) ||
  existsb (fun s => cubie_eqb s q || cubie_eqb (twist s) q || cubie_eqb (twist (twist s)) q) (pieces_of n (cube_solved n)))
  all_cubies) [Size2; Size3; Size4; Size5; Size6; Size7] = true.
Proof. vm_compute. reflexivity. Qed.
Lemma solved_covers n q : In (kind q) (kinds_of n) ->
  exists s, In s (pieces_of n (cube_solved n)) /\ (q = s \/ q = twist s \/ q = twist (twist s)).
Proof.
  intros K. pose proof solved_covers_table as T. rewrite forallb_forall in T. specialize (T n ltac:(destruct n; cbn; tauto)).
  rewrite forallb_forall in T. specialize (T q (all_cubies_complete q)). apply orb_true_iff in T. destruct T as [T|T].
  - apply negb_true_iff in T. assert (existsb (Nat.eqb (kind q)) (kinds_of n) = true); [|congruence].
    apply existsb_exists. exists (kind q). split; [exact K|apply Nat.eqb_refl].
  - apply existsb_exists in T. destruct T as (s & S & T). exists s. split; [exact S|].
    rewrite !orb_true_iff, !cubie_eqb_eq in T. destruct T as [[T|T]|T]; auto.
Qed.
Lemma same_from_solved n al bl : after_wide n al (cube_solved n) = after_wide n bl (cube_solved n) <->
  forall q, In (kind q) (kinds_of n) -> run al q = run bl q.
Proof.
  rewrite same_on_cube. split; intros H q Q.
  - destruct (solved_covers n q Q) as (s & S & [->|[->| ->]]); rewrite <- ?twist_run, (H s S); reflexivity.
  - apply H. eapply pieces_kind, Q.
Qed.
Lemma same_everywhere n al bl c : after_wide n al (cube_solved n) = after_wide n bl (cube_solved n) -> after_wide n al c = after_wide n bl c.
Proof. rewrite same_from_solved, same_on_cube. intros H q Q. apply H. eapply pieces_kind, Q. Qed.
Lemma same_rotated n al bl r : after_wide n al (cube_solved n) = after_wide n bl (cube_solved n) ->
  after_wide n (rotate_wide_alg al r) (cube_solved n) = after_wide n (rotate_wide_alg bl r) (cube_solved n).
Proof.
  rewrite !same_from_solved. intros H q Q.
  rewrite <- (rot_inverse_twice r), <- (turn_back (rot_inverse r) q), rot_inverse_twice, <- !turn_run.
  f_equal. apply H. apply turn_kind, Q.
Qed.

(* ------------------------------------------------------------------ *)
(** * Plain moves turn a whole octant, or a whole edge of a big cube, at once *)

Definition with_coord (a : Axis) (d : Direction) (v : Vec3) : Vec3 :=
  match a with AX => mkVec3 d (vy v) (vz v) | AY => mkVec3 (vx v) d (vz v) | AZ => mkVec3 (vx v) (vy v) d end.
Definition any_octant : Vec3 := mkVec3 Positive Positive Positive.
Definition wing_octant (w : Wing) : Corner :=
  let e := wg_edge w in
  mkCorner (map_on_slice (e_normal e) (with_coord (e_normal e) (wing_normal_dir w) any_octant) (fun _ => e_slice e)) (e_normal e).
Definition cw_octant (c : CenterWing) : Corner :=
  let e := cw_edge c in
  mkCorner (with_coord (face_axis (ce_main e)) (face_dir (ce_main e))
             (with_coord (face_axis (ce_side_face e)) (face_dir (ce_side_face e))
               (with_coord (ce_normal_axis e) (cw_normal_dir c) any_octant))) (face_axis (ce_main e)).
Definition some_edge : EdgePos := (AX, mkVec2 Positive Positive).
Definition beside_some_edge : CenterEdge := mkCE fU Positive Positive.
Definition all_edges : list Edge := flat_map (fun p => [mkEdge (fst p) (snd p) true; mkEdge (fst p) (snd p) false]) edge_reference.
Definition ce_edge (c : CenterEdge) : Edge :=
  match find (fun e => showsb some_edge e beside_some_edge c) all_edges with Some e => e | None => mkEdge AX (snd some_edge) true end.
(** The corner or edge a piece goes along with. *)
Definition leader (q : Cubie) : Cubie :=
  match q with
  | QWing1 p | QWing2 p => QCorner (wing_octant p)
  | QCC1 p | QCC2 p => QCorner (mkCorner (cc_pos p) (cc_axis p))
  | QCW p => QCorner (cw_octant p)
  | QCE1 p | QCE2 p => QEdge (ce_edge p)
  | q => q
  end.
Definition all_sizes : list CubeSize := [Size2; Size3; Size4; Size5; Size6; Size7].
Lemma all_sizes_complete n : In n all_sizes.
Proof. destruct n; cbn; tauto. Qed.
Definition inb (k : nat) (l : list nat) : bool := existsb (Nat.eqb k) l.
Lemma inb_spec k l : inb k l = true <-> In k l.
Proof.
  unfold inb. rewrite existsb_exists. split; [intros (x & I & E); apply Nat.eqb_eq in E; subst; exact I|].
  intros I. exists k. split; [exact I|apply Nat.eqb_refl].
Qed.
Lemma leader_table : forallb (fun n => forallb (fun q => if inb (kind q) (kinds_of n) then let l := leader q in forallb (fun m =>
  cubie_eqb (leader (act q (mkWide (all_layers n) m))) (act l (mkWide (all_layers n) m))) all_moves else true) all_cubies) all_sizes = true.
Proof. vm_compute. reflexivity. Qed.
Lemma leader_act n q m : In (kind q) (kinds_of n) ->
  leader (act q (mkWide (all_layers n) m)) = act (leader q) (mkWide (all_layers n) m).
Proof.
  intros K. pose proof leader_table as T. rewrite forallb_forall in T. specialize (T n (all_sizes_complete n)).
  rewrite forallb_forall in T. specialize (T q (all_cubies_complete q)). apply inb_spec in K. rewrite K in T. cbv zeta in T.
  rewrite forallb_forall in T. apply cubie_eqb_eq, T, all_moves_complete.
Qed.
Lemma leader_run n al : forall q, In (kind q) (kinds_of n) -> leader (run (face_word n al) q) = run (face_word n al) (leader q).
Proof.
  induction al as [|m al IH]; intros q K; [reflexivity|]. cbn [face_word map]. rewrite !run_cons. fold (face_word n al).
  rewrite IH, leader_act by (rewrite ?kind_act; exact K). reflexivity.
Qed.
Lemma leader_inj_table : forallb (fun q => let l := leader q in forallb (fun q' =>
  if kind q =? kind q' then (if cubie_eqb l (leader q') then cubie_eqb q q' else true) else true) all_cubies) all_cubies = true.
Proof. vm_compute. reflexivity. Qed.
Lemma leader_inj q q' : kind q = kind q' -> leader q = leader q' -> q = q'.
Proof.
  intros K L. pose proof leader_inj_table as T. rewrite forallb_forall in T. specialize (T q (all_cubies_complete q)).
  rewrite forallb_forall in T. specialize (T q' (all_cubies_complete q')). cbv zeta in T.
  rewrite (proj2 (Nat.eqb_eq _ _) K), (proj2 (cubie_eqb_eq _ _) L) in T. apply cubie_eqb_eq, T.
Qed.
(** Corners and edges do not care about the depth. *)
Lemma small_kind q : In (kind q) [0; 1] -> exists p, q = QCorner p \/ exists e, q = QEdge e.
Proof.
  destruct q as [p|e| | | | |p| |]; cbn; intros K; try (exfalso; clear -K; intuition discriminate).
  - exists p. auto.
  - exists (mkCorner any_octant AX). right. exists e. reflexivity.
  - destruct (right_handed p); exfalso; clear -K; intuition discriminate.
Qed.
Lemma act_depth q d d' m : In (kind q) [0; 1] -> act q (mkWide d m) = act q (mkWide d' m).
Proof. intros K. destruct (small_kind q K) as (p & [->|[e ->]]); reflexivity. Qed.
Lemma run_depth n n' al : forall q, In (kind q) [0; 1] -> run (face_word n al) q = run (face_word n' al) q.
Proof.
  induction al as [|m al IH]; intros q K; [reflexivity|]. cbn [face_word map]. rewrite !run_cons. fold (face_word n al) (face_word n' al).
  rewrite IH by (rewrite kind_act; exact K). f_equal. apply act_depth, K.
Qed.
Lemma leader_kind q : kind (leader q) = if inb (kind q) [1; 8; 9] then 1 else 0.
Proof. destruct q; cbn [leader kind]; try reflexivity. destruct (right_handed p); reflexivity. Qed.

(** The size of the small cube that a cube behaves like under plain moves. *)
Definition core (n : CubeSize) : CubeSize := small_size n.
Lemma core_leader n q : In (kind q) (kinds_of n) -> In (kind (leader q)) (kinds_of (core n)).
Proof.
  rewrite leader_kind. destruct n; cbn; intros K; repeat destruct K as [K|K]; try contradiction; rewrite <- K; cbn; tauto.
Qed.
Lemma core_kinds n k : In k (kinds_of (core n)) -> In k (kinds_of n) /\ In k [0; 1].
Proof. destruct n; cbn; tauto. Qed.
Lemma same_as_core n al bl :
  after n al (cube_solved n) = after n bl (cube_solved n) <->
  after (core n) al (cube_solved (core n)) = after (core n) bl (cube_solved (core n)).
Proof.
  rewrite !after_face, !same_from_solved. split; intros H q Q.
  - destruct (core_kinds n _ Q) as [K S]. rewrite !(run_depth (core n) n) by exact S. apply H, K.
  - apply leader_inj; [rewrite !kind_run; reflexivity|]. rewrite !leader_run by exact Q.
    pose proof (core_leader n q Q) as L. destruct (core_kinds n _ L) as [K S].
    rewrite !(run_depth n (core n)) by exact S. apply H, L.
Qed.

(* ------------------------------------------------------------------ *)
(** * Doing the same again and again *)

Lemma niter_S {A} (f : A -> A) i x : Nat.iter (S i) f x = f (Nat.iter i f x).
Proof. reflexivity. Qed.
Lemma niter_add {A} (f : A -> A) i j x : Nat.iter (i + j) f x = Nat.iter i f (Nat.iter j f x).
Proof. induction i as [|i IH]; [reflexivity|]. cbn [Nat.add]. rewrite !niter_S. f_equal. exact IH. Qed.
Lemma niter_mul {A} (f : A -> A) u v x : Nat.iter u (Nat.iter v f) x = Nat.iter (u * v) f x.
Proof. induction u as [|u IH]; [reflexivity|]. cbn [Nat.mul]. rewrite niter_add, <- IH. reflexivity. Qed.

Section Iterate.
Context {A : Type} (f : A -> A).
Lemma iter_mul c j x : N.iter c f x = x -> N.iter (j * c) f x = x.
Proof.
  intros H. induction j as [|j IH] using N.peano_ind; [reflexivity|].
  rewrite N.mul_succ_l, N.iter_add, H. exact IH.
Qed.
Lemma iter_divide c k x : (c | k)%N -> N.iter c f x = x -> N.iter k f x = x.
Proof. intros [j ->]. apply iter_mul. Qed.
Lemma iter_mod o k x : (o <> 0)%N -> N.iter o f x = x -> N.iter k f x = x -> N.iter (k mod o) f x = x.
Proof.
  intros Z O K. rewrite (N.div_mod k o Z) in K. rewrite N.mul_comm, N.add_comm, N.iter_add, iter_mul in K by exact O. exact K.
Qed.
(** The exact length of a cycle divides every number of repetitions that comes back. *)
Lemma iter_exact o k x (eqb : A -> A -> bool) : (forall a b, eqb a b = true <-> a = b) ->
  (o <> 0)%N -> N.iter o f x = x ->
  forallb (fun r => negb (eqb (N.iter (N.of_nat r) f x) x)) (seq 1 (N.to_nat o - 1)) = true ->
  N.iter k f x = x -> (o | k)%N.
Proof.
  intros E Z O T K. apply N.mod_divide; [exact Z|]. pose proof (iter_mod o k x Z O K) as M.
  destruct (N.eq_dec (k mod o) 0) as [D|D]; [exact D|exfalso]. rewrite forallb_forall in T.
  pose proof (N.mod_upper_bound k o Z) as B.
  specialize (T (N.to_nat (k mod o))). rewrite N2Nat.id, M, (proj2 (E x x) eq_refl) in T.
  assert (false = true); [|discriminate]. apply T, in_seq. clear - B D. revert B D. generalize (k mod o)%N. intros r B D. lia.
Qed.

(** Pieces with the same key differ by a power of [t], which commutes with [f]. *)
Context (f_inj : forall a b, f a = f b -> a = b).
Lemma niter_inj i a b : Nat.iter i f a = Nat.iter i f b -> a = b.
Proof. induction i as [|i IH]; [auto|]. rewrite !niter_S. intros H. apply IH, f_inj, H. Qed.
Lemma not_nodup {K} (eq_dec : forall a b : K, {a = b} + {a <> b}) (g : nat -> K) s :
  ~ NoDup (map g (seq 0 s)) -> exists i j, i < j < s /\ g i = g j.
Proof.
  induction s as [|s IH]; [intros H; exfalso; apply H; constructor|].
  rewrite seq_S, map_app. cbn [map]. intros H. destruct (in_dec eq_dec (g s) (map g (seq 0 s))) as [I|I].
  - apply in_map_iff in I as (i & E & I). apply in_seq in I. exists i, s. split; [lia|exact E].
  - destruct IH as (i & j & L & E); [|exists i, j; split; [lia|exact E]].
    intros D. apply H. apply (Permutation_NoDup (Permutation_cons_append _ _)). constructor; assumption.
Qed.
Lemma cycle_length {K} (eq_dec : forall a b : K, {a = b} + {a <> b}) (key : A -> K) (keys : list K) (t : A -> A) (m : nat) x :
  (forall i, In (key (Nat.iter i f x)) keys) ->
  (forall a, f (t a) = t (f a)) -> Nat.iter m t x = x ->
  (forall i j, key (Nat.iter i f x) = key (Nat.iter j f x) -> exists k, Nat.iter i f x = Nat.iter k t (Nat.iter j f x)) ->
  exists c, 1 <= c <= length keys /\ Nat.iter (m * c) f x = x.
Proof.
  intros L T M SK.
  destruct (not_nodup eq_dec (fun i => key (Nat.iter i f x)) (S (length keys))) as (i & j & IJ & E).
  { intros N. apply (NoDup_incl_length (l' := keys)) in N; [rewrite map_length, seq_length in N; lia|].
    intros k I. apply in_map_iff in I as (i & <- & _). apply L. }
  exists (j - i). split; [lia|].
  destruct (SK _ _ (eq_sym E)) as (k & P).
  assert (TK : forall k a, f (Nat.iter k t a) = Nat.iter k t (f a)).
  { induction k0 as [|k0 IH]; intros a; [reflexivity|]. rewrite !niter_S, T. f_equal. apply IH. }
  assert (TI : forall i k a, Nat.iter i f (Nat.iter k t a) = Nat.iter k t (Nat.iter i f a)).
  { induction i0 as [|i0 IH]; intros k0 a; [reflexivity|]. rewrite !niter_S, IH. apply TK. }
  assert (Q : Nat.iter (j - i) f x = Nat.iter k t x).
  { apply (niter_inj i). rewrite <- niter_add, TI, <- P. f_equal. lia. }
  assert (R : forall u, Nat.iter (u * (j - i)) f x = Nat.iter u (Nat.iter k t) x).
  { induction u as [|u IH]; [reflexivity|]. cbn [Nat.mul]. rewrite Nat.add_comm, niter_add, Q, TI, IH. reflexivity. }
  rewrite R, niter_mul, Nat.mul_comm, <- niter_mul. clear - M. induction k as [|k IH]; [reflexivity|]. rewrite niter_S, IH. exact M.
Qed.
End Iterate.

Lemma run_inj al a b : run al a = run al b -> a = b.
Proof. intros H. apply (f_equal (run (undo al))) in H. rewrite !run_undo in H. exact H. Qed.

(** Corners come back after at most 8 rounds, up to a twist; edges after at most 12. *)
Definition key (q : Cubie) : Vec3 * EdgePos :=
  match q with QCorner p => (c_pos p, some_edge) | QEdge e => (any_octant, edge_position e) | _ => (any_octant, some_edge) end.
Lemma cubie_eq_dec (a b : Cubie) : {a = b} + {a <> b}.
Proof. destruct (cubie_eqb a b) eqn:E; [left; apply cubie_eqb_eq, E|right; rewrite <- cubie_eqb_eq; congruence]. Qed.
Lemma key_eq_dec (a b : Vec3 * EdgePos) : {a = b} + {a <> b}.
Proof. repeat decide equality. Qed.
Lemma corner_twisted a b : c_pos a = c_pos b -> exists k, QCorner a = Nat.iter k twist (QCorner b).
Proof.
  destruct a as [p x], b as [p' y]. cbn [c_pos]. intros ->.
  destruct p' as [[] [] []], x, y; (exists 0; reflexivity) || (exists 1; reflexivity) || (exists 2; reflexivity).
Qed.
Lemma edge_flipped a b : edge_position a = edge_position b -> exists k, QEdge a = Nat.iter k twist (QEdge b).
Proof.
  destruct a as [n s o], b as [n' s' o']. unfold edge_position. cbn [e_normal e_slice]. intros [= -> ->].
  destruct o, o'; (exists 0; reflexivity) || (exists 1; reflexivity).
Qed.

Lemma iter_run_kind al i q : kind (Nat.iter i (run al) q) = kind q.
Proof. induction i as [|i IH]; [reflexivity|]. rewrite niter_S, kind_run. exact IH. Qed.
Lemma corner_cycle al p : exists c, 1 <= c <= 8 /\ Nat.iter (3 * c) (run al) (QCorner p) = QCorner p.
Proof.
  assert (Z : forall i, exists p', Nat.iter i (run al) (QCorner p) = QCorner p').
  { intros i. pose proof (iter_run_kind al i (QCorner p)) as K. destruct (Nat.iter i (run al) (QCorner p)) as [p'| | | | | |p'| |]; try discriminate K.
    - exists p'. reflexivity.
    - cbn [kind] in K. destruct (right_handed p'); discriminate K. }
  destruct (cycle_length (run al) (run_inj al) key_eq_dec key (map (fun v => (v, some_edge)) corner_reference) twist 3 (QCorner p)) as (c & C & H).
  - intros i. destruct (Z i) as (p' & ->). cbn [key]. apply (in_map (fun v => (v, some_edge))). apply vec3_in_reference.
  - intros a. symmetry. apply twist_run.
  - destruct p as [[[] [] []] []]; reflexivity.
  - intros i j. destruct (Z i) as (a & ->), (Z j) as (b & ->). cbn [key]. intros [= E]. apply corner_twisted, E.
  - exists c. split; [exact C|exact H].
Qed.
Lemma edge_cycle al p : exists c, 1 <= c <= 12 /\ Nat.iter (2 * c) (run al) (QEdge p) = QEdge p.
Proof.
  assert (Z : forall i, exists p', Nat.iter i (run al) (QEdge p) = QEdge p').
  { intros i. pose proof (iter_run_kind al i (QEdge p)) as K. destruct (Nat.iter i (run al) (QEdge p)) as [|p'| | | | |p'| |]; try discriminate K.
    - exists p'. reflexivity.
    - cbn [kind] in K. destruct (right_handed p'); discriminate K. }
  destruct (cycle_length (run al) (run_inj al) key_eq_dec key (map (fun e => (any_octant, e)) edge_reference) twist 2 (QEdge p)) as (c & C & H).
  - intros i. destruct (Z i) as (p' & ->). cbn [key]. apply (in_map (fun e => (any_octant, e))). apply edgepos_in_reference.
  - intros a. symmetry. apply twist_run.
  - destruct p as [a s []]; reflexivity.
  - intros i j. destruct (Z i) as (a & ->), (Z j) as (b & ->). cbn [key]. intros [= E]. apply edge_flipped. unfold edge_position. congruence.
  - exists c. split; [exact C|exact H].
Qed.
Definition same_kind (k : nat) : list Cubie := filter (fun q => kind q =? k) all_cubies.
Lemma same_kind_length k : k < 10 -> length (same_kind k) = 24.
Proof. intros H. do 10 (destruct k as [|k]; [vm_compute; reflexivity|]). lia. Qed.
Lemma any_cycle al q : exists c, 1 <= c <= 24 /\ Nat.iter (1 * c) (run al) q = q.
Proof.
  destruct (cycle_length (run al) (run_inj al) cubie_eq_dec (fun q => q) (same_kind (kind q)) (fun q => q) 1 q) as (c & C & H).
  - intros i. apply filter_In. split; [apply all_cubies_complete|]. apply Nat.eqb_eq, iter_run_kind.
  - reflexivity.
  - reflexivity.
  - intros i j E. exists 0. exact E.
  - exists c. rewrite same_kind_length in C by apply kind_small. split; [exact C|exact H].
Qed.

Lemma all_divide k m s : forallb (fun c => (k mod N.of_nat (m * c) =? 0)%N) (seq 1 s) = true ->
  forall c, 1 <= c <= s -> m <> 0 -> (N.of_nat (m * c) | k)%N.
Proof.
  intros T c C M. rewrite forallb_forall in T. specialize (T c ltac:(apply in_seq; lia)). apply N.eqb_eq in T.
  apply N.mod_divide; [nia|exact T].
Qed.
Lemma comes_back {A} (f : A -> A) m c k x : (N.of_nat (m * c) | k)%N -> Nat.iter (m * c) f x = x -> N.iter k f x = x.
Proof. intros D H. apply (iter_divide f _ _ _ D). rewrite N2Nat.inj_iter, Nat2N.id. exact H. Qed.
Lemma corner_period al p k : (2520 | k)%N -> N.iter k (run al) (QCorner p) = QCorner p.
Proof.
  intros D. destruct (corner_cycle al p) as (c & C & H). apply (comes_back (run al) 3 c); [|exact H].
  apply (N.divide_trans _ 2520); [|exact D]. apply (all_divide 2520 3 8); [vm_compute; reflexivity|exact C|discriminate].
Qed.
Lemma edge_period al p k : (55440 | k)%N -> N.iter k (run al) (QEdge p) = QEdge p.
Proof.
  intros D. destruct (edge_cycle al p) as (c & C & H). apply (comes_back (run al) 2 c); [|exact H].
  apply (N.divide_trans _ 55440); [|exact D]. apply (all_divide 55440 2 12); [vm_compute; reflexivity|exact C|discriminate].
Qed.
Lemma any_period al q k : (5354228880 | k)%N -> N.iter k (run al) q = q.
Proof.
  intros D. destruct (any_cycle al q) as (c & C & H). apply (comes_back (run al) 1 c); [|exact H].
  apply (N.divide_trans _ 5354228880); [|exact D]. apply (all_divide 5354228880 1 24); [vm_compute; reflexivity|exact C|discriminate].
Qed.

(** Repeating a word on a cube repeats it on each of its pieces. *)
Lemma pieces_iter n al k c : pieces_of n (N.iter k (after_wide n al) c) = map (N.iter k (run al)) (pieces_of n c).
Proof.
  induction k as [|k IH] using N.peano_ind; [symmetry; apply map_id|].
  rewrite N.iter_succ, pieces_after, IH, map_map. apply map_ext. intros q. rewrite N.iter_succ. reflexivity.
Qed.
Lemma iter_same n al k c : N.iter k (after_wide n al) c = c <-> forall q, In q (pieces_of n c) -> N.iter k (run al) q = q.
Proof.
  split.
  - intros H. pose proof (pieces_iter n al k c) as P. rewrite H in P. rewrite <- (map_id (pieces_of n c)) in P at 1.
    intros q Q. symmetry. apply (proj1 (map_agree (fun q => q) (N.iter k (run al)) _) P q Q).
  - intros H. apply (pieces_inj n). rewrite pieces_iter. transitivity (map (fun q => q) (pieces_of n c)); [|apply map_id].
    apply map_agree, H.
Qed.
Lemma twist_iter al k q : twist (N.iter k (run al) q) = N.iter k (run al) (twist q).
Proof. induction k as [|k IH] using N.peano_ind; [reflexivity|]. rewrite !N.iter_succ, twist_run, IH. reflexivity. Qed.
Lemma iter_from_solved n al k : N.iter k (after_wide n al) (cube_solved n) = cube_solved n <->
  forall q, In (kind q) (kinds_of n) -> N.iter k (run al) q = q.
Proof.
  rewrite iter_same. split; intros H q Q.
  - destruct (solved_covers n q Q) as (s & S & [->|[->| ->]]); rewrite <- ?twist_iter, (H s S); reflexivity.
  - apply H. eapply pieces_kind, Q.
Qed.

(** ** The periods *)
Lemma small_cases q : kind q = 0 -> exists p, q = QCorner p.
Proof.
  destruct q as [p| | | | | |p| |]; cbn [kind]; intros K; try discriminate K; [exists p; reflexivity|].
  destruct (right_handed p); discriminate K.
Qed.
Lemma edge_cases q : kind q = 1 -> exists e, q = QEdge e.
Proof.
  destruct q as [|p| | | | |p| |]; cbn [kind]; intros K; try discriminate K; [exists p; reflexivity|].
  destruct (right_handed p); discriminate K.
Qed.
Lemma divide_2520 k : (55440 | k)%N -> (2520 | k)%N.
Proof. apply N.divide_trans. exists 22%N. reflexivity. Qed.
Lemma core_period n al q k : (period_of_algs n | k)%N -> In (kind q) (kinds_of (core n)) -> N.iter k (run al) q = q.
Proof.
  intros D K.
  assert (C : kind q = 0 \/ (kind q = 1 /\ period_of_algs n = 55440%N)).
  { destruct n; cbn in K; repeat destruct K as [K|K]; try contradiction; rewrite <- K; cbn; auto. }
  destruct C as [C|[C P]].
  - destruct (small_cases q C) as (p & ->). apply corner_period. destruct n; cbn [period_of_algs] in D; exact D || apply divide_2520, D.
  - destruct (edge_cases q C) as (p & ->). apply edge_period. rewrite <- P. exact D.
Qed.
Lemma wide_period n al k c : (period_of_wide_algs n | k)%N -> N.iter k (after_wide n al) c = c.
Proof.
  intros D. apply iter_same. intros q Q. apply pieces_kind in Q. destruct n; try (apply any_period; exact D).
  - apply (core_period Size2); [exact D|exact Q].
  - apply (core_period Size3); [exact D|exact Q].
Qed.
Lemma iter_ext {A} (f g : A -> A) k x : (forall x, f x = g x) -> N.iter k f x = N.iter k g x.
Proof. intros H. induction k as [|k IH] using N.peano_ind; [reflexivity|]. rewrite !N.iter_succ, IH. apply H. Qed.
Lemma leader_iter n al k q : In (kind q) (kinds_of n) ->
  leader (N.iter k (run (face_word n al)) q) = N.iter k (run (face_word n al)) (leader q) /\
  kind (N.iter k (run (face_word n al)) q) = kind q.
Proof.
  intros K. induction k as [|k [IH IK]] using N.peano_ind; [split; reflexivity|].
  rewrite !N.iter_succ, kind_run, leader_run, IH by (rewrite IK; exact K). split; [reflexivity|exact IK].
Qed.
Lemma face_period n al k c : (period_of_algs n | k)%N -> N.iter k (after n al) c = c.
Proof.
  intros D. rewrite (iter_ext _ (after_wide n (face_word n al))) by apply after_face. apply iter_same. intros q Q. apply pieces_kind in Q.
  destruct (leader_iter n al k q Q) as [L K]. apply leader_inj; [exact K|]. rewrite L. apply (core_period n); [exact D|apply core_leader, Q].
Qed.

(** ** ... and no fewer rounds do *)
Definition cycles (x : list nat * N * Cubie) : bool :=
  let '(w, o, q) := x in
  negb (o =? 0)%N && cubie_eqb (N.iter o (run (word w)) q) q &&
  forallb (fun r => negb (cubie_eqb (N.iter (N.of_nat r) (run (word w)) q) q)) (seq 1 (N.to_nat o - 1)).
Lemma cycles_divide w o q k : cycles (w, o, q) = true -> N.iter k (run (word w)) q = q -> (o | k)%N.
Proof.
  unfold cycles. rewrite !andb_true_iff, negb_true_iff, N.eqb_neq, cubie_eqb_eq. intros [[Z O] T] K.
  exact (iter_exact _ o k q cubie_eqb cubie_eqb_eq Z O T K).
Qed.
Definition cubie (i : nat) : Cubie := nth i all_cubies (QCE1 beside_some_edge).
Definition corner_cycles : list (list nat * N * Cubie) :=
  [([13; 1; 3], 8%N, cubie 0); ([12; 8], 9%N, cubie 0); ([12; 0; 6], 5%N, cubie 6); ([17; 6; 4], 7%N, cubie 0)].
Definition edge_cycles : list (list nat * N * Cubie) :=
  [([11; 14; 2], 16%N, cubie 24); ([4; 9; 12; 1], 11%N, cubie 24)].
Definition center_cycles : list (list nat * N * Cubie) :=
  [([27; 35; 11], 16%N, cubie 98); ([1; 23; 27], 11%N, cubie 96); ([26; 32; 7], 13%N, cubie 96); ([21; 24; 10], 17%N, cubie 96);
   ([32; 7; 18], 19%N, cubie 96); ([35; 12; 24; 23; 1], 23%N, cubie 96)].
Lemma cycles_table : forallb cycles (corner_cycles ++ edge_cycles ++ center_cycles) = true.
Proof. vm_compute. reflexivity. Qed.
Definition witnesses (n : CubeSize) : list (list nat * N * Cubie) :=
  match n with Size2 => corner_cycles | Size3 => corner_cycles ++ edge_cycles | _ => corner_cycles ++ center_cycles end.
Lemma witnesses_cycle n x : In x (witnesses n) -> cycles x = true.
Proof.
  intros I. pose proof cycles_table as T. rewrite forallb_forall in T. apply T. rewrite !in_app_iff.
  destruct n; cbn [witnesses] in I; rewrite ?in_app_iff in I; tauto.
Qed.
Lemma lcm_divides l k : (forall o, In o l -> (o | k)%N) -> (fold_right N.lcm 1 l | k)%N.
Proof.
  induction l as [|o l IH]; intros H; cbn [fold_right]; [apply N.divide_1_l|].
  apply N.lcm_least; [apply H, in_eq|apply IH; intros; apply H, in_cons; assumption].
Qed.
Definition fitsb (n : CubeSize) (w : WideAxisMove) : bool := (w_depth w <=? cube_size_N n / 2 - 1)%N.
Lemma witnesses_fit : forallb (fun n => forallb (fun x => inb (kind (snd x)) (kinds_of n) && forallb (fitsb n) (word (fst (fst x)))) (witnesses n)) all_sizes = true.
Proof. vm_compute. reflexivity. Qed.
Lemma witnesses_lcm n : fold_right N.lcm 1%N (map (fun x => snd (fst x)) (witnesses n)) = period_of_wide_algs n.
Proof. destruct n; vm_compute; reflexivity. Qed.
Lemma wide_exact n k : (forall al, Forall (fits n) al -> N.iter k (after_wide n al) (cube_solved n) = cube_solved n) -> (period_of_wide_algs n | k)%N.
Proof.
  intros H. rewrite <- witnesses_lcm. apply lcm_divides. intros o O. apply in_map_iff in O as ([[w o'] q] & <- & I). cbn [fst snd].
  apply (cycles_divide w o' q k (witnesses_cycle n _ I)).
  pose proof witnesses_fit as T. rewrite forallb_forall in T. specialize (T n (all_sizes_complete n)). rewrite forallb_forall in T.
  specialize (T _ I). cbn [fst snd] in T. apply andb_true_iff in T as [K F]. apply inb_spec in K.
  apply (iter_from_solved n (word w) k); [|exact K]. apply H. apply Forall_forall. intros x X. rewrite forallb_forall in F.
  apply N.leb_le, F, X.
Qed.

(** Plain algs: the same on the core. *)
Lemma face_iter n al k : N.iter k (after n al) (cube_solved n) = cube_solved n ->
  N.iter k (after (core n) al) (cube_solved (core n)) = cube_solved (core n).
Proof.
  rewrite !(iter_ext (after _ _) (after_wide _ (face_word _ al))) by (intros; apply after_face). rewrite !iter_from_solved. intros H q Q.
  destruct (core_kinds n _ Q) as [K S]. rewrite <- (H q K) at 2. clear H.
  assert (X : N.iter k (run (face_word (core n) al)) q = N.iter k (run (face_word n al)) q /\ kind (N.iter k (run (face_word n al)) q) = kind q).
  { induction k as [|k [IH IK]] using N.peano_ind; [split; reflexivity|]. rewrite !N.iter_succ, IH, kind_run. split; [|exact IK].
    apply run_depth. rewrite IK. exact S. }
  apply X.
Qed.
Lemma face_exact n k : (forall al, N.iter k (after n al) (cube_solved n) = cube_solved n) -> (period_of_algs n | k)%N.
Proof.
  intros H. assert (E : period_of_algs n = period_of_wide_algs (core n)) by (destruct n; reflexivity). rewrite E. apply wide_exact.
  intros al F. assert (W : al = face_word (core n) (map w_move al)).
  { unfold face_word. rewrite map_map. rewrite <- (map_id al) at 1. apply map_ext_in. intros w I. rewrite Forall_forall in F.
    specialize (F w I). unfold fits in F. destruct w as [d m]. cbn [w_depth w_move] in *. f_equal.
    destruct n; cbn [core small_size all_layers] in *; apply N.le_0_r in F; exact F. }
  rewrite W. rewrite <- (iter_ext (after (core n) (map w_move al))) by apply after_face. apply face_iter, H.
Qed.

(* ------------------------------------------------------------------ *)
(** * The corners of any cube: parity, and telling moves apart *)

Definition corners_of (n : CubeSize) (c : CubeOf n) : list Corner := c7_corners (as7 n c).
Lemma corners_after n al : forall c, corners_of n (after_wide n al c) = fold_left corner_set_apply (map w_move al) (corners_of n c).
Proof.
  induction al as [|w al IH]; intros c; [reflexivity|].
  change (corners_of n (after_wide n al (cube_apply_wide n c w)) = fold_left corner_set_apply (map w_move al) (corner_set_apply (corners_of n c) (w_move w))).
  rewrite IH. f_equal. unfold corners_of. rewrite as7_wide. reflexivity.
Qed.
Lemma corners_valid n c : cube_well_formed n c -> set_valid corner_desc (corners_of n c).
Proof. intros W. apply (set_valid_spec _ corner_desc_ok). destruct n; cbn [cube_well_formed] in W; cbn [corners_of as7 c7_corners]; apply W. Qed.
Lemma corner_parity_after al : forall s, set_valid corner_desc s ->
  odd_inv (corner_permutation (fold_left corner_set_apply al s)) = xorb (Nat.odd (total_turns al)) (odd_inv (corner_permutation s)).
Proof.
  induction al as [|m al IH]; intros s V.
  { cbn [fold_left]. change (Nat.odd (total_turns [])) with false. destruct (odd_inv (corner_permutation s)); reflexivity. }
  cbn [fold_left]. rewrite IH by (apply corner_set_valid, V). rewrite corner_parity_move by exact V.
  assert (E : Nat.odd (total_turns (m :: al)) = xorb (odd_move m) (Nat.odd (total_turns al))).
  { unfold total_turns. cbn [map list_sum fold_right]. rewrite Nat.odd_add. destruct m as [f []]; reflexivity. }
  rewrite E. destruct (odd_move m), (Nat.odd (total_turns al)), (odd_inv (corner_permutation s)); reflexivity.
Qed.
Lemma same_parity_wide n al bl c : cube_well_formed n c -> after_wide n al c = after_wide n bl c ->
  Nat.odd (total_turns (map w_move al)) = Nat.odd (total_turns (map w_move bl)).
Proof.
  intros W H. apply (f_equal (fun c => odd_inv (corner_permutation (corners_of n c)))) in H. cbv beta in H.
  rewrite !corners_after, !corner_parity_after in H by (apply corners_valid, W).
  destruct (Nat.odd _), (Nat.odd _), (odd_inv (corner_permutation (corners_of n c))); cbn in H; congruence.
Qed.
Lemma face_moves n al : map w_move (face_word n al) = al.
Proof. unfold face_word. rewrite map_map. apply map_id. Qed.

(** A corner that two moves bring to different places or turn differently. *)
Lemma corner_at n c pos : cube_well_formed n c -> exists i p, nth_error (corners_of n c) i = Some p /\ c_pos p = pos.
Proof.
  intros W. apply corners_valid, (set_valid_spec _ corner_desc_ok) in W. destruct W as [_ W]. destruct (W pos) as (i & p & H & P & _).
  exists i, p. split; [exact H|exact P].
Qed.
Lemma differ_by_corner n c (w1 w2 : list WideAxisMove) pos : cube_well_formed n c ->
  (forall a, fold_left corner_apply (map w_move w1) (mkCorner pos a) <> fold_left corner_apply (map w_move w2) (mkCorner pos a)) ->
  after_wide n w1 c <> after_wide n w2 c.
Proof.
  intros W D H. destruct (corner_at n c pos W) as (i & p & I & P). apply (f_equal (corners_of n)) in H. rewrite !corners_after in H.
  assert (N : forall al s i q, nth_error s i = Some q -> nth_error (fold_left corner_set_apply al s) i = Some (fold_left corner_apply al q)).
  { clear. induction al as [|m al IH]; intros s i q Q; [exact Q|]. cbn [fold_left]. apply IH. unfold corner_set_apply.
    rewrite nth_error_map, Q. reflexivity. }
  apply (f_equal (fun s => nth_error s i)) in H. cbv beta in H. rewrite !(N _ _ _ _ I) in H. destruct p as [p a]. cbn [c_pos] in P. subst p.
  apply (D a). congruence.
Qed.
Definition tells (al bl : list AxisMove) (pos : Vec3) : bool :=
  forallb (fun a => negb (corner_eqb (fold_left corner_apply al (mkCorner pos a)) (fold_left corner_apply bl (mkCorner pos a)))) [AX; AY; AZ].
Lemma tells_spec al bl pos : tells al bl pos = true ->
  forall a, fold_left corner_apply al (mkCorner pos a) <> fold_left corner_apply bl (mkCorner pos a).
Proof.
  unfold tells. rewrite forallb_forall. intros T a E. specialize (T a ltac:(destruct a; cbn; tauto)). rewrite E in T.
  rewrite (proj2 (corner_eqb_eq _ _) eq_refl) in T. discriminate T.
Qed.
Lemma commute_table : forallb (fun m1 => forallb (fun m2 =>
  axis_eqb (face_axis (mv_face m1)) (face_axis (mv_face m2)) || existsb (tells [m1; m2] [m2; m1]) corner_reference) all_moves) all_moves = true.
Proof. vm_compute. reflexivity. Qed.
Lemma axes_differ n c w1 w2 : cube_well_formed n c ->
  cube_apply_wide n (cube_apply_wide n c w1) w2 = cube_apply_wide n (cube_apply_wide n c w2) w1 ->
  face_axis (mv_face (w_move w1)) = face_axis (mv_face (w_move w2)).
Proof.
  intros W H. pose proof commute_table as T. rewrite forallb_forall in T. specialize (T _ (all_moves_complete (w_move w1))).
  rewrite forallb_forall in T. specialize (T _ (all_moves_complete (w_move w2))). apply orb_true_iff in T as [T|T].
  - apply axis_eqb_eq, T.
  - exfalso. apply existsb_exists in T as (pos & _ & T). revert H.
    exact (differ_by_corner n c [w1; w2] [w2; w1] pos W (tells_spec [w_move w1; w_move w2] [w_move w2; w_move w1] pos T)).
Qed.
Lemma distinct_table : forallb (fun m1 => existsb (tells [m1] []) corner_reference && forallb (fun m2 =>
  move_eqb m1 m2 || existsb (tells [m1] [m2]) corner_reference) all_moves) all_moves = true.
Proof. vm_compute. reflexivity. Qed.
Lemma wide_moves_differ n c w1 w2 : cube_well_formed n c -> cube_apply_wide n c w1 = cube_apply_wide n c w2 -> w_move w1 = w_move w2.
Proof.
  intros W H. pose proof distinct_table as T. rewrite forallb_forall in T. specialize (T _ (all_moves_complete (w_move w1))).
  apply andb_true_iff in T as [_ T]. rewrite forallb_forall in T. specialize (T _ (all_moves_complete (w_move w2))). apply orb_true_iff in T as [T|T].
  - apply move_eqb_eq, T.
  - exfalso. apply existsb_exists in T as (pos & _ & T). revert H.
    exact (differ_by_corner n c [w1] [w2] pos W (tells_spec [w_move w1] [w_move w2] pos T)).
Qed.
Lemma wide_move_moves n c w : cube_well_formed n c -> cube_apply_wide n c w <> c.
Proof.
  intros W. pose proof distinct_table as T. rewrite forallb_forall in T. specialize (T _ (all_moves_complete (w_move w))).
  apply andb_true_iff in T as [T _]. apply existsb_exists in T as (pos & _ & T).
  exact (differ_by_corner n c [w] [] pos W (tells_spec [w_move w] [] pos T)).
Qed.

(** Moves of different depth move different centres. *)
Definition centers_of (n : CubeSize) (nd : N) (c : CubeOf n) : list CenterCorner :=
  if (nd =? 1)%N then c7_center_corners_1 (as7 n c) else c7_center_corners_2 (as7 n c).
Lemma centers_apply n nd c w : (nd = 1 \/ nd = 2)%N -> centers_of n nd (cube_apply_wide n c w) = ccs_apply nd 2 (centers_of n nd c) w.
Proof. intros [->| ->]; unfold centers_of; rewrite as7_wide; reflexivity. Qed.
Lemma centers_valid n nd c : (1 <= nd <= all_layers n)%N -> cube_well_formed n c -> one_piece_everywhere cc_desc (centers_of n nd c).
Proof.
  intros D W. assert (nd = 1 \/ nd = 2)%N as [->| ->] by (destruct n; cbn [all_layers cube_size_N] in D; cbn in D; lia);
    destruct n; try (exfalso; apply (proj2 D); reflexivity);
    cbn [cube_well_formed] in W; cbn [centers_of as7 N.eqb Pos.eqb c7_center_corners_1 c7_center_corners_2]; apply W.
Qed.
Definition cc_tells (nd d1 d2 : N) (m : AxisMove) (p : CenterCorner) : bool :=
  negb (cc_eqb (mo_act cc_mover nd 0 2 p (mkWide d1 m)) (mo_act cc_mover nd 0 2 p (mkWide d2 m))).
Lemma depth_table : forallb (fun m => existsb (cc_tells 1 0 1 m) cc_solved && existsb (cc_tells 1 0 2 m) cc_solved && existsb (cc_tells 2 1 2 m) cc_solved) all_moves = true.
Proof. vm_compute. reflexivity. Qed.
Lemma depths_differ n c m d1 d2 : cube_well_formed n c -> (d1 < d2)%N -> (d2 <= all_layers n)%N ->
  cube_apply_wide n c (mkWide d1 m) <> cube_apply_wide n c (mkWide d2 m).
Proof.
  intros W L F H. pose proof depth_table as T. rewrite forallb_forall in T. specialize (T m (all_moves_complete m)).
  assert (B : (d2 <= 2)%N) by (apply (N.le_trans _ _ _ F); destruct n; vm_compute; discriminate).
  assert (X : exists nd, (1 <= nd <= d2)%N /\ existsb (cc_tells nd d1 d2 m) cc_solved = true).
  { rewrite !andb_true_iff in T. destruct T as [[T1 T2] T3].
    assert (d1 = 0 /\ d2 = 1 \/ d1 = 0 /\ d2 = 2 \/ d1 = 1 /\ d2 = 2)%N as [[-> ->]|[[-> ->]|[-> ->]]] by lia.
    - exists 1%N. split; [lia|exact T1].
    - exists 1%N. split; [lia|exact T2].
    - exists 2%N. split; [lia|exact T3]. }
  destruct X as (nd & D & X). apply existsb_exists in X as (p & _ & X).
  destruct (centers_valid n nd c ltac:(lia) W) as [_ V]. destruct (V p) as (i & q & I & P & _). change (q = p) in P. subst q.
  apply (f_equal (fun c => nth_error (centers_of n nd c) i)) in H. cbv beta in H. rewrite !centers_apply in H by lia.
  unfold ccs_apply, depth_set_apply in H. rewrite !nth_error_map, I in H. cbn [option_map] in H.
  unfold cc_tells in X. apply negb_true_iff in X. injection H as H.
  change (mo_act cc_mover nd 0 2 p (mkWide d1 m) = mo_act cc_mover nd 0 2 p (mkWide d2 m)) in H. rewrite H in X.
  rewrite (proj2 (cc_eqb_eq _ _) eq_refl) in X. discriminate X.
Qed.
Lemma wide_differ n c w1 w2 : cube_well_formed n c -> fits n w1 -> fits n w2 -> cube_apply_wide n c w1 = cube_apply_wide n c w2 -> w1 = w2.
Proof.
  intros W F1 F2 H. pose proof (wide_moves_differ n c w1 w2 W H) as M. destruct w1 as [d1 m], w2 as [d2 m2]. cbn [w_move] in M. subst m2. f_equal.
  unfold fits in F1, F2. cbn [w_depth] in *. destruct (N.lt_trichotomy d1 d2) as [L|[L|L]]; [|exact L|]; exfalso.
  - exact (depths_differ n c m d1 d2 W L F2 H).
  - exact (depths_differ n c m d2 d1 W L F1 (eq_sym H)).
Qed.

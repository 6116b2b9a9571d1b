(** C92: what [==] means. *)

From Coq Require Import List Bool Arith ZArith NArith Lia Permutation.
From Verif Require Import Model_Base Model_Space Model_Moves Model_Pieces Model_PieceSet Model_Cubes Model_Connect Model_Orientable Model_OrientableMoves Model_Visual
  Spec_Moves Spec_Geometry Spec_Stickers Spec_BigCube Spec_Sets Proof_Sets Proof_BigCube Prop_Sets Prop_BigCube Prop_OrientableMoves.
Import ListNotations.
Local Open Scope Z_scope.

(** ** Values *)

(** [==] on the types of moves, pieces, positions, cubes of all sizes and cubes with an
    orientation holds exactly for the same value. *)
Theorem C92_values :
  (forall a b : Axis, axis_eqb a b = true <-> a = b) /\ (forall a b : Direction, dir_eqb a b = true <-> a = b) /\
  (forall a b : Face, face_eqb a b = true <-> a = b) /\ (forall a b : Vec3, vec3_eqb a b = true <-> a = b) /\ (forall a b : Vec2, vec2_eqb a b = true <-> a = b) /\
  (forall a b : Amount, amount_eqb a b = true <-> a = b) /\ (forall a b : AxisMove, move_eqb a b = true <-> a = b) /\
  (forall a b : AxisRotation, rot_eqb a b = true <-> a = b) /\ (forall a b : WideAxisMove, wide_eqb a b = true <-> a = b) /\
  (forall a b : Corner, corner_eqb a b = true <-> a = b) /\ (forall a b : Edge, edge_eqb a b = true <-> a = b) /\ (forall a b : Wing, wing_eqb a b = true <-> a = b) /\
  (forall a b : CenterCorner, cc_eqb a b = true <-> a = b) /\ (forall a b : CenterEdge, ce_eqb a b = true <-> a = b) /\ (forall a b : CenterWing, cw_eqb a b = true <-> a = b) /\
  (forall n (a b : CubeOf n), cube_eqb n a b = true <-> a = b) /\
  (forall a b : Orientation, ori_eqb a b = true <-> a = b) /\ (forall n (a b : Orientable n), orientable_eqb n a b = true <-> a = b).
Proof.
  repeat (split; [first [exact axis_eqb_eq|exact dir_eqb_eq|exact face_eqb_eq|exact vec3_eqb_eq|exact vec2_eqb_eq|exact amount_eqb_eq|exact move_eqb_eq
    |exact rot_eqb_eq|exact wide_eqb_eq|exact corner_eqb_eq|exact edge_eqb_eq|exact wing_eqb_eq|exact cc_eqb_eq|exact ce_eqb_eq|exact cw_eqb_eq|exact cube_eqb_eq|exact ori_eqb_eq]|]).
  exact orientable_eqb_eq.
Qed.

(** ** Cubes and what they look like *)

(** Two cubes look the same: the same stickers in the same places. *)
Definition same_look (n : CubeSize) (a b : CubeOf n) : Prop :=
  forall s, In s (cube_stickers n a) <-> In s (cube_stickers n b).

(** Two sets of pieces of one kind look the same: corners, edges and wings are the same pieces;
    centre pieces in the same place are from the same face. *)
Definition same_centres {P} (home : list P) (face : P -> Face) (s t : list P) : Prop :=
  forall o o' c, In (o, c) (combine home s) -> In (o', c) (combine home t) -> face o = face o'.
Definition set_same_look (a b : PieceSetOf) : Prop :=
  match a, b with
  | SetCorner s, SetCorner t => s = t
  | SetEdge s, SetEdge t => s = t
  | SetWing _ s, SetWing _ t => s = t
  | SetCenterCorner _ s, SetCenterCorner _ t => same_centres cc_solved cc_face s t
  | SetCenterEdge _ s, SetCenterEdge _ t => same_centres ce_solved ce_main s t
  | SetCenterWing _ _ s, SetCenterWing _ _ t => same_centres cw_solved (fun c => ce_main (cw_edge c)) s t
  | _, _ => False
  end.

(** *** The sets are apart from each other *)

Definition norm2 (k : Z) (s : PieceSetOf) : Z :=
  let x := (k - 1) * (k - 1) in
  let y nd := (k - 1 - 2 * nd) * (k - 1 - 2 * nd) in
  match s with
  | SetCorner _ => 3 * x
  | SetEdge _ => 2 * x
  | SetWing nd _ => 2 * x + y nd
  | SetCenterCorner nd _ => x + 2 * y nd
  | SetCenterEdge nd _ => x + y nd
  | SetCenterWing nd td _ => x + y nd + y td
  end.

Lemma stickers_norm k a s : In s (set_stickers k a) -> dot (st_cubie s) (st_cubie s) = norm2 k a.
Proof.
  destruct a as [l|l|nd l|nd l|nd l|nd td l]; cbn [set_stickers norm2]; intros H;
    (apply in_flat_map in H; destruct H as ([o c] & _ & H); unfold wing_stickers in H; apply in_map_iff in H; destruct H as (fc & <- & _))
    || (apply in_map_iff in H; destruct H as ([o c] & <- & _)); cbn [fst snd st_cubie].
  - destruct c as [[[] [] []] []]; unfold corner_loc; generalize (k - 1); intros x; unfold v3_scale, dot; cbn -[Z.mul Z.add]; ring.
  - destruct c as [[] [[] []] []]; unfold edge_loc; generalize (k - 1); intros x; unfold v3_scale, dot; cbn -[Z.mul Z.add]; ring.
  - destruct c as [[[] [[] []] []]]; unfold wing_loc, edge_loc; generalize (k - 1 - 2 * nd) (k - 1); intros y x; unfold v3_scale, v3_add, dot; cbn -[Z.mul Z.add]; ring.
  - destruct c as [[[] [] []] []]; unfold cc_loc; generalize (k - 1 - 2 * nd) (k - 1); intros y x; unfold dot; cbn -[Z.mul Z.add]; ring.
  - destruct c as [[[] []] [] []]; unfold ce_loc; generalize (k - 1 - 2 * nd) (k - 1); intros y x; unfold v3_scale, v3_add, dot; cbn -[Z.mul Z.add]; ring.
  - destruct c as [[[[] []] [] []] []]; unfold cw_loc, ce_loc; generalize (k - 1 - 2 * td) (k - 1 - 2 * nd) (k - 1); intros z y x; unfold v3_scale, v3_add, dot; cbn -[Z.mul Z.add]; ring.
Qed.

Lemma sets_apart k la : forall lb, Forall2 (fun a b => norm2 k a = norm2 k b) la lb -> NoDup (map (norm2 k) la) ->
  (forall s, In s (flat_map (set_stickers k) la) <-> In s (flat_map (set_stickers k) lb)) ->
  Forall2 (fun a b => forall s, In s (set_stickers k a) <-> In s (set_stickers k b)) la lb.
Proof.
  induction la as [|a la IH]; intros lb F D H; inversion F as [|? b ? lb' E F' Q1 Q2]; subst; [constructor|].
  cbn [map] in D. apply NoDup_cons_iff in D. destruct D as [NA D]. cbn [flat_map] in H.
  assert (TA : forall s, In s (flat_map (set_stickers k) la) -> dot (st_cubie s) (st_cubie s) <> norm2 k a).
  { intros s Hs Q. apply NA. apply in_flat_map in Hs. destruct Hs as (x & Ix & Hx). apply stickers_norm in Hx. rewrite <- Q, Hx. apply in_map, Ix. }
  assert (TB : forall s, In s (flat_map (set_stickers k) lb') -> dot (st_cubie s) (st_cubie s) <> norm2 k a).
  { intros s Hs Q. apply NA. apply in_flat_map in Hs. destruct Hs as (x & Ix & Hx). apply stickers_norm in Hx. rewrite <- Q, Hx.
    clear - F' Ix. induction F' as [|u v lu lv E F IHF]; [destruct Ix|]. cbn. destruct Ix as [->|Ix]; [left; exact E|right; apply IHF, Ix]. }
  constructor.
  - intros s. split; intros Hs.
    + destruct (in_app_or _ _ _ (proj1 (H s) (in_or_app _ _ _ (or_introl Hs)))) as [|Q]; [assumption|]. exfalso. exact (TB s Q (stickers_norm _ _ _ Hs)).
    + destruct (in_app_or _ _ _ (proj2 (H s) (in_or_app _ _ _ (or_introl Hs)))) as [|Q]; [assumption|]. exfalso. apply (TA s Q). rewrite (stickers_norm _ _ _ Hs). symmetry. exact E.
  - apply IH; [exact F'|exact D|]. intros s. split; intros Hs.
    + destruct (in_app_or _ _ _ (proj1 (H s) (in_or_app _ _ _ (or_intror Hs)))) as [Q|]; [|assumption]. exfalso. apply (TA s Hs). rewrite (stickers_norm _ _ _ Q). symmetry. exact E.
    + destruct (in_app_or _ _ _ (proj2 (H s) (in_or_app _ _ _ (or_intror Hs)))) as [Q|]; [|assumption]. exfalso. exact (TB s Hs (stickers_norm _ _ _ Q)).
Qed.

(** *** Within a set *)

Section Within.
  Context {O P Pos : Type} (home : list O) (pos : P -> Pos) (loc : P -> V3) (stk : O -> P -> list Sticker).
  Context (at_loc : forall o w x, In x (stk o w) -> st_cubie x = loc w)
          (some_sticker : forall o w, exists x, In x (stk o w))
          (loc_pos : forall w w', loc w = loc w' -> pos w = pos w')
          (home_once : NoDup home).

  Lemma combine_at (t : list P) o o' w w' : NoDup (map pos t) ->
    In (o, w) (combine home t) -> In (o', w') (combine home t) -> pos w = pos w' -> (o, w) = (o', w').
  Proof.
    intros N A B E. clear - N A B E. revert home A B. induction t as [|x t IH]; intros [|h hs] A B; try (destruct A; fail).
    cbn in N. apply NoDup_cons_iff in N. destruct N as [NA N]. cbn in A, B.
    destruct A as [A|A], B as [B|B].
    - congruence.
    - injection A as <- <-. exfalso. apply NA. rewrite E. apply in_map. apply in_combine_r in B. exact B.
    - injection B as <- <-. exfalso. apply NA. rewrite <- E. apply in_map. apply in_combine_r in A. exact A.
    - eapply IH; eassumption.
  Qed.

  Lemma same_pairs (s t : list P) : length s = length home -> length t = length home ->
    (forall x, In x (combine home s) -> In x (combine home t)) -> s = t.
  Proof.
    clear - home_once. revert s t. induction home as [|h hs IH]; intros [|x s] [|y t] LS LT H; cbn in LS, LT; try discriminate; [reflexivity|].
    apply NoDup_cons_iff in home_once. destruct home_once as [NH ND]. cbn in H.
    assert (x = y). { destruct (H _ (or_introl eq_refl)) as [Q|Q]; [congruence|]. exfalso. apply NH. apply in_combine_l in Q. exact Q. }
    subst y. f_equal. apply IH; [exact ND|lia|lia|]. intros [o w] Q. destruct (H _ (or_intror Q)) as [R|R]; [|exact R].
    injection R as <- <-. exfalso. apply NH. apply in_combine_l in Q. exact Q.
  Qed.

  Lemma determined_set (s t : list P) :
    (forall o o' w w', pos w = pos w' -> (forall x, In x (stk o w) -> In x (stk o' w')) -> o = o' /\ w = w') ->
    length s = length home -> length t = length home -> NoDup (map pos t) ->
    (forall x, In x (flat_map (fun p => stk (fst p) (snd p)) (combine home s)) -> In x (flat_map (fun p => stk (fst p) (snd p)) (combine home t))) ->
    s = t.
  Proof.
    intros D LS LT NT H. apply same_pairs; [exact LS|exact LT|]. intros [o w] I.
    destruct (some_sticker o w) as (x0 & X0).
    assert (F : forall x, In x (stk o w) -> exists o' w', In (o', w') (combine home t) /\ In x (stk o' w') /\ pos w = pos w').
    { intros x X. assert (Q : In x (flat_map (fun p => stk (fst p) (snd p)) (combine home s))) by (apply in_flat_map; exists (o, w); split; assumption).
      apply H in Q. apply in_flat_map in Q. destruct Q as ([o' w'] & J & X'). cbn in X'. exists o', w'. split; [exact J|]. split; [exact X'|].
      apply loc_pos. rewrite <- (at_loc _ _ _ X). apply (at_loc _ _ _ X'). }
    destruct (F x0 X0) as (o' & w' & J & X' & E). destruct (D o o' w w' E) as [-> ->]; [|exact J].
    intros x X. destruct (F x X) as (o2 & w2 & J2 & X2 & E2).
    assert (Q : (o2, w2) = (o', w')) by (eapply combine_at; [exact NT|exact J2|exact J|congruence]). injection Q as -> ->. exact X2.
  Qed.
End Within.

(** Places of pieces are different. *)
Definition apart {P Pos} (pos : P -> Pos) (eqb : Pos -> Pos -> bool) (loc : P -> V3) (all : list P) : bool :=
  forallb (fun a => forallb (fun b => implb (v3_eqb (loc a) (loc b)) (eqb (pos a) (pos b))) all) all.
Lemma apart_spec {P Pos} (pos : P -> Pos) eqb (loc : P -> V3) all :
  (forall a b, eqb a b = true <-> a = b) -> (forall p, In p all) -> apart pos eqb loc all = true ->
  forall a b, loc a = loc b -> pos a = pos b.
Proof.
  intros E C H a b L. unfold apart in H. rewrite forallb_forall in H. specialize (H a (C a)). rewrite forallb_forall in H. specialize (H b (C b)).
  rewrite L, (proj2 (v3_eqb_eq _ _) eq_refl) in H. apply E. exact H.
Qed.

Definition every_corner : list Corner := flat_map (fun p => map (mkCorner p) [AX; AY; AZ]) corner_reference.
Definition every_edge : list Edge := flat_map (fun p => map (mkEdge (fst p) (snd p)) [true; false]) edge_reference.
Lemma every_corner_all c : In c every_corner.
Proof. apply (existsb_eqb _ corner_eqb_eq). destruct c as [[[] [] []] []]; reflexivity. Qed.
Lemma every_edge_all c : In c every_edge.
Proof. apply (existsb_eqb _ edge_eqb_eq). destruct c as [[] [[] []] []]; reflexivity. Qed.

Lemma normal_inj f g : normal f = normal g -> f = g.
Proof. destruct f as [[] []], g as [[] []]; cbn; intros H; first [reflexivity|discriminate H]. Qed.

Definition colour_eqb (a b : Face * Color) : bool := face_eqb (fst a) (fst b) && face_eqb (snd a) (snd b).
Lemma colour_eqb_eq a b : colour_eqb a b = true <-> a = b.
Proof. destruct a as [a1 a2], b as [b1 b2]. unfold colour_eqb. cbn. rewrite andb_true_iff, !face_eqb_eq. split; [intros [-> ->]; reflexivity|intros H; injection H as -> ->; auto]. Qed.

(** The stickers of a piece at a known place say which piece it is and how it is turned. *)
Definition within (l m : list (Face * Color)) : bool := forallb (fun a => existsb (colour_eqb a) m) l.
Lemma within_spec l m : (forall x, In x l -> In x m) -> within l m = true.
Proof. intros H. unfold within. apply forallb_forall. intros x I. apply (existsb_eqb _ colour_eqb_eq). apply H, I. Qed.

Definition wing_colors (w o : Wing) : list (Face * Color) :=
  edge_colors (mkEdge (e_normal (wg_edge w)) (e_slice (wg_edge w)) (Bool.eqb (e_oriented (wg_edge w)) (e_oriented (wg_edge o)))) (edge_position (wg_edge o)).

Definition told {O P Pos} (pos : P -> Pos) (peqb : Pos -> Pos -> bool) (colors : P -> O -> list (Face * Color)) (oeqb : O -> O -> bool) (weqb : P -> P -> bool)
  (os : list O) (ws : list P) : bool :=
  forallb (fun w => forallb (fun w' => if peqb (pos w) (pos w') then
    forallb (fun o => forallb (fun o' => implb (within (colors w o) (colors w' o')) (oeqb o o' && weqb w w')) os) os else true) ws) ws.
Lemma told_spec {O P Pos} (pos : P -> Pos) peqb colors (oeqb : O -> O -> bool) (weqb : P -> P -> bool) os ws :
  (forall a b, peqb a b = true <-> a = b) -> (forall a b, oeqb a b = true <-> a = b) -> (forall a b, weqb a b = true <-> a = b) ->
  (forall o, In o os) -> (forall w, In w ws) -> told pos peqb colors oeqb weqb os ws = true ->
  forall o o' w w', pos w = pos w' -> (forall x, In x (colors w o) -> In x (colors w' o')) -> o = o' /\ w = w'.
Proof.
  intros P1 P2 P3 A1 A2 H o o' w w' E I. unfold told in H.
  rewrite forallb_forall in H. specialize (H w (A2 w)). rewrite forallb_forall in H. specialize (H w' (A2 w')).
  rewrite (proj2 (P1 _ _) E) in H. rewrite forallb_forall in H. specialize (H o (A1 o)). rewrite forallb_forall in H. specialize (H o' (A1 o')).
  rewrite (within_spec _ _ I) in H. apply andb_true_iff in H. destruct H as [H1 H2]. split; [apply P2, H1|apply P3, H2].
Qed.

Lemma corner_told : told c_pos vec3_eqb corner_colors vec3_eqb corner_eqb corner_reference every_corner = true.
Proof. vm_compute. reflexivity. Qed.
Lemma edge_told : told edge_position edgepos_eqb edge_colors edgepos_eqb edge_eqb edge_reference every_edge = true.
Proof. vm_compute. reflexivity. Qed.
Lemma wing_told : told (fun w : Wing => w) wing_eqb wing_colors wing_eqb wing_eqb wing_solved wing_solved = true.
Proof. vm_compute. reflexivity. Qed.

Lemma painted_in (p p' : V3) (l m : list (Face * Color)) :
  (forall x, In x (map (fun fc => mkSticker p (normal (fst fc)) (snd fc)) l) -> In x (map (fun fc => mkSticker p' (normal (fst fc)) (snd fc)) m)) ->
  forall x, In x l -> In x m.
Proof.
  intros H [f c] I. specialize (H (mkSticker p (normal f) c)).
  assert (Q : In (mkSticker p (normal f) c) (map (fun fc => mkSticker p (normal (fst fc)) (snd fc)) l)) by (apply in_map_iff; exists (f, c); auto).
  apply H in Q. apply in_map_iff in Q. destruct Q as ([f' c'] & E & J). pose proof (f_equal st_normal E) as E1. pose proof (f_equal st_color E) as E2.
  cbn [st_normal st_color fst snd] in E1, E2. apply normal_inj in E1. subst f' c'. exact J.
Qed.

Lemma corners_same k s t : apart c_pos vec3_eqb (corner_loc k) every_corner = true ->
  set_valid corner_desc s -> set_valid corner_desc t ->
  (forall x, In x (set_stickers k (SetCorner s)) <-> In x (set_stickers k (SetCorner t))) -> s = t.
Proof.
  intros A [LS _] [LT NT] H.
  refine (determined_set corner_reference c_pos (corner_loc k) (fun o w => map (fun fc => mkSticker (corner_loc k w) (normal (fst fc)) (snd fc)) (corner_colors w o))
    _ _ (apart_spec _ _ _ _ vec3_eqb_eq every_corner_all A) (do_nodup _ corner_desc_ok) s t _ LS LT NT (fun x => proj1 (H x))).
  - intros o w x I. apply in_map_iff in I. destruct I as (fc & <- & _). reflexivity.
  - intros o w. destruct (corner_colors w o) as [|c l] eqn:E; [destruct w as [[[] [] []] []]; discriminate E|]. eexists. left. reflexivity.
  - intros o o' w w' E I. apply (told_spec _ _ _ _ _ _ _ vec3_eqb_eq vec3_eqb_eq corner_eqb_eq vec3_in_reference every_corner_all corner_told o o' w w' E).
    eapply painted_in. exact I.
Qed.

Lemma edges_same k s t : apart edge_position edgepos_eqb (edge_loc k) every_edge = true ->
  set_valid edge_desc s -> set_valid edge_desc t ->
  (forall x, In x (set_stickers k (SetEdge s)) <-> In x (set_stickers k (SetEdge t))) -> s = t.
Proof.
  intros A [LS _] [LT NT] H.
  refine (determined_set edge_reference edge_position (edge_loc k) (fun o w => map (fun fc => mkSticker (edge_loc k w) (normal (fst fc)) (snd fc)) (edge_colors w o))
    _ _ (apart_spec _ _ _ _ edgepos_eqb_eq every_edge_all A) (do_nodup _ edge_desc_ok) s t _ LS LT NT (fun x => proj1 (H x))).
  - intros o w x I. apply in_map_iff in I. destruct I as (fc & <- & _). reflexivity.
  - intros o w. unfold edge_colors. destruct (e_oriented w); eexists; left; reflexivity.
  - intros o o' w w' E I. apply (told_spec _ _ _ _ _ _ _ edgepos_eqb_eq edgepos_eqb_eq edge_eqb_eq (do_complete _ edge_desc_ok) every_edge_all edge_told o o' w w' E).
    eapply painted_in. exact I.
Qed.

Lemma map_id' {T} (l : list T) : map (fun x => x) l = l.
Proof. apply map_id. Qed.

Lemma wings_same k nd s t : apart (fun w : Wing => w) wing_eqb (wing_loc k nd) wing_solved = true ->
  set_valid wing_desc s -> set_valid wing_desc t ->
  (forall x, In x (set_stickers k (SetWing nd s)) <-> In x (set_stickers k (SetWing nd t))) -> s = t.
Proof.
  intros A [LS _] [LT NT] H.
  refine (determined_set wing_solved (fun w : Wing => w) (wing_loc k nd) (wing_stickers k nd)
    _ _ (apart_spec _ _ _ _ wing_eqb_eq (do_complete _ wing_desc_ok) A) (do_nodup _ wing_desc_ok) s t _ LS LT NT (fun x => proj1 (H x))).
  - intros o w x I. apply in_map_iff in I. destruct I as (fc & <- & _). reflexivity.
  - intros o w. unfold wing_stickers, edge_colors. cbn [e_oriented]. destruct (Bool.eqb _ _); eexists; left; reflexivity.
  - intros o o' w w' E I.
    apply (told_spec _ _ _ _ _ _ _ wing_eqb_eq wing_eqb_eq wing_eqb_eq (do_complete _ wing_desc_ok) (do_complete _ wing_desc_ok) wing_told o o' w w' E).
    unfold wing_colors. eapply painted_in. exact I.
Qed.

(** Centres: one sticker each. *)
Lemma centres_same {P} (home : list P) (face : P -> Face) (loc : P -> V3) s t :
  NoDup home -> (forall a b, loc a = loc b -> a = b) -> length s = length home -> length t = length home -> NoDup t -> (forall p, In p t) ->
  ((forall x, In x (map (fun p => mkSticker (loc (snd p)) (normal (face (snd p))) (face (fst p))) (combine home s)) <->
              In x (map (fun p => mkSticker (loc (snd p)) (normal (face (snd p))) (face (fst p))) (combine home t))) -> same_centres home face s t) /\
  (same_centres home face s t ->
   forall x, In x (map (fun p => mkSticker (loc (snd p)) (normal (face (snd p))) (face (fst p))) (combine home s)) ->
             In x (map (fun p => mkSticker (loc (snd p)) (normal (face (snd p))) (face (fst p))) (combine home t))).
Proof.
  intros NH INJ LS LT NT AT. split.
  - intros H o o' c I J.
    assert (Q : In (mkSticker (loc c) (normal (face c)) (face o)) (map (fun p => mkSticker (loc (snd p)) (normal (face (snd p))) (face (fst p))) (combine home s)))
      by (apply in_map_iff; exists (o, c); auto).
    apply H, in_map_iff in Q. destruct Q as ([o2 c2] & E & J2). pose proof (f_equal st_cubie E) as E1. pose proof (f_equal st_color E) as E2.
    cbn [st_cubie st_color fst snd] in E1, E2. apply INJ in E1. subst c2.
    assert (R : (o2, c) = (o', c)). { apply (combine_at home (fun x : P => x) t); auto. rewrite map_id'. exact NT. }
    injection R as ->. symmetry. exact E2.
  - intros H x I. apply in_map_iff in I. destruct I as ([o c] & <- & I). cbn [fst snd].
    destruct (In_nth_error _ _ (AT c)) as (i & Hi).
    assert (L : (i < length home)%nat) by (rewrite <- LT; apply nth_error_Some; congruence).
    destruct (nth_error home i) as [o'|] eqn:Ho; [|apply nth_error_None in Ho; lia].
    assert (J : In (o', c) (combine home t)).
    { clear - Hi Ho. revert i t Hi Ho. induction home as [|h hs IH]; intros [|i] [|y t] Hi Ho; cbn in *; try discriminate.
      - injection Hi as ->. injection Ho as ->. auto.
      - right. eapply IH; eassumption. }
    apply in_map_iff. exists (o', c). split; [|exact J]. cbn [fst snd]. rewrite (H o o' c I J). reflexivity.
Qed.

Lemma same_centres_sym {P} (home : list P) face s t : same_centres home face s t -> same_centres home face t s.
Proof. intros H o o' c I J. symmetry. exact (H o' o c J I). Qed.

Lemma centre_set {P} (d : PieceDesc P P) (OK : desc_ok d) (face : P -> Face) (loc : P -> V3) s t :
  (forall p, pd_position d p = p) -> (forall a b, loc a = loc b -> a = b) -> set_valid d s -> set_valid d t ->
  ((forall x, In x (map (fun p => mkSticker (loc (snd p)) (normal (face (snd p))) (face (fst p))) (combine (pd_reference d) s)) <->
              In x (map (fun p => mkSticker (loc (snd p)) (normal (face (snd p))) (face (fst p))) (combine (pd_reference d) t))) <->
   same_centres (pd_reference d) face s t).
Proof.
  intros ID INJ VS VT.
  assert (F : forall l, set_valid d l -> length l = length (pd_reference d) /\ NoDup l /\ forall p, In p l).
  { intros l V. pose proof (set_valid_perm d OK l V) as Pm. destruct V as [L N]. rewrite (map_ext _ (fun x => x) ID), map_id' in N, Pm.
    split; [exact L|]. split; [exact N|]. intros p. apply (Permutation_in p (Permutation_sym Pm)), (do_complete _ OK). }
  destruct (F s VS) as (LS & NS & AS). destruct (F t VT) as (LT & NT & AT).
  split.
  - intros H. apply (proj1 (centres_same (pd_reference d) face loc s t (do_nodup _ OK) INJ LS LT NT AT) H).
  - intros H x. split.
    + apply (proj2 (centres_same (pd_reference d) face loc s t (do_nodup _ OK) INJ LS LT NT AT) H).
    + apply (proj2 (centres_same (pd_reference d) face loc t s (do_nodup _ OK) INJ LT LS NS AS) (same_centres_sym _ _ _ _ H)).
Qed.

Lemma corners_look k s t : apart c_pos vec3_eqb (corner_loc k) every_corner = true -> one_piece_everywhere corner_desc s -> one_piece_everywhere corner_desc t ->
  ((forall x, In x (set_stickers k (SetCorner s)) <-> In x (set_stickers k (SetCorner t))) <-> set_same_look (SetCorner s) (SetCorner t)).
Proof. intros A VS VT. to_valid. cbn [set_same_look]. split; [apply corners_same; assumption|intros ->; reflexivity]. Qed.
Lemma edges_look k s t : apart edge_position edgepos_eqb (edge_loc k) every_edge = true -> one_piece_everywhere edge_desc s -> one_piece_everywhere edge_desc t ->
  ((forall x, In x (set_stickers k (SetEdge s)) <-> In x (set_stickers k (SetEdge t))) <-> set_same_look (SetEdge s) (SetEdge t)).
Proof. intros A VS VT. to_valid. cbn [set_same_look]. split; [apply edges_same; assumption|intros ->; reflexivity]. Qed.
Lemma wings_look k nd s t : apart (fun w : Wing => w) wing_eqb (wing_loc k nd) wing_solved = true -> one_piece_everywhere wing_desc s -> one_piece_everywhere wing_desc t ->
  ((forall x, In x (set_stickers k (SetWing nd s)) <-> In x (set_stickers k (SetWing nd t))) <-> set_same_look (SetWing nd s) (SetWing nd t)).
Proof. intros A VS VT. to_valid. cbn [set_same_look]. split; [apply wings_same; assumption|intros ->; reflexivity]. Qed.
Lemma ccs_look k nd s t : apart (fun w : CenterCorner => w) cc_eqb (cc_loc k nd) cc_solved = true -> one_piece_everywhere cc_desc s -> one_piece_everywhere cc_desc t ->
  ((forall x, In x (set_stickers k (SetCenterCorner nd s)) <-> In x (set_stickers k (SetCenterCorner nd t))) <-> set_same_look (SetCenterCorner nd s) (SetCenterCorner nd t)).
Proof.
  intros A VS VT. to_valid. apply (centre_set cc_desc cc_desc_ok cc_face (cc_loc k nd) s t); auto.
  apply (apart_spec _ _ _ _ cc_eqb_eq (do_complete _ cc_desc_ok) A).
Qed.
Lemma ces_look k nd s t : apart (fun w : CenterEdge => w) ce_eqb (ce_loc k nd) ce_solved = true -> one_piece_everywhere ce_desc s -> one_piece_everywhere ce_desc t ->
  ((forall x, In x (set_stickers k (SetCenterEdge nd s)) <-> In x (set_stickers k (SetCenterEdge nd t))) <-> set_same_look (SetCenterEdge nd s) (SetCenterEdge nd t)).
Proof.
  intros A VS VT. to_valid. apply (centre_set ce_desc ce_desc_ok ce_main (ce_loc k nd) s t); auto.
  apply (apart_spec _ _ _ _ ce_eqb_eq (do_complete _ ce_desc_ok) A).
Qed.
Lemma cws_look k nd td s t : apart (fun w : CenterWing => w) cw_eqb (cw_loc k nd td) cw_solved = true -> one_piece_everywhere cw_desc s -> one_piece_everywhere cw_desc t ->
  ((forall x, In x (set_stickers k (SetCenterWing nd td s)) <-> In x (set_stickers k (SetCenterWing nd td t))) <-> set_same_look (SetCenterWing nd td s) (SetCenterWing nd td t)).
Proof.
  intros A VS VT. to_valid. apply (centre_set cw_desc cw_desc_ok (fun c => ce_main (cw_edge c)) (cw_loc k nd td) s t); auto.
  apply (apart_spec _ _ _ _ cw_eqb_eq (do_complete _ cw_desc_ok) A).
Qed.

Lemma Forall2_flat_in k la lb : Forall2 (fun a b => forall s, In s (set_stickers k a) <-> In s (set_stickers k b)) la lb ->
  forall s, In s (flat_map (set_stickers k) la) <-> In s (flat_map (set_stickers k) lb).
Proof.
  induction 1 as [|a b la lb H F IH]; intros s; [reflexivity|]. cbn [flat_map]. rewrite !in_app_iff, H, IH. reflexivity.
Qed.

Lemma sets_look n (a b : CubeOf n) : cube_well_formed n a -> cube_well_formed n b ->
  Forall2 (fun x y => norm2 (sizeZ n) x = norm2 (sizeZ n) y /\
    ((forall s, In s (set_stickers (sizeZ n) x) <-> In s (set_stickers (sizeZ n) y)) <-> set_same_look x y)) (cube_sets n a) (cube_sets n b).
Proof.
  intros WA WB. destruct n; cbn [cube_well_formed] in WA, WB; cbn [cube_sets];
    repeat match goal with H : _ /\ _ |- _ => destruct H end;
    repeat (constructor; [split; [reflexivity|]|]); [..];
    first [apply corners_look|apply edges_look|apply wings_look|apply ccs_look|apply ces_look|apply cws_look|constructor];
    first [assumption|vm_compute; reflexivity].
Qed.

Lemma norms_nodup n (a : CubeOf n) : NoDup (map (norm2 (sizeZ n)) (cube_sets n a)).
Proof. destruct n; cbn [cube_sets map norm2]; apply (find_dup_none _ Z.eqb_eq); vm_compute; reflexivity. Qed.

(** For cubes of every size: two cubes with a piece at every position look the same exactly
    when their corners, edges and wings are the same and every centre place shows the same
    colour. *)
Theorem C92_look : forall n (a b : CubeOf n), cube_well_formed n a -> cube_well_formed n b ->
  (same_look n a b <-> Forall2 set_same_look (cube_sets n a) (cube_sets n b)).
Proof.
  intros n a b WA WB. pose proof (sets_look n a b WA WB) as S. split.
  - intros H. unfold same_look, cube_stickers in H.
    assert (F : Forall2 (fun x y => norm2 (sizeZ n) x = norm2 (sizeZ n) y) (cube_sets n a) (cube_sets n b)).
    { clear - S. induction S as [|x y la lb [E _] S IH]; constructor; assumption. }
    pose proof (sets_apart _ _ _ F (norms_nodup n a) H) as Q. clear - S Q.
    induction S as [|x y la lb [_ E] S IH]; [constructor|]. inversion Q; subst. constructor; [apply E; assumption|apply IH; assumption].
  - intros H. unfold same_look, cube_stickers. apply Forall2_flat_in. clear - S H.
    induction S as [|x y la lb [_ E] S IH]; [constructor|]. inversion H; subst. constructor; [apply E; assumption|apply IH; assumption].
Qed.

(** On the 2x2x2 and 3x3x3, [==] holds exactly for the cubes that look the same; on all sizes
    equal cubes look the same. *)
Theorem C92_small : forall n (a b : CubeOf n), n = Size2 \/ n = Size3 -> cube_well_formed n a -> cube_well_formed n b ->
  (cube_eqb n a b = true <-> same_look n a b).
Proof.
  intros n a b Hn WA WB. rewrite cube_eqb_eq. split; [intros ->; intros s; reflexivity|].
  intros H. apply C92_look in H; [|exact WA|exact WB]. destruct Hn; subst n; cbn [cube_sets] in H.
  - inversion H as [|? ? ? ? E _]; subst. cbn in E. destruct a, b. cbn in *. congruence.
  - inversion H as [|? ? ? ? E H']; subst. inversion H' as [|? ? ? ? E' _]; subst. cbn in E, E'. destruct a, b. cbn in *. congruence.
Qed.
Theorem C92_equal_look : forall n (a b : CubeOf n), cube_eqb n a b = true -> same_look n a b.
Proof. intros n a b H. apply cube_eqb_eq in H. subst. intros s. reflexivity. Qed.

(** On the sizes with centre pieces [==] is finer: turning the face U of a cube around by
    R U R' U five times shows nothing but is a different cube. *)
Definition turn_centres : list WideAxisMove := concat (repeat [wd 0 fR Single; wd 0 fU Single; wd 0 fR Inverse; wd 0 fU Single] 5).
Definition stickers_eqb (a b : Sticker) : bool :=
  v3_eqb (st_cubie a) (st_cubie b) && v3_eqb (st_normal a) (st_normal b) && face_eqb (st_color a) (st_color b).
Lemma stickers_eqb_eq a b : stickers_eqb a b = true <-> a = b.
Proof.
  destruct a as [a1 a2 a3], b as [b1 b2 b3]. unfold stickers_eqb. cbn [st_cubie st_normal st_color].
  rewrite !andb_true_iff, !v3_eqb_eq, face_eqb_eq. split; [intros [[-> ->] ->]; reflexivity|]. intros H.
  pose proof (f_equal st_cubie H). pose proof (f_equal st_normal H). pose proof (f_equal st_color H). cbn in *. auto.
Qed.
Lemma same_lookb n a b :
  forallb (fun x => existsb (stickers_eqb x) (cube_stickers n b)) (cube_stickers n a) &&
  forallb (fun x => existsb (stickers_eqb x) (cube_stickers n a)) (cube_stickers n b) = true -> same_look n a b.
Proof.
  rewrite andb_true_iff, !forallb_forall. intros [H1 H2] s. split; intros I.
  - apply (existsb_eqb _ stickers_eqb_eq), H1, I.
  - apply (existsb_eqb _ stickers_eqb_eq), H2, I.
Qed.
Theorem C92_big : forall n, n <> Size2 -> n <> Size3 ->
  let c := run_wide n turn_centres in
  same_look n c (cube_solved n) /\ cube_eqb n c (cube_solved n) = false.
Proof.
  intros n H2 H3 c. destruct n; try contradiction; (split; [apply same_lookb; vm_compute; reflexivity|vm_compute; reflexivity]).
Qed.

(** The hypotheses hold for scrambled cubes, and looking the same is not the same as having
    the same pieces anywhere. *)
Example C92_example :
  cube_well_formed Size3 (cube3_apply cube3_solved (mkMove fR Single)) /\
  cube_eqb Size3 (cube3_apply cube3_solved (mkMove fR Single)) (cube3_apply cube3_solved (mkMove fR Inverse)) = false /\
  cube_well_formed Size7 (run_wide Size7 same_face_cycle) /\ wide_eqb (wd 0 fR Single) (wd 1 fR Single) = false /\
  rot_eqb (mkRot AX Single) (mkRot AY Single) = false.
Proof.
  split; [apply (cube_well_formed_move Size3), cube_well_formed_solved|]. split; [vm_compute; reflexivity|]. split; [|split; reflexivity].
  unfold run_wide. generalize (cube_well_formed_solved Size7). generalize (cube_solved Size7). generalize same_face_cycle.
  induction l as [|w l IH]; intros c H; [exact H|]. cbn [fold_left]. apply IH, cube_well_formed_wide, H.
Qed.

Print Assumptions C92_values.
Print Assumptions C92_look.
Print Assumptions C92_small.
Print Assumptions C92_equal_look.
Print Assumptions C92_big.

(** Move inverses, additivity and commutation, for every piece type, set and cube. *)

From Coq Require Import List Bool Arith NArith ZArith Lia.
From Verif Require Import Model_Base Model_Space Model_Moves Model_Pieces Model_PieceSet Model_Cubes.
Import ListNotations.

(** ** Generic alg reversal *)

Lemma apply_reversed {C M} (app : C -> M -> C) (inv : M -> M) :
  (forall c m, app (app c m) (inv m) = c) ->
  forall al c, apply_alg app (apply_alg app c al) (alg_reversed inv al) = c.
Proof.
  intros H al. unfold alg_reversed, apply_alg.
  induction al as [|m al IH]; intros c; simpl; [reflexivity|].
  rewrite map_app, fold_left_app, IH. simpl. apply H.
Qed.

Lemma map_compose_id {A} (f g : A -> A) (l : list A) :
  (forall a, g (f a) = a) -> map g (map f l) = l.
Proof. intros H. rewrite map_map. rewrite <- (map_id l) at 2. apply map_ext, H. Qed.

(** ** Layer actions

    All pieces move the same way: if the piece is in the turned layers it is rotated.
    Three facts about a move type are enough: the layer test does not change under a
    rotation about the same axis, and rotations about one axis add up. *)

Definition opt_rot {P} (rotate : P -> AxisRotation -> P) (p : P) (a : Axis) (s : option Amount) : P :=
  match s with Some x => rotate p (mkRot a x) | None => p end.

Definition layer_act {P} (inl : P -> bool) (rotate : P -> AxisRotation -> P) (p : P)
  (r : AxisRotation) : P := if inl p then rotate p r else p.

Section Layer.
  Context {P : Type} (rotate : P -> AxisRotation -> P).
  Hypothesis radd : forall p a x y,
    rotate (rotate p (mkRot a x)) (mkRot a y) = opt_rot rotate p a (amount_add x y).

  Lemma layer_add (inl : P -> bool) (a : Axis) :
    (forall p x, inl (rotate p (mkRot a x)) = inl p) ->
    forall p x y,
    layer_act inl rotate (layer_act inl rotate p (mkRot a x)) (mkRot a y)
    = match amount_add x y with
      | Some s => layer_act inl rotate p (mkRot a s)
      | None => p
      end.
  Proof.
    intros Hin p x y. unfold layer_act.
    destruct (inl p) eqn:E.
    - rewrite Hin, E, radd. unfold opt_rot. destruct (amount_add x y); reflexivity.
    - rewrite E. destruct (amount_add x y); reflexivity.
  Qed.

  Lemma layer_inverse (inl : P -> bool) (a : Axis) :
    (forall p x, inl (rotate p (mkRot a x)) = inl p) ->
    forall p x,
    layer_act inl rotate (layer_act inl rotate p (mkRot a x)) (mkRot a (amount_mul x Negative)) = p.
  Proof.
    intros Hin p x. rewrite layer_add by assumption. destruct x; reflexivity.
  Qed.

  Lemma layer_comm (inl1 inl2 : P -> bool) (a : Axis) :
    (forall p x, inl1 (rotate p (mkRot a x)) = inl1 p) ->
    (forall p x, inl2 (rotate p (mkRot a x)) = inl2 p) ->
    forall p x y,
    layer_act inl2 rotate (layer_act inl1 rotate p (mkRot a x)) (mkRot a y)
    = layer_act inl1 rotate (layer_act inl2 rotate p (mkRot a y)) (mkRot a x).
  Proof.
    intros H1 H2 p x y. unfold layer_act.
    assert (E : rotate (rotate p (mkRot a x)) (mkRot a y) = rotate (rotate p (mkRot a y)) (mkRot a x)).
    { rewrite !radd. replace (amount_add y x) with (amount_add x y)
        by (destruct x, y; reflexivity). reflexivity. }
    destruct (inl1 p) eqn:E1, (inl2 p) eqn:E2; rewrite ?H1, ?H2, ?E1, ?E2; auto.
  Qed.
End Layer.

Ltac cases_corner c := destruct c as [[[] [] []] []].
Ltac cases_edge e := destruct e as [[] [[] []] []].
Ltac cases_wing w := destruct w as [[[] [[] []] []]].
Ltac cases_cc c := destruct c as [[[] [] []] []].
Ltac cases_ce c := destruct c as [[[] []] [] []].
Ltac cases_cw c := destruct c as [[[[] []] [] []] []].

Lemma corner_radd p a x y :
  corner_rotate (corner_rotate p (mkRot a x)) (mkRot a y) = opt_rot corner_rotate p a (amount_add x y).
Proof. cases_corner p; destruct a, x, y; reflexivity. Qed.
Lemma edge_radd p a x y :
  edge_rotate (edge_rotate p (mkRot a x)) (mkRot a y) = opt_rot edge_rotate p a (amount_add x y).
Proof. cases_edge p; destruct a, x, y; reflexivity. Qed.
Lemma wing_radd p a x y :
  wing_rotate (wing_rotate p (mkRot a x)) (mkRot a y) = opt_rot wing_rotate p a (amount_add x y).
Proof. cases_wing p; destruct a, x, y; reflexivity. Qed.
Lemma cc_radd p a x y :
  cc_rotate (cc_rotate p (mkRot a x)) (mkRot a y) = opt_rot cc_rotate p a (amount_add x y).
Proof. cases_cc p; destruct a, x, y; reflexivity. Qed.
Lemma ce_radd p a x y :
  ce_rotate (ce_rotate p (mkRot a x)) (mkRot a y) = opt_rot ce_rotate p a (amount_add x y).
Proof. cases_ce p; destruct a, x, y; reflexivity. Qed.
Lemma cw_radd p a x y :
  cw_rotate (cw_rotate p (mkRot a x)) (mkRot a y) = opt_rot cw_rotate p a (amount_add x y).
Proof. cases_cw p; destruct a, x, y; reflexivity. Qed.

Lemma corner_inl a d p x :
  contains_vector (mkFace a d) (c_pos (corner_rotate p (mkRot a x)))
  = contains_vector (mkFace a d) (c_pos p).
Proof. cases_corner p; destruct a, d, x; reflexivity. Qed.
Lemma edge_inl a d p x :
  contains_edge (mkFace a d) (edge_rotate p (mkRot a x)) = contains_edge (mkFace a d) p.
Proof. cases_edge p; destruct a, d, x; reflexivity. Qed.

(** [f_in_wide] seen as a predicate of the piece: it only looks at the face and the
    depth of the move. *)
Definition layer_of {P} (in_wide : P -> N -> N -> N -> WideAxisMove -> bool)
  (nd td mx : N) (f : Face) (depth : N) (p : P) : bool :=
  in_wide p nd td mx (mkWide depth (mkMove f Single)).

Lemma wing_inl nd td mx a d depth p x :
  layer_of wing_in_wide nd td mx (mkFace a d) depth (wing_rotate p (mkRot a x))
  = layer_of wing_in_wide nd td mx (mkFace a d) depth p.
Proof. cases_wing p; destruct a, d, x; reflexivity. Qed.
Lemma cc_inl nd td mx a d depth p x :
  layer_of cc_in_wide nd td mx (mkFace a d) depth (cc_rotate p (mkRot a x))
  = layer_of cc_in_wide nd td mx (mkFace a d) depth p.
Proof. cases_cc p; destruct a, d, x; reflexivity. Qed.
Lemma ce_inl nd td mx a d depth p x :
  layer_of ce_in_wide nd td mx (mkFace a d) depth (ce_rotate p (mkRot a x))
  = layer_of ce_in_wide nd td mx (mkFace a d) depth p.
Proof. cases_ce p; destruct a, d, x; reflexivity. Qed.
Lemma cw_inl nd td mx a d depth p x :
  layer_of cw_in_wide nd td mx (mkFace a d) depth (cw_rotate p (mkRot a x))
  = layer_of cw_in_wide nd td mx (mkFace a d) depth p.
Proof. cases_cw p; destruct a, d, x; reflexivity. Qed.

(** The action of a wide move on one piece of a depth set. *)
Definition wide_act {P} (in_wide : P -> N -> N -> N -> WideAxisMove -> bool)
  (rotate : P -> AxisRotation -> P) (nd td mx : N) (p : P) (m : WideAxisMove) : P :=
  if in_wide p nd td mx m then rotate p (rot_of_move (w_move m)) else p.

Lemma wide_act_layer {P} in_wide rotate nd td mx (p : P) d f am :
  in_wide p nd td mx (mkWide d (mkMove f am)) = in_wide p nd td mx (mkWide d (mkMove f Single)) ->
  wide_act in_wide rotate nd td mx p (mkWide d (mkMove f am))
  = layer_act (layer_of in_wide nd td mx f d) rotate p
      (mkRot (face_axis f) (amount_mul am (face_dir f))).
Proof. intros E. unfold wide_act, layer_act, layer_of. rewrite E. reflexivity. Qed.

(** A piece type together with everything needed to move it. *)
Record mover (P : Type) := mkMover {
  mo_in : P -> N -> N -> N -> WideAxisMove -> bool;
  mo_rot : P -> AxisRotation -> P;
  mo_radd : forall p a x y,
    mo_rot (mo_rot p (mkRot a x)) (mkRot a y) = opt_rot mo_rot p a (amount_add x y);
  mo_inl : forall nd td mx a d depth p x,
    layer_of mo_in nd td mx (mkFace a d) depth (mo_rot p (mkRot a x))
    = layer_of mo_in nd td mx (mkFace a d) depth p;
  mo_face_only : forall p nd td mx d f am,
    mo_in p nd td mx (mkWide d (mkMove f am)) = mo_in p nd td mx (mkWide d (mkMove f Single))
}.
Arguments mo_in {P}. Arguments mo_rot {P}.

(** Corners and edges are also movers: their layer test ignores the depth. *)
Definition corner_in (c : Corner) (nd td mx : N) (m : WideAxisMove) : bool :=
  contains_vector (mv_face (w_move m)) (c_pos c).
Definition edge_in (e : Edge) (nd td mx : N) (m : WideAxisMove) : bool :=
  contains_edge (mv_face (w_move m)) e.

Definition corner_mover : mover Corner :=
  mkMover Corner corner_in corner_rotate corner_radd
    (fun nd td mx a d depth p x => corner_inl a d p x) (fun _ _ _ _ _ _ _ => eq_refl).
Definition edge_mover : mover Edge :=
  mkMover Edge edge_in edge_rotate edge_radd
    (fun nd td mx a d depth p x => edge_inl a d p x) (fun _ _ _ _ _ _ _ => eq_refl).
Definition wing_mover : mover Wing :=
  mkMover Wing wing_in_wide wing_rotate wing_radd wing_inl (fun _ _ _ _ _ _ _ => eq_refl).
Definition cc_mover : mover CenterCorner :=
  mkMover CenterCorner cc_in_wide cc_rotate cc_radd cc_inl (fun _ _ _ _ _ _ _ => eq_refl).
Definition ce_mover : mover CenterEdge :=
  mkMover CenterEdge ce_in_wide ce_rotate ce_radd ce_inl (fun _ _ _ _ _ _ _ => eq_refl).
Definition cw_mover : mover CenterWing :=
  mkMover CenterWing cw_in_wide cw_rotate cw_radd cw_inl (fun _ _ _ _ _ _ _ => eq_refl).

Definition mo_act {P} (mo : mover P) (nd td mx : N) (p : P) (m : WideAxisMove) : P :=
  wide_act (mo_in mo) (mo_rot mo) nd td mx p m.
Definition mo_set {P} (mo : mover P) (nd td mx : N) (s : list P) (m : WideAxisMove) : list P :=
  map (fun p => mo_act mo nd td mx p m) s.

Lemma amount_mul_inj_add x y d :
  amount_add (amount_mul x d) (amount_mul y d) = option_map (fun s => amount_mul s d) (amount_add x y).
Proof. destruct x, y, d; reflexivity. Qed.

Lemma mo_act_layer {P} (mo : mover P) nd td mx p d f am :
  mo_act mo nd td mx p (mkWide d (mkMove f am))
  = layer_act (layer_of (mo_in mo) nd td mx f d) (mo_rot mo) p
      (mkRot (face_axis f) (amount_mul am (face_dir f))).
Proof. apply wide_act_layer, mo_face_only. Qed.

Lemma mo_act_add {P} (mo : mover P) nd td mx p d f x y :
  mo_act mo nd td mx (mo_act mo nd td mx p (mkWide d (mkMove f x))) (mkWide d (mkMove f y))
  = match amount_add x y with
    | Some s => mo_act mo nd td mx p (mkWide d (mkMove f s))
    | None => p
    end.
Proof.
  rewrite !mo_act_layer.
  rewrite (layer_add (mo_rot mo) (mo_radd _ mo)).
  2:{ destruct f as [a dd]. intros; apply mo_inl. }
  rewrite amount_mul_inj_add. destruct (amount_add x y); simpl; [|reflexivity].
  rewrite mo_act_layer. reflexivity.
Qed.

Lemma mo_act_inverse {P} (mo : mover P) nd td mx p m :
  mo_act mo nd td mx (mo_act mo nd td mx p m) (wide_inverse m) = p.
Proof.
  destruct m as [d [f x]]. unfold wide_inverse, move_inverse. simpl.
  rewrite mo_act_add. destruct x; reflexivity.
Qed.

Lemma mo_act_comm {P} (mo : mover P) nd td mx p d1 d2 a e1 e2 x y :
  mo_act mo nd td mx (mo_act mo nd td mx p (mkWide d1 (mkMove (mkFace a e1) x)))
    (mkWide d2 (mkMove (mkFace a e2) y))
  = mo_act mo nd td mx (mo_act mo nd td mx p (mkWide d2 (mkMove (mkFace a e2) y)))
    (mkWide d1 (mkMove (mkFace a e1) x)).
Proof.
  rewrite !mo_act_layer. simpl face_axis.
  apply (layer_comm (mo_rot mo) (mo_radd _ mo)); intros; apply mo_inl.
Qed.

Lemma mo_set_inverse {P} (mo : mover P) nd td mx s m :
  mo_set mo nd td mx (mo_set mo nd td mx s m) (wide_inverse m) = s.
Proof. apply map_compose_id. intros; apply mo_act_inverse. Qed.

Lemma mo_set_add {P} (mo : mover P) nd td mx s d f x y :
  mo_set mo nd td mx (mo_set mo nd td mx s (mkWide d (mkMove f x))) (mkWide d (mkMove f y))
  = match amount_add x y with
    | Some t => mo_set mo nd td mx s (mkWide d (mkMove f t))
    | None => s
    end.
Proof.
  unfold mo_set. rewrite map_map.
  destruct (amount_add x y) eqn:E.
  - apply map_ext; intros p. rewrite mo_act_add, E. reflexivity.
  - rewrite <- (map_id s) at 2. apply map_ext; intros p. rewrite mo_act_add, E. reflexivity.
Qed.

Lemma mo_set_comm {P} (mo : mover P) nd td mx s d1 d2 a e1 e2 x y :
  mo_set mo nd td mx (mo_set mo nd td mx s (mkWide d1 (mkMove (mkFace a e1) x)))
    (mkWide d2 (mkMove (mkFace a e2) y))
  = mo_set mo nd td mx (mo_set mo nd td mx s (mkWide d2 (mkMove (mkFace a e2) y)))
    (mkWide d1 (mkMove (mkFace a e1) x)).
Proof.
  unfold mo_set. rewrite !map_map. apply map_ext; intros p. apply mo_act_comm.
Qed.

(** ** The set actions of the model are instances *)

Lemma corner_set_mo s m : corner_set_apply s m = mo_set corner_mover 0 0 0 s (mkWide 0 m).
Proof. reflexivity. Qed.
Lemma edge_set_mo s m : edge_set_apply s m = mo_set edge_mover 0 0 0 s (mkWide 0 m).
Proof. reflexivity. Qed.
Lemma corner_set_mo' s d m : corner_set_apply s m = mo_set corner_mover 0 0 0 s (mkWide d m).
Proof. reflexivity. Qed.
Lemma edge_set_mo' s d m : edge_set_apply s m = mo_set edge_mover 0 0 0 s (mkWide d m).
Proof. reflexivity. Qed.
Lemma wings_mo nd mx s m : wings_apply nd mx s m = mo_set wing_mover nd 0 mx s m.
Proof. reflexivity. Qed.
Lemma ccs_mo nd mx s m : ccs_apply nd mx s m = mo_set cc_mover nd 0 mx s m.
Proof. reflexivity. Qed.
Lemma ces_mo nd mx s m : ces_apply nd mx s m = mo_set ce_mover nd 0 mx s m.
Proof. reflexivity. Qed.
Lemma cws_mo nd td mx s m : cws_apply nd td mx s m = mo_set cw_mover nd td mx s m.
Proof. reflexivity. Qed.

Lemma corner_apply_mo c d m : corner_apply c m = mo_act corner_mover 0 0 0 c (mkWide d m).
Proof. reflexivity. Qed.
Lemma edge_apply_mo c d m : edge_apply c m = mo_act edge_mover 0 0 0 c (mkWide d m).
Proof. reflexivity. Qed.

Lemma corner_apply_inverse c m : corner_apply (corner_apply c m) (move_inverse m) = c.
Proof. exact (mo_act_inverse corner_mover 0 0 0 c (mkWide 0 m)). Qed.
Lemma edge_apply_inverse c m : edge_apply (edge_apply c m) (move_inverse m) = c.
Proof. exact (mo_act_inverse edge_mover 0 0 0 c (mkWide 0 m)). Qed.

(** ** Cubes *)

(** What it means for an action of wide moves to behave like turns of layers. *)
Record wide_action_ok {C} (app : C -> WideAxisMove -> C) : Prop := {
  wa_add : forall c d f x y,
    app (app c (mkWide d (mkMove f x))) (mkWide d (mkMove f y))
    = match amount_add x y with
      | Some s => app c (mkWide d (mkMove f s))
      | None => c
      end;
  wa_comm : forall c d1 d2 a e1 e2 x y,
    app (app c (mkWide d1 (mkMove (mkFace a e1) x))) (mkWide d2 (mkMove (mkFace a e2) y))
    = app (app c (mkWide d2 (mkMove (mkFace a e2) y))) (mkWide d1 (mkMove (mkFace a e1) x))
}.

Lemma wa_inverse {C} (app : C -> WideAxisMove -> C) (H : wide_action_ok app) c m :
  app (app c m) (wide_inverse m) = c.
Proof.
  destruct m as [d [f x]]. unfold wide_inverse, move_inverse; simpl.
  rewrite (wa_add _ H). destruct x; reflexivity.
Qed.

(** The same for plain face moves. *)
Record move_action_ok {C} (app : C -> AxisMove -> C) : Prop := {
  ma_add : forall c f x y,
    app (app c (mkMove f x)) (mkMove f y)
    = match amount_add x y with
      | Some s => app c (mkMove f s)
      | None => c
      end;
  ma_comm : forall c a e1 e2 x y,
    app (app c (mkMove (mkFace a e1) x)) (mkMove (mkFace a e2) y)
    = app (app c (mkMove (mkFace a e2) y)) (mkMove (mkFace a e1) x)
}.

Lemma ma_inverse {C} (app : C -> AxisMove -> C) (H : move_action_ok app) c m :
  app (app c m) (move_inverse m) = c.
Proof.
  destruct m as [f x]. unfold move_inverse; simpl.
  rewrite (ma_add _ H). destruct x; reflexivity.
Qed.

Lemma corner_set_ok : wide_action_ok (fun s m => corner_set_apply s (w_move m)).
Proof.
  split; intros; cbn [w_move].
  - rewrite (corner_set_mo' c d), (corner_set_mo' _ d), mo_set_add.
    destruct (amount_add x y); [rewrite (corner_set_mo' c d)|]; reflexivity.
  - rewrite !corner_set_mo. apply mo_set_comm.
Qed.
Lemma edge_set_ok : wide_action_ok (fun s m => edge_set_apply s (w_move m)).
Proof.
  split; intros; cbn [w_move].
  - rewrite (edge_set_mo' c d), (edge_set_mo' _ d), mo_set_add.
    destruct (amount_add x y); [rewrite (edge_set_mo' c d)|]; reflexivity.
  - rewrite !edge_set_mo. apply mo_set_comm.
Qed.
Lemma mo_set_ok {P} (mo : mover P) nd td mx : wide_action_ok (mo_set mo nd td mx).
Proof. split; intros; [apply mo_set_add|apply mo_set_comm]. Qed.

Lemma cube2_ok : move_action_ok cube2_apply.
Proof.
  split; intros [s]; intros; unfold cube2_apply; cbn [c2_corners].
  - pose proof (wa_add _ corner_set_ok s 0 f x y) as H; cbn [w_move] in H. rewrite H.
    destruct (amount_add x y); reflexivity.
  - f_equal. exact (wa_comm _ corner_set_ok s 0 0 a e1 e2 x y).
Qed.

Lemma cube3_ok : move_action_ok cube3_apply.
Proof.
  split; intros [es cs]; intros; unfold cube3_apply; cbn [c3_corners c3_edges].
  - pose proof (wa_add _ corner_set_ok cs 0 f x y) as H; cbn [w_move] in H. rewrite H.
    pose proof (wa_add _ edge_set_ok es 0 f x y) as H'; cbn [w_move] in H'. rewrite H'.
    destruct (amount_add x y); reflexivity.
  - f_equal.
    + exact (wa_comm _ edge_set_ok es 0 0 a e1 e2 x y).
    + exact (wa_comm _ corner_set_ok cs 0 0 a e1 e2 x y).
Qed.

Lemma wings_add nd mx s d f x y :
  wings_apply nd mx (wings_apply nd mx s (mkWide d (mkMove f x))) (mkWide d (mkMove f y))
  = match amount_add x y with
    | Some t => wings_apply nd mx s (mkWide d (mkMove f t))
    | None => s
    end.
Proof. exact (mo_set_add wing_mover nd 0 mx s d f x y). Qed.
Lemma ccs_add nd mx s d f x y :
  ccs_apply nd mx (ccs_apply nd mx s (mkWide d (mkMove f x))) (mkWide d (mkMove f y))
  = match amount_add x y with
    | Some t => ccs_apply nd mx s (mkWide d (mkMove f t))
    | None => s
    end.
Proof. exact (mo_set_add cc_mover nd 0 mx s d f x y). Qed.
Lemma ces_add nd mx s d f x y :
  ces_apply nd mx (ces_apply nd mx s (mkWide d (mkMove f x))) (mkWide d (mkMove f y))
  = match amount_add x y with
    | Some t => ces_apply nd mx s (mkWide d (mkMove f t))
    | None => s
    end.
Proof. exact (mo_set_add ce_mover nd 0 mx s d f x y). Qed.
Lemma cws_add nd td mx s d f x y :
  cws_apply nd td mx (cws_apply nd td mx s (mkWide d (mkMove f x))) (mkWide d (mkMove f y))
  = match amount_add x y with
    | Some t => cws_apply nd td mx s (mkWide d (mkMove f t))
    | None => s
    end.
Proof. exact (mo_set_add cw_mover nd td  mx s d f x y). Qed.

Ltac wide_add :=
  intros; cbn [w_move];
  repeat match goal with
  | |- context [corner_set_apply (corner_set_apply ?s (mkMove ?f ?x)) (mkMove ?f ?y)] =>
      rewrite (wa_add _ corner_set_ok s 0 f x y : corner_set_apply (corner_set_apply s (mkMove f x)) (mkMove f y) = _)
  | |- context [edge_set_apply (edge_set_apply ?s (mkMove ?f ?x)) (mkMove ?f ?y)] =>
      rewrite (wa_add _ edge_set_ok s 0 f x y : edge_set_apply (edge_set_apply s (mkMove f x)) (mkMove f y) = _)
  end;
  repeat match goal with
  | |- context [wings_apply ?nd ?mx (wings_apply ?nd ?mx ?s (mkWide ?d (mkMove ?f ?x))) (mkWide ?d (mkMove ?f ?y))] =>
      rewrite (wings_add nd mx s d f x y)
  | |- context [ccs_apply ?nd ?mx (ccs_apply ?nd ?mx ?s (mkWide ?d (mkMove ?f ?x))) (mkWide ?d (mkMove ?f ?y))] =>
      rewrite (ccs_add nd mx s d f x y)
  | |- context [ces_apply ?nd ?mx (ces_apply ?nd ?mx ?s (mkWide ?d (mkMove ?f ?x))) (mkWide ?d (mkMove ?f ?y))] =>
      rewrite (ces_add nd mx s d f x y)
  | |- context [cws_apply ?nd ?td ?mx (cws_apply ?nd ?td ?mx ?s (mkWide ?d (mkMove ?f ?x))) (mkWide ?d (mkMove ?f ?y))] =>
      rewrite (cws_add nd td mx s d f x y)
  end;
  destruct (amount_add _ _); reflexivity.

Lemma wings_comm nd mx s d1 d2 a e1 e2 x y :
  wings_apply nd mx (wings_apply nd mx s (mkWide d1 (mkMove (mkFace a e1) x)))
    (mkWide d2 (mkMove (mkFace a e2) y))
  = wings_apply nd mx (wings_apply nd mx s (mkWide d2 (mkMove (mkFace a e2) y)))
    (mkWide d1 (mkMove (mkFace a e1) x)).
Proof. exact (mo_set_comm wing_mover nd 0 mx s d1 d2 a e1 e2 x y). Qed.
Lemma ccs_comm nd mx s d1 d2 a e1 e2 x y :
  ccs_apply nd mx (ccs_apply nd mx s (mkWide d1 (mkMove (mkFace a e1) x)))
    (mkWide d2 (mkMove (mkFace a e2) y))
  = ccs_apply nd mx (ccs_apply nd mx s (mkWide d2 (mkMove (mkFace a e2) y)))
    (mkWide d1 (mkMove (mkFace a e1) x)).
Proof. exact (mo_set_comm cc_mover nd 0 mx s d1 d2 a e1 e2 x y). Qed.
Lemma ces_comm nd mx s d1 d2 a e1 e2 x y :
  ces_apply nd mx (ces_apply nd mx s (mkWide d1 (mkMove (mkFace a e1) x)))
    (mkWide d2 (mkMove (mkFace a e2) y))
  = ces_apply nd mx (ces_apply nd mx s (mkWide d2 (mkMove (mkFace a e2) y)))
    (mkWide d1 (mkMove (mkFace a e1) x)).
Proof. exact (mo_set_comm ce_mover nd 0 mx s d1 d2 a e1 e2 x y). Qed.
Lemma cws_comm nd td mx s d1 d2 a e1 e2 x y :
  cws_apply nd td mx (cws_apply nd td mx s (mkWide d1 (mkMove (mkFace a e1) x)))
    (mkWide d2 (mkMove (mkFace a e2) y))
  = cws_apply nd td mx (cws_apply nd td mx s (mkWide d2 (mkMove (mkFace a e2) y)))
    (mkWide d1 (mkMove (mkFace a e1) x)).
Proof. exact (mo_set_comm cw_mover nd td  mx s d1 d2 a e1 e2 x y). Qed.

Ltac wide_comm :=
  intros; cbn [w_move]; f_equal;
  first [ exact (wa_comm _ corner_set_ok _ 0 0 _ _ _ _ _)
        | exact (wa_comm _ edge_set_ok _ 0 0 _ _ _ _ _)
        | apply wings_comm
        | apply ccs_comm
        | apply ces_comm
        | apply cws_comm ].

Lemma cube4_ok : wide_action_ok cube4_apply_wide.
Proof.
  split; intros [x0 x1 x2]; intros; unfold cube4_apply_wide; cbn [c4_corners c4_wings c4_centers].
  - wide_add.
  - wide_comm.
Qed.

Lemma cube5_ok : wide_action_ok cube5_apply_wide.
Proof.
  split; intros [x0 x1 x2 x3]; intros; unfold cube5_apply_wide;
    cbn [c5_corners c5_edges c5_center_corners c5_center_edges].
  - wide_add.
  - wide_comm.
Qed.

Lemma cube6_ok : wide_action_ok cube6_apply_wide.
Proof.
  split; intros [x0 x1 x2 x3 x4 x5]; intros; unfold cube6_apply_wide;
    cbn [c6_corners c6_wings_1 c6_wings_2 c6_center_corners_1 c6_center_corners_2
         c6_center_wings].
  - wide_add.
  - wide_comm.
Qed.

Lemma cube7_ok : wide_action_ok cube7_apply_wide.
Proof.
  split; intros [x0 x1 x2 x3 x4 x5 x6 x7 x8]; intros; unfold cube7_apply_wide;
    cbn [c7_corners c7_edges c7_wings_1 c7_wings_2 c7_center_corners_1 c7_center_corners_2
         c7_center_wings c7_center_edges_1 c7_center_edges_2].
  - wide_add.
  - wide_comm.
Qed.

Lemma apply_widened_eq {C} (app : C -> WideAxisMove -> C) mx c m :
  apply_widened app mx c m = app c (mkWide mx m).
Proof. unfold apply_widened. rewrite widen_to_done. reflexivity. Qed.

Lemma apply_widened_ok {C} (app : C -> WideAxisMove -> C) mx :
  wide_action_ok app -> move_action_ok (apply_widened app mx).
Proof.
  intros H; split; intros; rewrite !apply_widened_eq.
  - rewrite (wa_add _ H). destruct (amount_add x y); [rewrite apply_widened_eq|]; reflexivity.
  - apply (wa_comm _ H).
Qed.

Lemma apply_quarter_inverse {C} (app : C -> AxisMove -> C) :
  (forall c m, app (app c m) (move_inverse m) = c) ->
  forall c q, apply_quarter app (apply_quarter app c q) (quarter_inverse q) = c.
Proof.
  intros H c q. unfold apply_quarter.
  assert (E : move_of_quarter (quarter_inverse q) = move_inverse (move_of_quarter q))
    by (destruct q as [? []]; reflexivity).
  rewrite E. apply H.
Qed.

(** ** Every cube size *)

Lemma wide0_ok {C} (app : C -> AxisMove -> C) : move_action_ok app -> wide_action_ok (apply_wide0 app).
Proof.
  intros H; split; intros; unfold apply_wide0; cbn [w_move].
  - apply (ma_add _ H).
  - apply (ma_comm _ H).
Qed.

Lemma cube_apply_ok n : move_action_ok (cube_apply n).
Proof.
  destruct n; [apply cube2_ok|apply cube3_ok| | | |];
    apply apply_widened_ok; [apply cube4_ok|apply cube5_ok|apply cube6_ok|apply cube7_ok].
Qed.

Lemma cube_apply_wide_ok n : wide_action_ok (cube_apply_wide n).
Proof.
  destruct n; [apply wide0_ok, cube2_ok|apply wide0_ok, cube3_ok
              |apply cube4_ok|apply cube5_ok|apply cube6_ok|apply cube7_ok].
Qed.

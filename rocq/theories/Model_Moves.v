(** Model of moves, rotations and algs:
    /repo/barbarosa/src/cube_n/moves/{amount,mod,rotation,wide,quarter}.rs and
    /repo/barbarosa/src/generic/{moves,alg}.rs. *)

From Coq Require Import List Bool Arith NArith ZArith Lia.
From Verif Require Import Model_Base Model_Space.
Import ListNotations.

(* ------------------------------------------------------------------ *)
(** * Amounts *)

(** moves/amount.rs:9-13 [enum Amount]. *)
Inductive Amount := Single | Double | Inverse.

(** moves/amount.rs:7 derived [PartialEq]. *)
Definition amount_eqb (a b : Amount) : bool :=
  match a, b with
  | Single, Single | Double, Double | Inverse, Inverse => true
  | _, _ => false
  end.

(** moves/amount.rs:7 [Amount::iter()]. *)
Definition amount_iter : list Amount := [Single; Double; Inverse].

(** moves/amount.rs:9-13: discriminant [amount as u32]. *)
Definition amount_num (a : Amount) : nat :=
  match a with Single => 1 | Double => 2 | Inverse => 3 end.

(** moves/amount.rs:25-39 [Mul<Direction> for Amount]. *)
Definition amount_mul (a : Amount) (d : Direction) : Amount :=
  match a, d with
  | Single, Positive | Inverse, Negative => Single
  | Double, _ => Double
  | Inverse, Positive | Single, Negative => Inverse
  end.

(** moves/amount.rs:41-53 [Add for Amount]; the [unreachable!] arm is [Panic]. *)
Definition amount_add_o (a b : Amount) : outcome (option Amount) :=
  match (amount_num a + amount_num b) mod 4 with
  | 0 => Done None
  | 1 => Done (Some Single)
  | 2 => Done (Some Double)
  | 3 => Done (Some Inverse)
  | _ => Panic
  end.

(** Total version of [amount_add_o] (the panicking arm is unreachable, see
    [amount_add_o_done]). moves/amount.rs:41-53. *)
Definition amount_add (a b : Amount) : option Amount :=
  match amount_add_o a b with Done r => r | Panic => None end.

Lemma amount_add_o_done a b : amount_add_o a b = Done (amount_add a b).
Proof. destruct a, b; reflexivity. Qed.

(** moves/amount.rs:55-62 [From<Direction> for Amount]. *)
Definition amount_of_dir (d : Direction) : Amount :=
  match d with Positive => Single | Negative => Inverse end.

(* ------------------------------------------------------------------ *)
(** * Axis moves *)

(** moves/mod.rs:39-43 [struct AxisMove]. *)
Record AxisMove := mkMove { mv_face : Face; mv_amount : Amount }.

(** moves/mod.rs:38 derived [PartialEq]. *)
Definition move_eqb (a b : AxisMove) : bool :=
  face_eqb (mv_face a) (mv_face b) && amount_eqb (mv_amount a) (mv_amount b).

(** moves/mod.rs:53-60 [Move::inverse for AxisMove]. *)
Definition move_inverse (m : AxisMove) : AxisMove :=
  mkMove (mv_face m) (amount_mul (mv_amount m) Negative).

(** moves/mod.rs:66-82 [AxisMove::all] and 96-102 [AxisMove::iter]: axis outermost,
    then direction, then amount. The uninitialised array is not modelled. *)
Definition all_moves : list AxisMove :=
  flat_map (fun a =>
    flat_map (fun d =>
      map (fun am => mkMove (mkFace a d) am) amount_iter) direction_iter) axis_iter.

(* ------------------------------------------------------------------ *)
(** * Rotations *)

(** moves/rotation.rs:20-25 [struct AxisRotation]. *)
Record AxisRotation := mkRot { rot_axis : Axis; rot_amount : Amount }.

(** moves/rotation.rs:19 derived [PartialEq]. *)
Definition rot_eqb (a b : AxisRotation) : bool :=
  axis_eqb (rot_axis a) (rot_axis b) && amount_eqb (rot_amount a) (rot_amount b).

(** moves/rotation.rs:36-38 [flips_edge_orientation]. *)
Definition flips_edge_orientation (r : AxisRotation) (normal : Axis) : bool :=
  negb (amount_eqb (rot_amount r) Double) &&
  (axis_eqb (rot_axis r) AZ || axis_eqb (rot_axis r) normal).

(** moves/rotation.rs:41-46 [AxisRotation::inverse]. *)
Definition rot_inverse (r : AxisRotation) : AxisRotation :=
  mkRot (rot_axis r) (amount_mul (rot_amount r) Negative).

(** moves/rotation.rs:63-75 [Rotatable for Face]. *)
Definition rotate_face (f : Face) (r : AxisRotation) : Face :=
  if axis_eqb (face_axis f) (rot_axis r) then f
  else match rot_amount r with
       | Double => opposite f
       | Single => next_around f (rot_axis r)
       | Inverse => prev_around f (rot_axis r)
       end.

(** moves/rotation.rs:105-111 [rotate_vec2]. *)
Definition rotate_vec2 (a : Amount) (v : Vec2) : Vec2 :=
  match a with
  | Single => mkVec2 (v1 v) (dir_neg (v0 v))
  | Double => mkVec2 (dir_neg (v0 v)) (dir_neg (v1 v))
  | Inverse => mkVec2 (dir_neg (v1 v)) (v0 v)
  end.

(** moves/rotation.rs:77-83 [Rotatable for Vec3]. *)
Definition rotate_vec3 (v : Vec3) (r : AxisRotation) : Vec3 :=
  map_on_slice (rot_axis r) v (rotate_vec2 (rot_amount r)).

(** moves/rotation.rs:85-93 [Rotatable for Axis]. *)
Definition rotate_axis (a : Axis) (r : AxisRotation) : Axis :=
  if negb (amount_eqb (rot_amount r) Double) then
    match axis_other a (rot_axis r) with Some o => o | None => a end
  else a.

(** moves/rotation.rs:95-102 [From<&AxisMove> for AxisRotation]. *)
Definition rot_of_move (m : AxisMove) : AxisRotation :=
  mkRot (face_axis (mv_face m)) (amount_mul (mv_amount m) (face_dir (mv_face m))).

(** moves/rotation.rs:113-117 [Rotatable for AxisMove]. *)
Definition rotate_move (m : AxisMove) (r : AxisRotation) : AxisMove :=
  mkMove (rotate_face (mv_face m) r) (mv_amount m).

(** moves/rotation.rs:119-125 [Rotatable for Alg<AxisMove>]. *)
Definition rotate_alg (al : list AxisMove) (r : AxisRotation) : list AxisMove :=
  map (fun m => rotate_move m r) al.

(* ------------------------------------------------------------------ *)
(** * Wide moves *)

(** moves/wide.rs:26-32 [struct WideAxisMove<N>]. The const generic [N] is not a
    field; functions that use it take it as an argument. [u32] depths are
    binary naturals; the machine bound is stated where it matters. *)
Record WideAxisMove := mkWide { w_depth : N; w_move : AxisMove }.

(** moves/wide.rs:25 derived [PartialEq]. *)
Definition wide_eqb (a b : WideAxisMove) : bool :=
  N.eqb (w_depth a) (w_depth b) && move_eqb (w_move a) (w_move b).

(** moves/wide.rs:98-104 [WideMoveCreationError]. *)
Inductive WideMoveCreationError := ExcededDepth (given max : N).

(** moves/wide.rs:34-40 [Move::inverse for WideAxisMove]. *)
Definition wide_inverse (m : WideAxisMove) : WideAxisMove :=
  mkWide (w_depth m) (move_inverse (w_move m)).

(** moves/wide.rs:46-55 [WideAxisMove::<N>::new]. *)
Definition wide_new (n : N) (f : Face) (a : Amount) (depth : N)
  : result WideAxisMove WideMoveCreationError :=
  if N.ltb n depth then Err (ExcededDepth depth n)
  else Ok (mkWide depth (mkMove f a)).

(** moves/wide.rs:75-83 [set_depth]; returns the new value of [self] on success. *)
Definition wide_set_depth (n : N) (m : WideAxisMove) (depth : N)
  : result WideAxisMove WideMoveCreationError :=
  if N.ltb n depth then Err (ExcededDepth depth n)
  else Ok (mkWide depth (w_move m)).

(** moves/wide.rs:86-95 [set_max_depth::<M>]; the [transmute] between two instances
    of the same struct is the identity. *)
Definition wide_set_max_depth (new_max : N) (m : WideAxisMove)
  : result WideAxisMove WideMoveCreationError :=
  if N.ltb new_max (w_depth m) then Err (ExcededDepth (w_depth m) new_max)
  else Ok m.

(** moves/mod.rs:85-87 [AxisMove::widen::<N>]. *)
Definition move_widen (n : N) (m : AxisMove) (depth : N)
  : result WideAxisMove WideMoveCreationError :=
  wide_new n (mv_face m) (mv_amount m) depth.

(** moves/wide.rs:174-183 [Alg::widen]: collects into a [Result], stopping at the
    first error. *)
Fixpoint alg_widen (n : N) (al : list AxisMove) (depth : N)
  : result (list WideAxisMove) WideMoveCreationError :=
  match al with
  | [] => Ok []
  | m :: r =>
      bind_r (move_widen n m depth) (fun w =>
      bind_r (alg_widen n r depth) (fun ws => Ok (w :: ws)))
  end.

(** moves/wide.rs:161-168 sampling of [WideAxisMove<N>]: the RNG supplies the face,
    the amount and a depth in [0..=N]; [new] is unwrapped. *)
Definition wide_sample (n : N) (f : Face) (a : Amount) (depth : N) : outcome WideAxisMove :=
  match wide_new n f a depth with Ok w => Done w | Err _ => Panic end.

(* ------------------------------------------------------------------ *)
(** * Quarter moves *)

(** moves/quarter.rs:15-21 [struct QuarterAxisMove]. *)
Record QuarterAxisMove := mkQuarter { q_face : Face; q_dir : Direction }.

(** moves/quarter.rs:23-30 [inverse]. *)
Definition quarter_inverse (q : QuarterAxisMove) : QuarterAxisMove :=
  mkQuarter (q_face q) (dir_neg (q_dir q)).

(** moves/quarter.rs:39-49 [From<&QuarterAxisMove> for AxisMove]. *)
Definition move_of_quarter (q : QuarterAxisMove) : AxisMove :=
  mkMove (q_face q) (match q_dir q with Positive => Single | Negative => Inverse end).

(** moves/quarter.rs:57-78 [From<Alg<AxisMove>> for Alg<QuarterAxisMove>]: the loop
    body, then the loop. *)
Definition quarters_of_move (m : AxisMove) : list QuarterAxisMove :=
  match mv_amount m with
  | Single => [mkQuarter (mv_face m) Positive]
  | Inverse => [mkQuarter (mv_face m) Negative]
  | Double => [mkQuarter (mv_face m) Positive; mkQuarter (mv_face m) Positive]
  end.
(** moves/quarter.rs:57-78: the loop over the alg. *)
Definition quarter_alg (al : list AxisMove) : list QuarterAxisMove :=
  flat_map quarters_of_move al.

(* ------------------------------------------------------------------ *)
(** * Algs *)

(** generic/alg.rs:39-42 [Alg::reversed], for any move type. *)
Definition alg_reversed {M} (inv : M -> M) (al : list M) : list M := map inv (rev al).

(** generic/alg.rs:146-152 [Movable<[M]>]: apply the moves one after the other. *)
Definition apply_alg {C M} (app : C -> M -> C) (c : C) (al : list M) : C :=
  fold_left app al c.

(** The same when a move may panic (used for [Orientable]). generic/alg.rs:146-152. *)
Fixpoint apply_alg_o {C M} (app : C -> M -> outcome C) (c : C) (al : list M) : outcome C :=
  match al with
  | [] => Done c
  | m :: r => bind_o (app c m) (fun c' => apply_alg_o app c' r)
  end.

(** generic/moves.rs:67-72 [connect]. *)
Definition connect {C M} (iter : list M) (app : C -> M -> C) (eqb : C -> C -> bool)
  (from to : C) : option M :=
  find_first (fun m => eqb (app from m) to) iter.

(** generic/alg.rs:118-121 [TryFromStatesError]. *)
Inductive TryFromStatesError (C : Type) := NotConnected (from to : C).
Arguments NotConnected {C} from to.

(** generic/alg.rs:86-103 [Alg::try_from_states]: walks over consecutive pairs
    ([windows(2)]) and collects into a [Result]. *)
Fixpoint try_from_states {C M} (iter : list M) (app : C -> M -> C) (eqb : C -> C -> bool)
  (states : list C) : result (list M) (TryFromStatesError C) :=
  match states with
  | from :: ((to :: _) as rest) =>
      match connect iter app eqb from to with
      | None => Err (NotConnected from to)
      | Some m =>
          bind_r (try_from_states iter app eqb rest) (fun ms => Ok (m :: ms))
      end
  | _ => Ok []
  end.

(* ------------------------------------------------------------------ *)
(** * Equality and enumeration lemmas *)

Lemma amount_eqb_eq a b : amount_eqb a b = true <-> a = b.
Proof. destruct a, b; cbv; split; congruence. Qed.

Lemma move_eqb_eq a b : move_eqb a b = true <-> a = b.
Proof.
  unfold move_eqb; rewrite andb_true_iff, face_eqb_eq, amount_eqb_eq.
  destruct a, b; simpl; split; [intros [-> ->]|intros [= -> ->]]; auto.
Qed.

Lemma rot_eqb_eq a b : rot_eqb a b = true <-> a = b.
Proof.
  unfold rot_eqb; rewrite andb_true_iff, axis_eqb_eq, amount_eqb_eq.
  destruct a, b; simpl; split; [intros [-> ->]|intros [= -> ->]]; auto.
Qed.

Lemma wide_eqb_eq a b : wide_eqb a b = true <-> a = b.
Proof.
  unfold wide_eqb; rewrite andb_true_iff, N.eqb_eq, move_eqb_eq.
  destruct a, b; simpl; split; [intros [-> ->]|intros [= -> ->]]; auto.
Qed.

Lemma all_moves_complete m : In m all_moves.
Proof. destruct m as [[[] []] []]; cbv; tauto. Qed.

Lemma move_inverse_involutive m : move_inverse (move_inverse m) = m.
Proof. destruct m as [[[] []] []]; reflexivity. Qed.

Lemma apply_alg_app {C M} (app : C -> M -> C) c a b :
  apply_alg app c (a ++ b) = apply_alg app (apply_alg app c a) b.
Proof. apply fold_left_app. Qed.

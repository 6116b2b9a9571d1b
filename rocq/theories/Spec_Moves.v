(** Specification vocabulary for moves and algs, independent of how the code works. *)

From Coq Require Import List Arith.
From Verif Require Import Model_Space Model_Moves.
Import ListNotations.

(** Number of clockwise quarter turns of an amount. *)
Definition quarter_turns (a : Amount) : nat :=
  match a with Single => 1 | Double => 2 | Inverse => 3 end.

(** Do something [n] times. *)
Fixpoint times {A} (n : nat) (f : A -> A) (x : A) : A :=
  match n with 0 => x | S n => f (times n f x) end.

(** [l] occurs as consecutive elements of [al]. *)
Definition segment {T} (l al : list T) : Prop := exists before after, al = before ++ l ++ after.

(** No two consecutive moves turn the same face. *)
Definition no_repeated_face (al : list AxisMove) : Prop :=
  forall m1 m2, segment [m1; m2] al -> mv_face m1 <> mv_face m2.

(** No three consecutive moves turn around the same axis. *)
Definition no_three_on_axis (al : list AxisMove) : Prop :=
  forall m1 m2 m3, segment [m1; m2; m3] al ->
    ~ (face_axis (mv_face m1) = face_axis (mv_face m2) /\
       face_axis (mv_face m2) = face_axis (mv_face m3)).

(** An alg without obvious redundancy. *)
Definition irredundant (al : list AxisMove) : Prop := no_repeated_face al /\ no_three_on_axis al.

(** Two algs have the same effect with respect to a way of applying moves. *)
Definition same_effect {C M1 M2} (app1 : C -> M1 -> C) (app2 : C -> M2 -> C)
  (a1 : list M1) (a2 : list M2) : Prop :=
  forall c, fold_left app1 a1 c = fold_left app2 a2 c.

(** Total quarter turns of face [f] in an alg. *)
Fixpoint face_turns (f : Face) (al : list AxisMove) : nat :=
  match al with
  | [] => 0
  | m :: r => (if face_eqb (mv_face m) f then quarter_turns (mv_amount m) else 0) + face_turns f r
  end.

(** In no run of consecutive moves around one axis do the turns of a face that occurs
    cancel out completely. *)
Definition no_cancellation (al : list AxisMove) : Prop :=
  forall seg f, segment seg al ->
    (forall m, In m seg -> face_axis (mv_face m) = face_axis f) ->
    (exists m, In m seg /\ mv_face m = f) ->
    face_turns f seg mod 4 <> 0.

(** Of two consecutive moves around the same axis the first turns the positive face (R, U
    or F). *)
Definition positive_first (al : list AxisMove) : Prop :=
  forall m1 m2, segment [m1; m2] al ->
    face_axis (mv_face m1) = face_axis (mv_face m2) -> face_dir (mv_face m1) = Positive.

(** Of two consecutive moves around the same axis the first turns the negative face (L, D
    or B). *)
Definition negative_first (al : list AxisMove) : Prop :=
  forall m1 m2, segment [m1; m2] al ->
    face_axis (mv_face m1) = face_axis (mv_face m2) -> face_dir (mv_face m1) = Negative.

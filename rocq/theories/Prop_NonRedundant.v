(** C63: [NonRedundantAxisMove::all], [of_axis] and [given_last_axis] list every simultaneous turn
    of parallel faces once. *)

From Coq Require Import List Bool Arith Lia.
From Verif Require Import Model_Base Model_Space Model_Moves Model_Pieces Model_PieceSet Model_Cubes Model_NonRedundant
  Spec_Moves Spec_Sets Proof_Sets Proof_NonRedundant Prop_Moves Prop_Connect.
Import ListNotations.

(** ** The lists *)

Definition nr_eqb (a b : NRMove) : bool :=
  match a, b with
  | NRSingle m, NRSingle m' => move_eqb m m'
  | NRDouble x p q, NRDouble x' p' q' => axis_eqb x x' && amount_eqb p p' && amount_eqb q q'
  | _, _ => false
  end.
Lemma nr_eqb_eq a b : nr_eqb a b = true <-> a = b.
Proof.
  destruct a as [m|x p q], b as [m'|x' p' q']; cbn; try (split; discriminate).
  - rewrite move_eqb_eq. split; congruence.
  - destruct x, x', p, p', q, q'; cbn; split; congruence.
Qed.
Fixpoint nodupb {T} (eqb : T -> T -> bool) (l : list T) : bool :=
  match l with [] => true | x :: r => negb (existsb (eqb x) r) && nodupb eqb r end.
Lemma nodupb_ok {T} (eqb : T -> T -> bool) : (forall a, eqb a a = true) -> forall l, nodupb eqb l = true -> NoDup l.
Proof.
  intros R l. induction l as [|x r IH]; intros H; [constructor|]. cbn in H. apply andb_prop in H as [H1 H2]. constructor; [|auto].
  intros I. apply negb_true_iff in H1. assert (existsb (eqb x) r = true) by (apply existsb_exists; eauto). congruence.
Qed.
Lemma nr_refl a : nr_eqb a a = true. Proof. apply nr_eqb_eq. reflexivity. Qed.

(** [all] lists every non-redundant move once (45 of them), [of_axis] those of one axis (15) and
    [given_last_axis] those of the other two axes (30). *)
Theorem C63_lists :
  (NoDup nr_all /\ length nr_all = 45 /\ forall m, In m nr_all) /\
  (forall a, NoDup (nr_of_axis a) /\ length (nr_of_axis a) = 15 /\ forall m, In m (nr_of_axis a) <-> nr_axis m = a) /\
  (forall a, NoDup (given_last_axis a) /\ length (given_last_axis a) = 30 /\ forall m, In m (given_last_axis a) <-> nr_axis m <> a).
Proof.
  split; [|split].
  - split; [apply (nodupb_ok nr_eqb nr_refl); vm_compute; reflexivity|]. split; [reflexivity|].
    intros [[[[] []] []]|[] [] []]; vm_compute; tauto.
  - intros a. split; [apply (nodupb_ok nr_eqb nr_refl); destruct a; vm_compute; reflexivity|]. split; [destruct a; reflexivity|].
    intros m. split.
    + intros H. destruct a; vm_compute in H; repeat destruct H as [<-|H]; try reflexivity; destruct H.
    + intros <-. destruct m as [[[[] []] []]|[] [] []]; vm_compute; tauto.
  - intros a. split; [apply (nodupb_ok nr_eqb nr_refl); destruct a; vm_compute; reflexivity|]. split; [destruct a; reflexivity|].
    intros m. split.
    + intros H. destruct a; vm_compute in H; repeat destruct H as [<-|H]; try discriminate; destruct H.
    + intros H. destruct a, m as [[[[] []] []]|[] [] []]; try (exfalso; apply H; reflexivity); vm_compute; tauto.
Qed.

(** ** Different moves have different effects *)

Definition corner_run (x : Corner) (ms : list AxisMove) : Corner := fold_left corner_apply ms x.
Lemma corners_of_run n ms : forall c, corners_of n (fold_left (cube_apply n) ms c) = map (fun x => corner_run x ms) (corners_of n c).
Proof.
  induction ms as [|m ms IH]; intros c; cbn [fold_left]; [symmetry; apply map_id|]. rewrite IH, corners_of_apply, map_map. reflexivity.
Qed.
Definition takes_apart (ms ms' : list AxisMove) (p : Vec3) : bool :=
  forallb (fun a => negb (corner_eqb (corner_run (mkCorner p a) ms) (corner_run (mkCorner p a) ms'))) [AX; AY; AZ].
Lemma takes_apart_ok n c ms ms' p : cube_well_formed n c -> takes_apart ms ms' p = true ->
  fold_left (cube_apply n) ms c <> fold_left (cube_apply n) ms' c.
Proof.
  intros W T E. destruct (proj2 (corners_of_wf n c W) p) as (i & [q a] & Hi & Pq & _). cbn in Pq. subst q.
  apply (f_equal (corners_of n)) in E. rewrite !corners_of_run in E.
  apply (f_equal (fun l => nth_error l i)) in E. rewrite !nth_error_map, Hi in E. cbn [option_map] in E. injection E as E.
  unfold takes_apart in T. rewrite forallb_forall in T. specialize (T a ltac:(destruct a; cbn; auto)).
  rewrite (proj2 (corner_eqb_eq _ _) E) in T. discriminate.
Qed.
Lemma nr_apart : forallb (fun m => existsb (takes_apart (nr_moves m) []) corner_reference &&
  forallb (fun m' => nr_eqb m m' || existsb (takes_apart (nr_moves m) (nr_moves m')) corner_reference) nr_all) nr_all = true.
Proof. vm_compute. reflexivity. Qed.

(** On every cube of every size with its pieces in place, every move of the list changes the
    cube and two different moves of the list lead to different cubes. *)
Theorem C63_effects_differ : forall (n : CubeSize) (c : CubeOf n), cube_well_formed n c ->
  (forall m, apply_nr (cube_apply n) c m <> c) /\
  (forall m m', apply_nr (cube_apply n) c m = apply_nr (cube_apply n) c m' -> m = m').
Proof.
  intros n c W. pose proof nr_apart as A. rewrite forallb_forall in A. split.
  - intros m E. specialize (A m (proj2 (proj2 (proj1 C63_lists)) m)). apply andb_prop in A as [A _].
    apply existsb_exists in A as (p & _ & A). exact (takes_apart_ok n c (nr_moves m) [] p W A E).
  - intros m m' E. specialize (A m (proj2 (proj2 (proj1 C63_lists)) m)). apply andb_prop in A as [_ A].
    rewrite forallb_forall in A. specialize (A m' (proj2 (proj2 (proj1 C63_lists)) m')). apply orb_prop in A as [A|A]; [apply nr_eqb_eq, A|].
    apply existsb_exists in A as (p & _ & A). destruct (takes_apart_ok n c (nr_moves m) (nr_moves m') p W A E).
Qed.

(** ** Every sequence of turns is a sequence of such moves *)

(** All moves of the alg are on the axis. *)
Definition on_axis (a : Axis) (al : list AxisMove) : Prop := Forall (fun m => face_axis (mv_face m) = a) al.
(** No two neighbours of the alg are on the same axis. *)
Definition axes_change (al : list NRMove) : Prop := forall m1 m2, segment [m1; m2] al -> nr_axis m1 <> nr_axis m2.

Lemma run_acc_moves n o c : run_acc (cube_apply n) o c = match o with None => c | Some m => apply_nr (cube_apply n) c m end.
Proof. destruct o; reflexivity. Qed.
Lemma absorve_axis a acc m : match acc with None => True | Some nr => nr_axis nr = a end -> face_axis (mv_face m) = a ->
  match fst (absorve acc m) with None => True | Some nr => nr_axis nr = a end /\ snd (absorve acc m) <> NotAdded.
Proof.
  intros H E. split.
  - destruct acc as [[[[a0 d0] x0]|a0 p q]|], m as [[a1 d1] x1]; cbn in H, E; subst; destruct a; cbn;
      try reflexivity; destruct d1; try destruct d0; try destruct x0; try destruct p; try destruct q; destruct x1; cbn; trivial.
  - intros N. apply (proj1 (C21_absorve_not_added acc m)) in N as (nr & -> & N). congruence.
Qed.

(** Turns of one axis together have no effect or the effect of exactly one move of [of_axis]. *)
Theorem C63_axis_runs : forall (a : Axis) (al : list AxisMove), on_axis a al ->
  (forall (n : CubeSize) (c : CubeOf n), fold_left (cube_apply n) al c = c) \/
  (exists m, In m (nr_of_axis a) /\ forall (n : CubeSize) (c : CubeOf n), fold_left (cube_apply n) al c = apply_nr (cube_apply n) c m).
Proof.
  intros a al H.
  assert (K : exists acc, match acc with None => True | Some nr => nr_axis nr = a end /\
    forall n c, fold_left (cube_apply n) al c = run_acc (cube_apply n) acc c).
  { induction al as [|m al IH] using rev_ind; [exists None; split; [exact I|reflexivity]|].
    apply Forall_app in H as [H1 H2]. destruct (IH H1) as (acc & A & E). inversion H2; subst.
    destruct (absorve acc m) as [acc' r] eqn:Q. pose proof (absorve_axis _ acc m A eq_refl) as [A' N]. rewrite Q in A', N. cbn [fst snd] in A', N.
    exists acc'. split; [exact A'|]. intros n c. rewrite fold_left_app. cbn [fold_left]. rewrite E.
    symmetry. apply (C21_absorve_effect acc m acc' r Q N n c). }
  destruct K as ([m|] & A & E); [right|left].
  - exists m. split; [apply C63_lists, A|]. intros n c. rewrite E. apply run_acc_moves.
  - intros n c. apply E.
Qed.

Lemma nr_alg_run n nl : forall c, fold_left (apply_nr (cube_apply n)) nl c = fold_left (cube_apply n) (nr_alg nl) c.
Proof.
  induction nl as [|m nl IH]; intros c; [reflexivity|]. cbn [fold_left nr_alg flat_map]. unfold nr_alg in *. rewrite fold_left_app, <- IH. reflexivity.
Qed.
Lemma axes_change_cons m nl : axes_change nl -> match nl with [] => True | m2 :: _ => nr_axis m <> nr_axis m2 end -> axes_change (m :: nl).
Proof.
  intros H K m1 m2 (b & r & E). destruct b as [|x b].
  - cbn in E. injection E as <- ->. exact K.
  - cbn in E. injection E as <- ->. apply H. exists b, r. reflexivity.
Qed.
Lemma axes_change_tail m nl : axes_change (m :: nl) -> axes_change nl.
Proof. intros H m1 m2 (b & r & E). apply H. exists (m :: b), r. rewrite E. reflexivity. Qed.

(** Every alg has the effect of a sequence of non-redundant moves in which the axis changes at
    every step, and which has no more moves than the alg. *)
Theorem C63_every_alg : forall al : list AxisMove, exists nl : list NRMove,
  axes_change nl /\ length nl <= length al /\
  forall (n : CubeSize) (c : CubeOf n), fold_left (apply_nr (cube_apply n)) nl c = fold_left (cube_apply n) al c.
Proof.
  induction al as [|m al (nl & A & L & E)].
  - exists []. split; [|split; [cbn; lia|reflexivity]]. intros m1 m2 (b & r & E). destruct b; discriminate.
  - assert (D : match nl with [] => True | m2 :: _ => face_axis (mv_face m) <> nr_axis m2 end \/
      exists m2 r, nl = m2 :: r /\ nr_axis m2 = face_axis (mv_face m)).
    { destruct nl as [|m2 r]; [left; exact I|]. destruct (axis_eqb (nr_axis m2) (face_axis (mv_face m))) eqn:Q.
      - right. exists m2, r. split; [reflexivity|apply axis_eqb_eq, Q].
      - left. intros K. rewrite <- K in Q. destruct (face_axis (mv_face m)); discriminate. }
    destruct D as [D|(m2 & r & -> & D)].
    + exists (NRSingle m :: nl). split; [apply axes_change_cons; [exact A|exact D]|]. split; [cbn; lia|].
      intros n c. cbn [fold_left]. rewrite E. reflexivity.
    + assert (O : on_axis (face_axis (mv_face m)) (m :: nr_moves m2)).
      { constructor; [reflexivity|]. destruct m2 as [x|a p q]; cbn in D |- *; repeat constructor; cbn; assumption. }
      destruct (C63_axis_runs _ _ O) as [Z|(m' & I' & Z)].
      * exists r. split; [exact (axes_change_tail _ _ A)|]. split; [cbn in L |- *; lia|].
        intros n c. cbn [fold_left]. rewrite <- E. cbn [fold_left]. f_equal. exact (eq_sym (Z n c)).
      * exists (m' :: r). apply C63_lists in I'. split; [|split; [cbn in L |- *; lia|]].
        -- apply axes_change_cons; [exact (axes_change_tail _ _ A)|]. destruct r as [|m3 r]; [exact I|].
           rewrite I', <- D. apply A. exists [], r. reflexivity.
        -- intros n c. cbn [fold_left]. rewrite <- E. cbn [fold_left]. f_equal. exact (eq_sym (Z n c)).
Qed.

Example C63_example : exists m, In m (nr_of_axis AX) /\
  fold_left (cube_apply Size3) [mkMove fR Single; mkMove fL Double; mkMove fR Single] (cube_solved Size3) =
    apply_nr (cube_apply Size3) (cube_solved Size3) m /\ m = NRDouble AX Double Double /\ cube_well_formed Size3 (cube_solved Size3).
Proof.
  exists (NRDouble AX Double Double). split; [vm_compute; tauto|]. split; [vm_compute; reflexivity|]. split; [reflexivity|].
  apply cube_well_formed_solved.
Qed.
Print Assumptions C63_lists.
Print Assumptions C63_effects_differ.
Print Assumptions C63_axis_runs.
Print Assumptions C63_every_alg.

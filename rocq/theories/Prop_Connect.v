(** C44: [connect] and [try_from_states] recover the moves played. *)

From Coq Require Import List Bool Arith Lia.
From Verif Require Import Model_Base Model_Space Model_Moves Model_Pieces Model_PieceSet Model_Cubes
  Model_Connect Spec_Sets Proof_Sets.
Import ListNotations.

(** The states passed through while playing an alg, the starting state included. *)
Fixpoint states_played (n : CubeSize) (c : CubeOf n) (al : list AxisMove) : list (CubeOf n) :=
  match al with
  | [] => [c]
  | m :: r => c :: states_played n (cube_apply n c m) r
  end.

(** A cube determines its corners; they move by [corner_apply]. *)
Definition corners_of (n : CubeSize) : CubeOf n -> list Corner :=
  match n with
  | Size2 => c2_corners | Size3 => c3_corners | Size4 => c4_corners
  | Size5 => c5_corners | Size6 => c6_corners | Size7 => c7_corners
  end.

Lemma corners_of_apply n c m : corners_of n (cube_apply n c m) = map (fun x => corner_apply x m) (corners_of n c).
Proof.
  destruct n; cbn; unfold cube4_apply, cube5_apply, cube6_apply, cube7_apply, apply_widened;
    rewrite ?widen_to_done; reflexivity.
Qed.

Lemma corners_of_wf n c : cube_well_formed n c -> one_piece_everywhere corner_desc (corners_of n c).
Proof. destruct n; cbn; tauto. Qed.

(** Two different moves take some corner position apart, whatever the orientation of the
    corner there. *)
Lemma moves_differ m m' : m <> m' ->
  exists p, forall a, corner_apply (mkCorner p a) m <> corner_apply (mkCorner p a) m'.
Proof.
  intros Ne.
  assert (E : existsb (fun p => forallb (fun a =>
    negb (corner_eqb (corner_apply (mkCorner p a) m) (corner_apply (mkCorner p a) m'))) [AX; AY; AZ])
    corner_reference = true).
  { destruct m as [[[] []] []], m' as [[[] []] []]; try reflexivity; exfalso; apply Ne; reflexivity. }
  apply existsb_exists in E. destruct E as (p & _ & E). exists p. intros a Ha.
  rewrite forallb_forall in E. specialize (E a ltac:(destruct a; cbn; auto)).
  rewrite (proj2 (corner_eqb_eq _ _) Ha) in E. discriminate.
Qed.

Lemma apply_injective n c m m' : cube_well_formed n c -> cube_apply n c m = cube_apply n c m' -> m = m'.
Proof.
  intros W E. destruct (move_eqb m m') eqn:Em; [apply move_eqb_eq, Em|].
  assert (Ne : m <> m') by (intros ->; rewrite (proj2 (move_eqb_eq m' m') eq_refl) in Em; discriminate).
  apply moves_differ in Ne. destruct Ne as (p & Hp). exfalso.
  destruct (proj2 (corners_of_wf n c W) p) as (i & [q a] & Hi & Pq & _). cbn in Pq. subst q.
  apply (Hp a). apply (f_equal (corners_of n)) in E. rewrite !corners_of_apply in E.
  apply (f_equal (fun l => nth_error l i)) in E. rewrite !nth_error_map, Hi in E. cbn in E.
  injection E as E. exact E.
Qed.

Theorem C44_connect_some : forall (n : CubeSize) (a b : CubeOf n) (m : AxisMove),
  cube_connect n a b = Some m -> cube_apply n a m = b.
Proof.
  intros n a b m H. apply find_first_Some in H. apply cube_eqb_eq, H.
Qed.

Theorem C44_connect_none : forall (n : CubeSize) (a b : CubeOf n),
  cube_connect n a b = None <-> ~ exists m, cube_apply n a m = b.
Proof.
  intros n a b. unfold cube_connect, connect. rewrite find_first_None. split.
  - intros H (m & E). specialize (H m (all_moves_complete m)). cbv beta in H.
    rewrite (proj2 (cube_eqb_eq n _ _) E) in H. discriminate.
  - intros H m _. destruct (cube_eqb n (cube_apply n a m) b) eqn:E; [|reflexivity].
    exfalso. apply H. exists m. apply cube_eqb_eq, E.
Qed.

(** On a valid cube of any size the move that was played is found again. *)
Theorem C44_connect_recovers : forall (n : CubeSize) (c : CubeOf n) (m : AxisMove),
  cube_well_formed n c -> cube_connect n c (cube_apply n c m) = Some m.
Proof.
  intros n c m W. destruct (cube_connect n c (cube_apply n c m)) as [m'|] eqn:E.
  - f_equal. apply (apply_injective n c); [exact W|]. apply C44_connect_some, E.
  - exfalso. apply C44_connect_none in E. apply E. exists m. reflexivity.
Qed.

(** The states of a played alg give back the alg. *)
Theorem C44_states_recover : forall (n : CubeSize) (c : CubeOf n) (al : list AxisMove),
  cube_well_formed n c -> cube_try_from_states n (states_played n c al) = Ok al.
Proof.
  intros n c al. revert c. induction al as [|m al IH]; intros c W; [reflexivity|].
  unfold cube_try_from_states in *.
  assert (F : exists r, states_played n (cube_apply n c m) al = cube_apply n c m :: r).
  { destruct al; cbn; eauto. }
  destruct F as (r & F). specialize (IH (cube_apply n c m) (cube_well_formed_move n c m W)).
  cbn [states_played]. rewrite F in *. cbn [try_from_states].
  pose proof (C44_connect_recovers n c m W) as R. unfold cube_connect in R. rewrite R.
  cbn [try_from_states] in IH. rewrite IH. reflexivity.
Qed.

Lemma try_cons n (a b : CubeOf n) r : cube_try_from_states n (a :: b :: r) =
  match cube_connect n a b with
  | None => Err (NotConnected a b)
  | Some m => bind_r (cube_try_from_states n (b :: r)) (fun ms => Ok (m :: ms))
  end.
Proof. reflexivity. Qed.

(** Whatever the list of states: an alg is returned exactly when some alg passes through
    these states, and then the returned one does; otherwise two consecutive states that
    no move connects are reported. *)
Theorem C44_states_ok : forall (n : CubeSize) (states : list (CubeOf n)) (al : list AxisMove),
  cube_try_from_states n states = Ok al ->
  match states with [] => al = [] | c :: _ => states = states_played n c al end.
Proof.
  intros n states.
  induction states as [|a states IH]; intros al H; [injection H as <-; reflexivity|].
  destruct states as [|b rest]; [injection H as <-; reflexivity|].
  rewrite try_cons in H.
  destruct (cube_connect n a b) as [m|] eqn:E; [|discriminate].
  destruct (cube_try_from_states n (b :: rest)) as [ms|e] eqn:T; [|discriminate].
  cbn in H. injection H as <-. cbn [states_played]. rewrite (C44_connect_some n a b m E).
  f_equal. exact (IH ms eq_refl).
Qed.

Theorem C44_states_err : forall (n : CubeSize) (states : list (CubeOf n)) (a b : CubeOf n),
  cube_try_from_states n states = Err (NotConnected a b) ->
  (exists before after, states = before ++ a :: b :: after) /\ ~ exists m, cube_apply n a m = b.
Proof.
  intros n states a b.
  induction states as [|x states IH]; intros H; [discriminate|].
  destruct states as [|y rest]; [discriminate|].
  rewrite try_cons in H.
  destruct (cube_connect n x y) as [m|] eqn:E.
  - destruct (cube_try_from_states n (y :: rest)) as [ms|e] eqn:T; [discriminate|].
    cbn in H. injection H as ->. destruct (IH eq_refl) as ((before & after & ->) & N).
    split; [exists (x :: before), after; reflexivity|exact N].
  - injection H as -> ->. split; [exists [], rest; reflexivity|].
    apply C44_connect_none, E.
Qed.

(** The pair that is reported is the first one that no move connects. *)
Theorem C44_states_first : forall (n : CubeSize) (states : list (CubeOf n)) (a b : CubeOf n),
  cube_try_from_states n states = Err (NotConnected a b) <->
  exists before after, states = before ++ a :: b :: after /\ (~ exists m, cube_apply n a m = b) /\
    forall i x y, nth_error (before ++ [a]) i = Some x -> nth_error (before ++ [a]) (S i) = Some y ->
      exists m, cube_apply n x m = y.
Proof.
  intros n states a b. induction states as [|x states IH].
  - split; [discriminate|]. intros ([|z before] & after & E & _); discriminate E.
  - destruct states as [|y rest].
    + split; [discriminate|]. intros ([|z [|z' before]] & after & E & _); discriminate E.
    + rewrite try_cons. destruct (cube_connect n x y) as [m|] eqn:E.
      * assert (X : bind_r (cube_try_from_states n (y :: rest)) (fun ms => Ok (m :: ms)) = Err (NotConnected a b) <->
                    cube_try_from_states n (y :: rest) = Err (NotConnected a b)).
        { destruct (cube_try_from_states n (y :: rest)); cbn [bind_r]; split; intros H; try discriminate H; exact H. }
        rewrite X, IH. clear X IH. split.
        -- intros (before & after & R & N & P). exists (x :: before), after. split; [rewrite R; reflexivity|]. split; [exact N|].
           intros [|i] u v U V; [|exact (P i u v U V)]. cbn in U. injection U as <-. cbn [app nth_error] in V.
           assert (v = y) as -> by (destruct before; cbn in R, V; congruence). exists m. apply C44_connect_some, E.
        -- intros (before & after & R & N & P). destruct before as [|z before]; [injection R as -> -> _|injection R as -> R].
           ++ destruct N. exists m. apply C44_connect_some, E.
           ++ exists before, after. split; [exact R|]. split; [exact N|]. intros i. exact (P (S i)).
      * split.
        -- intros H. injection H as -> ->. exists [], rest. split; [reflexivity|]. split; [apply C44_connect_none, E|].
           intros [|i] u v U V; [discriminate V|destruct i; discriminate V].
        -- intros (before & after & R & N & P). destruct before as [|z before]; [injection R as -> -> _|injection R as -> R].
           ++ reflexivity.
           ++ exfalso. apply C44_connect_none in E. apply E, (P 0 z y); [reflexivity|]. destruct before; cbn in R |- *; congruence.
Qed.

(** Unconnected states exist: a half turn of two faces is no single move. *)
Example C44_example :
  let c := cube_apply Size3 (cube_solved Size3) (mkMove fR Single) in
  let d := cube_apply Size3 c (mkMove fU Inverse) in
  cube_connect Size3 c d = Some (mkMove fU Inverse) /\
  cube_connect Size3 (cube_solved Size3) d = None /\
  cube_try_from_states Size3 [cube_solved Size3; c; d] = Ok [mkMove fR Single; mkMove fU Inverse] /\
  (forall n, cube_well_formed n (cube_solved n)).
Proof. repeat split; try (vm_compute; reflexivity). apply cube_well_formed_solved. Qed.

Print Assumptions C44_connect_some.
Print Assumptions C44_connect_none.
Print Assumptions C44_connect_recovers.
Print Assumptions C44_states_recover.
Print Assumptions C44_states_ok.
Print Assumptions C44_states_err.
Print Assumptions C44_states_first.

(** C94: the list of all moves, and the successors of a cube. *)

From Coq Require Import List Bool Arith NArith ZArith Lia.
From Verif Require Import Model_Base Model_Space Model_Moves Model_Pieces Model_PieceSet Model_Cubes Model_All
  Spec_Moves Spec_Sets Proof_Moves Proof_Sets Prop_Words.
Import ListNotations.
Open Scope nat_scope.

(** Every move is there once: 18 moves, none of them twice, and no slot is read that was not written. *)
Theorem C94_all : exists moves, axis_move_all = Done (Initialised moves) /\
  length moves = 18 /\ NoDup moves /\ forall m, In m moves.
Proof.
  exists all_moves. split; [reflexivity|]. split; [reflexivity|]. split; [|exact all_moves_complete].
  unfold all_moves. cbn. repeat (constructor; [cbn; intuition discriminate|]). constructor.
Qed.

(** The rest of the model uses the same list. *)
Theorem C94_same : axis_move_all = Done (Initialised all_moves).
Proof. reflexivity. Qed.

(** The slots are written in order: before the [i]-th one is written, exactly the ones before it have been. *)
Theorem C94_in_order : forall i, i <= 18 -> exists written,
  write_moves 0 (firstn i move_product) uninit_moves = Done (map Some written ++ repeat None (18 - i)) /\
  written = firstn i all_moves.
Proof.
  intros i L. exists (firstn i all_moves). split; [|reflexivity].
  do 19 (destruct i as [|i]; [reflexivity|]). lia.
Qed.

(** The successors of a cube are the 18 cubes after one move, each with its move. *)
Theorem C94_successors : forall (c c' : Cube3) (m : AxisMove),
  In (c', m) (cube3_successors c) <-> c' = cube3_apply c m.
Proof.
  intros c c' m. unfold cube3_successors. rewrite in_map_iff. split.
  - intros (x & [= <- <-] & _). reflexivity.
  - intros ->. exists m. split; [reflexivity|apply all_moves_complete].
Qed.

(** They are 18 different valid cubes, none of which is the cube itself. *)
Theorem C94_successors_differ : forall c : Cube3, cube_well_formed Size3 c ->
  length (cube3_successors c) = 18 /\ NoDup (map fst (cube3_successors c)) /\ ~ In c (map fst (cube3_successors c)) /\
  Forall (cube_well_formed Size3) (map fst (cube3_successors c)).
Proof.
  intros c W. unfold cube3_successors. rewrite map_length, map_map. cbn [fst]. split; [reflexivity|]. split; [|split].
  - destruct C94_all as (ms & E & _ & ND & _). rewrite C94_same in E. injection E as <-.
    induction ND as [|m ms NI ND IH]; [constructor|]. cbn [map]. constructor; [|exact IH].
    rewrite in_map_iff. intros (m' & E & I). apply NI. destruct (C82_distinct_plain Size3 c m' m W) as [D _]. apply D in E. subst m'. exact I.
  - rewrite in_map_iff. intros (m & E & _). destruct (C82_distinct_plain Size3 c m m W) as [_ D]. exact (D E).
  - apply Forall_forall. intros x I. apply in_map_iff in I. destruct I as (m & <- & _). exact (cube_well_formed_move Size3 c m W).
Qed.

(** Being a successor goes both ways. *)
Theorem C94_successors_symmetric : forall c c' : Cube3,
  In c' (map fst (cube3_successors c)) <-> In c (map fst (cube3_successors c')).
Proof.
  assert (H : forall c c', In c' (map fst (cube3_successors c)) -> In c (map fst (cube3_successors c'))).
  { intros c c' I. apply in_map_iff in I. destruct I as ([x m] & <- & I). apply C94_successors in I. subst x. cbn [fst].
    apply in_map_iff. exists (c, move_inverse m). split; [reflexivity|]. apply C94_successors. symmetry.
    apply (ma_inverse _ (cube_apply_ok Size3)). }
  intros c c'. split; apply H.
Qed.

Example C94_example :
  cube_well_formed Size3 (cube3_apply cube3_solved (mkMove fR Single)) /\
  In (cube3_solved, mkMove fR Inverse) (cube3_successors (cube3_apply cube3_solved (mkMove fR Single))) /\
  ~ In (cube3_solved, mkMove fR Double) (cube3_successors (cube3_apply cube3_solved (mkMove fR Single))).
Proof.
  split; [exact (cube_well_formed_move Size3 _ (mkMove fR Single) (cube_well_formed_solved Size3))|]. split.
  - apply C94_successors. vm_compute. reflexivity.
  - rewrite C94_successors. vm_compute. discriminate.
Qed.
Print Assumptions C94_all.
Print Assumptions C94_same.
Print Assumptions C94_in_order.
Print Assumptions C94_successors.
Print Assumptions C94_successors_differ.
Print Assumptions C94_successors_symmetric.

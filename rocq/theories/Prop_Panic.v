(** C77: turning a cube never panics.

    [Model_Panic] keeps every [unreachable!], [expect], [unwrap], [assert_eq!] and
    [debug_assert!] on the way of a move as a possible [Panic].  The theorems say that the
    result is [Done] of what the other models compute, for every cube whatever (also one that
    no move leads to), so that nothing said elsewhere about moves overlooks a panic. *)

From Coq Require Import List Bool Arith NArith ZArith.
From Verif Require Import Model_Base Model_Space Model_Moves Model_Pieces Model_PieceSet Model_Cubes
  Model_NonRedundant Model_Orientable Model_OrientableMoves Model_Panic Proof_Panic Proof_NonRedundant.
Import ListNotations.
Open Scope nat_scope.

(** A move of a piece set panics exactly when the move of one of its pieces does. *)
Theorem C77_sets_panic_with_their_pieces : forall A (f : A -> outcome A) (l : list A),
  each_o f l = Panic <-> exists a, In a l /\ f a = Panic.
Proof.
  intros A f l. induction l as [|a l IH].
  - split; [discriminate|]. intros (a & [] & _).
  - cbn [each_o]. destruct (f a) as [a'|] eqn:E; cbn [bind_o].
    + split.
      * intros H. assert (each_o f l = Panic) as P by (destruct (each_o f l); [discriminate H|reflexivity]).
        apply IH in P as (b & I & B). exists b. split; [right; exact I|exact B].
      * intros (b & [<-|I] & B); [congruence|]. assert (P : each_o f l = Panic) by (apply IH; exists b; auto). rewrite P. reflexivity.
    + split; [|reflexivity]. intros _. exists a. split; [left; reflexivity|exact E].
Qed.

(** Face moves, wide moves (of any depth), quarter turns and non-redundant moves. *)
Theorem C77_face_moves : forall n c m, cube_apply_p n c m = Done (cube_apply n c m).
Proof. exact cube_apply_p_done. Qed.

Theorem C77_wide_moves : forall n c w, cube_apply_wide_p n c w = Done (cube_apply_wide n c w).
Proof. exact cube_apply_wide_p_done. Qed.

Theorem C77_quarter_turns : forall n c q, cube_apply_quarter_p n c q = Done (cube_apply_quarter n c q).
Proof. intros. exact (cube_apply_p_done n c _). Qed.

Theorem C77_non_redundant_moves : forall n c m,
  cube_apply_nr_p n c m = Done (apply_nr (cube_apply n) c m).
Proof. intros. exact (apply_alg_o_done _ _ _ (cube_apply_p_done n) c). Qed.

(** Algs of each kind of move. *)
Theorem C77_algs : forall n c,
  (forall al, apply_alg_o (cube_apply_p n) c al = Done (apply_alg (cube_apply n) c al))
  /\ (forall al, apply_alg_o (cube_apply_wide_p n) c al = Done (apply_alg (cube_apply_wide n) c al))
  /\ (forall al, apply_alg_o (cube_apply_quarter_p n) c al = Done (apply_alg (cube_apply_quarter n) c al))
  /\ (forall al, apply_alg_o (cube_apply_nr_p n) c al = Done (apply_alg (apply_nr (cube_apply n)) c al)).
Proof.
  intros n c. repeat split; intros al; apply apply_alg_o_done; intros.
  - apply C77_face_moves.
  - apply C77_wide_moves.
  - apply C77_quarter_turns.
  - apply C77_non_redundant_moves.
Qed.

(** Single pieces: every piece, wherever it is, under every move and rotation. *)
Theorem C77_pieces : forall r m w nd td mx,
  (forall e, edge_rotate_o e r = Done (edge_rotate e r) /\ edge_apply_p e m = Done (edge_apply e m))
  /\ (forall k, wing_rotate_p k r = Done (wing_rotate k r)
        /\ wing_in_wide_p k nd td mx w = Done (wing_in_wide k nd td mx w))
  /\ (forall k, ce_rotate_o k r = Done (ce_rotate k r)
        /\ ce_in_wide_p k nd td mx w = Done (ce_in_wide k nd td mx w))
  /\ (forall k, cw_rotate_p k r = Done (cw_rotate k r)
        /\ cw_in_wide_p k nd td mx w = Done (cw_in_wide k nd td mx w)).
Proof.
  intros. repeat split.
  - apply edge_rotate_o_done.
  - apply edge_apply_p_done.
  - apply wing_rotate_p_done.
  - apply wing_in_wide_p_done.
  - apply ce_rotate_o_done.
  - apply ce_in_wide_p_done.
  - apply cw_rotate_p_done.
  - apply cw_in_wide_p_done.
Qed.

(** The number of moves an edge needs, the base of the search heuristics. *)
Theorem C77_edge_distance : forall p e, min_moves_to_solve_p p e = Done (min_moves_to_solve p e).
Proof. exact min_moves_p_done. Qed.

(** Normalising an alg ends and does not panic. *)
Theorem C77_normalized : forall al, normalized_p al = Some (Done (normalized al)).
Proof.
  intros al. unfold normalized_p. rewrite normalize_loop_p_done.
  destruct (normalized_some al) as [E _]. unfold normalized_opt in E. rewrite E. reflexivity.
Qed.

(** Held in any way: face moves never panic, and an extended move panics exactly when
    [ext_apply] says so (the cases listed in C47). *)
Theorem C77_orientable : forall n o m,
  orientable_apply_p n o m = orientable_apply n o m
  /\ exists c, orientable_apply_p n o m = Done (mkOrientable c (ob_ori o)).
Proof.
  intros n o m. split; [apply orientable_apply_p_same|].
  unfold orientable_apply_p. destruct o as [c [[[] []] [] []]]; cbn [ob_cube ob_ori];
    (eexists; vm_compute or_rotations; cbn [bind_o]; rewrite cube_apply_p_done; reflexivity).
Qed.

Theorem C77_extended : forall n o m, ext_apply_p n o m = ext_apply n o m.
Proof. exact ext_apply_p_same. Qed.

(** The checks are there: one that fails stops the move. *)
Example C77_checks_are_made :
  each_o (fun b : bool => if b then Done b else Panic) [true; false; true] = Panic
  /\ apply_widened_p (fun (_ : unit) _ => Panic) 1 tt (mkMove fR Single) = Panic
  /\ ext_apply_p Size4 (orientable_solved Size4) (XWide (mkWide 2 (mkMove fR Single))) = Panic.
Proof. vm_compute. repeat split; discriminate. Qed.

Example C77_example :
  cube_apply_wide_p Size7 (cube_solved Size7) (mkWide 1 (mkMove fR Single))
  <> Done (cube_solved Size7)
  /\ normalized_p [mkMove fR Single; mkMove fR Inverse; mkMove fU Double] = Some (Done [mkMove fU Double]).
Proof. split; [vm_compute; discriminate|reflexivity]. Qed.
Print Assumptions C77_face_moves.
Print Assumptions C77_wide_moves.
Print Assumptions C77_quarter_turns.
Print Assumptions C77_non_redundant_moves.
Print Assumptions C77_algs.
Print Assumptions C77_pieces.
Print Assumptions C77_edge_distance.
Print Assumptions C77_normalized.
Print Assumptions C77_orientable.
Print Assumptions C77_extended.
Print Assumptions C77_sets_panic_with_their_pieces.

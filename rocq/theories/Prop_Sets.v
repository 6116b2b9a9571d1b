(** C03, C04, C05: piece sets. *)

From Coq Require Import List Bool Arith NArith Permutation.
From Verif Require Import Model_Base Model_Space Model_Moves Model_NonRedundant Model_Pieces
  Model_PieceSet Model_Cubes Spec_Sets Proof_Moves Proof_NonRedundant Proof_Sets.
Import ListNotations.

(** The six descriptors that exist in the code. *)
Inductive known_desc : forall {P Pos : Type}, PieceDesc P Pos -> Prop :=
| KnownCorner : known_desc corner_desc
| KnownEdge : known_desc edge_desc
| KnownWing : known_desc wing_desc
| KnownCenterCorner : known_desc cc_desc
| KnownCenterEdge : known_desc ce_desc
| KnownCenterWing : known_desc cw_desc.

Lemma known_ok {P Pos} (d : PieceDesc P Pos) : known_desc d -> desc_ok d.
Proof.
  intros []; [apply corner_desc_ok|apply edge_desc_ok|apply wing_desc_ok|apply cc_desc_ok
             |apply ce_desc_ok|apply cw_desc_ok].
Qed.

(* ------------------------------------------------------------------ *)
(** * C03: exactly one piece at each position, after every history *)

(** One thing that can happen to a cube. *)
Inductive CubeEvent := EvMove (m : AxisMove) | EvWide (w : WideAxisMove)
                     | EvQuarter (q : QuarterAxisMove) | EvNonRedundant (m : NRMove).
Definition cube_event (n : CubeSize) (c : CubeOf n) (e : CubeEvent) : CubeOf n :=
  match e with
  | EvMove m => cube_apply n c m
  | EvWide w => cube_apply_wide n c w
  | EvQuarter q => cube_apply_quarter n c q
  | EvNonRedundant m => apply_nr (cube_apply n) c m
  end.

Theorem C03_valid_after_history : forall (n : CubeSize) (c : CubeOf n) (history : list CubeEvent),
  cube_well_formed n c -> cube_well_formed n (fold_left (cube_event n) history c).
Proof.
  intros n c h. revert c. induction h as [|e h IH]; intros c W; [exact W|]. cbn. apply IH.
  destruct e; cbn.
  - apply cube_well_formed_move, W.
  - apply cube_well_formed_wide, W.
  - apply cube_well_formed_move, W.
  - destruct m; cbn; repeat apply cube_well_formed_move; exact W.
Qed.

Theorem C03_valid_from_solved : forall (n : CubeSize) (history : list CubeEvent),
  cube_well_formed n (fold_left (cube_event n) history (cube_solved n)).
Proof. intros. apply C03_valid_after_history, cube_well_formed_solved. Qed.

(** [validate] reports no error exactly when there is one piece at each position. *)
Theorem C03_validate_exact : forall {P Pos} (d : PieceDesc P Pos) (s : list P),
  known_desc d -> length s = length (pd_reference d) ->
  (set_validate d s = None <-> one_piece_everywhere d s).
Proof.
  intros P Pos d s K L. apply known_ok in K.
  rewrite (validate_none d K), <- (set_valid_spec d K). unfold set_valid. tauto.
Qed.

(** [shuffle] keeps a set valid as well. *)
Theorem C03_shuffle_valid : forall {P Pos} (d : PieceDesc P Pos) (s : list P) rng,
  known_desc d -> one_piece_everywhere d s -> one_piece_everywhere d (shuffle rng s).
Proof.
  intros P Pos d s rng K. apply known_ok in K. rewrite <- !(set_valid_spec d K).
  apply perm_valid, shuffle_perm.
Qed.

(** A scrambled 4x4 meets the invariant and is not the solved cube. *)
Example C03_nontrivial :
  let c := fold_left (cube_event Size4)
             [EvWide (mkWide 1 (mkMove fR Single)); EvMove (mkMove fU Inverse)] cube4_solved in
  cube_well_formed Size4 c /\ cube4_is_solved c = false.
Proof. split; [apply (C03_valid_from_solved Size4)|vm_compute; reflexivity]. Qed.
(** A set with two pieces in one place is rejected. *)
Example C03_invalid_detected :
  set_validate corner_desc (mkCorner (mkVec3 Negative Negative Negative) AX :: tl corner_solved)
  = Some (DuplicatePosition (mkVec3 Negative Negative Negative)).
Proof. reflexivity. Qed.

Print Assumptions C03_valid_after_history.
Print Assumptions C03_valid_from_solved.
Print Assumptions C03_validate_exact.
Print Assumptions C03_shuffle_valid.

(* ------------------------------------------------------------------ *)
(** * C04: PieceSet::new *)

Theorem C04_new_exact : forall {P Pos} (d : PieceDesc P Pos) (pieces : list P),
  known_desc d ->
  ((exists s, set_new d pieces = Ok s) <-> NoDup (map (pd_position d) pieces)) /\
  (forall s, set_new d pieces = Ok s -> s = pieces) /\
  (forall e, set_new d pieces = Err e ->
     exists pos, e = DuplicatePosition pos /\ occurs_twice pos (map (pd_position d) pieces)).
Proof.
  intros P Pos d pieces K. apply known_ok in K. unfold set_new.
  pose proof (validate_none d K pieces) as V.
  destruct (set_validate d pieces) as [e|] eqn:E.
  - split; [|split].
    + split; [intros (s & [=])|]. intros N. apply V in N. discriminate.
    + discriminate.
    + intros e' [= <-]. unfold set_validate in E.
      destruct (find_duplicates _ (map _ _)) as [pos|] eqn:F.
      * inversion E; subst. exists pos. split; [reflexivity|]. apply (find_dup_some _ (do_pos _ K) _ _ F).
      * apply (find_dup_none _ (do_pos _ K)), V in F. discriminate.
  - split; [|split].
    + split; [intros _; apply V; reflexivity|eauto].
    + congruence.
    + discriminate.
Qed.

Example C04_both_outcomes :
  set_new edge_desc edge_solved = Ok edge_solved /\
  (exists e, set_new edge_desc (mkEdge AX (mkVec2 Negative Negative) false :: tl edge_solved) = Err e).
Proof. split; [reflexivity|eexists; reflexivity]. Qed.
Print Assumptions C04_new_exact.

(* ------------------------------------------------------------------ *)
(** * C05: lookups and swap *)

Theorem C05_lookups_inverse : forall {P Pos} (d : PieceDesc P Pos) (s : list P) (p q : Pos),
  known_desc d -> one_piece_everywhere d s ->
  (original_position_of_piece_at d s q = Done p <->
   exists x, piece_originally_at d s p = Done x /\ pd_position d x = q).
Proof.
  intros P Pos d s p q K V. apply known_ok in K. apply lookups_inverse; auto. apply set_valid_spec; auto.
Qed.

Theorem C05_lookups_never_panic : forall {P Pos} (d : PieceDesc P Pos) (s : list P) (p : Pos),
  known_desc d -> one_piece_everywhere d s ->
  (exists x i, piece_originally_at d s p = Done x /\
     nth_error (pd_reference d) i = Some p /\ nth_error s i = Some x) /\
  (exists o x i, original_position_of_piece_at d s p = Done o /\
     nth_error (pd_reference d) i = Some o /\ nth_error s i = Some x /\ pd_position d x = p).
Proof.
  intros P Pos d s p K V. apply known_ok in K. apply (set_valid_spec d K) in V. split.
  - destruct (originally_at_done d K s p (proj1 V)) as (i & x & H1 & H2 & H3). eauto 6.
  - destruct (original_position_done d K s p V) as (i & x & o & H1 & H2 & H3 & H4). exists o, x, i. auto.
Qed.

Theorem C05_swap : forall {P Pos} (d : PieceDesc P Pos) (s : list P) (a b : Pos),
  known_desc d -> length s = length (pd_reference d) ->
  exists s', set_swap d s a b = Done s' /\ length s' = length s /\
    piece_originally_at d s' a = piece_originally_at d s b /\
    piece_originally_at d s' b = piece_originally_at d s a /\
    (forall c, c <> a -> c <> b -> piece_originally_at d s' c = piece_originally_at d s c) /\
    (one_piece_everywhere d s -> one_piece_everywhere d s').
Proof.
  intros P Pos d s a b K L. apply known_ok in K.
  destruct (set_swap_spec d K s a b L) as (s' & H1 & H2 & H3 & H4 & H5 & H6).
  exists s'. repeat (split; [assumption|]).
  intros V. apply (set_valid_spec d K). apply (set_valid_spec d K) in V. eapply perm_valid; eauto.
Qed.

(** [at_index] gives the piece of the place with that number, and nothing past the end. *)
Theorem C05_at_index : forall {P Pos} (d : PieceDesc P Pos) (s : list P) (i : nat),
  known_desc d -> one_piece_everywhere d s ->
  (forall p, nth_error (pd_reference d) i = Some p -> exists x, at_index s i = Some x /\
     piece_originally_at d s p = Done x /\ original_position_of_piece_at d s (pd_position d x) = Done p) /\
  (length (pd_reference d) <= i -> at_index s i = None).
Proof.
  intros P Pos d s i K V. split.
  - intros p I. destruct (proj1 (C05_lookups_never_panic d s p K V)) as (x & j & H1 & H2 & H3).
    assert (i = j).
    { apply known_ok in K. pose proof (do_nodup _ K) as ND. rewrite NoDup_nth_error in ND. apply ND; [apply nth_error_Some; congruence|congruence]. }
    subst j. exists x. split; [exact H3|]. split; [exact H1|]. apply (C05_lookups_inverse d s p _ K V). eauto.
  - intros L. apply nth_error_None. pose proof (known_ok d K) as K'. apply (set_valid_spec d K') in V. destruct V as [V _]. rewrite V. exact L.
Qed.

Example C05_example :
  let s := corner_set_apply corner_solved (mkMove fR Single) in
  one_piece_everywhere corner_desc s /\
  original_position_of_piece_at corner_desc s (mkVec3 Positive Positive Positive)
    = Done (mkVec3 Positive Negative Positive).
Proof.
  split; [|reflexivity]. apply (set_valid_spec _ corner_desc_ok).
  apply corner_set_valid, (solved_valid _ corner_desc_ok).
Qed.
Print Assumptions C05_lookups_inverse.
Print Assumptions C05_lookups_never_panic.
Print Assumptions C05_swap.
Print Assumptions C05_at_index.

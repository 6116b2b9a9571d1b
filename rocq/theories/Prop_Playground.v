(** C49: the playground. *)

From Coq Require Import List Bool Arith NArith ZArith Lia String.
From Verif Require Import Model_Base Model_Space Model_Moves Model_Pieces Model_PieceSet Model_Cubes
  Model_Orientable Model_Parser Model_Playground Spec_Moves Spec_Notation
  Proof_Moves Prop_Moves Prop_Parser Prop_BigCube Prop_Orientable.
Import ListNotations.
Local Open Scope list_scope.

(** The algorithm written on a line. *)
Definition line_notation (t : text) (al : list ExtendedAxisMove) : Prop :=
  exists ws, words t ws /\ Forall2 extended_notation ws al.

Lemma apply_extended_run o al : apply_extended o al = ext_run Size3 o al.
Proof.
  revert o. induction al as [|m al IH]; intros o; [reflexivity|]. cbn [apply_extended ext_run].
  destruct (ext_apply Size3 o m); [apply IH|reflexivity].
Qed.
Lemma parse_line isn t al : number_class isn ->
  parse_alg (parse_extended isn) t = Done (Ok al) <-> line_notation t al.
Proof.
  intros N. rewrite C24_alg_language. unfold line_notation.
  split; intros (ws & W & F); exists ws; (split; [exact W|]); clear W;
    induction F; constructor; try assumption; apply (C25_extended_language isn N); assumption.
Qed.

(** A line that is not an algorithm, or a failed read: the cube is unchanged, an error is
    reported and the loop continues with the next line. *)
Theorem C49_bad_line : forall isn o line, number_class isn ->
  (forall al, ~ line_notation line al) ->
  exists e, playground_loop isn o (Some (ReadLine line)) = Done (o, Some (NotParsed e)) /\
  forall rest, play isn o (ReadLine line :: rest) =
    (ErrorShown (NotParsed e) :: fst (play isn o rest), snd (play isn o rest)).
Proof.
  intros isn o line N H.
  assert (E : exists e, playground_loop isn o (Some (ReadLine line)) = Done (o, Some (NotParsed e))).
  { cbn [playground_loop]. destruct (C24_alg_no_panic isn 0%N line) as (_ & _ & [r R]). rewrite R. cbn [bind_o].
    destruct r as [al|e]; [|exists e; reflexivity]. exfalso. apply (H al), (parse_line isn line al N), R. }
  destruct E as [e E]. exists e. split; [exact E|]. intros rest. cbn [play]. rewrite E. destruct (play isn o rest). reflexivity.
Qed.
Theorem C49_read_error : forall isn o rest,
  play isn o (ReadError :: rest) = (ErrorShown NotRead :: fst (play isn o rest), snd (play isn o rest)).
Proof. intros. cbn [play playground_loop]. destruct (play isn o rest). reflexivity. Qed.

(** A line that is an algorithm is applied as a whole. *)
Theorem C49_good_line : forall isn o line al, number_class isn -> line_notation line al ->
  (forall o', ext_run Size3 o al = Done o' ->
     playground_loop isn o (Some (ReadLine line)) = Done (o', None) /\
     forall rest, play isn o (ReadLine line :: rest) =
       (Shown (ob_cube o') :: fst (play isn o' rest), snd (play isn o' rest))) /\
  (ext_run Size3 o al = Panic -> forall rest, play isn o (ReadLine line :: rest) = ([], PanicInMove)).
Proof.
  intros isn o line al N H. apply (parse_line isn line al N) in H.
  assert (E : playground_loop isn o (Some (ReadLine line)) = map_o (fun o => (o, None)) (ext_run Size3 o al)).
  { cbn [playground_loop]. rewrite H. cbn [bind_o]. rewrite apply_extended_run. reflexivity. }
  split.
  - intros o' R. rewrite R in E. split; [exact E|]. intros rest. cbn [play]. rewrite E. cbn [map_o].
    destruct (play isn o' rest). reflexivity.
  - intros R rest. rewrite R in E. cbn [play]. rewrite E. reflexivity.
Qed.

(** Whole sessions: only the lines that are algorithms count.  [entered input al]: the lines
    of the input that are algorithms make up the algorithm [al]. *)
Inductive entered : list Read -> list ExtendedAxisMove -> Prop :=
| EnteredNil : entered [] []
| EnteredError r al : entered r al -> entered (ReadError :: r) al
| EnteredBad t r al : (forall al', ~ line_notation t al') -> entered r al -> entered (ReadLine t :: r) al
| EnteredGood t al r al' : line_notation t al -> entered r al' -> entered (ReadLine t :: r) (al ++ al').

Theorem C49_session : forall isn input al, number_class isn -> entered input al ->
  (forall o', snd (playground_3x3 isn input) = EndOfInput o' <-> ext_run Size3 (orientable_solved Size3) al = Done o') /\
  (snd (playground_3x3 isn input) = PanicInMove <-> ext_run Size3 (orientable_solved Size3) al = Panic).
Proof.
  intros isn input al N E.
  assert (G : forall o, snd (play isn o input) = match ext_run Size3 o al with Done o' => EndOfInput o' | Panic => PanicInMove end).
  { induction E as [|r al E IH|t r al B E IH|t al r al' G E IH]; intros o.
    - reflexivity.
    - rewrite C49_read_error. apply IH.
    - destruct (C49_bad_line isn o t N B) as (e & _ & P). rewrite P. apply IH.
    - destruct (C49_good_line isn o t al N G) as [GD GP]. rewrite ext_run_app. destruct (ext_run Size3 o al) as [o'|].
      + rewrite (proj2 (GD o' eq_refl)). apply IH.
      + rewrite (GP eq_refl). reflexivity. }
  assert (P : snd (playground_3x3 isn input) = snd (play isn (orientable_solved Size3) input)).
  { unfold playground_3x3. change (orientable_new (cube_solved Size3)) with (orientable_solved Size3).
    destruct (play isn (orientable_solved Size3) input). reflexivity. }
  rewrite P, G. destruct (ext_run Size3 (orientable_solved Size3) al); split; try (intros o'); split; congruence.
Qed.
(** Every input has exactly one such algorithm. *)
Theorem C49_session_total : forall isn input, number_class isn -> exists al, entered input al.
Proof.
  intros isn input N. induction input as [|r input [al IH]]; [exists []; constructor|].
  destruct r as [t|]; [|exists al; constructor; exact IH].
  destruct (C24_alg_no_panic isn 0%N t) as (_ & _ & [[al'|e] R]).
  - exists (al' ++ al). constructor; [apply (parse_line isn t al' N), R|exact IH].
  - exists al. constructor; [|exact IH]. intros al' H. apply (parse_line isn t al' N) in H. congruence.
Qed.

(** Whatever is typed, every cube that is shown can be reached from the solved cube by face
    turns. *)
Definition legal (c : CubeOf Size3) : Prop := exists al, c = apply_alg (cube_apply Size3) (cube_solved Size3) al.

Lemma legal_move c m : legal c -> legal (cube_apply Size3 c m).
Proof.
  intros [al ->]. exists (al ++ [m]). unfold apply_alg. rewrite fold_left_app. reflexivity.
Qed.
Lemma legal_ext o o' m : ext_apply Size3 o m = Done o' -> legal (ob_cube o) -> legal (ob_cube o').
Proof.
  intros E L. assert (W : forall c w, legal c -> legal (cube_apply_wide Size3 c w)) by (intros c w; apply (legal_move c (w_move w))).
  destruct m as [m|r|w|r wide]; [| | |rewrite slice_apply in E; injection E as <-; exact (W _ _ (W _ _ L))]; cbn [ext_apply] in E.
  - unfold orientable_apply in E. destruct (or_rotations (ob_ori o)) as [rs|]; [|discriminate]. injection E as <-.
    apply legal_move, L.
  - unfold orientable_rotate in E. rewrite or_rotate_o_done in E. injection E as <-. exact L.
  - unfold orientable_rotate in E. rewrite or_rotate_o_done in E. cbn [map_o bind_o] in E.
    destruct (_ <? _)%N; [injection E as <-; exact L|].
    destruct (_ <? _)%N; cbn [bind_o] in E.
    + destruct (wide_set_max_depth _ _); [|discriminate]. injection E as <-. exact (W _ _ L).
    + destruct (wide_opposite _ _ _); [|discriminate]. cbn [bind_o] in E.
      destruct (wide_set_max_depth _ _); [|discriminate]. injection E as <-. exact (W _ _ L).
Qed.
Theorem C49_shown_legal : forall isn input c, In (Shown c) (fst (playground_3x3 isn input)) -> legal c.
Proof.
  intros isn input c.
  assert (R : forall al o o', ext_run Size3 o al = Done o' -> legal (ob_cube o) -> legal (ob_cube o')).
  { induction al as [|m al IH]; intros o o'; cbn [ext_run]; [intros [= <-]; auto|].
    destruct (ext_apply Size3 o m) as [o1|] eqn:E; [|discriminate]. intros H L. apply (IH _ _ H), (legal_ext _ _ _ E L). }
  assert (P : forall o, legal (ob_cube o) -> In (Shown c) (fst (play isn o input)) -> legal c).
  { induction input as [|r input IH]; intros o L; [intros []|]. cbn [play].
    destruct (playground_loop isn o (Some r)) as [[o1 ok]|] eqn:E; [|intros []].
    assert (L1 : legal (ob_cube o1)).
    { destruct r as [t|]; cbn [playground_loop] in E; [|injection E as <- <-; exact L].
      destruct (parse_alg (parse_extended isn) t) as [[al|e]|]; cbn [bind_o] in E; [| |discriminate].
      - rewrite apply_extended_run in E. destruct (ext_run Size3 o al) as [o2|] eqn:X; [|discriminate].
        injection E as <- <-. exact (R _ _ _ X L).
      - injection E as <- <-. exact L. }
    specialize (IH o1 L1). destruct (play isn o1 input) as [ev stop]. cbn [fst] in *.
    intros [H|H]; [|auto]. destruct ok; [discriminate|]. injection H as <-. exact L1. }
  unfold playground_3x3. intros H.
  assert (L : legal (cube_solved Size3)) by (exists []; reflexivity).
  specialize (P (orientable_new (cube_solved Size3)) L).
  destruct (play isn (orientable_new (cube_solved Size3)) input) as [ev stop]. cbn [fst] in *.
  destruct H as [[= <-]|H]; [exact L|auto].
Qed.

(** Non-trivial lines: a good one, a bad one, and one that makes the program panic. *)
Definition ascii_number (c : N) : bool := ((48 <=? c) && (c <=? 57))%N.
Example C49_example :
  number_class ascii_number /\
  line_notation (lit "R U2 x") [XRegular (mkMove fR Single); XRegular (mkMove fU Double); XRotation (mkRot AX Single)] /\
  (forall al, ~ line_notation (lit "R Q") al) /\
  snd (playground_3x3 ascii_number [ReadLine (lit "R Q"); ReadLine (lit "R Rw")]) = PanicInMove /\
  List.length (fst (playground_3x3 ascii_number [ReadLine (lit "R Q"); ReadError; ReadLine (lit "x y2 M")])) = 4%nat.
Proof.
  assert (N : number_class ascii_number).
  { intros c _. unfold ascii_number. rewrite andb_true_iff, !N.leb_le. tauto. }
  split; [exact N|]. split; [apply (parse_line ascii_number _ _ N); vm_compute; reflexivity|].
  split; [|split; vm_compute; reflexivity].
  intros al H. apply (parse_line ascii_number _ _ N) in H. vm_compute in H. discriminate H.
Qed.

Print Assumptions C49_bad_line.
Print Assumptions C49_read_error.
Print Assumptions C49_good_line.
Print Assumptions C49_session.
Print Assumptions C49_session_total.
Print Assumptions C49_shown_legal.

(** C01, C02, C19-C23: algs, amounts, normalisation, random algs, quarter turns. *)

From Coq Require Import List Bool Arith Lia NArith.
From Verif Require Import Model_Base Model_Space Model_Moves Model_NonRedundant Model_Cubes
  Spec_Moves Proof_Moves Proof_NonRedundant Proof_Normalize.
Import ListNotations.

(* ------------------------------------------------------------------ *)
(** * C01: an alg followed by its reverse restores every state of every cube *)

Theorem C01_reversed_axis : forall (n : CubeSize) (c : CubeOf n) (al : list AxisMove),
  apply_alg (cube_apply n) (apply_alg (cube_apply n) c al) (alg_reversed move_inverse al) = c.
Proof. intros n c al. apply apply_reversed, ma_inverse, cube_apply_ok. Qed.

Theorem C01_reversed_wide : forall (n : CubeSize) (c : CubeOf n) (al : list WideAxisMove),
  apply_alg (cube_apply_wide n) (apply_alg (cube_apply_wide n) c al) (alg_reversed wide_inverse al) = c.
Proof. intros n c al. apply apply_reversed, wa_inverse, cube_apply_wide_ok. Qed.

Theorem C01_reversed_quarter : forall (n : CubeSize) (c : CubeOf n) (al : list QuarterAxisMove),
  apply_alg (cube_apply_quarter n) (apply_alg (cube_apply_quarter n) c al)
    (alg_reversed quarter_inverse al) = c.
Proof.
  intros n c al. apply apply_reversed. unfold cube_apply_quarter.
  apply apply_quarter_inverse, ma_inverse, cube_apply_ok.
Qed.

Theorem C01_reversed_non_redundant : forall (n : CubeSize) (c : CubeOf n) (al : list NRMove),
  apply_alg (apply_nr (cube_apply n)) (apply_alg (apply_nr (cube_apply n)) c al)
    (alg_reversed nr_inverse al) = c.
Proof. intros n c al. apply apply_reversed. intros. apply apply_nr_inverse, cube_apply_ok. Qed.

(** Reversing twice gives the alg back. *)
Theorem C01_reversed_twice : forall al : list AxisMove,
  alg_reversed move_inverse (alg_reversed move_inverse al) = al.
Proof.
  intros al. unfold alg_reversed. rewrite <- map_rev, rev_involutive, map_map.
  rewrite <- (map_id al) at 2. apply map_ext, move_inverse_involutive.
Qed.

(** The hypothesis-free theorems talk about states that really change. *)
Example C01_nontrivial :
  let al := [mkMove fR Single; mkMove fU Inverse; mkMove fF Double] in
  cube3_is_solved (apply_alg cube3_apply cube3_solved al) = false /\
  cube3_is_solved (apply_alg cube3_apply (apply_alg cube3_apply cube3_solved al)
                     (alg_reversed move_inverse al)) = true.
Proof. vm_compute. auto. Qed.

Print Assumptions C01_reversed_axis.
Print Assumptions C01_reversed_wide.
Print Assumptions C01_reversed_quarter.
Print Assumptions C01_reversed_non_redundant.
Print Assumptions C01_reversed_twice.

(* ------------------------------------------------------------------ *)
(** * C02: amounts *)

(** Every turn is a number of single turns; four single turns do nothing. *)
Theorem C02_amount_is_quarter_turns : forall (n : CubeSize) (c : CubeOf n) f a,
  cube_apply n c (mkMove f a) = times (quarter_turns a) (fun c => cube_apply n c (mkMove f Single)) c.
Proof. intros. apply move_as_singles, cube_apply_ok. Qed.
Theorem C02_order_four : forall (n : CubeSize) (c : CubeOf n) f,
  times 4 (fun c => cube_apply n c (mkMove f Single)) c = c.
Proof. intros. apply four_singles, cube_apply_ok. Qed.
(** ... and not fewer than four: from the solved state. *)
Theorem C02_order_exactly_four : forall (n : CubeSize) f a,
  cube_apply n (cube_solved n) (mkMove f a) <> cube_solved n.
Proof.
  intros n f a H. apply (f_equal (cube_is_solved n)) in H.
  destruct n, f as [[] []], a; vm_compute in H; discriminate.
Qed.

(** The sum of two amounts is the sum of the quarter turns modulo 4, [None] for 0. *)
Theorem C02_amount_add_exact : forall a b,
  amount_add_o a b = Done (amount_add a b) /\
  (amount_add a b = None <-> (quarter_turns a + quarter_turns b) mod 4 = 0) /\
  (forall s, amount_add a b = Some s <-> (quarter_turns a + quarter_turns b) mod 4 = quarter_turns s).
Proof.
  intros a b. split; [apply amount_add_o_done|].
  destruct a, b; cbn; (split; [split; congruence|]);
    intros []; cbn; split; intros H; try reflexivity; try discriminate.
Qed.
Theorem C02_amounts_compose : forall (n : CubeSize) (c : CubeOf n) f a b,
  cube_apply n (cube_apply n c (mkMove f a)) (mkMove f b) =
  match amount_add a b with Some s => cube_apply n c (mkMove f s) | None => c end.
Proof. intros. apply (ma_add _ (cube_apply_ok n)). Qed.
Theorem C02_same_axis_commute : forall (n : CubeSize) (c : CubeOf n) m1 m2,
  face_axis (mv_face m1) = face_axis (mv_face m2) ->
  cube_apply n (cube_apply n c m1) m2 = cube_apply n (cube_apply n c m2) m1.
Proof. intros. apply comm2; [apply cube_apply_ok|assumption]. Qed.

(** The same for wide moves. *)
Theorem C02_wide_amount_is_quarter_turns : forall (n : CubeSize) (c : CubeOf n) d f a,
  cube_apply_wide n c (mkWide d (mkMove f a))
  = times (quarter_turns a) (fun c => cube_apply_wide n c (mkWide d (mkMove f Single))) c
  /\ times 4 (fun c => cube_apply_wide n c (mkWide d (mkMove f Single))) c = c.
Proof.
  intros; split; [apply wide_as_singles, cube_apply_wide_ok|apply wide_four_singles, cube_apply_wide_ok].
Qed.
Theorem C02_wide_amounts_compose : forall (n : CubeSize) (c : CubeOf n) d f a b,
  cube_apply_wide n (cube_apply_wide n c (mkWide d (mkMove f a))) (mkWide d (mkMove f b)) =
  match amount_add a b with Some s => cube_apply_wide n c (mkWide d (mkMove f s)) | None => c end.
Proof.
  intros n c d f a b. pose proof (fun c a => proj1 (C02_wide_amount_is_quarter_turns n c d f a)) as Q.
  pose proof (fun c => proj2 (C02_wide_amount_is_quarter_turns n c d f Single)) as F. cbn [times] in F.
  assert (D : cube_apply_wide n c (mkWide d (mkMove f Double)) = _) by exact (Q c Double).
  assert (V : cube_apply_wide n c (mkWide d (mkMove f Inverse)) = _) by exact (Q c Inverse).
  assert (E : match amount_add a b with Some s => cube_apply_wide n c (mkWide d (mkMove f s)) | None => c end =
    times (quarter_turns b) (fun c => cube_apply_wide n c (mkWide d (mkMove f Single)))
      (times (quarter_turns a) (fun c => cube_apply_wide n c (mkWide d (mkMove f Single))) c)).
  { destruct a, b;
      match goal with |- context [amount_add ?x ?y] => let r := eval compute in (amount_add x y) in change (amount_add x y) with r end;
      cbn [quarter_turns times] in *; rewrite ?D, ?V, ?F; reflexivity. }
  rewrite E, <- (Q c a), <- Q. reflexivity.
Qed.
Theorem C02_wide_same_axis_commute : forall (n : CubeSize) (c : CubeOf n) w1 w2,
  face_axis (mv_face (w_move w1)) = face_axis (mv_face (w_move w2)) ->
  cube_apply_wide n (cube_apply_wide n c w1) w2 = cube_apply_wide n (cube_apply_wide n c w2) w1.
Proof.
  intros n c [d1 [[a1 e1] x1]] [d2 [[a2 e2] x2]]; cbn; intros ->. apply (wa_comm _ (cube_apply_wide_ok n)).
Qed.

(** R and L commute; R and U do not, so the hypothesis matters. *)
Example C02_commute_nontrivial :
  face_axis (mv_face (mkMove fR Single)) = face_axis (mv_face (mkMove fL Double)) /\
  cube3_eqb (apply_alg cube3_apply cube3_solved [mkMove fR Single; mkMove fU Single])
            (apply_alg cube3_apply cube3_solved [mkMove fU Single; mkMove fR Single]) = false.
Proof. vm_compute. auto. Qed.

Print Assumptions C02_amount_is_quarter_turns.
Print Assumptions C02_order_four.
Print Assumptions C02_order_exactly_four.
Print Assumptions C02_amount_add_exact.
Print Assumptions C02_amounts_compose.
Print Assumptions C02_same_axis_commute.
Print Assumptions C02_wide_amount_is_quarter_turns.
Print Assumptions C02_wide_amounts_compose.
Print Assumptions C02_wide_same_axis_commute.

(* ------------------------------------------------------------------ *)
(** * C19: normalized terminates, keeps the effect and does not get longer *)

Theorem C19_normalized : forall al : list AxisMove,
  normalized_opt al = Some (normalized al) /\
  length (normalized al) <= length al /\
  (forall n : CubeSize, same_effect (cube_apply n) (cube_apply n) (normalized al) al).
Proof.
  intros al. destruct (normalized_some al) as [E L]. repeat split; auto.
  intros n c. apply normalized_effect, cube_apply_ok.
Qed.

(** The documented example of non_redundant.rs:293-302. *)
Example C19_doc_example :
  normalized [mkMove fL Inverse; mkMove fF Single; mkMove fR Inverse; mkMove fL Double;
              mkMove fR Single; mkMove fL Double; mkMove fF Inverse; mkMove fL Single;
              mkMove fB Single; mkMove fF Single; mkMove fB Single; mkMove fD Single]
  = [mkMove fB Double; mkMove fF Single; mkMove fD Single].
Proof. vm_compute. reflexivity. Qed.
Print Assumptions C19_normalized.

(* ------------------------------------------------------------------ *)
(** * C20: absence of redundancy *)

(** The full claim is false: "R F' F R L" normalises to "L R R". *)
Theorem C20_normalized_redundant_refuted :
  exists al, ~ no_repeated_face (normalized al) /\ ~ no_three_on_axis (normalized al) /\
             normalized (normalized al) <> normalized al.
Proof.
  exists [mkMove fR Single; mkMove fF Inverse; mkMove fF Single; mkMove fR Single; mkMove fL Single].
  set (r := normalized _).
  assert (E : r = [mkMove fL Single; mkMove fR Single; mkMove fR Single]) by (vm_compute; reflexivity).
  rewrite E. repeat split.
  - intros H. apply (H (mkMove fR Single) (mkMove fR Single)); [|reflexivity].
    exists [mkMove fL Single], []. reflexivity.
  - intros H. apply (H (mkMove fL Single) (mkMove fR Single) (mkMove fR Single)); [|split; reflexivity].
    exists [], []. reflexivity.
  - vm_compute. discriminate.
Qed.

(** It even returns a pair that cancels: "R' F' F R L" normalises to "L R' R". *)
Theorem C20_normalized_cancelling_refuted :
  exists al m, segment [m; move_inverse m] (normalized al).
Proof.
  exists [mkMove fR Inverse; mkMove fF Inverse; mkMove fF Single; mkMove fR Single; mkMove fL Single],
    (mkMove fR Inverse).
  exists [mkMove fL Single], []. vm_compute. reflexivity.
Qed.

(** What does hold: if no run of moves on one axis cancels a face completely, the
    result is irredundant and normalising again changes nothing. *)
Theorem C20_normalized_irredundant_partial : forall al,
  no_cancellation al ->
  irredundant (normalized al) /\ normalized (normalized al) = normalized al.
Proof.
  intros al H. pose proof (normalized_no_cancel al H) as C. split.
  - apply canonical_irredundant, C.
  - apply normalized_fixpoint, C.
Qed.

(** Exactly the irredundant algs whose opposite-face pairs list the negative face first are
    left alone, so every such alg is a possible result. *)
Theorem C20_normalized_fixpoints : forall al,
  normalized al = al <-> irredundant al /\ negative_first al.
Proof.
  intros al. split.
  - intros E. destruct (normalized_canonical_or_shorter al) as [C|L]; rewrite E in *; [|lia].
    split; [apply canonical_irredundant, C|apply canonical_negative_first, C].
  - intros [[H1 _] H2]. apply normalized_fixpoint, canonical_of_spec; assumption.
Qed.

(** A pass whose result is redundant has shortened the alg by at least two moves. *)
Theorem C20_redundant_only_if_shorter_partial : forall al,
  length al <= S (length (normalized al)) ->
  irredundant (normalized al) /\ negative_first (normalized al) /\
  normalized (normalized al) = normalized al.
Proof.
  intros al L. destruct (normalized_canonical_or_shorter al) as [C|S]; [|lia].
  split; [apply canonical_irredundant, C|split; [apply canonical_negative_first, C|]].
  apply normalized_fixpoint, C.
Qed.

(** Hence normalising again and again does remove all redundancy: more passes than half of
    the length are enough, and the effect is still the same. *)
Theorem C20_repeated_partial : forall al k, length al < 2 * k ->
  irredundant (times k normalized al) /\ negative_first (times k normalized al) /\
  (forall j, k <= j -> times j normalized al = times k normalized al) /\
  (forall n : CubeSize, same_effect (cube_apply n) (cube_apply n) (times k normalized al) al).
Proof.
  intros al k L. pose proof (repeated_canonical k al L) as C.
  split; [apply canonical_irredundant, C|split; [apply canonical_negative_first, C|split]].
  - intros j Hj. replace j with (j - k + k) by lia. generalize (j - k). clear j Hj. intros d.
    induction d as [|d IH]; [reflexivity|]. cbn [Nat.add times]. rewrite IH. apply normalized_fixpoint, C.
  - intros n c. clear L C. induction k as [|k IH]; [reflexivity|]. cbn [times].
    rewrite normalized_effect by apply cube_apply_ok. exact IH.
Qed.

(** But no fixed number of passes is enough: for every number there is an alg whose result
    after that many passes still has a move next to its inverse. *)
Theorem C20_passes_refuted : forall k, exists al m,
  segment [m; move_inverse m] (times k normalized al) /\ ~ irredundant (times k normalized al).
Proof.
  intros k. exists (nested k), (mkMove fR Single). rewrite times_nested. split.
  - exists [], []. reflexivity.
  - intros [H _]. apply (H (mkMove fR Single) (mkMove fR Inverse)); [|reflexivity].
    exists [], []. reflexivity.
Qed.

(** "L R U U' L' R'" needs two passes; the bound of the theorem above is four. *)
Example C20_passes_example :
  let al := [mkMove fL Single; mkMove fR Single; mkMove fU Single; mkMove fU Inverse;
             mkMove fL Inverse; mkMove fR Inverse] in
  nested 1 = al /\ normalized al = [mkMove fR Single; mkMove fR Inverse] /\
  times 2 normalized al = [] /\ length al < 2 * 4.
Proof. vm_compute. repeat split; lia. Qed.

(** "R L R F" satisfies the hypothesis of the partial theorem. *)
Example C20_hypothesis_satisfiable :
  no_cancellation [mkMove fR Single; mkMove fL Single; mkMove fR Single; mkMove fF Single].
Proof.
  intros seg f (b & a & E) Ax (m & In_m & Fm) Z. subst f.
  set (al := [mkMove fR Single; mkMove fL Single; mkMove fR Single; mkMove fF Single]) in *.
  assert (S : seg = firstn (length seg) (skipn (length b) al)).
  { rewrite E, skipn_app, skipn_all, Nat.sub_diag. cbn [skipn app].
    rewrite firstn_app, firstn_all, Nat.sub_diag, firstn_O, app_nil_r. reflexivity. }
  assert (L : length b + length seg <= 4).
  { apply (f_equal (@length _)) in E. rewrite !app_length in E. change (length al) with 4 in E. lia. }
  remember (length seg) as k. remember (length b) as i. clear Heqk Heqi E.
  assert (m = mkMove fR Single \/ m = mkMove fL Single \/ m = mkMove fF Single) as Hm.
  { assert (In m al) as I; [|cbn in I; intuition].
    rewrite S in In_m.
    rewrite <- (firstn_skipn i al), in_app_iff. right.
    rewrite <- (firstn_skipn k (skipn i al)), in_app_iff. left. exact In_m. }
  subst seg.
  do 5 (destruct i as [|i]; [do 5 (destruct k as [|k];
    [destruct Hm as [ -> |[ -> | -> ]]; cbn in In_m, Z;
     first [discriminate Z | tauto
           | repeat (destruct In_m as [In_m|In_m]; [discriminate In_m|]); contradiction
           | specialize (Ax (mkMove fF Single)); cbn in Ax; intuition discriminate
           | specialize (Ax (mkMove fR Single)); cbn in Ax; intuition discriminate]|]); lia|]). lia.
Qed.

Print Assumptions C20_normalized_redundant_refuted.
Print Assumptions C20_normalized_cancelling_refuted.
Print Assumptions C20_normalized_irredundant_partial.
Print Assumptions C20_normalized_fixpoints.
Print Assumptions C20_redundant_only_if_shorter_partial.
Print Assumptions C20_repeated_partial.
Print Assumptions C20_passes_refuted.

(* ------------------------------------------------------------------ *)
(** * C21: absorve *)

(** Effect of an accumulator: its moves one after the other. *)
Definition run_acc {C} (act : C -> AxisMove -> C) (acc : option NRMove) (c : C) : C :=
  match acc with None => c | Some nr => apply_nr act c nr end.

Theorem C21_absorve_effect : forall acc m acc' r,
  absorve acc m = (acc', r) -> r <> NotAdded ->
  forall (n : CubeSize) (c : CubeOf n),
    run_acc (cube_apply n) acc' c = run_acc (cube_apply n) acc (cube_apply n c m) /\
    run_acc (cube_apply n) acc' c = cube_apply n (run_acc (cube_apply n) acc c) m.
Proof.
  intros acc m acc' r A Nr n c.
  assert (R : forall acc c, run_acc (cube_apply n) acc c = fold_left (cube_apply n) (acc_moves acc) c)
    by (intros [[?|? ? ?]|] ?; reflexivity).
  rewrite !R, (absorve_effect _ (cube_apply_ok n) _ _ _ _ _ A Nr). split; [reflexivity|].
  apply acc_axis_comm; [apply cube_apply_ok|].
  destruct acc as [[[[a0 d0] x0]|a0 p q]|], m as [[a d] am]; cbn in A |- *.
  - intros x [<-|[]]. cbn. destruct (axis_eqb a0 a) eqn:E; [apply axis_eqb_eq, E|congruence].
  - intros x [<-|[<-|[]]]; cbn; (destruct (axis_eqb a0 a) eqn:E; [apply axis_eqb_eq, E|congruence]).
  - intros x [].
Qed.

(** [NotAdded]: exactly when there is an accumulator on another axis; nothing changes. *)
Theorem C21_absorve_not_added : forall acc m,
  (snd (absorve acc m) = NotAdded <->
   exists nr, acc = Some nr /\ nr_axis nr <> face_axis (mv_face m)) /\
  (snd (absorve acc m) = NotAdded -> fst (absorve acc m) = acc).
Proof.
  intros [[[[a0 d0] x0]|a0 p q]|] [[a d] am]; cbn.
  - destruct (axis_eqb a0 a) eqn:E.
    + apply axis_eqb_eq in E; subst.
      destruct d0, d; try destruct (amount_add x0 am); cbn; repeat split; try discriminate;
        intros (nr & [= <-] & Ne); cbn in Ne; congruence.
    + apply axis_eqb_false in E. repeat split; auto. intros _; eexists; split; [reflexivity|exact E].
  - destruct (axis_eqb a0 a) eqn:E.
    + apply axis_eqb_eq in E; subst.
      destruct d; [destruct (amount_add p am)|destruct (amount_add q am)]; cbn;
        repeat split; try discriminate;
        intros (nr & [= <-] & Ne); cbn in Ne; congruence.
    + apply axis_eqb_false in E. repeat split; auto. intros _; eexists; split; [reflexivity|exact E].
  - repeat split; try discriminate. intros (nr & [=] & _).
Qed.

(** [Collapsed]: exactly when the accumulator turns the face of [m] by the opposite
    amount, so that the face cancels out. *)
Theorem C21_absorve_collapsed : forall acc m,
  snd (absorve acc m) = Collapsed <->
  exists nr m', acc = Some nr /\ In m' (nr_moves nr) /\ mv_face m' = mv_face m /\
    (quarter_turns (mv_amount m') + quarter_turns (mv_amount m)) mod 4 = 0.
Proof.
  intros [[[[a0 d0] x0]|a0 p q]|] [[a d] am]; cbn.
  - split.
    + destruct (axis_eqb a0 a) eqn:E; [apply axis_eqb_eq in E; subst|discriminate].
      pose proof (amount_add_num x0 am) as Q.
      destruct d0, d; try discriminate; destruct (amount_add x0 am); try discriminate;
        intros _; eexists; eexists; (split; [reflexivity|]); (split; [left; reflexivity|]);
        (split; [reflexivity|exact Q]).
    + intros (nr & m' & [= <-] & [<-|[]] & [= -> ->] & Z). cbn in Z. rewrite axis_eqb_refl.
      pose proof (amount_add_num x0 am) as Q.
      destruct d, (amount_add x0 am) as [[]|]; cbn in *; congruence.
  - split.
    + destruct (axis_eqb a0 a) eqn:E; [apply axis_eqb_eq in E; subst|discriminate].
      pose proof (amount_add_num p am) as Q1. pose proof (amount_add_num q am) as Q2.
      destruct d; [destruct (amount_add p am)|destruct (amount_add q am)]; try discriminate; intros _.
      * exists (NRDouble a p q), (mkMove (mkFace a Positive) p). cbn. auto.
      * exists (NRDouble a p q), (mkMove (mkFace a Negative) q). cbn. auto.
    + intros (nr & m' & [= <-] & [<-|[<-|[]]] & [= -> <-] & Z); cbn in Z; rewrite axis_eqb_refl.
      * pose proof (amount_add_num p am) as Q. destruct (amount_add p am) as [[]|]; cbn in *; congruence.
      * pose proof (amount_add_num q am) as Q. destruct (amount_add q am) as [[]|]; cbn in *; congruence.
  - split; [discriminate|]. intros (nr & m' & [=] & _).
Qed.

Example C21_cases :
  snd (absorve (Some (NRDouble AX Single Double)) (mkMove fL Double)) = Collapsed /\
  snd (absorve (Some (NRDouble AX Single Double)) (mkMove fU Double)) = NotAdded /\
  snd (absorve (Some (NRSingle (mkMove fR Single))) (mkMove fL Double)) = Added /\
  snd (absorve (Some (NRSingle (mkMove fR Single))) (mkMove fR Single)) = Absorved.
Proof. repeat split. Qed.
Print Assumptions C21_absorve_effect.
Print Assumptions C21_absorve_not_added.
Print Assumptions C21_absorve_collapsed.

(* ------------------------------------------------------------------ *)
(** * C22: random algs *)

Theorem C22_random_alg : forall (len : nat) (rng : nat -> nat),
  exists al, random_alg len rng = Some (Done al) /\ length al = len /\ irredundant al.
Proof. exact random_alg_props. Qed.

Example C22_example :
  random_alg 3 (fun k => match k with 0 => 44 | _ => 7 end) =
  Some (Done [mkMove fF Inverse; mkMove fB Inverse; mkMove fR Double]).
Proof. vm_compute. reflexivity. Qed.
Print Assumptions C22_random_alg.

(* ------------------------------------------------------------------ *)
(** * C23: quarter turns *)

(** Quarter turns (in either direction) needed for an amount. *)
Definition quarter_metric (a : Amount) : nat := Nat.min (quarter_turns a) (4 - quarter_turns a).

Theorem C23_quarter_alg : forall al : list AxisMove,
  (forall n : CubeSize, same_effect (cube_apply_quarter n) (cube_apply n) (quarter_alg al) al) /\
  length (quarter_alg al) = list_sum (map (fun m => quarter_metric (mv_amount m)) al).
Proof.
  intros al. split.
  - intros n c. apply quarter_alg_effect, cube_apply_ok.
  - induction al as [|[f []] al IH]; cbn in *; auto.
Qed.

(** Every quarter turn, seen as an [AxisMove], is a turn of the same face by one quarter. *)
Theorem C23_quarter_is_single : forall q,
  mv_face (move_of_quarter q) = q_face q /\
  quarter_turns (mv_amount (move_of_quarter q)) = match q_dir q with Positive => 1 | Negative => 3 end.
Proof. intros [f []]; split; reflexivity. Qed.

Example C23_example :
  length (quarter_alg [mkMove fR Double; mkMove fU Inverse; mkMove fF Single]) = 4.
Proof. reflexivity. Qed.
Print Assumptions C23_quarter_alg.
Print Assumptions C23_quarter_is_single.

(** How [normalized] behaves when moves cancel: a pass that does not end in canonical form
    shortens the alg by at least two moves, and no fixed number of passes is enough. *)

From Coq Require Import List Bool Arith Lia.
From Verif Require Import Model_Base Model_Space Model_Moves Model_NonRedundant
  Spec_Moves Proof_Moves Proof_NonRedundant.
Import ListNotations.

(** ** One pass either ends in canonical form or loses two moves *)

Lemma absorve_head acc m acc' r out :
  absorve acc m = (acc', r) -> r = Absorved \/ r = Added ->
  head_axis_ne acc out -> (acc = None -> out = []) ->
  head_axis_ne acc' out /\ acc' <> None.
Proof.
  intros A Hr Hd Hnone. destruct m as [[a d] am], acc as [[[[a0 d0] x0]|a0 p n]|]; simpl in A.
  - destruct (axis_eqb a0 a) eqn:E; [apply axis_eqb_eq in E; subst|destruct Hr; congruence].
    destruct d0, d; try destruct (amount_add x0 am); inversion A; subst;
      (split; [exact Hd|discriminate]) || (destruct Hr; discriminate).
  - destruct (axis_eqb a0 a) eqn:E; [apply axis_eqb_eq in E; subst|destruct Hr; congruence].
    destruct d; [destruct (amount_add p am)|destruct (amount_add n am)];
      inversion A; subst; (split; [exact Hd|discriminate]) || (destruct Hr; discriminate).
  - inversion A; subst. rewrite (Hnone eq_refl). split; [exact I|discriminate].
Qed.

Lemma absorve_not_added acc m acc' :
  absorve acc m = (acc', NotAdded) ->
  acc' = acc /\ exists nr, acc = Some nr /\ nr_axis nr <> face_axis (mv_face m).
Proof.
  intros A. destruct m as [[a d] am], acc as [[[[a0 d0] x0]|a0 p n]|]; simpl in A.
  - destruct (axis_eqb a0 a) eqn:E.
    + destruct d0, d; try destruct (amount_add x0 am); congruence.
    + inversion A; subst. split; [reflexivity|]. eexists; split; [reflexivity|].
      cbn. apply axis_eqb_false, E.
  - destruct (axis_eqb a0 a) eqn:E.
    + destruct d; [destruct (amount_add p am)|destruct (amount_add n am)]; congruence.
    + inversion A; subst. split; [reflexivity|]. eexists; split; [reflexivity|].
      cbn. apply axis_eqb_false, E.
  - congruence.
Qed.

Lemma loop_length fuel : forall input out acc r,
  normalize_loop fuel input out acc = Some r ->
  length r <= length input + length (acc_moves acc) + length out.
Proof.
  induction fuel as [|fuel IH]; intros input out acc r; simpl; [discriminate|].
  destruct input as [|m input].
  - intros [= <-]. rewrite offload_eq, app_length, rev_length. simpl; lia.
  - cbn [length] in *. destruct (absorve acc m) as [acc' res] eqn:A.
    pose proof (absorve_size _ _ _ _ A) as Sz.
    destruct res.
    + intros H; apply IH in H; lia.
    + intros H; apply IH in H; lia.
    + subst acc'. cbn [absorve fst]. intros H; apply IH in H.
      rewrite offload_eq, app_length, rev_length in H. simpl in *; lia.
    + rewrite offload_eq.
      pose proof (app_length (rev (acc_moves acc')) out) as AL. rewrite rev_length in AL.
      destruct (rev (acc_moves acc') ++ out) as [|top out'];
        intros H; apply IH in H; simpl in *; lia.
Qed.

Lemma loop_canonical_or_shorter fuel : forall input out acc r,
  canonical out -> head_axis_ne acc out -> (acc = None -> out = []) ->
  normalize_loop fuel input out acc = Some r ->
  canonical r \/ length r + 2 <= length input + length (acc_moves acc) + length out.
Proof.
  induction fuel as [|fuel IH]; intros input out acc r Can Hd Hnone; simpl; [discriminate|].
  destruct input as [|m input].
  - intros [= <-]. left. rewrite offload_eq. apply canonical_offload; auto.
  - destruct (absorve acc m) as [acc' res] eqn:A.
    pose proof (absorve_size _ _ _ _ A) as Sz.
    destruct res.
    + destruct (absorve_head _ _ _ _ out A (or_introl eq_refl) Hd Hnone) as [H1 H2].
      intros H. destruct (IH input out acc' r Can H1) as [C|L]; auto; [contradiction|].
      right. cbn [length]. lia.
    + destruct (absorve_head _ _ _ _ out A (or_intror eq_refl) Hd Hnone) as [H1 H2].
      intros H. destruct (IH input out acc' r Can H1) as [C|L]; auto; [contradiction|].
      right. cbn [length]. lia.
    + destruct (absorve_not_added _ _ _ A) as [-> (nr & -> & Ne)]. cbn [absorve fst].
      intros H. rewrite offload_eq in H.
      destruct (IH input (rev (acc_moves (Some nr)) ++ out) (Some (NRSingle m)) r) as [C|L].
      * apply canonical_offload; assumption.
      * destruct nr as [m0|a p n]; cbn in *; congruence.
      * discriminate.
      * exact H.
      * left; exact C.
      * right. rewrite app_length, rev_length in L. cbn [length acc_moves nr_moves] in *. lia.
    + rewrite offload_eq.
      pose proof (app_length (rev (acc_moves acc')) out) as AL. rewrite rev_length in AL.
      destruct (rev (acc_moves acc') ++ out) as [|top out'];
        intros H; apply loop_length in H; right; simpl in *; lia.
Qed.

Lemma normalized_canonical_or_shorter al :
  canonical (normalized al) \/ length (normalized al) + 2 <= length al.
Proof.
  destruct (normalized_some al) as [E _]. unfold normalized_opt in E.
  apply loop_canonical_or_shorter in E; [|exact I|exact I|reflexivity].
  rewrite rev_length in E. cbn in E. destruct E; [left; assumption|right; lia].
Qed.

(** ** Canonical form in words *)

Lemma canonical_negative_first al : canonical al -> negative_first al.
Proof.
  intros H m1 m2 (b & a & ->) E. apply canonical_app_r in H. simpl in H.
  destruct H as [H _]. apply H, E.
Qed.

Lemma canonical_of_spec al : no_repeated_face al -> negative_first al -> canonical al.
Proof.
  intros H1 H2. induction al as [|a [|b l] IH]; [exact I|exact I|].
  split.
  - intros E. assert (Sg : segment [a; b] (a :: b :: l)) by (exists [], l; reflexivity).
    split; [eapply H2; eauto|].
    specialize (H1 _ _ Sg). specialize (H2 _ _ Sg E).
    destruct a as [[aa ad] ax], b as [[ba bd] bx]; cbn in *; subst. destruct bd; congruence.
  - apply IH.
    + intros m1 m2 (p & s & Es). apply H1. exists (a :: p), s. rewrite Es. reflexivity.
    + intros m1 m2 (p & s & Es). apply H2. exists (a :: p), s. rewrite Es. reflexivity.
Qed.

(** ** Repeated passes *)

Lemma times_shift {A} (f : A -> A) n x : times n f (f x) = f (times n f x).
Proof. induction n as [|n IH]; [reflexivity|]. cbn. rewrite IH. reflexivity. Qed.

Lemma times_fixpoint {A} (f : A -> A) n x : f x = x -> times n f x = x.
Proof. intros E. induction n as [|n IH]; [reflexivity|]. cbn. rewrite IH. exact E. Qed.

Lemma repeated_canonical k : forall al, length al < 2 * k -> canonical (times k normalized al).
Proof.
  induction k as [|k IH]; intros al L; [lia|].
  cbn [times]. rewrite <- times_shift.
  destruct (normalized_canonical_or_shorter al) as [C|S].
  - rewrite times_fixpoint; [exact C|apply normalized_fixpoint, C].
  - apply IH. lia.
Qed.

(** ** Fuel *)

Lemma loop_fuel_more f : forall g input out acc r,
  normalize_loop f input out acc = Some r -> normalize_loop (f + g) input out acc = Some r.
Proof.
  induction f as [|f IH]; intros g input out acc r; [discriminate|]. cbn [Nat.add normalize_loop].
  destruct input as [|m input]; [auto|].
  destruct (absorve acc m) as [acc' []]; auto.
  destruct (offload acc' out); auto.
Qed.

Lemma normalized_by f al r : normalize_loop f (rev al) [] None = Some r -> normalized al = r.
Proof.
  intros H. destruct (normalized_some al) as [E _]. unfold normalized_opt in E.
  pose proof (loop_fuel_more _ f _ _ _ _ E) as E'.
  pose proof (loop_fuel_more _ (normalize_fuel al) _ _ _ _ H) as H'.
  rewrite Nat.add_comm in E'. congruence.
Qed.

(** ** Reading a canonical stretch *)

Lemma canonical_prefix l1 l2 : canonical (l1 ++ l2) -> canonical l1.
Proof.
  induction l1 as [|a l1 IH]; [intros; exact I|]. destruct l1 as [|b l1]; [intros; exact I|].
  cbn [app]. intros [H1 H2]. split; [exact H1|]. apply IH. exact H2.
Qed.

Definition starts_on (acc : option NRMove) (l : list AxisMove) : Prop :=
  match l with
  | m :: _ => exists nr, acc = Some nr /\ nr_axis nr = face_axis (mv_face m)
  | [] => True
  end.

Lemma read_canonical : forall S out acc,
  canonical (S ++ rev (acc_moves acc)) -> (acc = None -> out = []) ->
  exists out' acc',
    rev (acc_moves acc') ++ out' = S ++ rev (acc_moves acc) ++ out /\
    (S = [] -> acc' = acc /\ out' = out) /\
    (acc' = None -> out' = []) /\ starts_on acc' S /\
    forall fuel input,
      normalize_loop (length S + fuel) (rev S ++ input) out acc = normalize_loop fuel input out' acc'.
Proof.
  intros S. induction S as [|m S IH] using rev_ind.
  - intros out acc Can Hn. exists out, acc. repeat split; auto. 
  - intros out acc Can Hn. rewrite <- app_assoc in Can. cbn [app] in Can.
    pose proof (canonical_app_r _ _ Can) as Can'.
    (* one move *)
    assert (Step : exists out1 acc1,
      rev (acc_moves acc1) ++ out1 = m :: rev (acc_moves acc) ++ out /\
      (acc1 <> None) /\ starts_on acc1 [m] /\
      (exists l, rev (acc_moves acc1) = m :: l /\ canonical (S ++ m :: l)) /\
      forall fuel input,
        normalize_loop (Datatypes.S fuel) (m :: input) out acc = normalize_loop fuel input out1 acc1).
    { destruct m as [[a d] am]. destruct acc as [[[[a0 d0] x0]|a0 p n]|].
      - cbn in Can'. destruct Can' as [Adj _].
        cbn [normalize_loop absorve mv_face face_axis face_dir]. destruct (axis_eqb a0 a) eqn:E.
        + apply axis_eqb_eq in E; subst a0. destruct (Adj eq_refl) as [-> ->].
          exists out, (Some (NRDouble a x0 am)). cbn. split; [reflexivity|split; [discriminate|split; [eexists; split; reflexivity|split; [|reflexivity]]]].
          exists [mkMove (mkFace a Positive) x0]. split; [reflexivity|exact Can].
        + exists (mkMove (mkFace a0 d0) x0 :: out), (Some (NRSingle (mkMove (mkFace a d) am))).
          cbn. split; [reflexivity|split; [discriminate|split; [eexists; split; reflexivity|split; [|reflexivity]]]].
          exists []. split; [reflexivity|]. cbn in Can.
          change (mkMove (mkFace a d) am :: [mkMove (mkFace a0 d0) x0])
            with ([mkMove (mkFace a d) am] ++ [mkMove (mkFace a0 d0) x0]) in Can.
          rewrite app_assoc in Can. apply canonical_prefix in Can. exact Can.
      - cbn in Can'. destruct Can' as [Adj _].
        cbn [normalize_loop absorve mv_face face_axis face_dir]. destruct (axis_eqb a0 a) eqn:E.
        + apply axis_eqb_eq in E; subst a0. destruct (Adj eq_refl) as [_ [=]].
        + eexists (mkMove (mkFace a0 Negative) n :: mkMove (mkFace a0 Positive) p :: out),
            (Some (NRSingle (mkMove (mkFace a d) am))).
          cbn. split; [reflexivity|split; [discriminate|split; [eexists; split; reflexivity|split; [|reflexivity]]]].
          exists []. split; [reflexivity|]. cbn in Can.
          change (mkMove (mkFace a d) am :: [mkMove (mkFace a0 Negative) n; mkMove (mkFace a0 Positive) p])
            with ([mkMove (mkFace a d) am] ++ [mkMove (mkFace a0 Negative) n; mkMove (mkFace a0 Positive) p]) in Can.
          rewrite app_assoc in Can. apply canonical_prefix in Can. exact Can.
      - rewrite (Hn eq_refl) in *. exists [], (Some (NRSingle (mkMove (mkFace a d) am))).
        cbn. split; [reflexivity|split; [discriminate|split; [eexists; split; reflexivity|split; [|reflexivity]]]].
        exists []. split; [reflexivity|]. cbn in Can. exact Can. }
    destruct Step as (out1 & acc1 & Eq1 & Ne1 & St1 & (l & El & Cl) & Run1).
    destruct (IH out1 acc1) as (out2 & acc2 & Eq2 & Nil2 & Ne2 & St2 & Run2).
    { rewrite El. exact Cl. }
    { intros; contradiction. }
    exists out2, acc2. split; [|split; [|split; [|split]]].
    + rewrite Eq2, Eq1, <- app_assoc. reflexivity.
    + intros E. destruct S; discriminate E.
    + exact Ne2.
    + destruct S as [|m0 S]; [|exact St2]. destruct (Nil2 eq_refl) as [-> ->]. exact St1.
    + intros fuel input. rewrite rev_app_distr, app_length. cbn [rev app length].
      replace (length S + 1 + fuel) with (Datatypes.S (length S + fuel)) by lia.
      rewrite Run1. apply Run2.
Qed.

(** ** A family that needs one more pass at every level: L R D U .. R R' .. D' U' L' R' *)

Definition level_axis (i : nat) : Axis := if Nat.even i then AX else AY.
Definition neg_turn (i : nat) (a : Amount) : AxisMove := mkMove (mkFace (level_axis i) Negative) a.
Definition pos_turn (i : nat) (a : Amount) : AxisMove := mkMove (mkFace (level_axis i) Positive) a.
Fixpoint opening (k : nat) : list AxisMove :=
  match k with 0 => [] | S k => opening k ++ [neg_turn k Single; pos_turn k Single] end.
Fixpoint closing (k : nat) : list AxisMove :=
  match k with 0 => [] | S k => [neg_turn k Inverse; pos_turn k Inverse] ++ closing k end.
Definition nested (k : nat) : list AxisMove :=
  opening k ++ [pos_turn k Single; pos_turn k Inverse] ++ closing k.

Lemma level_axis_ne k : level_axis (S k) <> level_axis k.
Proof.
  unfold level_axis. rewrite Nat.even_succ, <- Nat.negb_even. destruct (Nat.even k); discriminate.
Qed.
Lemma level_axis_eqb k : axis_eqb (level_axis k) (level_axis (S k)) = false.
Proof.
  unfold level_axis. rewrite Nat.even_succ, <- Nat.negb_even. destruct (Nat.even k); reflexivity.
Qed.

Lemma canonical_opening k : canonical (opening k ++ [pos_turn k Single]).
Proof.
  assert (H : forall k l, canonical l ->
    match l with m :: _ => face_axis (mv_face m) = level_axis k | [] => True end ->
    canonical (opening k ++ l)).
  { clear k. induction k as [|k IH]; intros l Hl Hx; [exact Hl|]. cbn [opening]. rewrite <- app_assoc.
    cbn [app]. apply IH; [|reflexivity].
    split; [intros _; split; reflexivity|]. destruct l as [|m l]; [exact I|]. split; [|exact Hl].
    cbn. rewrite Hx. intros E. exfalso. apply (level_axis_ne k). symmetry. exact E. }
  apply H; [exact I|reflexivity].
Qed.

Lemma canonical_closing k : canonical (closing k).
Proof.
  induction k as [|k IH]; [exact I|]. cbn [closing app]. split; [intros _; split; reflexivity|].
  destruct k as [|k]; [exact I|]. split; [|exact IH]. cbn. intros E. exfalso. exact (level_axis_ne k E).
Qed.

Lemma loop_S fuel m input out acc :
  normalize_loop (S fuel) (m :: input) out acc =
  match absorve acc m with
  | (acc', NotAdded) => normalize_loop fuel input (offload acc' out) (fst (absorve None m))
  | (acc', Collapsed) =>
      match offload acc' out with
      | [] => normalize_loop fuel input [] None
      | top :: out' => normalize_loop fuel (top :: input) out' None
      end
  | (acc', _) => normalize_loop fuel input out acc'
  end.
Proof. reflexivity. Qed.

Lemma normalized_nested k : normalized (nested (S k)) = nested k.
Proof.
  destruct (read_canonical (closing (S k)) [] None) as (out & acc & Eq & _ & _ & St & Run).
  { rewrite app_nil_r. apply canonical_closing. }
  { reflexivity. }
  cbn [acc_moves rev app] in Eq. rewrite app_nil_r in Eq.
  cbn in St. destruct St as (nr & -> & Ax).
  destruct (read_canonical (opening k) (pos_turn k Inverse :: closing k) (Some (NRSingle (pos_turn k Single))))
    as (out2 & acc2 & Eq2 & _ & _ & _ & Run2).
  { cbn. apply canonical_opening. }
  { discriminate. }
  apply (normalized_by (length (closing (S k)) + S (S (S (S (S (S (length (opening k) + 1)))))))).
  unfold nested. rewrite !rev_app_distr. cbn [rev app opening]. rewrite rev_app_distr. cbn [rev app].
  rewrite <- !app_assoc. cbn [app]. rewrite Run.
  (* the inverse of the centre does not fit the accumulator *)
  assert (N1 : absorve (Some nr) (pos_turn (S k) Inverse) = (Some nr, NotAdded)).
  { destruct nr as [[[a0 d0] x0]|a0 p n]; cbn in Ax |- *; subst a0; rewrite level_axis_eqb; reflexivity. }
  assert (N2 : absorve None (pos_turn (S k) Inverse) = (Some (NRSingle (pos_turn (S k) Inverse)), Absorved))
    by reflexivity.
  (* the centre cancels it, and one move of the last pair goes back *)
  assert (N3 : absorve (Some (NRSingle (pos_turn (S k) Inverse))) (pos_turn (S k) Single) = (None, Collapsed))
    by (unfold pos_turn, level_axis; destruct (Nat.even (S k)); reflexivity).
  assert (N4 : absorve None (neg_turn k Inverse) = (Some (NRSingle (neg_turn k Inverse)), Absorved))
    by reflexivity.
  assert (N5 : absorve (Some (NRSingle (neg_turn k Inverse))) (pos_turn k Single)
               = (Some (NRDouble (level_axis k) Single Inverse), Added))
    by (unfold neg_turn, pos_turn, level_axis; destruct (Nat.even k); reflexivity).
  assert (N6 : absorve (Some (NRDouble (level_axis k) Single Inverse)) (neg_turn k Single)
               = (Some (NRSingle (pos_turn k Single)), Collapsed))
    by (unfold neg_turn, pos_turn, level_axis; destruct (Nat.even k); reflexivity).
  assert (N7 : absorve None (pos_turn k Single) = (Some (NRSingle (pos_turn k Single)), Absorved))
    by reflexivity.
  rewrite loop_S, N1, N2, offload_eq, Eq. cbn [fst].
  rewrite loop_S, N3. cbn [offload closing app].
  rewrite loop_S, N4, loop_S, N5, loop_S, N6. cbn [offload nr_moves fold_left].
  rewrite loop_S, N7, <- (app_nil_r (rev (opening k))), Run2.
  cbn [normalize_loop]. rewrite offload_eq, Eq2. cbn [acc_moves nr_moves rev app]. reflexivity.
Qed.

Lemma times_nested k : times k normalized (nested k) = nested 0.
Proof.
  induction k as [|k IH]; [reflexivity|]. cbn [times]. rewrite <- times_shift, normalized_nested. exact IH.
Qed.

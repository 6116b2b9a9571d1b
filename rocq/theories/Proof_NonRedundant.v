(** Proofs about non-redundant moves, [normalized] and random algs. *)

From Coq Require Import List Bool Arith Lia.
From Verif Require Import Model_Base Model_Space Model_Moves Model_NonRedundant
  Proof_Moves Spec_Moves.
Import ListNotations.

Definition acc_moves (acc : option NRMove) : list AxisMove :=
  match acc with None => [] | Some nr => nr_moves nr end.

Lemma offload_eq acc out : offload acc out = rev (acc_moves acc) ++ out.
Proof. destruct acc as [[m|a p n]|]; reflexivity. Qed.

Ltac destruct_all_face m :=
  let f := fresh "f" in let a := fresh "a" in let d := fresh "d" in let am := fresh "am" in
  destruct m as [f am]; destruct f as [a d].

Lemma axis_eqb_false a b : axis_eqb a b = false -> a <> b.
Proof. intros H E. apply axis_eqb_eq in E. congruence. Qed.
Lemma axis_eqb_refl a : axis_eqb a a = true.
Proof. destruct a; reflexivity. Qed.

Section Effect.
  Context {C : Type} (act : C -> AxisMove -> C) (OK : move_action_ok act).

  Lemma comm2 c m1 m2 :
    face_axis (mv_face m1) = face_axis (mv_face m2) -> act (act c m1) m2 = act (act c m2) m1.
  Proof.
    destruct m1 as [[a1 d1] x1], m2 as [[a2 d2] x2]; simpl; intros ->. apply (ma_comm _ OK).
  Qed.

  (** The accumulator after a successful absorption acts like the move followed by
      the old accumulator. *)
  Lemma absorve_effect acc m acc' r c :
    absorve acc m = (acc', r) -> r <> NotAdded ->
    fold_left act (acc_moves acc') c = fold_left act (acc_moves acc) (act c m).
  Proof.
    destruct_all_face m. destruct acc as [[[[a0 d0] x0]|a0 p n]|]; simpl.
    - destruct (axis_eqb a0 a) eqn:E; [apply axis_eqb_eq in E; subst a0|intros [= <- <-]; congruence].
      destruct d0, d.
      + destruct (amount_add x0 am) as [s|] eqn:S; intros [= <- <-] _; simpl;
          rewrite (comm2 c _ (mkMove (mkFace a Positive) x0)) by reflexivity;
          rewrite (ma_add _ OK), S; reflexivity.
      + intros [= <- <-] _; simpl. apply comm2; reflexivity.
      + intros [= <- <-] _; simpl. reflexivity.
      + destruct (amount_add x0 am) as [s|] eqn:S; intros [= <- <-] _; simpl;
          rewrite (comm2 c _ (mkMove (mkFace a Negative) x0)) by reflexivity;
          rewrite (ma_add _ OK), S; reflexivity.
    - destruct (axis_eqb a0 a) eqn:E; [apply axis_eqb_eq in E; subst a0|intros [= <- <-]; congruence].
      destruct d.
      + destruct (amount_add p am) as [s|] eqn:S; intros [= <- <-] _; simpl;
          rewrite (comm2 c _ (mkMove (mkFace a Positive) p)) by reflexivity;
          rewrite (ma_add _ OK), S; reflexivity.
      + destruct (amount_add n am) as [s|] eqn:S; intros [= <- <-] _; simpl;
          rewrite (comm2 c _ (mkMove (mkFace a Positive) p)) by reflexivity;
          rewrite (comm2 (act c _) _ (mkMove (mkFace a Negative) n)) by reflexivity;
          rewrite (ma_add _ OK), S; reflexivity.
    - intros [= <- <-] _; reflexivity.
  Qed.

  Lemma acc_axis_comm acc m c :
    (forall x, In x (acc_moves acc) -> face_axis (mv_face x) = face_axis (mv_face m)) ->
    fold_left act (acc_moves acc) (act c m) = act (fold_left act (acc_moves acc) c) m.
  Proof.
    destruct acc as [[x|a p n]|]; simpl; intros H.
    - apply comm2. symmetry. apply H. auto.
    - pose proof (H _ (or_introl eq_refl)) as H1; simpl in H1.
      rewrite (comm2 c m) by (simpl; congruence).
      rewrite (comm2 (act c _) m) by (simpl; congruence). reflexivity.
    - reflexivity.
  Qed.

  Lemma fold_rev_acc acc c :
    fold_left act (rev (acc_moves acc)) c = fold_left act (acc_moves acc) c.
  Proof.
    destruct acc as [[x|a p n]|]; simpl; try reflexivity. apply comm2; reflexivity.
  Qed.

  Lemma loop_effect fuel : forall input out acc r c,
    normalize_loop fuel input out acc = Some r ->
    fold_left act r c = fold_left act (rev input ++ acc_moves acc ++ out) c.
  Proof.
    induction fuel as [|fuel IH]; intros input out acc r c; simpl; [discriminate|].
    destruct input as [|m input].
    - intros [= <-]. simpl. rewrite offload_eq, !fold_left_app, fold_rev_acc. reflexivity.
    - destruct (absorve acc m) as [acc' res] eqn:A. simpl rev.
      rewrite <- app_assoc, fold_left_app. cbn [List.app fold_left].
      set (c' := fold_left act (rev input) c).
      assert (K : res <> NotAdded ->
                  fold_left act (acc_moves acc' ++ out) c' =
                  fold_left act ([m] ++ acc_moves acc ++ out) c').
      { intros N. rewrite !fold_left_app. cbn [fold_left].
        rewrite (absorve_effect _ _ _ _ _ A N). reflexivity. }
      destruct res.
      + intros H. apply (IH _ _ _ _ c) in H. rewrite H, fold_left_app. apply K; discriminate.
      + intros H. apply (IH _ _ _ _ c) in H. rewrite H, fold_left_app. apply K; discriminate.
      + intros H. apply (IH _ _ _ _ c) in H. rewrite H, fold_left_app. fold c'.
        assert (acc' = acc).
        { clear - A. destruct m as [[a d] am], acc as [[[[a0 d0] x0]|a0 p n]|]; simpl in A.
          - destruct (axis_eqb a0 a); [|congruence].
            destruct d0, d; try destruct (amount_add x0 am); congruence.
          - destruct (axis_eqb a0 a); [|congruence].
            destruct d; [destruct (amount_add p am)|destruct (amount_add n am)]; congruence.
          - congruence. }
        subst acc'. cbn. rewrite offload_eq, !fold_left_app, fold_rev_acc. reflexivity.
      + rewrite offload_eq.
        assert (E : fold_left act ([m] ++ acc_moves acc ++ out) c'
                    = fold_left act (rev (acc_moves acc') ++ out) c').
        { rewrite <- K by discriminate. rewrite !fold_left_app, fold_rev_acc. reflexivity. }
        cbn [List.app fold_left] in E. rewrite E.
        destruct (rev (acc_moves acc') ++ out) as [|top out'].
        * intros H. apply (IH _ _ _ _ c) in H. rewrite H, fold_left_app. reflexivity.
        * intros H. apply (IH _ _ _ _ c) in H. rewrite H. simpl.
          rewrite <- app_assoc, fold_left_app. reflexivity.
  Qed.
End Effect.

(** Sizes: every step consumes at least one unit of [2*input + acc + out]. *)
Lemma absorve_size acc m acc' r :
  absorve acc m = (acc', r) ->
  match r with
  | NotAdded => acc' = acc
  | Collapsed => S (length (acc_moves acc')) = length (acc_moves acc)
  | _ => length (acc_moves acc') <= S (length (acc_moves acc))
  end.
Proof.
  destruct m as [[a d] am], acc as [[[[a0 d0] x0]|a0 p n]|]; simpl.
  - destruct (axis_eqb a0 a); [|intros [= <- <-]; reflexivity].
    destruct d0, d; try destruct (amount_add x0 am); intros [= <- <-]; simpl; auto; lia.
  - destruct (axis_eqb a0 a); [|intros [= <- <-]; reflexivity].
    destruct d; [destruct (amount_add p am)|destruct (amount_add n am)];
      intros [= <- <-]; simpl; auto.
  - intros [= <- <-]; simpl; lia.
Qed.

Lemma loop_terminates fuel : forall input out acc,
  2 * length input + length (acc_moves acc) + length out < fuel ->
  exists r, normalize_loop fuel input out acc = Some r /\
    length r <= length input + length (acc_moves acc) + length out.
Proof.
  induction fuel as [|fuel IH]; intros input out acc H; [lia|]. simpl.
  destruct input as [|m input].
  - eexists; split; [reflexivity|]. rewrite offload_eq, app_length, rev_length. simpl; lia.
  - cbn [length] in *. destruct (absorve acc m) as [acc' res] eqn:A.
    pose proof (absorve_size _ _ _ _ A) as Sz.
    destruct res.
    + destruct (IH input out acc') as (r & E & L); [lia|]. exists r; split; [exact E|lia].
    + destruct (IH input out acc') as (r & E & L); [lia|]. exists r; split; [exact E|lia].
    + subst acc'. cbn [absorve fst].
      destruct (IH input (offload acc out) (Some (NRSingle m))) as (r & E & L).
      * rewrite offload_eq, app_length, rev_length. simpl; lia.
      * exists r; split; [exact E|]. rewrite offload_eq, app_length, rev_length in L. simpl in *; lia.
    + rewrite offload_eq.
      pose proof (app_length (rev (acc_moves acc')) out) as AL. rewrite rev_length in AL.
      destruct (rev (acc_moves acc') ++ out) as [|top out'].
      * destruct (IH input [] None) as (r & E & L); [simpl in *; lia|].
        exists r; split; [exact E|simpl in *; lia].
      * destruct (IH (top :: input) out' None) as (r & E & L); [simpl in *; lia|].
        exists r; split; [exact E|simpl in *; lia].
Qed.

Lemma normalized_some al :
  normalized_opt al = Some (normalized al) /\ length (normalized al) <= length al.
Proof.
  unfold normalized. unfold normalized_opt.
  destruct (loop_terminates (normalize_fuel al) (rev al) [] None) as (r & E & L).
  - unfold normalize_fuel. rewrite rev_length. simpl; lia.
  - rewrite E. split; [reflexivity|]. rewrite rev_length in L. simpl in L; lia.
Qed.

Lemma normalized_effect {C} (app : C -> AxisMove -> C) (OK : move_action_ok app) al c :
  fold_left app (normalized al) c = fold_left app al c.
Proof.
  destruct (normalized_some al) as [E _]. unfold normalized_opt in E.
  rewrite (loop_effect app OK _ _ _ _ _ c E), rev_involutive. simpl.
  rewrite app_nil_r. reflexivity.
Qed.

(** ** Fixed points and absence of cancellation *)

(** Adjacent moves on one axis: the negative face comes first. *)
Fixpoint canonical (al : list AxisMove) : Prop :=
  match al with
  | m1 :: ((m2 :: _) as r) =>
      (face_axis (mv_face m1) = face_axis (mv_face m2) ->
       face_dir (mv_face m1) = Negative /\ face_dir (mv_face m2) = Positive) /\ canonical r
  | _ => True
  end.

Lemma canonical_tail m l : canonical (m :: l) -> canonical l.
Proof. destruct l as [|b r]; [intros _; exact I|intros [_ H]; exact H]. Qed.
Lemma canonical_app_r l1 l2 : canonical (l1 ++ l2) -> canonical l2.
Proof.
  induction l1 as [|a l1 IH]; [auto|]. intros H. apply IH. exact (canonical_tail _ _ H).
Qed.

Lemma canonical_irredundant al : canonical al -> irredundant al.
Proof.
  intros H. split.
  - intros m1 m2 (b & a & ->). apply canonical_app_r in H. simpl in H.
    destruct H as [H _]. intros E. destruct H as [H1 H2]; congruence.
  - intros m1 m2 m3 (b & a & ->) [E1 E2]. apply canonical_app_r in H. simpl in H.
    destruct H as (H1 & H2 & _). specialize (H1 E1). specialize (H2 E2). destruct H1, H2; congruence.
Qed.

Lemma loop_fixpoint fuel : forall input out acc r,
  canonical (rev input ++ rev (acc_moves acc) ++ out) ->
  (acc = None -> out = []) ->
  normalize_loop fuel input out acc = Some r ->
  r = rev input ++ rev (acc_moves acc) ++ out.
Proof.
  induction fuel as [|fuel IH]; intros input out acc r Can Hnone; simpl; [discriminate|].
  destruct input as [|m input].
  - intros [= <-]. rewrite offload_eq. reflexivity.
  - simpl rev in *. rewrite <- app_assoc in *. cbn [app] in *.
    pose proof (canonical_app_r _ _ Can) as Can'.
    destruct m as [[a d] am]. destruct acc as [[[[a0 d0] x0]|a0 p n]|].
    + cbn in Can'. destruct Can' as [Adj _].
      cbn [absorve mv_face face_axis face_dir]. destruct (axis_eqb a0 a) eqn:E.
      * apply axis_eqb_eq in E; subst a0. destruct (Adj eq_refl) as [-> ->].
        intros H. cbn in Can |- *. cbn in H.
        apply (IH _ _ _ _) in H; [exact H|exact Can|discriminate].
      * intros H. cbn in H. apply IH in H; [exact H|exact Can|discriminate].
    + cbn in Can'. destruct Can' as [Adj _].
      cbn [absorve mv_face face_axis face_dir]. destruct (axis_eqb a0 a) eqn:E.
      * apply axis_eqb_eq in E; subst a0. destruct (Adj eq_refl) as [_ [=]].
      * intros H. cbn in H. apply IH in H; [exact H|exact Can|discriminate].
    + rewrite (Hnone eq_refl) in *. cbn. intros H. apply IH in H; [exact H|exact Can|discriminate].
Qed.

Lemma normalized_fixpoint al : canonical al -> normalized al = al.
Proof.
  intros Can. destruct (normalized_some al) as [E _]. unfold normalized_opt in E.
  apply loop_fixpoint in E.
  - rewrite rev_involutive in E. simpl in E. rewrite app_nil_r in E. exact E.
  - rewrite rev_involutive. simpl. rewrite app_nil_r. exact Can.
  - reflexivity.
Qed.

(** The accumulator holds, face by face, the turns of the run [seg] absorbed so far. *)
Definition acc_turns (acc : option NRMove) (f : Face) : nat := face_turns f (acc_moves acc).
Definition acc_of_run (acc : option NRMove) (seg : list AxisMove) : Prop :=
  match acc with
  | None => seg = []
  | Some nr =>
      (forall m, In m seg -> face_axis (mv_face m) = nr_axis nr) /\
      (forall f, face_turns f seg mod 4 = face_turns f (nr_moves nr) mod 4) /\
      (forall m, In m (nr_moves nr) -> exists m', In m' seg /\ mv_face m' = mv_face m)
  end.

Lemma amount_add_num x y :
  match amount_add x y with
  | Some s => (quarter_turns x + quarter_turns y) mod 4 = quarter_turns s
  | None => (quarter_turns x + quarter_turns y) mod 4 = 0
  end.
Proof. destruct x, y; reflexivity. Qed.

Lemma add_mod4 a b c : b mod 4 = c mod 4 -> (a + b) mod 4 = (a + c) mod 4.
Proof.
  intros H. rewrite Nat.add_mod by lia. rewrite H. rewrite <- Nat.add_mod by lia. reflexivity.
Qed.

Lemma absorve_run acc seg m acc' r :
  acc_of_run acc seg -> absorve acc m = (acc', r) -> r <> NotAdded -> r <> Collapsed ->
  acc_of_run acc' (m :: seg).
Proof.
  intros Run A N1 N2. destruct m as [[a d] am].
  destruct acc as [[[[a0 d0] x0]|a0 p n]|]; cbn [absorve mv_face mv_amount face_axis face_dir] in A.
  - destruct (axis_eqb a0 a) eqn:E; [apply axis_eqb_eq in E; subst a0|congruence].
    destruct Run as (R1 & R2 & R3). cbn in R1.
    assert (ax : forall m', In m' (mkMove (mkFace a d) am :: seg) -> face_axis (mv_face m') = a).
    { intros m' [<-|H]; [reflexivity|apply R1, H]. }
    destruct d0, d.
    + destruct (amount_add x0 am) eqn:S; inversion A; subst; [|congruence].
      split; [exact ax|]. split.
      * intros f. cbn [face_turns mv_face mv_amount nr_moves].
        rewrite (add_mod4 _ _ _ (R2 f)). cbn [face_turns nr_moves mv_face mv_amount].
        pose proof (amount_add_num x0 am) as Q; rewrite S in Q.
        destruct (face_eqb _ f); [|reflexivity].
        destruct x0, am; cbn in S; inversion S; subst; reflexivity.
      * intros m' [<-|[]]. eexists; split; [left; reflexivity|reflexivity].
    + inversion A; subst. split; [exact ax|]. split.
      * intros f. cbn [face_turns mv_face mv_amount nr_moves].
        rewrite (add_mod4 _ _ _ (R2 f)). cbn [face_turns nr_moves mv_face mv_amount]. f_equal. lia.
      * intros m' [<-|[<-|[]]].
        -- destruct (R3 _ (or_introl eq_refl)) as (m' & I' & F). exists m'. split; [right; exact I'|exact F].
        -- eexists; split; [left; reflexivity|reflexivity].
    + inversion A; subst. split; [exact ax|]. split.
      * intros f. cbn [face_turns mv_face mv_amount nr_moves].
        rewrite (add_mod4 _ _ _ (R2 f)). cbn [face_turns nr_moves mv_face mv_amount]. f_equal.
      * intros m' [<-|[<-|[]]].
        -- eexists; split; [left; reflexivity|reflexivity].
        -- destruct (R3 _ (or_introl eq_refl)) as (m' & I' & F). exists m'. split; [right; exact I'|exact F].
    + destruct (amount_add x0 am) eqn:S; inversion A; subst; [|congruence].
      split; [exact ax|]. split.
      * intros f. cbn [face_turns mv_face mv_amount nr_moves].
        rewrite (add_mod4 _ _ _ (R2 f)). cbn [face_turns nr_moves mv_face mv_amount].
        destruct (face_eqb _ f); [|reflexivity].
        destruct x0, am; cbn in S; inversion S; subst; reflexivity.
      * intros m' [<-|[]]. eexists; split; [left; reflexivity|reflexivity].
  - destruct (axis_eqb a0 a) eqn:E; [apply axis_eqb_eq in E; subst a0|congruence].
    destruct Run as (R1 & R2 & R3). cbn in R1.
    assert (ax : forall m', In m' (mkMove (mkFace a d) am :: seg) -> face_axis (mv_face m') = a).
    { intros m' [<-|H]; [reflexivity|apply R1, H]. }
    destruct d.
    + destruct (amount_add p am) eqn:S; inversion A; subst; [|congruence].
      split; [exact ax|]. split.
      * intros f. cbn [face_turns mv_face mv_amount nr_moves].
        rewrite (add_mod4 _ _ _ (R2 f)). cbn [face_turns nr_moves mv_face mv_amount].
        destruct (face_eqb (mkFace a Positive) f); [|f_equal; lia].
        destruct p, am; cbn in S; inversion S; subst;
          destruct (face_eqb _ f), n; reflexivity.
      * intros m' [<-|[<-|[]]].
        -- eexists; split; [left; reflexivity|reflexivity].
        -- destruct (R3 _ (or_intror (or_introl eq_refl))) as (m' & I' & F). exists m'. split; [right; exact I'|exact F].
    + destruct (amount_add n am) eqn:S; inversion A; subst; [|congruence].
      split; [exact ax|]. split.
      * intros f. cbn [face_turns mv_face mv_amount nr_moves].
        rewrite (add_mod4 _ _ _ (R2 f)). cbn [face_turns nr_moves mv_face mv_amount].
        destruct (face_eqb (mkFace a Negative) f); [|f_equal; lia].
        destruct n, am; cbn in S; inversion S; subst;
          destruct (face_eqb _ f), p; reflexivity.
      * intros m' [<-|[<-|[]]].
        -- destruct (R3 _ (or_introl eq_refl)) as (m' & I' & F). exists m'. split; [right; exact I'|exact F].
        -- eexists; split; [left; reflexivity|reflexivity].
  - inversion A; subst. cbn in Run; subst seg. split; [intros m' [<-|[]]; reflexivity|].
    split; [intros; reflexivity|]. intros m' [<-|[]]. eexists; split; [left; reflexivity|reflexivity].
Qed.

Lemma face_eqb_refl f : face_eqb f f = true.
Proof. destruct f as [[] []]; reflexivity. Qed.

(** A collapse means that the turns of the face of the move cancel in the run. *)
Lemma absorve_collapse_run acc seg m acc' :
  acc_of_run acc seg -> absorve acc m = (acc', Collapsed) ->
  face_turns (mv_face m) (m :: seg) mod 4 = 0 /\
  (forall m', In m' (m :: seg) -> face_axis (mv_face m') = face_axis (mv_face m)).
Proof.
  intros Run A. destruct m as [[a d] am].
  destruct acc as [[[[a0 d0] x0]|a0 p n]|]; cbn [absorve mv_face mv_amount face_axis face_dir] in A.
  - destruct (axis_eqb a0 a) eqn:E; [apply axis_eqb_eq in E; subst a0|discriminate].
    destruct Run as (R1 & R2 & _). split.
    + cbn [face_turns mv_face mv_amount]. rewrite face_eqb_refl.
      rewrite (add_mod4 _ _ _ (R2 _)). cbn [face_turns nr_moves mv_face mv_amount].
      destruct d0, d; try discriminate;
        (destruct (amount_add x0 am) eqn:S; [discriminate|]);
        rewrite face_eqb_refl; destruct x0, am; cbn in S; try discriminate; reflexivity.
    + intros m' [<-|H]; [reflexivity|apply R1, H].
  - destruct (axis_eqb a0 a) eqn:E; [apply axis_eqb_eq in E; subst a0|discriminate].
    destruct Run as (R1 & R2 & _). split.
    + cbn [face_turns mv_face mv_amount]. rewrite face_eqb_refl.
      rewrite (add_mod4 _ _ _ (R2 _)). cbn [face_turns nr_moves mv_face mv_amount].
      destruct d.
      * destruct (amount_add p am) eqn:S; [discriminate|]. rewrite face_eqb_refl.
        replace (face_eqb (mkFace a Negative) (mkFace a Positive)) with false by (destruct a; reflexivity).
        destruct p, am; cbn in S; try discriminate; reflexivity.
      * destruct (amount_add n am) eqn:S; [discriminate|]. rewrite face_eqb_refl.
        replace (face_eqb (mkFace a Positive) (mkFace a Negative)) with false by (destruct a; reflexivity).
        destruct n, am; cbn in S; try discriminate; reflexivity.
    + intros m' [<-|H]; [reflexivity|apply R1, H].
  - discriminate.
Qed.

Definition head_axis_ne (acc : option NRMove) (out : list AxisMove) : Prop :=
  match acc, out with
  | Some nr, m :: _ => nr_axis nr <> face_axis (mv_face m)
  | _, _ => True
  end.

Lemma canonical_offload acc out :
  canonical out -> head_axis_ne acc out -> canonical (rev (acc_moves acc) ++ out).
Proof.
  destruct acc as [[m|a p n]|]; simpl; intros H1 H2; auto.
  - destruct out; auto. split; auto. intros E; contradiction.
  - split; [auto|]. destruct out; auto. split; auto. intros E; contradiction.
Qed.

Lemma loop_no_cancel al fuel : no_cancellation al -> forall input out acc seg rest r,
  al = rev input ++ seg ++ rest ->
  acc_of_run acc seg -> canonical out -> head_axis_ne acc out -> (acc = None -> out = []) ->
  normalize_loop fuel input out acc = Some r -> canonical r.
Proof.
  intros NC. induction fuel as [|fuel IH]; intros input out acc seg rest r Hal Run Can Hd Hnone;
    simpl; [discriminate|].
  destruct input as [|m input].
  - intros [= <-]. rewrite offload_eq. apply canonical_offload; auto.
  - simpl rev in Hal. rewrite <- app_assoc in Hal. cbn [app] in Hal.
    destruct (absorve acc m) as [acc' res] eqn:A. destruct res.
    + apply (IH input out acc' (m :: seg) rest); auto.
      * eapply absorve_run; eauto; discriminate.
      * clear - A Hd Hnone. destruct m as [[a d] am], acc as [[[[a0 d0] x0]|a0 p n]|]; simpl in A.
        -- destruct (axis_eqb a0 a) eqn:E; [apply axis_eqb_eq in E; subst|congruence].
           destruct d0, d; try destruct (amount_add x0 am); inversion A; subst; exact Hd.
        -- destruct (axis_eqb a0 a) eqn:E; [apply axis_eqb_eq in E; subst|congruence].
           destruct d; [destruct (amount_add p am)|destruct (amount_add n am)];
             inversion A; subst; exact Hd.
        -- rewrite (Hnone eq_refl). destruct acc'; exact I.
      * intros ->. exfalso. clear - A. destruct m as [[a d] am], acc as [[[[a0 d0] x0]|a0 p n]|]; simpl in A.
        -- destruct (axis_eqb a0 a); [|congruence].
           destruct d0, d; try destruct (amount_add x0 am); congruence.
        -- destruct (axis_eqb a0 a); [|congruence].
           destruct d; [destruct (amount_add p am)|destruct (amount_add n am)]; congruence.
        -- congruence.
    + apply (IH input out acc' (m :: seg) rest); auto.
      * eapply absorve_run; eauto; discriminate.
      * clear - A Hd Hnone. destruct m as [[a d] am], acc as [[[[a0 d0] x0]|a0 p n]|]; simpl in A.
        -- destruct (axis_eqb a0 a) eqn:E; [apply axis_eqb_eq in E; subst|congruence].
           destruct d0, d; try destruct (amount_add x0 am); inversion A; subst; exact Hd.
        -- destruct (axis_eqb a0 a) eqn:E; [apply axis_eqb_eq in E; subst|congruence].
           destruct d; [destruct (amount_add p am)|destruct (amount_add n am)];
             inversion A; subst; exact Hd.
        -- congruence.
      * intros ->. exfalso. clear - A. destruct m as [[a d] am], acc as [[[[a0 d0] x0]|a0 p n]|]; simpl in A.
        -- destruct (axis_eqb a0 a); [|congruence].
           destruct d0, d; try destruct (amount_add x0 am); congruence.
        -- destruct (axis_eqb a0 a); [|congruence].
           destruct d; [destruct (amount_add p am)|destruct (amount_add n am)]; congruence.
        -- congruence.
    + assert (K : acc' = acc /\ (exists nr, acc = Some nr /\ nr_axis nr <> face_axis (mv_face m))).
      { clear - A. destruct m as [[a d] am], acc as [[[[a0 d0] x0]|a0 p n]|]; simpl in A.
        -- destruct (axis_eqb a0 a) eqn:E.
           ++ destruct d0, d; try destruct (amount_add x0 am); congruence.
           ++ inversion A; subst. split; [reflexivity|]. eexists; split; [reflexivity|].
              cbn. apply axis_eqb_false, E.
        -- destruct (axis_eqb a0 a) eqn:E.
           ++ destruct d; [destruct (amount_add p am)|destruct (amount_add n am)]; congruence.
           ++ inversion A; subst. split; [reflexivity|]. eexists; split; [reflexivity|].
              cbn. apply axis_eqb_false, E.
        -- congruence. }
      destruct K as [-> (nr & -> & Ne)]. cbn [absorve fst].
      apply (IH input _ (Some (NRSingle m)) [m] (seg ++ rest)).
      * exact Hal.
      * cbn. repeat split; [intros m' [<-|[]]; reflexivity|].
        intros m' [<-|[]]. eexists; split; [left; reflexivity|reflexivity].
      * rewrite offload_eq. apply canonical_offload; auto.
      * rewrite offload_eq. destruct nr as [m0|a p n]; cbn in *; congruence.
      * discriminate.
    + exfalso. destruct (absorve_collapse_run _ _ _ _ Run A) as [Z Ax].
      apply (NC (m :: seg) (mv_face m)); [|exact Ax| |exact Z].
      * exists (rev input), rest. exact Hal.
      * eexists; split; [left; reflexivity|reflexivity].
Qed.

Lemma normalized_no_cancel al : no_cancellation al -> canonical (normalized al).
Proof.
  intros NC. destruct (normalized_some al) as [E _]. unfold normalized_opt in E.
  apply (loop_no_cancel al _ NC _ _ _ [] [] _) in E; auto; try exact I; try reflexivity.
  rewrite rev_involutive, !app_nil_r. reflexivity.
Qed.

(** ** Random algs *)

(** [canonical]-like invariant for the reversed list of pushed moves. *)
Fixpoint irr_rev (l : list AxisMove) : Prop :=
  match l with
  | m1 :: ((m2 :: _) as r) =>
      mv_face m1 <> mv_face m2 /\
      (match r with
       | _ :: m3 :: _ => ~ (face_axis (mv_face m1) = face_axis (mv_face m2) /\
                            face_axis (mv_face m2) = face_axis (mv_face m3))
       | _ => True
       end) /\ irr_rev r
  | _ => True
  end.

Lemma irr_rev_tail m l : irr_rev (m :: l) -> irr_rev l.
Proof. destruct l as [|b r]; [intros _; exact I|intros (_ & _ & H); exact H]. Qed.
Lemma irr_rev_app_r l1 l2 : irr_rev (l1 ++ l2) -> irr_rev l2.
Proof.
  induction l1 as [|a l1 IH]; [auto|]. intros H. apply IH. exact (irr_rev_tail _ _ H).
Qed.

Lemma irr_rev_irredundant l : irr_rev l -> irredundant (rev l).
Proof.
  intros H. split.
  - intros m1 m2 (b & a & E). apply (f_equal (@rev _)) in E. rewrite rev_involutive in E.
    rewrite !rev_app_distr in E. simpl in E. rewrite <- !app_assoc in E. simpl in E. subst l.
    apply irr_rev_app_r in H. simpl in H. destruct H as [H _]. congruence.
  - intros m1 m2 m3 (b & a & E) [E1 E2]. apply (f_equal (@rev _)) in E. rewrite rev_involutive in E.
    rewrite !rev_app_distr in E. simpl in E. rewrite <- !app_assoc in E. simpl in E. subst l.
    apply irr_rev_app_r in H. simpl in H. destruct H as (_ & H & _). apply H. split; congruence.
Qed.

Lemma irr_push_single m l :
  match l with [] => True | m2 :: _ => face_axis (mv_face m) <> face_axis (mv_face m2) end ->
  irr_rev l -> irr_rev (m :: l).
Proof.
  destruct l as [|m2 l]; [simpl; auto|]. intros Ne H. split; [congruence|]. split; [|exact H].
  destruct l; auto. intros [E _]; contradiction.
Qed.

Lemma irr_push_double a p n l :
  match l with [] => True | m2 :: _ => a <> face_axis (mv_face m2) end ->
  irr_rev l -> irr_rev (mkMove (mkFace a Negative) n :: mkMove (mkFace a Positive) p :: l).
Proof.
  intros Ne H. split; [discriminate|]. split.
  - destruct l; auto. intros [_ E]. cbn in E. contradiction.
  - apply irr_push_single; auto.
Qed.

Lemma choose_in {T} k (l : list T) x : choose k l = Some x -> In x l.
Proof. apply nth_error_In. Qed.
Lemma choose_some {T} k (l : list T) : l <> [] -> exists x, choose k l = Some x.
Proof.
  intros H. unfold choose. destruct (nth_error l (k mod length l)) eqn:E; [eauto|].
  apply nth_error_None in E. destruct l; [congruence|].
  pose proof (Nat.mod_upper_bound k (length (t :: l))). simpl in *. lia.
Qed.

Lemma of_axis_axis a nr : In nr (nr_of_axis a) -> nr_axis nr = a.
Proof. destruct a; cbn; intuition (subst; reflexivity). Qed.

Lemma given_last_ne a nr : In nr (given_last_axis a) -> nr_axis nr <> a.
Proof.
  unfold given_last_axis. destruct (basis a) as [b1 b2] eqn:B. cbn [flat_map].
  rewrite app_nil_r, in_app_iff.
  intros [H|H]; apply of_axis_axis in H; subst; destruct a; cbn in B; inversion B; subst; congruence.
Qed.

Lemma push_until_props len nr moves :
  length moves < len -> irr_rev moves ->
  match moves with [] => True | m :: _ => nr_axis nr <> face_axis (mv_face m) end ->
  irr_rev (push_until len (nr_moves nr) moves) /\
  length moves < length (push_until len (nr_moves nr) moves) <= len.
Proof.
  intros L H Ne. destruct nr as [m|a p n]; cbn [nr_moves push_until].
  - assert (irr_rev (m :: moves)) by (apply irr_push_single; auto).
    destruct (Nat.eqb _ _); simpl; split; auto; lia.
  - destruct (Nat.eqb_spec (length (mkMove (mkFace a Positive) p :: moves)) len) as [E|E].
    + split; [apply irr_push_single; auto|simpl in *; lia].
    + assert (irr_rev (mkMove (mkFace a Negative) n :: mkMove (mkFace a Positive) p :: moves))
        by (apply irr_push_double; auto).
      destruct (Nat.eqb _ _); split; auto; simpl in *; lia.
Qed.

Lemma random_loop_props len rng : forall fuel k moves,
  len - length moves < fuel -> length moves <= len -> irr_rev moves ->
  exists l, random_loop fuel len rng k moves = Some (Done (rev l)) /\ length l = len /\ irr_rev l.
Proof.
  induction fuel as [|fuel IH]; intros k moves F L H; [lia|]. simpl.
  destruct (Nat.ltb_spec (length moves) len) as [Lt|Ge].
  - set (pool := match moves with [] => nr_all | m :: _ => given_last_axis (face_axis (mv_face m)) end).
    assert (Hp : pool <> []).
    { subst pool. destruct moves as [|m ms]; [discriminate|].
      destruct (face_axis (mv_face m)); discriminate. }
    destruct (choose_some (rng k) pool Hp) as (nr & E). rewrite E.
    assert (Ne : match moves with [] => True | m :: _ => nr_axis nr <> face_axis (mv_face m) end).
    { apply choose_in in E. destruct moves as [|m ms]; [exact I|].
      apply given_last_ne in E. exact E. }
    destruct (push_until_props len nr moves Lt H Ne) as [H1 H2].
    apply IH; auto; lia.
  - exists moves. repeat split; auto; lia.
Qed.

Lemma random_alg_props len rng :
  exists al, random_alg len rng = Some (Done al) /\ length al = len /\ irredundant al.
Proof.
  unfold random_alg. destruct (random_loop_props len rng (S len) 0 []) as (l & E & L & H);
    [simpl; lia|simpl; lia|exact I|].
  exists (rev l). rewrite rev_length. repeat split; auto; apply irr_rev_irredundant; auto.
Qed.

(** ** Inverses and quarter turns *)

Lemma apply_nr_inverse {C} (act : C -> AxisMove -> C) (OK : move_action_ok act) c m :
  apply_nr act (apply_nr act c m) (nr_inverse m) = c.
Proof.
  destruct m as [m|a p n]; cbn.
  - apply (ma_inverse _ OK).
  - rewrite (ma_comm _ OK _ a Negative Positive).
    pose proof (ma_inverse _ OK c (mkMove (mkFace a Positive) p)) as E. unfold move_inverse in E. cbn [mv_face mv_amount] in E. rewrite E.
    exact (ma_inverse _ OK c (mkMove (mkFace a Negative) n)).
Qed.

Lemma quarter_alg_effect {C} (act : C -> AxisMove -> C) (OK : move_action_ok act) al c :
  fold_left (fun c q => act c (move_of_quarter q)) (quarter_alg al) c = fold_left act al c.
Proof.
  revert c. induction al as [|m al IH]; intros c; [reflexivity|].
  unfold quarter_alg in *. cbn [flat_map]. rewrite fold_left_app, IH. cbn [fold_left]. f_equal.
  destruct m as [f []]; try reflexivity. cbn [quarters_of_move mv_amount mv_face fold_left]. unfold move_of_quarter; cbn [q_dir q_face]. rewrite (ma_add _ OK). reflexivity.
Qed.

Lemma move_as_singles {C} (act : C -> AxisMove -> C) (OK : move_action_ok act) c f a :
  act c (mkMove f a) = times (quarter_turns a) (fun c => act c (mkMove f Single)) c.
Proof. destruct a; cbn; rewrite ?(ma_add _ OK); cbn; rewrite ?(ma_add _ OK); reflexivity. Qed.
Lemma four_singles {C} (act : C -> AxisMove -> C) (OK : move_action_ok act) c f :
  times 4 (fun c => act c (mkMove f Single)) c = c.
Proof. cbn. rewrite (ma_add _ OK). cbn. rewrite (ma_add _ OK). cbn. rewrite (ma_add _ OK). reflexivity. Qed.

Lemma wide_as_singles {C} (act : C -> WideAxisMove -> C) (OK : wide_action_ok act) c d f a :
  act c (mkWide d (mkMove f a))
  = times (quarter_turns a) (fun c => act c (mkWide d (mkMove f Single))) c.
Proof. destruct a; cbn; rewrite ?(wa_add _ OK); cbn; rewrite ?(wa_add _ OK); reflexivity. Qed.
Lemma wide_four_singles {C} (act : C -> WideAxisMove -> C) (OK : wide_action_ok act) c d f :
  times 4 (fun c => act c (mkWide d (mkMove f Single))) c = c.
Proof. cbn. rewrite (wa_add _ OK). cbn. rewrite (wa_add _ OK). cbn. rewrite (wa_add _ OK). reflexivity. Qed.

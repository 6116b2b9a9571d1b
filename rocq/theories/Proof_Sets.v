(** Proofs about piece sets. *)

From Coq Require Import List Bool Arith NArith Lia Permutation.
From Verif Require Import Model_Base Model_Space Model_Moves Model_Pieces Model_PieceSet Model_Cubes
  Proof_Moves Spec_Sets.
Import ListNotations.

(** ** find_duplicates *)

Lemma existsb_eqb {T} (eqb : T -> T -> bool) (H : forall a b, eqb a b = true <-> a = b) x l :
  existsb (eqb x) l = true <-> In x l.
Proof.
  rewrite existsb_exists. split.
  - intros (y & Hy & E). apply H in E. subst; auto.
  - intros Hx. exists x. split; [auto|]. apply H; auto.
Qed.

Lemma NoDup_snoc {T} (l : list T) x : NoDup l -> ~ In x l -> NoDup (l ++ [x]).
Proof.
  intros H N. apply NoDup_rev in H. rewrite <- (rev_involutive (l ++ [x])). apply NoDup_rev.
  rewrite rev_app_distr. simpl. constructor; [rewrite <- in_rev; auto|auto].
Qed.

Lemma find_dup_from_none {T} (eqb : T -> T -> bool) (H : forall a b, eqb a b = true <-> a = b) l :
  forall visited, NoDup visited ->
  (find_duplicates_from eqb visited l = None <-> NoDup (visited ++ l)).
Proof.
  induction l as [|x l IH]; intros visited Nv; simpl.
  - rewrite app_nil_r. tauto.
  - destruct (existsb (eqb x) visited) eqn:E.
    + apply (existsb_eqb _ H) in E. split; [discriminate|]. intros N.
      apply NoDup_remove_2 in N. exfalso; apply N, in_or_app; auto.
    + assert (Ni : ~ In x visited) by (intros C; apply (existsb_eqb _ H) in C; congruence).
      rewrite IH by (apply NoDup_snoc; auto).
      rewrite <- app_assoc. simpl. tauto.
Qed.

Lemma find_dup_from_some {T} (eqb : T -> T -> bool) (H : forall a b, eqb a b = true <-> a = b) l :
  forall visited x, find_duplicates_from eqb visited l = Some x -> occurs_twice x (visited ++ l).
Proof.
  induction l as [|y l IH]; intros visited x; simpl; [discriminate|].
  destruct (existsb (eqb y) visited) eqn:E.
  - intros [= ->]. apply (existsb_eqb _ H) in E. apply In_nth_error in E as (i & Hi).
    exists i, (length visited). assert (i < length visited) by (apply nth_error_Some; congruence).
    split; [lia|]. split.
    + rewrite nth_error_app1 by auto. exact Hi.
    + rewrite nth_error_app2 by lia. rewrite Nat.sub_diag. reflexivity.
  - intros F. apply IH in F. rewrite <- app_assoc in F. exact F.
Qed.

Lemma find_dup_none {T} (eqb : T -> T -> bool) (H : forall a b, eqb a b = true <-> a = b) l :
  find_duplicates eqb l = None <-> NoDup l.
Proof. apply (find_dup_from_none _ H). constructor. Qed.
Lemma find_dup_some {T} (eqb : T -> T -> bool) (H : forall a b, eqb a b = true <-> a = b) l x :
  find_duplicates eqb l = Some x -> occurs_twice x l.
Proof. apply (find_dup_from_some _ H l []). Qed.

(** ** Descriptors *)

Record desc_ok {P Pos} (d : PieceDesc P Pos) : Prop := {
  do_piece : forall a b, pd_piece_eqb d a b = true <-> a = b;
  do_pos : forall a b, pd_pos_eqb d a b = true <-> a = b;
  do_nodup : NoDup (pd_reference d);
  do_complete : forall p, In p (pd_reference d);
  do_solved : map (pd_position d) (pd_solved d) = pd_reference d
}.

Lemma vec3_in_reference p : In p corner_reference.
Proof. apply (existsb_eqb _ vec3_eqb_eq). destruct p as [[] [] []]; reflexivity. Qed.
Lemma edgepos_in_reference p : In p edge_reference.
Proof. apply (existsb_eqb _ edgepos_eqb_eq). destruct p as [[] [[] []]]; reflexivity. Qed.
Lemma wing_in_solved p : In p wing_solved.
Proof. apply (existsb_eqb _ wing_eqb_eq). destruct p as [[[] [[] []] []]]; reflexivity. Qed.
Lemma cc_in_solved p : In p cc_solved.
Proof. apply (existsb_eqb _ cc_eqb_eq). destruct p as [[[] [] []] []]; reflexivity. Qed.
Lemma ce_in_solved p : In p ce_solved.
Proof. apply (existsb_eqb _ ce_eqb_eq). destruct p as [[[] []] [] []]; reflexivity. Qed.
Lemma cw_in_solved p : In p cw_solved.
Proof. apply (existsb_eqb _ cw_eqb_eq). destruct p as [[[[] []] [] []] []]; reflexivity. Qed.

Ltac nodup H := apply (find_dup_none _ H); vm_compute; reflexivity.

Lemma corner_desc_ok : desc_ok corner_desc.
Proof.
  split; [apply corner_eqb_eq|apply vec3_eqb_eq|nodup vec3_eqb_eq|apply vec3_in_reference|reflexivity].
Qed.
Lemma edge_desc_ok : desc_ok edge_desc.
Proof.
  split; [apply edge_eqb_eq|apply edgepos_eqb_eq|nodup edgepos_eqb_eq|apply edgepos_in_reference|reflexivity].
Qed.
Lemma wing_desc_ok : desc_ok wing_desc.
Proof. split; [apply wing_eqb_eq|apply wing_eqb_eq|nodup wing_eqb_eq|apply wing_in_solved|apply map_id]. Qed.
Lemma cc_desc_ok : desc_ok cc_desc.
Proof. split; [apply cc_eqb_eq|apply cc_eqb_eq|nodup cc_eqb_eq|apply cc_in_solved|apply map_id]. Qed.
Lemma ce_desc_ok : desc_ok ce_desc.
Proof. split; [apply ce_eqb_eq|apply ce_eqb_eq|nodup ce_eqb_eq|apply ce_in_solved|apply map_id]. Qed.
Lemma cw_desc_ok : desc_ok cw_desc.
Proof. split; [apply cw_eqb_eq|apply cw_eqb_eq|nodup cw_eqb_eq|apply cw_in_solved|apply map_id]. Qed.

(** ** Validity *)

Section Valid.
  Context {P Pos : Type} (d : PieceDesc P Pos) (OK : desc_ok d).

  Definition set_valid (s : list P) : Prop :=
    length s = length (pd_reference d) /\ NoDup (map (pd_position d) s).

  Lemma validate_none s : set_validate d s = None <-> NoDup (map (pd_position d) s).
  Proof.
    unfold set_validate.
    destruct (find_duplicates (pd_pos_eqb d) (map (pd_position d) s)) eqn:E.
    - split; [discriminate|]. intros N. apply (find_dup_none _ (do_pos _ OK)) in N. congruence.
    - assert (N := E). apply (find_dup_none _ (do_pos _ OK)) in N.
      destruct (find_duplicates (pd_piece_eqb d) s) eqn:E2; [|tauto].
      apply NoDup_map_inv in N. apply (find_dup_none _ (do_piece _ OK)) in N. congruence.
  Qed.

  Lemma set_valid_perm s : set_valid s -> Permutation (map (pd_position d) s) (pd_reference d).
  Proof.
    intros [L N]. apply NoDup_Permutation_bis; auto.
    - rewrite map_length. lia.
    - intros p _. apply (do_complete _ OK).
  Qed.

  Lemma set_valid_spec s : set_valid s <-> one_piece_everywhere d s.
  Proof.
    split.
    - intros V. split; [apply V|]. intros pos.
      assert (I : In pos (map (pd_position d) s)).
      { apply (Permutation_in pos (Permutation_sym (set_valid_perm s V))). apply (do_complete _ OK). }
      apply In_nth_error in I as (i & Hi). rewrite nth_error_map in Hi.
      destruct (nth_error s i) as [p|] eqn:Ep; [|discriminate]. cbn in Hi. inversion Hi; subst.
      exists i, p. repeat split; auto. intros j q Hj Hq.
      destruct V as [_ N]. rewrite NoDup_nth_error in N. apply N.
      + rewrite map_length. apply nth_error_Some. congruence.
      + rewrite !nth_error_map, Hj, Ep. cbn. congruence.
    - intros [L H]. split; auto. apply NoDup_nth_error. intros i j Hi E.
      rewrite map_length in Hi. rewrite !nth_error_map in E.
      destruct (nth_error s i) as [p|] eqn:Ep; [|apply nth_error_None in Ep; lia].
      destruct (nth_error s j) as [q|] eqn:Eq; [|discriminate]. cbn in E. inversion E as [E'].
      destruct (H (pd_position d p)) as (k & r & _ & _ & U).
      rewrite (U i p Ep eq_refl), (U j q Eq (eq_sym E')). reflexivity.
  Qed.

  Lemma solved_valid : set_valid (pd_solved d).
  Proof.
    split.
    - rewrite <- (do_solved _ OK), map_length. reflexivity.
    - rewrite (do_solved _ OK). apply (do_nodup _ OK).
  Qed.

  Lemma map_valid (f : P -> P) s :
    (forall p q, pd_position d (f p) = pd_position d (f q) -> pd_position d p = pd_position d q) ->
    set_valid s -> set_valid (map f s).
  Proof.
    intros Inj [L N]. split; [rewrite map_length; auto|].
    clear L. induction s as [|a s IH]; cbn in *; [constructor|].
    inversion N; subst. constructor; [|auto].
    rewrite in_map_iff in *. intros (x & E & Hx). apply in_map_iff in Hx as (y & <- & Hy).
    apply H1. exists y. auto.
  Qed.

  Lemma perm_valid s s' : Permutation s s' -> set_valid s -> set_valid s'.
  Proof.
    intros Pm [L N]. split.
    - rewrite <- (Permutation_length Pm). auto.
    - eapply Permutation_NoDup; [apply Permutation_map, Pm|auto].
  Qed.

  (** *** Lookups *)

  Lemma combine_nth_error {A B} (l1 : list A) (l2 : list B) i a b :
    nth_error (combine l1 l2) i = Some (a, b) <-> nth_error l1 i = Some a /\ nth_error l2 i = Some b.
  Proof.
    revert l2 i; induction l1 as [|x l1 IH]; intros [|y l2] [|i]; cbn;
      try (split; [discriminate|intros [? ?]; discriminate]).
    - split; [intros [= -> ->]; auto|intros [[= ->] [= ->]]; auto].
    - apply IH.
  Qed.

  Lemma originally_at_done s pos :
    length s = length (pd_reference d) ->
    exists i p, nth_error (pd_reference d) i = Some pos /\ nth_error s i = Some p /\
      piece_originally_at d s pos = Done p.
  Proof.
    intros L. unfold piece_originally_at, iter_with_pos.
    pose proof (do_complete _ OK pos) as I. apply In_nth_error in I as (i & Hi).
    assert (Li : i < length s) by (rewrite L; apply nth_error_Some; congruence).
    destruct (nth_error s i) as [p|] eqn:Ep; [|apply nth_error_None in Ep; lia].
    exists i, p. repeat split; auto.
    destruct (find_first _ _) as [[pos' p']|] eqn:F.
    - apply find_first_Some in F as [Hin E]. cbn in E. apply (do_pos _ OK) in E. subst pos'.
      apply In_nth_error in Hin as (j & Hj). apply combine_nth_error in Hj as [Hj1 Hj2].
      assert (i = j).
      { pose proof (do_nodup _ OK) as N. rewrite NoDup_nth_error in N. apply N; [apply nth_error_Some|]; congruence. }
      subst j. cbn. congruence.
    - rewrite find_first_None in F. specialize (F (pos, p)). cbn in F.
      assert (In (pos, p) (combine (pd_reference d) s)).
      { apply nth_error_In with (n := i). apply combine_nth_error. auto. }
      rewrite (proj2 (do_pos _ OK pos pos) eq_refl) in F. specialize (F H). discriminate.
  Qed.

  Lemma original_position_done s q :
    set_valid s ->
    exists i p orig, nth_error (pd_reference d) i = Some orig /\ nth_error s i = Some p /\
      pd_position d p = q /\ original_position_of_piece_at d s q = Done orig.
  Proof.
    intros V. destruct (proj2 (proj1 (set_valid_spec s) V) q) as (i & p & Hp & Hq & U).
    destruct V as [L N].
    assert (Li : i < length (pd_reference d)) by (rewrite <- L; apply nth_error_Some; congruence).
    destruct (nth_error (pd_reference d) i) as [o|] eqn:Eo; [|apply nth_error_None in Eo; lia].
    exists i, p, o. repeat split; auto. unfold original_position_of_piece_at, iter_with_pos.
    destruct (find_first _ _) as [[o' p']|] eqn:F.
    - apply find_first_Some in F as [Hin E]. cbn in E. apply (do_pos _ OK) in E.
      apply In_nth_error in Hin as (j & Hj). apply combine_nth_error in Hj as [Hj1 Hj2].
      pose proof (U j p' Hj2 E). subst j. cbn. congruence.
    - rewrite find_first_None in F. specialize (F (o, p)). cbn in F.
      assert (In (o, p) (combine (pd_reference d) s)).
      { apply nth_error_In with (n := i). apply combine_nth_error. auto. }
      rewrite (proj2 (do_pos _ OK (pd_position d p) q) Hq) in F. specialize (F H). discriminate.
  Qed.

  Lemma reference_index_unique i j pos :
    nth_error (pd_reference d) i = Some pos -> nth_error (pd_reference d) j = Some pos -> i = j.
  Proof.
    intros Hi Hj. pose proof (do_nodup _ OK) as N. rewrite NoDup_nth_error in N.
    apply N; [apply nth_error_Some|]; congruence.
  Qed.

  Lemma lookups_inverse s p q :
    set_valid s ->
    (original_position_of_piece_at d s q = Done p <->
     exists x, piece_originally_at d s p = Done x /\ pd_position d x = q).
  Proof.
    intros V. destruct (original_position_done s q V) as (i & x & o & Ho & Hx & Hq & E).
    destruct (originally_at_done s p (proj1 V)) as (j & y & Hj & Hy & E'). rewrite E, E'. split.
    - intros [= ->]. assert (i = j) by (eapply reference_index_unique; eauto). subst j.
      exists y. split; congruence.
    - intros (y' & [= <-] & Q). f_equal.
      assert (i = j); [|subst; congruence].
      destruct (proj2 (proj1 (set_valid_spec s) V) q) as (k & z & _ & _ & U).
      rewrite (U i x Hx Hq), (U j y Hy Q). reflexivity.
  Qed.

  Lemma find_reference pos :
    exists i, find_index (fun p => pd_pos_eqb d p pos) (pd_reference d) = Some i /\
      nth_error (pd_reference d) i = Some pos.
  Proof.
    destruct (find_index _ _) as [i|] eqn:F.
    - apply find_index_Some in F as (a & Ha & E & _). apply (do_pos _ OK) in E. subst. eauto.
    - rewrite find_index_None in F. specialize (F pos (do_complete _ OK pos)).
      rewrite (proj2 (do_pos _ OK pos pos) eq_refl) in F. discriminate.
  Qed.

  Lemma originally_at_nth s pos i p :
    nth_error (pd_reference d) i = Some pos -> nth_error s i = Some p ->
    length s = length (pd_reference d) ->
    piece_originally_at d s pos = Done p.
  Proof.
    intros H1 H2 L. destruct (originally_at_done s pos L) as (j & x & Hj & Hx & E).
    assert (i = j) by (eapply reference_index_unique; eauto). subst j. congruence.
  Qed.

  Lemma set_swap_spec s a b :
    length s = length (pd_reference d) ->
    exists s', set_swap d s a b = Done s' /\ length s' = length s /\
      piece_originally_at d s' a = piece_originally_at d s b /\
      piece_originally_at d s' b = piece_originally_at d s a /\
      (forall c, c <> a -> c <> b -> piece_originally_at d s' c = piece_originally_at d s c) /\
      Permutation s s'.
  Proof.
    intros L. unfold set_swap.
    destruct (find_reference a) as (ia & -> & Ha). destruct (find_reference b) as (ib & -> & Hb).
    assert (La : ia < length s) by (rewrite L; apply nth_error_Some; congruence).
    assert (Lb : ib < length s) by (rewrite L; apply nth_error_Some; congruence).
    destruct (nth_error s ia) as [pa|] eqn:Ea; [|apply nth_error_None in Ea; lia].
    destruct (nth_error s ib) as [pb|] eqn:Eb; [|apply nth_error_None in Eb; lia].
    set (s' := set_nth (set_nth s ia pb) ib pa). exists s'.
    assert (L' : length s' = length s) by (unfold s'; rewrite !set_nth_length; auto).
    assert (Nth : forall k, nth_error s' k =
       if Nat.eqb ib k then Some pa else if Nat.eqb ia k then Some pb else nth_error s k).
    { intros k. unfold s'. rewrite nth_error_set_nth, set_nth_length.
      destruct (Nat.eqb_spec ib k).
      - destruct (Nat.ltb_spec ib (length s)); [reflexivity|lia].
      - rewrite nth_error_set_nth. destruct (Nat.eqb_spec ia k); [|reflexivity].
        destruct (Nat.ltb_spec ia (length s)); [reflexivity|lia]. }
    split; [reflexivity|]. split; [exact L'|].
    rewrite (originally_at_nth s a ia pa) by auto. rewrite (originally_at_nth s b ib pb) by auto.
    split; [|split; [|split]].
    - apply (originally_at_nth s' a ia); [auto| |congruence]. rewrite Nth, Nat.eqb_refl.
      destruct (Nat.eqb_spec ib ia); congruence.
    - apply (originally_at_nth s' b ib); [auto| |congruence]. rewrite Nth, Nat.eqb_refl. reflexivity.
    - intros c Ca Cb. destruct (originally_at_done s c L) as (k & x & Hk & Hx & ->).
      apply (originally_at_nth s' c k); [auto| |congruence]. rewrite Nth.
      destruct (Nat.eqb_spec ib k); [subst; congruence|].
      destruct (Nat.eqb_spec ia k); [subst; congruence|]. exact Hx.
    - apply Permutation_nth_error. split; [auto|].
      exists (fun k => if Nat.eqb ib k then ia else if Nat.eqb ia k then ib else k). split.
      + intros x y. destruct (Nat.eqb_spec ib x), (Nat.eqb_spec ib y), (Nat.eqb_spec ia x), (Nat.eqb_spec ia y);
          subst; congruence || lia.
      + intros k. rewrite Nth. destruct (Nat.eqb_spec ib k); [congruence|].
        destruct (Nat.eqb_spec ia k); congruence.
  Qed.
End Valid.

(** ** Moves keep sets valid *)

Lemma swap_nth_perm {T} (l : list T) i j : Permutation l (swap_nth l i j).
Proof.
  unfold swap_nth. destruct (nth_error l i) as [a|] eqn:Ea; [|reflexivity].
  destruct (nth_error l j) as [b|] eqn:Eb; [|reflexivity].
  assert (Li : i < length l) by (apply nth_error_Some; congruence).
  assert (Lj : j < length l) by (apply nth_error_Some; congruence).
  apply Permutation_nth_error. split; [rewrite !set_nth_length; auto|].
  exists (fun k => if Nat.eqb j k then i else if Nat.eqb i k then j else k). split.
  - intros x y. destruct (Nat.eqb_spec j x), (Nat.eqb_spec j y), (Nat.eqb_spec i x), (Nat.eqb_spec i y);
      subst; congruence || lia.
  - intros k. rewrite nth_error_set_nth, set_nth_length.
    destruct (Nat.eqb_spec j k).
    + destruct (Nat.ltb_spec j (length l)); [congruence|lia].
    + rewrite nth_error_set_nth. destruct (Nat.eqb_spec i k); [|reflexivity].
      destruct (Nat.ltb_spec i (length l)); [congruence|lia].
Qed.

Lemma shuffle_perm {T} rng (l : list T) : Permutation l (shuffle rng l).
Proof.
  unfold shuffle. generalize (length l - 1) as i. intros i. revert l.
  induction i as [|i IH]; intros l; cbn [shuffle_from]; [reflexivity|].
  rewrite <- IH. apply swap_nth_perm.
Qed.

Lemma mo_act_inj {P} (mo : mover P) nd td mx m p q :
  mo_act mo nd td mx p m = mo_act mo nd td mx q m -> p = q.
Proof.
  intros E. rewrite <- (mo_act_inverse mo nd td mx p m), E. apply mo_act_inverse.
Qed.

Lemma corner_pos_dep c1 c2 m : c_pos c1 = c_pos c2 -> c_pos (corner_apply c1 m) = c_pos (corner_apply c2 m).
Proof.
  unfold corner_apply. intros E. rewrite E. destruct (contains_vector _ _); [|exact E].
  unfold corner_rotate; cbn. rewrite E. reflexivity.
Qed.
Lemma corner_pos_inj m c1 c2 : c_pos (corner_apply c1 m) = c_pos (corner_apply c2 m) -> c_pos c1 = c_pos c2.
Proof.
  intros E. apply (corner_pos_dep _ _ (move_inverse m)) in E. rewrite !corner_apply_inverse in E. exact E.
Qed.

Lemma edge_pos_dep e1 e2 m :
  edge_position e1 = edge_position e2 -> edge_position (edge_apply e1 m) = edge_position (edge_apply e2 m).
Proof.
  destruct e1 as [n1 s1 o1], e2 as [n2 s2 o2]. unfold edge_position; cbn. intros [= -> ->].
  unfold edge_apply, contains_edge, contains_edge_o. cbn [e_normal e_slice].
  destruct (from_outcome _ _); [|reflexivity].
  unfold edge_rotate, edge_rotate_o. cbn [e_normal e_slice].
  destruct (axis_eqb _ _); [reflexivity|]. unfold edge_faces. cbn [e_normal e_slice].
  destruct (position_from_faces _ _) as [[[? ?]|]|]; reflexivity.
Qed.
Lemma edge_pos_inj m e1 e2 :
  edge_position (edge_apply e1 m) = edge_position (edge_apply e2 m) -> edge_position e1 = edge_position e2.
Proof.
  intros E. apply (edge_pos_dep _ _ (move_inverse m)) in E. rewrite !edge_apply_inverse in E. exact E.
Qed.

Lemma corner_set_valid s m : set_valid corner_desc s -> set_valid corner_desc (corner_set_apply s m).
Proof. apply map_valid. apply corner_pos_inj. Qed.
Lemma edge_set_valid s m : set_valid edge_desc s -> set_valid edge_desc (edge_set_apply s m).
Proof. apply map_valid. apply edge_pos_inj. Qed.
Lemma wings_valid nd mx s m : set_valid wing_desc s -> set_valid wing_desc (wings_apply nd mx s m).
Proof. apply map_valid. apply (mo_act_inj wing_mover). Qed.
Lemma ccs_valid nd mx s m : set_valid cc_desc s -> set_valid cc_desc (ccs_apply nd mx s m).
Proof. apply map_valid. apply (mo_act_inj cc_mover). Qed.
Lemma ces_valid nd mx s m : set_valid ce_desc s -> set_valid ce_desc (ces_apply nd mx s m).
Proof. apply map_valid. apply (mo_act_inj ce_mover). Qed.
Lemma cws_valid nd td mx s m : set_valid cw_desc s -> set_valid cw_desc (cws_apply nd td mx s m).
Proof. apply map_valid. apply (mo_act_inj cw_mover). Qed.

Ltac to_valid :=
  rewrite <- ?(set_valid_spec _ corner_desc_ok), <- ?(set_valid_spec _ edge_desc_ok),
    <- ?(set_valid_spec _ wing_desc_ok), <- ?(set_valid_spec _ cc_desc_ok),
    <- ?(set_valid_spec _ ce_desc_ok), <- ?(set_valid_spec _ cw_desc_ok) in *.

Lemma cube_well_formed_wide n c m : cube_well_formed n c -> cube_well_formed n (cube_apply_wide n c m).
Proof.
  destruct n; cbn; to_valid; intuition
    auto using corner_set_valid, edge_set_valid, wings_valid, ccs_valid, ces_valid, cws_valid.
Qed.

Lemma cube_well_formed_move n c m : cube_well_formed n c -> cube_well_formed n (cube_apply n c m).
Proof.
  destruct n; intros H.
  - exact (cube_well_formed_wide Size2 c (mkWide 0%N m) H).
  - exact (cube_well_formed_wide Size3 c (mkWide 0%N m) H).
  - cbn [cube_apply]. unfold cube4_apply. rewrite apply_widened_eq. exact (cube_well_formed_wide Size4 c _ H).
  - cbn [cube_apply]. unfold cube5_apply. rewrite apply_widened_eq. exact (cube_well_formed_wide Size5 c _ H).
  - cbn [cube_apply]. unfold cube6_apply. rewrite apply_widened_eq. exact (cube_well_formed_wide Size6 c _ H).
  - cbn [cube_apply]. unfold cube7_apply. rewrite apply_widened_eq. exact (cube_well_formed_wide Size7 c _ H).
Qed.

Lemma cube_well_formed_solved n : cube_well_formed n (cube_solved n).
Proof.
  destruct n; cbn; to_valid;
    repeat (apply conj || apply (solved_valid _ corner_desc_ok) || apply (solved_valid _ edge_desc_ok)
            || apply (solved_valid _ wing_desc_ok) || apply (solved_valid _ cc_desc_ok)
            || apply (solved_valid _ ce_desc_ok) || apply (solved_valid _ cw_desc_ok)).
Qed.

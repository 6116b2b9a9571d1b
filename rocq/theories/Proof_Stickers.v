(** Proofs about the stickers of valid cubes and the unfolded drawing. *)

From Coq Require Import List Bool Arith ZArith Lia Permutation.
From Verif Require Import Model_Base Model_Space Model_Moves Model_Pieces Model_PieceSet Model_Cubes
  Model_Visual Spec_Moves Spec_Geometry Spec_Stickers Spec_Sets Spec_Unfolded
  Proof_Moves Proof_Sets Proof_Geometry.
Import ListNotations.

Definition key (s : Sticker) : V3 * V3 := (st_cubie s, st_normal s).

Definition corner_part (s : list Corner) : list Sticker :=
  flat_map (fun x => piece_stickers (corner_coordinates (c_pos (snd x))) (corner_colors (snd x) (fst x)))
           (iter_with_pos corner_desc s).
Definition edge_part (s : list Edge) : list Sticker :=
  flat_map (fun x => piece_stickers (edge_coordinates (edge_position (snd x))) (edge_colors (snd x) (fst x)))
           (iter_with_pos edge_desc s).
Definition centre_part : list Sticker := map (fun f => mkSticker (normal f) (normal f) f) face_iter.

Lemma cube3_stickers_parts c :
  cube3_stickers c = centre_part ++ corner_part (c3_corners c) ++ edge_part (c3_edges c).
Proof. reflexivity. Qed.

(** ** Keys are distinct *)

Lemma NoDup_app_intro {A} (l1 l2 : list A) :
  NoDup l1 -> NoDup l2 -> (forall x, In x l1 -> In x l2 -> False) -> NoDup (l1 ++ l2).
Proof.
  induction l1 as [|a l1 IH]; cbn; intros N1 N2 D; [exact N2|].
  inversion N1; subst. constructor.
  - rewrite in_app_iff. intros [H|H]; [contradiction|]. apply (D a); auto.
  - apply IH; auto. intros x Hx. apply (D x). auto.
Qed.

Lemma NoDup_flat_map_key {A B K} (g : A -> list B) (k : B -> K) (h : A -> K) l :
  (forall a, In a l -> NoDup (g a)) -> (forall a x, In x (g a) -> k x = h a) ->
  NoDup (map h l) -> NoDup (flat_map g l).
Proof.
  induction l as [|a l IH]; cbn; intros N K1 Nh; [constructor|].
  inversion Nh; subst. apply NoDup_app_intro.
  - apply N. auto.
  - apply IH; auto.
  - intros x Hx Hy. apply in_flat_map in Hy as (b & Hb & Hxb).
    apply H1. apply in_map_iff. exists b. split; [|exact Hb].
    rewrite <- (K1 a x Hx), <- (K1 b x Hxb). reflexivity.
Qed.

Lemma map_snd_combine {A B} (l : list A) (l' : list B) :
  length l = length l' -> map snd (combine l l') = l'.
Proof.
  revert l'; induction l as [|a l IH]; intros [|b l']; cbn; intros H; try discriminate; auto.
  f_equal. apply IH. lia.
Qed.
Lemma map_fst_combine {A B} (l : list A) (l' : list B) :
  length l = length l' -> map fst (combine l l') = l.
Proof.
  revert l'; induction l as [|a l IH]; intros [|b l']; cbn; intros H; try discriminate; auto.
  f_equal. apply IH. lia.
Qed.

Lemma to_v3_corner p : to_v3 (corner_coordinates p) = point p.
Proof. reflexivity. Qed.

Lemma edge_coords_inj p q : to_v3 (edge_coordinates p) = to_v3 (edge_coordinates q) -> p = q.
Proof. destruct p as [[] [[] []]], q as [[] [[] []]]; intros E; first [reflexivity|discriminate E]. Qed.

Definition face_dec (a b : Face) : {a = b} + {a <> b}.
Proof. destruct (face_eqb a b) eqn:E; [left; apply face_eqb_eq, E|right; intros ->; rewrite (proj2 (face_eqb_eq b b) eq_refl) in E; discriminate]. Defined.

Lemma nodup_by_eqb (l : list Face) : find_duplicates face_eqb l = None -> NoDup l.
Proof. apply (find_dup_none _ face_eqb_eq). Qed.

Lemma cur_faces_nodup c : NoDup (cur_faces 3 (c_pos c) (c_axis c)).
Proof. apply nodup_by_eqb. destruct c as [[[] [] []] []]; reflexivity. Qed.
Lemma edge_cur_faces_nodup e : NoDup (edge_cur_faces e).
Proof. apply nodup_by_eqb. destruct e as [[] [[] []] []]; reflexivity. Qed.

Lemma piece_keys p l (cs : list Color) :
  map key (piece_stickers p (combine l cs)) = map (fun f => (to_v3 p, normal f)) (map fst (combine l cs)).
Proof. unfold piece_stickers. rewrite !map_map. reflexivity. Qed.

Lemma NoDup_map_inj {A B} (f : A -> B) l : (forall a b, f a = f b -> a = b) -> NoDup l -> NoDup (map f l).
Proof.
  intros H. induction l as [|a l IH]; cbn; intros N; [constructor|]. inversion N; subst.
  constructor; [|auto]. rewrite in_map_iff. intros (b & E & Hb). apply H in E. subst. contradiction.
Qed.

Lemma corner_piece_keys c o :
  map key (piece_stickers (corner_coordinates (c_pos c)) (corner_colors c o))
  = map (fun f => (point (c_pos c), normal f)) (cur_faces 3 (c_pos c) (c_axis c)).
Proof.
  unfold corner_colors. rewrite corner_colors_split, piece_keys, map_fst_combine by reflexivity.
  reflexivity.
Qed.
Lemma edge_piece_keys e o :
  map key (piece_stickers (edge_coordinates (edge_position e)) (edge_colors e o))
  = map (fun f => (to_v3 (edge_coordinates (edge_position e)), normal f)) (edge_cur_faces e).
Proof.
  rewrite edge_colors_split, piece_keys, map_fst_combine; [reflexivity|].
  unfold edge_cur_faces. destruct (e_oriented e); reflexivity.
Qed.

Lemma corner_part_keys s :
  set_valid corner_desc s ->
  NoDup (map key (corner_part s)) /\
  (forall k, In k (map key (corner_part s)) -> dot (fst k) (fst k) = 3%Z).
Proof.
  intros [L N]. unfold corner_part. rewrite map_flat_map. unfold iter_with_pos. split.
  - apply (NoDup_flat_map_key _ fst (fun x => point (c_pos (snd x)))).
    + intros [o c] _. cbn [fst snd]. rewrite corner_piece_keys.
      apply NoDup_map_inj; [|apply cur_faces_nodup].
      intros a b E. apply (f_equal snd) in E. apply normal_inj, E.
    + intros [o c] x. cbn [fst snd]. rewrite corner_piece_keys, in_map_iff.
      intros (f & <- & _). reflexivity.
    + rewrite <- (map_map (fun x => c_pos (snd x)) point). apply NoDup_map_inj; [apply point_inj|].
      rewrite <- (map_map snd c_pos), map_snd_combine by (symmetry; exact L). exact N.
  - intros k Hk. apply in_flat_map in Hk as ([o c] & _ & Hx). cbn [fst snd] in Hx.
    rewrite corner_piece_keys, in_map_iff in Hx. destruct Hx as (f & <- & _). cbn [fst].
    destruct (c_pos c) as [[] [] []]; reflexivity.
Qed.

Lemma edge_part_keys s :
  set_valid edge_desc s ->
  NoDup (map key (edge_part s)) /\
  (forall k, In k (map key (edge_part s)) -> dot (fst k) (fst k) = 2%Z).
Proof.
  intros [L N]. unfold edge_part. rewrite map_flat_map. unfold iter_with_pos. split.
  - apply (NoDup_flat_map_key _ fst (fun x => to_v3 (edge_coordinates (edge_position (snd x))))).
    + intros [o c] _. cbn [fst snd]. rewrite edge_piece_keys.
      apply NoDup_map_inj; [|apply edge_cur_faces_nodup].
      intros a b E. apply (f_equal snd) in E. apply normal_inj, E.
    + intros [o c] x. cbn [fst snd]. rewrite edge_piece_keys, in_map_iff.
      intros (f & <- & _). reflexivity.
    + rewrite <- (map_map (fun x => edge_position (snd x)) (fun p => to_v3 (edge_coordinates p))).
      apply NoDup_map_inj; [apply edge_coords_inj|].
      rewrite <- (map_map snd edge_position), map_snd_combine by (symmetry; exact L). exact N.
  - intros k Hk. apply in_flat_map in Hk as ([o c] & _ & Hx). cbn [fst snd] in Hx.
    rewrite edge_piece_keys, in_map_iff in Hx. destruct Hx as (f & <- & _). cbn [fst].
    destruct (edge_position c) as [[] [[] []]]; reflexivity.
Qed.

Definition cube3_valid (c : Cube3) : Prop :=
  set_valid edge_desc (c3_edges c) /\ set_valid corner_desc (c3_corners c).

Lemma cube3_valid_spec c : cube3_valid c <-> cube_well_formed Size3 c.
Proof.
  unfold cube3_valid; cbn.
  rewrite <- (set_valid_spec _ corner_desc_ok), <- (set_valid_spec _ edge_desc_ok). tauto.
Qed.

Lemma centre_keys_nodup : NoDup (map key centre_part).
Proof.
  unfold centre_part. rewrite map_map. cbn [key st_cubie st_normal].
  apply NoDup_map_inj; [|apply nodup_by_eqb; reflexivity].
  intros a b E. apply (f_equal snd) in E. apply normal_inj, E.
Qed.
Lemma centre_keys_norm k : In k (map key centre_part) -> dot (fst k) (fst k) = 1%Z.
Proof. cbn. intuition (subst; reflexivity). Qed.

Lemma keys_nodup c : cube3_valid c -> NoDup (map key (cube3_stickers c)).
Proof.
  intros [Ve Vc]. rewrite cube3_stickers_parts, !map_app.
  destruct (corner_part_keys _ Vc) as [N1 D1]. destruct (edge_part_keys _ Ve) as [N2 D2].
  apply NoDup_app_intro; [apply centre_keys_nodup|apply NoDup_app_intro; auto|].
  - intros x H1 H2. specialize (D1 x H1). specialize (D2 x H2). congruence.
  - intros x H1 H2. apply centre_keys_norm in H1. apply in_app_iff in H2 as [H2|H2];
      [specialize (D1 x H2)|specialize (D2 x H2)]; congruence.
Qed.

Lemma color_at_in c s :
  cube3_valid c -> In s (cube3_stickers c) ->
  color_at c (st_cubie s) (st_normal s) = Some (st_color s).
Proof.
  intros V Hs. apply keys_nodup in V. unfold color_at.
  destruct (find_first _ _) as [s'|] eqn:F.
  - apply find_first_Some in F as [Hin E]. apply andb_true_iff in E as [E1 E2].
    apply v3_eqb_eq in E1. apply v3_eqb_eq in E2. cbn. do 2 f_equal.
    assert (K : key s' = key s) by (unfold key; congruence). clear E1 E2.
    revert Hin Hs K V. generalize (cube3_stickers c). induction l as [|a l IH]; cbn; [tauto|].
    intros H1 H2 K V. inversion V; subst. destruct H1 as [<-|H1], H2 as [<-|H2]; auto.
    + exfalso. apply H3. rewrite K. apply in_map, H2.
    + exfalso. apply H3. rewrite <- K. apply in_map, H1.
  - rewrite find_first_None in F. specialize (F s Hs).
    rewrite (proj2 (v3_eqb_eq _ _) eq_refl), (proj2 (v3_eqb_eq _ _) eq_refl) in F. discriminate.
Qed.

Lemma color_at_some c p n col :
  color_at c p n = Some col -> In (mkSticker p n col) (cube3_stickers c).
Proof.
  unfold color_at. destruct (find_first _ _) as [s|] eqn:F; cbn; [|discriminate]. intros [= <-].
  apply find_first_Some in F as [Hin E]. apply andb_true_iff in E as [E1 E2].
  apply v3_eqb_eq in E1. apply v3_eqb_eq in E2. destruct s; cbn in *. subst. exact Hin.
Qed.

(** Colours reported by a piece are seen on the cube. *)
Lemma corner_color_seen c i o p f col :
  cube3_valid c -> nth_error corner_reference i = Some o -> nth_error (c3_corners c) i = Some p ->
  In (f, col) (corner_colors p o) -> color_at c (point (c_pos p)) (normal f) = Some col.
Proof.
  intros V Ho Hp Hc. apply (color_at_in c (mkSticker (point (c_pos p)) (normal f) col) V).
  rewrite cube3_stickers_parts. apply in_app_iff; right. apply in_app_iff; left.
  apply in_flat_map. exists (o, p). split.
  - apply nth_error_In with (n := i). apply combine_nth_error. auto.
  - apply in_map_iff. exists (f, col). auto.
Qed.
Lemma edge_color_seen c i o p f col :
  cube3_valid c -> nth_error edge_reference i = Some o -> nth_error (c3_edges c) i = Some p ->
  In (f, col) (edge_colors p o) ->
  color_at c (to_v3 (edge_coordinates (edge_position p))) (normal f) = Some col.
Proof.
  intros V Ho Hp Hc.
  apply (color_at_in c (mkSticker (to_v3 (edge_coordinates (edge_position p))) (normal f) col) V).
  rewrite cube3_stickers_parts. apply in_app_iff; right. apply in_app_iff; right.
  apply in_flat_map. exists (o, p). split.
  - apply nth_error_In with (n := i). apply combine_nth_error. auto.
  - apply in_map_iff. exists (f, col). auto.
Qed.

(** ** Solved looks *)

Lemma bounded3 z : (-1 <= z <= 1)%Z -> z = (-1)%Z \/ z = 0%Z \/ z = 1%Z.
Proof. lia. Qed.

Lemma solved_looks_solved : looks_solved cube3_solved.
Proof.
  intros [x y z] f (Hx & Hy & Hz & D). cbn in Hx, Hy, Hz.
  apply bounded3 in Hx. apply bounded3 in Hy. apply bounded3 in Hz.
  destruct f as [[] []]; destruct Hx as [ -> |[ -> | -> ]]; try (exfalso; revert D; cbn; lia);
  destruct Hy as [ -> |[ -> | -> ]]; try (exfalso; revert D; cbn; lia);
  destruct Hz as [ -> |[ -> | -> ]]; try (exfalso; revert D; cbn; lia); vm_compute; reflexivity.
Qed.

Lemma list_eq_nth {A B} (f : A -> B) (l : list A) (l' : list B) :
  length l' = length l ->
  (forall i a b, nth_error l i = Some a -> nth_error l' i = Some b -> b = f a) -> l' = map f l.
Proof.
  revert l'; induction l as [|a l IH]; intros [|b l']; cbn; intros L H; try discriminate; auto.
  f_equal; [apply (H 0%nat a b eq_refl eq_refl)|]. apply IH; [lia|].
  intros i. apply (H (S i)).
Qed.

Lemma corner_colors_match p o :
  (forall f col, In (f, col) (corner_colors p o) -> col = f) -> p = corner_oriented o.
Proof.
  destruct p as [[[] [] []] []], o as [[] [] []]; intros H; cbn in H; try reflexivity; exfalso;
    first [discriminate (H _ _ (or_introl eq_refl))
          |discriminate (H _ _ (or_intror (or_introl eq_refl)))
          |discriminate (H _ _ (or_intror (or_intror (or_introl eq_refl))))].
Qed.
Lemma edge_colors_match p o :
  (forall f col, In (f, col) (edge_colors p o) -> col = f) -> p = edge_oriented o.
Proof.
  destruct p as [[] [[] []] []], o as [[] [[] []]]; intros H; cbn in H; try reflexivity; exfalso;
    first [discriminate (H _ _ (or_introl eq_refl))
          |discriminate (H _ _ (or_intror (or_introl eq_refl)))].
Qed.

Lemma corner_facelet p o f col : In (f, col) (corner_colors p o) -> facelet (point (c_pos p)) f.
Proof.
  unfold corner_colors. rewrite corner_colors_split. intros H. apply in_combine_l in H.
  destruct p as [[[] [] []] []]; cbn in H;
    repeat (destruct H as [<-|H]; [unfold facelet, dot; cbn; lia|]); contradiction.
Qed.
Lemma edge_facelet p o f col :
  In (f, col) (edge_colors p o) -> facelet (to_v3 (edge_coordinates (edge_position p))) f.
Proof.
  rewrite edge_colors_split. intros H. apply in_combine_l in H.
  destruct p as [[] [[] []] []]; cbn in H;
    repeat (destruct H as [<-|H]; [unfold facelet, dot; cbn; lia|]); contradiction.
Qed.

Lemma looks_solved_solved c : cube3_valid c -> looks_solved c -> c = cube3_solved.
Proof.
  intros V H. assert (V' := V). destruct V' as [[Le _] [Lc _]]. destruct c as [es cs]. cbn in Le, Lc.
  unfold cube3_solved. f_equal.
  - apply list_eq_nth; [exact Le|]. intros i o p Ho Hp. apply edge_colors_match. intros f col Hc.
    pose proof (edge_color_seen _ i o p f col V Ho Hp Hc) as E.
    rewrite H in E by (eapply edge_facelet; eauto). congruence.
  - apply list_eq_nth; [exact Lc|]. intros i o p Ho Hp. apply corner_colors_match. intros f col Hc.
    pose proof (corner_color_seen _ i o p f col V Ho Hp Hc) as E.
    rewrite H in E by (eapply corner_facelet; eauto). congruence.
Qed.

Lemma forallb_combine {A B} (p : A * B -> bool) (l : list A) (l' : list B) (f : A -> B) :
  length l' = length l -> (forall a b, p (a, b) = true <-> b = f a) ->
  (forallb p (combine l l') = true <-> l' = map f l).
Proof.
  intros L H. revert l' L; induction l as [|a l IH]; intros [|b l'] L; cbn in *; try discriminate; [tauto|].
  rewrite andb_true_iff, H, IH by lia. split; [intros [-> ->]; auto|intros [= -> ->]; auto].
Qed.

Lemma corner_set_is_solved s :
  length s = 8%nat -> (set_is_solved corner_desc s = true <-> s = corner_solved).
Proof.
  intros L. apply (forallb_combine _ corner_reference s corner_oriented); [exact L|].
  intros o [p a]. cbn. unfold corner_is_solved, corner_is_oriented. cbn.
  rewrite andb_true_iff, vec3_eqb_eq, axis_eqb_eq. unfold corner_oriented.
  split; [intros [-> ->]; auto|intros [= -> ->]; auto].
Qed.
Lemma edge_set_is_solved s :
  length s = 12%nat -> (set_is_solved edge_desc s = true <-> s = edge_solved).
Proof.
  intros L. apply (forallb_combine _ edge_reference s edge_oriented); [exact L|].
  intros [o1 o2] [a s' o]. cbn. unfold edge_is_solved. cbn.
  rewrite andb_true_iff, edgepos_eqb_eq. unfold edge_oriented, edge_position; cbn.
  split; [intros [[= -> ->] ->]; auto|intros [= -> -> ->]; auto].
Qed.

(** ** The unfolded drawing *)

Definition in3 (x : nat) : Prop := (x < 3)%nat.

Definition shape3 (u : Unfolded) : Prop :=
  length u = 6%nat /\ (forall sq, In sq u -> length sq = 3%nat /\ forall row, In row sq -> length row = 3%nat).

Lemma in_set_nth {A} (l : list A) i x y : In y (set_nth l i x) -> y = x \/ In y l.
Proof.
  revert i; induction l as [|a l IH]; intros [|i]; cbn; try tauto.
  - intros [->|H]; auto.
  - intros [->|H]; auto. apply IH in H. tauto.
Qed.

Lemma shape3_default : shape3 (unfolded_default 3).
Proof. split; [reflexivity|]. cbn. intuition (subst; cbn in *; intuition (subst; reflexivity)). Qed.

Lemma shape3_set u f x y c : shape3 u -> shape3 (unfolded_set u f x y c).
Proof.
  intros [L H]. unfold unfolded_set. destruct (nth_error u (face_index f)) as [sq|] eqn:E1; [|split; auto].
  destruct (nth_error sq x) as [row|] eqn:E2; [|split; auto].
  apply nth_error_In in E1. destruct (H sq E1) as [L1 H1]. apply nth_error_In in E2. specialize (H1 row E2).
  split; [rewrite set_nth_length; exact L|]. intros sq' Hsq. apply in_set_nth in Hsq as [->|Hsq]; [|auto].
  split; [rewrite set_nth_length; exact L1|]. intros row' Hr. apply in_set_nth in Hr as [->|Hr].
  - rewrite set_nth_length. exact H1.
  - apply (H sq E1), Hr.
Qed.

Lemma face_index_lt f : (face_index f < 6)%nat.
Proof. destruct f as [[] []]; cbn; lia. Qed.
Lemma face_index_inj f g : face_index f = face_index g -> f = g.
Proof. destruct f as [[] []], g as [[] []]; intros E; first [reflexivity|discriminate E]. Qed.

Lemma unfolded_at_set u f x y c f' x' y' :
  shape3 u -> in3 x -> in3 y ->
  unfolded_at (unfolded_set u f x y c) f' x' y' =
  if face_eqb f f' && Nat.eqb x x' && Nat.eqb y y' then Some c else unfolded_at u f' x' y'.
Proof.
  intros [L H] Hx Hy. unfold unfolded_set, unfolded_at. pose proof (face_index_lt f) as Lf.
  destruct (nth_error u (face_index f)) as [sq|] eqn:E1; [|apply nth_error_None in E1; lia].
  destruct (H sq (nth_error_In _ _ E1)) as [L1 H1].
  destruct (nth_error sq x) as [row|] eqn:E2; [|apply nth_error_None in E2; unfold in3 in *; lia].
  specialize (H1 row (nth_error_In _ _ E2)).
  rewrite nth_error_set_nth. destruct (Nat.eqb_spec (face_index f) (face_index f')) as [E|E].
  - apply face_index_inj in E. subst f'. rewrite (proj2 (face_eqb_eq f f) eq_refl). cbn [andb].
    destruct (Nat.ltb_spec (face_index f) (length u)); [|lia].
    rewrite nth_error_set_nth. destruct (Nat.eqb_spec x x') as [<-|Nx]; cbn [andb].
    + unfold in3 in *. destruct (Nat.ltb_spec x (length sq)); [|lia].
      rewrite nth_error_set_nth. destruct (Nat.eqb_spec y y') as [<-|Ny].
      * destruct (Nat.ltb_spec y (length row)); [reflexivity|lia].
      * rewrite E1, E2. reflexivity.
    + rewrite E1. reflexivity.
  - replace (face_eqb f f') with false; [reflexivity|].
    destruct (face_eqb f f') eqn:Ef; [|reflexivity]. apply face_eqb_eq in Ef. subst. contradiction.
Qed.

(** Writes of the drawing: one per sticker. *)
Definition write_st (u : outcome Unfolded) (w : Coord * (Face * Color)) : outcome Unfolded :=
  write_color 3 (fst w) u (snd w).

Definition all_writes (c : Cube3) : list (Coord * (Face * Color)) :=
  flat_map (fun x => map (fun fc => (corner_coordinates (c_pos (snd x)), fc)) (corner_colors (snd x) (fst x)))
    (iter_with_pos corner_desc (c3_corners c)) ++
  flat_map (fun x => map (fun fc => (edge_coordinates (edge_position (snd x)), fc)) (edge_colors (snd x) (fst x)))
    (iter_with_pos edge_desc (c3_edges c)).

Lemma fold_left_flat_map {A B C} (f : C -> B -> C) (g : A -> list B) l c :
  fold_left f (flat_map g l) c = fold_left (fun c a => fold_left f (g a) c) l c.
Proof. revert c; induction l; intros; cbn; [reflexivity|]. rewrite fold_left_app. apply IHl. Qed.
Lemma fold_left_map {A B C} (f : C -> B -> C) (g : A -> B) l c :
  fold_left f (map g l) c = fold_left (fun c a => f c (g a)) l c.
Proof. revert c; induction l; intros; cbn; auto. Qed.
Lemma fold_left_ext {A C} (f g : C -> A -> C) l c : (forall c a, f c a = g c a) -> fold_left f l c = fold_left g l c.
Proof. intros H. revert c; induction l; intros; cbn; [reflexivity|]. rewrite H. apply IHl. Qed.

Lemma unfold_writes c : unfold_cube3 c = fold_left write_st (all_writes c) (Done (unfolded_default 3)).
Proof.
  unfold unfold_cube3, populate_with, all_writes. rewrite fold_left_app, !fold_left_flat_map.
  assert (E : forall (p : Coord) l u,
    fold_left (write_color 3 p) l u = fold_left write_st (map (fun fc => (p, fc)) l) u).
  { intros. rewrite fold_left_map. reflexivity. }
  erewrite (fold_left_ext _ _ (iter_with_pos edge_desc _)); [|intros u x; apply E]. f_equal.
Qed.

Definition write_sticker (w : Coord * (Face * Color)) : Sticker :=
  mkSticker (to_v3 (fst w)) (normal (fst (snd w))) (snd (snd w)).

Lemma map_flat_map' {A B C} (f : B -> C) (g : A -> list B) l :
  map f (flat_map g l) = flat_map (fun x => map f (g x)) l.
Proof. apply map_flat_map. Qed.

Lemma writes_stickers c :
  map write_sticker (all_writes c) = corner_part (c3_corners c) ++ edge_part (c3_edges c).
Proof.
  unfold all_writes, corner_part, edge_part. rewrite map_app, !map_flat_map'.
  f_equal; apply flat_map_ext'; intros x; rewrite map_map; reflexivity.
Qed.

(** Where a write goes. *)
Definition write_ok (w : Coord * (Face * Color)) : Prop :=
  exists x y, square_indices 3 (fst w) (fst (snd w)) = Some (x, y) /\ in3 x /\ in3 y /\
    cell_cubie (fst (snd w)) x y = to_v3 (fst w).

Lemma corner_write_ok p o f col :
  In (f, col) (corner_colors p o) -> write_ok (corner_coordinates (c_pos p), (f, col)).
Proof.
  unfold corner_colors. rewrite corner_colors_split. intros H. apply in_combine_l in H.
  unfold write_ok; cbn [fst snd]. unfold in3.
  destruct p as [[[] [] []] []]; cbn in H;
    repeat (destruct H as [<-|H];
      [do 2 eexists; split; [vm_compute; reflexivity|]; split; [lia|]; split; [lia|]; vm_compute; reflexivity|]);
    contradiction.
Qed.
Lemma edge_write_ok p o f col :
  In (f, col) (edge_colors p o) -> write_ok (edge_coordinates (edge_position p), (f, col)).
Proof.
  rewrite edge_colors_split. intros H. apply in_combine_l in H.
  unfold write_ok; cbn [fst snd]. unfold in3.
  destruct p as [[] [[] []] []]; cbn in H;
    repeat (destruct H as [<-|H];
      [do 2 eexists; split; [vm_compute; reflexivity|]; split; [lia|]; split; [lia|]; vm_compute; reflexivity|]);
    contradiction.
Qed.

Lemma all_writes_ok c w : In w (all_writes c) -> write_ok w.
Proof.
  unfold all_writes. rewrite in_app_iff, !in_flat_map.
  intros [([o p] & _ & H)|([o p] & _ & H)]; apply in_map_iff in H as ([f col] & <- & H); cbn [fst snd] in *.
  - eapply corner_write_ok; eauto.
  - eapply edge_write_ok; eauto.
Qed.

Lemma cell_cubie_inj f x y x' y' :
  cell_cubie f x y = cell_cubie f x' y' -> x = x' /\ y = y'.
Proof.
  unfold cell_cubie. destruct f as [[] []]; cbn; unfold v3_add, v3_scale; cbn; intros E;
    injection E; intros; split; lia.
Qed.

(** After writes with distinct keys, each cell shows the sticker written there. *)
Lemma writes_result ws : forall u,
  shape3 u -> (forall w, In w ws -> write_ok w) -> NoDup (map key (map write_sticker ws)) ->
  exists u', fold_left write_st ws (Done u) = Done u' /\ shape3 u' /\
    (forall w x y, In w ws -> cell_cubie (fst (snd w)) x y = to_v3 (fst w) ->
       unfolded_at u' (fst (snd w)) x y = Some (snd (snd w))) /\
    (forall f x y, (forall w, In w ws -> ~ (fst (snd w) = f /\ cell_cubie f x y = to_v3 (fst w))) ->
       unfolded_at u' f x y = unfolded_at u f x y).
Proof.
  induction ws as [|[p [f col]] ws IH]; intros u Sh Ok Nd.
  - exists u. cbn. repeat split; try apply Sh; try tauto.
  - destruct (Ok _ (or_introl eq_refl)) as (x0 & y0 & Hi & Hx & Hy & Hc). cbn [fst snd] in *.
    cbn [map] in Nd. inversion Nd as [|? ? Ni Nd']; subst.
    destruct (IH (unfolded_set u f x0 y0 col)) as (u' & E & Sh' & H1 & H2);
      [apply shape3_set, Sh|intros; apply Ok; right; auto|exact Nd'|].
    exists u'. split; [|split; [exact Sh'|split]].
    + cbn [fold_left]. unfold write_st at 2, write_color, bind_o. cbn [fst snd]. rewrite Hi. exact E.
    + intros w x y [<-|Hw] Hcell; [|apply H1; auto]. cbn [fst snd] in *.
      rewrite H2.
      * rewrite unfolded_at_set by auto.
        rewrite <- Hc in Hcell. apply cell_cubie_inj in Hcell as [-> ->].
        rewrite (proj2 (face_eqb_eq f f) eq_refl), !Nat.eqb_refl. reflexivity.
      * intros w Hw [Ef Ec]. apply Ni. rewrite map_map. apply in_map_iff. exists w. split; [|exact Hw].
        unfold key, write_sticker; cbn. rewrite Ef, <- Ec, Hcell. reflexivity.
    + intros f' x y Hn. rewrite H2.
      * rewrite unfolded_at_set by auto.
        destruct (face_eqb f f' && Nat.eqb x0 x && Nat.eqb y0 y) eqn:B; [|reflexivity].
        exfalso. apply andb_true_iff in B as [B B3]. apply andb_true_iff in B as [B1 B2].
        apply face_eqb_eq in B1. apply Nat.eqb_eq in B2. apply Nat.eqb_eq in B3. subst.
        apply (Hn _ (or_introl eq_refl)). cbn. auto.
      * intros w Hw. apply Hn. right; exact Hw.
Qed.

Lemma all_writes_nodup c : cube3_valid c -> NoDup (map key (map write_sticker (all_writes c))).
Proof.
  intros V. apply keys_nodup in V. rewrite cube3_stickers_parts, map_app in V.
  rewrite writes_stickers. clear - V. induction (map key centre_part) as [|a l IH]; cbn in V; [exact V|].
  inversion V; auto.
Qed.

(** Every non-centre facelet carries a sticker of some piece. *)
Lemma all_cells_complete f x y : in3 x -> in3 y -> In (f, x, y) all_cells.
Proof.
  unfold in3. intros Hx Hy. destruct f as [[] []];
    (destruct x as [|[|[|x]]]; [| | |lia]); (destruct y as [|[|[|y]]]; [| | |lia]); cbn; tauto.
Qed.

Definition cell_key (t : Face * nat * nat) : V3 * V3 :=
  let '(f, x, y) := t in (cell_cubie f x y, normal f).

Definition keyb (a b : V3 * V3) : bool := v3_eqb (fst a) (fst b) && v3_eqb (snd a) (snd b).
Lemma keyb_eq a b : keyb a b = true <-> a = b.
Proof.
  unfold keyb. rewrite andb_true_iff, !v3_eqb_eq. destruct a, b; cbn.
  split; [intros [-> ->]; auto|intros [= -> ->]; auto].
Qed.

Lemma cell_keys_nodup : NoDup (map cell_key all_cells).
Proof. apply (find_dup_none _ keyb_eq). vm_compute. reflexivity. Qed.

Lemma centre_key_cell s : In s centre_part -> In (key s) (map cell_key all_cells).
Proof.
  intros H. apply (existsb_eqb _ keyb_eq). cbn in H.
  repeat (destruct H as [<-|H]; [vm_compute; reflexivity|]). contradiction.
Qed.

Lemma flat_map_length_const {A B} (g : A -> list B) n l :
  (forall a, length (g a) = n) -> length (flat_map g l) = (length l * n)%nat.
Proof. intros H. induction l; cbn; [reflexivity|]. rewrite app_length, H, IHl. reflexivity. Qed.

Lemma stickers_length c : cube3_valid c -> length (cube3_stickers c) = 54%nat.
Proof.
  intros [[Le _] [Lc _]]. cbn in Le, Lc. rewrite cube3_stickers_parts, !app_length.
  unfold corner_part, edge_part, iter_with_pos.
  rewrite (flat_map_length_const _ 3), (flat_map_length_const _ 2).
  - rewrite !combine_length. cbn [pd_reference corner_desc edge_desc]. rewrite Le, Lc. reflexivity.
  - intros [o p]. cbn [fst snd]. unfold edge_colors. destruct (e_oriented p); reflexivity.
  - intros [o p]. reflexivity.
Qed.

Lemma stickers_keys_perm c : cube3_valid c ->
  Permutation (map key (cube3_stickers c)) (map cell_key all_cells).
Proof.
  intros V. apply NoDup_Permutation_bis.
  - apply keys_nodup, V.
  - rewrite !map_length, (stickers_length c V). vm_compute. lia.
  - intros k Hk. rewrite cube3_stickers_parts, <- writes_stickers, map_app, in_app_iff in Hk.
    destruct Hk as [Hk|Hk].
    + apply in_map_iff in Hk as (s & <- & Hs). apply centre_key_cell, Hs.
    + rewrite map_map in Hk. apply in_map_iff in Hk as (w & <- & Hw).
      destruct (all_writes_ok c w Hw) as (x & y & _ & Hx & Hy & Hc).
      apply in_map_iff. exists (fst (snd w), x, y). split; [|apply all_cells_complete; auto].
      cbn. unfold key, write_sticker; cbn. rewrite Hc. reflexivity.
Qed.

Lemma unfold_faithful c : cube3_valid c ->
  exists u, unfold_cube3 c = Done u /\
    forall f x y, in3 x -> in3 y ->
      unfolded_at u f x y = color_at c (cell_cubie f x y) (normal f) /\
      exists col, unfolded_at u f x y = Some col.
Proof.
  intros V. rewrite unfold_writes.
  destruct (writes_result (all_writes c) (unfolded_default 3) shape3_default (all_writes_ok c)
              (all_writes_nodup c V)) as (u & E & Sh & H1 & H2).
  exists u. split; [exact E|]. intros f x y Hx Hy.
  assert (K : In (cell_key (f, x, y)) (map key (cube3_stickers c))).
  { apply (Permutation_in _ (Permutation_sym (stickers_keys_perm c V))).
    apply in_map, all_cells_complete; auto. }
  apply in_map_iff in K as (s & Hk & Hs). unfold key, cell_key in Hk. pose proof (f_equal fst Hk) as Hc. pose proof (f_equal snd Hk) as Hn. cbn [fst snd] in Hc, Hn.
  rewrite <- Hc, <- Hn, (color_at_in c s V Hs).
  enough (unfolded_at u f x y = Some (st_color s)) by (split; eauto).
  rewrite cube3_stickers_parts, <- writes_stickers, in_app_iff in Hs.
  destruct Hs as [Hs|Hs].
  - (* a centre: never written *)
    apply in_map_iff in Hs as (g & <- & _). cbn in Hc, Hn. apply normal_inj in Hn. subst g.
    rewrite H2.
    + cbn [st_color]. destruct f as [[] []];
        (destruct x as [|[|[|x]]]; [| | |unfold in3 in Hx; lia]);
        (destruct y as [|[|[|y]]]; [| | |unfold in3 in Hy; lia]); vm_compute; reflexivity.
    + intros w Hw [Ef Ec]. pose proof (all_writes_nodup c V) as N. pose proof (keys_nodup c V) as N'.
      rewrite cube3_stickers_parts, <- writes_stickers, map_app in N'.
      assert (I1 : In (key (write_sticker w)) (map key centre_part)).
      { unfold key, write_sticker; cbn [st_cubie st_normal]. rewrite Ef, <- Ec, <- Hc.
        apply in_map_iff. exists (mkSticker (normal f) (normal f) f). split; [reflexivity|].
        destruct f as [[] []]; cbn; tauto. }
      assert (I2 : In (key (write_sticker w)) (map key (map write_sticker (all_writes c)))).
      { apply in_map, in_map, Hw. }
      clear - I1 I2 N'. induction (map key centre_part) as [|a l IH]; cbn in *; [contradiction|].
      inversion N'; subst. destruct I1 as [->|I1]; [|auto]. apply H1, in_app_iff; auto.
  - apply in_map_iff in Hs as (w & <- & Hw). cbn in *. apply normal_inj in Hn. subst f.
    apply H1; [exact Hw|congruence].
Qed.

(** ** Nine stickers of each colour *)

Definition corner_orig_colors (o : Vec3) : list Color := cur_faces 3 o AY.
Definition edge_orig_colors (o : EdgePos) : list Color := [orientation_face o; non_orientation_face o].

Lemma flat_map_fst_combine {A B C} (g : A -> list C) (l : list A) (l' : list B) :
  length l = length l' -> flat_map (fun x => g (fst x)) (combine l l') = flat_map g l.
Proof.
  intros L. rewrite <- (map_fst_combine l l' L) at 2. rewrite flat_map_map_in. reflexivity.
Qed.

Lemma sticker_colors c : cube3_valid c ->
  map st_color (cube3_stickers c) = face_iter ++ flat_map corner_orig_colors corner_reference
                                   ++ flat_map edge_orig_colors edge_reference.
Proof.
  intros [[Le _] [Lc _]]. rewrite cube3_stickers_parts, !map_app. f_equal.
  unfold corner_part, edge_part, iter_with_pos. rewrite !map_flat_map'. f_equal.
  - erewrite flat_map_ext'; [apply (flat_map_fst_combine corner_orig_colors); symmetry; exact Lc|].
    intros [o p]. cbn [fst snd]. unfold piece_stickers, corner_colors. rewrite corner_colors_split, map_map.
    cbn [st_color]. apply map_snd_combine. reflexivity.
  - erewrite flat_map_ext'; [apply (flat_map_fst_combine edge_orig_colors); symmetry; exact Le|].
    intros [o p]. cbn [fst snd]. unfold piece_stickers. rewrite edge_colors_split, map_map.
    cbn [st_color]. apply map_snd_combine. unfold edge_cur_faces. destruct (e_oriented p); reflexivity.
Qed.

Definition ocol_eqb (a : option Color) (b : Color) : bool :=
  match a with Some x => face_eqb x b | None => false end.

Lemma filter_length_perm {A} (p : A -> bool) l l' :
  Permutation l l' -> length (filter p l) = length (filter p l').
Proof. induction 1; cbn; repeat destruct (p _); cbn; congruence. Qed.
Lemma filter_length_map {A B} (p : B -> bool) (f : A -> B) l :
  length (filter p (map f l)) = length (filter (fun a => p (f a)) l).
Proof. induction l; cbn; [reflexivity|]. destruct (p _); cbn; congruence. Qed.
Lemma filter_length_ext {A} (p q : A -> bool) l :
  (forall a, In a l -> p a = q a) -> length (filter p l) = length (filter q l).
Proof.
  induction l; cbn; intros H; [reflexivity|]. rewrite (H a) by auto.
  destruct (q a); cbn; rewrite IHl by auto; reflexivity.
Qed.

Lemma color_count c col : cube3_valid c ->
  length (filter (fun k => ocol_eqb (color_at c (fst k) (snd k)) col) (map cell_key all_cells)) = 9%nat.
Proof.
  intros V. rewrite <- (filter_length_perm _ _ _ (stickers_keys_perm c V)), filter_length_map.
  rewrite (filter_length_ext _ (fun s => face_eqb (st_color s) col)).
  - rewrite <- (@filter_length_map Sticker Color (fun x => face_eqb x col) st_color), (sticker_colors c V).
    destruct col as [[] []]; vm_compute; reflexivity.
  - intros s Hs. cbn [key fst snd]. rewrite (color_at_in c s V Hs). reflexivity.
Qed.

(** ** The drawing determines the cube *)

(** Recover the original position and the orientation axis from reported colours. *)
Definition corner_decode (l : list (Face * Color)) : Vec3 * Axis :=
  let dir a := match find_first (fun x => axis_eqb (face_axis (snd x)) a) l with
               | Some x => face_dir (snd x) | None => Positive end in
  (mkVec3 (dir AX) (dir AY) (dir AZ),
   match find_first (fun x => axis_eqb (face_axis (snd x)) AY) l with
   | Some x => face_axis (fst x) | None => AX end).
Lemma corner_decode_ok p o : corner_decode (corner_colors p o) = (o, c_axis p).
Proof. destruct p as [[[] [] []] []], o as [[] [] []]; reflexivity. Qed.

(** Colours shown at the faces of a position in a fixed order. *)
Definition colors_on (l : list (Face * Color)) (f : Face) : option Color :=
  option_map snd (find_first (fun x => face_eqb (fst x) f) l).

Lemma corner_same_colors p q o o' :
  c_pos p = c_pos q ->
  (forall f col, In (f, col) (corner_colors p o) -> In (f, col) (corner_colors q o')) ->
  o = o' /\ p = q.
Proof.
  intros E H. destruct p as [pos a], q as [pos' a']. cbn in E. subst pos'.
  (* the sticker with a Y colour fixes the orientation axis *)
  assert (HY : forall p o, In (mkFace (c_axis p) (vget (c_pos p) (c_axis p)), mkFace AY (vy o)) (corner_colors p o)).
  { intros. left. reflexivity. }
  assert (U : forall p o f f' col col', In (f, col) (corner_colors p o) -> In (f', col') (corner_colors p o) ->
              face_axis col = face_axis col' -> f = f' /\ col = col').
  { clear. intros p o f f' col col' H1 H2 E.
    unfold corner_colors in *. rewrite corner_colors_split in *. unfold Color in *.
    assert (NA : NoDup (map face_axis (cur_faces 3 o AY))).
    { apply (find_dup_none _ axis_eqb_eq). destruct o as [[] [] []]; reflexivity. }
    apply In_nth_error in H1 as (i & Hi). apply In_nth_error in H2 as (j & Hj).
    apply combine_nth_error in Hi as [Hi1 Hi2]. apply combine_nth_error in Hj as [Hj1 Hj2].
    assert (i = j).
    { rewrite NoDup_nth_error in NA. apply NA.
      - rewrite map_length. apply nth_error_Some. congruence.
      - rewrite !nth_error_map, Hi2, Hj2. cbn. f_equal. exact E. }
    subst j. split; congruence. }
  assert (Ho : o = o').
  { assert (D : forall ax, exists f, In (f, mkFace ax (vget o ax)) (corner_colors (mkCorner pos a) o)).
    { intros ax. unfold corner_colors. rewrite corner_colors_split. cbn [c_pos c_axis].
      assert (In (mkFace ax (vget o ax)) (cur_faces 3 o AY)) by (destruct ax, o as [[] [] []]; cbn; tauto).
      apply In_nth_error in H0 as (i & Hi).
      destruct (nth_error (cur_faces 3 pos a) i) as [f|] eqn:Ef.
      - exists f. apply nth_error_In with (n := i). apply combine_nth_error. auto.
      - apply nth_error_None in Ef. assert (i < 3)%nat by (apply (nth_error_Some (cur_faces 3 o AY)); congruence).
        cbn in Ef. lia. }
    assert (D' : forall f col, In (f, col) (corner_colors (mkCorner pos a') o') -> col = mkFace (face_axis col) (vget o' (face_axis col))).
    { intros f col Hc. unfold corner_colors in Hc. rewrite corner_colors_split in Hc. apply in_combine_r in Hc.
      cbn in Hc. repeat (destruct Hc as [<-|Hc]; [reflexivity|]). contradiction. }
    destruct o as [ox oy oz], o' as [ox' oy' oz'].
    destruct (D AX) as (f1 & I1). apply H, D' in I1. cbn in I1.
    destruct (D AY) as (f2 & I2). apply H, D' in I2. cbn in I2.
    destruct (D AZ) as (f3 & I3). apply H, D' in I3. cbn in I3. congruence. }
  subst o'. split; [reflexivity|].
  pose proof (H _ _ (HY (mkCorner pos a) o)) as I1. pose proof (HY (mkCorner pos a') o) as I2.
  destruct (U _ _ _ _ _ _ I1 I2 eq_refl) as [E _]. cbn in E. congruence.
Qed.

Lemma edge_same_colors p q o o' :
  edge_position p = edge_position q ->
  (forall f col, In (f, col) (edge_colors p o) -> In (f, col) (edge_colors q o')) ->
  o = o' /\ p = q.
Proof.
  intros E H. rewrite !edge_colors_split in H.
  assert (Inj : forall a b, (forall col, In col [orientation_face a; non_orientation_face a] ->
                   In col [orientation_face b; non_orientation_face b]) -> a = b).
  { clear. intros a b H. pose proof (H _ (or_introl eq_refl)) as H1.
    pose proof (H _ (or_intror (or_introl eq_refl))) as H2. clear H.
    destruct a as [[] [[] []]], b as [[] [[] []]]; cbn in H1, H2; try reflexivity;
      exfalso; first [destruct H1 as [H1|[H1|[]]]; discriminate H1
                     |destruct H2 as [H2|[H2|[]]]; discriminate H2]. }
  assert (Ho : o = o').
  { apply Inj. intros col Hcol.
    assert (L : length (edge_cur_faces p) = 2%nat) by (unfold edge_cur_faces; destruct (e_oriented p); reflexivity).
    apply In_nth_error in Hcol as (i & Hi).
    destruct (nth_error (edge_cur_faces p) i) as [f|] eqn:Ef.
    - eapply in_combine_r. apply (H f col). apply nth_error_In with (n := i). apply combine_nth_error. auto.
    - apply nth_error_None in Ef. assert (i < 2)%nat by
        (apply (nth_error_Some [orientation_face o; non_orientation_face o]); congruence). lia. }
  subst o'. split; [reflexivity|].
  destruct p as [n s b], q as [n' s' b']. cbn in E. unfold edge_position in E. cbn in E. injection E; intros; subst n' s'.
  f_equal. destruct b, b'; try reflexivity; exfalso; unfold edge_cur_faces in H; cbn [e_oriented edge_position] in H;
    pose proof (H _ _ (or_introl eq_refl)) as H1;
    destruct n, s as [[] []], o as [[] [[] []]]; cbn in H1; destruct H1 as [H1|[H1|[]]]; discriminate H1.
Qed.

Lemma piece_at_pos {P Pos} (d : PieceDesc P Pos) (OK : desc_ok d) s pos :
  set_valid d s -> exists i p o, nth_error s i = Some p /\ nth_error (pd_reference d) i = Some o /\
    pd_position d p = pos.
Proof.
  intros V. destruct (original_position_done d OK s pos V) as (i & p & o & H1 & H2 & H3 & _). exists i, p, o. auto.
Qed.

Lemma corner_colors_face p o f : In f (cur_faces 3 (c_pos p) (c_axis p)) -> exists col, In (f, col) (corner_colors p o).
Proof.
  intros H. unfold corner_colors. rewrite corner_colors_split. apply In_nth_error in H as (i & Hi).
  destruct (nth_error (cur_faces 3 o AY) i) as [col|] eqn:E.
  - exists col. apply nth_error_In with (n := i). apply combine_nth_error. auto.
  - apply nth_error_None in E. assert (i < 3)%nat by
      (apply (nth_error_Some (cur_faces 3 (c_pos p) (c_axis p))); congruence). cbn in E. lia.
Qed.
Lemma edge_colors_face p o f : In f (edge_cur_faces p) -> exists col, In (f, col) (edge_colors p o).
Proof.
  intros H. rewrite edge_colors_split.
  assert (L : length (edge_cur_faces p) = 2%nat) by (unfold edge_cur_faces; destruct (e_oriented p); reflexivity).
  apply In_nth_error in H as (i & Hi).
  destruct (nth_error [orientation_face o; non_orientation_face o] i) as [col|] eqn:E.
  - exists col. apply nth_error_In with (n := i). apply combine_nth_error. auto.
  - apply nth_error_None in E. assert (i < 2)%nat by
      (rewrite <- L; apply nth_error_Some; congruence). cbn in E. lia.
Qed.
Lemma cur_faces_same_pos p q f :
  c_pos p = c_pos q -> In f (cur_faces 3 (c_pos p) (c_axis p)) -> In f (cur_faces 3 (c_pos q) (c_axis q)).
Proof. destruct p as [p a], q as [q b]. cbn [c_pos c_axis]. intros ->. destruct q as [[] [] []], a, b; cbn; tauto. Qed.
Lemma edge_faces_same_pos p q f :
  edge_position p = edge_position q -> In f (edge_cur_faces p) -> In f (edge_cur_faces q).
Proof.
  unfold edge_cur_faces. intros ->. destruct (e_oriented p), (e_oriented q); cbn; tauto.
Qed.

Lemma nodup_nth {A} (l : list A) i j x :
  NoDup l -> nth_error l i = Some x -> nth_error l j = Some x -> i = j.
Proof.
  intros N Hi Hj. rewrite NoDup_nth_error in N. apply N; [|congruence]. apply nth_error_Some. congruence.
Qed.

Lemma same_colors_same_cube c1 c2 :
  cube3_valid c1 -> cube3_valid c2 ->
  (forall p f, facelet p f -> color_at c1 p (normal f) = color_at c2 p (normal f)) -> c1 = c2.
Proof.
  intros V1 V2 H. destruct c1 as [e1 k1], c2 as [e2 k2].
  assert (V1' := V1). assert (V2' := V2). destruct V1' as [Ve1 Vk1], V2' as [Ve2 Vk2]. cbn in *.
  f_equal.
  - rewrite <- (map_id e2). apply list_eq_nth; [destruct Ve1 as [-> _], Ve2 as [-> _]; reflexivity|].
    intros i q0 p Hq0 Hp.
    destruct (nth_error edge_reference i) as [o|] eqn:Ho.
    2:{ apply nth_error_None in Ho. assert (i < length e1)%nat by (apply nth_error_Some; congruence).
        destruct Ve1 as [L _]. cbn in L. rewrite L in H0. cbn in Ho. lia. }
    destruct (piece_at_pos _ edge_desc_ok e2 (edge_position p) Ve2) as (j & q & o' & Hq & Ho' & Epos).
    cbn in Ho', Epos.
    destruct (edge_same_colors p q o o' (eq_sym Epos)) as [<- <-].
    + intros f col Hc. pose proof (edge_color_seen _ _ _ _ _ _ V1 Ho Hp Hc) as E1.
      rewrite H in E1 by (eapply edge_facelet; eauto).
      assert (Hf : In f (edge_cur_faces p)) by (rewrite edge_colors_split in Hc; eapply in_combine_l; eauto).
      apply (edge_faces_same_pos _ _ _ (eq_sym Epos)) in Hf.
      destruct (edge_colors_face q o' f Hf) as (col' & Hc').
      pose proof (edge_color_seen _ _ _ _ _ _ V2 Ho' Hq Hc') as E2. rewrite Epos in E2. congruence.
    + assert (i = j) by (eapply (nodup_nth edge_reference); eauto; apply edge_desc_ok). subst j. congruence.
  - rewrite <- (map_id k2). apply list_eq_nth; [destruct Vk1 as [-> _], Vk2 as [-> _]; reflexivity|].
    intros i q0 p Hq0 Hp.
    destruct (nth_error corner_reference i) as [o|] eqn:Ho.
    2:{ apply nth_error_None in Ho. assert (i < length k1)%nat by (apply nth_error_Some; congruence).
        destruct Vk1 as [L _]. cbn in L. rewrite L in H0. cbn in Ho. lia. }
    destruct (piece_at_pos _ corner_desc_ok k2 (c_pos p) Vk2) as (j & q & o' & Hq & Ho' & Epos).
    cbn in Ho', Epos.
    destruct (corner_same_colors p q o o' (eq_sym Epos)) as [<- <-].
    + intros f col Hc. pose proof (corner_color_seen _ _ _ _ _ _ V1 Ho Hp Hc) as E1.
      rewrite H in E1 by (eapply corner_facelet; eauto).
      assert (Hf : In f (cur_faces 3 (c_pos p) (c_axis p))).
      { unfold corner_colors in Hc. rewrite corner_colors_split in Hc. eapply in_combine_l; eauto. }
      apply (cur_faces_same_pos _ _ _ (eq_sym Epos)) in Hf.
      destruct (corner_colors_face q o' f Hf) as (col' & Hc').
      pose proof (corner_color_seen _ _ _ _ _ _ V2 Ho' Hq Hc') as E2. rewrite Epos in E2. congruence.
    + assert (i = j) by (eapply (nodup_nth corner_reference); eauto; apply corner_desc_ok). subst j. congruence.
Qed.

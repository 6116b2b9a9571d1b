(** The stickers of a cube of any size, listed piece by piece, determine its state. *)

From Coq Require Import List Bool Arith NArith ZArith Lia.
From Verif Require Import Model_Base Model_Space Model_Moves Model_Pieces Model_PieceSet Model_Cubes
  Model_Visual Spec_Moves Spec_Geometry Spec_Stickers Spec_Sets Spec_Invariants Spec_BigCube
  Proof_Geometry Proof_Sets Proof_Stickers.
Import ListNotations.
Open Scope nat_scope.

Lemma app_same_length {A} (a b t t' : list A) : length a = length b -> a ++ t = b ++ t' -> a = b /\ t = t'.
Proof.
  revert b. induction a as [|x a IH]; intros [|y b] L E; cbn in L; try discriminate; [auto|].
  cbn in E. injection E as -> E. destruct (IH b ltac:(lia) E) as [-> ->]. auto.
Qed.
Lemma pieces_inj {R P} (f : R -> P -> list Sticker) (m : nat) : (forall o x, length (f o x) = m) ->
  (forall o x y, f o x = f o y -> x = y) -> forall ref s s' t t', length s = length ref -> length s' = length ref ->
  flat_map (fun x => f (fst x) (snd x)) (combine ref s) ++ t = flat_map (fun x => f (fst x) (snd x)) (combine ref s') ++ t' ->
  s = s' /\ t = t'.
Proof.
  intros L I ref. induction ref as [|o ref IH]; intros [|x s] [|y s'] t t' E1 E2 E; cbn in E1, E2; try discriminate; [auto|].
  cbn [combine flat_map fst snd] in E. rewrite <- !app_assoc in E. apply app_same_length in E; [|rewrite !L; reflexivity].
  destruct E as [Ex E]. apply I in Ex. subst y. apply IH in E; [|lia|lia]. destruct E as [-> ->]. auto.
Qed.
Lemma single_inj {R P} (f : R -> P -> Sticker) : (forall o x y, st_cubie (f o x) = st_cubie (f o y) -> x = y) ->
  forall ref s s' t t', length s = length ref -> length s' = length ref ->
  map (fun x => f (fst x) (snd x)) (combine ref s) ++ t = map (fun x => f (fst x) (snd x)) (combine ref s') ++ t' ->
  s = s' /\ t = t'.
Proof.
  intros I ref s s' t t' E1 E2 E.
  assert (M : forall l : list (R * P), flat_map (fun x => [f (fst x) (snd x)]) l = map (fun x => f (fst x) (snd x)) l).
  { induction l as [|x l IH]; [reflexivity|]. cbn. rewrite IH. reflexivity. }
  rewrite <- !M in E. refine (pieces_inj (fun o x => [f o x]) 1 (fun _ _ => eq_refl) _ ref s s' t t' E1 E2 E).
  intros o x y H. apply (I o). injection H as H. rewrite H. reflexivity.
Qed.

Definition a_size (k : Z) : Prop := k = 2%Z \/ k = 3%Z \/ k = 4%Z \/ k = 5%Z \/ k = 6%Z \/ k = 7%Z.

Lemma place_colors (l l' : list (Face * Color)) p q : length l = length l' -> l <> [] ->
  map (fun fc => mkSticker p (normal (fst fc)) (snd fc)) l = map (fun fc => mkSticker q (normal (fst fc)) (snd fc)) l' ->
  p = q /\ l = l'.
Proof.
  intros L N E. split.
  - destruct l as [|x l], l' as [|y l']; try contradiction; try discriminate. cbn in E. injection E as E _ _ _. exact E.
  - clear N. revert l' L E. induction l as [|[f x] l IH]; intros [|[g y] l'] L E; cbn in L; try discriminate; [reflexivity|].
    cbn [map fst snd] in E.
    assert (E0 : forall (a b : Sticker) la lb, a :: la = b :: lb -> st_normal a = st_normal b /\ st_color a = st_color b /\ la = lb)
      by (intros a b la lb H; injection H as -> ->; auto).
    apply E0 in E. cbn [st_normal st_color] in E. destruct E as (E1 & E2 & E3). apply normal_inj in E1. subst.
    f_equal. apply IH; [lia|exact E3].
Qed.

Definition corner_show (k : Z) (o : Vec3) (x : Corner) : list Sticker :=
  map (fun fc => mkSticker (corner_loc k x) (normal (fst fc)) (snd fc)) (corner_colors x o).
Lemma corner_show_length k o x : length (corner_show k o x) = 3.
Proof. unfold corner_show. rewrite map_length. reflexivity. Qed.
Lemma corner_show_inj k o x y : a_size k -> corner_show k o x = corner_show k o y -> x = y.
Proof.
  intros K E. apply place_colors in E; [|reflexivity|discriminate]. destruct E as [E1 E2].
  refine (proj2 (corner_same_colors x y o o _ _)).
  - destruct x as [[[] [] []] a], y as [[[] [] []] b]; cbn [c_pos]; try reflexivity; exfalso;
      destruct K as [->|[->|[->|[->|[->| ->]]]]]; vm_compute in E1; discriminate E1.
  - intros f c. rewrite E2. auto.
Qed.
Definition edge_show (k : Z) o (x : Edge) : list Sticker :=
  map (fun fc => mkSticker (edge_loc k x) (normal (fst fc)) (snd fc)) (edge_colors x o).
Lemma edge_colors_length x o : length (edge_colors x o) = 2.
Proof. rewrite edge_colors_split. unfold edge_cur_faces. destruct (e_oriented x); reflexivity. Qed.
Lemma edge_colors_some x o : edge_colors x o <> [].
Proof. intros E. pose proof (edge_colors_length x o) as H. rewrite E in H. discriminate H. Qed.
Lemma edge_show_length k o x : length (edge_show k o x) = 2.
Proof. unfold edge_show. rewrite map_length. apply edge_colors_length. Qed.
Lemma edge_show_inj k o x y : a_size k -> edge_show k o x = edge_show k o y -> x = y.
Proof.
  intros K E. apply place_colors in E; [|rewrite !edge_colors_length; reflexivity|apply edge_colors_some]. destruct E as [E1 E2].
  refine (proj2 (edge_same_colors x y o o _ _)).
  - destruct x as [[] [[] []] a], y as [[] [[] []] b]; unfold edge_position; cbn [e_normal e_slice]; try reflexivity; exfalso;
      destruct K as [->|[->|[->|[->|[->| ->]]]]]; vm_compute in E1; discriminate E1.
  - intros f c. rewrite E2. auto.
Qed.

Lemma nodup_map_inj {A B} (f : A -> B) l x y : NoDup (map f l) -> In x l -> In y l -> f x = f y -> x = y.
Proof.
  induction l as [|a l IH]; intros N Hx Hy E; [destruct Hx|]. cbn in N. inversion N as [|? ? N1 N2]. subst.
  destruct Hx as [->|Hx], Hy as [->|Hy]; [reflexivity| | |apply IH; assumption].
  - exfalso. apply N1. rewrite E. apply in_map, Hy.
  - exfalso. apply N1. rewrite <- E. apply in_map, Hx.
Qed.
Ltac distinct := apply (find_dup_none _ v3_eqb_eq); vm_compute; reflexivity.
Lemma wing_loc_inj k nd x y : (k = 4%Z /\ nd = 1%Z) \/ (k = 6%Z /\ (nd = 1%Z \/ nd = 2%Z)) \/ (k = 7%Z /\ (nd = 1%Z \/ nd = 2%Z)) ->
  wing_loc k nd x = wing_loc k nd y -> x = y.
Proof.
  intros K. apply (nodup_map_inj (wing_loc k nd) wing_solved); [|apply wing_in_solved|apply wing_in_solved].
  destruct K as [[-> ->]|[[-> [->| ->]]|[-> [->| ->]]]]; distinct.
Qed.
Lemma wing_stickers_length k nd o x : length (wing_stickers k nd o x) = 2.
Proof. unfold wing_stickers. rewrite map_length. apply edge_colors_length. Qed.
Lemma cc_loc_inj k nd x y : (k = 4%Z /\ nd = 1%Z) \/ (k = 5%Z /\ nd = 1%Z) \/ (k = 6%Z /\ (nd = 1%Z \/ nd = 2%Z)) \/ (k = 7%Z /\ (nd = 1%Z \/ nd = 2%Z)) ->
  cc_loc k nd x = cc_loc k nd y -> x = y.
Proof.
  intros K. apply (nodup_map_inj (cc_loc k nd) cc_solved); [|apply cc_in_solved|apply cc_in_solved].
  destruct K as [[-> ->]|[[-> ->]|[[-> [->| ->]]|[-> [->| ->]]]]]; distinct.
Qed.
Lemma ce_loc_inj k nd x y : (k = 5%Z /\ nd = 1%Z) \/ (k = 7%Z /\ (nd = 1%Z \/ nd = 2%Z)) ->
  ce_loc k nd x = ce_loc k nd y -> x = y.
Proof.
  intros K. apply (nodup_map_inj (ce_loc k nd) ce_solved); [|apply ce_in_solved|apply ce_in_solved].
  destruct K as [[-> ->]|[-> [->| ->]]]; distinct.
Qed.
Lemma cw_loc_inj k x y : k = 6%Z \/ k = 7%Z -> cw_loc k 1 2 x = cw_loc k 1 2 y -> x = y.
Proof.
  intros K. apply (nodup_map_inj (cw_loc k 1 2) cw_solved); [|apply cw_in_solved|apply cw_in_solved].
  destruct K as [->| ->]; distinct.
Qed.

(** ** Sets *)
Lemma corners_inj k s s' t t' : a_size k -> length s = 8 -> length s' = 8 ->
  set_stickers k (SetCorner s) ++ t = set_stickers k (SetCorner s') ++ t' -> s = s' /\ t = t'.
Proof.
  intros K L L' E. refine (pieces_inj (corner_show k) 3 (corner_show_length k) _ corner_reference s s' t t' L L' E).
  intros o x y. apply (corner_show_inj k o x y K).
Qed.
Lemma edges_inj k s s' t t' : a_size k -> length s = 12 -> length s' = 12 ->
  set_stickers k (SetEdge s) ++ t = set_stickers k (SetEdge s') ++ t' -> s = s' /\ t = t'.
Proof.
  intros K L L' E. refine (pieces_inj (edge_show k) 2 (edge_show_length k) _ edge_reference s s' t t' L L' E).
  intros o x y. apply (edge_show_inj k o x y K).
Qed.
Lemma wings_inj k nd s s' t t' : (forall x y, wing_loc k nd x = wing_loc k nd y -> x = y) -> length s = 24 -> length s' = 24 ->
  set_stickers k (SetWing nd s) ++ t = set_stickers k (SetWing nd s') ++ t' -> s = s' /\ t = t'.
Proof.
  intros I L L' E. refine (pieces_inj (wing_stickers k nd) 2 (wing_stickers_length k nd) _ wing_solved s s' t t' L L' E).
  intros o x y H. apply place_colors in H; [|rewrite !edge_colors_length; reflexivity|apply edge_colors_some]. apply I, H.
Qed.
Lemma ccs_inj k nd s s' t t' : (forall x y, cc_loc k nd x = cc_loc k nd y -> x = y) -> length s = 24 -> length s' = 24 ->
  set_stickers k (SetCenterCorner nd s) ++ t = set_stickers k (SetCenterCorner nd s') ++ t' -> s = s' /\ t = t'.
Proof.
  intros I L L' E.
  refine (single_inj (fun o x => mkSticker (cc_loc k nd x) (normal (cc_face x)) (cc_face o)) _ cc_solved s s' t t' L L' E).
  intros o x y H. apply I, H.
Qed.
Lemma ces_inj k nd s s' t t' : (forall x y, ce_loc k nd x = ce_loc k nd y -> x = y) -> length s = 24 -> length s' = 24 ->
  set_stickers k (SetCenterEdge nd s) ++ t = set_stickers k (SetCenterEdge nd s') ++ t' -> s = s' /\ t = t'.
Proof.
  intros I L L' E.
  refine (single_inj (fun o x => mkSticker (ce_loc k nd x) (normal (ce_main x)) (ce_main o)) _ ce_solved s s' t t' L L' E).
  intros o x y H. apply I, H.
Qed.
Lemma cws_inj k nd td s s' t t' : (forall x y, cw_loc k nd td x = cw_loc k nd td y -> x = y) -> length s = 48 -> length s' = 48 ->
  set_stickers k (SetCenterWing nd td s) ++ t = set_stickers k (SetCenterWing nd td s') ++ t' -> s = s' /\ t = t'.
Proof.
  intros I L L' E.
  refine (single_inj (fun o x => mkSticker (cw_loc k nd td x) (normal (ce_main (cw_edge x))) (ce_main (cw_edge o))) _ cw_solved s s' t t' L L' E).
  intros o x y H. apply I, H.
Qed.

Ltac peel E :=
  first
  [ apply corners_inj in E; [|unfold a_size; tauto|assumption|assumption]
  | apply edges_inj in E; [|unfold a_size; tauto|assumption|assumption]
  | apply wings_inj in E; [|intros x y; apply wing_loc_inj; tauto|assumption|assumption]
  | apply ccs_inj in E; [|intros x y; apply cc_loc_inj; tauto|assumption|assumption]
  | apply ces_inj in E; [|intros x y; apply ce_loc_inj; tauto|assumption|assumption]
  | apply cws_inj in E; [|intros x y; apply cw_loc_inj; tauto|assumption|assumption] ];
  let H := fresh "Q" in destruct E as [H E].

Lemma stickers_determine n (c c' : CubeOf n) : cube_well_formed n c -> cube_well_formed n c' ->
  cube_stickers n c = cube_stickers n c' -> c = c'.
Proof.
  intros W W' E.
  assert (LL : forall (P Pos : Type) (d : PieceDesc P Pos) s, one_piece_everywhere d s -> length s = length (pd_reference d))
    by (intros P Pos d s [H _]; exact H).
  destruct n; unfold cube_stickers in E; cbn [cube_sets flat_map] in E; cbn [cube_well_formed] in W, W';
    repeat match goal with
    | H : _ /\ _ |- _ => let H' := fresh "W" in destruct H as [H' H]
    end;
    repeat match goal with
    | H : one_piece_everywhere _ _ |- _ => apply LL in H;
        match type of H with _ = ?n => let v := eval vm_compute in n in change n with v in H end
    end.
  all: match type of E with context [set_stickers ?k _] => let v := eval vm_compute in k in change k with v in E end.
  all: repeat peel E; clear E; destruct c, c'; simpl in *; congruence.
Qed.

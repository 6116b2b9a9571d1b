(** C104: cubes without fixed centres that look solved. *)

From Coq Require Import List Bool Arith ZArith NArith Lia.
From Verif Require Import Model_Base Model_Space Model_Moves Model_Pieces Model_PieceSet Model_Cubes Model_Connect Model_Visual
  Spec_Moves Spec_Geometry Spec_Stickers Spec_BigCube Spec_Sets Spec_Count Proof_Geometry Proof_Sets Proof_BigCube Prop_Sets Prop_BigCube Prop_OrientableMoves Prop_Equality.
Import ListNotations.

(** Every face shows one colour, whichever it is. *)
Definition one_colour (n : CubeSize) (c : CubeOf n) : Prop :=
  forall s s', In s (cube_stickers n c) -> In s' (cube_stickers n c) -> st_normal s = st_normal s' -> st_color s = st_color s'.

(** The claim for one size: a cube that was turned looks solved exactly if [is_solved] says so. *)
Definition C104_claim (n : CubeSize) : Prop :=
  forall al, let c := fold_left (cube_apply n) al (cube_solved n) in (cube_is_solved n c = true <-> one_colour n c).

(** Turning a face and the opposite one the other way: on a cube of even size the whole cube
    has been turned. *)
Definition whole_turn (f : Face) : list AxisMove := [mkMove f Single; mkMove (mkFace (face_axis f) (dir_neg (face_dir f))) Inverse].

Definition one_colourb (n : CubeSize) (c : CubeOf n) : bool :=
  let l := cube_stickers n c in
  forallb (fun f => let g := filter (fun s => v3_eqb (st_normal s) (normal f)) l in
    match g with [] => true | s :: _ => forallb (fun s' => face_eqb (st_color s) (st_color s')) g end) face_iter.
Lemma normals n c s : In s (cube_stickers n c) -> exists f, st_normal s = normal f.
Proof.
  intros I. apply in_flat_map in I as (x & _ & I). destruct x as [l|l|nd l|nd l|nd l|nd td l]; cbn [set_stickers] in I.
  - apply in_flat_map in I as (y & _ & I). apply in_map_iff in I as (fc & <- & _). exists (fst fc). reflexivity.
  - apply in_flat_map in I as (y & _ & I). apply in_map_iff in I as (fc & <- & _). exists (fst fc). reflexivity.
  - apply in_flat_map in I as (y & _ & I). apply in_map_iff in I as (fc & <- & _). exists (fst fc). reflexivity.
  - apply in_map_iff in I as (y & <- & _). eexists. reflexivity.
  - apply in_map_iff in I as (y & <- & _). eexists. reflexivity.
  - apply in_map_iff in I as (y & <- & _). eexists. reflexivity.
Qed.
Lemma faces_all f : In f face_iter.
Proof. destruct f as [[] []]; cbn; auto 10. Qed.
Lemma one_colourb_ok n c : one_colourb n c = true -> one_colour n c.
Proof.
  unfold one_colourb. cbv zeta. rewrite forallb_forall. intros H s s' I I' E. destruct (normals n c s I) as (f & Nf). specialize (H f (faces_all f)).
  assert (J : forall x, In x (cube_stickers n c) -> st_normal x = normal f -> In x (filter (fun s => v3_eqb (st_normal s) (normal f)) (cube_stickers n c))).
  { intros x Ix Ex. apply filter_In. split; [exact Ix|apply v3_eqb_eq, Ex]. }
  pose proof (J s I Nf) as J1. pose proof (J s' I' (eq_trans (eq_sym E) Nf)) as J2. clear J.
  destruct (filter _ _) as [|x g]; [destruct J1|]. rewrite forallb_forall in H.
  pose proof (H s J1) as H1. pose proof (H s' J2) as H2. apply face_eqb_eq in H1, H2. congruence.
Qed.

(** The claim is false on every size it is about: R L' turns the whole cube. *)
Theorem C104_refuted : forall n, n = Size2 \/ n = Size4 \/ n = Size6 ->
  let c := fold_left (cube_apply n) (whole_turn fR) (cube_solved n) in
  one_colour n c /\ cube_is_solved n c = false /\ ~ C104_claim n.
Proof.
  intros n Hn c. assert (H : one_colour n c /\ cube_is_solved n c = false).
  { destruct Hn as [ -> |[ -> | -> ]]; (split; [apply one_colourb_ok; vm_compute; reflexivity|vm_compute; reflexivity]). }
  destruct H as [O F]. split; [exact O|]. split; [exact F|]. intros C. apply (C (whole_turn fR)) in O. change (cube_is_solved n c = true) in O. congruence.
Qed.

(** ** What holds for the 2x2x2 *)

(** The faces at a corner. *)
Definition faces_at (p : Vec3) : list Face := [mkFace AX (vx p); mkFace AY (vy p); mkFace AZ (vz p)].
Lemma colors_facesb c o : forallb (fun f => Bool.eqb (existsb (face_eqb f) (map fst (corner_colors c o))) (existsb (face_eqb f) (faces_at (c_pos c)))) face_iter = true.
Proof. destruct c as [[[] [] []] []], o as [[] [] []]; reflexivity. Qed.
Lemma colors_faces c o f : In f (map fst (corner_colors c o)) <-> In f (faces_at (c_pos c)).
Proof.
  pose proof (colors_facesb c o) as H. rewrite forallb_forall in H. specialize (H f (faces_all f)). apply eqb_prop in H.
  rewrite <- !(existsb_eqb _ face_eqb_eq), H. reflexivity.
Qed.

(** The colour a face of the cube shows. *)
Definition colour_of (c : Cube2) (f : Face) : Face :=
  match find (fun s => v3_eqb (st_normal s) (normal f)) (cube_stickers Size2 c) with Some s => st_color s | None => f end.
Lemma colour_of_ok c s f : one_colour Size2 c -> In s (cube_stickers Size2 c) -> st_normal s = normal f -> st_color s = colour_of c f.
Proof.
  intros O I E. unfold colour_of. destruct (find _ _) as [s'|] eqn:F.
  - apply find_some in F as [I' N]. apply v3_eqb_eq in N. apply (O s s' I I'). congruence.
  - apply find_none with (x := s) in F; [|exact I]. cbn beta in F. rewrite (proj2 (v3_eqb_eq _ _) E) in F. discriminate.
Qed.

(** At every place there is a corner whose stickers fit the colours of the faces. *)
Definition fits_at (t : Face -> Face) (p : Vec3) : bool :=
  existsb (fun o => existsb (fun a => forallb (fun fc => face_eqb (t (fst fc)) (snd fc)) (corner_colors (mkCorner p a) o)) [AX; AY; AZ]) corner_reference.

Lemma place c p : cube_well_formed Size2 c -> exists o a, In o corner_reference /\ In (o, mkCorner p a) (combine corner_reference (c2_corners c)).
Proof.
  intros [L W]. destruct (W p) as (i & q & Ni & Pq & _). cbn [corner_desc pd_position pd_reference] in *.
  assert (Li : i < length corner_reference) by (rewrite <- L; apply nth_error_Some; congruence).
  destruct (nth_error corner_reference i) as [o|] eqn:Eo; [|apply nth_error_None in Eo; lia].
  destruct q as [q a]. cbn in Pq. subst q. exists o, a. split; [apply nth_error_In with i; exact Eo|].
  clear - Ni Eo. revert i Ni Eo. generalize corner_reference, (c2_corners c). intros l. induction l as [|x l IH]; intros [|y m] [|i] Ni Eo; cbn in *; try discriminate.
  - injection Ni as ->. injection Eo as ->. left. reflexivity.
  - right. apply (IH _ i); assumption.
Qed.
Lemma sticker_at c o q f k : In (o, q) (combine corner_reference (c2_corners c)) -> In (f, k) (corner_colors q o) ->
  In (mkSticker (corner_loc 2 q) (normal f) k) (cube_stickers Size2 c).
Proof.
  intros I J. unfold cube_stickers. cbn [cube_sets flat_map set_stickers]. rewrite app_nil_r. apply in_flat_map. exists (o, q). split; [exact I|].
  cbn [fst snd]. apply in_map_iff. exists (f, k). auto.
Qed.
Lemma all_fit c p : cube_well_formed Size2 c -> one_colour Size2 c -> fits_at (colour_of c) p = true.
Proof.
  intros W O. destruct (place c p W) as (o & a & Io & I). unfold fits_at. apply existsb_exists. exists o. split; [exact Io|].
  apply existsb_exists. exists a. split; [destruct a; cbn; auto|]. apply forallb_forall. intros [f k] J. cbn [fst snd].
  pose proof (sticker_at c o _ f k I J) as S. apply (colour_of_ok c _ f O) in S; [|reflexivity]. cbn in S. rewrite <- S. apply face_eqb_eq. reflexivity.
Qed.
(** A cube with one colour on each face is known by the colours. *)
Lemma stickers_known c s : cube_well_formed Size2 c -> one_colour Size2 c ->
  (In s (cube_stickers Size2 c) <-> exists p f, In f (faces_at p) /\ s = mkSticker (corner_loc 2 (mkCorner p AX)) (normal f) (colour_of c f)).
Proof.
  intros W O. split.
  - intros I. assert (I0 := I). unfold cube_stickers in I. cbn [cube_sets flat_map set_stickers] in I. rewrite app_nil_r in I.
    apply in_flat_map in I as ([o q] & _ & I). cbn [fst snd] in I. apply in_map_iff in I as ([f k] & <- & J). cbn [fst snd] in *.
    exists (c_pos q), f. split; [apply (colors_faces q o f), in_map_iff; exists (f, k); auto|].
    apply (colour_of_ok c _ f O) in I0; [|reflexivity]. cbn in I0. subst k. reflexivity.
  - intros (p & f & F & ->). destruct (place c p W) as (o & a & _ & I).
    pose proof (proj2 (colors_faces (mkCorner p a) o f) F) as J. apply in_map_iff in J as ([f' k] & E & J). cbn in E. subst f'.
    pose proof (sticker_at c o _ f k I J) as S. assert (E := colour_of_ok c _ f O S eq_refl). cbn in E. subst k. exact S.
Qed.

(** The 24 ways to hold a solved cube. *)
Definition held : list Cube2 :=
  flat_map (fun g => map (fun h => fold_left cube2_apply (flat_map whole_turn (g ++ h)) cube2_solved)
    [[]; [fU]; [fU; fU]; [fU; fU; fU]]) [[]; [fR]; [fR; fR]; [fR; fR; fR]; [fF]; [fF; fF; fF]].

Definition tab (r u f l d b : Face) (x : Face) : Face :=
  match face_axis x, face_dir x with
  | AX, Positive => r | AY, Positive => u | AZ, Positive => f | AX, Negative => l | AY, Negative => d | AZ, Negative => b
  end.
Fixpoint every {A} (p : A -> bool) (l : list A) : bool := match l with [] => true | x :: l => if p x then every p l else false end.
Fixpoint some {A} (p : A -> bool) (l : list A) : bool := match l with [] => false | x :: l => if p x then true else some p l end.
Lemma every_in {A} (p : A -> bool) l x : every p l = true -> In x l -> p x = true.
Proof. induction l as [|y l IH]; cbn; [tauto|]. destruct (p y) eqn:E; [|discriminate]. intros H [<-|I]; auto. Qed.
Lemma some_in {A} (p : A -> bool) l : some p l = true -> exists x, In x l /\ p x = true.
Proof. induction l as [|y l IH]; cbn; [discriminate|]. destruct (p y) eqn:E; [intros _; exists y; auto|]. intros H. destruct (IH H) as (x & I & P). eauto. Qed.

(** The colours of the faces one after the other, given up as soon as a corner does not fit. *)
Definition held_colours : list (Cube2 * list Face) := map (fun c => (c, map (colour_of c) face_iter)) held.
Definition only_held : bool :=
  every (fun r => every (fun u => every (fun f =>
    if fits_at (tab r u f fR fR fR) (mkVec3 Positive Positive Positive) then
      every (fun l => if fits_at (tab r u f l fR fR) (mkVec3 Negative Positive Positive) then
        every (fun d => if fits_at (tab r u f l d fR) (mkVec3 Positive Negative Positive) then
          every (fun b => if every (fits_at (tab r u f l d b)) corner_reference then some (fun h => list_eqb face_eqb (snd h) [r; u; f; l; d; b]) held_colours else true)
          face_iter else true) face_iter else true) face_iter
    else true) face_iter) face_iter) face_iter.
Lemma only_held_ok : only_held = true.
Proof. vm_compute. reflexivity. Qed.
Lemma fits_same t t' p : (forall f, In f (faces_at p) -> t f = t' f) -> fits_at t p = fits_at t' p.
Proof.
  intros H. unfold fits_at. assert (G : forall a o, forallb (fun fc => face_eqb (t (fst fc)) (snd fc)) (corner_colors (mkCorner p a) o) =
    forallb (fun fc => face_eqb (t' (fst fc)) (snd fc)) (corner_colors (mkCorner p a) o)).
  { intros a o. assert (F : forall fc, In fc (corner_colors (mkCorner p a) o) -> t (fst fc) = t' (fst fc)).
    { intros fc I. apply H, (colors_faces (mkCorner p a) o), in_map, I. }
    revert F. generalize (corner_colors (mkCorner p a) o). intros cl. induction cl as [|fc cl IH]; intros F; cbn [forallb]; [reflexivity|].
    pose proof (F fc (or_introl eq_refl)) as Ef. unfold Color in Ef. rewrite Ef. rewrite IH; [reflexivity|]. intros x I. apply F. right. exact I. }
  assert (X : forall A (f g : A -> bool) l, (forall x, f x = g x) -> existsb f l = existsb g l).
  { intros A f g l E. induction l as [|x l IH]; cbn; [reflexivity|]. rewrite E, IH. reflexivity. }
  apply X. intros o. apply X. intros a. apply G.
Qed.
Lemma colour_lists (a b : list Face) : list_eqb face_eqb a b = true -> a = b.
Proof.
  revert b. induction a as [|x a IH]; intros [|y b]; cbn; try discriminate; [reflexivity|].
  rewrite andb_true_iff, face_eqb_eq. intros [-> E]. f_equal. apply IH, E.
Qed.
Lemma only_these t : (forall p, fits_at t p = true) -> exists h, In h held /\ forall f, t f = colour_of h f.
Proof.
  intros H. set (r := t fR). set (u := t fU). set (f := t fF). set (l := t fL). set (d := t fD). set (b := t fB).
  assert (T : forall x, tab r u f l d b x = t x) by (intros [[] []]; reflexivity).
  assert (F : forall t' p, (forall x, In x (faces_at p) -> t' x = t x) -> fits_at t' p = true) by (intros t' p E; rewrite (fits_same _ _ _ E); apply H).
  pose proof only_held_ok as K. unfold only_held in K.
  pose proof (every_in _ _ r K (faces_all r)) as Kr. clear K. rename Kr into K. cbn beta in K. pose proof (every_in _ _ u K (faces_all u)) as Ku. clear K. rename Ku into K. cbn beta in K. pose proof (every_in _ _ f K (faces_all f)) as Kf. clear K. rename Kf into K. cbn beta in K.
  rewrite F in K by (intros x [<-|[<-|[<-|[]]]]; reflexivity).
  pose proof (every_in _ _ l K (faces_all l)) as Kl. clear K. rename Kl into K. cbn beta in K. rewrite F in K by (intros x [<-|[<-|[<-|[]]]]; reflexivity).
  pose proof (every_in _ _ d K (faces_all d)) as Kd. clear K. rename Kd into K. cbn beta in K. rewrite F in K by (intros x [<-|[<-|[<-|[]]]]; reflexivity).
  pose proof (every_in _ _ b K (faces_all b)) as Kb. clear K. rename Kb into K. cbn beta in K.
  assert (A : every (fits_at (tab r u f l d b)) corner_reference = true).
  { clear K. induction corner_reference as [|p ps IH]; cbn [every]; [reflexivity|]. rewrite F by (intros x _; apply T). exact IH. }
  rewrite A in K. apply some_in in K as (h & I & E). unfold held_colours in I. apply in_map_iff in I as (h' & <- & I). cbn [snd] in E.
  apply colour_lists in E. exists h'. split; [exact I|]. intros x. cbn [map face_iter] in E. injection E as E1 E2 E3 E4 E5 E6.
  destruct x as [[] []]; symmetry; assumption.
Qed.

Definition cube_whole (c : Cube2) (f : Face) : Cube2 := fold_left cube2_apply (whole_turn f) c.
Lemma whole_fold fs : forall c, fold_left cube2_apply (flat_map whole_turn fs) c = fold_left cube_whole fs c.
Proof. induction fs as [|f fs IH]; intros c; [reflexivity|]. cbn [flat_map]. rewrite fold_left_app. apply IH. Qed.
Lemma held_closed : forallb (fun c => forallb (fun f => existsb (cube2_eqb (cube_whole c f)) held) face_iter) held = true.
Proof. vm_compute. reflexivity. Qed.
Lemma held_one_colour : forallb (one_colourb Size2) held = true.
Proof. vm_compute. reflexivity. Qed.
Lemma eqb2 a b : cube2_eqb a b = true <-> a = b.
Proof. exact (cube_eqb_eq Size2 a b). Qed.
Lemma held_turned fs : In (fold_left cube2_apply (flat_map whole_turn fs) cube2_solved) held.
Proof.
  rewrite whole_fold. assert (G : forall c, In c held -> In (fold_left cube_whole fs c) held).
  { induction fs as [|f fs IH]; intros c I; [exact I|]. cbn [fold_left]. apply IH.
    pose proof held_closed as K. rewrite forallb_forall in K. specialize (K c I). rewrite forallb_forall in K. specialize (K f (faces_all f)).
    apply (existsb_eqb _ eqb2), K. }
  apply G. left. reflexivity.
Qed.
Lemma held_is h : In h held -> exists fs, h = fold_left cube2_apply (flat_map whole_turn fs) cube2_solved.
Proof.
  intros I. unfold held in I. apply in_flat_map in I as (g & _ & I). apply in_map_iff in I as (k & <- & _). eexists. reflexivity.
Qed.
Lemma formed_run al : cube_well_formed Size2 (fold_left cube2_apply al cube2_solved).
Proof.
  generalize (cube_well_formed_solved Size2). change (cube_solved Size2) with cube2_solved. generalize cube2_solved.
  induction al as [|m al IH]; intros c W; [exact W|]. cbn [fold_left]. apply IH, (cube_well_formed_move Size2), W.
Qed.
Lemma held_good h : In h held -> cube_well_formed Size2 h /\ one_colour Size2 h.
Proof.
  intros I. split; [destruct (held_is h I) as (fs & ->); apply formed_run|]. pose proof held_one_colour as K. rewrite forallb_forall in K.
  apply one_colourb_ok, K, I.
Qed.
Lemma one_colour_held c : cube_well_formed Size2 c -> (one_colour Size2 c <-> In c held).
Proof.
  intros W. split; [|intros I; apply held_good, I]. intros O. destruct (only_these (colour_of c)) as (h & I & E). { intros p. apply all_fit; assumption. }
  destruct (held_good h I) as [Wh Oh]. replace c with h; [exact I|]. apply (cube_eqb_eq Size2), (C92_small Size2 h c (or_introl eq_refl) Wh W).
  intros s. rewrite (stickers_known c s W O), (stickers_known h s Wh Oh). split; intros (p & f & F & ->); exists p, f; (split; [exact F|]); rewrite E; reflexivity.
Qed.

(** A valid 2x2x2 shows one colour on each face exactly if it is the solved cube turned as a
    whole, which can be done in 24 ways; [is_solved] holds for one of them, the one with every
    face in its own colour. *)
Theorem C104_two_partial :
  (forall c, cube_well_formed Size2 c ->
    (one_colour Size2 c <-> exists fs, c = fold_left cube2_apply (flat_map whole_turn fs) cube2_solved)) /\
  (forall c, cube_well_formed Size2 c -> (cube2_is_solved c = true <-> shows_solved Size2 c)) /\
  number_of (fun c => cube_well_formed Size2 c /\ one_colour Size2 c) 24.
Proof.
  split; [|split].
  - intros c W. rewrite (one_colour_held c W). split; [apply held_is|]. intros (fs & ->). apply held_turned.
  - intros c W. assert (S : shows_solved Size2 cube2_solved).
    { assert (K : forallb (fun s => v3_eqb (st_normal s) (normal (st_color s))) (cube_stickers Size2 cube2_solved) = true) by (vm_compute; reflexivity).
      rewrite forallb_forall in K. intros s I. apply v3_eqb_eq, K, I. }
    split; [intros E; apply eqb2 in E; subst; exact S|]. intros H.
    assert (O : forall d, shows_solved Size2 d -> one_colour Size2 d /\ forall f, cube_well_formed Size2 d -> colour_of d f = f).
    { intros d Hd. assert (Od : one_colour Size2 d) by (intros s s' I I' E; rewrite (Hd s I), (Hd s' I') in E; apply normal_inj, E).
      split; [exact Od|]. intros f Wd. set (p := mkVec3 (face_dir f) (face_dir f) (face_dir f)).
      assert (F : In f (faces_at p)) by (destruct f as [[] []]; cbn; auto).
      pose proof (proj2 (stickers_known d _ Wd Od) (ex_intro _ p (ex_intro _ f (conj F eq_refl)))) as I. apply Hd in I. cbn [st_normal st_color] in I.
      symmetry. apply normal_inj, I. }
    destruct (O c H) as [Oc Cc]. destruct (O _ S) as [Os Cs]. pose proof (cube_well_formed_solved Size2) as Ws. change (cube_solved Size2) with cube2_solved in Ws.
    apply (C92_small Size2 c cube2_solved (or_introl eq_refl) W Ws). intros s.
    rewrite (stickers_known c s W Oc), (stickers_known cube2_solved s Ws Os).
    split; intros (p & f & F & ->); exists p, f; (split; [exact F|]); rewrite Cc, Cs by assumption; reflexivity.
  - exists held. split; [|split; [|vm_compute; reflexivity]].
    + assert (K : every (fun i => every (fun j => if Nat.eqb i j then true else negb (cube2_eqb (nth i held cube2_solved) (nth j held cube2_solved))) (seq 0 24)) (seq 0 24) = true) by (vm_compute; reflexivity).
      apply (NoDup_nth held cube2_solved). intros i j Li Lj E. change (length held) with 24 in Li, Lj.
      assert (Ii : In i (seq 0 24)) by (apply in_seq; lia). assert (Ij : In j (seq 0 24)) by (apply in_seq; lia).
      pose proof (every_in _ _ j (every_in _ _ i K Ii) Ij) as Q. cbn beta in Q. destruct (Nat.eqb i j) eqn:Eq; [apply Nat.eqb_eq, Eq|].
      rewrite E, (proj2 (eqb2 _ _) eq_refl) in Q. discriminate.
    + intros c. split; [apply held_good|]. intros [W O]. apply (one_colour_held c W), O.
Qed.

(** ** The 4x4x4 and the 6x6x6 *)

Definition even_size (n : CubeSize) : Prop := n = Size2 \/ n = Size4 \/ n = Size6.
Local Open Scope Z_scope.

(** No sticker of such a cube is in a middle layer. *)
Definition off_middle (p : V3) : Prop := px p <> 0 /\ py p <> 0 /\ pz p <> 0.
Lemma no_middle n c s : even_size n -> In s (cube_stickers n c) -> off_middle (st_cubie s).
Proof.
  intros Hn I. apply in_flat_map in I as (x & Ix & I).
  assert (K : match x with SetEdge _ => False | SetCenterEdge _ _ => False
    | SetWing nd _ | SetCenterCorner nd _ => sizeZ n - 1 - 2 * nd <> 0 | SetCenterWing nd td _ => sizeZ n - 1 - 2 * nd <> 0 /\ sizeZ n - 1 - 2 * td <> 0
    | SetCorner _ => True end /\ sizeZ n - 1 <> 0).
  { split; [|destruct Hn as [ -> |[ -> | -> ]]; vm_compute; discriminate].
    destruct Hn as [ -> |[ -> | -> ]]; cbn [cube_sets In] in Ix; repeat (destruct Ix as [<-|Ix]; [try exact I; try (vm_compute; intuition discriminate); exact Logic.I|]); destruct Ix. }
  destruct K as [K K1]. revert K K1 I. generalize (sizeZ n). intros k K K1 I.
  destruct x as [l|l|nd l|nd l|nd l|nd td l]; cbn [set_stickers] in I; try contradiction.
  - apply in_flat_map in I as ([o q] & _ & I). apply in_map_iff in I as (fc & <- & _). cbn [fst snd st_cubie].
    destruct q as [[[] [] []] []]; unfold corner_loc, off_middle; cbn -[Z.mul Z.sub]; lia.
  - apply in_flat_map in I as ([o q] & _ & I). apply in_map_iff in I as (fc & <- & _). cbn [fst snd st_cubie].
    destruct q as [[[] [[] []] []]]; unfold wing_loc, edge_loc, off_middle; cbn -[Z.mul Z.sub Z.add]; lia.
  - apply in_map_iff in I as ([o q] & <- & _). cbn [fst snd st_cubie].
    destruct q as [[[] [] []] []]; unfold cc_loc, off_middle; cbn -[Z.mul Z.sub Z.add]; lia.
  - apply in_map_iff in I as ([o q] & <- & _). cbn [fst snd st_cubie].
    destruct q as [[[[] []] [] []] []]; unfold cw_loc, ce_loc, off_middle; cbn -[Z.mul Z.sub Z.add]; lia.
Qed.

(** A turn of the whole cube turns every sticker. *)
Definition whole_space (f : Face) (v : V3) : V3 := move_space (mkMove f Single) v.
Definition turn_all (fs : list Face) (v : V3) : V3 := fold_left (fun v f => whole_space f v) fs v.
Definition turn_stickers (fs : list Face) (s : Sticker) : Sticker := mkSticker (turn_all fs (st_cubie s)) (turn_all fs (st_normal s)) (st_color s).

Definition back (f : Face) : Face := mkFace (face_axis f) (dir_neg (face_dir f)).
Lemma along f p : dot (whole_space f p) (normal f) = dot p (normal f).
Proof. destruct f as [[] []], p as [x y z]; unfold whole_space, move_space, turn, normal; cbn -[Z.mul Z.add Z.sub]; unfold quarter_cw, v3_add, v3_scale, cross, dot; cbn -[Z.mul Z.add Z.sub]; ring. Qed.
Lemma along_back f p : dot p (normal (back f)) = - dot p (normal f).
Proof. destruct f as [[] []], p as [x y z]; unfold back, normal, dot; cbn -[Z.mul Z.add Z.sub]; ring. Qed.
Lemma whole_known f x y z : whole_space f (mkV3 x y z) = match face_axis f, face_dir f with
  | AX, Positive => mkV3 x z (- y) | AX, Negative => mkV3 x (- z) y
  | AY, Positive => mkV3 (- z) y x | AY, Negative => mkV3 z y (- x)
  | AZ, Positive => mkV3 y (- x) z | AZ, Negative => mkV3 (- y) x z end.
Proof. destruct f as [[] []]; unfold whole_space, move_space, turn, normal; cbn -[Z.mul Z.add Z.sub]; unfold quarter_cw, v3_add, v3_scale, cross, dot; cbn -[Z.mul Z.add Z.sub]; f_equal; ring. Qed.
Lemma turn_back f p : move_space (mkMove (back f) Inverse) p = whole_space f p.
Proof.
  change (move_space (mkMove (back f) Inverse) p) with (whole_space (back f) (whole_space (back f) (whole_space (back f) p))).
  destruct p as [x y z]; destruct f as [[] []]; do 4 (rewrite whole_known; cbn [back face_axis face_dir dir_neg]); f_equal; lia.
Qed.
Lemma along_off f p : off_middle p -> dot p (normal f) <> 0.
Proof. intros (X & Y & Z). destruct f as [[] []], p as [x y z]; unfold normal, dot; cbn -[Z.mul Z.add Z.sub] in *; lia. Qed.
Lemma whole_sticker n f s : even_size n -> off_middle (st_cubie s) ->
  turn_wide_sticker n (mkWide (widest n) (mkMove (back f) Inverse)) (turn_wide_sticker n (mkWide (widest n) (mkMove f Single)) s) = turn_stickers [f] s.
Proof.
  intros Hn O. pose proof (along_off f _ O) as A. unfold turn_wide_sticker, in_layers. cbn [w_move w_depth mv_face].
  replace (sizeZ n - 1 - 2 * Z.of_N (widest n)) with 1 by (destruct Hn as [ -> |[ -> | -> ]]; reflexivity).
  change (move_space (mkMove f Single)) with (whole_space f). unfold turn_stickers, turn_all. cbn [fold_left].
  destruct (Z.leb_spec 1 (dot (st_cubie s) (normal f))) as [L|L]; cbn [st_cubie st_normal st_color]; rewrite along_back.
  - rewrite along. destruct (Z.leb_spec 1 (- dot (st_cubie s) (normal f))); [lia|reflexivity].
  - destruct (Z.leb_spec 1 (- dot (st_cubie s) (normal f))); [|lia]. rewrite !turn_back. reflexivity.
Qed.
Lemma whole_stickers n fs : even_size n -> forall c : CubeOf n,
  cube_stickers n (fold_left (cube_apply n) (flat_map whole_turn fs) c) = map (turn_stickers fs) (cube_stickers n c).
Proof.
  intros Hn. induction fs as [|f fs IH]; intros c.
  - cbn [flat_map fold_left]. rewrite <- map_id at 1. apply map_ext. intros [p v col]. reflexivity.
  - cbn [flat_map whole_turn app fold_left]. change (mkFace (face_axis f) (dir_neg (face_dir f))) with (back f).
    rewrite IH, !C16_axis_move_physical, !map_map. apply map_ext_in. intros s I.
    rewrite (whole_sticker n f s Hn (no_middle n c s Hn I)). reflexivity.
Qed.

(** Turning back. *)
Definition undone (fs : list Face) : list Face := flat_map (fun f => [f; f; f]) (rev fs).
Lemma four_times f p : whole_space f (whole_space f (whole_space f (whole_space f p))) = p.
Proof. destruct p as [x y z]; destruct f as [[] []]; do 4 (rewrite whole_known; cbn [face_axis face_dir]); f_equal; lia. Qed.
Lemma turn_undone fs v : turn_all (undone fs) (turn_all fs v) = v.
Proof.
  unfold turn_all. rewrite <- fold_left_app. revert v. induction fs as [|f fs IH]; intros v; [reflexivity|].
  unfold undone. cbn [rev app]. rewrite flat_map_app. cbn [flat_map app fold_left]. rewrite app_assoc, fold_left_app.
  change (flat_map (fun f => [f; f; f]) (rev fs)) with (undone fs). rewrite IH. cbn [fold_left]. apply four_times.
Qed.
Lemma turn_all_inj fs v w : turn_all fs v = turn_all fs w -> v = w.
Proof. intros E. rewrite <- (turn_undone fs v), E. apply turn_undone. Qed.

(** The corners alone, as a 2x2x2. *)
Definition corners_of (n : CubeSize) (c : CubeOf n) : Cube2 := mkCube2 (match cube_sets n c with SetCorner l :: _ => l | _ => [] end).
Lemma corners_formed n c : even_size n -> cube_well_formed n c -> cube_well_formed Size2 (corners_of n c).
Proof. intros [ -> |[ -> | -> ]] W; [exact W|apply W|apply W]. Qed.
Lemma corner_stickers n c s : even_size n -> In s (cube_stickers Size2 (corners_of n c)) ->
  exists p, In (mkSticker p (st_normal s) (st_color s)) (cube_stickers n c).
Proof.
  intros Hn I. unfold corners_of, cube_stickers in I. cbn [cube_sets flat_map c2_corners] in I. rewrite app_nil_r in I. cbn [set_stickers] in I.
  apply in_flat_map in I as ([o q] & I & J). cbn [fst snd] in J. apply in_map_iff in J as (fc & <- & J). cbn [st_normal st_color].
  exists (corner_loc (sizeZ n) q). unfold cube_stickers. apply in_flat_map.
  exists (SetCorner (c2_corners (corners_of n c))). split; [destruct Hn as [ -> |[ -> | -> ]]; left; reflexivity|].
  cbn [set_stickers]. apply in_flat_map. exists (o, q). split; [exact I|]. cbn [fst snd]. apply in_map_iff. exists fc. auto.
Qed.

(** On a valid cube of even size every face shows one colour exactly if the cube can be held
    so that every face shows its own. *)
Theorem C104_held_partial : forall n (c : CubeOf n), n = Size2 \/ n = Size4 \/ n = Size6 -> cube_well_formed n c ->
  (one_colour n c <-> exists fs, shows_solved n (fold_left (cube_apply n) (flat_map whole_turn fs) c)).
Proof.
  intros n c Hn W. split.
  - intros O. pose proof (corners_formed n c Hn W) as Wd. set (d := corners_of n c) in *.
    assert (Od : one_colour Size2 d).
    { intros s s' I I' E. destruct (corner_stickers n c s Hn I) as (p & J). destruct (corner_stickers n c s' Hn I') as (p' & J').
      exact (O _ _ J J' E). }
    pose proof (proj1 (one_colour_held d Wd) Od) as H. apply held_is in H as (fs & H). exists (undone fs).
    assert (K : forall f, turn_all fs (normal (colour_of d f)) = normal f).
    { intros f. set (p := mkVec3 (face_dir f) (face_dir f) (face_dir f)).
      assert (F : In f (faces_at p)) by (destruct f as [[] []]; cbn; auto).
      pose proof (proj2 (stickers_known d _ Wd Od) (ex_intro _ p (ex_intro _ f (conj F eq_refl)))) as I. revert I. generalize (colour_of d f). intros k I.
      rewrite H in I. change cube2_apply with (cube_apply Size2) in I. change cube2_solved with (cube_solved Size2) in I.
      rewrite (whole_stickers Size2 fs (or_introl eq_refl)) in I. apply in_map_iff in I as (s & E & I).
      assert (S : shows_solved Size2 cube2_solved) by (apply C104_two_partial; [apply (cube_well_formed_solved Size2)|reflexivity]).
      apply S in I. pose proof (f_equal st_normal E) as E1. pose proof (f_equal st_color E) as E2. unfold turn_stickers in E1, E2. cbn [st_normal st_color] in E1, E2.
      rewrite <- E1, I, E2. reflexivity. }
    intros s I. rewrite (whole_stickers n _ Hn) in I. apply in_map_iff in I as (x & <- & I). unfold turn_stickers. cbn [st_normal st_color].
    destruct (normals n c x I) as (f & Nf). rewrite Nf. rewrite <- (K f), turn_undone. f_equal.
    set (p := mkVec3 (face_dir f) (face_dir f) (face_dir f)).
    assert (F : In f (faces_at p)) by (destruct f as [[] []]; cbn; auto).
    pose proof (proj2 (stickers_known d _ Wd Od) (ex_intro _ p (ex_intro _ f (conj F eq_refl)))) as J. destruct (corner_stickers n c _ Hn J) as (p' & J').
    symmetry. apply (O _ _ I J'). exact Nf.
  - intros (fs & S) s s' I I' E. unfold shows_solved in S. rewrite (whole_stickers n fs Hn) in S.
    pose proof (S _ (in_map (turn_stickers fs) _ _ I)) as H. pose proof (S _ (in_map (turn_stickers fs) _ _ I')) as H'.
    unfold turn_stickers in H, H'. cbn [st_normal st_color] in H, H'. apply normal_inj. congruence.
Qed.

(** Non-vacuity: cubes of all three sizes that are valid, look solved and are not in the way the
    library wants them, and one that does not look solved. *)
Example C104_example :
  (forall n, even_size n -> cube_well_formed n (fold_left (cube_apply n) (whole_turn fR) (cube_solved n))) /\
  ~ one_colour Size2 (cube2_apply cube2_solved (mkMove fR Single)) /\
  shows_solved Size4 (fold_left (cube_apply Size4) (flat_map whole_turn [fR; fR; fR; fR]) cube4_solved).
Proof.
  split; [|split].
  - intros n _. cbn [whole_turn fold_left]. apply cube_well_formed_move, cube_well_formed_move, cube_well_formed_solved.
  - intros O. apply (one_colour_held _ (cube_well_formed_move Size2 _ _ (cube_well_formed_solved Size2))), (existsb_eqb _ eqb2) in O. vm_compute in O. discriminate.
  - assert (K : forallb (fun s => v3_eqb (st_normal s) (normal (st_color s))) (cube_stickers Size4 (fold_left (cube_apply Size4) (flat_map whole_turn [fR; fR; fR; fR]) cube4_solved)) = true) by (vm_compute; reflexivity).
    rewrite forallb_forall in K. intros s I. apply v3_eqb_eq, K, I.
Qed.
Print Assumptions C104_refuted.
Print Assumptions C104_two_partial.
Print Assumptions C104_held_partial.

(** C103: cubes and pieces as keys of hash tables. *)

From Coq Require Import List Bool Arith ZArith NArith Lia.
From Verif Require Import Model_Base Model_Space Model_Moves Model_Pieces Model_PieceSet Model_Cubes Model_Connect Model_Hash
  Spec_Moves Spec_Sets Prop_Sets Proof_Sets Prop_BigCube Prop_OrientableMoves Prop_Equality.
Import ListNotations.

(** What a value hands to the hasher determines the value, whatever is handed over after it. *)
Definition determines {A} (writes : A -> list HashWrite) : Prop :=
  forall a b r s, writes a ++ r = writes b ++ s -> a = b /\ r = s.

Lemma dir_det : determines hash_dir.
Proof. intros [] [] r s [=]; auto. Qed.
Lemma axis_det : determines hash_axis.
Proof. intros [] [] r s [=]; auto. Qed.
Lemma bool_det : determines hash_bool.
Proof. intros [] [] r s [=]; auto. Qed.
Ltac peel := repeat match goal with
  | H : hash_dir _ ++ _ = hash_dir _ ++ _ |- _ => apply dir_det in H as [? H]
  | H : hash_axis _ ++ _ = hash_axis _ ++ _ |- _ => apply axis_det in H as [? H]
  | H : hash_bool _ ++ _ = hash_bool _ ++ _ |- _ => apply bool_det in H as [? H]
  end.
Lemma face_det : determines hash_face.
Proof. intros [x d] [x' d'] r s E. unfold hash_face in E. rewrite <- !app_assoc in E. peel. cbn in *. split; congruence. Qed.
Lemma vec2_det : determines hash_vec2.
Proof. intros [x y] [x' y'] r s E. unfold hash_vec2 in E. rewrite <- !app_assoc in E. apply (f_equal (skipn 2)) in E. cbn [skipn app] in E. peel. cbn in *. split; congruence. Qed.
Lemma vec3_det : determines hash_vec3.
Proof. intros [x y z] [x' y' z'] r s E. unfold hash_vec3 in E. rewrite <- !app_assoc in E. apply (f_equal (skipn 2)) in E. cbn [skipn app] in E. peel. cbn in *. split; congruence. Qed.
Lemma corner_det : determines hash_corner.
Proof. intros [p x] [p' x'] r s E. unfold hash_corner in E. rewrite <- !app_assoc in E. apply vec3_det in E as [? E]. peel. cbn in *. split; congruence. Qed.
Lemma edge_det : determines hash_edge.
Proof. intros [n p o] [n' p' o'] r s E. unfold hash_edge in E. rewrite <- !app_assoc in E. peel. apply vec2_det in E as [? E]. peel. cbn in *. split; congruence. Qed.
Lemma wing_det : determines hash_wing.
Proof. intros [e] [e'] r s E. apply edge_det in E as [E ?]. cbn in E. split; congruence. Qed.
Lemma cc_det : determines hash_cc.
Proof. intros [p x] [p' x'] r s E. unfold hash_cc in E. rewrite <- !app_assoc in E. apply vec3_det in E as [? E]. peel. cbn in *. split; congruence. Qed.
Lemma ce_det : determines hash_ce.
Proof. intros [f h d] [f' h' d'] r s E. unfold hash_ce in E. rewrite <- !app_assoc in E. apply face_det in E as [? E]. peel. cbn in *. split; congruence. Qed.
Lemma cw_det : determines hash_cw.
Proof. intros [e o] [e' o'] r s E. unfold hash_cw in E. rewrite <- !app_assoc in E. apply ce_det in E as [? E]. peel. cbn in *. split; congruence. Qed.
Lemma set_det {P} (piece : P -> list HashWrite) : determines piece -> determines (hash_set piece).
Proof.
  intros D a b r s E. unfold hash_set in E. cbn [app] in E. injection E as L E. apply Nat2Z.inj in L.
  revert b r s L E. induction a as [|x a IH]; intros [|y b] r s L E; cbn in L; try discriminate; [auto|].
  cbn [flat_map] in E. rewrite <- !app_assoc in E. apply D in E as [-> E]. apply IH in E as [-> ->]; [auto|congruence].
Qed.
Lemma cube2_det : determines hash_cube2.
Proof. intros [c] [c'] r s E. apply (set_det _ corner_det) in E as [E ?]. cbn in E. split; congruence. Qed.
Lemma cube3_det : determines hash_cube3.
Proof.
  intros [e c] [e' c'] r s E. unfold hash_cube3 in E. rewrite <- !app_assoc in E.
  apply (set_det _ edge_det) in E as [? E]. apply (set_det _ corner_det) in E as [? E]. cbn in *. split; congruence.
Qed.
Lemma cube4_det : determines hash_cube4.
Proof.
  intros [c w x] [c' w' x'] r s E. unfold hash_cube4 in E. rewrite <- !app_assoc in E.
  apply (set_det _ corner_det) in E as [? E]. apply (set_det _ wing_det) in E as [? E]. apply (set_det _ cc_det) in E as [? E]. cbn in *. split; congruence.
Qed.

(** The values that can be hashed: two of them are the same for every hasher, alone or with anything
    hashed after them, exactly if they are [==]. *)
Definition hashes_well {A} (eqb : A -> A -> bool) (writes : A -> list HashWrite) : Prop :=
  (forall a b, eqb a b = true <-> forall h : Hasher, hash_one writes h a = hash_one writes h b) /\
  (forall a b r s, writes a ++ r = writes b ++ s -> eqb a b = true /\ r = s).

Definition write_eqb (a b : HashWrite) : bool :=
  match a, b with
  | WriteUsize x, WriteUsize y | WriteIsize x, WriteIsize y | WriteU8 x, WriteU8 y => Z.eqb x y
  | _, _ => false
  end.
Lemma write_eqb_eq a b : write_eqb a b = true <-> a = b.
Proof. destruct a, b; cbn; try (split; discriminate); rewrite Z.eqb_eq; split; congruence. Qed.
Lemma writes_eqb_eq a b : list_eqb write_eqb a b = true <-> a = b.
Proof.
  revert b. induction a as [|x a IH]; intros [|y b]; cbn; try (split; congruence).
  rewrite andb_true_iff, write_eqb_eq, IH. split; [intros [-> ->]; reflexivity|intros [= -> ->]; auto].
Qed.
(** The hasher that tells one input from all others. *)
Definition picky (l : list HashWrite) : Hasher :=
  mkHasher (list HashWrite) [] (fun s w => s ++ [w]) (fun s => if list_eqb write_eqb s l then 1%N else 0%N).
Lemma swallowed l : forall s, fold_left (fun s w => s ++ [w]) l s = s ++ l :> list HashWrite.
Proof. induction l as [|w l IH]; intros s; cbn; [rewrite app_nil_r; reflexivity|]. rewrite IH, <- app_assoc. reflexivity. Qed.
Lemma picky_one l m : hs_finish (picky l) (fold_left (hs_write (picky l)) m (hs_new (picky l))) = if list_eqb write_eqb m l then 1%N else 0%N.
Proof. cbn [picky hs_finish hs_write hs_new]. rewrite swallowed. reflexivity. Qed.

Lemma well {A} eqb (writes : A -> list HashWrite) : (forall a b, eqb a b = true <-> a = b) -> determines writes -> hashes_well eqb writes.
Proof.
  intros Eq D. split.
  - intros a b. rewrite Eq. split; [intros -> h; reflexivity|]. intros H. specialize (H (picky (writes a))).
    unfold hash_one in H. rewrite !picky_one in H. rewrite (proj2 (writes_eqb_eq (writes a) (writes a)) eq_refl) in H.
    destruct (list_eqb write_eqb (writes b) (writes a)) eqn:E; [|discriminate H]. apply writes_eqb_eq in E.
    apply (D a b [] []). rewrite E. reflexivity.
  - intros a b r s E. rewrite Eq. apply D, E.
Qed.

(** Everything that can be hashed. *)
Theorem C103_hashes :
  hashes_well dir_eqb hash_dir /\ hashes_well axis_eqb hash_axis /\ hashes_well face_eqb hash_face /\
  hashes_well vec2_eqb hash_vec2 /\ hashes_well vec3_eqb hash_vec3 /\
  hashes_well corner_eqb hash_corner /\ hashes_well edge_eqb hash_edge /\ hashes_well wing_eqb hash_wing /\
  hashes_well cc_eqb hash_cc /\ hashes_well ce_eqb hash_ce /\ hashes_well cw_eqb hash_cw /\
  hashes_well (cube_eqb Size2) hash_cube2 /\ hashes_well (cube_eqb Size3) hash_cube3 /\ hashes_well (cube_eqb Size4) hash_cube4.
Proof.
  split; [exact (well _ _ dir_eqb_eq dir_det)|]. split; [exact (well _ _ axis_eqb_eq axis_det)|]. split; [exact (well _ _ face_eqb_eq face_det)|]. split; [exact (well _ _ vec2_eqb_eq vec2_det)|]. split; [exact (well _ _ vec3_eqb_eq vec3_det)|]. split; [exact (well _ _ corner_eqb_eq corner_det)|]. split; [exact (well _ _ edge_eqb_eq edge_det)|]. split; [exact (well _ _ wing_eqb_eq wing_det)|]. split; [exact (well _ _ cc_eqb_eq cc_det)|]. split; [exact (well _ _ ce_eqb_eq ce_det)|]. split; [exact (well _ _ cw_eqb_eq cw_det)|]. 
  split; [exact (well _ _ (cube_eqb_eq Size2) cube2_det)|]. split; [exact (well _ _ (cube_eqb_eq Size3) cube3_det)|]. exact (well _ _ (cube_eqb_eq Size4) cube4_det).
Qed.

(** ** Sets of cubes *)

(** The sets of pieces in a hash set: whatever was collected, in whatever order and with whatever
    hasher, the set contains exactly that, each once. *)
Section Sets.
  Context {A : Type} (eqb : A -> A -> bool) (hash : A -> N) (Eq : forall a b, eqb a b = true <-> a = b).
  Definition stored (s : HashSet A) : Prop := Forall (fun p => fst p = hash (snd p)) s /\ NoDup (map snd s).
  Lemma contains_in s x : stored s -> (set_contains eqb hash s x = true <-> In x (map snd s)).
  Proof.
    intros [F _]. unfold set_contains. rewrite existsb_exists. rewrite in_map_iff. split.
    - intros ([k y] & I & E). apply andb_true_iff in E as [_ E]. apply Eq in E. exists (k, y). auto.
    - intros ([k y] & E & I). cbn in E. subst y. exists (k, x). split; [exact I|]. cbn [fst snd].
      rewrite Forall_forall in F. specialize (F _ I). cbn in F. rewrite F, N.eqb_refl. apply Eq. reflexivity.
  Qed.
  Lemma insert_stored s x : stored s -> stored (set_insert eqb hash s x) /\ forall y, In y (map snd (set_insert eqb hash s x)) <-> In y (map snd s) \/ y = x.
  Proof.
    intros St. unfold set_insert. destruct (set_contains eqb hash s x) eqn:E.
    - apply (contains_in s x St) in E. split; [exact St|]. intros y. split; [auto|]. intros [H| ->]; assumption.
    - assert (Nx : ~ In x (map snd s)) by (rewrite <- (contains_in s x St), E; discriminate).
      destruct St as [F D]. split; [split; [constructor; [reflexivity|exact F]|cbn; constructor; assumption]|].
      intros y. cbn. intuition congruence.
  Qed.
  Lemma collect_stored xs : forall s, stored s ->
    stored (fold_left (set_insert eqb hash) xs s) /\ forall y, In y (map snd (fold_left (set_insert eqb hash) xs s)) <-> In y (map snd s) \/ In y xs.
  Proof.
    induction xs as [|x xs IH]; intros s St; cbn [fold_left In]; [split; [exact St|intuition]|].
    destruct (insert_stored s x St) as [St' I]. destruct (IH _ St') as [St'' J]. split; [exact St''|].
    intros y. rewrite J, I. intuition congruence.
  Qed.
  Lemma collected xs x : (set_contains eqb hash (set_collect eqb hash xs) x = true <-> In x xs) /\
    (NoDup (map snd (set_collect eqb hash xs)) /\ forall y, In y (map snd (set_collect eqb hash xs)) <-> In y xs).
  Proof.
    destruct (collect_stored xs [] ltac:(split; constructor)) as [St I]. unfold set_collect. rewrite (contains_in _ _ St).
    assert (J : forall y, In y (map snd (fold_left (set_insert eqb hash) xs [])) <-> In y xs) by (intros y; rewrite I; cbn; tauto).
    split; [apply J|]. split; [apply St|exact J].
  Qed.
End Sets.

(** Counting without repetition: [n] is the number of different things in [xs]. *)
Definition different {A} (xs : list A) (n : nat) : Prop := exists ys, NoDup ys /\ (forall y, In y ys <-> In y xs) /\ length ys = n.

(** A [HashSet] of 2x2x2 or 3x3x3 cubes contains a cube exactly if one that looks like it was put in,
    and its size is the number of different cubes put in. *)
Theorem C103_set_of_cubes : forall (h : Hasher),
  (forall xs c, Forall (cube_well_formed Size2) (c :: xs) ->
    let s := set_collect (cube_eqb Size2) (hash_one hash_cube2 h) xs in
    (set_contains (cube_eqb Size2) (hash_one hash_cube2 h) s c = true <-> exists x, In x xs /\ same_look Size2 x c) /\ different xs (length s)) /\
  (forall xs c, Forall (cube_well_formed Size3) (c :: xs) ->
    let s := set_collect (cube_eqb Size3) (hash_one hash_cube3 h) xs in
    (set_contains (cube_eqb Size3) (hash_one hash_cube3 h) s c = true <-> exists x, In x xs /\ same_look Size3 x c) /\ different xs (length s)).
Proof.
  intros h.
  assert (G : forall n (hash : CubeOf n -> N), n = Size2 \/ n = Size3 -> forall xs c, Forall (cube_well_formed n) (c :: xs) ->
    let s := set_collect (cube_eqb n) hash xs in
    (set_contains (cube_eqb n) hash s c = true <-> exists x, In x xs /\ same_look n x c) /\ different xs (length s)).
  { intros n hash Hn xs c F. inversion F as [|? ? Fc Fx]; subst. rewrite Forall_forall in Fx.
    destruct (collected (cube_eqb n) hash (cube_eqb_eq n) xs c) as [Q (D & I)]. cbv zeta. split.
    - rewrite Q. split.
      + intros H. exists c. split; [exact H|]. apply C92_equal_look, cube_eqb_eq. reflexivity.
      + intros (x & Ix & L). apply (C92_small n x c Hn (Fx x Ix) Fc) in L. apply cube_eqb_eq in L. subst. exact Ix.
    - exists (map snd (set_collect (cube_eqb n) hash xs)). split; [exact D|]. split; [exact I|]. apply map_length. }
  split; [apply (G Size2 (hash_one hash_cube2 h))|apply (G Size3 (hash_one hash_cube3 h))]; auto.
Qed.

(** A set of 4x4x4 cubes contains exactly the cubes put in, but may hold several that look the same. *)
Theorem C103_set_of_big_cubes : forall (h : Hasher),
  (forall xs c, let s := set_collect (cube_eqb Size4) (hash_one hash_cube4 h) xs in
    (set_contains (cube_eqb Size4) (hash_one hash_cube4 h) s c = true <-> In c xs) /\ different xs (length s)) /\
  exists a b : CubeOf Size4, cube_well_formed Size4 a /\ cube_well_formed Size4 b /\ same_look Size4 a b /\
    length (set_collect (cube_eqb Size4) (hash_one hash_cube4 h) [a; b]) = 2.
Proof.
  intros h. split.
  - intros xs c. destruct (collected (cube_eqb Size4) (hash_one hash_cube4 h) (cube_eqb_eq Size4) xs c) as [Q (D & I)]. cbv zeta. split; [exact Q|].
    eexists. split; [exact D|]. split; [exact I|]. apply map_length.
  - exists (run_wide Size4 turn_centres), (cube_solved Size4).
    destruct (C92_big Size4 ltac:(discriminate) ltac:(discriminate)) as [L E].
    split; [|split; [|split; [exact L|]]].
    + unfold run_wide. generalize (cube_well_formed_solved Size4). generalize (cube_solved Size4). generalize turn_centres.
      intros al. induction al as [|m al IH]; intros c W; [exact W|]. cbn [fold_left]. apply IH, cube_well_formed_wide, W.
    + apply (cube_well_formed_solved Size4).
    + unfold set_collect. cbn [fold_left]. unfold set_insert at 2. cbn [set_contains existsb]. unfold set_insert. cbn [set_contains existsb fst snd].
      rewrite E, andb_false_r. reflexivity.
Qed.

(** Non-vacuity: the cube after R is another than the solved one, and has the same hash if the hasher is
    bad enough; a set of R, R and nothing has two elements even so. *)
Example C103_example : let bad := mkHasher unit tt (fun _ _ => tt) (fun _ => 0%N) in
  let r := cube3_apply cube3_solved (mkMove fR Single) in
  hash_one hash_cube3 bad r = hash_one hash_cube3 bad cube3_solved /\
  length (hash_cube3 r) = 12 * 6 + 8 * 6 + 2 /\ hash_cube3 r <> hash_cube3 cube3_solved /\
  length (set_collect (cube_eqb Size3) (hash_one hash_cube3 bad) [r; cube3_solved; r]) = 2.
Proof. cbv zeta. split; [reflexivity|]. split; [reflexivity|]. split; [vm_compute; discriminate|vm_compute; reflexivity]. Qed.
Print Assumptions C103_hashes.
Print Assumptions C103_set_of_cubes.
Print Assumptions C103_set_of_big_cubes.

(** The random cubes. *)

From Coq Require Import List Bool Arith ZArith Lia Permutation.
From Verif Require Import Model_Base Model_Space Model_Moves Model_Pieces Model_PieceSet Model_Cubes
  Model_Invariants Spec_Sets Spec_Invariants Proof_Sets Proof_Parity Proof_Solve Proof_Invariants.
Import ListNotations.
Open Scope nat_scope.

(** ** Shuffling reaches every permutation *)

Lemma swap_nth_nth {T} (l : list T) i j k : i < length l -> j < length l ->
  nth_error (swap_nth l i j) k =
  if j =? k then nth_error l i else if i =? k then nth_error l j else nth_error l k.
Proof.
  intros Hi Hj. unfold swap_nth. destruct (nth_error l i) as [a|] eqn:Ea; [|apply nth_error_None in Ea; lia].
  destruct (nth_error l j) as [b|] eqn:Eb; [|apply nth_error_None in Eb; lia].
  rewrite !nth_error_set_nth, set_nth_length. apply Nat.ltb_lt in Hi, Hj. rewrite Hi, Hj. reflexivity.
Qed.

Lemma swap_nth_length {T} (l : list T) i j : length (swap_nth l i j) = length l.
Proof. rewrite (Permutation_length (swap_nth_perm l i j)). reflexivity. Qed.

Lemma nth_error_ext {A} : forall l1 l2 : list A, (forall i, nth_error l1 i = nth_error l2 i) -> l1 = l2.
Proof.
  induction l1 as [|a l1 IH]; intros [|b l2] H; auto; try (specialize (H 0); discriminate H).
  pose proof (H 0) as H0. cbn in H0. inversion H0; subst. f_equal. apply IH. intros i. apply (H (S i)).
Qed.

Lemma nth_error_skipn {A} : forall n (l : list A) i, nth_error (skipn n l) i = nth_error l (n + i).
Proof.
  induction n as [|n IH]; intros l i; [reflexivity|]. destruct l as [|a l]; [destruct i; reflexivity|]. apply IH.
Qed.
Lemma nth_error_firstn {A} : forall n (l : list A) i,
  nth_error (firstn n l) i = if i <? n then nth_error l i else None.
Proof.
  induction n as [|n IH]; intros l i; [destruct i; reflexivity|].
  destruct l as [|a l]; [destruct (i <? S n), i; reflexivity|].
  destruct i as [|i]; [reflexivity|]. cbn [firstn nth_error]. rewrite IH. reflexivity.
Qed.
Lemma nth_error_Some_length {A} (l : list A) i x : nth_error l i = Some x -> i < length l.
Proof. intros H. apply nth_error_Some. congruence. Qed.

Lemma skipn_nth {A} (l1 l2 : list A) i : (forall k, i < k -> nth_error l1 k = nth_error l2 k) ->
  skipn (S i) l1 = skipn (S i) l2.
Proof.
  intros H. apply nth_error_ext. intros k. rewrite !nth_error_skipn. apply H. lia.
Qed.

Lemma shuffle_from_ext {T} rng rng' i : (forall k, k <= i -> rng k = rng' k) ->
  forall l : list T, shuffle_from rng i l = shuffle_from rng' i l.
Proof.
  induction i as [|i IH]; intros H l; [reflexivity|]. cbn. rewrite H by lia. apply IH. intros; apply H; lia.
Qed.

Lemma shuffle_from_surjective {T} : forall i (l l' : list T), i < length l -> Permutation l l' ->
  (forall k, i < k -> nth_error l k = nth_error l' k) ->
  exists rng, shuffle_from rng i l = l'.
Proof.
  induction i as [|i IH]; intros l l' Hi P A.
  - exists (fun _ => 0). cbn. assert (E := skipn_nth l l' 0 A).
    destruct l as [|a l]; [cbn in Hi; lia|]. destruct l' as [|a' l']; [apply Permutation_sym, Permutation_nil in P; discriminate|].
    cbn in E. subst. f_equal. apply Permutation_app_inv_r with (l1 := [a]) (l2 := [a']) in P.
    apply Permutation_length_1_inv in P. congruence.
  - assert (Ll : length l = length l') by (apply Permutation_length, P).
    assert (E := skipn_nth l l' (S i) A).
    assert (Pf : Permutation (firstn (S (S i)) l) (firstn (S (S i)) l')).
    { rewrite <- (firstn_skipn (S (S i)) l), <- (firstn_skipn (S (S i)) l') in P. rewrite E in P.
      apply Permutation_app_inv_r in P. exact P. }
    destruct (nth_error_len l' (S i)) as (x & Hx); [lia|].
    assert (Hin : In x (firstn (S (S i)) l)).
    { apply (Permutation_in _ (Permutation_sym Pf)). apply (nth_error_In _ (S i)).
      rewrite nth_error_firstn. replace (S i <? S (S i)) with true by (symmetry; apply Nat.ltb_lt; lia). exact Hx. }
    apply In_nth_error in Hin as (j & Hj).
    assert (Lj : j < S (S i)).
    { apply nth_error_Some_length in Hj. rewrite firstn_length in Hj. lia. }
    rewrite nth_error_firstn in Hj. replace (j <? S (S i)) with true in Hj by (symmetry; apply Nat.ltb_lt; lia).
    destruct (IH (swap_nth l (S i) j) l') as (rng & R).
    + rewrite swap_nth_length. lia.
    + rewrite <- P. apply Permutation_sym, swap_nth_perm.
    + intros k Hk. rewrite swap_nth_nth by lia.
      destruct (Nat.eqb_spec j k) as [->|Djk].
      * assert (k = S i) by lia. subst k. rewrite Hx, <- Hj. reflexivity.
      * destruct (Nat.eqb_spec (S i) k) as [<-|Dik]; [congruence|]. apply A. lia.
    + exists (fun k => if k =? S i then j else rng k). cbn [shuffle_from]. rewrite Nat.eqb_refl.
      rewrite Nat.mod_small by lia. rewrite <- R. apply shuffle_from_ext.
      intros k Hk. destruct (Nat.eqb_spec k (S i)); [lia|reflexivity].
Qed.

Lemma shuffle_surjective {T} (l l' : list T) : Permutation l l' -> exists rng, shuffle rng l = l'.
Proof.
  intros P. destruct l as [|a l].
  - apply Permutation_nil in P. subst. exists (fun _ => 0). reflexivity.
  - unfold shuffle. apply shuffle_from_surjective; auto.
    + cbn. lia.
    + intros k Hk. cbn [length] in Hk.
      rewrite (proj2 (nth_error_None _ _)), (proj2 (nth_error_None _ _)); auto.
      * apply Permutation_length in P. cbn in P. lia.
      * cbn. lia.
Qed.

(** ** Changing orientations keeps validity *)

Lemma valid_same_positions {P Pos} (d : PieceDesc P Pos) s s' :
  map (pd_position d) s' = map (pd_position d) s -> set_valid d s -> set_valid d s'.
Proof.
  intros E [L N]. split; [|congruence]. apply (f_equal (@length _)) in E. rewrite !map_length in E. congruence.
Qed.

Lemma map_rng_pos {A B C} (f : A -> B -> A) (g : A -> C) rng : (forall a b, g (f a b) = g a) ->
  forall l i, map g (map_rng f rng i l) = map g l.
Proof. intros H. induction l as [|a l IH]; intros i; cbn; [reflexivity|]. rewrite H, IH. reflexivity. Qed.

Lemma update_last_app {A} (f : A -> A) l x : update_last f (l ++ [x]) = Done (l ++ [f x]).
Proof.
  induction l as [|a l IH]; [reflexivity|]. cbn [app update_last].
  destruct (l ++ [x]) eqn:E; [destruct l; discriminate|]. rewrite IH. reflexivity.
Qed.

Lemma nonempty_last {A} (l : list A) : l <> [] -> exists l0 x, l = l0 ++ [x].
Proof. intros H. destruct (exists_last H) as (l0 & x & E). eauto. Qed.

(** ** Twists *)

Lemma orientation_index_twists c : corner_orientation_index c = twists c.
Proof. destruct c as [[[] [] []] []]; reflexivity. Qed.
Lemma sum_twists l : sum (map corner_orientation_index l) = list_sum (map twists l).
Proof. unfold sum, list_sum. f_equal. apply map_ext. apply orientation_index_twists. Qed.
Lemma twist_twists c : twists (corner_twist c) = (twists c + 1) mod 3.
Proof. destruct c as [[[] [] []] []]; reflexivity. Qed.
Lemma twist_pos c : c_pos (corner_twist c) = c_pos c.
Proof. reflexivity. Qed.

Lemma list_sum_snoc (l : list nat) x : list_sum (l ++ [x]) = list_sum l + x.
Proof. rewrite list_sum_app. cbn. lia. Qed.


Fixpoint twist_n (n : nat) (c : Corner) : Corner := match n with 0 => c | S n => twist_n n (corner_twist c) end.
Lemma times_twist n : forall l x, times_o n (update_last corner_twist) (l ++ [x]) = Done (l ++ [twist_n n x]).
Proof.
  induction n as [|n IH]; intros l x; [reflexivity|]. cbn [times_o]. rewrite update_last_app. cbn [bind_o]. apply IH.
Qed.
Lemma twist_n_twists n : forall c, twists (twist_n n c) mod 3 = (twists c + n) mod 3.
Proof.
  induction n as [|n IH]; intros c; cbn [twist_n]; [f_equal; lia|]. rewrite IH, twist_twists.
  rewrite Nat.add_mod_idemp_l by lia. f_equal. lia.
Qed.
Lemma twist_n_pos n : forall c, c_pos (twist_n n c) = c_pos c.
Proof. induction n; intros c; cbn; auto. rewrite IHn. reflexivity. Qed.

Lemma fix_corners_spec cs : cs <> [] ->
  exists cs', fix_corner_multiplicity_o cs = Done cs' /\ map c_pos cs' = map c_pos cs /\ twists_divisible cs' /\
    (twists_divisible cs -> cs' = cs).
Proof.
  intros H. destruct (nonempty_last cs H) as (l & x & ->).
  unfold fix_corner_multiplicity_o. rewrite sum_twists. cbv zeta.
  set (s := list_sum (map twists (l ++ [x]))). set (k := Z.to_nat (Z.modulo (- Z.of_nat s) 3)).
  rewrite times_twist. cbn [bind_o]. rewrite sum_twists.
  assert (E : list_sum (map twists (l ++ [twist_n k x])) mod 3 = 0).
  { rewrite map_app. cbn [map]. rewrite list_sum_snoc, Nat.add_mod, twist_n_twists, <- Nat.add_mod by lia.
    rewrite Nat.add_assoc. replace (list_sum (map twists l) + twists x) with s.
    2:{ subst s. rewrite map_app. cbn [map]. rewrite list_sum_snoc. reflexivity. }
    assert (Hk : (Z.of_nat k = (- Z.of_nat s) mod 3)%Z).
    { subst k. rewrite Z2Nat.id; [reflexivity|]. apply Z.mod_pos_bound. lia. }
    apply Nat2Z.inj. rewrite Nat2Z.inj_mod, Nat2Z.inj_add, Hk. cbn [Z.of_nat].
    rewrite Z.add_mod_idemp_r by lia. rewrite Z.add_opp_diag_r. reflexivity. }
  rewrite E. cbn [Nat.eqb]. exists (l ++ [twist_n k x]). split; [reflexivity|]. split; [|split].
  - rewrite !map_app. cbn [map]. rewrite twist_n_pos. reflexivity.
  - exact E.
  - intros D. unfold twists_divisible in D. fold s in D.
    assert (k = 0); [|rewrite H0; reflexivity]. subst k.
    assert (Hs : (Z.of_nat s mod 3 = 0)%Z).
    { change 3%Z with (Z.of_nat 3). rewrite <- (Nat2Z.inj_mod s 3). rewrite D. reflexivity. }
    rewrite Z.mod_opp_l_z by (auto; lia). reflexivity.
Qed.

(** ** Flips *)

Lemma filter_negb_length {A} (f : A -> bool) l : length (filter f l) + length (filter (fun x => negb (f x)) l) = length l.
Proof. induction l as [|a l IH]; [reflexivity|]. cbn. destruct (f a); cbn; lia. Qed.

Lemma odd_oriented es : Nat.even (length es) = true ->
  (length (filter e_oriented es) mod 2 =? 1) = negb (Nat.even (length (filter (fun e => negb (e_oriented e)) es))).
Proof.
  intros E. rewrite <- (filter_negb_length e_oriented) in E. rewrite Nat.even_add in E.
  assert (H : forall n, (n mod 2 =? 1) = Nat.odd n).
  { intros n. rewrite <- Nat.bit0_mod, Nat.bit0_odd. destruct (Nat.odd n); reflexivity. }
  rewrite H, <- Nat.negb_even. destruct (Nat.even (length (filter e_oriented es))), (Nat.even _); cbn in *; congruence.
Qed.

Lemma fix_edges_spec es : es <> [] -> Nat.even (length es) = true ->
  exists es', fix_edge_flip_parity_o es = Done es' /\ map edge_position es' = map edge_position es /\ even_flips es' /\
    (even_flips es -> es' = es).
Proof.
  intros H L. unfold fix_edge_flip_parity_o. rewrite odd_oriented by exact L. unfold even_flips.
  destruct (Nat.even (length (filter (fun e => negb (e_oriented e)) es))) eqn:E; cbn [negb].
  - exists es. auto.
  - destruct (nonempty_last es H) as (l & x & ->). rewrite update_last_app.
    exists (l ++ [edge_flip x]). split; [reflexivity|]. split; [rewrite !map_app; reflexivity|]. split; [|discriminate].
    rewrite filter_app, app_length, Nat.even_add in *. cbn [filter] in *.
    destruct x as [a s []]; cbn in *; destruct (Nat.even (length (filter _ l))); cbn in *; congruence.
Qed.

(** ** Permutation parity *)

Lemma corner_index_place c : corner_position_index c = place vec3_eqb corner_reference (c_pos c).
Proof. destruct c as [[[] [] []] a]; reflexivity. Qed.
Lemma edge_index_place e : edge_position_index e = place edgepos_eqb edge_reference (edge_position e).
Proof. destruct e as [[] [[] []] o]; reflexivity. Qed.
Lemma corner_indices_perm cs : map corner_position_index cs = corner_permutation cs.
Proof. apply map_ext. apply corner_index_place. Qed.
Lemma edge_indices_perm es : map edge_position_index es = edge_permutation es.
Proof. apply map_ext. apply edge_index_place. Qed.

Lemma swap_cycles_sign n l : Permutation l (seq 0 n) -> 0 < n ->
  odd_inv l = xorb (Nat.odd n) (Nat.odd (S (swap_cycles l))).
Proof.
  intros P H. destruct (swap_cycles_spec l n P H) as (ls & O & L & _). rewrite <- L. apply sign_of_cycles; auto.
Qed.

Lemma mod2_even n : (n mod 2 =? 0) = Nat.even n.
Proof.
  rewrite <- Nat.negb_odd, <- Nat.bit0_mod, Nat.bit0_odd. destruct (Nat.odd n); reflexivity.
Qed.

Lemma edge_swap01 es : set_valid edge_desc es -> exists a b r,
  es = a :: b :: r /\
  set_swap edge_desc es (AX, mkVec2 Positive Positive) (AX, mkVec2 Positive Negative) = Done (b :: a :: r).
Proof.
  intros [L _]. destruct es as [|a [|b r]]; try discriminate. exists a, b, r. split; reflexivity.
Qed.

Lemma fix_swap_spec c : cube3_sets_valid c ->
  exists c', fix_swap_parity_o c = Done c' /\ cube3_sets_valid c' /\ equal_parities c' /\
    c3_corners c' = c3_corners c /\
    (equal_parities c -> c' = c) /\
    (~ equal_parities c -> exists a b r, c3_edges c = a :: b :: r /\ c3_edges c' = b :: a :: r).
Proof.
  intros [VE VC].
  pose proof (edge_permutation_perm _ VE) as PE. pose proof (corner_permutation_perm _ VC) as PC.
  pose proof (swap_cycles_sign _ _ PE ltac:(lia)) as SE. pose proof (swap_cycles_sign _ _ PC ltac:(lia)) as SC.
  unfold fix_swap_parity_o. rewrite corner_indices_perm, edge_indices_perm. cbv zeta. rewrite !mod2_even.
  change (Nat.odd 12) with false in SE. change (Nat.odd 8) with false in SC.
  rewrite xorb_false_l in SE, SC. rewrite Nat.odd_succ in SE, SC. rewrite <- SE, <- SC.
  destruct (Bool.eqb (odd_inv (edge_permutation (c3_edges c))) (odd_inv (corner_permutation (c3_corners c)))) eqn:E; cbn [negb].
  - apply eqb_prop in E. exists c. split; [reflexivity|]. split; [split; assumption|].
    assert (equal_parities c) by (apply equal_parities_odd; exact E). repeat split; auto. intros N. contradiction.
  - destruct (edge_swap01 _ VE) as (a & b & r & Ee & Sw).
    change (nth_error edge_reference 0) with (Some (AX, mkVec2 Positive Positive)).
    change (nth_error edge_reference 1) with (Some (AX, mkVec2 Positive Negative)). cbv iota.
    rewrite Sw. cbn [map_o]. exists (mkCube3 (b :: a :: r) (c3_corners c)). split; [reflexivity|].
    assert (VE' : set_valid edge_desc (b :: a :: r)).
    { rewrite Ee in VE. destruct VE as [Lv Nv]. split; [exact Lv|].
      apply (Permutation_NoDup (l := map (pd_position edge_desc) (a :: b :: r))); [|exact Nv].
      apply Permutation_map. constructor. }
    split; [split; [exact VE'|exact VC]|].
    assert (Dab : place edgepos_eqb edge_reference (edge_position a) <> place edgepos_eqb edge_reference (edge_position b)).
    { pose proof (cyc_nodup _ _ PE) as N. rewrite Ee in N. cbn in N. inversion N as [|? ? N1 _]; subst.
      intros Eab. apply N1. left. symmetry. exact Eab. }
    assert (O : odd_inv (edge_permutation (b :: a :: r)) = negb (odd_inv (edge_permutation (c3_edges c)))).
    { rewrite Ee. unfold edge_permutation. cbn [map]. apply odd_inv_swap01. auto. }
    split; [|split; [reflexivity|split]].
    + apply equal_parities_odd. cbn [c3_edges c3_corners]. rewrite O.
      destruct (odd_inv (edge_permutation _)), (odd_inv (corner_permutation _)); cbn in *; congruence.
    + intros Ep. apply equal_parities_odd in Ep. rewrite Ep in E. rewrite eqb_reflx in E. discriminate.
    + intros _. exists a, b, r. split; [exact Ee|reflexivity].
Qed.

(** ** The whole of [sample] *)

Lemma solved_valid_e : set_valid edge_desc edge_solved.
Proof. apply (set_valid_spec _ edge_desc_ok). apply (cube_well_formed_solved Size3). Qed.
Lemma solved_valid_c : set_valid corner_desc corner_solved.
Proof. apply (set_valid_spec _ corner_desc_ok). apply (cube_well_formed_solved Size3). Qed.

Lemma perm_valid {P Pos} (d : PieceDesc P Pos) s s' : Permutation s s' -> set_valid d s -> set_valid d s'.
Proof.
  intros Pm [L N]. split.
  - rewrite <- L. apply Permutation_length. apply Permutation_sym. exact Pm.
  - apply (Permutation_NoDup (Permutation_map _ Pm) N).
Qed.

Lemma sample3_spec rng : exists c, cube3_sample rng = Done c /\ cube3_sets_valid c /\ invariants c.
Proof.
  unfold cube3_sample. cbv zeta.
  set (es := map_rng set_oriented (rng_flips rng) 0 (shuffle (rng_edges rng) edge_solved)).
  set (cs := map_rng set_axis (rng_axes rng) 0 (shuffle (rng_corners rng) corner_solved)).
  assert (VE : set_valid edge_desc es).
  { apply (valid_same_positions edge_desc (shuffle (rng_edges rng) edge_solved)).
    - subst es. apply map_rng_pos. reflexivity.
    - apply (perm_valid _ _ _ (shuffle_perm _ _) solved_valid_e). }
  assert (VC : set_valid corner_desc cs).
  { apply (valid_same_positions corner_desc (shuffle (rng_corners rng) corner_solved)).
    - subst cs. apply map_rng_pos. reflexivity.
    - apply (perm_valid _ _ _ (shuffle_perm _ _) solved_valid_c). }
  destruct (fix_swap_spec (mkCube3 es cs) (conj VE VC)) as (c1 & E1 & [VE1 VC1] & Eq1 & _).
  rewrite E1. cbn [bind_o].
  assert (L1 : length (c3_edges c1) = 12) by apply VE1. assert (L2 : length (c3_corners c1) = 8) by apply VC1.
  destruct (fix_edges_spec (c3_edges c1)) as (es2 & E2 & P2 & F2 & _).
  { intros H. rewrite H in L1. discriminate. } { rewrite L1. reflexivity. }
  destruct (fix_corners_spec (c3_corners c1)) as (cs2 & E3 & P3 & T3 & _).
  { intros H. rewrite H in L2. discriminate. }
  rewrite E2. cbn [bind_o]. rewrite E3. cbn [bind_o].
  exists (mkCube3 es2 cs2). split; [reflexivity|]. split; [split|].
  - apply (valid_same_positions edge_desc (c3_edges c1)); [exact P2|exact VE1].
  - apply (valid_same_positions corner_desc (c3_corners c1)); [exact P3|exact VC1].
  - split; [|split; [exact F2|exact T3]].
    unfold equal_parities in *. cbn [c3_edges c3_corners].
    replace (edge_permutation es2) with (edge_permutation (c3_edges c1)).
    + replace (corner_permutation cs2) with (corner_permutation (c3_corners c1)); [exact Eq1|].
      unfold corner_permutation. rewrite <- !(map_map c_pos (place vec3_eqb corner_reference)). congruence.
    + unfold edge_permutation. rewrite <- !(map_map edge_position (place edgepos_eqb edge_reference)). congruence.
Qed.

Lemma map_rng_all {A B} (f : A -> B -> A) (get : A -> B) (base : A -> A) (d : B) :
  (forall a, f (base a) (get a) = a) ->
  forall l k rng, (forall j a, nth_error l j = Some a -> rng (k + j) = get a) ->
  map_rng f rng k (map base l) = l.
Proof.
  intros H. induction l as [|a l IH]; intros k rng R; [reflexivity|]. cbn. f_equal.
  - rewrite <- (H a) at 2. f_equal. rewrite <- (R 0 a eq_refl). f_equal. lia.
  - apply IH. intros j b Hj. rewrite <- (R (S j) b Hj). f_equal. lia.
Qed.

Lemma sample3_surjective c : cube3_sets_valid c -> invariants c -> exists rng, cube3_sample rng = Done c.
Proof.
  intros [VE VC] (Ip & If & It). destruct c as [es cs]. cbn [c3_edges c3_corners] in *.
  set (be := fun e : Edge => edge_oriented (edge_position e)). set (bc := fun c : Corner => corner_oriented (c_pos c)).
  destruct (shuffle_surjective edge_solved (map be es)) as (r1 & R1).
  { pose proof (set_valid_perm _ edge_desc_ok es VE) as Pm. apply Permutation_sym in Pm.
    apply (Permutation_map edge_oriented) in Pm. rewrite map_map in Pm. exact Pm. }
  destruct (shuffle_surjective corner_solved (map bc cs)) as (r2 & R2).
  { pose proof (set_valid_perm _ corner_desc_ok cs VC) as Pm. apply Permutation_sym in Pm.
    apply (Permutation_map corner_oriented) in Pm. rewrite map_map in Pm. exact Pm. }
  exists (mkRng3 r1 r2 (fun i => nth i (map e_oriented es) true) (fun i => nth i (map c_axis cs) AY)).
  unfold cube3_sample. cbn [rng_edges rng_corners rng_flips rng_axes]. rewrite R1, R2. cbv zeta.
  rewrite (map_rng_all set_oriented e_oriented be true).
  2:{ intros [a s o]. reflexivity. }
  2:{ intros j a Hj. cbn [plus]. apply nth_error_nth. rewrite nth_error_map, Hj. reflexivity. }
  rewrite (map_rng_all set_axis c_axis bc AY).
  2:{ intros [p a]. reflexivity. }
  2:{ intros j a Hj. cbn [plus]. apply nth_error_nth. rewrite nth_error_map, Hj. reflexivity. }
  destruct (fix_swap_spec (mkCube3 es cs) (conj VE VC)) as (c1 & E1 & _ & _ & _ & Same & _).
  rewrite E1. cbn [bind_o]. rewrite (Same Ip). cbn [c3_edges c3_corners].
  assert (L1 : length es = 12) by apply VE. assert (L2 : length cs = 8) by apply VC.
  destruct (fix_edges_spec es) as (es2 & E2 & _ & _ & S2).
  { intros H. rewrite H in L1. discriminate. } { rewrite L1. reflexivity. }
  destruct (fix_corners_spec cs) as (cs2 & E3 & _ & _ & S3).
  { intros H. rewrite H in L2. discriminate. }
  rewrite E2. cbn [bind_o]. rewrite E3. cbn [bind_o]. rewrite (S2 If), (S3 It). reflexivity.
Qed.

(** The 2x2x2. *)
Lemma oriented_twists cs : (forall c, In c cs -> c_axis c = AY) -> list_sum (map twists cs) = 0.
Proof.
  induction cs as [|c cs IH]; intros H; [reflexivity|]. cbn [map list_sum fold_right].
  change (fold_right Init.Nat.add 0 (map twists cs)) with (list_sum (map twists cs)).
  rewrite IH by (intros; apply H; right; auto). unfold twists. rewrite (H c (or_introl eq_refl)). reflexivity.
Qed.

Lemma sample2_spec rng : exists cs, cube2_sample rng = Done (mkCube2 cs) /\ set_valid corner_desc cs /\
  (forall c, In c cs -> c_axis c = AY) /\ cs = shuffle rng corner_solved.
Proof.
  unfold cube2_sample. set (cs := shuffle rng corner_solved).
  assert (Pm : Permutation corner_solved cs) by apply shuffle_perm.
  assert (O : forall c, In c cs -> c_axis c = AY).
  { intros c Hc. apply (Permutation_in _ (Permutation_sym Pm)) in Hc.
    unfold corner_solved in Hc. apply in_map_iff in Hc as (p & <- & _). reflexivity. }
  assert (V : set_valid corner_desc cs) by (apply (perm_valid _ _ _ Pm solved_valid_c)).
  destruct (fix_corners_spec cs) as (cs2 & E & _ & _ & S).
  { intros H. destruct V as [L _]. rewrite H in L. discriminate. }
  rewrite E. cbn [bind_o]. assert (cs2 = cs) as ->.
  { apply S. unfold twists_divisible. rewrite oriented_twists by exact O. reflexivity. }
  exists cs. auto.
Qed.

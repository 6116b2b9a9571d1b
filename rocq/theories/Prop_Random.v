(** Properties of the distribution of random cubes (C54). *)

From Coq Require Import List Bool Arith NArith ZArith Lia Permutation.
From Verif Require Import Model_Base Model_Space Model_Moves Model_Pieces Model_PieceSet Model_Cubes
  Model_Invariants Spec_Sets Spec_Invariants Spec_Random Proof_Sets Proof_Parity Proof_Solve Proof_Invariants Proof_Random Prop_Sets Prop_Invariants.
Import ListNotations.
Local Open Scope nat_scope.

(* ------------------------------------------------------------------ *)
(** * C54 Every solvable cube is equally likely *)

(** ** Shuffles *)

Lemma shuffle_from_above {T} rng : forall i (l : list T) k, i < length l -> i < k -> nth_error (shuffle_from rng i l) k = nth_error l k.
Proof.
  induction i as [|i IH]; intros l k Hi Hk; [reflexivity|]. cbn [shuffle_from].
  pose proof (Nat.mod_upper_bound (rng (S i)) (S (S i)) ltac:(lia)) as B.
  rewrite IH by (rewrite ?swap_nth_length; lia). rewrite swap_nth_nth by lia.
  destruct (Nat.eqb_spec (rng (S i) mod S (S i)) k); [lia|]. destruct (Nat.eqb_spec (S i) k); [lia|reflexivity].
Qed.
Lemma swap_nth_nodup {T} (l : list T) i j : NoDup l -> NoDup (swap_nth l i j).
Proof. intros H. exact (Permutation_NoDup (swap_nth_perm l i j) H). Qed.
Lemma shuffle_from_inj {T} rng rng' : forall i (l : list T), i < length l -> NoDup l ->
  (forall k, k <= i -> rng k <= k /\ rng' k <= k) ->
  shuffle_from rng i l = shuffle_from rng' i l -> forall k, k <= i -> rng k = rng' k.
Proof.
  induction i as [|i IH]; intros l Hi N B E k Hk.
  - destruct (B k Hk). lia.
  - cbn [shuffle_from] in E. destruct (B (S i) (Nat.le_refl _)) as [B1 B2].
    rewrite !Nat.mod_small in E by lia.
    assert (X : rng (S i) = rng' (S i)).
    { pose proof (f_equal (fun l => nth_error l (S i)) E) as E'. cbn beta in E'.
      rewrite !shuffle_from_above in E' by (rewrite ?swap_nth_length; lia). rewrite !swap_nth_nth in E' by lia.
      assert (F : forall j, j <= S i -> (if j =? S i then nth_error l (S i) else if S i =? S i then nth_error l j else nth_error l (S i)) = nth_error l j).
      { intros j _. rewrite Nat.eqb_refl. destruct (Nat.eqb_spec j (S i)); [subst; reflexivity|reflexivity]. }
      rewrite !F in E' by assumption. apply (proj1 (NoDup_nth_error l) N); [lia|exact E']. }
    destruct (Nat.eq_dec k (S i)) as [->|D]; [exact X|]. rewrite <- X in E.
    refine (IH (swap_nth l (S i) (rng (S i))) _ _ _ E k _); [rewrite swap_nth_length; lia|apply swap_nth_nodup, N| |lia].
    intros k' Hk'. apply B. lia.
Qed.
Lemma shuffle_from_mod {T} rng i : forall l : list T, shuffle_from (fun k => rng k mod S k) i l = shuffle_from rng i l.
Proof. induction i as [|i IH]; intros l; [reflexivity|]. cbn [shuffle_from]. rewrite Nat.mod_mod by lia. apply IH. Qed.

Lemma shuffle_choice {T} (l l' : list T) : l <> [] -> Permutation l l' -> exists js, shuffle_choices (length l) js /\ shuffle (fun i => nth i js 0) l = l'.
Proof.
  intros NE P. destruct (shuffle_surjective l l' P) as (rng & R).
  exists (map (fun k => rng k mod S k) (seq 0 (length l))). split.
  - split; [rewrite map_length, seq_length; reflexivity|]. intros i j H. rewrite nth_error_map in H.
    destruct (nth_error (seq 0 (length l)) i) as [x|] eqn:X; [|discriminate]. cbn in H. injection H as <-.
    pose proof (nth_error_Some_length _ _ _ X) as L. rewrite seq_length in L.
    apply nth_error_nth with (d := 0) in X. rewrite seq_nth in X by lia. cbn in X. subst x.
    pose proof (Nat.mod_upper_bound (rng i) (S i) ltac:(lia)). lia.
  - rewrite <- R. unfold shuffle. rewrite <- (shuffle_from_mod rng). apply shuffle_from_ext. intros k Hk.
    assert (length l <> 0) by (destruct l; [contradiction|discriminate]).
    apply nth_error_nth. rewrite nth_error_map. rewrite (nth_error_nth' (seq 0 (length l)) 0) by (rewrite seq_length; lia).
    rewrite seq_nth by lia. reflexivity.
Qed.
Lemma shuffle_inj {T} (l : list T) js js' : NoDup l -> shuffle_choices (length l) js -> shuffle_choices (length l) js' ->
  shuffle (fun i => nth i js 0) l = shuffle (fun i => nth i js' 0) l -> js = js'.
Proof.
  intros N [L B] [L' B'] E. destruct l as [|a l]; [destruct js; [|discriminate]; destruct js'; [reflexivity|discriminate]|].
  assert (K : forall js, length js = length (a :: l) -> (forall i j, nth_error js i = Some j -> j <= i) -> forall k, k <= length (a :: l) - 1 -> nth k js 0 <= k).
  { clear. intros js L B k Hk. apply B. apply nth_error_nth'. rewrite L. cbn in *. lia. }
  unfold shuffle in E. apply nth_ext with (d := 0) (d' := 0); [congruence|]. intros k Hk. rewrite L in Hk.
  refine (shuffle_from_inj _ _ (length (a :: l) - 1) (a :: l) _ N _ E k _); [cbn; lia| |lia].
  intros k' Hk'. split; [apply K|apply K]; assumption.
Qed.

(** ** The cube before the repairs *)

Definition raw (ch : Choices) : Cube3 :=
  mkCube3 (map_rng set_oriented (rng_flips (generator ch)) 0 (shuffle (rng_edges (generator ch)) edge_solved))
          (map_rng set_axis (rng_axes (generator ch)) 0 (shuffle (rng_corners (generator ch)) corner_solved)).
Definition repair (c : Cube3) : outcome Cube3 :=
  bind_o (fix_swap_parity_o c) (fun c =>
  bind_o (fix_edge_flip_parity_o (c3_edges c)) (fun edges =>
  bind_o (fix_corner_multiplicity_o (c3_corners c)) (fun corners =>
  Done (mkCube3 edges corners)))).
Lemma sample_repair ch : cube3_sample (generator ch) = repair (raw ch).
Proof. unfold cube3_sample, repair, raw. cbv zeta. exact eq_refl. Qed.

Definition plain_edge (e : Edge) : Edge := edge_oriented (edge_position e).
Definition plain_corner (c : Corner) : Corner := corner_oriented (c_pos c).

Lemma map_rng_get {A B} (f : A -> B -> A) (get : A -> B) (d : B) : (forall a b, get (f a b) = b) ->
  forall xs l k, length l = k + length xs -> map get (map_rng f (fun i => nth i l d) k xs) = skipn k l.
Proof.
  intros H. induction xs as [|x xs IH]; intros l k L; cbn [map_rng map].
  - rewrite skipn_all2; [reflexivity|cbn in L; lia].
  - rewrite H, IH by (cbn in L; lia). cbn [length] in L.
    apply nth_error_ext. intros [|i]; rewrite nth_error_skipn; cbn [nth_error].
    + rewrite Nat.add_0_r. symmetry. apply nth_error_nth'. lia.
    + rewrite nth_error_skipn. f_equal. lia.
Qed.
Lemma map_rng_base {A B C} (f : A -> B -> A) (base : A -> C) rng : (forall a b, base (f a b) = base a) ->
  forall xs k, map base (map_rng f rng k xs) = map base xs.
Proof. intros H. induction xs as [|x xs IH]; intros k; cbn; [reflexivity|]. rewrite H, IH. reflexivity. Qed.

Lemma plain_edges rng : map plain_edge (shuffle rng edge_solved) = shuffle rng edge_solved.
Proof.
  rewrite <- map_id. apply map_ext_in. intros e I. apply (Permutation_in _ (Permutation_sym (shuffle_perm rng edge_solved))) in I.
  revert e I. apply Forall_forall. repeat constructor.
Qed.
Lemma plain_corners rng : map plain_corner (shuffle rng corner_solved) = shuffle rng corner_solved.
Proof.
  rewrite <- map_id. apply map_ext_in. intros e I. apply (Permutation_in _ (Permutation_sym (shuffle_perm rng corner_solved))) in I.
  revert e I. apply Forall_forall. repeat constructor.
Qed.

Lemma raw_valid ch : cube3_sets_valid (raw ch).
Proof.
  split.
  - apply (valid_same_positions edge_desc (shuffle (rng_edges (generator ch)) edge_solved)).
    + apply map_rng_pos. reflexivity.
    + apply (perm_valid _ _ _ (shuffle_perm _ _) solved_valid_e).
  - apply (valid_same_positions corner_desc (shuffle (rng_corners (generator ch)) corner_solved)).
    + apply map_rng_pos. reflexivity.
    + apply (perm_valid _ _ _ (shuffle_perm _ _) solved_valid_c).
Qed.
Lemma edge_solved_nodup : NoDup edge_solved.
Proof. apply (NoDup_map_inv edge_position). apply solved_valid_e. Qed.
Lemma corner_solved_nodup : NoDup corner_solved.
Proof. apply (NoDup_map_inv c_pos). apply solved_valid_c. Qed.

Lemma raw_inj a b : possible a -> possible b -> raw a = raw b -> a = b.
Proof.
  intros (A1 & A2 & A3 & A4) (B1 & B2 & B3 & B4) E. destruct a as [ae ac af aa], b as [be bc bf ba].
  cbn [ch_edges ch_corners ch_flips ch_axes] in *. unfold raw in E. cbn [generator rng_edges rng_corners rng_flips rng_axes ch_edges ch_corners ch_flips ch_axes] in E.
  injection E as Ee Ec.
  assert (Le : forall rng, length (shuffle rng edge_solved) = 12) by (intros rng; rewrite <- (Permutation_length (shuffle_perm rng edge_solved)); reflexivity).
  assert (Lc : forall rng, length (shuffle rng corner_solved) = 8) by (intros rng; rewrite <- (Permutation_length (shuffle_perm rng corner_solved)); reflexivity).
  pose proof (f_equal (map e_oriented) Ee) as E1. rewrite !(map_rng_get set_oriented e_oriented true) in E1 by (reflexivity || (rewrite Le; assumption)).
  pose proof (f_equal (map plain_edge) Ee) as E2. rewrite !(map_rng_base set_oriented plain_edge) in E2 by reflexivity. rewrite !plain_edges in E2.
  pose proof (f_equal (map c_axis) Ec) as E3. rewrite !(map_rng_get set_axis c_axis AX) in E3 by (reflexivity || (rewrite Lc; assumption)).
  pose proof (f_equal (map plain_corner) Ec) as E4. rewrite !(map_rng_base set_axis plain_corner) in E4 by reflexivity. rewrite !plain_corners in E4.
  cbn [skipn] in E1, E3. apply (shuffle_inj _ _ _ edge_solved_nodup A1 B1) in E2. apply (shuffle_inj _ _ _ corner_solved_nodup A2 B2) in E4.
  congruence.
Qed.
Lemma raw_surj c : cube3_sets_valid c -> exists ch, possible ch /\ raw ch = c.
Proof.
  intros [VE VC]. destruct c as [es cs]. cbn [c3_edges c3_corners] in *.
  destruct (shuffle_choice edge_solved (map plain_edge es)) as (r1 & J1 & R1); [discriminate| |].
  { pose proof (set_valid_perm _ edge_desc_ok es VE) as Pm. apply Permutation_sym in Pm.
    apply (Permutation_map edge_oriented) in Pm. rewrite map_map in Pm. exact Pm. }
  destruct (shuffle_choice corner_solved (map plain_corner cs)) as (r2 & J2 & R2); [discriminate| |].
  { pose proof (set_valid_perm _ corner_desc_ok cs VC) as Pm. apply Permutation_sym in Pm.
    apply (Permutation_map corner_oriented) in Pm. rewrite map_map in Pm. exact Pm. }
  assert (Le : length es = 12) by apply VE. assert (Lc : length cs = 8) by apply VC.
  exists (mkChoices r1 r2 (map e_oriented es) (map c_axis cs)). split.
  - split; [exact J1|]. split; [exact J2|]. cbn [ch_flips ch_axes]. rewrite !map_length. split; assumption.
  - unfold raw. cbn [generator rng_edges rng_corners rng_flips rng_axes ch_edges ch_corners ch_flips ch_axes].
    rewrite R1, R2. rewrite (map_rng_all set_oriented e_oriented plain_edge true).
    2:{ intros [a s o]. reflexivity. }
    2:{ intros j a Hj. cbn [plus]. apply nth_error_nth. rewrite nth_error_map, Hj. reflexivity. }
    rewrite (map_rng_all set_axis c_axis plain_corner AX).
    2:{ intros [p a]. reflexivity. }
    2:{ intros j a Hj. cbn [plus]. apply nth_error_nth. rewrite nth_error_map, Hj. reflexivity. }
    reflexivity.
Qed.

(** ** What the repairs do *)

Definition swap01 (s : bool) (es : list Edge) : list Edge :=
  match s, es with true, a :: b :: r => b :: a :: r | _, _ => es end.
Fixpoint on_last {A} (f : A -> A) (l : list A) : list A :=
  match l with [] => [] | [a] => [f a] | a :: r => a :: on_last f r end.
Definition flipped (b : bool) (e : Edge) : Edge := if b then edge_flip e else e.
(** Swap the first two edges or not, flip the last edge or not, twist the last corner. *)
Definition vary (s f : bool) (t : nat) (c : Cube3) : Cube3 :=
  mkCube3 (on_last (flipped f) (swap01 s (c3_edges c))) (on_last (twist_n t) (c3_corners c)).

Lemma on_last_app {A} (f : A -> A) l x : on_last f (l ++ [x]) = l ++ [f x].
Proof. induction l as [|a l IH]; [reflexivity|]. cbn [app on_last]. destruct (l ++ [x]) eqn:E; [destruct l; discriminate|]. rewrite IH. reflexivity. Qed.
Lemma on_last_id {A} (f : A -> A) l : (forall x, f x = x) -> on_last f l = l.
Proof. intros H. induction l as [|a [|b l] IH]; [reflexivity|cbn; rewrite H; reflexivity|]. change (a :: on_last f (b :: l) = a :: b :: l). rewrite IH. reflexivity. Qed.
Lemma on_last_map {A B} (f : A -> A) (g : A -> B) l : (forall x, g (f x) = g x) -> map g (on_last f l) = map g l.
Proof. intros H. induction l as [|a [|b l] IH]; [reflexivity|cbn; rewrite H; reflexivity|]. change (g a :: map g (on_last f (b :: l)) = g a :: map g (b :: l)). rewrite IH. reflexivity. Qed.
Lemma on_last_on_last {A} (f g : A -> A) l : on_last f (on_last g l) = on_last (fun x => f (g x)) l.
Proof.
  destruct l as [|a l]; [reflexivity|]. destruct (nonempty_last (a :: l)) as (l0 & x & ->); [discriminate|]. rewrite !on_last_app. reflexivity.
Qed.
Lemma on_last_ext {A} (f g : A -> A) l : (forall x, f x = g x) -> on_last f l = on_last g l.
Proof. intros H. induction l as [|a [|b l] IH]; [reflexivity|cbn; rewrite H; reflexivity|]. change (a :: on_last f (b :: l) = a :: on_last g (b :: l)). rewrite IH. reflexivity. Qed.
Lemma swap01_on_last {f : Edge -> Edge} s l : 2 < length l -> swap01 s (on_last f l) = on_last f (swap01 s l).
Proof. intros L. destruct s; [|reflexivity]. destruct l as [|a [|b [|c l]]]; cbn in L; try lia. reflexivity. Qed.
Lemma swap01_length s l : length (swap01 s l) = length l.
Proof. destruct s, l as [|a [|b l]]; reflexivity. Qed.
Lemma swap01_xor s s' l : swap01 s (swap01 s' l) = swap01 (xorb s s') l.
Proof. destruct s, s', l as [|a [|b l]]; reflexivity. Qed.
Lemma swap01_perm s l : Permutation l (swap01 s l).
Proof. destruct s, l as [|a [|b l]]; try reflexivity. constructor. Qed.
Lemma twist_n_add a : forall b c, twist_n a (twist_n b c) = twist_n (b + a) c.
Proof. intros b. revert a. induction b as [|b IH]; intros a c; [reflexivity|]. cbn [twist_n Nat.add]. apply IH. Qed.
Lemma twist_3 c : twist_n 3 c = c.
Proof. destruct c as [[[] [] []] []]; reflexivity. Qed.
Lemma twist_n_triple k : forall c, twist_n (3 * k) c = c.
Proof. induction k as [|k IH]; intros c; [reflexivity|]. replace (3 * S k) with (3 + 3 * k) by lia. rewrite <- twist_n_add, twist_3. apply IH. Qed.
Lemma twist_n_mod n c : twist_n (n mod 3) c = twist_n n c.
Proof. rewrite (Nat.div_mod_eq n 3) at 2. rewrite <- twist_n_add, twist_n_triple. reflexivity. Qed.

Lemma vary_vary s f t s' f' t' c : 2 < length (c3_edges c) ->
  vary s f t (vary s' f' t' c) = vary (xorb s s') (xorb f f') ((t + t') mod 3) c.
Proof.
  intros L. unfold vary. cbn [c3_edges c3_corners]. rewrite swap01_on_last by (rewrite swap01_length; exact L).
  rewrite swap01_xor, !on_last_on_last. f_equal; apply on_last_ext.
  - intros [a p o]. destruct f, f', o; reflexivity.
  - intros x. rewrite twist_n_mod, twist_n_add. f_equal. lia.
Qed.
Lemma vary_id c : vary false false 0 c = c.
Proof. destruct c as [es cs]. unfold vary. cbn [c3_edges c3_corners swap01]. rewrite !on_last_id by reflexivity. reflexivity. Qed.

Lemma vary_valid s f t c : cube3_sets_valid c -> cube3_sets_valid (vary s f t c).
Proof.
  intros [VE VC]. split; cbn [vary c3_edges c3_corners].
  - apply (valid_same_positions edge_desc (swap01 s (c3_edges c))).
    + apply on_last_map. intros [a p o]. destruct f; reflexivity.
    + exact (perm_valid _ _ _ (swap01_perm s _) VE).
  - apply (valid_same_positions corner_desc (c3_corners c)); [|exact VC]. apply on_last_map. apply twist_n_pos.
Qed.

(** The three quantities the repairs look at. *)
Definition parities (c : Cube3) : bool :=
  xorb (odd_inv (edge_permutation (c3_edges c))) (odd_inv (corner_permutation (c3_corners c))).
Definition flips (c : Cube3) : bool := xor_all (fun e => negb (e_oriented e)) (c3_edges c).
Definition twisted (c : Cube3) : nat := list_sum (map twists (c3_corners c)) mod 3.

Lemma invariants_measured c : invariants c <-> parities c = false /\ flips c = false /\ twisted c = 0.
Proof.
  unfold invariants, parities, flips, twisted. rewrite equal_parities_odd, even_flips_xor. unfold twists_divisible.
  destruct (odd_inv (edge_permutation _)), (odd_inv (corner_permutation _)); cbn; intuition congruence.
Qed.
Lemma vary_measured s f t c : cube3_sets_valid c ->
  parities (vary s f t c) = xorb s (parities c) /\ flips (vary s f t c) = xorb f (flips c) /\ twisted (vary s f t c) = (twisted c + t) mod 3.
Proof.
  intros [VE VC]. unfold parities, flips, twisted. cbn [vary c3_edges c3_corners]. split; [|split].
  - unfold edge_permutation, corner_permutation.
    rewrite <- !(map_map edge_position (place edgepos_eqb edge_reference)), <- !(map_map c_pos (place vec3_eqb corner_reference)).
    rewrite (on_last_map _ c_pos) by (apply twist_n_pos). rewrite (on_last_map _ edge_position) by (intros [a p o]; destruct f; reflexivity).
    destruct s; [|rewrite xorb_false_l; reflexivity]. pose proof (edge_permutation_perm _ VE) as PE.
    destruct (c3_edges c) as [|a [|b r]] eqn:Ee; [destruct VE; discriminate|destruct VE; discriminate|]. cbn [swap01 map].
    rewrite (odd_inv_swap01 (place edgepos_eqb edge_reference (edge_position b))).
    + destruct (odd_inv (_ :: _)), (odd_inv (map _ (map c_pos _))); reflexivity.
    + pose proof (cyc_nodup _ _ PE) as N. cbn in N. inversion N as [|? ? N1 _]; subst. intros Eab. apply N1. left. exact Eab.
  - rewrite <- (xor_all_perm _ _ _ (swap01_perm s (c3_edges c))) || idtac.
    assert (X : forall l, l <> [] -> xor_all (fun e => negb (e_oriented e)) (on_last (flipped f) l) = xorb f (xor_all (fun e => negb (e_oriented e)) l)).
    { intros l N. destruct (nonempty_last l N) as (l0 & x & ->). rewrite on_last_app, !xor_all_app. unfold xor_all. cbn [fold_right].
      destruct x as [a p o]. destruct f, o; cbn; destruct (fold_right _ false l0); reflexivity. }
    rewrite X. 2:{ intros E. pose proof (swap01_length s (c3_edges c)) as L. rewrite E in L. destruct VE as [L' _]. rewrite L' in L. discriminate L. }
    f_equal. apply xor_all_perm. apply Permutation_sym, swap01_perm.
  - destruct (nonempty_last (c3_corners c)) as (l0 & x & ->); [intros E; rewrite E in VC; destruct VC; discriminate|].
    rewrite on_last_app, !map_app. cbn [map]. rewrite !list_sum_snoc.
    rewrite Nat.add_mod, twist_n_twists, <- Nat.add_mod by lia. rewrite Nat.add_mod_idemp_l by lia. f_equal. lia.
Qed.

Lemma repair_vary c : cube3_sets_valid c -> exists s f t, t < 3 /\ repair c = Done (vary s f t c) /\ invariants (vary s f t c).
Proof.
  intros V. assert (L1 : length (c3_edges c) = 12) by apply V. assert (L2 : length (c3_corners c) = 8) by apply V.
  unfold repair. destruct (fix_swap_spec c V) as (c1 & E1 & V1 & Eq1 & C1 & Same & Diff). rewrite E1. cbn [bind_o].
  assert (S : exists s, c1 = vary s false 0 c).
  { destruct (Bool.bool_dec (parities c) false) as [P|P].
    - exists false. rewrite vary_id. apply Same. apply equal_parities_odd. unfold parities in P.
      destruct (odd_inv (edge_permutation _)), (odd_inv (corner_permutation _)); cbn in P; congruence.
    - destruct Diff as (a & b & r & A & B).
      + intros Q. apply P. apply equal_parities_odd in Q. unfold parities. rewrite Q. apply xorb_nilpotent.
      + exists true. destruct c1 as [es1 cs1]. cbn [c3_edges c3_corners] in *. unfold vary. rewrite A, C1. cbn [swap01]. rewrite !on_last_id by reflexivity. congruence. }
  destruct S as (s & Ec1). exists s.
  assert (E2 : exists f, fix_edge_flip_parity_o (c3_edges c1) = Done (on_last (flipped f) (c3_edges c1)) /\ xor_all (fun e => negb (e_oriented e)) (on_last (flipped f) (c3_edges c1)) = false).
  { assert (L : length (c3_edges c1) = 12) by apply V1.
    destruct (fix_edges_spec (c3_edges c1)) as (es & E & _ & Ev & _); [intros X; rewrite X in L; discriminate|rewrite L; reflexivity|].
    apply even_flips_xor in Ev. rewrite E. unfold fix_edge_flip_parity_o in E. destruct (Nat.eqb _ 1) in E.
    - destruct (nonempty_last (c3_edges c1)) as (l & x & X); [intros X; rewrite X in L; discriminate|]. rewrite X in *. rewrite update_last_app in E. injection E as <-.
      exists true. rewrite on_last_app. split; [reflexivity|exact Ev].
    - injection E as <-. exists false. rewrite on_last_id by reflexivity. split; [reflexivity|exact Ev]. }
  destruct E2 as (f & E2 & F2). exists f. rewrite E2. cbn [bind_o].
  assert (E3 : exists t, fix_corner_multiplicity_o (c3_corners c1) = Done (on_last (twist_n t) (c3_corners c1)) /\ twists_divisible (on_last (twist_n t) (c3_corners c1)) /\ t < 3).
  { assert (L : length (c3_corners c1) = 8) by apply V1.
    destruct (fix_corners_spec (c3_corners c1)) as (cs & E & _ & Td & _); [intros X; rewrite X in L; discriminate|].
    rewrite E. unfold fix_corner_multiplicity_o in E. cbv zeta in E.
    destruct (nonempty_last (c3_corners c1)) as (l & x & X); [intros X; rewrite X in L; discriminate|]. rewrite X in *. rewrite times_twist in E. cbn [bind_o] in E.
    destruct (Nat.eqb _ 0) in E; [|discriminate]. injection E as <-. eexists. rewrite on_last_app. split; [reflexivity|]. split; [exact Td|].
    pose proof (Z.mod_pos_bound (- Z.of_nat (sum (map corner_orientation_index (l ++ [x])))) 3 ltac:(lia)) as B.
    change 3 with (Z.to_nat 3). apply Z2Nat.inj_lt; [apply B|lia|apply B]. }
  destruct E3 as (t & E3 & T3 & B3). exists t. split; [exact B3|]. rewrite E3. cbn [bind_o].
  assert (Q : vary s f t c = mkCube3 (on_last (flipped f) (c3_edges c1)) (on_last (twist_n t) (c3_corners c1))).
  { rewrite Ec1. unfold vary. cbn [c3_edges c3_corners]. rewrite (on_last_id (flipped false)) by reflexivity. rewrite (on_last_id (twist_n 0)) by reflexivity. reflexivity. }
  rewrite Q. split; [reflexivity|]. rewrite <- Q. apply invariants_measured. split; [|split].
  - rewrite (proj1 (vary_measured s f t c V)). rewrite <- (proj1 (vary_measured s false 0 c V)), <- Ec1. apply equal_parities_odd in Eq1. unfold parities. rewrite Eq1. apply xorb_nilpotent.
  - rewrite Q. exact F2.
  - rewrite Q. exact T3.
Qed.

Lemma vary_inv_unique s f t c : cube3_sets_valid c -> invariants c -> invariants (vary s f t c) -> t < 3 -> s = false /\ f = false /\ t = 0.
Proof.
  intros V I J B. apply invariants_measured in I as (I1 & I2 & I3). apply invariants_measured in J as (J1 & J2 & J3).
  destruct (vary_measured s f t c V) as (M1 & M2 & M3). rewrite M1, I1, xorb_false_r in J1. rewrite M2, I2, xorb_false_r in J2.
  rewrite M3, I3 in J3. cbn [Nat.add] in J3. rewrite Nat.mod_small in J3 by exact B. auto.
Qed.

(** The repairs give [c'] exactly when they start from one of its variations. *)
Lemma repair_exactly c c' : cube3_sets_valid c -> cube3_sets_valid c' -> invariants c' ->
  repair c = Done c' <-> exists s f t, t < 3 /\ c = vary s f t c'.
Proof.
  intros V V' I'. assert (L1 : 2 < length (c3_edges c)) by (destruct V as [[-> _] _]; cbn; lia).
  assert (L1' : 2 < length (c3_edges c')) by (destruct V' as [[-> _] _]; cbn; lia). split.
  - intros R. destruct (repair_vary c V) as (s & f & t & B & E & _). rewrite R in E. injection E as E. subst c'.
    exists s, f, ((3 - t) mod 3). split; [apply Nat.mod_upper_bound; lia|]. rewrite vary_vary by exact L1. rewrite !xorb_nilpotent.
    replace (((3 - t) mod 3 + t) mod 3) with 0; [symmetry; apply vary_id|].
    destruct t as [|[|[|t]]]; [reflexivity|reflexivity|reflexivity|lia].
  - intros (s & f & t & B & ->). destruct (repair_vary _ V) as (s' & f' & t' & B' & E & J). rewrite E. f_equal.
    rewrite vary_vary in * by exact L1'.
    destruct (vary_inv_unique _ _ _ c' V' I' J (Nat.mod_upper_bound _ 3 ltac:(lia))) as (-> & -> & ->). apply vary_id.
Qed.

(** The twelve variations of a solvable cube. *)
Definition variations (c : Cube3) : list Cube3 :=
  flat_map (fun s => flat_map (fun f => map (fun t => vary s f t c) [0; 1; 2]) [false; true]) [false; true].
Lemma variations_in c x : In x (variations c) <-> exists s f t, t < 3 /\ x = vary s f t c.
Proof.
  unfold variations. rewrite in_flat_map. split.
  - intros (s & _ & I). rewrite in_flat_map in I. destruct I as (f & _ & I). apply in_map_iff in I as (t & <- & I). exists s, f, t.
    split; [|reflexivity]. cbn in I. lia.
  - intros (s & f & t & B & ->). exists s. split; [destruct s; cbn; auto|]. rewrite in_flat_map. exists f. split; [destruct f; cbn; auto|].
    apply in_map_iff. exists t. split; [reflexivity|]. cbn. lia.
Qed.
Definition measures (c : Cube3) : bool * bool * nat := (parities c, flips c, twisted c).
Lemma variations_nodup c : cube3_sets_valid c -> invariants c -> NoDup (variations c).
Proof.
  intros V I. apply invariants_measured in I as (I1 & I2 & I3). apply (NoDup_map_inv measures).
  assert (M : forall s f t, measures (vary s f t c) = (s, f, t mod 3)).
  { intros s f t. unfold measures. destruct (vary_measured s f t c V) as (-> & -> & ->). rewrite I1, I2, I3, !xorb_false_r. reflexivity. }
  unfold variations. cbn [flat_map map app]. rewrite !M. cbn.
  repeat (constructor; [cbn; intuition discriminate|]). constructor.
Qed.

Lemma choices_of (l : list Cube3) : NoDup l -> (forall c, In c l -> cube3_sets_valid c) ->
  exists chs, NoDup chs /\ map raw chs = l /\ forall ch, In ch chs -> possible ch.
Proof.
  induction l as [|c l IH]; intros N V.
  - exists []. split; [constructor|]. split; [reflexivity|]. intros ch [].
  - inversion N as [|? ? N1 N2]; subst. destruct IH as (chs & A & B & C); [exact N2|intros x I; apply V; right; exact I|].
    destruct (raw_surj c (V c (or_introl eq_refl))) as (ch & P & R). exists (ch :: chs). split; [|split].
    + constructor; [|exact A]. intros I. apply N1. rewrite <- R, <- B. apply in_map, I.
    + cbn [map]. rewrite R, B. reflexivity.
    + intros x [<-|I]; [exact P|apply C, I].
Qed.

Lemma solvable_measured c : (exists al, fold_left cube3_apply al c = cube3_solved) <-> cube3_sets_valid c /\ invariants c.
Proof. rewrite C07_solvable_exactly, cube3_sets_valid_spec. reflexivity. Qed.

(** Every solvable cube is the outcome of exactly 12 of the possible sequences of choices, so
    with a fair generator all solvable cubes are equally likely. *)
Theorem C54_uniform : forall (c : Cube3) (al : list AxisMove), fold_left cube3_apply al c = cube3_solved ->
  exists chs : list Choices, NoDup chs /\ length chs = 12 /\
    forall ch, In ch chs <-> (possible ch /\ cube3_sample (generator ch) = Done c).
Proof.
  intros c al E. assert (S : exists al, fold_left cube3_apply al c = cube3_solved) by eauto. apply solvable_measured in S as [V I].
  destruct (choices_of (variations c) (variations_nodup c V I)) as (chs & N & R & P).
  { intros x X. apply variations_in in X as (s & f & t & _ & ->). apply vary_valid, V. }
  exists chs. split; [exact N|]. split; [rewrite <- (map_length raw), R; reflexivity|]. intros ch. rewrite sample_repair. split.
  - intros X. split; [apply P, X|]. apply (repair_exactly (raw ch) c (raw_valid ch) V I). apply variations_in. rewrite <- R. apply in_map, X.
  - intros [Pc X]. apply (repair_exactly (raw ch) c (raw_valid ch) V I) in X. apply variations_in in X. rewrite <- R in X.
    apply in_map_iff in X as (ch' & X & J). rewrite (raw_inj ch ch' Pc (P ch' J) (eq_sym X)). exact J.
Qed.

(** ** How many there are *)

Fixpoint all_shuffles (n : nat) : list (list nat) :=
  match n with
  | 0 => [[]]
  | S n => flat_map (fun js => map (fun j => js ++ [j]) (seq 0 (S n))) (all_shuffles n)
  end.
Fixpoint all_lists {A} (xs : list A) (n : nat) : list (list A) :=
  match n with 0 => [[]] | S n => flat_map (fun l => map (fun x => x :: l) xs) (all_lists xs n) end.
Lemma nodup_flat_map {A B} (f : A -> list B) l : NoDup l -> (forall a, In a l -> NoDup (f a)) ->
  (forall a b x, In a l -> In b l -> In x (f a) -> In x (f b) -> a = b) -> NoDup (flat_map f l).
Proof.
  induction l as [|a l IH]; intros N F D; [constructor|]. inversion N as [|? ? N1 N2]; subst. cbn [flat_map].
  assert (G : NoDup (flat_map f l)).
  { apply IH; [exact N2|intros; apply F; right; assumption|]. intros x y z X Y. apply D; right; assumption. }
  assert (H : forall l1 l2 : list B, NoDup l1 -> NoDup l2 -> (forall x, In x l1 -> ~ In x l2) -> NoDup (l1 ++ l2)).
  { clear. induction l1 as [|x l1 IH]; intros l2 A C D; [exact C|]. inversion A; subst. cbn. constructor.
    - intros I. apply in_app_or in I as [I|I]; [contradiction|]. exact (D x (or_introl eq_refl) I).
    - apply IH; auto. intros y Y. apply D. right. exact Y. }
  apply H; [apply F; left; reflexivity|exact G|]. intros x X Y. apply in_flat_map in Y as (b & Ib & Y).
  assert (a = b) by (apply (D a b x); auto; [left; reflexivity|right; exact Ib]). subst. contradiction.
Qed.
Lemma flat_map_length {A B} (f : A -> list B) k l : (forall a, In a l -> length (f a) = k) -> length (flat_map f l) = length l * k.
Proof. intros H. induction l as [|a l IH]; [reflexivity|]. cbn [flat_map length]. rewrite app_length, H, IH by (try (left; reflexivity); intros; apply H; right; assumption). lia. Qed.

Lemma all_shuffles_in n : forall js, In js (all_shuffles n) <-> shuffle_choices n js.
Proof.
  induction n as [|n IH]; intros js; cbn [all_shuffles].
  - split; [intros [<-|[]]|].
    + split; [reflexivity|]. intros [|i] j H; discriminate H.
    + intros [L _]. destruct js; [left; reflexivity|discriminate].
  - rewrite in_flat_map. split.
    + intros (js' & I & J). apply in_map_iff in J as (j & <- & J). apply IH in I as [L B]. apply in_seq in J. split.
      * rewrite app_length. cbn. lia.
      * intros i x X. destruct (Nat.lt_ge_cases i (length js')) as [H|H].
        -- rewrite nth_error_app1 in X by exact H. apply B, X.
        -- rewrite nth_error_app2 in X by exact H. destruct (i - length js') as [|k] eqn:K; [|destruct k; discriminate X]. injection X as <-. lia.
    + intros [L B]. destruct (nonempty_last js) as (js' & j & ->); [intros ->; discriminate|]. rewrite app_length in L. cbn in L. exists js'. split.
      * apply IH. split; [lia|]. intros i x X. apply B. rewrite nth_error_app1; [exact X|]. apply nth_error_Some_length in X. exact X.
      * apply in_map_iff. exists j. split; [reflexivity|]. apply in_seq. specialize (B (length js') j). rewrite nth_error_app2, Nat.sub_diag in B by lia.
        specialize (B eq_refl). lia.
Qed.
Lemma all_shuffles_nodup n : NoDup (all_shuffles n).
Proof.
  induction n as [|n IH]; [repeat constructor; intros []|]. cbn [all_shuffles]. apply nodup_flat_map; [exact IH| |].
  - intros js _. apply FinFun.Injective_map_NoDup; [|apply seq_NoDup]. intros a b E. apply app_inj_tail in E. tauto.
  - intros a b x _ _ A B. apply in_map_iff in A as (i & <- & _). apply in_map_iff in B as (j & B & _). apply app_inj_tail in B. symmetry. tauto.
Qed.
Lemma all_shuffles_length n : length (all_shuffles (S n)) = length (all_shuffles n) * S n.
Proof. cbn [all_shuffles]. apply flat_map_length. intros js _. rewrite map_length, seq_length. reflexivity. Qed.
Lemma all_lists_in {A} (xs : list A) n : (forall x, In x xs) -> forall l, In l (all_lists xs n) <-> length l = n.
Proof.
  intros H. induction n as [|n IH]; intros l; cbn [all_lists].
  - split; [intros [<-|[]]; reflexivity|]. intros L. destruct l; [left; reflexivity|discriminate].
  - rewrite in_flat_map. split.
    + intros (l' & I & J). apply in_map_iff in J as (x & <- & _). apply IH in I. cbn. lia.
    + intros L. destruct l as [|x l]; [discriminate|]. exists l. split; [apply IH; cbn in L; lia|]. apply in_map_iff. exists x. auto.
Qed.
Lemma all_lists_nodup {A} (xs : list A) n : NoDup xs -> NoDup (all_lists xs n).
Proof.
  intros H. induction n as [|n IH]; [repeat constructor; intros []|]. cbn [all_lists]. apply nodup_flat_map; [exact IH| |].
  - intros l _. apply FinFun.Injective_map_NoDup; [|exact H]. intros a b E. injection E as E. exact E.
  - intros a b x _ _ X Y. apply in_map_iff in X as (i & <- & _). apply in_map_iff in Y as (j & Y & _). injection Y as _ Y. symmetry. exact Y.
Qed.
Lemma all_lists_length {A} (xs : list A) n : length (all_lists xs (S n)) = length (all_lists xs n) * length xs.
Proof. cbn [all_lists]. apply flat_map_length. intros l _. apply map_length. Qed.

Definition all_choices : list Choices :=
  flat_map (fun es => flat_map (fun cs => flat_map (fun fs => map (fun axs => mkChoices es cs fs axs)
    (all_lists [AX; AY; AZ] 8)) (all_lists [false; true] 12)) (all_shuffles 8)) (all_shuffles 12).
#[local] Opaque all_shuffles all_lists.
Lemma all_choices_in ch : In ch all_choices <-> possible ch.
Proof.
  assert (FB : forall b, In b [false; true]) by (intros []; cbn; auto). assert (FA : forall a, In a [AX; AY; AZ]) by (intros []; cbn; auto).
  unfold all_choices. rewrite in_flat_map. split.
  - intros (es & E1 & I). apply in_flat_map in I as (cs & E2 & I). apply in_flat_map in I as (fs & E3 & I). apply in_map_iff in I as (axs & <- & E4).
    apply all_shuffles_in in E1, E2. apply (all_lists_in _ _ FB) in E3. apply (all_lists_in _ _ FA) in E4. repeat split; try apply E1; try apply E2; assumption.
  - destruct ch as [es cs fs axs]. intros (E1 & E2 & E3 & E4). cbn [ch_edges ch_corners ch_flips ch_axes] in *. exists es. split; [apply all_shuffles_in, E1|].
    apply in_flat_map. exists cs. split; [apply all_shuffles_in, E2|]. apply in_flat_map. exists fs. split; [apply (all_lists_in _ _ FB), E3|].
    apply in_map_iff. exists axs. split; [reflexivity|apply (all_lists_in _ _ FA), E4].
Qed.
Lemma all_choices_nodup : NoDup all_choices.
Proof.
  assert (NA : NoDup [AX; AY; AZ]) by (repeat constructor; cbn; intuition discriminate). assert (NB : NoDup [false; true]) by (repeat constructor; cbn; intuition discriminate).
  unfold all_choices. apply nodup_flat_map; [apply all_shuffles_nodup| |].
  2:{ intros a b x _ _ X Y. apply in_flat_map in X as (? & _ & X). apply in_flat_map in X as (? & _ & X). apply in_map_iff in X as (? & <- & _).
      apply in_flat_map in Y as (? & _ & Y). apply in_flat_map in Y as (? & _ & Y). apply in_map_iff in Y as (? & Y & _). congruence. }
  intros es _. apply nodup_flat_map; [apply all_shuffles_nodup| |].
  2:{ intros a b x _ _ X Y. apply in_flat_map in X as (? & _ & X). apply in_map_iff in X as (? & <- & _).
      apply in_flat_map in Y as (? & _ & Y). apply in_map_iff in Y as (? & Y & _). congruence. }
  intros cs _. apply nodup_flat_map; [apply all_lists_nodup, NB| |].
  2:{ intros a b x _ _ X Y. apply in_map_iff in X as (? & <- & _). apply in_map_iff in Y as (? & Y & _). congruence. }
  intros fs _. apply FinFun.Injective_map_NoDup; [|apply all_lists_nodup, NA]. intros a b E. congruence.
Qed.
Lemma all_choices_count : N.of_nat (length all_choices) = (479001600 * 40320 * 4096 * 6561)%N.
Proof.
  unfold all_choices.
  rewrite (flat_map_length _ (length (all_shuffles 8) * (length (all_lists [false; true] 12) * length (all_lists [AX; AY; AZ] 8)))).
  2:{ intros es _. apply flat_map_length. intros cs _. apply flat_map_length. intros fs _. apply map_length. }
  rewrite !Nat2N.inj_mul.
  assert (S0 : length (all_shuffles 0) = 1) by (vm_compute; reflexivity). assert (LA : length (all_lists [AX; AY; AZ] 0) = 1) by (vm_compute; reflexivity).
  assert (LB : length (all_lists [false; true] 0) = 1) by (vm_compute; reflexivity).
  rewrite !all_shuffles_length, !all_lists_length, S0, LA, LB. rewrite !Nat2N.inj_mul. vm_compute. reflexivity.
Qed.

(** The number of possible sequences of choices is 12! 8! 2^12 3^8, and the number of solvable
    cubes a twelfth of it: the 43,252,003,274,489,856,000 of the documentation
    (cube3/mus/mod.rs:11). *)
Theorem C54_number_of_choices : exists chs : list Choices, NoDup chs /\ (forall ch, In ch chs <-> possible ch) /\
  N.of_nat (length chs) = (12 * 43252003274489856000)%N.
Proof. exists all_choices. split; [exact all_choices_nodup|]. split; [exact all_choices_in|]. rewrite all_choices_count. reflexivity. Qed.

Definition solvable_b (c : Cube3) : bool := negb (parities c) && negb (flips c) && (twisted c =? 0).
Lemma solvable_b_spec c : solvable_b c = true <-> invariants c.
Proof.
  rewrite invariants_measured. unfold solvable_b. rewrite !andb_true_iff, !negb_true_iff, Nat.eqb_eq. tauto.
Qed.
Theorem C54_number_of_cubes : exists cubes : list Cube3, NoDup cubes /\
  (forall c, In c cubes <-> exists al, fold_left cube3_apply al c = cube3_solved) /\
  N.of_nat (length cubes) = 43252003274489856000%N.
Proof.
  set (V := map raw all_choices).
  assert (NV : NoDup V).
  { unfold V.
    assert (H : forall l, NoDup l -> (forall ch, In ch l -> possible ch) -> NoDup (map raw l)).
    { clear. induction l as [|a l IH]; intros N P; [constructor|]. inversion N as [|? ? N1 N2]; subst. cbn. constructor; [|apply IH; [exact N2|intros; apply P; right; assumption]].
      intros I. apply in_map_iff in I as (b & E & I). apply raw_inj in E; [subst; contradiction|apply P; right; exact I|apply P; left; reflexivity]. }
    apply H; [exact all_choices_nodup|]. intros ch. apply all_choices_in. }
  assert (IV : forall c, In c V <-> cube3_sets_valid c).
  { intros c. unfold V. rewrite in_map_iff. split; [intros (ch & <- & _); apply raw_valid|]. intros W. destruct (raw_surj c W) as (ch & P & R).
    exists ch. split; [exact R|apply all_choices_in, P]. }
  pose proof all_choices_count as C. rewrite <- (map_length raw) in C. fold V in C. clearbody V.
  exists (filter solvable_b V). split; [apply NoDup_filter, NV|].
  assert (IS : forall c, In c (filter solvable_b V) <-> cube3_sets_valid c /\ invariants c).
  { intros c. rewrite filter_In, IV, solvable_b_spec. reflexivity. }
  split; [intros c; rewrite solvable_measured; apply IS|].
  assert (P : Permutation (flat_map variations (filter solvable_b V)) V).
  { apply NoDup_Permutation; [|exact NV|].
    - apply nodup_flat_map; [apply NoDup_filter, NV|intros a A; apply IS in A as [A1 A2]; apply variations_nodup; assumption|].
      intros a b x A B X Y. apply IS in A as [A1 A2]. apply IS in B as [B1 B2]. apply variations_in in X, Y.
      assert (W : cube3_sets_valid x) by (destruct X as (s & f & t & _ & ->); apply vary_valid, A1).
      apply (repair_exactly x a W A1 A2) in X. apply (repair_exactly x b W B1 B2) in Y. congruence.
    - intros x. rewrite in_flat_map, IV. split.
      + intros (a & A & X). apply IS in A as [A1 _]. apply variations_in in X as (s & f & t & _ & ->). apply vary_valid, A1.
      + intros W. destruct (repair_vary x W) as (s & f & t & B & E & J). exists (vary s f t x). split; [apply IS; split; [apply vary_valid, W|exact J]|].
        apply variations_in. apply (repair_exactly x (vary s f t x) W (vary_valid s f t x W) J). exact E. }
  apply Permutation_length in P. rewrite (flat_map_length _ 12) in P by reflexivity.
  rewrite <- P, Nat2N.inj_mul in C. clear -C. change (N.of_nat 12) with 12%N in C. lia.
Qed.

(** Two of the twelve sequences of choices that give the solved cube: no change at all, and
    a swap of the first two edges, a flip and a twist that are all repaired. *)
Example C54_example :
  let a := mkChoices (seq 0 12) (seq 0 8) (repeat true 12) (repeat AY 8) in
  let b := mkChoices (0 :: 0 :: seq 2 10) (seq 0 8) (repeat true 11 ++ [false]) (repeat AY 7 ++ [AX]) in
  possible a /\ possible b /\ a <> b /\ cube3_sample (generator a) = Done cube3_solved /\ cube3_sample (generator b) = Done cube3_solved.
Proof.
  assert (B : forall js, forallb (fun x => snd x <=? fst x) (combine (seq 0 (length js)) js) = true -> forall i j, nth_error js i = Some j -> j <= i).
  { intros js H i j E. rewrite forallb_forall in H. pose proof (nth_error_Some_length _ _ _ E) as L. apply Nat.leb_le. apply (H (i, j)).
    apply (nth_error_In _ i). rewrite <- (Nat.add_0_l i) at 2. clear H. revert E L. generalize 0 as k. revert i.
    induction js as [|x js IH]; intros i k E L; [destruct i; discriminate|]. destruct i as [|i]; cbn in *.
    - injection E as ->. f_equal. f_equal. lia.
    - rewrite <- Nat.add_succ_comm. apply IH; [exact E|lia]. }
  cbv zeta. split; [|split; [|split; [discriminate|split; vm_compute; reflexivity]]].
  - split; [split; [reflexivity|apply B; reflexivity]|]. split; [split; [reflexivity|apply B; reflexivity]|]. split; reflexivity.
  - split; [split; [reflexivity|apply B; reflexivity]|]. split; [split; [reflexivity|apply B; reflexivity]|]. split; reflexivity.
Qed.

(** The random 2x2x2: each of its outcomes (C09_outcomes_partial) comes from exactly one
    shuffle. *)
Theorem C09_each_once_partial : forall c : Cube2, cube_well_formed Size2 c -> (forall p, In p (c2_corners c) -> twists p = 0) ->
  exists js, shuffle_choices 8 js /\ cube2_sample (fun i => nth i js 0) = Done c /\
    forall js', shuffle_choices 8 js' -> cube2_sample (fun i => nth i js' 0) = Done c -> js' = js.
Proof.
  intros [cs] W O. apply (set_valid_spec _ corner_desc_ok) in W. cbn [c2_corners] in *.
  assert (A : map plain_corner cs = cs).
  { rewrite <- (map_id cs) at 2. apply map_ext_in. intros p Hp. specialize (O p Hp).
    destruct p as [[[] [] []] []]; (reflexivity || discriminate O). }
  destruct (shuffle_choice corner_solved cs) as (js & J & R); [discriminate| |].
  { pose proof (set_valid_perm _ corner_desc_ok cs W) as Pm. apply Permutation_sym in Pm.
    apply (Permutation_map corner_oriented) in Pm. rewrite map_map in Pm.
    change (fun x => corner_oriented (pd_position corner_desc x)) with plain_corner in Pm. rewrite A in Pm. exact Pm. }
  exists js. split; [exact J|]. split.
  - destruct (sample2_spec (fun i => nth i js 0)) as (cs' & E & _ & _ & E'). rewrite E, E', R. reflexivity.
  - intros js' J' E. destruct (sample2_spec (fun i => nth i js' 0)) as (cs' & E1 & _ & _ & E2). rewrite E1 in E. injection E as ->.
    apply (shuffle_inj corner_solved js' js corner_solved_nodup J' J). rewrite <- E2, R. reflexivity.
Qed.
Print Assumptions C54_uniform.
Print Assumptions C54_number_of_choices.
Print Assumptions C54_number_of_cubes.
Print Assumptions C09_each_once_partial.

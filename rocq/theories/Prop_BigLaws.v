(** C72-C74: which states of the 4x4x4 to 7x7x7 can be reached and solved by wide moves. *)

From Coq Require Import List Bool Arith NArith ZArith Lia Permutation.
From Verif Require Import Model_Base Model_Space Model_Moves Model_Pieces Model_PieceSet Model_Cubes
  Model_Visual Spec_Moves Spec_Geometry Spec_Stickers Spec_Sets Spec_Invariants Spec_BigCube Spec_BigLaws
  Proof_Moves Proof_Sets Proof_Stickers Proof_Parity Proof_Invariants Proof_Random Proof_BigSolve Proof_BigLaws Proof_BigLooks Proof_BigStickers Prop_BigCube.
Import ListNotations.
Open Scope nat_scope.

(* ------------------------------------------------------------------ *)
(** * The smaller cubes inside the 7x7x7 *)

Definition small4 (c : Cube7) : Cube4 := mkCube4 (c7_corners c) (c7_wings_1 c) (c7_center_corners_1 c).
Definition small5 (c : Cube7) : Cube5 := mkCube5 (c7_corners c) (c7_edges c) (c7_center_corners_1 c) (c7_center_edges_1 c).
Definition small6 (c : Cube7) : Cube6 :=
  mkCube6 (c7_corners c) (c7_wings_1 c) (c7_wings_2 c) (c7_center_corners_1 c) (c7_center_corners_2 c) (c7_center_wings c).

(** Deeper moves than the cube has layers are cut off. *)
Definition cut (w : WideAxisMove) : WideAxisMove := mkWide (N.min 1 (w_depth w)) (w_move w).
Lemma cut_leb d : (1 <=? N.min 1 d)%N = (1 <=? d)%N.
Proof. destruct (N.leb_spec 1 (N.min 1 d)), (N.leb_spec 1 d); lia. Qed.
Lemma cut_wings s w : wings_apply 1 2 s w = wings_apply 1 1 s (cut w).
Proof. unfold wings_apply, depth_set_apply, wing_in_wide. cbn [cut w_move w_depth]. rewrite cut_leb. reflexivity. Qed.
Lemma cut_ccs s w : ccs_apply 1 2 s w = ccs_apply 1 1 s (cut w).
Proof. unfold ccs_apply, depth_set_apply, cc_in_wide. cbn [cut w_move w_depth]. rewrite cut_leb. reflexivity. Qed.
Lemma cut_ces s w : ces_apply 1 2 s w = ces_apply 1 1 s (cut w).
Proof. unfold ces_apply, depth_set_apply, ce_in_wide. cbn [cut w_move w_depth]. reflexivity. Qed.

Lemma small4_turned al : forall c, small4 (turned Size7 c al) = turned Size4 (small4 c) (map cut al).
Proof.
  induction al as [|w al IH]; intros c; [reflexivity|].
  transitivity (turned Size4 (small4 (cube7_apply_wide c w)) (map cut al)); [exact (IH _)|].
  assert (E : small4 (cube7_apply_wide c w) = cube4_apply_wide (small4 c) (cut w)).
  { unfold small4, cube7_apply_wide, cube4_apply_wide.
    cbn [c7_corners c7_wings_1 c7_center_corners_1 c4_corners c4_wings c4_centers]. rewrite cut_wings, cut_ccs. reflexivity. }
  rewrite E. reflexivity.
Qed.
Lemma small5_turned al : forall c, small5 (turned Size7 c al) = turned Size5 (small5 c) (map cut al).
Proof.
  induction al as [|w al IH]; intros c; [reflexivity|].
  transitivity (turned Size5 (small5 (cube7_apply_wide c w)) (map cut al)); [exact (IH _)|].
  assert (E : small5 (cube7_apply_wide c w) = cube5_apply_wide (small5 c) (cut w)).
  { unfold small5, cube7_apply_wide, cube5_apply_wide.
    cbn [c7_corners c7_edges c7_center_edges_1 c7_center_corners_1 c5_corners c5_edges c5_center_corners c5_center_edges].
    rewrite cut_ccs, cut_ces. reflexivity. }
  rewrite E. reflexivity.
Qed.
Lemma small6_turned al : forall c, small6 (turned Size7 c al) = turned Size6 (small6 c) al.
Proof. induction al as [|w al IH]; intros c; [reflexivity|]. exact (IH (cube7_apply_wide c w)). Qed.

Lemma cut_fits al : Forall (fits Size4) (map cut al).
Proof. rewrite Forall_map. apply Forall_forall. intros w _. unfold fits, cut. cbn [w_depth]. change (cube_size_N Size4 / 2 - 1)%N with 1%N. lia. Qed.
Lemma cut_shallow al : Forall (fits Size4) al -> map cut al = al.
Proof.
  intros F. induction F as [|w al H F IH]; [reflexivity|]. cbn [map]. rewrite IH. f_equal. unfold fits in H.
  change (cube_size_N Size4 / 2 - 1)%N with 1%N in H. destruct w as [d m]. unfold cut. cbn [w_depth w_move] in *. f_equal. lia.
Qed.
Lemma shallow_deep al : Forall (fits Size4) al -> Forall deep al.
Proof.
  intros F. eapply Forall_impl; [|exact F]. intros w H. unfold fits in H. change (cube_size_N Size4 / 2 - 1)%N with 1%N in H.
  unfold deep. lia.
Qed.

(** The laws of the 7x7x7 are the laws of the smaller ones. *)
Lemma laws7_small4 c : laws7 c -> laws4 (small4 c).
Proof.
  intros (W & (_ & _ & T) & P & _). cbn in W. destruct W as (C & E & W1 & W2 & C1 & C2 & CW & E1 & E2).
  split; [|split]; [cbn; auto|exact T|exact P].
Qed.
Lemma laws7_small5 c : laws7 c -> laws5 (small5 c).
Proof.
  intros (W & I & P & _ & _ & F & _). cbn in W. destruct W as (C & E & W1 & W2 & C1 & C2 & CW & E1 & E2).
  split; [cbn; auto|]. split; [exact I|]. split; [exact P|exact F].
Qed.
Lemma laws7_small6 c : laws7 c -> laws6 (small6 c).
Proof.
  intros (W & (_ & _ & T) & P1 & P2 & CWL & _). cbn in W. destruct W as (C & E & W1 & W2 & C1 & C2 & CW & E1 & E2).
  split; [cbn; auto 10|]. split; [exact T|]. split; [exact P1|]. split; [exact P2|exact CWL].
Qed.

Lemma laws7_turned al c : Forall deep al -> laws7 c -> laws7 (turned Size7 c al).
Proof. rewrite !laws7_b. intros F. apply laws7b_turned, F. Qed.
Lemma laws7_solved : laws7 cube7_solved.
Proof. apply laws7_b, laws7b_solved. Qed.

(** ... and a law-abiding smaller cube is inside a law-abiding 7x7x7: the other pieces are
    taken from the solved cube or from the solved cube after one move. *)
Definition filler (odd : bool) : Cube7 := if odd then cube7_apply_wide cube7_solved (mkWide 0 (mkMove fR Single)) else cube7_solved.
Lemma filler_laws b : laws7 (filler b).
Proof.
  destruct b; [|exact laws7_solved]. apply (laws7_turned [mkWide 0 (mkMove fR Single)] cube7_solved).
  - constructor; [unfold deep; cbn [w_depth]; lia|constructor].
  - exact laws7_solved.
Qed.
Lemma filler_corners b : odd_inv (corner_permutation (c7_corners (filler b))) = b.
Proof. destruct b; vm_compute; reflexivity. Qed.
Lemma filler_even b : even_permutation (corner_permutation (c7_corners (filler b))) = negb b.
Proof. rewrite even_permutation_odd, filler_corners. reflexivity. Qed.
Lemma filler_wings b : wing_permutation (c7_wings_1 (filler b)) = wing_permutation (c7_wings_1 (filler b)) /\
  even_permutation (wing_permutation (c7_wings_1 (filler b))) = true /\ even_permutation (wing_permutation (c7_wings_2 (filler b))) = true.
Proof. split; [reflexivity|]. destruct b; vm_compute; auto. Qed.

Definition odd_list (cs : list Corner) : bool := odd_inv (corner_permutation cs).

(** Corners with the given edges and centre edges of the filler satisfy the 3x3x3 laws. *)
Lemma filler_invariants cs : twists_divisible cs -> invariants (mkCube3 (c7_edges (filler (odd_list cs))) cs).
Proof.
  intros T. destruct (filler_laws (odd_list cs)) as (_ & (P & F & _) & _). split; [|split; [exact F|exact T]].
  apply equal_parities_odd. cbn [c3_edges c3_corners]. apply equal_parities_odd in P. cbn [c3_edges c3_corners] in P.
  rewrite P. apply filler_corners.
Qed.
Lemma filler_cw cs w1 w2 : even_permutation (wing_permutation w1) = even_permutation (wing_permutation w2) ->
  cw_parity_law cs w1 w2 (c7_center_wings (filler (odd_list cs))).
Proof.
  intros E. destruct (filler_laws (odd_list cs)) as (_ & _ & _ & _ & (H & P) & _). split; [exact H|].
  intros h. rewrite (P h). destruct (filler_wings (odd_list cs)) as (_ & -> & ->). rewrite E, filler_even.
  unfold odd_list. rewrite <- even_permutation_odd, !eqb_reflx. reflexivity.
Qed.

Lemma laws4_big c : laws4 c -> exists d, laws7 d /\ small4 d = c.
Proof.
  intros ((C & W & Z) & T & P). set (f := filler (odd_list (c4_corners c))).
  exists (mkCube7 (c4_corners c) (c7_edges f) (c4_wings c) (c4_wings c) (c4_centers c) (c4_centers c) (c7_center_wings f)
            (c7_center_edges_1 f) (c7_center_edges_2 f)).
  split; [|destruct c; reflexivity].
  destruct (filler_laws (odd_list (c4_corners c))) as (W7 & _ & _ & _ & _ & F1 & F2). fold f in W7, F1, F2.
  cbn in W7. destruct W7 as (_ & E & _ & _ & _ & _ & CW & E1 & E2).
  split; [cbn; auto 12|]. split; [apply filler_invariants, T|]. split; [exact P|]. split; [exact P|].
  split; [apply filler_cw; reflexivity|]. split; assumption.
Qed.
Lemma laws5_big c : laws5 c -> exists d, laws7 d /\ small5 d = c.
Proof.
  intros ((C & E & Z & CE) & I & P & F). set (f := filler (odd_list (c5_corners c))).
  exists (mkCube7 (c5_corners c) (c5_edges c) wing_solved wing_solved (c5_center_corners c) (c5_center_corners c) (c7_center_wings f)
            (c5_center_edges c) (c5_center_edges c)).
  split; [|destruct c; reflexivity].
  destruct (filler_laws (odd_list (c5_corners c))) as (W7 & _). fold f in W7.
  cbn in W7. destruct W7 as (_ & _ & _ & _ & _ & _ & CW & _).
  pose proof (cube_well_formed_solved Size7) as WS. cbn in WS. destruct WS as (_ & _ & WW & _).
  split; [cbn; auto 12|]. split; [exact I|]. split; [exact P|]. split; [exact P|].
  split; [apply filler_cw; reflexivity|]. split; assumption.
Qed.
Lemma laws6_big c : laws6 c -> exists d, laws7 d /\ small6 d = c.
Proof.
  intros ((C & W1 & W2 & Z1 & Z2 & CW) & T & P1 & P2 & L). set (f := filler (odd_list (c6_corners c))).
  exists (mkCube7 (c6_corners c) (c7_edges f) (c6_wings_1 c) (c6_wings_2 c) (c6_center_corners_1 c) (c6_center_corners_2 c)
            (c6_center_wings c) (c7_center_edges_1 f) (c7_center_edges_2 f)).
  split; [|destruct c; reflexivity].
  destruct (filler_laws (odd_list (c6_corners c))) as (W7 & _ & _ & _ & _ & F1 & F2). fold f in W7, F1, F2.
  cbn in W7. destruct W7 as (_ & E & _ & _ & _ & _ & _ & E1 & E2).
  split; [cbn; auto 12|]. split; [apply filler_invariants, T|]. split; [exact P1|]. split; [exact P2|].
  split; [exact L|]. split; assumption.
Qed.

(* ------------------------------------------------------------------ *)
(** * Reachable and solvable are the same *)

Lemma turned_undo n c al : turned n (turned n c al) (undo al) = c.
Proof.
  revert c. induction al as [|w al IH]; intros c; [reflexivity|]. unfold undo. cbn [map rev]. rewrite turned_app. fold (undo al).
  change (turned n c (w :: al)) with (turned n (cube_apply_wide n c w) al). rewrite IH.
  change (cube_apply_wide n (cube_apply_wide n c w) (wide_inverse w) = c). apply wa_inverse, cube_apply_wide_ok.
Qed.
Lemma fits_undo n al : Forall (fits n) al -> Forall (fits n) (undo al).
Proof.
  intros F. unfold undo. apply Forall_rev. rewrite Forall_map. eapply Forall_impl; [|exact F]. intros [d m] H. exact H.
Qed.
Lemma solvable_reachable n k c : solvable_within n k c -> reachable n c.
Proof.
  intros (al & F & _ & E). exists (undo al). split; [apply fits_undo, F|]. rewrite <- E. apply turned_undo.
Qed.

Lemma deep_fits al : Forall deep al <-> Forall (fits Size7) al.
Proof. split; intros F; exact F. Qed.

(* ------------------------------------------------------------------ *)
(** * C72: the 4x4x4 and the 6x6x6 *)

(** The number of moves that is always enough. *)
Definition enough : N := 5423%N.

Lemma enough_moves (al : list WideAxisMove) : length al <= 139 + 4 + 880 * 6 -> (N.of_nat (length al) <= enough)%N.
Proof. intros H. unfold enough. lia. Qed.

Theorem C72_4x4x4_reachable : forall c : Cube4, reachable Size4 c <-> laws4 c.
Proof.
  intros c. split.
  - intros (al & F & <-). pose proof (small4_turned al cube7_solved) as E. rewrite (cut_shallow al F) in E.
    change (cube_solved Size4) with (small4 cube7_solved). rewrite <- E. apply laws7_small4, laws7_turned; [apply shallow_deep, F|].
    exact laws7_solved.
  - intros L. destruct (laws4_big c L) as (d & Ld & <-). apply laws7_b in Ld. destruct (solve_laws7b d Ld) as (al & F & Le & E).
    apply (solvable_reachable Size4 enough). exists (map cut al). split; [apply cut_fits|]. split; [rewrite map_length; apply enough_moves, Le|].
    rewrite <- small4_turned, E. reflexivity.
Qed.
Theorem C72_4x4x4_solvable : forall c : Cube4, solvable_within Size4 enough c <-> laws4 c.
Proof.
  intros c. split.
  - intros S. apply C72_4x4x4_reachable. exact (solvable_reachable Size4 enough c S).
  - intros L. destruct (laws4_big c L) as (d & Ld & <-). apply laws7_b in Ld. destruct (solve_laws7b d Ld) as (al & F & Le & E).
    exists (map cut al). split; [apply cut_fits|]. split; [rewrite map_length; apply enough_moves, Le|].
    rewrite <- small4_turned, E. reflexivity.
Qed.
Theorem C72_6x6x6_solvable : forall c : Cube6, solvable_within Size6 enough c <-> laws6 c.
Proof.
  intros c. split.
  - intros S. destruct (solvable_reachable Size6 enough c S) as (al & F & <-). pose proof (small6_turned al cube7_solved) as E.
    change (cube_solved Size6) with (small6 cube7_solved). rewrite <- E. apply laws7_small6, laws7_turned; [exact F|exact laws7_solved].
  - intros L. destruct (laws6_big c L) as (d & Ld & <-). apply laws7_b in Ld. destruct (solve_laws7b d Ld) as (al & F & Le & E).
    exists al. split; [exact F|]. split; [apply enough_moves, Le|]. rewrite <- small6_turned, E. reflexivity.
Qed.
Theorem C72_6x6x6_reachable : forall c : Cube6, reachable Size6 c <-> laws6 c.
Proof.
  intros c. split.
  - intros (al & F & <-). pose proof (small6_turned al cube7_solved) as E.
    change (cube_solved Size6) with (small6 cube7_solved). rewrite <- E. apply laws7_small6, laws7_turned; [exact F|exact laws7_solved].
  - intros L. apply C72_6x6x6_solvable in L. exact (solvable_reachable Size6 enough c L).
Qed.

(* ------------------------------------------------------------------ *)
(** * C74: the 5x5x5 and the 7x7x7, as this code turns them *)

Theorem C74_7x7x7_solvable_partial : forall c : Cube7, solvable_within Size7 enough c <-> laws7 c.
Proof.
  intros c. split.
  - intros S. destruct (solvable_reachable Size7 enough c S) as (al & F & <-). apply laws7_turned; [exact F|exact laws7_solved].
  - intros L. apply laws7_b in L. destruct (solve_laws7b c L) as (al & F & Le & E).
    exists al. split; [exact F|]. split; [apply enough_moves, Le|exact E].
Qed.
Theorem C74_7x7x7_reachable_partial : forall c : Cube7, reachable Size7 c <-> laws7 c.
Proof.
  intros c. split.
  - intros (al & F & <-). apply laws7_turned; [exact F|exact laws7_solved].
  - intros L. apply C74_7x7x7_solvable_partial in L. exact (solvable_reachable Size7 enough c L).
Qed.
Theorem C74_5x5x5_reachable_partial : forall c : Cube5, reachable Size5 c <-> laws5 c.
Proof.
  intros c. split.
  - intros (al & F & <-). pose proof (small5_turned al cube7_solved) as E. rewrite (cut_shallow al F) in E.
    change (cube_solved Size5) with (small5 cube7_solved). rewrite <- E. apply laws7_small5, laws7_turned; [apply shallow_deep, F|].
    exact laws7_solved.
  - intros L. destruct (laws5_big c L) as (d & Ld & <-). apply laws7_b in Ld. destruct (solve_laws7b d Ld) as (al & F & Le & E).
    apply (solvable_reachable Size5 enough). exists (map cut al). split; [apply cut_fits|]. split; [rewrite map_length; apply enough_moves, Le|].
    rewrite <- small5_turned, E. reflexivity.
Qed.
Theorem C74_5x5x5_solvable_partial : forall c : Cube5, solvable_within Size5 enough c <-> laws5 c.
Proof.
  intros c. split.
  - intros S. apply C74_5x5x5_reachable_partial. exact (solvable_reachable Size5 enough c S).
  - intros L. destruct (laws5_big c L) as (d & Ld & <-). apply laws7_b in Ld. destruct (solve_laws7b d Ld) as (al & F & Le & E).
    exists (map cut al). split; [apply cut_fits|]. split; [rewrite map_length; apply enough_moves, Le|].
    rewrite <- small5_turned, E. reflexivity.
Qed.

(* ------------------------------------------------------------------ *)
(** * C73: turning until [is_solved] *)

(** Exchange of the pieces with index [i] and [i + k + 1].  On the solved cube the centre
    corners 0 and 2 are on one face, and so are the centre wings 0 and 6 (of one hand) and 24
    and 30 (of the other). *)
Definition swap_at {A} (i k : nat) (l : list A) : list A :=
  match skipn i l with
  | a :: r => match skipn k r with b :: r' => firstn i l ++ b :: firstn k r ++ a :: r' | [] => l end
  | [] => l
  end.
Definition when {A} (b : bool) (f : A -> A) (x : A) : A := if b then f x else x.

Lemma swap_at_cases {A} i k (l : list A) :
  (length l <= i + k + 1 /\ swap_at i k l = l) \/
  exists l1 a l2 b l3, l = l1 ++ a :: l2 ++ b :: l3 /\ length l1 = i /\ length l2 = k /\ swap_at i k l = l1 ++ b :: l2 ++ a :: l3.
Proof.
  unfold swap_at. destruct (skipn i l) as [|a r] eqn:E.
  - left. split; [|reflexivity]. pose proof (skipn_length i l) as L. rewrite E in L. cbn in L. lia.
  - pose proof (skipn_length i l) as L. rewrite E in L. cbn in L. destruct (skipn k r) as [|b r'] eqn:E'.
    + left. split; [|reflexivity]. pose proof (skipn_length k r) as L'. rewrite E' in L'. cbn in L'. lia.
    + pose proof (skipn_length k r) as L'. rewrite E' in L'. cbn in L'.
      right. exists (firstn i l), a, (firstn k r), b, r'. rewrite !firstn_length. split; [|split; [lia|split; [lia|reflexivity]]].
      rewrite <- E', (firstn_skipn k r), <- E, (firstn_skipn i l). reflexivity.
Qed.
Lemma swap_at_spec {A} i k (l : list A) : i + k + 1 < length l ->
  exists l1 a l2 b l3, l = l1 ++ a :: l2 ++ b :: l3 /\ length l1 = i /\ length l2 = k /\ swap_at i k l = l1 ++ b :: l2 ++ a :: l3.
Proof. intros H. destruct (swap_at_cases i k l) as [[L _]|X]; [lia|exact X]. Qed.
Lemma swap_at_app {A} (l1 : list A) a l2 b l3 : swap_at (length l1) (length l2) (l1 ++ a :: l2 ++ b :: l3) = l1 ++ b :: l2 ++ a :: l3.
Proof.
  unfold swap_at. rewrite skipn_app, skipn_all, Nat.sub_diag. cbn [skipn app]. rewrite skipn_app, skipn_all, Nat.sub_diag. cbn [skipn app].
  rewrite !firstn_app, !firstn_all, !Nat.sub_diag. cbn [firstn]. rewrite !app_nil_r. reflexivity.
Qed.
Lemma swap_at_twice {A} i k (l : list A) : swap_at i k (swap_at i k l) = l.
Proof.
  destruct (swap_at_cases i k l) as [[_ E]|(l1 & a & l2 & b & l3 & E & <- & <- & E')]; [rewrite !E; reflexivity|].
  rewrite E', swap_at_app. symmetry. exact E.
Qed.
Lemma swap_at_map {A B} (f : A -> B) i k l : swap_at i k (map f l) = map f (swap_at i k l).
Proof.
  unfold swap_at. rewrite skipn_map. destruct (skipn i l) as [|a r]; [reflexivity|]. cbn [map]. rewrite skipn_map.
  destruct (skipn k r) as [|b r']; [reflexivity|]. cbn [map]. rewrite map_app. cbn [map]. rewrite map_app. cbn [map].
  rewrite !firstn_map. reflexivity.
Qed.
Lemma exchanged_perm {A} (l1 : list A) a l2 b l3 : Permutation (l1 ++ a :: l2 ++ b :: l3) (l1 ++ b :: l2 ++ a :: l3).
Proof.
  apply Permutation_app_head. transitivity (a :: b :: l2 ++ l3); [apply perm_skip, Permutation_sym, Permutation_middle|].
  etransitivity; [apply perm_swap|]. apply perm_skip, Permutation_middle.
Qed.
Lemma swap_at_perm {A} i k (l : list A) : Permutation l (swap_at i k l).
Proof.
  destruct (swap_at_cases i k l) as [[_ E]|(l1 & a & l2 & b & l3 & E & _ & _ & E')]; [rewrite E; reflexivity|].
  rewrite E', E. apply exchanged_perm.
Qed.

Lemma odd_exchanged l1 a l2 b l3 : NoDup (l1 ++ a :: l2 ++ b :: l3) ->
  odd_inv (l1 ++ b :: l2 ++ a :: l3) = negb (odd_inv (l1 ++ a :: l2 ++ b :: l3)).
Proof.
  intros N. assert (N0 : NoDup (a :: l2 ++ b :: l3)).
  { clear - N. induction l1 as [|x l1 IH]; [exact N|]. inversion N. auto. }
  clear N. rename N0 into N. inversion N as [|? ? Na N']. subst. apply NoDup_remove_2 in N' as Nb.
  rewrite in_app_iff in Na, Nb. cbn [In] in Na.
  assert (S : forall x y, l1 ++ x :: l2 ++ y :: l3 = (l1 ++ x :: l2 ++ [y]) ++ l3).
  { intros x y. rewrite <- app_assoc. cbn [app]. rewrite <- app_assoc. reflexivity. }
  assert (K : forall m m', Permutation m m' -> odd_inv m = negb (odd_inv m') -> odd_inv (m ++ l3) = negb (odd_inv (m' ++ l3))).
  { intros m m' P. rewrite !odd_inv_pairs, !pairs_xor_app. rewrite (xor_all_perm _ _ _ P). intros ->.
    destruct (pairs_xor _ m'), (pairs_xor _ l3), (xor_all _ m'); reflexivity. }
  rewrite !S. apply K.
  - exact (exchanged_perm l1 b l2 a []).
  - apply odd_inv_swap; [intros ->; apply Na; right; left; reflexivity|tauto|tauto].
Qed.

Lemma even_swap02 ccs : set_valid cc_desc ccs -> odd_inv (cc_permutation (swap_at 0 1 ccs)) = negb (odd_inv (cc_permutation ccs)).
Proof.
  intros V. pose proof (cc_perm ccs V) as P. unfold cc_permutation in *. rewrite <- swap_at_map.
  destruct (swap_at_spec 0 1 (map (place cc_eqb cc_solved) ccs)) as (l1 & a & l2 & b & l3 & E & _ & _ & E').
  { apply Permutation_length in P. rewrite seq_length in P. lia. }
  rewrite E', E. apply odd_exchanged. rewrite <- E. exact (cyc_nodup _ _ P).
Qed.
Lemma when_swap02 b ccs : set_valid cc_desc ccs -> odd_inv (cc_permutation (when b (swap_at 0 1) ccs)) = xorb b (odd_inv (cc_permutation ccs)).
Proof. intros V. destruct b; cbn [when]; [exact (even_swap02 ccs V)|symmetry; apply xorb_false_l]. Qed.
Lemma xorb_fix p o : xorb (xorb p o) p = o.
Proof. destruct p, o; reflexivity. Qed.

(** Exchanging two centre wings of one hand. *)
Definition swap_left {A} : list A -> list A := swap_at 0 5.
Definition swap_right {A} : list A -> list A := swap_at 24 5.
Lemma swap_hands h i s : nth_error (map right_handed cw_solved) i = Some h -> nth_error (map right_handed cw_solved) (i + 6) = Some h ->
  hands_kept s -> hands_kept (swap_at i 5 s) /\
  (set_valid cw_desc s -> odd_inv (cw_permutation h (swap_at i 5 s)) = negb (odd_inv (cw_permutation h s))) /\
  cw_permutation (negb h) (swap_at i 5 s) = cw_permutation (negb h) s.
Proof.
  intros H1 H2 H. unfold hands_kept in *. rewrite <- H in H1, H2.
  destruct (swap_at_spec i 5 s) as (l1 & a & l2 & b & l3 & E & L1 & L2 & E').
  { assert (X : nth_error (map right_handed s) (i + 6) <> None) by congruence. apply nth_error_Some in X. rewrite map_length in X. lia. }
  assert (Ha : right_handed a = h).
  { subst s. rewrite nth_error_map, nth_error_app2 in H1 by lia. replace (i - length l1) with 0 in H1 by lia. cbn in H1. congruence. }
  assert (Hb : right_handed b = h).
  { subst s. rewrite nth_error_map, nth_error_app2 in H2 by lia. replace (i + 6 - length l1) with 6 in H2 by lia.
    change (nth_error (a :: l2 ++ b :: l3) 6) with (nth_error (l2 ++ b :: l3) 5) in H2.
    rewrite nth_error_app2 in H2 by lia. replace (5 - length l2) with 0 in H2 by lia. cbn in H2. congruence. }
  rewrite E'. split.
  { rewrite <- H, E, !map_app. cbn [map]. rewrite !map_app. cbn [map]. rewrite Ha, Hb. reflexivity. }
  assert (F : forall x y, right_handed x = h -> right_handed y = h -> filter (same_hand h) (l1 ++ x :: l2 ++ y :: l3) =
    filter (same_hand h) l1 ++ x :: filter (same_hand h) l2 ++ y :: filter (same_hand h) l3).
  { intros x y Hx Hy. rewrite filter_app. cbn [filter]. rewrite filter_app. cbn [filter]. 
    assert (T : forall z, right_handed z = h -> same_hand h z = true) by (intros z <-; apply eqb_reflx). rewrite !T by assumption. reflexivity. }
  assert (G : forall x y, right_handed x = h -> right_handed y = h -> filter (same_hand (negb h)) (l1 ++ x :: l2 ++ y :: l3) =
    filter (same_hand (negb h)) l1 ++ filter (same_hand (negb h)) l2 ++ filter (same_hand (negb h)) l3).
  { intros x y Hx Hy. rewrite filter_app. cbn [filter]. rewrite filter_app. cbn [filter]. 
    assert (T : forall z, right_handed z = h -> same_hand (negb h) z = false) by (intros z <-; apply eqb_negb2). rewrite !T by assumption. reflexivity. }
  split.
  - intros V. pose proof (cyc_nodup _ _ (cw_perm h _ V)) as N. unfold cw_permutation in *. rewrite E, F in N by assumption.
    rewrite E, !F by assumption. rewrite !map_app in *. cbn [map] in *. rewrite !map_app in *. cbn [map] in *. apply odd_exchanged, N.
  - unfold cw_permutation. rewrite E, !G by assumption. reflexivity.
Qed.
Lemma swap_left_hands s : hands_kept s -> hands_kept (swap_left s) /\
  (set_valid cw_desc s -> odd_inv (cw_permutation false (swap_left s)) = negb (odd_inv (cw_permutation false s))) /\
  cw_permutation true (swap_left s) = cw_permutation true s.
Proof. apply (swap_hands false 0); reflexivity. Qed.
Lemma swap_right_hands s : hands_kept s -> hands_kept (swap_right s) /\
  (set_valid cw_desc s -> odd_inv (cw_permutation true (swap_right s)) = negb (odd_inv (cw_permutation true s))) /\
  cw_permutation false (swap_right s) = cw_permutation false s.
Proof. apply (swap_hands true 24); reflexivity. Qed.

(** The same cube with pairs of like-coloured centre pieces exchanged, and back. *)
Definition exchange (b1 b2 b3 b4 : bool) (c : Cube7) : Cube7 :=
  mkCube7 (c7_corners c) (c7_edges c) (c7_wings_1 c) (c7_wings_2 c)
    (when b1 (swap_at 0 1) (c7_center_corners_1 c)) (when b2 (swap_at 0 1) (c7_center_corners_2 c))
    (when b4 swap_right (when b3 swap_left (c7_center_wings c))) (c7_center_edges_1 c) (c7_center_edges_2 c).
Definition exchange_back (b1 b2 b3 b4 : bool) (c : Cube7) : Cube7 :=
  mkCube7 (c7_corners c) (c7_edges c) (c7_wings_1 c) (c7_wings_2 c)
    (when b1 (swap_at 0 1) (c7_center_corners_1 c)) (when b2 (swap_at 0 1) (c7_center_corners_2 c))
    (when b3 swap_left (when b4 swap_right (c7_center_wings c))) (c7_center_edges_1 c) (c7_center_edges_2 c).
Lemma exchange_twice b1 b2 b3 b4 c : exchange_back b1 b2 b3 b4 (exchange b1 b2 b3 b4 c) = c.
Proof.
  destruct c as [cs es w1 w2 c1 c2 cw e1 e2]. unfold exchange, exchange_back.
  cbn [c7_corners c7_edges c7_wings_1 c7_wings_2 c7_center_corners_1 c7_center_corners_2 c7_center_wings c7_center_edges_1 c7_center_edges_2].
  unfold swap_left, swap_right.
  f_equal.
  - destruct b1; [|reflexivity]. apply swap_at_twice.
  - destruct b2; [|reflexivity]. apply swap_at_twice.
  - destruct b3, b4; cbn [when]; rewrite ?swap_at_twice; reflexivity.
Qed.
Lemma exchange_apply b1 b2 b3 b4 c w : exchange b1 b2 b3 b4 (cube7_apply_wide c w) = cube7_apply_wide (exchange b1 b2 b3 b4 c) w.
Proof.
  unfold exchange, cube7_apply_wide.
  cbn [c7_corners c7_edges c7_wings_1 c7_wings_2 c7_center_corners_1 c7_center_corners_2 c7_center_wings c7_center_edges_1 c7_center_edges_2].
  unfold ccs_apply, cws_apply, depth_set_apply, swap_left, swap_right. f_equal.
  - destruct b1; [apply swap_at_map|reflexivity].
  - destruct b2; [apply swap_at_map|reflexivity].
  - destruct b3, b4; cbn [when]; rewrite ?swap_at_map; reflexivity.
Qed.
Lemma exchange_turned b1 b2 b3 b4 al : forall c, exchange b1 b2 b3 b4 (turned Size7 c al) = turned Size7 (exchange b1 b2 b3 b4 c) al.
Proof.
  induction al as [|w al IH]; intros c; [reflexivity|].
  transitivity (turned Size7 (exchange b1 b2 b3 b4 (cube7_apply_wide c w)) al); [exact (IH _)|]. rewrite exchange_apply. reflexivity.
Qed.
Lemma exchange_solved b1 b2 b3 b4 : cube7_is_solved (exchange_back b1 b2 b3 b4 cube7_solved) = true.
Proof. destruct b1, b2, b3, b4; vm_compute; reflexivity. Qed.

Lemma when_valid {P Pos} (d : PieceDesc P Pos) (OK : desc_ok d) b (f : list P -> list P) s : (forall l, Permutation l (f l)) -> 
  one_piece_everywhere d s -> one_piece_everywhere d (when b f s).
Proof. intros H V. destruct b; [|exact V]. apply (set_valid_spec d OK). apply (set_valid_spec d OK) in V. exact (perm_valid d s (f s) (H s) V). Qed.

Lemma looks_solved_7 c : cube_well_formed Size7 c -> invariants (mkCube3 (c7_edges c) (c7_corners c)) ->
  hands_kept (c7_center_wings c) ->
  follows_edges (c7_edges c) (c7_center_edges_1 c) -> follows_edges (c7_edges c) (c7_center_edges_2 c) ->
  exists al, Forall deep al /\ length al <= 139 + 4 + 880 * 6 /\ cube7_is_solved (turned Size7 c al) = true.
Proof.
  intros W I H F1 F2.
  set (o := odd_corners c).
  set (t := xorb o (xorb (odd_inv (places 2 (cubies c))) (odd_inv (places 3 (cubies c))))).
  set (b1 := xorb (odd_inv (cc_permutation (c7_center_corners_1 c))) o).
  set (b2 := xorb (odd_inv (cc_permutation (c7_center_corners_2 c))) o).
  set (b3 := xorb (odd_inv (cw_permutation false (c7_center_wings c))) t).
  set (b4 := xorb (odd_inv (cw_permutation true (c7_center_wings c))) t).
  pose proof W as W'. cbn in W'. destruct W' as (C & E & W1 & W2 & C1 & C2 & CW & E1 & E2).
  assert (L : laws7b (exchange b1 b2 b3 b4 c)).
  { split; [|split; [exact I|]].
    - cbn. split; [exact C|]. split; [exact E|]. split; [exact W1|]. split; [exact W2|].
      split; [apply (when_valid cc_desc cc_desc_ok); [apply swap_at_perm|exact C1]|].
      split; [apply (when_valid cc_desc cc_desc_ok); [apply swap_at_perm|exact C2]|].
      split; [apply (when_valid cw_desc cw_desc_ok); [apply swap_at_perm|]; apply (when_valid cw_desc cw_desc_ok); [apply swap_at_perm|exact CW]|].
      split; assumption.
    - rewrite places_4, places_5.
      change (odd_corners (exchange b1 b2 b3 b4 c)) with o.
      cbn [exchange c7_center_corners_1 c7_center_corners_2 c7_center_wings c7_edges c7_center_edges_1 c7_center_edges_2].
      split.
      { rewrite when_swap02 by (apply (set_valid_spec _ cc_desc_ok), C1). apply xorb_fix. }
      split.
      { rewrite when_swap02 by (apply (set_valid_spec _ cc_desc_ok), C2). apply xorb_fix. }
      pose proof (proj2 (set_valid_spec _ cw_desc_ok _) CW) as V.
      assert (K : forall b, hands_kept (when b swap_left (c7_center_wings c)) /\ set_valid cw_desc (when b swap_left (c7_center_wings c)) /\
         odd_inv (cw_permutation false (when b swap_left (c7_center_wings c))) = xorb b (odd_inv (cw_permutation false (c7_center_wings c))) /\
         cw_permutation true (when b swap_left (c7_center_wings c)) = cw_permutation true (c7_center_wings c)).
      { intros []; cbn [when]; [|split; [exact H|split; [exact V|split; [symmetry; apply xorb_false_l|reflexivity]]]].
        destruct (swap_left_hands _ H) as (K1 & K2 & K3). split; [exact K1|]. split; [exact (perm_valid cw_desc _ _ (swap_at_perm _ _ _) V)|].
        split; [exact (K2 V)|exact K3]. }
      assert (K' : forall b s, hands_kept s -> set_valid cw_desc s -> hands_kept (when b swap_right s) /\
         odd_inv (cw_permutation true (when b swap_right s)) = xorb b (odd_inv (cw_permutation true s)) /\
         cw_permutation false (when b swap_right s) = cw_permutation false s).
      { intros [] s Hs Vs; cbn [when]; [|split; [exact Hs|split; [symmetry; apply xorb_false_l|reflexivity]]].
        destruct (swap_right_hands _ Hs) as (K1 & K2 & K3). split; [exact K1|]. 
        split; [exact (K2 Vs)|exact K3]. }
      destruct (K b3) as (K1 & K2 & K3 & K4). destruct (K' b4 _ K1 K2) as (K5 & K6 & K7).
      split; [exact K5|]. split; [|split; assumption].
      intros h. rewrite places_cw, places_2, places_3. cbn [exchange c7_center_wings c7_wings_1 c7_wings_2].
      rewrite <- (places_2 c), <- (places_3 c). fold t. destruct h.
      + rewrite K6, K4. apply xorb_fix.
      + rewrite K7, K3. apply xorb_fix. }
  destruct (solve_laws7b _ L) as (al & Fa & La & Ea). exists al. split; [exact Fa|]. split; [exact La|].
  assert (T : turned Size7 c al = exchange_back b1 b2 b3 b4 cube7_solved).
  { rewrite <- Ea, <- exchange_turned, exchange_twice. reflexivity. }
  rewrite T. apply exchange_solved.
Qed.

Lemma is_solved_small c : cube7_is_solved c = true -> cube4_is_solved (small4 c) = true /\ cube6_is_solved (small6 c) = true.
Proof.
  unfold cube7_is_solved, cube4_is_solved, cube6_is_solved. rewrite !andb_true_iff. cbn [small4 small6 c4_corners c4_wings c4_centers
    c6_corners c6_wings_1 c6_wings_2 c6_center_corners_1 c6_center_corners_2 c6_center_wings]. tauto.
Qed.

(** A reassembled 4x4x4 can be turned until it is solved exactly if its corner twists add up
    to full turns: wings and centres can be put in anywhere. *)
Theorem C73_4x4x4 : forall c : Cube4, cube_well_formed Size4 c ->
  (can_look_solved Size4 c <-> twists_divisible (c4_corners c)).
Proof.
  intros c W. split.
  - intros (al & _ & S). 
    assert (G : forall al c, set_valid corner_desc (c4_corners c) ->
      (twists_divisible (c4_corners (turned Size4 c al)) <-> twists_divisible (c4_corners c)) ).
    { clear. induction al as [|w al IH]; intros c V; [reflexivity|]. 
      change (turned Size4 c (w :: al)) with (turned Size4 (cube4_apply_wide c w) al). rewrite IH by (apply corner_set_valid, V).
      unfold twists_divisible. cbn [cube4_apply_wide c4_corners]. rewrite twists_move by exact V. reflexivity. }
    cbn in W. destruct W as (C & _). apply (set_valid_spec _ corner_desc_ok) in C. apply (G al c C).
    cbn [cube_is_solved] in S. unfold cube4_is_solved in S. rewrite !andb_true_iff in S. destruct S as [[S _] _].
    set (d := turned Size4 c al) in *. assert (Vd : length (c4_corners d) = 8).
    { clear - C. subst d. destruct C as [L _]. change (length (pd_reference corner_desc)) with 8 in L. revert c L.
      induction al as [|w al IH]; intros c L; [exact L|]. apply (IH (cube4_apply_wide c w)). cbn [cube4_apply_wide c4_corners].
      unfold corner_set_apply. rewrite map_length. exact L. }
    assert (E : c4_corners d = corner_solved).
    { clear - S Vd. unfold set_is_solved, iter_with_pos in S. change (pd_reference corner_desc) with corner_reference in S.
      unfold corner_solved. revert S Vd. change 8 with (length corner_reference). generalize corner_reference as r, (c4_corners d) as s.
      induction r as [|p r IH]; intros [|x s] S L; try discriminate L; [reflexivity|]. cbn [combine forallb] in S.
      apply andb_true_iff in S as [S1 S2]. cbn [fst snd] in S1. cbn [map]. f_equal; [|apply IH; [exact S2|cbn in L; lia]].
      change (corner_is_solved x p = true) in S1. unfold corner_is_solved, corner_is_oriented in S1. apply andb_true_iff in S1 as [A B].
      apply vec3_eqb_eq in A. apply axis_eqb_eq in B. destruct x; cbn in *; subst; reflexivity. }
    rewrite E. vm_compute. reflexivity.
  - intros T. pose proof W as W'. cbn in W'. destruct W' as (C & Wg & Z). set (f := filler (odd_list (c4_corners c))).
    destruct (filler_laws (odd_list (c4_corners c))) as (W7 & _ & _ & _ & (HK & _) & F1 & F2). fold f in W7, HK, F1, F2.
    cbn in W7. destruct W7 as (_ & E & _ & _ & _ & _ & CW & E1 & E2).
    destruct (looks_solved_7 (mkCube7 (c4_corners c) (c7_edges f) (c4_wings c) (c4_wings c) (c4_centers c) (c4_centers c) (c7_center_wings f)
            (c7_center_edges_1 f) (c7_center_edges_2 f))) as (al & Fa & _ & S).
    { cbn; auto 12. } { apply filler_invariants, T. } { exact HK. } { exact F1. } { exact F2. }
    exists (map cut al). split; [apply cut_fits|]. apply is_solved_small in S as [S _]. rewrite small4_turned in S.
    destruct c; exact S.
Qed.

Lemma wf_turned n al : forall c, cube_well_formed n c -> cube_well_formed n (turned n c al).
Proof. induction al as [|w al IH]; intros c W; [exact W|]. apply (IH (cube_apply_wide n c w)), cube_well_formed_wide, W. Qed.

(** What stays the same whatever is turned, and what solved sets are like. *)
Lemma corners_turned_6 al : forall c, c6_corners (turned Size6 c al) = fold_left corner_set_apply (map w_move al) (c6_corners c).
Proof. induction al as [|w al IH]; intros c; [reflexivity|]. exact (IH (cube6_apply_wide c w)). Qed.
Lemma twists_moves ms : forall s, set_valid corner_desc s -> twists_divisible (fold_left corner_set_apply ms s) -> twists_divisible s.
Proof.
  induction ms as [|m ms IH]; intros s V H; [exact H|]. cbn [fold_left] in H. apply IH in H; [|apply corner_set_valid, V].
  unfold twists_divisible in *. rewrite twists_move in H by exact V. exact H.
Qed.
Lemma corners_turned_length ms : forall s, length (fold_left corner_set_apply ms s) = length s.
Proof. induction ms as [|m ms IH]; intros s; [reflexivity|]. cbn [fold_left]. rewrite IH. apply map_length. Qed.

Lemma matches_turned al : forall c, matches_edges (c7_edges c) (c7_center_edges_1 c) /\ matches_edges (c7_edges c) (c7_center_edges_2 c) ->
  matches_edges (c7_edges (turned Size7 c al)) (c7_center_edges_1 (turned Size7 c al)) /\
  matches_edges (c7_edges (turned Size7 c al)) (c7_center_edges_2 (turned Size7 c al)).
Proof.
  induction al as [|w al IH]; intros c [H1 H2]; [split; assumption|]. apply (IH (cube7_apply_wide c w)). cbn [cube7_apply_wide c7_edges c7_center_edges_1 c7_center_edges_2].
  split; apply matches_move; try assumption; lia.
Qed.
Lemma invariants_turned al : forall c, set_valid edge_desc (c7_edges c) -> set_valid corner_desc (c7_corners c) ->
  invariants (mkCube3 (c7_edges (turned Size7 c al)) (c7_corners (turned Size7 c al))) -> invariants (mkCube3 (c7_edges c) (c7_corners c)).
Proof.
  induction al as [|w al IH]; intros c VE VC H; [exact H|].
  apply (invariants_move (mkCube3 (c7_edges c) (c7_corners c)) (w_move w) (conj VE VC)).
  apply (IH (cube7_apply_wide c w)); [apply edge_set_valid, VE|apply corner_set_valid, VC|exact H].
Qed.

(** Centre edges that follow given edges. *)
Lemma followers c : cube_well_formed Size7 c -> invariants (mkCube3 (c7_edges c) (c7_corners c)) ->
  exists e1 e2, one_piece_everywhere ce_desc e1 /\ one_piece_everywhere ce_desc e2 /\
    follows_edges (c7_edges c) e1 /\ follows_edges (c7_edges c) e2.
Proof.
  intros W I. destruct (wf7_valid c W) as (VE & VC & _).
  destruct (solvable (mkCube3 (c7_edges c) (c7_corners c)) (conj VE VC) I) as (al & _ & E).
  set (ws := map (mkWide 0) al). set (d := turned Size7 cube7_solved (undo ws)).
  assert (D : Forall deep (undo ws)).
  { apply deep_undo. subst ws. rewrite Forall_map. apply Forall_forall. intros m _. unfold deep. cbn [w_depth]. lia. }
  assert (L : laws7 d) by (apply laws7_turned; [exact D|exact laws7_solved]).
  assert (Ed : c7_edges d = c7_edges c).
  { assert (X : core (turned Size7 c ws) = core cube7_solved).
    { unfold core. rewrite turned_core. subst ws. rewrite map_map. cbn [w_move]. rewrite map_id. exact E. }
    assert (Y : core d = core c).
    { subst d. transitivity (core (turned Size7 (turned Size7 c ws) (undo ws))).
      - unfold core in *. rewrite !turned_core. unfold core in X. rewrite turned_core in X. rewrite X. reflexivity.
      - rewrite turned_undo. reflexivity. }
    unfold core in Y. congruence. }
  destruct L as (Wd & _ & _ & _ & _ & F1 & F2). rewrite Ed in F1, F2. cbn in Wd. destruct Wd as (_ & _ & _ & _ & _ & _ & _ & E1 & E2).
  exists (c7_center_edges_1 d), (c7_center_edges_2 d). auto.
Qed.

(** The other sets do not depend on the centre wings and centre edges. *)
Lemma same_others al : forall c w e1 e2, let d := mkCube7 (c7_corners c) (c7_edges c) (c7_wings_1 c) (c7_wings_2 c) (c7_center_corners_1 c)
    (c7_center_corners_2 c) w e1 e2 in
  c7_corners (turned Size7 d al) = c7_corners (turned Size7 c al) /\ c7_edges (turned Size7 d al) = c7_edges (turned Size7 c al) /\
  c7_wings_1 (turned Size7 d al) = c7_wings_1 (turned Size7 c al) /\ c7_wings_2 (turned Size7 d al) = c7_wings_2 (turned Size7 c al) /\
  c7_center_corners_1 (turned Size7 d al) = c7_center_corners_1 (turned Size7 c al) /\
  c7_center_corners_2 (turned Size7 d al) = c7_center_corners_2 (turned Size7 c al).
Proof.
  induction al as [|m al IH]; intros c w e1 e2 d; [auto 10|].
  exact (IH (cube7_apply_wide c m) (cws_apply 1 2 2 w m) (ces_apply 1 2 e1 m) (ces_apply 2 2 e2 m)).
Qed.

(** A reassembled 7x7x7 can be turned until it is solved exactly if corners and edges obey the
    laws of the 3x3x3, centre wings are balanced and centre edges match the edges. *)
Lemma looks_7 c : cube_well_formed Size7 c -> invariants (mkCube3 (c7_edges c) (c7_corners c)) ->
  hands_balanced (c7_center_wings c) ->
  matches_edges (c7_edges c) (c7_center_edges_1 c) -> matches_edges (c7_edges c) (c7_center_edges_2 c) ->
  exists al, Forall deep al /\ cube7_is_solved (turned Size7 c al) = true.
Proof.
  intros W I B M1 M2. pose proof W as W'. cbn in W'. destruct W' as (C & E & W1 & W2 & C1 & C2 & CW & E1 & E2).
  destruct (regroup_wings (c7_center_wings c) (proj1 CW) B) as (cw & A & HK).
  destruct (followers c W I) as (e1 & e2 & V1 & V2 & F1 & F2).
  set (d := mkCube7 (c7_corners c) (c7_edges c) (c7_wings_1 c) (c7_wings_2 c) (c7_center_corners_1 c) (c7_center_corners_2 c) cw e1 e2).
  destruct (looks_solved_7 d) as (al & Fa & _ & S); [|exact I|exact HK|exact F1|exact F2|].
  { cbn. split; [exact C|]. split; [exact E|]. split; [exact W1|]. split; [exact W2|]. split; [exact C1|]. split; [exact C2|].
    split; [|split; assumption]. apply (set_valid_spec _ cw_desc_ok) in CW. apply (set_valid_spec _ cw_desc_ok).
    exact (perm_valid _ _ _ (alike_perm _ _ A) CW). }
  exists al. split; [exact Fa|]. destruct (same_others al c cw e1 e2) as (S1 & S2 & S3 & S4 & S5 & S6). fold d in S1, S2, S3, S4, S5, S6.
  unfold cube7_is_solved in *. rewrite !andb_true_iff in S. destruct S as [[[[[[[[Z1 Z2] Z3] Z4] Z5] Z6] Z7] _] _].
  rewrite S1 in Z1. rewrite S2 in Z2. rewrite S3 in Z3. rewrite S4 in Z4. rewrite S5 in Z5. rewrite S6 in Z6.
  rewrite !andb_true_iff. destruct (matches_turned al c (conj M1 M2)) as [N1 N2].
  assert (L : length (c7_edges (turned Size7 c al)) = 12) by exact (proj1 (proj1 (proj2 (wf_turned Size7 al c W)))).
  apply (edge_set_is_solved _ L) in Z2. pose proof Z2 as Z2'. rewrite Z2 in N1, N2.
  repeat split; try assumption.
  - apply (edge_set_is_solved _ L). exact Z2'.
  - rewrite wings7_turned in *. cbn [d c7_center_wings] in Z7. rewrite <- Z7. apply alike_is_solved, alike_map, A.
  - apply ce_set_solved, matches_solved, N1.
  - apply ce_set_solved, matches_solved, N2.
Qed.

(** On the 6x6x6 also the centre wings have to be balanced. *)
Theorem C73_6x6x6 : forall c : Cube6, cube_well_formed Size6 c ->
  (can_look_solved Size6 c <-> twists_divisible (c6_corners c) /\ hands_balanced (c6_center_wings c)).
Proof.
  intros c W. pose proof W as W'. cbn in W'. destruct W' as (C & Wg1 & Wg2 & Z1 & Z2 & CW). split.
  - intros (al & _ & S). cbn [cube_is_solved] in S. unfold cube6_is_solved in S. rewrite !andb_true_iff in S. destruct S as [[[[[S1 _] _] _] _] S2].
    pose proof (wf_turned Size6 al c W) as T. cbn in T. destruct T as (T1 & _ & _ & _ & _ & T2).
    apply (set_valid_spec _ cw_desc_ok) in T2. apply (set_valid_spec _ corner_desc_ok) in C. split.
    + apply (twists_moves (map w_move al) (c6_corners c) C). rewrite <- corners_turned_6.
      apply (corner_set_is_solved _ (proj1 T1)) in S1. rewrite S1. vm_compute. reflexivity.
    + apply (balanced_run al). rewrite <- wings6_turned. apply balanced_solved; assumption.
  - intros [T HK]. set (f := filler (odd_list (c6_corners c))).
    destruct (filler_laws (odd_list (c6_corners c))) as (W7 & _ & _ & _ & _ & F1 & F2). fold f in W7, F1, F2.
    cbn in W7. destruct W7 as (_ & E & _ & _ & _ & _ & _ & E1 & E2).
    assert (FM : forall es ces, follows_edges es ces -> matches_edges es ces).
    { intros es ces H home p I. destruct (H home p I) as (e0 & e & X1 & X2 & X3). exists e0, e, (ce_side_face home). auto. }
    destruct (looks_7 (mkCube7 (c6_corners c) (c7_edges f) (c6_wings_1 c) (c6_wings_2 c) (c6_center_corners_1 c) (c6_center_corners_2 c)
            (c6_center_wings c) (c7_center_edges_1 f) (c7_center_edges_2 f))) as (al & Fa & S).
    { cbn; auto 12. } { apply filler_invariants, T. } { exact HK. } { apply FM, F1. } { apply FM, F2. }
    exists al. split; [exact Fa|]. apply is_solved_small in S as [_ S]. rewrite small6_turned in S. destruct c; exact S.
Qed.

(** Two wings of an edge exchanged and all else solved, the famous parity of the 4x4x4, is
    law-abiding; two centres exchanged is not. *)
Example C72_wing_parity : laws4 (mkCube4 corner_solved (swap_at 0 11 wing_solved) cc_solved).
Proof.
  split; [|split; vm_compute; reflexivity]. split; [|split].
  - apply (set_valid_spec _ corner_desc_ok), (solved_valid _ corner_desc_ok).
  - apply (set_valid_spec _ wing_desc_ok), (perm_valid _ wing_solved); [apply swap_at_perm|apply (solved_valid _ wing_desc_ok)].
  - apply (set_valid_spec _ cc_desc_ok), (solved_valid _ cc_desc_ok).
Qed.
Example C72_two_centres : ~ reachable Size4 (mkCube4 corner_solved wing_solved (swap_at 0 1 cc_solved)).
Proof. rewrite C72_4x4x4_reachable. intros (_ & _ & P). vm_compute in P. discriminate P. Qed.
Example C72_6x6x6_example : exists c, laws6 c /\ cube6_is_solved c = false /\
  even_permutation (wing_permutation (c6_wings_1 c)) = false /\ even_permutation (cw_permutation true (c6_center_wings c)) = false.
Proof.
  exists (small6 (turned Size7 cube7_solved [mkWide 1 (mkMove fR Single); mkWide 0 (mkMove fR Inverse)])). split.
  - apply laws7_small6, laws7_turned; [|exact laws7_solved]. repeat constructor; unfold deep; cbn [w_depth]; lia.
  - vm_compute. auto.
Qed.

(** All wings and all centres put in in the opposite order. *)
Example C73_reassembled : let c := mkCube4 corner_solved (rev wing_solved) (rev cc_solved) in
  cube_well_formed Size4 c /\ twists_divisible (c4_corners c) /\ cube4_is_solved c = false.
Proof.
  intros c. split; [|split; vm_compute; reflexivity]. split; [|split].
  - apply (set_valid_spec _ corner_desc_ok), (solved_valid _ corner_desc_ok).
  - apply (set_valid_spec _ wing_desc_ok), (perm_valid _ wing_solved); [apply Permutation_rev|apply (solved_valid _ wing_desc_ok)].
  - apply (set_valid_spec _ cc_desc_ok), (perm_valid _ cc_solved); [apply Permutation_rev|apply (solved_valid _ cc_desc_ok)].
Qed.
(** Exchanging two centre wings of one face, here even of different hands, satisfies the hypotheses on the 6x6x6. *)
Example C73_6x6x6_hypotheses : let c := mkCube6 corner_solved (rev wing_solved) wing_solved cc_solved (rev cc_solved) (swap_at 0 23 cw_solved) in
  cube_well_formed Size6 c /\ twists_divisible (c6_corners c) /\ hands_balanced (c6_center_wings c) /\ ~ laws6 c.
Proof.
  intros c. split; [|split; [vm_compute; reflexivity|split; [intros [[] []]; vm_compute; reflexivity|]]].
  - split; [|split; [|split; [|split; [|split]]]].
    + apply (set_valid_spec _ corner_desc_ok), (solved_valid _ corner_desc_ok).
    + apply (set_valid_spec _ wing_desc_ok), (perm_valid _ wing_solved); [apply Permutation_rev|apply (solved_valid _ wing_desc_ok)].
    + apply (set_valid_spec _ wing_desc_ok), (solved_valid _ wing_desc_ok).
    + apply (set_valid_spec _ cc_desc_ok), (solved_valid _ cc_desc_ok).
    + apply (set_valid_spec _ cc_desc_ok), (perm_valid _ cc_solved); [apply Permutation_rev|apply (solved_valid _ cc_desc_ok)].
    + apply (set_valid_spec _ cw_desc_ok), (perm_valid _ cw_solved); [apply swap_at_perm|apply (solved_valid _ cw_desc_ok)].
  - intros (_ & _ & _ & _ & P & _). vm_compute in P. discriminate P.
Qed.

(** A reassembled 7x7x7 can be turned until it is solved exactly if corners and edges obey the
    laws of the 3x3x3, centre wings are balanced and centre edges match the edges. *)
Theorem C74_7x7x7_looks_solved_partial : forall c : Cube7, cube_well_formed Size7 c ->
  (can_look_solved Size7 c <->
   invariants (mkCube3 (c7_edges c) (c7_corners c)) /\ hands_balanced (c7_center_wings c) /\
   matches_edges (c7_edges c) (c7_center_edges_1 c) /\ matches_edges (c7_edges c) (c7_center_edges_2 c)).
Proof.
  intros c W. split.
  - intros (al & _ & S). cbn [cube_is_solved] in S. unfold cube7_is_solved in S. rewrite !andb_true_iff in S.
    destruct S as [[[[[[[[S1 S2] _] _] _] _] S3] S4] S5]. pose proof (wf_turned Size7 al c W) as T. set (d := turned Size7 c al) in *.
    pose proof T as T'. cbn in T'. destruct T' as (T1 & T2 & _ & _ & _ & _ & T3 & _). destruct (wf7_valid c W) as (VE & VC & _).
    apply (corner_set_is_solved _ (proj1 T1)) in S1. apply (edge_set_is_solved _ (proj1 T2)) in S2. split; [|split].
    + apply (invariants_turned al c VE VC). fold d. rewrite S1, S2. exact (proj1 (proj2 laws7_solved)).
    + apply (balanced_run al). rewrite <- wings7_turned. fold d. apply balanced_solved; [apply (set_valid_spec _ cw_desc_ok), T3|exact S3].
    + assert (M : matches_edges (c7_edges d) (c7_center_edges_1 d) /\ matches_edges (c7_edges d) (c7_center_edges_2 d)).
      { rewrite S2. split; apply matches_solved, ce_set_solved; assumption. }
      apply (matches_turned (undo al)) in M. subst d. rewrite turned_undo in M. exact M.
  - intros (I & B & M1 & M2). destruct (looks_7 c W I B M1 M2) as (al & F & S). exists al. split; [exact F|exact S].
Qed.

(** The full claim: what a real cube of that size can be turned into, this one can. *)
Definition turn_stickers (n : CubeSize) (al : list WideAxisMove) (s : Sticker) : Sticker :=
  fold_left (fun s w => turn_wide_sticker n w s) al s.
Definition C74_claim (n : CubeSize) : Prop :=
  forall (al : list WideAxisMove) (c : CubeOf n), Forall (fits n) al -> cube_well_formed n c ->
    cube_stickers n c = map (turn_stickers n al) (cube_stickers n (cube_solved n)) -> reachable n c.

(** It fails for the middle slice next to R: really its four centre edges move, here nothing
    that this code can do moves them without moving edges. *)
Definition slice_word : list WideAxisMove := [mkWide 1 (mkMove fR Single); mkWide 0 (mkMove fR Inverse)].
Definition sliced5 : Cube5 :=
  let c := turned Size5 cube5_solved slice_word in
  mkCube5 (c5_corners c) (c5_edges c) (c5_center_corners c)
    (fold_left (fun s w => ces_apply 1 (w_depth w) s w) slice_word ce_solved).
Definition sliced7 : Cube7 :=
  let c := turned Size7 cube7_solved slice_word in
  mkCube7 (c7_corners c) (c7_edges c) (c7_wings_1 c) (c7_wings_2 c) (c7_center_corners_1 c) (c7_center_corners_2 c) (c7_center_wings c)
    (fold_left (fun s w => ces_apply 1 (w_depth w) s w) slice_word ce_solved)
    (fold_left (fun s w => ces_apply 2 (w_depth w) s w) slice_word ce_solved).

Lemma ces_solved_valid nd al : one_piece_everywhere ce_desc (fold_left (fun s w => ces_apply nd (w_depth w) s w) al ce_solved).
Proof.
  apply (set_valid_spec _ ce_desc_ok). pose proof (solved_valid _ ce_desc_ok) as V. change (pd_solved ce_desc) with ce_solved in V.
  revert V. generalize ce_solved as s. induction al as [|w al IH]; intros s V; [exact V|]. cbn [fold_left]. apply IH, ces_valid, V.
Qed.

Theorem C74_refuted : ~ C74_claim Size5 /\ ~ C74_claim Size7.
Proof.
  assert (F4 : Forall (fits Size4) slice_word).
  { repeat constructor; unfold fits; cbn [w_depth]; change (cube_size_N Size4 / 2 - 1)%N with 1%N; lia. }
  split; intros H.
  - assert (R : reachable Size5 sliced5).
    { apply (H slice_word).
      - exact F4.
      - pose proof (wf_turned Size5 slice_word _ (cube_well_formed_solved Size5)) as W. destruct W as (W1 & W2 & W3 & _).
        split; [exact W1|]. split; [exact W2|]. split; [exact W3|]. exact (ces_solved_valid 1 slice_word).
      - vm_compute. reflexivity. }
    apply C74_5x5x5_reachable_partial in R. destruct R as (_ & _ & _ & F).
    assert (E : c5_edges sliced5 = edge_solved) by (vm_compute; reflexivity). rewrite E in F.
    apply follows_solved in F; [|vm_compute; reflexivity]. vm_compute in F. discriminate F.
  - assert (R : reachable Size7 sliced7).
    { apply (H slice_word).
      - eapply Forall_impl; [|exact F4]. intros w Hw. unfold fits in *. change (cube_size_N Size4 / 2 - 1)%N with 1%N in Hw.
        change (cube_size_N Size7 / 2 - 1)%N with 2%N. lia.
      - pose proof (wf_turned Size7 slice_word _ (cube_well_formed_solved Size7)) as W. destruct W as (W1 & W2 & W3 & W4 & W5 & W6 & W7 & _).
        split; [exact W1|]. split; [exact W2|]. split; [exact W3|]. split; [exact W4|]. split; [exact W5|]. split; [exact W6|].
        split; [exact W7|]. split; [exact (ces_solved_valid 1 slice_word)|exact (ces_solved_valid 2 slice_word)].
      - vm_compute. reflexivity. }
    apply C74_7x7x7_reachable_partial in R. destruct R as (_ & _ & _ & _ & _ & F & _).
    assert (E : c7_edges sliced7 = edge_solved) by (vm_compute; reflexivity). rewrite E in F.
    apply follows_solved in F; [|vm_compute; reflexivity]. vm_compute in F. discriminate F.
Qed.

(** On the 4x4x4 and the 6x6x6 the claim holds. *)
Lemma turned_stickers n al : C15_claim n -> Forall (fits n) al ->
  cube_stickers n (turned n (cube_solved n) al) = map (turn_stickers n al) (cube_stickers n (cube_solved n)).
Proof.
  intros C F. generalize (cube_solved n). revert F. induction al as [|w al IH]; intros F c.
  - unfold turn_stickers. cbn [fold_left turned]. rewrite map_id. reflexivity.
  - inversion F as [|? ? F1 F2]. subst. unfold turned. cbn [fold_left]. fold (turned n (cube_apply_wide n c w) al).
    rewrite IH by exact F2. rewrite C by exact F1. rewrite map_map. reflexivity.
Qed.
Theorem C74_even_sizes_partial : C74_claim Size4 /\ C74_claim Size6.
Proof.
  assert (G : forall n, C15_claim n -> C74_claim n).
  { intros n C al c F W E. rewrite <- (turned_stickers n al C F) in E. exists al. split; [exact F|].
    apply stickers_determine; [apply wf_turned, cube_well_formed_solved|exact W|exact (eq_sym E)]. }
  split; apply G, C15_wide_moves_partial; auto.
Qed.
(** The stickers, piece by piece, leave nothing open about a well-formed cube. *)
Theorem C72_stickers_determine : forall n (c c' : CubeOf n), cube_well_formed n c -> cube_well_formed n c' ->
  cube_stickers n c = cube_stickers n c' -> c = c'.
Proof. exact stickers_determine. Qed.

(** A 5x5x5 far from solved that obeys its laws. *)
Example C74_example : exists c, laws5 c /\ cube5_is_solved c = false /\ even_permutation (cc_permutation (c5_center_corners c)) = false.
Proof.
  exists (small5 (turned Size7 cube7_solved [mkWide 1 (mkMove fR Single); mkWide 0 (mkMove fU Double)])). split.
  - apply laws7_small5, laws7_turned; [|exact laws7_solved]. repeat constructor; unfold deep; cbn [w_depth]; lia.
  - vm_compute. auto.
Qed.
Print Assumptions C72_4x4x4_reachable.
Print Assumptions C72_4x4x4_solvable.
Print Assumptions C72_6x6x6_solvable.
Print Assumptions C72_6x6x6_reachable.
Print Assumptions C74_7x7x7_solvable_partial.
Print Assumptions C74_7x7x7_reachable_partial.
Print Assumptions C74_5x5x5_reachable_partial.
Print Assumptions C74_5x5x5_solvable_partial.
Print Assumptions C73_4x4x4.
Print Assumptions C73_6x6x6.
Print Assumptions C74_7x7x7_looks_solved_partial.
Print Assumptions C74_refuted.
Print Assumptions C74_even_sizes_partial.
Print Assumptions C72_stickers_determine.

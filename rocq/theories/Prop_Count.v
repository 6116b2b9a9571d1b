(** C76: how many states each cube has. *)

From Coq Require Import List Bool Arith NArith ZArith Lia Permutation.
From Verif Require Import Model_Base Model_Space Model_Moves Model_Pieces Model_PieceSet Model_Cubes
  Model_Visual Model_Invariants Model_Mus Spec_Moves Spec_Geometry Spec_Sets Spec_Invariants Spec_Mus Spec_BigCube Spec_BigLaws Spec_Random Spec_Count
  Proof_Moves Proof_Sets Proof_Parity Proof_Invariants Proof_Random Proof_BigSolve Proof_BigLaws
  Prop_Invariants Prop_Random Prop_Mus Prop_BigLaws Proof_Count.
Import ListNotations.
Open Scope nat_scope.

(* ------------------------------------------------------------------ *)
(** * The pieces of one kind *)

Lemma corners_number : number_of corner_state (product 8 * 3 ^ 7).
Proof. exact (number_of_numbering _ _ _ _ C31_corner_bijection). Qed.
Lemma corner_state_iff cs : corner_state cs <-> one_piece_everywhere corner_desc cs /\ twists_divisible cs.
Proof. rewrite <- (set_valid_spec _ corner_desc_ok). unfold corner_state, set_valid. cbn [pd_position corner_desc]. change (length (pd_reference corner_desc)) with 8. tauto. Qed.

Section Plain.
  Context {P : Type} (d : PieceDesc P P) (OK : desc_ok d) (POS : forall p, pd_position d p = p).
  Lemma plain_valid s : set_valid d s <-> Permutation s (pd_reference d).
  Proof.
    assert (M : map (pd_position d) s = s) by (rewrite <- (map_id s) at 2; apply map_ext; exact POS).
    split.
    - intros V. apply (set_valid_perm _ OK) in V. rewrite M in V. exact V.
    - intros Pm. split; [apply Permutation_length, Pm|]. rewrite M. apply (Permutation_NoDup (Permutation_sym Pm)). apply (do_nodup _ OK).
  Qed.
  Lemma plain_number : number_of (one_piece_everywhere d) (product (length (pd_reference d))).
  Proof.
    apply (number_of_iff (fun s => Permutation s (pd_reference d))); [|apply number_of_perms, (do_nodup _ OK)].
    intros s. rewrite <- plain_valid. apply (set_valid_spec _ OK).
  Qed.
End Plain.

Lemma wings_number : number_of (one_piece_everywhere wing_desc) (product 24).
Proof. exact (plain_number wing_desc wing_desc_ok (fun p => eq_refl)). Qed.

(** The number of the place of a piece determines it. *)
Lemma place_inj {T} (eqb : T -> T -> bool) l : (forall a b, eqb a b = true <-> a = b) ->
  forall x y, In x l -> In y l -> place eqb l x = place eqb l y -> x = y.
Proof.
  intros EQ x y. unfold place. generalize (length l) as k. intros k X Y.
  assert (F : forall m x, In x m -> exists i, find_index (fun q => eqb q x) m = Some i /\ nth_error m i = Some x).
  { clear x y X Y. induction m as [|a m IH]; intros x X; [destruct X|]. cbn [find_index].
    destruct (eqb a x) eqn:E.
    - exists 0. split; [reflexivity|]. apply EQ in E. subst. reflexivity.
    - destruct X as [->|X]; [rewrite (proj2 (EQ x x) eq_refl) in E; discriminate|].
      destruct (IH x X) as (i & I1 & I2). rewrite I1. exists (S i). split; [reflexivity|exact I2]. }
  destruct (F l x X) as (i & I1 & I2). destruct (F l y Y) as (j & J1 & J2). rewrite I1, J1. intros ->. congruence.
Qed.

Lemma ccs_number b : number_of (fun s => one_piece_everywhere cc_desc s /\ odd_inv (cc_permutation s) = b) (product 24 / 2).
Proof.
  apply (number_of_iff (fun s => Permutation s cc_solved /\ odd_inv (map (place cc_eqb cc_solved) s) = b)).
  - intros s. rewrite <- (set_valid_spec _ cc_desc_ok), (plain_valid cc_desc cc_desc_ok (fun p => eq_refl)). reflexivity.
  - apply (number_of_parity (place cc_eqb cc_solved) cc_solved).
    + exact (do_nodup _ cc_desc_ok).
    + change (length cc_solved) with 24. lia.
    + apply place_inj, cc_eqb_eq.
Qed.

Lemma same_hand_true c : same_hand true c = right_handed c.
Proof. unfold same_hand. destruct (right_handed c); reflexivity. Qed.
Lemma same_hand_false c : same_hand false c = negb (right_handed c).
Proof. unfold same_hand. destruct (right_handed c); reflexivity. Qed.

Lemma filter_split {A} (f : A -> bool) l : Permutation l (filter f l ++ filter (fun a => negb (f a)) l).
Proof.
  induction l as [|a l IH]; [constructor|]. cbn [filter]. destruct (f a); cbn [negb app]; [constructor; exact IH|].
  eapply perm_trans; [constructor; exact IH|]. apply Permutation_middle.
Qed.

Definition hand (h : bool) : list CenterWing := filter (same_hand h) cw_solved.
Lemma hand_number h b : number_of (fun s => Permutation s (hand h) /\ odd_inv (map (place cw_eqb (hand h)) s) = b) (product 24 / 2).
Proof.
  assert (L : length (hand h) = 24) by (destruct h; reflexivity). rewrite <- L.
  apply (number_of_parity (place cw_eqb (hand h)) (hand h)).
  - apply NoDup_filter. exact (do_nodup _ cw_desc_ok).
  - rewrite L. lia.
  - apply place_inj, cw_eqb_eq.
Qed.

Lemma cws_number b : number_of (fun s => one_piece_everywhere cw_desc s /\ hands_kept s /\ forall h, odd_inv (cw_permutation h s) = b)
  (product 24 / 2 * (product 24 / 2)).
Proof.
  set (bs := map right_handed cw_solved).
  assert (FT : filter right_handed cw_solved = hand true) by (apply filter_ext; intros a; symmetry; apply same_hand_true).
  assert (FF : filter (fun a => negb (right_handed a)) cw_solved = hand false) by (apply filter_ext; intros a; symmetry; apply same_hand_false).
  apply (number_of_bij (fun x => (Permutation (fst x) (hand true) /\ odd_inv (map (place cw_eqb (hand true)) (fst x)) = b) /\
                                 (Permutation (snd x) (hand false) /\ odd_inv (map (place cw_eqb (hand false)) (snd x)) = b)) _
           (fun x => mix bs (fst x) (snd x)) (fun s => (filter (same_hand true) s, filter (same_hand false) s))).
  - intros [x y]. cbn [fst snd]. intros ((Px & Ox) & (Py & Oy)).
    destruct (mix_spec right_handed bs x y) as (M1 & M2 & M3 & M4).
    + intros a I. apply (Permutation_in _ Px) in I. unfold hand in I. apply filter_In in I as [_ I]. rewrite <- same_hand_true. exact I.
    + intros a I. apply (Permutation_in _ Py) in I. unfold hand in I. apply filter_In in I as [_ I]. rewrite same_hand_false in I. apply negb_true_iff, I.
    + rewrite (Permutation_length Px). reflexivity.
    + rewrite (Permutation_length Py). reflexivity.
    + set (s := mix bs x y) in *.
      assert (E1 : filter (same_hand true) s = x) by (rewrite <- M2; apply filter_ext; intros; apply same_hand_true).
      assert (E2 : filter (same_hand false) s = y) by (rewrite <- M3; apply filter_ext; intros; apply same_hand_false).
      split; [|rewrite E1, E2; reflexivity]. split; [|split].
      * apply (set_valid_spec _ cw_desc_ok), (plain_valid cw_desc cw_desc_ok (fun p => eq_refl)).
        change (pd_reference cw_desc) with cw_solved. eapply perm_trans; [exact M4|]. eapply perm_trans; [apply Permutation_app; [exact Px|exact Py]|].
        rewrite <- FT, <- FF. apply Permutation_sym, filter_split.
      * exact M1.
      * intros []; unfold cw_permutation; [rewrite E1; exact Ox|rewrite E2; exact Oy].
  - intros s (W & HK & O). apply (set_valid_spec _ cw_desc_ok), (plain_valid cw_desc cw_desc_ok (fun p => eq_refl)) in W.
    change (pd_reference cw_desc) with cw_solved in W. cbn [fst snd]. split; [split; split|].
    + apply Permutation_filter, W.
    + exact (O true).
    + apply Permutation_filter, W.
    + exact (O false).
    + unfold bs. rewrite <- HK. rewrite (filter_ext _ _ same_hand_true), (filter_ext _ _ same_hand_false). apply mix_filter.
  - apply (number_of_pairs (fun x => Permutation x (hand true) /\ odd_inv (map (place cw_eqb (hand true)) x) = b) (fun _ y => Permutation y (hand false) /\ odd_inv (map (place cw_eqb (hand false)) y) = b)); [apply hand_number|].
    intros _ _. apply hand_number.
Qed.

(** The centre edges are determined by the edges. *)
Definition ce_step (s : list CenterEdge) (m : AxisMove) : list CenterEdge := ces_apply 1 2 s (mkWide 0 m).
Lemma ce_step_inj s s' m : ce_step s m = ce_step s' m -> s = s'.
Proof.
  unfold ce_step. change (map (fun x => mo_act ce_mover 1 0 2 x (mkWide 0 m)) s = map (fun x => mo_act ce_mover 1 0 2 x (mkWide 0 m)) s' -> s = s').
  revert s'. induction s as [|a s IH]; intros [|b s'] E; try discriminate; [reflexivity|]. cbn [map] in E. injection E as E1 E2.
  f_equal; [exact (mo_act_inj ce_mover 1 0 2 _ _ _ E1)|apply IH, E2].
Qed.
Lemma ce_step_length s m : length (ce_step s m) = length s.
Proof. apply map_length. Qed.
Lemma follows_run al : forall es s, follows_edges es s -> follows_edges (fold_left edge_set_apply al es) (fold_left ce_step al s).
Proof.
  induction al as [|m al IH]; intros es s F; [exact F|]. apply IH. apply (follows_move 1 2 es s (mkWide 0 m)); [lia|exact F].
Qed.
Lemma ce_run_inj al : forall s s', fold_left ce_step al s = fold_left ce_step al s' -> s = s'.
Proof. induction al as [|m al IH]; intros s s' E; [exact E|]. apply IH in E. apply ce_step_inj in E. exact E. Qed.
Lemma ce_run_length al : forall s, length (fold_left ce_step al s) = length s.
Proof. induction al as [|m al IH]; intros s; [reflexivity|]. cbn [fold_left]. rewrite IH. apply ce_step_length. Qed.
Lemma ce_run_wf al : forall s, set_valid ce_desc s -> set_valid ce_desc (fold_left ce_step al s).
Proof.
  induction al as [|m al IH]; intros s V; [exact V|]. apply IH. unfold ce_step.
  change (set_valid ce_desc (map (fun x => mo_act ce_mover 1 0 2 x (mkWide 0 m)) s)). apply (map_valid ce_desc); [|exact V].
  intros p q E. exact (mo_act_inj ce_mover 1 0 2 _ _ _ E).
Qed.
Lemma edges_run al : forall c, c3_edges (fold_left cube3_apply al c) = fold_left edge_set_apply al (c3_edges c).
Proof. induction al as [|m al IH]; intros c; [reflexivity|]. cbn [fold_left]. rewrite IH. reflexivity. Qed.

Lemma ces_number es cs : cube3_sets_valid (mkCube3 es cs) -> invariants (mkCube3 es cs) ->
  number_of (fun s => one_piece_everywhere ce_desc s /\ follows_edges es s) 1.
Proof.
  intros W I. assert (W' : cube_well_formed Size3 (mkCube3 es cs)).
  { destruct W as [WE WC]. split; [apply (set_valid_spec _ edge_desc_ok), WE|apply (set_valid_spec _ corner_desc_ok), WC]. }
  destruct (proj2 (C07_reachable_exactly (mkCube3 es cs))) as (al & E). { destruct I as (I1 & I2 & I3). auto. }
  destruct (proj2 (C07_solvable_exactly (mkCube3 es cs))) as (bl & E'). { destruct I as (I1 & I2 & I3). auto. }
  assert (Ea : fold_left edge_set_apply al edge_solved = es).
  { pose proof (edges_run al cube3_solved) as R. rewrite E in R. symmetry. exact R. }
  assert (Eb : fold_left edge_set_apply bl es = edge_solved).
  { pose proof (edges_run bl (mkCube3 es cs)) as R. rewrite E' in R. symmetry. exact R. }
  exists [fold_left ce_step al ce_solved]. split; [repeat constructor; intros []|]. split; [|reflexivity].
  assert (V : set_valid ce_desc (fold_left ce_step al ce_solved)) by (apply ce_run_wf; exact (solved_valid _ ce_desc_ok)).
  assert (F : follows_edges es (fold_left ce_step al ce_solved)) by (rewrite <- Ea; apply follows_run, follows_edges_solved).
  intros s. cbn [In]. split.
  - intros [<-|[]]. split; [apply (set_valid_spec _ ce_desc_ok), V|exact F].
  - intros [Ws Fs]. left. apply (set_valid_spec _ ce_desc_ok) in Ws. apply (ce_run_inj bl). transitivity ce_solved; [|symmetry].
    + apply follows_solved; [rewrite !ce_run_length; reflexivity|]. rewrite <- Eb. apply follows_run, F.
    + apply follows_solved; [rewrite ce_run_length; apply Ws|]. rewrite <- Eb. apply follows_run, Fs.
Qed.

(* ------------------------------------------------------------------ *)
(** * C76 *)

Lemma outer_only n : (cube_size_N n / 2 - 1 = 0)%N -> forall al, Forall (fits n) al -> map (fun w => mkWide 0 (w_move w)) al = al.
Proof.
  intros E al F. induction F as [|[d m] al Fw F IH]; [reflexivity|]. cbn [map w_move]. rewrite IH. unfold fits in Fw. rewrite E in Fw. cbn [w_depth] in Fw.
  replace d with 0%N by lia. reflexivity.
Qed.
Lemma turned2 al : forall c, turned Size2 c (map (mkWide 0) al) = fold_left cube2_apply al c.
Proof. induction al as [|m al IH]; intros c; [reflexivity|]. exact (IH (cube2_apply c m)). Qed.
Lemma turned3 al : forall c, turned Size3 c (map (mkWide 0) al) = fold_left cube3_apply al c.
Proof. induction al as [|m al IH]; intros c; [reflexivity|]. exact (IH (cube3_apply c m)). Qed.
Lemma fits_outer n al : Forall (fits n) (map (mkWide 0) al).
Proof. apply Forall_map, Forall_forall. intros m _. unfold fits. cbn [w_depth]. lia. Qed.

Lemma reachable2 c : reachable Size2 c <-> corner_state (c2_corners c).
Proof.
  rewrite corner_state_iff. change (one_piece_everywhere corner_desc (c2_corners c)) with (cube_well_formed Size2 c).
  rewrite <- C09_solvable_exactly. split.
  - intros (al & F & E). exists (map w_move (undo al)). rewrite <- turned2, map_map.
    rewrite (outer_only Size2 eq_refl) by apply fits_undo, F. rewrite <- E. exact (turned_undo Size2 _ al).
  - intros (al & E). rewrite <- turned2 in E. exists (undo (map (mkWide 0) al)). split; [apply fits_undo, fits_outer|].
    change (cube_solved Size2) with cube2_solved. rewrite <- E. exact (turned_undo Size2 _ _).
Qed.
Lemma reachable3 c : reachable Size3 c <-> exists al, fold_left cube3_apply al c = cube3_solved.
Proof.
  split.
  - intros (al & F & E). exists (map w_move (undo al)). rewrite <- turned3, map_map.
    rewrite (outer_only Size3 eq_refl) by apply fits_undo, F. rewrite <- E. exact (turned_undo Size3 _ al).
  - intros (al & E). rewrite <- turned3 in E. exists (undo (map (mkWide 0) al)). split; [apply fits_undo, fits_outer|].
    change (cube_solved Size3) with cube3_solved. rewrite <- E. exact (turned_undo Size3 _ _).
Qed.

Theorem C76_2x2x2 : number_of (reachable Size2) (product 8 * 3 ^ 7).
Proof.
  apply (number_of_bij corner_state _ mkCube2 c2_corners); [| |exact corners_number].
  - intros cs S. split; [apply reachable2; exact S|reflexivity].
  - intros c R. split; [apply reachable2, R|]. destruct c. reflexivity.
Qed.

Theorem C76_3x3x3 : number_of (reachable Size3) (product 12 * 2 ^ 11 * (product 8 * 3 ^ 7) / 2).
Proof.
  destruct C54_number_of_cubes as (l & N & I & L). exists l. split; [exact N|]. split; [|exact (eq_trans L eq_refl)].
  intros c. rewrite I. symmetry. apply reachable3.
Qed.

Theorem C76_4x4x4 : number_of (reachable Size4) (product 8 * 3 ^ 7 * product 24 * (product 24 / 2)).
Proof.
  apply (number_of_bij (fun x : (list Corner * list Wing) * list CenterCorner =>
      (corner_state (fst (fst x)) /\ one_piece_everywhere wing_desc (snd (fst x))) /\
      (one_piece_everywhere cc_desc (snd x) /\ odd_inv (cc_permutation (snd x)) = odd_inv (corner_permutation (fst (fst x))))) _
    (fun x => mkCube4 (fst (fst x)) (snd (fst x)) (snd x)) (fun c => ((c4_corners c, c4_wings c), c4_centers c))).
  - intros [[cs ws] zs]. cbn [fst snd]. intros ((S & W) & Z & O). split; [|reflexivity]. apply C72_4x4x4_reachable.
    apply corner_state_iff in S as [C T]. split; [cbn; auto|]. split; [exact T|]. apply same_parity_odd. exact O.
  - intros c R. apply C72_4x4x4_reachable in R as ((C & W & Z) & T & O). cbn [fst snd]. split; [|destruct c; reflexivity].
    split; [split; [apply corner_state_iff; auto|exact W]|]. split; [exact Z|]. apply same_parity_odd. exact O.
  - apply (number_of_pairs (fun y => corner_state (fst y) /\ one_piece_everywhere wing_desc (snd y))
      (fun y z => one_piece_everywhere cc_desc z /\ odd_inv (cc_permutation z) = odd_inv (corner_permutation (fst y)))).
    + apply (number_of_pairs corner_state (fun _ w => one_piece_everywhere wing_desc w)); [exact corners_number|]. intros _ _. exact wings_number.
    + intros y _. apply ccs_number.
Qed.

Definition core_state (c : Cube3) : Prop := cube_well_formed Size3 c /\ invariants c.
Lemma core_number : number_of core_state (product 12 * 2 ^ 11 * (product 8 * 3 ^ 7) / 2).
Proof.
  apply (number_of_iff (reachable Size3)); [|exact C76_3x3x3]. intros c. rewrite reachable3, C07_solvable_exactly. unfold core_state, invariants. tauto.
Qed.
Lemma core_ces c : core_state c -> number_of (fun s => one_piece_everywhere ce_desc s /\ follows_edges (c3_edges c) s) 1.
Proof.
  intros [[WE WC] I]. destruct c as [es cs]. apply (ces_number es cs); [|exact I].
  split; [apply (set_valid_spec _ edge_desc_ok), WE|apply (set_valid_spec _ corner_desc_ok), WC].
Qed.

Theorem C76_5x5x5 : number_of (reachable Size5) (product 12 * 2 ^ 11 * (product 8 * 3 ^ 7) / 2 * (product 24 / 2)).
Proof.
  rewrite <- (N.mul_1_r (_ * _)).
  apply (number_of_bij (fun x : (Cube3 * list CenterCorner) * list CenterEdge =>
      (core_state (fst (fst x)) /\ (one_piece_everywhere cc_desc (snd (fst x)) /\ odd_inv (cc_permutation (snd (fst x))) = odd_inv (corner_permutation (c3_corners (fst (fst x)))))) /\
      (one_piece_everywhere ce_desc (snd x) /\ follows_edges (c3_edges (fst (fst x))) (snd x))) _
    (fun x => mkCube5 (c3_corners (fst (fst x))) (c3_edges (fst (fst x))) (snd (fst x)) (snd x))
    (fun c => ((mkCube3 (c5_edges c) (c5_corners c), c5_center_corners c), c5_center_edges c))).
  - intros [[[es cs] zs] ts]. cbn [fst snd c3_edges c3_corners]. intros ((((WE & WC) & I) & Z & O) & T & F). split; [|reflexivity].
    apply C74_5x5x5_reachable_partial. split; [cbn; auto|]. split; [exact I|]. split; [|exact F]. apply same_parity_odd. exact O.
  - intros c R. apply C74_5x5x5_reachable_partial in R as ((C & E & Z & T) & I & O & F). cbn [fst snd c3_edges c3_corners]. split; [|destruct c; reflexivity].
    split; [split; [split; [split; assumption|exact I]|split; [exact Z|apply same_parity_odd, O]]|]. split; assumption.
  - apply (number_of_pairs (fun y => core_state (fst y) /\ (one_piece_everywhere cc_desc (snd y) /\ odd_inv (cc_permutation (snd y)) = odd_inv (corner_permutation (c3_corners (fst y)))))
      (fun y s => one_piece_everywhere ce_desc s /\ follows_edges (c3_edges (fst y)) s)).
    + apply (number_of_pairs core_state (fun c z => one_piece_everywhere cc_desc z /\ odd_inv (cc_permutation z) = odd_inv (corner_permutation (c3_corners c)))); [exact core_number|].
      intros c _. apply ccs_number.
    + intros y [C _]. apply core_ces, C.
Qed.

(** What the wings and centres of a 6x6x6 or 7x7x7 can be, given the corners. *)
Definition inner := ((list Wing * list Wing) * (list CenterCorner * list CenterCorner) * list CenterWing)%type.
Definition inner_state (cs : list Corner) (x : inner) : Prop :=
  let '(w1, w2, (z1, z2), cw) := x in
  one_piece_everywhere wing_desc w1 /\ one_piece_everywhere wing_desc w2 /\
  (one_piece_everywhere cc_desc z1 /\ odd_inv (cc_permutation z1) = odd_inv (corner_permutation cs)) /\
  (one_piece_everywhere cc_desc z2 /\ odd_inv (cc_permutation z2) = odd_inv (corner_permutation cs)) /\
  (one_piece_everywhere cw_desc cw /\ hands_kept cw /\
   forall h, odd_inv (cw_permutation h cw)
     = xorb (odd_inv (corner_permutation cs)) (xorb (odd_inv (wing_permutation w1)) (odd_inv (wing_permutation w2)))).
Lemma inner_number cs : number_of (inner_state cs) (product 24 ^ 2 * (product 24 / 2) ^ 4).
Proof.
  replace (product 24 ^ 2 * (product 24 / 2) ^ 4)%N
    with ((product 24 * product 24) * ((product 24 / 2) * (product 24 / 2)) * ((product 24 / 2) * (product 24 / 2)))%N by reflexivity.
  set (cc := fun z => one_piece_everywhere cc_desc z /\ odd_inv (cc_permutation z) = odd_inv (corner_permutation cs)).
  apply (number_of_iff (fun x : inner => ((one_piece_everywhere wing_desc (fst (fst (fst x))) /\ one_piece_everywhere wing_desc (snd (fst (fst x)))) /\
      (cc (fst (snd (fst x))) /\ cc (snd (snd (fst x))))) /\
      (one_piece_everywhere cw_desc (snd x) /\ hands_kept (snd x) /\ forall h, odd_inv (cw_permutation h (snd x))
         = xorb (odd_inv (corner_permutation cs)) (xorb (odd_inv (wing_permutation (fst (fst (fst x))))) (odd_inv (wing_permutation (snd (fst (fst x))))))))).
  { intros [[[w1 w2] [z1 z2]] cw]. unfold inner_state, cc. cbn [fst snd]. tauto. }
  apply (number_of_pairs (fun y : (list Wing * list Wing) * (list CenterCorner * list CenterCorner) =>
      (one_piece_everywhere wing_desc (fst (fst y)) /\ one_piece_everywhere wing_desc (snd (fst y))) /\ (cc (fst (snd y)) /\ cc (snd (snd y))))
    (fun y cw => one_piece_everywhere cw_desc cw /\ hands_kept cw /\ forall h, odd_inv (cw_permutation h cw)
         = xorb (odd_inv (corner_permutation cs)) (xorb (odd_inv (wing_permutation (fst (fst y)))) (odd_inv (wing_permutation (snd (fst y))))))).
  - apply (number_of_pairs (fun y => one_piece_everywhere wing_desc (fst y) /\ one_piece_everywhere wing_desc (snd y)) (fun _ z => cc (fst z) /\ cc (snd z))).
    + apply (number_of_pairs (one_piece_everywhere wing_desc) (fun _ w => one_piece_everywhere wing_desc w)); [exact wings_number|]. intros _ _. exact wings_number.
    + intros _ _. apply (number_of_pairs cc (fun _ z => cc z)); [apply ccs_number|]. intros _ _. apply ccs_number.
  - intros y _. apply cws_number.
Qed.

Lemma cw_law_odd cs w1 w2 cw : cw_parity_law cs w1 w2 cw <-> hands_kept cw /\ forall h, odd_inv (cw_permutation h cw)
     = xorb (odd_inv (corner_permutation cs)) (xorb (odd_inv (wing_permutation w1)) (odd_inv (wing_permutation w2))).
Proof.
  unfold cw_parity_law. rewrite !even_permutation_odd. split; intros [H1 H2]; (split; [exact H1|]); intros h; specialize (H2 h);
    rewrite ?even_permutation_odd in *; destruct (odd_inv (cw_permutation h cw)), (odd_inv (corner_permutation cs)), (odd_inv (wing_permutation w1)), (odd_inv (wing_permutation w2));
    cbn in *; congruence.
Qed.

Theorem C76_6x6x6 : number_of (reachable Size6) (product 8 * 3 ^ 7 * (product 24 ^ 2 * (product 24 / 2) ^ 4)).
Proof.
  apply (number_of_bij (fun x : list Corner * inner => corner_state (fst x) /\ inner_state (fst x) (snd x)) _
    (fun x => let '(cs, (w1, w2, (z1, z2), cw)) := x in mkCube6 cs w1 w2 z1 z2 cw)
    (fun c => (c6_corners c, (c6_wings_1 c, c6_wings_2 c, (c6_center_corners_1 c, c6_center_corners_2 c), c6_center_wings c)))).
  - intros [cs [[[w1 w2] [z1 z2]] cw]]. cbn [fst snd]. intros (S & W1 & W2 & (Z1 & O1) & (Z2 & O2) & CW & L). split; [|reflexivity].
    apply C72_6x6x6_reachable. apply corner_state_iff in S as [C T]. split; [cbn; auto 7|]. split; [exact T|].
    split; [apply same_parity_odd, O1|]. split; [apply same_parity_odd, O2|]. apply cw_law_odd. exact L.
  - intros c R. apply C72_6x6x6_reachable in R as ((C & W1 & W2 & Z1 & Z2 & CW) & T & O1 & O2 & L). cbn [fst snd]. split; [|destruct c; reflexivity].
    split; [apply corner_state_iff; auto|]. apply same_parity_odd in O1, O2. apply cw_law_odd in L. unfold inner_state. tauto.
  - apply (number_of_pairs corner_state inner_state); [exact corners_number|]. intros cs _. apply inner_number.
Qed.

Theorem C76_7x7x7 : number_of (reachable Size7)
  (product 12 * 2 ^ 11 * (product 8 * 3 ^ 7) / 2 * (product 24 ^ 2 * (product 24 / 2) ^ 4)).
Proof.
  rewrite <- (N.mul_1_r (_ * _ ^ _)), <- (N.mul_1_r (_ ^ _ * _)). rewrite <- (N.mul_1_r (_ * _ ^ _)).
  apply (number_of_bij (fun x : Cube3 * (inner * (list CenterEdge * list CenterEdge)) => core_state (fst x) /\
      (inner_state (c3_corners (fst x)) (fst (snd x)) /\
       ((one_piece_everywhere ce_desc (fst (snd (snd x))) /\ follows_edges (c3_edges (fst x)) (fst (snd (snd x)))) /\
        (one_piece_everywhere ce_desc (snd (snd (snd x))) /\ follows_edges (c3_edges (fst x)) (snd (snd (snd x))))))) _
    (fun x => let '(c, ((w1, w2, (z1, z2), cw), (t1, t2))) := x in mkCube7 (c3_corners c) (c3_edges c) w1 w2 z1 z2 cw t1 t2)
    (fun c => (mkCube3 (c7_edges c) (c7_corners c),
       ((c7_wings_1 c, c7_wings_2 c, (c7_center_corners_1 c, c7_center_corners_2 c), c7_center_wings c), (c7_center_edges_1 c, c7_center_edges_2 c))))).
  - intros [[es cs] [[[[w1 w2] [z1 z2]] cw] [t1 t2]]]. cbn [fst snd c3_edges c3_corners].
    intros (((WE & WC) & I) & (W1 & W2 & (Z1 & O1) & (Z2 & O2) & CW & L) & (T1 & F1) & (T2 & F2)). split; [|reflexivity].
    apply C74_7x7x7_reachable_partial. cbn [c3_edges c3_corners] in *. split; [cbn; auto 12|]. split; [exact I|].
    split; [apply same_parity_odd, O1|]. split; [apply same_parity_odd, O2|]. split; [apply cw_law_odd; exact L|]. split; assumption.
  - intros c R. apply C74_7x7x7_reachable_partial in R as ((C & E & W1 & W2 & Z1 & Z2 & CW & T1 & T2) & I & O1 & O2 & L & F1 & F2).
    cbn [fst snd c3_edges c3_corners]. split; [|destruct c; reflexivity].
    split; [split; [split; assumption|exact I]|]. apply same_parity_odd in O1, O2. apply cw_law_odd in L. unfold inner_state. tauto.
  - apply (number_of_pairs core_state (fun c y => inner_state (c3_corners c) (fst y) /\
       ((one_piece_everywhere ce_desc (fst (snd y)) /\ follows_edges (c3_edges c) (fst (snd y))) /\
        (one_piece_everywhere ce_desc (snd (snd y)) /\ follows_edges (c3_edges c) (snd (snd y)))))); [exact core_number|].
    intros c C. apply (number_of_pairs (inner_state (c3_corners c)) (fun _ t => (one_piece_everywhere ce_desc (fst t) /\ follows_edges (c3_edges c) (fst t)) /\
        (one_piece_everywhere ce_desc (snd t) /\ follows_edges (c3_edges c) (snd t)))); [apply inner_number|]. intros _ _.
    apply (number_of_pairs (fun t => one_piece_everywhere ce_desc t /\ follows_edges (c3_edges c) t) (fun _ t => one_piece_everywhere ce_desc t /\ follows_edges (c3_edges c) t) 1 1);
      [|intros _ _]; apply core_ces, C.
Qed.

(** The numbers in full. *)
Theorem C76_in_digits :
  number_of (reachable Size2) 88179840 /\
  number_of (reachable Size3) 43252003274489856000 /\
  number_of (reachable Size4) 16972688908618238933770849245964147960401887232000000000 /\
  number_of (reachable Size5) 13417818151709034939052041101723566080000000 /\
  number_of (reachable Size6) 314400584525598793267442224243065087614921141588495489391257470548807254229625219119563974615817890733502415818587095317872640000000000000000000000000 /\
  number_of (reachable Size7) 154212744221385792443570230599666653052607908551389062155464042910547510136419581295228656786776222689252178719711773078132227231973376000000000000000000000000000.
Proof.
  split; [exact C76_2x2x2|]. split; [exact C76_3x3x3|]. split; [exact C76_4x4x4|].
  split; [exact C76_5x5x5|]. split; [exact C76_6x6x6|exact C76_7x7x7].
Qed.

(* ------------------------------------------------------------------ *)
(** * Taking the cube apart *)

Lemma number_of_lists {A} (xs : list A) n : NoDup xs -> (forall x, In x xs) -> number_of (fun l : list A => length l = n) (N.of_nat (length xs) ^ N.of_nat n).
Proof.
  intros N H. exists (all_lists xs n). split; [apply all_lists_nodup, N|]. split; [apply all_lists_in, H|].
  induction n as [|n IH]; [reflexivity|]. rewrite all_lists_length, Nat2N.inj_mul, IH, Nat2N.inj_succ, N.pow_succ_r'. lia.
Qed.

Section Oriented.
  Context {P Pos O : Type} (d : PieceDesc P Pos) (OK : desc_ok d) (os : list O) (mk : Pos -> O -> P) (ori : P -> O).
  Context (OS : NoDup os).
  Context (OA : forall o, In o os).
  Context (MK : forall p, mk (pd_position d p) (ori p) = p).
  Context (MP : forall x o, pd_position d (mk x o) = x).
  Context (MO : forall x o, ori (mk x o) = o).
  Lemma oriented_number : number_of (one_piece_everywhere d)
    (product (length (pd_reference d)) * N.of_nat (length os) ^ N.of_nat (length (pd_reference d))).
  Proof.
    set (k := length (pd_reference d)).
    assert (M1 : forall ps ls, length ps = length ls -> map (pd_position d) (map (fun x => mk (fst x) (snd x)) (combine ps ls)) = ps /\
                                map ori (map (fun x => mk (fst x) (snd x)) (combine ps ls)) = ls).
    { induction ps as [|p ps IH]; intros [|o ls] L; try discriminate L; [split; reflexivity|]. cbn [combine map fst snd]. rewrite MP, MO.
      destruct (IH ls) as [I1 I2]; [cbn in L; lia|]. rewrite I1, I2. split; reflexivity. }
    assert (M2 : forall s, map (fun x => mk (fst x) (snd x)) (combine (map (pd_position d) s) (map ori s)) = s).
    { induction s as [|p s IH]; [reflexivity|]. cbn [map combine fst snd]. rewrite MK, IH. reflexivity. }
    apply (number_of_bij (fun x => Permutation (fst x) (pd_reference d) /\ length (snd x) = k) _
      (fun x => map (fun y => mk (fst y) (snd y)) (combine (fst x) (snd x))) (fun s => (map (pd_position d) s, map ori s))).
    - intros [ps ls]. cbn [fst snd]. intros [Pm L]. pose proof (Permutation_length Pm) as Lp. fold k in Lp.
      destruct (M1 ps ls) as [I1 I2]; [congruence|]. rewrite I1, I2. split; [|reflexivity].
      apply (set_valid_spec _ OK). split; [rewrite map_length, combine_length; fold k; lia|]. rewrite I1.
      apply (Permutation_NoDup (Permutation_sym Pm)), (do_nodup _ OK).
    - intros s W. apply (set_valid_spec _ OK) in W. cbn [fst snd]. split; [|apply M2]. split; [apply (set_valid_perm _ OK), W|].
      rewrite map_length. apply W.
    - apply (number_of_pairs (fun x => Permutation x (pd_reference d)) (fun _ (l : list O) => length l = k)); [apply number_of_perms, (do_nodup _ OK)|].
      intros _ _. apply number_of_lists; assumption.
  Qed.
End Oriented.

Lemma all_corners_number : number_of (one_piece_everywhere corner_desc) (product 8 * 3 ^ 8).
Proof.
  apply (oriented_number corner_desc corner_desc_ok [AX; AY; AZ] mkCorner c_axis).
  - repeat constructor; cbn; intuition discriminate.
  - intros []; cbn; tauto.
  - intros []; reflexivity.
  - reflexivity.
  - reflexivity.
Qed.
Lemma all_edges_number : number_of (one_piece_everywhere edge_desc) (product 12 * 2 ^ 12).
Proof.
  apply (oriented_number edge_desc edge_desc_ok [false; true] (fun p o => mkEdge (fst p) (snd p) o) e_oriented).
  - repeat constructor; cbn; intuition discriminate.
  - intros []; cbn; tauto.
  - intros []; reflexivity.
  - intros [] o; reflexivity.
  - reflexivity.
Qed.

(** A cube put together anyhow: one in 3 of the 2x2x2s can be solved, one in 12 of the
    3x3x3s, one in 6 of the 4x4x4s. *)
Theorem C76_taken_apart :
  number_of (cube_well_formed Size2) (3 * (product 8 * 3 ^ 7)) /\
  number_of (cube_well_formed Size3) (12 * (product 12 * 2 ^ 11 * (product 8 * 3 ^ 7) / 2)) /\
  number_of (cube_well_formed Size4) (6 * (product 8 * 3 ^ 7 * product 24 * (product 24 / 2))).
Proof.
  split; [|split].
  - apply (number_of_bij (one_piece_everywhere corner_desc) _ mkCube2 c2_corners); [| |exact all_corners_number].
    + intros cs W. split; [exact W|reflexivity].
    + intros c W. split; [exact W|]. destruct c. reflexivity.
  - apply (number_of_bij (fun x => one_piece_everywhere edge_desc (fst x) /\ one_piece_everywhere corner_desc (snd x)) _
      (fun x => mkCube3 (fst x) (snd x)) (fun c => (c3_edges c, c3_corners c))).
    + intros [es cs] W. split; [exact W|reflexivity].
    + intros c W. split; [exact W|]. destruct c. reflexivity.
    + exact (number_of_pairs _ (fun _ => one_piece_everywhere corner_desc) _ _ all_edges_number (fun _ _ => all_corners_number)).
  - apply (number_of_bij (fun x => (one_piece_everywhere corner_desc (fst (fst x)) /\ one_piece_everywhere wing_desc (snd (fst x))) /\ one_piece_everywhere cc_desc (snd x)) _
      (fun x => mkCube4 (fst (fst x)) (snd (fst x)) (snd x)) (fun c => ((c4_corners c, c4_wings c), c4_centers c))).
    + intros [[cs ws] zs] W. split; [cbn in *; tauto|reflexivity].
    + intros c W. split; [cbn in *; tauto|]. destruct c. reflexivity.
    + exact (number_of_pairs _ (fun _ => one_piece_everywhere cc_desc) _ _
        (number_of_pairs _ (fun _ => one_piece_everywhere wing_desc) _ _ all_corners_number (fun _ _ => wings_number))
        (fun _ _ => plain_number cc_desc cc_desc_ok (fun p => eq_refl))).
Qed.

(** The counting is not about nothing: two different reachable states of the 5x5x5, and a
    set of two things has two things. *)
Example C76_example :
  reachable Size5 cube5_solved /\
  reachable Size5 (cube5_apply_wide cube5_solved (mkWide 1 (mkMove fR Single))) /\
  cube5_apply_wide cube5_solved (mkWide 1 (mkMove fR Single)) <> cube5_solved /\
  number_of (fun b : bool => b = true \/ b = false) 2.
Proof.
  split; [exists []; split; [constructor|reflexivity]|]. split.
  - exists [mkWide 1 (mkMove fR Single)]. split; [|reflexivity]. repeat constructor. unfold fits. cbn [w_depth]. change (cube_size_N Size5 / 2 - 1)%N with 1%N. lia.
  - split; [vm_compute; discriminate|]. exists [true; false]. split; [repeat constructor; cbn; intuition discriminate|]. split; [intros []; cbn; tauto|reflexivity].
Qed.
Print Assumptions C76_2x2x2.
Print Assumptions C76_3x3x3.
Print Assumptions C76_4x4x4.
Print Assumptions C76_5x5x5.
Print Assumptions C76_6x6x6.
Print Assumptions C76_7x7x7.
Print Assumptions C76_in_digits.
Print Assumptions C76_taken_apart.

(** The three invariants: preserved by moves, established by the random cubes, and
    sufficient for solvability. *)

From Coq Require Import List Bool Arith ZArith Lia Permutation.
From Verif Require Import Model_Base Model_Space Model_Moves Model_Pieces Model_PieceSet Model_Cubes
  Model_Invariants Spec_Sets Spec_Invariants Proof_Sets Proof_Parity Data_Solve Proof_Solve.
Import ListNotations.
Open Scope nat_scope.

(* ------------------------------------------------------------------ *)
(** * Permutation parity and moves *)

Lemma corner_permutation_perm s : set_valid corner_desc s -> Permutation (corner_permutation s) (seq 0 8).
Proof.
  intros V. pose proof (set_valid_perm _ corner_desc_ok s V) as P. cbn in P.
  apply (Permutation_map (place vec3_eqb corner_reference)) in P. rewrite map_map in P.
  exact P.
Qed.
Lemma edge_permutation_perm s : set_valid edge_desc s -> Permutation (edge_permutation s) (seq 0 12).
Proof.
  intros V. pose proof (set_valid_perm _ edge_desc_ok s V) as P.
  change (pd_reference edge_desc) with edge_reference in P.
  apply (Permutation_map (place edgepos_eqb edge_reference)) in P. rewrite map_map in P.
  exact P.
Qed.

Definition corner_move_fun (m : AxisMove) (k : nat) : nat :=
  place vec3_eqb corner_reference
    (c_pos (corner_apply (corner_oriented (nth k corner_reference (mkVec3 Positive Positive Positive))) m)).
Definition edge_move_fun (m : AxisMove) (k : nat) : nat :=
  place edgepos_eqb edge_reference
    (edge_position (edge_apply (edge_oriented (nth k edge_reference (AX, mkVec2 Positive Positive))) m)).

Lemma corner_place_move c m :
  place vec3_eqb corner_reference (c_pos (corner_apply c m))
  = corner_move_fun m (place vec3_eqb corner_reference (c_pos c)).
Proof. destruct c as [[[] [] []] []], m as [[[] []] []]; reflexivity. Qed.
Lemma edge_place_move e m :
  place edgepos_eqb edge_reference (edge_position (edge_apply e m))
  = edge_move_fun m (place edgepos_eqb edge_reference (edge_position e)).
Proof. destruct e as [[] [[] []] []], m as [[[] []] []]; reflexivity. Qed.

Lemma corner_permutation_move s m :
  corner_permutation (corner_set_apply s m) = map (corner_move_fun m) (corner_permutation s).
Proof.
  unfold corner_permutation, corner_set_apply. rewrite !map_map. apply map_ext. intros c. apply corner_place_move.
Qed.
Lemma edge_permutation_move s m :
  edge_permutation (edge_set_apply s m) = map (edge_move_fun m) (edge_permutation s).
Proof.
  unfold edge_permutation, edge_set_apply. rewrite !map_map. apply map_ext. intros c. apply edge_place_move.
Qed.

(** A quarter turn is an odd permutation of the corners and of the edges. *)
Definition odd_move (m : AxisMove) : bool := negb (amount_eqb (mv_amount m) Double).

Lemma corner_move_sign m : odd_inv (map (corner_move_fun m) (seq 0 8)) = odd_move m.
Proof. destruct m as [[[] []] []]; vm_compute; reflexivity. Qed.
Lemma edge_move_sign m : odd_inv (map (edge_move_fun m) (seq 0 12)) = odd_move m.
Proof. destruct m as [[[] []] []]; vm_compute; reflexivity. Qed.

Lemma corner_parity_move s m : set_valid corner_desc s ->
  odd_inv (corner_permutation (corner_set_apply s m)) = xorb (odd_move m) (odd_inv (corner_permutation s)).
Proof.
  intros V. pose proof (corner_permutation_perm s V) as P.
  pose proof (corner_permutation_perm _ (corner_set_valid s m V)) as P'.
  rewrite corner_permutation_move in *.
  assert (E := odd_inv_map (corner_move_fun m) _ _ P).
  rewrite corner_move_sign in E. change (odd_inv (seq 0 8)) with false in E.
  rewrite xorb_false_r in E. rewrite <- E.
  - destruct (odd_inv (map _ _)), (odd_inv (corner_permutation s)); reflexivity.
  - apply (cyc_nodup _ _ P).
  - apply (cyc_nodup _ _ P').
Qed.
Lemma edge_parity_move s m : set_valid edge_desc s ->
  odd_inv (edge_permutation (edge_set_apply s m)) = xorb (odd_move m) (odd_inv (edge_permutation s)).
Proof.
  intros V. pose proof (edge_permutation_perm s V) as P.
  pose proof (edge_permutation_perm _ (edge_set_valid s m V)) as P'.
  rewrite edge_permutation_move in *.
  assert (E := odd_inv_map (edge_move_fun m) _ _ P).
  rewrite edge_move_sign in E. change (odd_inv (seq 0 12)) with false in E.
  rewrite xorb_false_r in E. rewrite <- E.
  - destruct (odd_inv (map _ _)), (odd_inv (edge_permutation s)); reflexivity.
  - apply (cyc_nodup _ _ P).
  - apply (cyc_nodup _ _ P').
Qed.

(* ------------------------------------------------------------------ *)
(** * Flips and moves *)

Definition edge_delta (m : AxisMove) (p : EdgePos) : bool := negb (e_oriented (edge_apply (edge_oriented p) m)).

Lemma edge_flip_move e m :
  negb (e_oriented (edge_apply e m)) = xorb (negb (e_oriented e)) (edge_delta m (edge_position e)).
Proof. destruct e as [[] [[] []] []], m as [[[] []] []]; reflexivity. Qed.

Lemma edge_delta_zero m : xor_all (edge_delta m) edge_reference = false.
Proof. destruct m as [[[] []] []]; vm_compute; reflexivity. Qed.

Lemma even_flips_xor es : even_flips es <-> xor_all (fun e => negb (e_oriented e)) es = false.
Proof.
  unfold even_flips. rewrite <- odd_filter, <- Nat.negb_odd. destruct (Nat.odd _); split; intros; auto; discriminate.
Qed.

Lemma even_flips_move s m : set_valid edge_desc s -> even_flips (edge_set_apply s m) <-> even_flips s.
Proof.
  intros V. rewrite !even_flips_xor. unfold edge_set_apply. rewrite xor_all_map.
  rewrite (xor_all_ext _ (fun e => xorb (negb (e_oriented e)) (edge_delta m (edge_position e)))).
  2:{ intros e _. apply edge_flip_move. }
  rewrite xor_all_xor. rewrite <- (xor_all_map (edge_delta m) edge_position).
  pose proof (set_valid_perm _ edge_desc_ok s V) as P.
  change (pd_reference edge_desc) with edge_reference in P. change (pd_position edge_desc) with edge_position in P.
  rewrite (xor_all_perm _ _ _ P), edge_delta_zero, xorb_false_r. reflexivity.
Qed.

(* ------------------------------------------------------------------ *)
(** * Twists and moves *)

Lemma list_sum_perm l1 l2 : Permutation l1 l2 -> list_sum l1 = list_sum l2.
Proof. unfold list_sum. induction 1; cbn [fold_right]; lia. Qed.

Lemma list_sum_mod {A} (f g h : A -> nat) l :
  (forall x, f x mod 3 = (g x + h x) mod 3) ->
  list_sum (map f l) mod 3 = (list_sum (map g l) + list_sum (map h l)) mod 3.
Proof.
  intros H. induction l as [|a l IH]; [reflexivity|]. cbn [map list_sum fold_right].
  change (fold_right Init.Nat.add 0 (map f l)) with (list_sum (map f l)).
  change (fold_right Init.Nat.add 0 (map g l)) with (list_sum (map g l)).
  change (fold_right Init.Nat.add 0 (map h l)) with (list_sum (map h l)).
  rewrite Nat.add_mod, H, IH, <- Nat.add_mod by lia. f_equal. lia.
Qed.

Definition corner_delta (m : AxisMove) (p : Vec3) : nat := twists (corner_apply (corner_oriented p) m).

Lemma corner_twist_move c m : twists (corner_apply c m) mod 3 = (twists c + corner_delta m (c_pos c)) mod 3.
Proof. destruct c as [[[] [] []] []], m as [[[] []] []]; reflexivity. Qed.

Lemma corner_delta_zero m : list_sum (map (corner_delta m) corner_reference) mod 3 = 0.
Proof. destruct m as [[[] []] []]; vm_compute; reflexivity. Qed.

Lemma twists_move s m : set_valid corner_desc s ->
  list_sum (map twists (corner_set_apply s m)) mod 3 = list_sum (map twists s) mod 3.
Proof.
  intros V. unfold corner_set_apply. rewrite map_map.
  rewrite (list_sum_mod _ twists (fun c => corner_delta m (c_pos c))) by (intros; apply corner_twist_move).
  rewrite <- (map_map c_pos (corner_delta m)).
  pose proof (set_valid_perm _ corner_desc_ok s V) as P.
  change (pd_reference corner_desc) with corner_reference in P. change (pd_position corner_desc) with c_pos in P.
  rewrite (list_sum_perm _ _ (Permutation_map _ P)), Nat.add_mod, corner_delta_zero by lia.
  rewrite Nat.add_0_r, Nat.mod_mod by lia. reflexivity.
Qed.

(* ------------------------------------------------------------------ *)
(** * All three *)

Definition cube3_sets_valid (c : Cube3) : Prop :=
  set_valid edge_desc (c3_edges c) /\ set_valid corner_desc (c3_corners c).

Lemma cube3_sets_valid_spec c : cube3_sets_valid c <-> cube_well_formed Size3 c.
Proof.
  unfold cube3_sets_valid. cbn. rewrite (set_valid_spec _ edge_desc_ok), (set_valid_spec _ corner_desc_ok). reflexivity.
Qed.

Lemma cube3_sets_valid_move c m : cube3_sets_valid c -> cube3_sets_valid (cube3_apply c m).
Proof. intros [E C]. split; [apply edge_set_valid, E|apply corner_set_valid, C]. Qed.

Lemma equal_parities_odd c : equal_parities c <->
  odd_inv (edge_permutation (c3_edges c)) = odd_inv (corner_permutation (c3_corners c)).
Proof.
  unfold equal_parities. rewrite !even_permutation_odd.
  destruct (odd_inv (edge_permutation _)), (odd_inv (corner_permutation _)); cbn; split; congruence.
Qed.

Lemma invariants_move c m : cube3_sets_valid c -> invariants (cube3_apply c m) <-> invariants c.
Proof.
  intros [VE VC]. unfold invariants. rewrite !equal_parities_odd.
  cbn [cube3_apply c3_edges c3_corners]. rewrite edge_parity_move, corner_parity_move, even_flips_move by assumption.
  unfold twists_divisible. rewrite twists_move by assumption.
  destruct (odd_move m), (odd_inv (edge_permutation _)), (odd_inv (corner_permutation _)); cbn; intuition congruence.
Qed.

Lemma invariants_run al : forall c, cube3_sets_valid c ->
  cube3_sets_valid (run3 c al) /\ (invariants (run3 c al) <-> invariants c).
Proof.
  induction al as [|m al IH]; intros c V; [split; [exact V|reflexivity]|].
  cbn [run3 fold_left]. destruct (IH (cube3_apply c m)) as [V' I'].
  - apply cube3_sets_valid_move, V.
  - split; [exact V'|]. rewrite <- (invariants_move c m V). exact I'.
Qed.

Lemma invariants_solved : invariants cube3_solved.
Proof. split; [|split]; vm_compute; reflexivity. Qed.

(* ------------------------------------------------------------------ *)
(** * Solvability *)

Lemma distinct_valid c : cube3_sets_valid c -> distinct_places c.
Proof. intros [[_ NE] [_ NC]]. split; assumption. Qed.
Lemma full_valid c : cube3_sets_valid c -> full_or_empty c.
Proof. intros [[LE _] [LC _]]. split; right; assumption. Qed.

Lemma corners_from_stages cs v : length cs = 8 ->
  (forall i c, In (CornerId i) (map fst solve_table) -> nth_error cs i = Some c -> nth_error corner_solved i = Some c) ->
  nth_error cs 7 = Some v -> cs = firstn 7 corner_solved ++ [v].
Proof.
  intros L H H7.
  do 8 (destruct cs as [|? cs]; [discriminate|]). destruct cs; [|discriminate].
  rename c into a0, c0 into a1, c1 into a2, c2 into a3, c3 into a4, c4 into a5, c5 into a6, c6 into a7.
  assert (G : forall i c, i < 7 -> nth_error [a0; a1; a2; a3; a4; a5; a6; a7] i = Some c -> nth_error corner_solved i = Some c).
  { intros i c Hi. apply H. do 7 (destruct i as [|i]; [apply (existsb_eqb _ id_eqb_eq); reflexivity|]). lia. }
  pose proof (G 0 _ ltac:(lia) eq_refl) as E0. pose proof (G 1 _ ltac:(lia) eq_refl) as E1.
  pose proof (G 2 _ ltac:(lia) eq_refl) as E2. pose proof (G 3 _ ltac:(lia) eq_refl) as E3.
  pose proof (G 4 _ ltac:(lia) eq_refl) as E4. pose proof (G 5 _ ltac:(lia) eq_refl) as E5.
  pose proof (G 6 _ ltac:(lia) eq_refl) as E6. cbn in H7.
  cbn in E0, E1, E2, E3, E4, E5, E6.
  injection E0 as <-. injection E1 as <-. injection E2 as <-. injection E3 as <-.
  injection E4 as <-. injection E5 as <-. injection E6 as <-. injection H7 as <-. reflexivity.
Qed.

Lemma edges_from_stages es v w : length es = 12 ->
  (forall i c, In (EdgeId i) (map fst solve_table) -> nth_error es i = Some c -> nth_error edge_solved i = Some c) ->
  nth_error es 10 = Some v -> nth_error es 11 = Some w -> es = firstn 10 edge_solved ++ [v; w].
Proof.
  intros L H H10 H11.
  do 12 (destruct es as [|? es]; [discriminate|]). destruct es; [|discriminate].
  assert (G : forall i c, i < 10 -> nth_error [e; e0; e1; e2; e3; e4; e5; e6; e7; e8; e9; e10] i = Some c -> nth_error edge_solved i = Some c).
  { intros i c Hi. apply H. do 10 (destruct i as [|i]; [apply (existsb_eqb _ id_eqb_eq); reflexivity|]). lia. }
  pose proof (G 0 _ ltac:(lia) eq_refl) as E0. pose proof (G 1 _ ltac:(lia) eq_refl) as E1.
  pose proof (G 2 _ ltac:(lia) eq_refl) as E2. pose proof (G 3 _ ltac:(lia) eq_refl) as E3.
  pose proof (G 4 _ ltac:(lia) eq_refl) as E4. pose proof (G 5 _ ltac:(lia) eq_refl) as E5.
  pose proof (G 6 _ ltac:(lia) eq_refl) as E6. pose proof (G 7 _ ltac:(lia) eq_refl) as E7.
  pose proof (G 8 _ ltac:(lia) eq_refl) as E8. pose proof (G 9 _ ltac:(lia) eq_refl) as E9.
  cbn in H10, H11. cbn in E0, E1, E2, E3, E4, E5, E6, E7, E8, E9.
  injection E0 as <-. injection E1 as <-. injection E2 as <-. injection E3 as <-. injection E4 as <-.
  injection E5 as <-. injection E6 as <-. injection E7 as <-. injection E8 as <-. injection E9 as <-.
  injection H10 as <-. injection H11 as <-. reflexivity.
Qed.

Lemma nth_error_len {A} (l : list A) i : i < length l -> exists x, nth_error l i = Some x.
Proof. intros H. destruct (nth_error l i) eqn:E; [eauto|]. apply nth_error_None in E. lia. Qed.

Lemma NoDup_app_disj {A} (a b : list A) x : NoDup (a ++ b) -> In x a -> In x b -> False.
Proof.
  induction a as [|y a IH]; intros N Ha Hb; [contradiction|]. cbn in N. inversion N; subst.
  destruct Ha as [->|Ha]; [apply H1, in_app_iff; auto|auto].
Qed.

(** Corners alone: solved by at most 125 moves. *)
Lemma corners_solvable cs : set_valid corner_desc cs -> twists_divisible cs ->
  exists al, length al <= 125 /\ fold_left corner_set_apply al cs = corner_solved.
Proof.
  intros V T.
  destruct (table_solves (mkCube3 [] cs)) as (al & L & S).
  { split; [apply V|constructor]. }
  { split; [right; apply V|left; reflexivity]. }
  exists al. split; [exact L|].
  assert (R : forall al es cs, run3 (mkCube3 es cs) al = mkCube3 (fold_left edge_set_apply al es) (fold_left corner_set_apply al cs)).
  { clear. induction al as [|m al IH]; intros es cs; [reflexivity|]. cbn. apply IH. }
  rewrite R in S. set (cs' := fold_left corner_set_apply al cs) in *.
  assert (V' : set_valid corner_desc cs' /\ twists_divisible cs').
  { clear - V T. subst cs'. revert cs V T. induction al as [|m al IH]; intros cs V T; [split; assumption|].
    cbn. apply IH; [apply corner_set_valid, V|]. unfold twists_divisible. rewrite twists_move; assumption. }
  destruct V' as [V' T'].
  destruct (nth_error_len cs' 7) as (v & Hv). { destruct V' as [L' _]. rewrite L'. cbn. lia. }
  assert (E : cs' = firstn 7 corner_solved ++ [v]).
  { apply corners_from_stages; [apply V'| |exact Hv]. intros i c Hi Hc. specialize (S (CornerId i) (inl c) Hi).
    cbn [get_piece c3_corners] in S. rewrite Hc in S. specialize (S eq_refl). cbn [solved_piece] in S.
    destruct (nth_error corner_solved i); [|discriminate]. cbn in S. congruence. }
  pose proof last_corner_true as LC. unfold last_corner_ok in LC. rewrite forallb_forall in LC.
  specialize (LC v (all_corner_states_complete v)). rewrite E in *.
  destruct (existsb _ (firstn 7 corner_solved)) eqn:Ex.
  - exfalso. apply existsb_exists in Ex as (x & Hx & Px). apply vec3_eqb_eq in Px.
    destruct V' as [_ N]. change (pd_position corner_desc) with c_pos in N. rewrite map_app in N.
    apply (NoDup_app_disj _ _ (c_pos v) N).
    + rewrite <- Px. apply in_map. exact Hx.
    + left. reflexivity.
  - unfold twists_divisible in T'. apply Nat.eqb_eq in T'. rewrite T' in LC. apply corner_eqb_eq in LC. subst v. reflexivity.
Qed.

Lemma solvable c : cube3_sets_valid c -> invariants c ->
  exists al, length al <= 139 /\ run3 c al = cube3_solved.
Proof.
  intros V I.
  destruct (table_solves c (distinct_valid c V) (full_valid c V)) as (al & L & S).
  destruct (invariants_run al c V) as [V' I']. apply I' in I. clear I'.
  set (c' := run3 c al) in *.
  destruct V' as [VE VC]. destruct I as [Ip [If It]].
  destruct (nth_error_len (c3_corners c') 7) as (v & Hv). { destruct VC as [L' _]. rewrite L'. cbn. lia. }
  destruct (nth_error_len (c3_edges c') 10) as (e & He). { destruct VE as [L' _]. rewrite L'. cbn. lia. }
  destruct (nth_error_len (c3_edges c') 11) as (g & Hg). { destruct VE as [L' _]. rewrite L'. cbn. lia. }
  assert (EC : c3_corners c' = firstn 7 corner_solved ++ [v]).
  { apply corners_from_stages; [apply VC| |exact Hv]. intros i x Hi Hc. specialize (S (CornerId i) (inl x) Hi).
    cbn [get_piece] in S. rewrite Hc in S. specialize (S eq_refl). cbn [solved_piece] in S.
    destruct (nth_error corner_solved i); [|discriminate]. cbn in S. congruence. }
  assert (EE : c3_edges c' = firstn 10 edge_solved ++ [e; g]).
  { apply edges_from_stages; [apply VE| |exact He|exact Hg]. intros i x Hi Hc. specialize (S (EdgeId i) (inr x) Hi).
    cbn [get_piece] in S. rewrite Hc in S. specialize (S eq_refl). cbn [solved_piece] in S.
    destruct (nth_error edge_solved i); [|discriminate]. cbn in S. congruence. }
  assert (EC' : c3_corners c' = corner_solved).
  { pose proof last_corner_true as LC. unfold last_corner_ok in LC. rewrite forallb_forall in LC.
    specialize (LC v (all_corner_states_complete v)). rewrite EC in *.
    destruct (existsb _ (firstn 7 corner_solved)) eqn:Ex.
    - exfalso. apply existsb_exists in Ex as (x & Hx & Px). apply vec3_eqb_eq in Px.
      destruct VC as [_ N]. change (pd_position corner_desc) with c_pos in N. rewrite map_app in N.
      apply (NoDup_app_disj _ _ (c_pos v) N).
      + rewrite <- Px. apply in_map. exact Hx.
      + left. reflexivity.
    - unfold twists_divisible in It. apply Nat.eqb_eq in It. rewrite It in LC. apply corner_eqb_eq in LC. subst v. reflexivity. }
  assert (EE' : c3_edges c' = edge_solved \/ c3_edges c' = flipped_last_two).
  { pose proof last_edges_true as LC. unfold last_edges_ok in LC. rewrite forallb_forall in LC.
    specialize (LC e (all_edge_states_complete e)). rewrite forallb_forall in LC.
    specialize (LC g (all_edge_states_complete g)).
    unfold equal_parities in Ip. rewrite EC' in Ip. change (even_permutation (corner_permutation corner_solved)) with true in Ip.
    unfold even_flips in If. rewrite EE in *. cbv zeta in LC. rewrite Ip, If in LC.
    destruct VE as [_ N]. change (pd_position edge_desc) with edge_position in N. rewrite map_app in N.
    destruct (existsb _ (firstn 10 edge_solved)) eqn:Ex.
    - exfalso. apply existsb_exists in Ex as (x & Hx & Px). apply edgepos_eqb_eq in Px.
      apply (NoDup_app_disj _ _ (edge_position e) N); [rewrite <- Px; apply in_map; exact Hx|left; reflexivity].
    - destruct (existsb _ (e :: firstn 10 edge_solved)) eqn:Ex2.
      + exfalso. apply existsb_exists in Ex2 as (x & Hx & Px). apply edgepos_eqb_eq in Px. destruct Hx as [<-|Hx].
        * assert (N2 : NoDup (map edge_position [e; g])).
          { clear - N. induction (map edge_position (firstn 10 edge_solved)); cbn in N; [exact N|inversion N; auto]. }
          cbn in N2. inversion N2 as [|? ? N3 _]; subst. apply N3. left. congruence.
        * apply (NoDup_app_disj _ _ (edge_position g) N); [rewrite <- Px; apply in_map; exact Hx|right; left; reflexivity].
      + cbn [andb] in LC. apply orb_true_iff in LC as [LC|LC]; apply (list_eqb_eq _ edge_eqb_eq) in LC; auto. }
  destruct EE' as [EE'|EE'].
  - exists al. split; [lia|]. fold c'. destruct c' as [es cs]. cbn in EC', EE'. rewrite EC', EE'. reflexivity.
  - exists (al ++ double_flip). split; [rewrite app_length, double_flip_length; lia|].
    rewrite run3_app. fold c'. destruct c' as [es cs]. cbn [c3_edges c3_corners] in EC', EE'. rewrite EC', EE'.
    apply double_flip_run.
Qed.

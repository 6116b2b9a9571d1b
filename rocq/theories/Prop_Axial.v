(** C107: searching with turns of parallel faces. *)

From Coq Require Import List Bool Arith ZArith NArith Lia.
From Verif Require Import Model_Base Model_Float Model_Space Model_Moves Model_NonRedundant Model_Pieces Model_PieceSet Model_Cubes Model_Invariants Model_Search Model_Mus Model_Cache
  Spec_Moves Spec_Search Spec_Sets Spec_Invariants Spec_Cache Proof_Sets Proof_Solve Proof_Search Proof_Cross Prop_Moves Prop_NonRedundant Prop_Search Prop_Invariants Prop_Cache Prop_Quarter.
Import ListNotations.
Local Open Scope nat_scope.

(** generic/search/ida.rs:33-40 [IDASearcher::new] and generic/search/mod.rs:25-33 [Solver::solve] for [Cube3] and
    [NonRedundantAxisMove] (moves/non_redundant.rs:347-370): a user passes [NonRedundantAxisMove::all], a heuristic
    and a limit. *)
Definition axial_searcher (heuristic : Cube3 -> f32) : Problem f32 Cube3 NRMove :=
  mkProblem f32 Cube3 NRMove cube3_eqb (fun c => map (fun m => (apply_nr cube3_apply c m, m)) nr_all) heuristic cube3_is_solved.
Definition axial_solve (heuristic : Cube3 -> f32) (max_depth : Z) (fuel : nat) (c : Cube3) : solve_result :=
  solve f32_costs (axial_searcher heuristic) fuel max_depth c.

(** What the alg does. *)
Definition axials (nl : list NRMove) (c : Cube3) : Cube3 := fold_left (apply_nr cube3_apply) nl c.
Definition fewest_axials (c : Cube3) (nl : list NRMove) : Prop :=
  axials nl c = cube3_solved /\ forall nl', axials nl' c = cube3_solved -> length nl <= length nl'.

Definition exacta (est : Cube3 -> Z) : Problem Z Cube3 NRMove :=
  mkProblem Z Cube3 NRMove cube3_eqb (fun c => map (fun m => (apply_nr cube3_apply c m, m)) nr_all) est cube3_is_solved.
Lemma sounda h : successors_sound (axial_searcher h) (apply_nr cube3_apply).
Proof. intros x s m I. apply in_map_iff in I as (m' & E & _). injection E as <- <-. reflexivity. Qed.
Lemma resulta h md fuel c nl : axial_solve h md fuel c = SolveDone (Some nl) -> axials nl c = cube3_solved.
Proof.
  unfold axial_solve, solve. destruct (search f32_costs (axial_searcher h) fuel md c) as [[[al' c']|]| |] eqn:E; try discriminate.
  destruct (C28_search_sound _ _ _ _ _ _ (sounda h) _ _ _ _ _ E) as (F & T). rewrite T. intros K. injection K as <-. unfold axials. rewrite F. apply solvedq, T.
Qed.

(** As face turns, and back. *)
Lemma as_faces nl : forall c, axials nl c = fold_left cube3_apply (flat_map nr_moves nl) c.
Proof. unfold axials. induction nl as [|m nl IH]; intros c; [reflexivity|]. cbn [fold_left flat_map]. rewrite fold_left_app. apply IH. Qed.
Lemma faces_twice nl : length (flat_map nr_moves nl) <= 2 * length nl.
Proof. induction nl as [|[m|a p n] nl IH]; cbn [flat_map nr_moves app length] in *; lia. Qed.
Lemma as_axials al : exists nl, length nl <= length al /\ forall c, axials nl c = fold_left cube3_apply al c.
Proof. destruct (C63_every_alg al) as (nl & _ & L & E). exists nl. split; [exact L|]. exact (E Size3). Qed.

Section Facts.
  Context (k : Z) (Hk : (0 <= k <= 1)%Z) (h : Cube3 -> f32) (est : Cube3 -> Z).
  Context (W : forall c, h c = f32_scaled (- k) (est c) /\ (0 <= est c < 2 ^ 22)%Z).
  Lemma dyadica fuel md c : search f32_costs (axial_searcher h) fuel md c = search f32_costs (dyadic_problem k (exacta est)) fuel md c.
  Proof. apply search_ext; try reflexivity. intros x. apply (W x). Qed.
  Lemma eqa : equality_ok (exacta est).
  Proof. intros a b. apply cube3_eqb_eq. Qed.
  Lemma completea : successors_complete (exacta est) (apply_nr cube3_apply).
  Proof. intros x m. apply in_map_iff. exists m. split; [reflexivity|]. apply (proj2 (proj2 (proj1 C63_lists))). Qed.
  Lemma boundeda : forall c, (0 <= pr_heuristic (exacta est) c <= 2 ^ 22)%Z.
  Proof. intros c. pose proof (proj2 (W c)). cbn [exacta pr_heuristic]. lia. Qed.
  Context (Ad : forall c nl, axials nl c = cube3_solved -> (est c <= 2 ^ k * Z.of_nat (length nl))%Z).
  Lemma admissiblea : admissible (2 ^ k) (exacta est) (apply_nr cube3_apply).
  Proof. intros x al R. apply solvedq in R. apply Ad in R. cbn [exacta pr_heuristic]. lia. Qed.
  Lemma fewest_scaled md c : (278 <= md < 2 ^ 21)%Z -> solvable3 c ->
    exists fuel0 nl, (forall fuel, fuel0 <= fuel -> axial_solve h md fuel c = SolveDone (Some nl)) /\ fewest_axials c nl /\ length nl <= 139.
  Proof.
    intros Md Sv. apply C07_solvable_exactly in Sv as (Wf & I1 & I2 & I3).
    destruct (C07_invariants_solvable c Wf I1 I2 I3) as (al & L & S). destruct (as_axials al) as (bl & L2 & E). rewrite <- E in S.
    pose proof (boundeda c) as B. assert (K : (1 <= 2 ^ k <= 2)%Z) by (destruct (Z.eq_dec k 0) as [ -> |]; [lia|replace k with 1%Z by lia; lia]).
    destruct (C29_complete Cube3 NRMove k (2 ^ 22) (exacta est) (apply_nr cube3_apply) ltac:(lia) eqa completea boundeda md ltac:(lia) ltac:(nia) c bl) as (f & [r c'] & F).
    { apply solvedq, S. }
    { right. split; [exact admissiblea|]. nia. }
    assert (F' : forall fuel, f <= fuel -> axial_solve h md fuel c = SolveDone (Some r)).
    { intros fuel Lf. unfold axial_solve, solve. specialize (F fuel Lf). rewrite <- dyadica in F. rewrite F.
      destruct (C28_search_sound _ _ _ _ _ _ (sounda h) _ _ _ _ _ F) as (_ & ->). reflexivity. }
    assert (O : forall nl', axials nl' c = cube3_solved -> length r <= length nl').
    { intros al' R. apply (C29_optimal_f32 Cube3 NRMove k (2 ^ 22) (exacta est) (apply_nr cube3_apply) ltac:(lia) eqa completea boundeda admissiblea f md ltac:(nia) c r c'); [apply F; lia|].
      apply solvedq, R. }
    exists f, r. split; [exact F'|]. split; [|specialize (O bl S); lia]. split; [|exact O]. apply (resulta h md f c r), F'. lia.
  Qed.
End Facts.

(** ** As few turns of parallel faces as possible *)

Theorem C107_fewest : forall heuristic estimate, whole3 heuristic estimate ->
  (forall c nl, axials nl c = cube3_solved -> (estimate c <= Z.of_nat (length nl))%Z) ->
  forall max_depth, (278 <= max_depth < 2 ^ 21)%Z -> forall c, solvable3 c ->
  exists fuel0 nl, (forall fuel, fuel0 <= fuel -> axial_solve heuristic max_depth fuel c = SolveDone (Some nl)) /\
    fewest_axials c nl /\ length nl <= 139.
Proof.
  intros h est W Ad md Md c Sv. apply (fewest_scaled 0 ltac:(lia) h est W); [|exact Md|exact Sv].
  intros x nl E. apply Ad in E. change (2 ^ 0)%Z with 1%Z. lia.
Qed.

Theorem C107_unsolvable : forall heuristic estimate, whole3 heuristic estimate ->
  forall max_depth, (0 <= max_depth < 2 ^ 21)%Z -> forall c, ~ solvable3 c ->
  forall fuel, (estimate c + max_depth + 1 < Z.of_nat fuel)%Z -> axial_solve heuristic max_depth fuel c = SolveDone None.
Proof.
  intros h est W md Md c No fuel L.
  destruct (C30_depth_bounded Cube3 NRMove 0 (2 ^ 22) (exacta est) ltac:(lia) (boundeda 0 h est W) md ltac:(lia) ltac:(lia) c fuel) as (r & R).
  { change (2 ^ 0)%Z with 1%Z. cbn [exacta pr_heuristic]. lia. }
  unfold axial_solve, solve. rewrite <- (dyadica 0 h est W) in R. rewrite R. destruct r as [[al c']|]; [|reflexivity].
  destruct (C28_search_sound _ _ _ _ _ _ (sounda h) _ _ _ _ _ R) as (F & T). destruct No. exists (flat_map nr_moves al).
  rewrite <- as_faces. unfold axials. rewrite F. apply solvedq, T.
Qed.

(** The number is at most that of the face turns and at least half of it. *)
Theorem C107_compared : forall c nl al, fewest_axials c nl -> fold_left cube3_apply al c = cube3_solved ->
  (forall al', fold_left cube3_apply al' c = cube3_solved -> length al <= length al') ->
  length nl <= length al <= 2 * length nl.
Proof.
  intros c nl al [Q Qm] S Sm. split.
  - destruct (as_axials al) as (bl & L & E). rewrite <- E in S. specialize (Qm _ S). lia.
  - rewrite as_faces in Q. specialize (Sm _ Q). pose proof (faces_twice nl). lia.
Qed.

(** ** Which heuristics can be used *)

(** Half of [mus], as the [f32] the division gives. *)
Lemma halves_exact z : (0 <= z <= 139)%Z -> f32_div (f32_of_Z z) (f32_of_Z 2) = f32_scaled (- 1) z.
Proof.
  intros H. assert (K : forallb (fun n => match f32_div (f32_of_Z (Z.of_nat n)) (f32_of_Z 2), f32_scaled (- 1) (Z.of_nat n) with
    | SpecFloat.S754_zero s, SpecFloat.S754_zero s' => Bool.eqb s s'
    | SpecFloat.S754_finite s m e, SpecFloat.S754_finite s' m' e' => Bool.eqb s s' && Pos.eqb m m' && Z.eqb e e'
    | _, _ => false end) (seq 0 140) = true) by (vm_compute; reflexivity).
  rewrite forallb_forall in K. specialize (K (Z.to_nat z) ltac:(apply in_seq; lia)). cbv beta in K. rewrite Z2Nat.id in K by lia.
  destruct (f32_div _ _), (f32_scaled _ _); try discriminate.
  - apply eqb_prop in K. congruence.
  - apply andb_prop in K as [K K3]. apply andb_prop in K as [K1 K2]. apply eqb_prop in K1. apply Pos.eqb_eq in K2. apply Z.eqb_eq in K3. congruence.
Qed.
Theorem C107_half_of_mus : forall ca, complete_cache ca ->
  forall max_depth, (278 <= max_depth < 2 ^ 21)%Z -> forall c, solvable3 c ->
  exists fuel0 nl, (forall fuel, fuel0 <= fuel ->
      axial_solve (fun c => f32_div (mus_value ca c) (f32_of_Z 2)) max_depth fuel c = SolveDone (Some nl)) /\
    fewest_axials c nl.
Proof.
  intros ca CC md Md c Sv. set (est := fun c => match cache_get ca c with Done v => Z.of_N v | Panic => 0%Z end).
  assert (B : forall x, (0 <= est x <= 139)%Z). { intros x. unfold est. destruct (cache_get ca x) as [v|] eqn:G; [|lia]. apply (cache_bounded ca _ v CC) in G. lia. }
  destruct (fewest_scaled 1 ltac:(lia) (fun c => f32_div (mus_value ca c) (f32_of_Z 2)) est) with (md := md) (c := c) as (f & nl & F & Q & _); [| |exact Md|exact Sv|eauto].
  - intros x. split; [|specialize (B x); lia]. rewrite <- halves_exact by apply B. f_equal.
    unfold mus_value, mus, cache_get_or_init, est. destruct (cache_get ca x); reflexivity.
  - intros x nl E. rewrite as_faces in E. destruct (C36_admissible ca x _ CC E) as (v & G & L). pose proof (faces_twice nl). unfold est. rewrite G. change (2 ^ 1)%Z with 2%Z. lia.
Qed.

(** [mus] itself overestimates: it says two where one turn of both faces is enough. *)
Definition both : NRMove := NRDouble AX Single Single.
Theorem C107_mus_overestimates : forall ca, complete_cache ca ->
  let c := apply_nr cube3_apply cube3_solved (NRDouble AX Inverse Inverse) in
  axials [both] c = cube3_solved /\ mus_value ca c = f32_of_Z 2.
Proof.
  intros ca CC c. split; [vm_compute; reflexivity|].
  assert (E : fold_left cube3_apply [mkMove fR Single; mkMove fL Single] c = cube3_solved) by (vm_compute; reflexivity).
  assert (S : exists al, fold_left cube3_apply al c = cube3_solved) by eauto. apply C07_solvable_exactly in S as (W & _ & _ & T).
  destruct (C36_mus_value ca c CC W T) as (dc & d1 & d2 & G & Dc & _). destruct (C36_admissible ca c _ CC E) as (v & G' & L). rewrite G in G'. injection G' as Ev. cbn [length] in L.
  assert (2 <= N.to_nat dc).
  { destruct (proj1 Dc) as (al & Ll & S). rewrite <- Ll. destruct al as [|m [|m' al]]; [vm_compute in S; discriminate S| |cbn; lia].
    exfalso. clear - S. destruct m as [[[] []] []]; vm_compute in S; discriminate S. }
  unfold mus_value, mus, cache_get_or_init. rewrite G. cbn [bind_o map_o from_outcome snd fst]. replace (N.max dc (N.max d1 d2)) with 2%N by lia. reflexivity.
Qed.
(** So a heuristic that never overestimates the face turns can make the search miss the shorter
    alg: here 0, 1 or 2 by the number of face turns that are needed at least. *)
Definition up_to_two (c : Cube3) : Z :=
  if cube3_is_solved c then 0%Z else if existsb (fun m => cube3_is_solved (cube3_apply c m)) all_moves then 1%Z else 2%Z.
Theorem C107_face_turns_not_enough :
  (forall c al, fold_left cube3_apply al c = cube3_solved -> (up_to_two c <= Z.of_nat (length al))%Z) /\
  let c := apply_nr cube3_apply cube3_solved (NRDouble AX Inverse Inverse) in
  axials [both] c = cube3_solved /\
  exists nl, length nl = 2 /\ forall fuel, 4 <= fuel -> axial_solve (fun c => f32_of_Z (up_to_two c)) 278 fuel c = SolveDone (Some nl).
Proof.
  split; [|intros c; split; [vm_compute; reflexivity|]].
  - intros c [|m [|m' al]] E; cbn [fold_left] in E; unfold up_to_two.
    + rewrite (proj2 (solvedq c) E). cbn. lia.
    + destruct (cube3_is_solved c); [cbn; lia|]. rewrite (proj2 (existsb_exists _ _)); [cbn; lia|]. exists m. split; [apply all_moves_complete|apply solvedq, E].
    + cbn [length]. destruct (cube3_is_solved c); [lia|]. destruct (existsb _ _); lia.
  - exists [NRSingle (mkMove fL Single); NRSingle (mkMove fR Single)]. split; [reflexivity|]. intros fuel Lf.
    assert (X : search f32_costs (axial_searcher (fun c => f32_of_Z (up_to_two c))) 4 278 c = SearchDone (Some ([NRSingle (mkMove fL Single); NRSingle (mkMove fR Single)], cube3_solved))) by (vm_compute; reflexivity).
    unfold axial_solve, solve. unfold search in *. replace fuel with (4 + (fuel - 4)) by lia. rewrite iter_fuel; rewrite X; [reflexivity|discriminate].
Qed.

(** Non-vacuity: R L, which takes one turn of both faces, with the zero heuristic. *)
Example C107_example :
  let c := apply_nr cube3_apply cube3_solved (NRDouble AX Inverse Inverse) in
  solvable3 c /\ fewest_axials c [both] /\ axial_solve (zero_heuristic f32_costs) 278 3 c = SolveDone (Some [both]).
Proof.
  split; [exists [mkMove fR Single; mkMove fL Single]; vm_compute; reflexivity|]. split.
  - split; [vm_compute; reflexivity|]. intros [|m nl] E; [vm_compute in E; discriminate E|cbn; lia].
  - vm_compute. reflexivity.
Qed.
Print Assumptions C107_fewest.
Print Assumptions C107_unsolvable.
Print Assumptions C107_compared.
Print Assumptions C107_half_of_mus.
Print Assumptions C107_mus_overestimates.
Print Assumptions C107_face_turns_not_enough.

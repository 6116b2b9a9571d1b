(** C43: the manhattan heuristic. *)

From Coq Require Import List Bool Arith ZArith SpecFloat Lia Permutation.
From Verif Require Import Model_Base Model_Space Model_Moves Model_Pieces Model_PieceSet Model_Cubes
  Model_Visual Model_Search Model_Float Model_Cross Spec_Search Spec_Geometry Spec_Stickers Spec_Sets Spec_Cross
  Proof_Sets Proof_Search Proof_Float Proof_FloatSearch Proof_Solve Proof_Invariants Proof_Cross Proof_Moves Prop_Invariants Prop_Search.
Import ListNotations.
Local Open Scope Z_scope.

(** The exact value, in sixteenths of a move: the taxicab distances of all edges and
    corners from their homes, added up. *)
Definition edge_point (p : EdgePos) : V3 := to_v3 (edge_coordinates p).
Definition corner_point (p : Vec3) : V3 := to_v3 (corner_coordinates p).
Definition taxicab_edges (es : list Edge) : Z :=
  sum_Z (map (fun x => taxicab (edge_point (edge_position (snd x))) (edge_point (fst x))) (combine edge_reference es)).
Definition taxicab_corners (cs : list Corner) : Z :=
  sum_Z (map (fun x => taxicab (corner_point (c_pos (snd x))) (corner_point (fst x))) (combine corner_reference cs)).
Definition taxicab_total (c : Cube3) : Z := taxicab_edges (c3_edges c) + taxicab_corners (c3_corners c).

(** ** The code's value is exact *)

Lemma edge_manhattan_exact p e : edge_manhattan p e = f32_of_Z (taxicab (edge_point (edge_position e)) (edge_point p)).
Proof. destruct p as [[] [[] []]], e as [[] [[] []] o]; vm_compute; reflexivity. Qed.
Lemma corner_manhattan_exact p c : corner_manhattan p c = f32_of_Z (taxicab (corner_point (c_pos c)) (corner_point p)).
Proof. destruct p as [[] [] []], c as [[[] [] []] a]; vm_compute; reflexivity. Qed.

Lemma f32_sum_exact l : forall a, 0 <= a -> (forall z, In z l -> 0 <= z) -> fold_left Z.add l a < 2 ^ 24 ->
  fold_left f32_add (map f32_of_Z l) (f32_of_Z a) = f32_of_Z (fold_left Z.add l a).
Proof.
  induction l as [|x l IH]; intros a A H B; cbn [fold_left map] in *; [reflexivity|].
  assert (0 <= x) by (apply H; left; reflexivity).
  assert (Mono : forall l a, (forall z, In z l -> 0 <= z) -> a <= fold_left Z.add l a).
  { clear. induction l as [|y l IH]; intros a H; cbn [fold_left]; [lia|].
    pose proof (H y (or_introl eq_refl)). pose proof (IH (a + y) (fun z Hz => H z (or_intror Hz))). lia. }
  pose proof (Mono l (a + x) (fun z Hz => H z (or_intror Hz))).
  rewrite !f32_of_Z_scaled, f32_add_scaled by lia. rewrite <- f32_of_Z_scaled. apply IH; auto; [lia|].
  intros z Hz. apply H. right. exact Hz.
Qed.

Lemma taxicab_nonneg a b : 0 <= taxicab a b. Proof. unfold taxicab. lia. Qed.
Lemma edge_taxicab_max p q : taxicab (edge_point p) (edge_point q) <= 4.
Proof. destruct p as [[] [[] []]], q as [[] [[] []]]; vm_compute; discriminate. Qed.
Lemma corner_taxicab_max p q : taxicab (corner_point p) (corner_point q) <= 6.
Proof. destruct p as [[] [] []], q as [[] [] []]; vm_compute; discriminate. Qed.

Lemma taxicab_edges_bounds es : 0 <= taxicab_edges es <= 48.
Proof.
  unfold taxicab_edges, sum_Z.
  destruct (fold_add_bounds 4 (map (fun x : EdgePos * Edge => taxicab (edge_point (edge_position (snd x))) (edge_point (fst x))) (combine edge_reference es)) 0) as (L & U).
  - intros z H. apply in_map_iff in H as (x & <- & _). split; [apply taxicab_nonneg|apply edge_taxicab_max].
  - rewrite map_length, combine_length in U. change (length edge_reference) with 12%nat in U. lia.
Qed.
Lemma taxicab_corners_bounds cs : 0 <= taxicab_corners cs <= 48.
Proof.
  unfold taxicab_corners, sum_Z.
  destruct (fold_add_bounds 6 (map (fun x : Vec3 * Corner => taxicab (corner_point (c_pos (snd x))) (corner_point (fst x))) (combine corner_reference cs)) 0) as (L & U).
  - intros z H. apply in_map_iff in H as (x & <- & _). split; [apply taxicab_nonneg|apply corner_taxicab_max].
  - rewrite map_length, combine_length in U. change (length corner_reference) with 8%nat in U. lia.
Qed.

Lemma sixteenth_exact z : 0 <= z <= 96 -> f32_div (f32_of_Z z) (f32_mul (f32_of_Z 8) (f32_of_Z 2)) = f32_scaled (- 4) z.
Proof.
  intros H. assert (forallb (fun n => match f32_div (f32_of_Z (Z.of_nat n)) (f32_mul (f32_of_Z 8) (f32_of_Z 2)), f32_scaled (- 4) (Z.of_nat n) with
    | S754_finite a m e, S754_finite b n k => Bool.eqb a b && Pos.eqb m n && Z.eqb e k
    | S754_zero a, S754_zero b => Bool.eqb a b | _, _ => false end) (seq 0 97) = true) by (vm_compute; reflexivity).
  rewrite forallb_forall in H0. specialize (H0 (Z.to_nat z)). rewrite in_seq, Z2Nat.id in H0 by lia.
  specialize (H0 ltac:(lia)). destruct (f32_div _ _), (f32_scaled _ _); try discriminate.
  - apply Bool.eqb_prop in H0. congruence.
  - apply andb_true_iff in H0 as (H0 & H1). apply andb_true_iff in H0 as (H0 & H2).
    apply Bool.eqb_prop in H0. apply Pos.eqb_eq in H2. apply Z.eqb_eq in H1. congruence.
Qed.

(** The value of [manhattan], for every cube: exactly the taxicab total over 16. *)
Theorem C43_value : forall c : Cube3,
  manhattan c = f32_scaled (- 4) (taxicab_total c) /\ 0 <= taxicab_total c <= 96.
Proof.
  intros c. pose proof (taxicab_edges_bounds (c3_edges c)) as BE. pose proof (taxicab_corners_bounds (c3_corners c)) as BC.
  unfold taxicab_total. split; [|lia]. unfold manhattan, edges_manhattan, corners_manhattan, f32_sum, iter_with_pos. cbn [pd_reference edge_desc corner_desc].
  rewrite (map_ext _ _ (fun x => edge_manhattan_exact (fst x) (snd x))), (map_ext _ _ (fun x => corner_manhattan_exact (fst x) (snd x))).
  rewrite <- (map_map (fun x : EdgePos * Edge => taxicab (edge_point (edge_position (snd x))) (edge_point (fst x))) f32_of_Z).
  rewrite <- (map_map (fun x : Vec3 * Corner => taxicab (corner_point (c_pos (snd x))) (corner_point (fst x))) f32_of_Z).
  unfold taxicab_edges, taxicab_corners, sum_Z in *.
  rewrite !f32_sum_exact; try lia.
  - rewrite !f32_of_Z_scaled at 1. rewrite f32_add_scaled by lia. rewrite <- f32_of_Z_scaled. apply sixteenth_exact. lia.
  - intros z H. apply in_map_iff in H as (x & <- & _). apply taxicab_nonneg.
  - intros z H. apply in_map_iff in H as (x & <- & _). apply taxicab_nonneg.
Qed.

(** ** The claim is false *)

(** R2 is solved in one move and estimated at 1.5. *)
Theorem C43_overestimates_refuted :
  exists c al, cube_well_formed Size3 c /\ fold_left cube3_apply al c = cube3_solved /\
    length al = 1%nat /\ f32_ltb (f32_of_Z 1) (manhattan c) = true.
Proof.
  exists (cube3_apply cube3_solved (mkMove fR Double)), [mkMove fR Double]. split; [|vm_compute; auto].
  apply cube3_sets_valid_spec, cube3_sets_valid_move. split; split; try reflexivity.
  - apply (find_dup_none _ edgepos_eqb_eq). vm_compute. reflexivity.
  - apply (find_dup_none _ vec3_eqb_eq). vm_compute. reflexivity.
Qed.

(** And so the solution found with it need not be shortest: after R2 L2 the searcher
    returns three moves. *)
Theorem C43_search_refuted :
  let c := fold_left cube3_apply [mkMove fR Double; mkMove fL Double] cube3_solved in
  exists al, solve_with_heuristic f32_costs manhattan 20 c = SolveDone (Some al) /\ length al = 3%nat /\
    fold_left cube3_apply [mkMove fR Double; mkMove fL Double] c = cube3_solved.
Proof. eexists. vm_compute. auto. Qed.

(** ** What holds instead *)

(** Cost of a move in sixteenths: 1 for a quarter turn, 1.5 for a half turn. *)
Definition taxi_cost (m : AxisMove) : Z := match mv_amount m with Double => 24 | _ => 16 end.

Lemma taxicab_triangle a b c : taxicab a c <= taxicab a b + taxicab b c.
Proof. unfold taxicab. lia. Qed.

Lemma fold_add_acc l : forall a, fold_left Z.add l a = a + sum_Z l.
Proof.
  unfold sum_Z. induction l as [|x l IH]; intros a; cbn [fold_left]; [lia|]. rewrite IH, (IH (0 + x)). lia.
Qed.
Lemma sum_cons x l : sum_Z (x :: l) = x + sum_Z l.
Proof. unfold sum_Z. cbn [fold_left]. rewrite fold_add_acc. unfold sum_Z. lia. Qed.
Lemma sum_perm l l' : Permutation l l' -> sum_Z l = sum_Z l'.
Proof. induction 1; rewrite ?sum_cons; lia. Qed.

Lemma sum_step {P Pos} (pos : P -> Pos) (pt : Pos -> V3) (mv : P -> P) : forall (ref : list Pos) (s : list P),
  sum_Z (map (fun x => taxicab (pt (pos (snd x))) (pt (fst x))) (combine ref s)) <=
  sum_Z (map (fun p => taxicab (pt (pos p)) (pt (pos (mv p)))) s) +
  sum_Z (map (fun x => taxicab (pt (pos (snd x))) (pt (fst x))) (combine ref (map mv s))).
Proof.
  induction ref as [|r ref IH]; intros s.
  - cbn [combine map]. change (sum_Z []) with 0. 
    assert (0 <= sum_Z (map (fun p => taxicab (pt (pos p)) (pt (pos (mv p)))) s)); [|lia].
    induction s as [|p s IHs]; [reflexivity|]. cbn [map]. rewrite sum_cons. pose proof (taxicab_nonneg (pt (pos p)) (pt (pos (mv p)))). lia.
  - destruct s as [|p s]; [cbn; lia|]. cbn [combine map]. rewrite !sum_cons. cbn [fst snd]. specialize (IH s).
    pose proof (taxicab_triangle (pt (pos p)) (pt (pos (mv p))) (pt r)). lia.
Qed.

Definition edge_shift (m : AxisMove) (p : EdgePos) : Z :=
  taxicab (edge_point p) (edge_point (edge_position (edge_apply (mkEdge (fst p) (snd p) true) m))).
Definition corner_shift (m : AxisMove) (p : Vec3) : Z :=
  taxicab (corner_point p) (corner_point (c_pos (corner_apply (mkCorner p AX) m))).

Lemma total_step c m : cube3_sets_valid c -> taxicab_total c <= taxi_cost m + taxicab_total (cube3_apply c m).
Proof.
  intros [VE VC]. unfold taxicab_total, taxicab_edges, taxicab_corners. cbn [cube3_apply c3_edges c3_corners].
  unfold edge_set_apply, corner_set_apply.
  pose proof (sum_step edge_position edge_point (fun e => edge_apply e m) edge_reference (c3_edges c)) as SE.
  pose proof (sum_step c_pos corner_point (fun e => corner_apply e m) corner_reference (c3_corners c)) as SC.
  assert (CE : sum_Z (map (fun e => taxicab (edge_point (edge_position e)) (edge_point (edge_position (edge_apply e m)))) (c3_edges c))
    = sum_Z (map (edge_shift m) edge_reference)).
  { change edge_reference with (pd_reference edge_desc). rewrite <- (sum_perm _ _ (Permutation_map (edge_shift m) (set_valid_perm _ edge_desc_ok _ VE))). rewrite map_map. f_equal. apply map_ext.
    intros [n s o]. unfold edge_shift. cbn [pd_position edge_desc edge_position e_normal e_slice fst snd].
    destruct n, s as [[] []], o, m as [[[] []] []]; reflexivity. }
  assert (CC : sum_Z (map (fun e => taxicab (corner_point (c_pos e)) (corner_point (c_pos (corner_apply e m)))) (c3_corners c))
    = sum_Z (map (corner_shift m) corner_reference)).
  { change corner_reference with (pd_reference corner_desc). rewrite <- (sum_perm _ _ (Permutation_map (corner_shift m) (set_valid_perm _ corner_desc_ok _ VC))). rewrite map_map. f_equal. apply map_ext.
    intros [p a]. unfold corner_shift. cbn [pd_position corner_desc c_pos].
    destruct p as [[] [] []], a, m as [[[] []] []]; reflexivity. }
  cbv beta in SE, SC. rewrite CE in SE. rewrite CC in SC.
  assert (T : sum_Z (map (edge_shift m) edge_reference) + sum_Z (map (corner_shift m) corner_reference) = taxi_cost m).
  { destruct m as [[[] []] []]; reflexivity. }
  lia.
Qed.

Lemma total_bound c al : cube_well_formed Size3 c -> fold_left cube3_apply al c = cube3_solved ->
  taxicab_total c <= sum_Z (map taxi_cost al) /\
  2 * taxicab_total c <= 16 * (3 * Z.of_nat (length al)) /\
  ((forall m, In m al -> mv_amount m <> Double) -> taxicab_total c <= 16 * Z.of_nat (length al)).
Proof.
  intros W S. apply cube3_sets_valid_spec in W.
  assert (B : taxicab_total c <= sum_Z (map taxi_cost al)).
  { revert c W S. induction al as [|m al IH]; intros c W S; cbn [fold_left map] in *.
    - subst c. vm_compute. discriminate.
    - rewrite sum_cons. pose proof (total_step c m W). specialize (IH _ (cube3_sets_valid_move c m W) S). lia. }
  split; [exact B|]. split.
  - assert (sum_Z (map taxi_cost al) <= 24 * Z.of_nat (length al)); [|lia].
    clear. induction al as [|m al IH]; [reflexivity|]. cbn [map length]. rewrite sum_cons.
    assert (taxi_cost m <= 24) by (destruct m as [f []]; vm_compute; discriminate). lia.
  - intros N. assert (sum_Z (map taxi_cost al) <= 16 * Z.of_nat (length al)); [|lia].
    clear - N. induction al as [|m al IH]; [reflexivity|]. cbn [map length]. rewrite sum_cons.
    specialize (IH (fun x Hx => N x (or_intror Hx))). specialize (N m (or_introl eq_refl)).
    assert (taxi_cost m <= 16) by (destruct m as [f []]; try (vm_compute; discriminate); elim N; reflexivity). lia.
Qed.

(** The part that holds: on every valid cube [manhattan] is a number of sixteenths that is
    at most 16 for each quarter turn plus 24 for each half turn of any solving alg.  So it
    never exceeds 1.5 times the length of a solution, and it is admissible for solutions
    in quarter turns.  Missing: the bound by the length itself, which is false. *)
Theorem C43_bound_partial : forall (c : Cube3) (al : list AxisMove),
  cube_well_formed Size3 c -> fold_left cube3_apply al c = cube3_solved ->
  exists z, manhattan c = f32_scaled (- 4) z /\
    z <= sum_Z (map taxi_cost al) /\
    2 * z <= 16 * (3 * Z.of_nat (length al)) /\
    ((forall m, In m al -> mv_amount m <> Double) -> z <= 16 * Z.of_nat (length al)).
Proof.
  intros c al W S. exists (taxicab_total c). split; [apply C43_value|].
  apply total_bound; assumption.
Qed.

(** In terms of the [f32]s compared: at most 1.5 times the length, as floats. *)
Theorem C43_bound_f32_partial : forall (c : Cube3) (al : list AxisMove),
  cube_well_formed Size3 c -> fold_left cube3_apply al c = cube3_solved -> Z.of_nat (length al) < 300000 ->
  f32_ltb (f32_scaled (- 1) (3 * Z.of_nat (length al))) (manhattan c) = false.
Proof.
  intros c al W S L. destruct (C43_value c) as (E' & R). pose proof (total_bound c al W S) as (_ & B & _).
  assert (Sc : f32_scaled (- 1) (3 * Z.of_nat (length al)) = f32_scaled (- 4) (8 * (3 * Z.of_nat (length al)))).
  { destruct (3 * Z.of_nat (length al)) as [|p|p] eqn:Ep; [reflexivity| |lia].
    assert (Pb : Z.pos p < 2 ^ 20) by lia.
    change (8 * Z.pos p) with (Z.pos (8 * p)). rewrite (scaled_pos (-1) p), (scaled_pos (-4) (8 * p)) by lia.
    assert (D : dg (8 * p) = dg p + 3). { apply (dg_shift p _ 3); [lia|]. change (2 ^ 3) with 8. lia. }
    pose proof (dg_le p 20 ltac:(lia) Pb).
    f_equal; [|lia]. unfold mant. rewrite D. f_equal.
    replace (24 - dg p) with (3 + (24 - (dg p + 3))) by lia. rewrite Z.pow_add_r by lia. change (2 ^ 3) with 8. lia. }
  rewrite Sc, E', f32_ltb_scaled by lia. apply Z.ltb_ge. lia.
Qed.

(** ** What a search with it still guarantees *)

(** All the distances are even, so the value is a whole number of eighths. *)
Lemma edge_taxicab_even p q : Z.even (taxicab (edge_point p) (edge_point q)) = true.
Proof. destruct p as [[] [[] []]], q as [[] [[] []]]; reflexivity. Qed.
Lemma corner_taxicab_even p q : Z.even (taxicab (corner_point p) (corner_point q)) = true.
Proof. destruct p as [[] [] []], q as [[] [] []]; reflexivity. Qed.
Lemma sum_even l : (forall z, In z l -> Z.even z = true) -> Z.even (sum_Z l) = true.
Proof.
  induction l as [|x l IH]; intros H; [reflexivity|]. rewrite sum_cons, Z.even_add, (H x) by (left; reflexivity).
  rewrite IH; [reflexivity|]. intros z Hz. apply H. right. exact Hz.
Qed.
Lemma total_even c : exists w, taxicab_total c = 2 * w.
Proof.
  assert (E : Z.even (taxicab_total c) = true).
  { unfold taxicab_total, taxicab_edges, taxicab_corners. rewrite Z.even_add, !sum_even; [reflexivity| |].
    - intros z H. apply in_map_iff in H as (x & <- & _). apply corner_taxicab_even.
    - intros z H. apply in_map_iff in H as (x & <- & _). apply edge_taxicab_even. }
  apply Z.even_spec in E as (w & E). exists w. exact E.
Qed.
Definition taxicab_eighths (c : Cube3) : Z := taxicab_total c / 2.
Lemma eighths_total c : 2 * taxicab_eighths c = taxicab_total c.
Proof. destruct (total_even c) as (w & E). unfold taxicab_eighths. rewrite E, (Z.mul_comm 2 w), Z.div_mul by lia. lia. Qed.
Lemma eighths_bounds c : 0 <= taxicab_eighths c <= 48.
Proof. pose proof (eighths_total c). pose proof (proj2 (C43_value c)). lia. Qed.
Lemma eighth_exact w : 0 <= w <= 48 -> f32_scaled (- 4) (2 * w) = f32_scaled (- 3) w.
Proof.
  intros H. assert (forallb (fun n => match f32_scaled (- 4) (2 * Z.of_nat n), f32_scaled (- 3) (Z.of_nat n) with
    | S754_finite a m e, S754_finite b n k => Bool.eqb a b && Pos.eqb m n && Z.eqb e k
    | S754_zero a, S754_zero b => Bool.eqb a b | _, _ => false end) (seq 0 49) = true) by (vm_compute; reflexivity).
  rewrite forallb_forall in H0. specialize (H0 (Z.to_nat w)). rewrite in_seq, Z2Nat.id in H0 by lia.
  specialize (H0 ltac:(lia)). destruct (f32_scaled (- 4) _), (f32_scaled _ _); try discriminate.
  - apply Bool.eqb_prop in H0. congruence.
  - apply andb_true_iff in H0 as (H0 & H1). apply andb_true_iff in H0 as (H0 & H2).
    apply Bool.eqb_prop in H0. apply Pos.eqb_eq in H2. apply Z.eqb_eq in H1. congruence.
Qed.
Lemma manhattan_eighths c : manhattan c = f32_scaled (- 3) (taxicab_eighths c).
Proof. rewrite (proj1 (C43_value c)), <- eighths_total. apply eighth_exact, eighths_bounds. Qed.

Definition manhattan_exact : Problem Z Cube3 AxisMove :=
  mkProblem Z Cube3 AxisMove cube3_eqb cube3_successors taxicab_eighths cube3_is_solved.
Lemma manhattan_search fuel md c :
  search f32_costs (cube3_problem manhattan) fuel md c = search f32_costs (dyadic_problem 3 manhattan_exact) fuel md c.
Proof. apply search_ext; try reflexivity. intros x. apply manhattan_eighths. Qed.

Lemma manhattan_target x : cube3_is_solved x = true <-> x = cube3_solved.
Proof. apply cube3_eqb_eq. Qed.
Lemma manhattan_sound : successors_sound (cube3_problem manhattan) cube3_apply.
Proof. intros x s m I. apply in_map_iff in I as (m' & [= <- <-] & _). reflexivity. Qed.
Lemma manhattan_complete : successors_complete manhattan_exact cube3_apply.
Proof. intros x m. apply in_map_iff. exists m. split; [reflexivity|apply all_moves_complete]. Qed.

Lemma manhattan_valid al : forall c, cube3_sets_valid c -> cube3_sets_valid (fold_left cube3_apply al c).
Proof. induction al as [|m al IH]; intros c V; cbn [fold_left]; [exact V|]. apply IH, cube3_sets_valid_move, V. Qed.
(** Everything on the way of a solution is estimated to take at most two moves more than
    the solution has, and at most half as many again. *)
Lemma manhattan_path c al : cube3_sets_valid c -> fold_left cube3_apply al c = cube3_solved -> forall i, (i <= length al)%nat ->
  8 * Z.of_nat i + taxicab_eighths (fold_left cube3_apply (firstn i al) c) <= 8 * Z.of_nat (length al) + Z.min 16 (4 * Z.of_nat (length al)).
Proof.
  intros V S i Hi. set (x := fold_left cube3_apply (firstn i al) c).
  assert (Vx : cube3_sets_valid x) by (apply manhattan_valid, V).
  assert (Sx : fold_left cube3_apply (skipn i al) x = cube3_solved).
  { unfold x. rewrite <- fold_left_app, firstn_skipn. exact S. }
  pose proof (proj1 (proj2 (total_bound x _ (proj1 (cube3_sets_valid_spec x) Vx) Sx))) as B.
  rewrite skipn_length in B. pose proof (eighths_total x). pose proof (eighths_bounds x). lia.
Qed.

(** Whatever the search with [manhattan] returns is a solution with at most two moves more
    than a shortest one, and at most half as many again. *)
Theorem C43_search_near_optimal_partial : forall (fuel : nat) (c : Cube3) (al : list AxisMove),
  solve_with_heuristic f32_costs manhattan fuel c = SolveDone (Some al) ->
  fold_left cube3_apply al c = cube3_solved /\
  (forall al', fold_left cube3_apply al' c = cube3_solved ->
    (length al <= length al' + 2)%nat /\ (2 * length al <= 3 * length al')%nat).
Proof.
  intros fuel c al R. split; [exact (C28_solve_with_heuristic_sound manhattan fuel c al R)|].
  intros al' S'. unfold solve_with_heuristic, solve in R.
  destruct (search f32_costs (cube3_problem manhattan) fuel 200 c) as [[[r c']|]| |] eqn:F; try discriminate.
  assert (r = al) as ->.
  { destruct (pr_is_target (cube3_problem manhattan) c'); congruence. }
  rewrite manhattan_search in F.
  assert (V : cube3_sets_valid c).
  { apply cube3_sets_valid_spec. apply (C07_solvable_exactly c). exists al'. exact S'. }
  destruct (remove_loops cube3_apply cube3_eqb cube3_eqb_eq al' c) as (al2 & L2 & F2 & N2).
  rewrite <- F2 in S'. assert (Bd : forall x, 0 <= pr_heuristic manhattan_exact x <= 48) by (intros x; apply eighths_bounds).
  rewrite (search_float 3 ltac:(lia) manhattan_exact 48 Bd) in F by lia. unfold search in F.
  change (2 ^ 3) with 8 in F.
  assert (P : 8 * Z.of_nat (length al) <= 8 * Z.of_nat (length al2) + Z.min 16 (4 * Z.of_nat (length al2))); [|lia].
  refine (iter_found_bound 8 manhattan_exact cube3_apply (fun a b => cube3_eqb_eq a b) (fun x => proj1 (Bd x)) manhattan_complete _ fuel c al2 (proj2 (manhattan_target _) S') N2 _ _ _ _ _ _ F).
  - apply manhattan_path; assumption.
  - pose proof (manhattan_path c al2 V S' 0 ltac:(lia)) as P0. cbn [firstn fold_left] in P0. cbn [manhattan_exact pr_heuristic]. lia.
Qed.

(** And on every cube with a solution of at most 23 moves it does return one. *)
Theorem C43_search_finds_partial : forall (c : Cube3) (al' : list AxisMove),
  fold_left cube3_apply al' c = cube3_solved -> (length al' <= 23)%nat ->
  exists fuel0 al, forall fuel, (fuel0 <= fuel)%nat ->
    solve_with_heuristic f32_costs manhattan fuel c = SolveDone (Some al).
Proof.
  intros c al' S' L.
  assert (V : cube3_sets_valid c).
  { apply cube3_sets_valid_spec. apply (C07_solvable_exactly c). exists al'. exact S'. }
  destruct (remove_loops cube3_apply cube3_eqb cube3_eqb_eq al' c) as (al2 & L2 & F2 & N2).
  rewrite <- F2 in S'. assert (Bd : forall x, 0 <= pr_heuristic manhattan_exact x <= 48) by (intros x; apply eighths_bounds).
  assert (NN : non_negative manhattan_exact) by (intros x; apply Bd).
  pose proof (eighths_bounds c) as Bc.
  set (f := Z.to_nat (48 + 8 * 202)).
  assert (NF : search_iter (exact_costs 8) manhattan_exact (S f) c 201 (taxicab_eighths c) <> SearchFuel).
  { apply iter_terminates; [lia|exact NN|]. subst f. lia. }
  destruct (iter_finds 8 ltac:(lia) manhattan_exact cube3_apply (fun a b => cube3_eqb_eq a b) manhattan_complete
    (8 * Z.of_nat (length al2) + Z.min 16 (4 * Z.of_nat (length al2))) (S f) c al2 (proj2 (manhattan_target _) S') N2
    (manhattan_path c al2 V S') 201 (taxicab_eighths c) NF) as ([r c'] & Fd); [lia|lia|].
  exists (S f), r. intros fuel Lf. unfold solve_with_heuristic, solve.
  assert (Sr : search f32_costs (cube3_problem manhattan) fuel 200 c = SearchDone (Some (r, c'))).
  { rewrite manhattan_search, (search_float 3 ltac:(lia) manhattan_exact 48 Bd) by lia. unfold search.
    change (2 ^ 3) with 8. change (Z.to_nat (200 + 1)) with 201%nat. cbn [manhattan_exact pr_heuristic]. fold manhattan_exact.
    replace fuel with (S f + (fuel - S f))%nat by lia. rewrite iter_fuel; rewrite Fd; congruence. }
  rewrite Sr. destruct (C28_search_sound _ _ _ _ _ _ manhattan_sound _ _ _ _ _ Sr) as (_ & T).
  rewrite T. reflexivity.
Qed.

(** The two moves are not needed in vain: after R2 L2 one of them is used
    ([C43_search_refuted]), and the bound holds there. *)
Example C43_near_optimal_case :
  let c := fold_left cube3_apply [mkMove fR Double; mkMove fL Double] cube3_solved in
  fold_left cube3_apply [mkMove fR Double; mkMove fL Double] c = cube3_solved /\
  exists al, solve_with_heuristic f32_costs manhattan 20 c = SolveDone (Some al) /\ (length al <= 2 + 2)%nat /\ (2 * length al <= 3 * 2)%nat.
Proof.
  split; [vm_compute; reflexivity|]. eexists. split; [vm_compute; reflexivity|]. vm_compute. split; repeat constructor.
Qed.

Example C43_values :
  manhattan cube3_solved = f32_of_Z 0 /\
  manhattan (cube3_apply cube3_solved (mkMove fR Single)) = f32_of_Z 1 /\
  manhattan (cube3_apply cube3_solved (mkMove fR Double)) = f32_scaled (- 1) 3.
Proof. vm_compute. auto. Qed.

(** ** C86: the distance over some of the pieces *)

Definition taxicab_edges_of (keep : EdgePos -> Edge -> bool) (es : list Edge) : Z :=
  sum_Z (map (fun x => if keep (fst x) (snd x) then taxicab (edge_point (edge_position (snd x))) (edge_point (fst x)) else 0) (combine edge_reference es)).
Definition taxicab_corners_of (keep : Vec3 -> Corner -> bool) (cs : list Corner) : Z :=
  sum_Z (map (fun x => if keep (fst x) (snd x) then taxicab (corner_point (c_pos (snd x))) (corner_point (fst x)) else 0) (combine corner_reference cs)).

Lemma sum_filter {A} (keep : A -> bool) (f : A -> Z) l : forall a,
  fold_left Z.add (map f (filter keep l)) a = fold_left Z.add (map (fun x => if keep x then f x else 0) l) a.
Proof.
  induction l as [|x l IH]; intros a; [reflexivity|]. cbn [filter map fold_left]. destruct (keep x); cbn [map fold_left]; rewrite IH; [reflexivity|].
  rewrite Z.add_0_r. reflexivity.
Qed.
Lemma edges_of_bounds keep es : 0 <= taxicab_edges_of keep es <= 48.
Proof.
  unfold taxicab_edges_of, sum_Z.
  destruct (fold_add_bounds 4 (map (fun x : EdgePos * Edge => if keep (fst x) (snd x) then taxicab (edge_point (edge_position (snd x))) (edge_point (fst x)) else 0) (combine edge_reference es)) 0) as (L & U).
  - intros z H. apply in_map_iff in H as (x & <- & _). destruct (keep _ _); [|lia]. split; [apply taxicab_nonneg|apply edge_taxicab_max].
  - rewrite map_length, combine_length in U. change (length edge_reference) with 12%nat in U. lia.
Qed.
Lemma corners_of_bounds keep cs : 0 <= taxicab_corners_of keep cs <= 48.
Proof.
  unfold taxicab_corners_of, sum_Z.
  destruct (fold_add_bounds 6 (map (fun x : Vec3 * Corner => if keep (fst x) (snd x) then taxicab (corner_point (c_pos (snd x))) (corner_point (fst x)) else 0) (combine corner_reference cs)) 0) as (L & U).
  - intros z H. apply in_map_iff in H as (x & <- & _). destruct (keep _ _); [|lia]. split; [apply taxicab_nonneg|apply corner_taxicab_max].
  - rewrite map_length, combine_length in U. change (length corner_reference) with 8%nat in U. lia.
Qed.
(** The value is the exact sum of the taxicab distances of the pieces that are kept. *)
Theorem C86_edges : forall (keep : EdgePos -> Edge -> bool) (es : list Edge),
  edges_manhattan_filtered keep es = f32_of_Z (taxicab_edges_of keep es) /\ 0 <= taxicab_edges_of keep es <= 48.
Proof.
  intros keep es. pose proof (edges_of_bounds keep es) as B. split; [|exact B].
  unfold edges_manhattan_filtered, f32_sum, iter_with_pos. cbn [pd_reference edge_desc].
  rewrite (map_ext _ _ (fun x => edge_manhattan_exact (fst x) (snd x))).
  rewrite <- (map_map (fun x : EdgePos * Edge => taxicab (edge_point (edge_position (snd x))) (edge_point (fst x))) f32_of_Z).
  unfold taxicab_edges_of, sum_Z in *. rewrite f32_sum_exact; rewrite ?sum_filter; [reflexivity|lia| |lia].
  intros z H. apply in_map_iff in H as (x & <- & _). apply taxicab_nonneg.
Qed.
Theorem C86_corners : forall (keep : Vec3 -> Corner -> bool) (cs : list Corner),
  corners_manhattan_filtered keep cs = f32_of_Z (taxicab_corners_of keep cs) /\ 0 <= taxicab_corners_of keep cs <= 48.
Proof.
  intros keep cs. pose proof (corners_of_bounds keep cs) as B. split; [|exact B].
  unfold corners_manhattan_filtered, f32_sum, iter_with_pos. cbn [pd_reference corner_desc].
  rewrite (map_ext _ _ (fun x => corner_manhattan_exact (fst x) (snd x))).
  rewrite <- (map_map (fun x : Vec3 * Corner => taxicab (corner_point (c_pos (snd x))) (corner_point (fst x))) f32_of_Z).
  unfold taxicab_corners_of, sum_Z in *. rewrite f32_sum_exact; rewrite ?sum_filter; [reflexivity|lia| |lia].
  intros z H. apply in_map_iff in H as (x & <- & _). apply taxicab_nonneg.
Qed.
(** Keeping all pieces of both kinds gives the value of [manhattan]; the pieces kept and the
    pieces left out add up to it. *)
Lemma sum_add l m : forall a b, length l = length m ->
  fold_left Z.add (map (fun x => fst x + snd x) (combine l m)) (a + b) = fold_left Z.add l a + fold_left Z.add m b.
Proof.
  revert m. induction l as [|x l IH]; intros [|y m] a b L; try discriminate; [reflexivity|]. cbn [combine map fold_left fst snd].
  replace (a + b + (x + y)) with ((a + x) + (b + y)) by lia. apply IH. injection L as L. exact L.
Qed.
Lemma sum_split {A} (keep : A -> bool) (f : A -> Z) l : forall a b,
  fold_left Z.add (map f l) (a + b) = fold_left Z.add (map (fun x => if keep x then f x else 0) l) a +
  fold_left Z.add (map (fun x => if negb (keep x) then f x else 0) l) b.
Proof.
  induction l as [|x l IH]; intros a b; [reflexivity|]. cbn [map fold_left]. rewrite <- IH. f_equal. destruct (keep x); cbn; lia.
Qed.
Theorem C86_parts : forall (ke : EdgePos -> Edge -> bool) (kc : Vec3 -> Corner -> bool) (c : Cube3),
  manhattan c = f32_div (f32_add
    (f32_add (edges_manhattan_filtered ke (c3_edges c)) (edges_manhattan_filtered (fun p e => negb (ke p e)) (c3_edges c)))
    (f32_add (corners_manhattan_filtered kc (c3_corners c)) (corners_manhattan_filtered (fun p e => negb (kc p e)) (c3_corners c)))) (f32_of_Z 16).
Proof.
  intros ke kc [es cs]. cbn [c3_edges c3_corners]. destruct (C43_value (mkCube3 es cs)) as (-> & _). unfold taxicab_total. cbn [c3_edges c3_corners].
  rewrite !(proj1 (C86_edges _ _)), !(proj1 (C86_corners _ _)).
  pose proof (edges_of_bounds ke es). pose proof (edges_of_bounds (fun p e => negb (ke p e)) es).
  pose proof (corners_of_bounds kc cs). pose proof (corners_of_bounds (fun p e => negb (kc p e)) cs).
  assert (TE : taxicab_edges es = taxicab_edges_of ke es + taxicab_edges_of (fun p e => negb (ke p e)) es).
  { unfold taxicab_edges, taxicab_edges_of, sum_Z. exact (sum_split (fun x : EdgePos * Edge => ke (fst x) (snd x)) _ _ 0 0). }
  assert (TC : taxicab_corners cs = taxicab_corners_of kc cs + taxicab_corners_of (fun p e => negb (kc p e)) cs).
  { unfold taxicab_corners, taxicab_corners_of, sum_Z. exact (sum_split (fun x : Vec3 * Corner => kc (fst x) (snd x)) _ _ 0 0). }
  rewrite !f32_of_Z_scaled at 1. rewrite !f32_add_scaled by lia. rewrite <- TE, <- TC, <- !f32_of_Z_scaled.
  change (f32_of_Z 16) with (f32_mul (f32_of_Z 8) (f32_of_Z 2)). symmetry. apply sixteenth_exact.
  pose proof (taxicab_edges_bounds es). pose proof (taxicab_corners_bounds cs). lia.
Qed.
(** It is zero exactly when every piece that is kept is at home. *)
Lemma sum_zero l : (forall z, In z l -> 0 <= z) -> fold_left Z.add l 0 = 0 <-> forall z, In z l -> z = 0.
Proof.
  assert (Mono : forall l a, (forall z, In z l -> 0 <= z) -> a <= fold_left Z.add l a).
  { clear. induction l as [|y l IH]; intros a H; cbn [fold_left]; [lia|].
    pose proof (H y (or_introl eq_refl)). pose proof (IH (a + y) (fun z Hz => H z (or_intror Hz))). lia. }
  induction l as [|x l IH]; intros H; cbn [fold_left]; [split; [intros _ z []|reflexivity]|].
  assert (H0 : 0 <= x) by (apply H; left; reflexivity). assert (H1 : forall z, In z l -> 0 <= z) by (intros z I; apply H; right; exact I). specialize (IH H1).
  pose proof (Mono l (0 + x) H1). split.
  - intros E. assert (x = 0) by lia. subst x. rewrite Z.add_0_r in E. intros z [<-|I]; [reflexivity|]. apply (proj1 IH E), I.
  - intros E. rewrite (E x (or_introl eq_refl)). apply IH. intros z I. apply E. right. exact I.
Qed.
Lemma edge_taxicab_zero p e : taxicab (edge_point (edge_position e)) (edge_point p) = 0 <-> edge_position e = p.
Proof. destruct p as [[] [[] []]], e as [[] [[] []] o]; vm_compute; split; intros E; try reflexivity; discriminate E. Qed.
Lemma corner_taxicab_zero p c : taxicab (corner_point (c_pos c)) (corner_point p) = 0 <-> c_pos c = p.
Proof. destruct p as [[] [] []], c as [[[] [] []] a]; vm_compute; split; intros E; try reflexivity; discriminate E. Qed.
Lemma f32_zero z : 0 <= z <= 48 -> f32_of_Z z = f32_of_Z 0 <-> z = 0.
Proof.
  intros H. split; [|intros ->; reflexivity]. intros E. rewrite !f32_of_Z_scaled in E.
  destruct (Z.eq_dec z 0) as [|N]; [assumption|exfalso].
  assert (T : forallb (fun n => match f32_of_Z (Z.of_nat n) with S754_finite _ _ _ => true | _ => false end) (seq 1 48) = true) by (vm_compute; reflexivity).
  rewrite forallb_forall in T. specialize (T (Z.to_nat z)). rewrite in_seq, Z2Nat.id in T by lia. specialize (T ltac:(lia)).
  rewrite f32_of_Z_scaled, E in T. discriminate T.
Qed.
Theorem C86_edges_home : forall (keep : EdgePos -> Edge -> bool) (es : list Edge),
  edges_manhattan_filtered keep es = f32_of_Z 0 <->
  forall i p e, nth_error edge_reference i = Some p -> nth_error es i = Some e -> keep p e = true -> edge_position e = p.
Proof.
  intros keep es. destruct (C86_edges keep es) as (-> & B). rewrite (f32_zero _ B). unfold taxicab_edges_of, sum_Z. rewrite sum_zero.
  - split.
    + intros H i p e I1 I2 K. apply edge_taxicab_zero, H, in_map_iff. exists (p, e). cbn [fst snd]. rewrite K. split; [reflexivity|].
      apply (nth_error_In _ i). apply combine_nth_error; auto.
    + intros H z I. apply in_map_iff in I as ([p e] & <- & I). cbn [fst snd]. destruct (keep p e) eqn:K; [|reflexivity].
      apply In_nth_error in I as (i & I). apply combine_nth_error in I as (I1 & I2). apply edge_taxicab_zero, (H i); assumption.
  - intros z I. apply in_map_iff in I as (x & <- & _). destruct (keep _ _); [apply taxicab_nonneg|lia].
Qed.
Theorem C86_corners_home : forall (keep : Vec3 -> Corner -> bool) (cs : list Corner),
  corners_manhattan_filtered keep cs = f32_of_Z 0 <->
  forall i p x, nth_error corner_reference i = Some p -> nth_error cs i = Some x -> keep p x = true -> c_pos x = p.
Proof.
  intros keep cs. destruct (C86_corners keep cs) as (-> & B). rewrite (f32_zero _ B). unfold taxicab_corners_of, sum_Z. rewrite sum_zero.
  - split.
    + intros H i p e I1 I2 K. apply corner_taxicab_zero, H, in_map_iff. exists (p, e). cbn [fst snd]. rewrite K. split; [reflexivity|].
      apply (nth_error_In _ i). apply combine_nth_error; auto.
    + intros H z I. apply in_map_iff in I as ([p e] & <- & I). cbn [fst snd]. destruct (keep p e) eqn:K; [|reflexivity].
      apply In_nth_error in I as (i & I). apply combine_nth_error in I as (I1 & I2). apply corner_taxicab_zero, (H i); assumption.
  - intros z I. apply in_map_iff in I as (x & <- & _). destruct (keep _ _); [apply taxicab_nonneg|lia].
Qed.

(** After R the four edges of the right face are two away each; the others are at home. *)
Example C86_example :
  let c := cube3_apply cube3_solved (mkMove fR Single) in
  edges_manhattan_filtered (fun _ _ => true) (c3_edges c) = f32_of_Z 8 /\
  edges_manhattan_filtered (fun p _ => axis_eqb (fst p) AX) (c3_edges c) = f32_of_Z 0 /\
  corners_manhattan_filtered (fun p _ => dir_eqb (vx p) Positive) (c3_corners c) = f32_of_Z 8.
Proof. vm_compute. auto. Qed.

Print Assumptions C43_value.
Print Assumptions C43_overestimates_refuted.
Print Assumptions C43_search_refuted.
Print Assumptions C43_bound_partial.
Print Assumptions C43_bound_f32_partial.
Print Assumptions C43_search_near_optimal_partial.
Print Assumptions C43_search_finds_partial.
Print Assumptions C86_edges.
Print Assumptions C86_corners.
Print Assumptions C86_parts.
Print Assumptions C86_edges_home.
Print Assumptions C86_corners_home.

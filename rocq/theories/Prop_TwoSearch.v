(** C105: the searcher and the tables of the library, used on the 2x2x2. *)

From Coq Require Import List Bool Arith ZArith NArith Lia.
From Verif Require Import Model_Base Model_Float Model_Space Model_Moves Model_Pieces Model_PieceSet Model_Cubes Model_Invariants Model_Search Model_Mus Model_Cache
  Spec_Search Spec_Sets Spec_Invariants Spec_Cache Proof_Sets Proof_Solve Proof_Parity Proof_Random Proof_Invariants Proof_Search Proof_Cross Prop_Moves Prop_Search Prop_Invariants Prop_Cache Prop_Two.
Import ListNotations.
Local Open Scope nat_scope.

(** generic/search/ida.rs:33-40 [IDASearcher::new] and generic/search/mod.rs:25-33 [Solver::solve] for [Cube2]: a user
    passes the moves in the order of [AxisMove::all], as cube3/mod.rs:60-65 does for [Cube3], a heuristic
    and a limit. *)
Definition cube2_searcher (heuristic : Cube2 -> f32) : Problem f32 Cube2 AxisMove :=
  mkProblem f32 Cube2 AxisMove cube2_eqb (fun c => map (fun m => (cube2_apply c m, m)) all_moves) heuristic cube2_is_solved.
Definition cube2_solve (heuristic : Cube2 -> f32) (max_depth : Z) (fuel : nat) (c : Cube2) : solve_result :=
  solve f32_costs (cube2_searcher heuristic) fuel max_depth c.

(** The alg solves the cube and no shorter one does. *)
Definition shortest (c : Cube2) (al : list AxisMove) : Prop :=
  fold_left cube2_apply al c = cube2_solved /\ forall al', fold_left cube2_apply al' c = cube2_solved -> length al <= length al'.
(** The heuristic gives whole numbers. *)
Definition whole2 (heuristic : Cube2 -> f32) (estimate : Cube2 -> Z) : Prop :=
  forall c, heuristic c = f32_of_Z (estimate c) /\ (0 <= estimate c < 2 ^ 22)%Z.

Definition exact2 (est : Cube2 -> Z) : Problem Z Cube2 AxisMove :=
  mkProblem Z Cube2 AxisMove cube2_eqb (fun c => map (fun m => (cube2_apply c m, m)) all_moves) est cube2_is_solved.
Lemma solved2 x : cube2_is_solved x = true <-> x = cube2_solved.
Proof. apply (eqb2 x cube2_solved). Qed.
Lemma sound2 h : successors_sound (cube2_searcher h) cube2_apply.
Proof. intros x s m I. apply in_map_iff in I as (m' & E & _). injection E as <- <-. reflexivity. Qed.
Lemma sound_result h md fuel c al : cube2_solve h md fuel c = SolveDone (Some al) -> fold_left cube2_apply al c = cube2_solved.
Proof.
  unfold cube2_solve, solve. destruct (search f32_costs (cube2_searcher h) fuel md c) as [[[al' c']|]| |] eqn:E; try discriminate.
  destruct (C28_search_sound _ _ _ _ _ _ (sound2 h) _ _ _ _ _ E) as (F & T). rewrite T. intros K. injection K as <-. rewrite F. apply solved2, T.
Qed.

Lemma dyadic2 h est fuel md c : whole2 h est ->
  search f32_costs (cube2_searcher h) fuel md c = search f32_costs (dyadic_problem 0 (exact2 est)) fuel md c.
Proof. intros W. apply search_ext; try reflexivity. intros x. apply (W x). Qed.

Section Facts.
  Context (h : Cube2 -> f32) (est : Cube2 -> Z) (W : whole2 h est).
  Lemma eq2 : equality_ok (exact2 est).
  Proof. intros a b. apply eqb2. Qed.
  Lemma complete2 : successors_complete (exact2 est) cube2_apply.
  Proof. intros x m. apply in_map_iff. exists m. split; [reflexivity|apply all_moves_complete]. Qed.
  Lemma bounded2 : forall c, (0 <= pr_heuristic (exact2 est) c <= 2 ^ 22)%Z.
  Proof. intros c. pose proof (proj2 (W c)). cbn [exact2 pr_heuristic]. lia. Qed.
  Context (Ad : forall c al, fold_left cube2_apply al c = cube2_solved -> (est c <= Z.of_nat (length al))%Z).
  Lemma admissible2 : admissible (2 ^ 0) (exact2 est) cube2_apply.
  Proof. intros x al R. apply solved2 in R. apply Ad in R. change (2 ^ 0)%Z with 1%Z. cbn [exact2 pr_heuristic]. lia. Qed.
End Facts.

(** ** Every solvable 2x2x2 is solved with as few moves as possible *)

Theorem C105_shortest : forall heuristic estimate, whole2 heuristic estimate ->
  (forall c al, fold_left cube2_apply al c = cube2_solved -> (estimate c <= Z.of_nat (length al))%Z) ->
  forall max_depth, (125 <= max_depth < 2 ^ 22)%Z ->
  forall c, (exists al, fold_left cube2_apply al c = cube2_solved) ->
  exists fuel0 al, (forall fuel, fuel0 <= fuel -> cube2_solve heuristic max_depth fuel c = SolveDone (Some al)) /\
    shortest c al /\ length al <= 125.
Proof.
  intros h est W Ad md Md c Sv. apply C09_solvable_exactly in Sv as (Wf & T).
  destruct c as [cs]. apply (set_valid_spec _ corner_desc_ok) in Wf. cbn [c2_corners] in *. destruct (corners_solvable cs Wf T) as (al & L & S).
  assert (Sv : fold_left cube2_apply al (mkCube2 cs) = cube2_solved) by (rewrite cube2_run, S; reflexivity). clear S. set (c := mkCube2 cs) in *.
  pose proof (bounded2 h est W c) as B.
  destruct (C29_complete Cube2 AxisMove 0 (2 ^ 22) (exact2 est) cube2_apply ltac:(lia) (eq2 est) (complete2 est) (bounded2 h est W) md ltac:(lia) ltac:(lia) c al) as (f & [r c'] & F).
  { apply solved2, Sv. }
  { right. split; [apply admissible2, Ad|]. change (2 ^ 0)%Z with 1%Z. lia. }
  assert (F' : forall fuel, f <= fuel -> cube2_solve h md fuel c = SolveDone (Some r)).
  { intros fuel Lf. unfold cube2_solve, solve. specialize (F fuel Lf). rewrite <- (dyadic2 h est _ _ _ W) in F. rewrite F.
    destruct (C28_search_sound _ _ _ _ _ _ (sound2 h) _ _ _ _ _ F) as (_ & ->). reflexivity. }
  assert (O : forall al', fold_left cube2_apply al' c = cube2_solved -> length r <= length al').
  { intros al' R. apply (C29_optimal_f32 Cube2 AxisMove 0 (2 ^ 22) (exact2 est) cube2_apply ltac:(lia) (eq2 est) (complete2 est) (bounded2 h est W) (admissible2 est Ad) f md ltac:(lia) c r c'); [apply F; lia|].
    apply solved2, R. }
  exists f, r. split; [exact F'|]. split; [|specialize (O al Sv); lia]. split; [|exact O]. apply (sound_result h md f c r), F'. lia.
Qed.

(** A 2x2x2 that cannot be solved, as with one corner twisted: no answer, and after the fuel given
    here the search has come to its end. *)
Theorem C105_unsolvable : forall heuristic estimate, whole2 heuristic estimate ->
  forall max_depth, (0 <= max_depth < 2 ^ 22)%Z ->
  forall c, (forall al, fold_left cube2_apply al c <> cube2_solved) ->
  forall fuel, (estimate c + max_depth + 1 < Z.of_nat fuel)%Z -> cube2_solve heuristic max_depth fuel c = SolveDone None.
Proof.
  intros h est W md Md c No fuel L.
  destruct (C30_depth_bounded Cube2 AxisMove 0 (2 ^ 22) (exact2 est) ltac:(lia) (bounded2 h est W) md ltac:(lia) ltac:(lia) c fuel) as (r & R).
  { change (2 ^ 0)%Z with 1%Z. cbn [exact2 pr_heuristic]. lia. }
  unfold cube2_solve, solve. rewrite <- (dyadic2 h est _ _ _ W) in R. rewrite R. destruct r as [[al c']|]; [|reflexivity].
  destruct (C28_search_sound _ _ _ _ _ _ (sound2 h) _ _ _ _ _ R) as (F & T). destruct (No al). rewrite F. apply solved2, T.
Qed.

(** ** The corner table of the 3x3x3 is the exact table of the 2x2x2 *)

(** The 3x3x3 with these corners and solved edges, on which [mus] can be called. *)
Definition as_cube3 (c : Cube2) : Cube3 := mkCube3 edge_solved (c2_corners c).

Lemma table_value ca c : complete_cache ca -> (exists al, fold_left cube2_apply al c = cube2_solved) ->
  exists d, cache_get ca (as_cube3 c) = Done d /\ mus (Done ca) None (as_cube3 c) = Done (Some ca, f32_of_Z (Z.of_N d)) /\
    exists al, shortest c al /\ length al = N.to_nat d.
Proof.
  intros CC Sv. apply C09_solvable_exactly in Sv as (Wf & T).
  assert (W3 : cube_well_formed Size3 (as_cube3 c)) by (split; [apply (cube_well_formed_solved Size3)|exact Wf]).
  destruct (C36_mus_value ca (as_cube3 c) CC W3 T) as (dc & d1 & d2 & G & Dc & D1 & D2).
  assert (Z1 : d1 = 0%N) by (pose proof (proj2 D1 [] eq_refl) as X; cbn in X; lia).
  assert (Z2 : d2 = 0%N) by (pose proof (proj2 D2 [] eq_refl) as X; cbn in X; lia).
  subst d1 d2. replace (N.max dc (N.max 0 0)) with dc in G by lia. exists dc. split; [exact G|]. split.
  - destruct (C36_public_functions ca (as_cube3 c) (fun _ => Panic) CC W3) as (v & Gv & M & _). rewrite G in Gv. injection Gv as <-. exact M.
  - destruct Dc as [(al & L & S) O]. exists al. split; [|exact L]. destruct c as [cs]. cbn [as_cube3 c3_corners c2_corners] in *. split.
    + rewrite cube2_run, S. reflexivity.
    + intros al' E. rewrite L. apply O. rewrite cube2_run in E. exact (f_equal c2_corners E).
Qed.
Theorem C105_table : forall ca c, complete_cache ca -> (exists al, fold_left cube2_apply al c = cube2_solved) ->
  exists al, shortest c al /\ mus (Done ca) None (as_cube3 c) = Done (Some ca, f32_of_Z (Z.of_nat (length al))).
Proof.
  intros ca c CC Sv. destruct (table_value ca c CC Sv) as (d & _ & M & al & S & L). exists al. split; [exact S|]. rewrite M, L. do 3 f_equal. lia.
Qed.

(** With it the searcher finds shortest solutions. *)
Theorem C105_search_with_table : forall ca, complete_cache ca ->
  forall max_depth, (125 <= max_depth < 2 ^ 22)%Z ->
  forall c, (exists al, fold_left cube2_apply al c = cube2_solved) ->
  exists fuel0 al, (forall fuel, fuel0 <= fuel -> cube2_solve (fun c => mus_value ca (as_cube3 c)) max_depth fuel c = SolveDone (Some al)) /\
    shortest c al /\ length al <= 125.
Proof.
  intros ca CC. set (est := fun c => match cache_get ca (as_cube3 c) with Done v => Z.of_N v | Panic => 0%Z end).
  apply (C105_shortest _ est).
  - intros c. split.
    + unfold mus_value, mus, cache_get_or_init, est. destruct (cache_get ca (as_cube3 c)); reflexivity.
    + unfold est. destruct (cache_get ca (as_cube3 c)) as [v|] eqn:G; [|lia]. apply (cache_bounded ca _ v CC) in G. lia.
  - intros c al E. destruct (table_value ca c CC (ex_intro _ al E)) as (d & G & _ & al' & [_ O] & L). specialize (O al E).
    unfold est. rewrite G. lia.
Qed.

(** ** The 2x2x2 and the 3x3x3 *)

(** Forgetting the edges never makes the solution longer: whatever solves a [Cube3] solves the
    [Cube2] with its corners. *)
Theorem C105_corners_of_cube3 : forall (c : Cube3) al al', fold_left cube3_apply al c = cube3_solved -> shortest (mkCube2 (c3_corners c)) al' ->
  fold_left cube2_apply al (mkCube2 (c3_corners c)) = cube2_solved /\ length al' <= length al.
Proof.
  intros c al al' E [_ O]. assert (S : fold_left cube2_apply al (mkCube2 (c3_corners c)) = cube2_solved).
  { rewrite cube2_run. unfold cube2_solved. f_equal. rewrite <- run3_corners. unfold run3. rewrite E. reflexivity. }
  split; [exact S|]. apply O, S.
Qed.

(** Every random [Cube2] gets an answer. *)
Theorem C105_random : forall rng : nat -> nat, exists c, cube2_sample rng = Done c /\
  exists fuel0 al, (forall fuel, fuel0 <= fuel -> cube2_solve (zero_heuristic f32_costs) 200 fuel c = SolveDone (Some al)) /\ shortest c al.
Proof.
  intros rng. destruct (C09_random_solvable rng) as (c & E & _ & al & _ & S). exists c. split; [exact E|].
  destruct (C105_shortest (zero_heuristic f32_costs) (fun _ => 0%Z)) with (max_depth := 200%Z) (c := c) as (f & r & F & Sh & _).
  - intros x. split; [reflexivity|lia].
  - intros x a _. lia.
  - lia.
  - exists al. exact S.
  - exists f, r. auto.
Qed.

(** ** A cube that only needs to be held differently *)

(** A solved 2x2x2 turned as a whole takes at most four moves, and more than none unless it is
    held as the library wants it. *)
Definition straighten : list (list AxisMove) :=
  let w f a a' := [mkMove f a; mkMove (opposite f) a'] in
  flat_map (fun h => map (fun g => h ++ g)
    [[]; w fR Single Inverse; w fR Double Double; w fR Inverse Single; w fF Single Inverse; w fF Inverse Single])
    [[]; w fU Single Inverse; w fU Double Double; w fU Inverse Single].
Lemma straighten_ok : forallb (fun c => existsb (fun al => cube2_is_solved (fold_left cube2_apply al c)) straighten) held = true.
Proof. vm_compute. reflexivity. Qed.
Theorem C105_held : forall c al, cube_well_formed Size2 c -> one_colour Size2 c -> shortest c al ->
  length al <= 4 /\ (al = [] <-> cube2_is_solved c = true).
Proof.
  intros c al W O [S Sh]. split.
  - apply (one_colour_held c W) in O. pose proof straighten_ok as K. rewrite forallb_forall in K. specialize (K c O). apply existsb_exists in K as (s & I & E).
    apply solved2, Sh in E. assert (L : forallb (fun s => length s <=? 4) straighten = true) by reflexivity. rewrite forallb_forall in L. specialize (L s I).
    apply Nat.leb_le in L. lia.
  - split.
    + intros ->. cbn [fold_left] in S. apply solved2, S.
    + intros E. apply solved2 in E. subst c. specialize (Sh [] eq_refl). destruct al; [reflexivity|cbn in Sh; lia].
Qed.

(** Non-vacuity: R, solved with R'; a twisted corner, which is not solvable; and a whole turn, which
    takes two moves. *)
Example C105_example :
  shortest (cube2_apply cube2_solved (mkMove fR Single)) [mkMove fR Inverse] /\
  cube2_solve (zero_heuristic f32_costs) 200 3 (cube2_apply cube2_solved (mkMove fR Single)) = SolveDone (Some [mkMove fR Inverse]) /\
  (exists c, cube_well_formed Size2 c /\ forall al, fold_left cube2_apply al c <> cube2_solved) /\
  shortest (fold_left cube2_apply (whole_turn fR) cube2_solved) (whole_turn fL).
Proof.
  split; [|split; [|split]].
  - split; [vm_compute; reflexivity|]. intros [|m al'] E; [vm_compute in E; discriminate E|cbn; lia].
  - vm_compute. reflexivity.
  - exists (mkCube2 (mkCorner (mkVec3 Positive Positive Positive) AX :: tl corner_solved)). split.
    + apply (set_valid_spec _ corner_desc_ok). split; [reflexivity|].
      replace (map (pd_position corner_desc) _) with (map (pd_position corner_desc) corner_solved) by reflexivity. apply (set_valid_spec _ corner_desc_ok), (cube_well_formed_solved Size2).
    + intros al E. assert (X : exists al, fold_left cube2_apply al (mkCube2 (mkCorner (mkVec3 Positive Positive Positive) AX :: tl corner_solved)) = cube2_solved) by eauto.
      apply C09_solvable_exactly in X as [_ T]. vm_compute in T. discriminate T.
  - split; [vm_compute; reflexivity|]. intros [|m [|m' al']] E; [vm_compute in E; discriminate E| |cbn; lia].
    exfalso. destruct m as [[[] []] []]; vm_compute in E; discriminate E.
Qed.
Print Assumptions C105_shortest.
Print Assumptions C105_unsolvable.
Print Assumptions C105_table.
Print Assumptions C105_search_with_table.
Print Assumptions C105_corners_of_cube3.
Print Assumptions C105_random.
Print Assumptions C105_held.

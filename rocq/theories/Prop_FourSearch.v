(** C108: the searcher of the library, used on the 4x4x4, with plain moves and with wide ones. *)

From Coq Require Import List Bool Arith ZArith NArith Lia.
From Verif Require Import Model_Base Model_Float Model_Space Model_Moves Model_Pieces Model_PieceSet Model_Cubes Model_Invariants Model_Search Model_Mus Model_Cache Model_Connect
  Spec_Search Spec_Sets Spec_Invariants Spec_Cache Spec_BigLaws Spec_Words Proof_Sets Proof_Search Proof_Cross Proof_Words Prop_Moves Prop_Search Prop_Invariants Prop_Cache Prop_BigLaws Prop_Words Prop_TwoSearch.
Import ListNotations.
Local Open Scope nat_scope.

(** A [WideAxisMove<1>] (moves/wide.rs:26-32): the depth is private and at most 1, so it is one of
    these 36. The first component says whether the depth is 1. *)
Definition FourMove : Type := bool * AxisMove.
Definition four_wide (m : FourMove) : WideAxisMove := mkWide (if fst m then 1%N else 0%N) (snd m).
Definition all_four_moves : list FourMove := flat_map (fun m => [(false, m); (true, m)]) all_moves.
(** cube4/mod.rs:41-47 [Movable<WideAxisMove<1>>]. *)
Definition four_apply (c : Cube4) (m : FourMove) : Cube4 := cube4_apply_wide c (four_wide m).

(** generic/search/ida.rs:33-40 [IDASearcher::new] for [Cube4] (which derives [Hash], cube4/mod.rs:15), with
    the moves a user lists, a heuristic and a limit; generic/search/mod.rs:25-33 [Solver::solve]. *)
Definition cube4_searcher {M} (app : Cube4 -> M -> Cube4) (moves : list M) (heuristic : Cube4 -> f32) : Problem f32 Cube4 M :=
  mkProblem f32 Cube4 M cube4_eqb (fun c => map (fun m => (app c m, m)) moves) heuristic cube4_is_solved.
Definition cube4_solve_plain (heuristic : Cube4 -> f32) (max_depth : Z) (fuel : nat) (c : Cube4) : solve_result :=
  solve f32_costs (cube4_searcher cube4_apply all_moves heuristic) fuel max_depth c.
Definition cube4_solve_wide (heuristic : Cube4 -> f32) (max_depth : Z) (fuel : nat) (c : Cube4) : solve_result :=
  solve f32_costs (cube4_searcher four_apply all_four_moves heuristic) fuel max_depth c.

(** The heuristic gives whole numbers. *)
Definition whole4 (heuristic : Cube4 -> f32) (estimate : Cube4 -> Z) : Prop :=
  forall c, heuristic c = f32_of_Z (estimate c) /\ (0 <= estimate c < 2 ^ 22)%Z.
(** Plain moves after which [is_solved] holds, and wide ones. *)
Definition plain_solution (c : Cube4) (al : list AxisMove) : Prop := cube4_is_solved (fold_left cube4_apply al c) = true.
Definition wide_solution (c : Cube4) (al : list WideAxisMove) : Prop :=
  Forall (fits Size4) al /\ cube4_is_solved (fold_left cube4_apply_wide al c) = true.

Lemma four_all (m : FourMove) : In m all_four_moves.
Proof. apply in_flat_map. destruct m as [[] m]; exists m; (split; [apply all_moves_complete|]); cbn; auto. Qed.
Lemma four_run al c : fold_left four_apply al c = fold_left cube4_apply_wide (map four_wide al) c.
Proof. revert c. induction al as [|m al IH]; intros c; [reflexivity|]. cbn [map fold_left]. rewrite IH. reflexivity. Qed.
Lemma four_fits al : Forall (fits Size4) (map four_wide al).
Proof. apply Forall_map, Forall_forall. intros [[] m] _; unfold fits; cbn; lia. Qed.
Lemma four_back al : Forall (fits Size4) al -> exists bl, map four_wide bl = al.
Proof.
  induction 1 as [|[d m] al F _ (bl & IH)]; [exists []; reflexivity|]. unfold fits in F. cbn in F.
  exists ((N.eqb d 1, m) :: bl). cbn [map]. rewrite IH. f_equal. unfold four_wide. cbn [fst snd]. destruct (N.eqb_spec d 1); f_equal; lia.
Qed.

Section Facts.
  Context {M : Type} (app : Cube4 -> M -> Cube4) (ms : list M) (All : forall m, In m ms) (h : Cube4 -> f32) (est : Cube4 -> Z) (W : whole4 h est).
  Let ex : Problem Z Cube4 M := mkProblem Z Cube4 M cube4_eqb (fun c => map (fun m => (app c m, m)) ms) est cube4_is_solved.
  Lemma sound4 : successors_sound (cube4_searcher app ms h) app.
  Proof. intros x s m I. apply in_map_iff in I as (m' & E & _). injection E as <- <-. reflexivity. Qed.
  Lemma eq4 : equality_ok ex.
  Proof. intros a b. apply (cube_eqb_eq Size4). Qed.
  Lemma complete4 : successors_complete ex app.
  Proof. intros x m. apply in_map_iff. exists m. split; [reflexivity|apply All]. Qed.
  Lemma bounded4 : forall c, (0 <= pr_heuristic ex c <= 2 ^ 22)%Z.
  Proof. intros c. pose proof (proj2 (W c)). cbn [ex pr_heuristic]. lia. Qed.
  Lemma dyadic4 fuel md c : search f32_costs (cube4_searcher app ms h) fuel md c = search f32_costs (dyadic_problem 0 ex) fuel md c.
  Proof. apply search_ext; try reflexivity. intros x. apply (W x). Qed.
  Lemma found4 (Ad : forall c al, cube4_is_solved (fold_left app al c) = true -> (est c <= Z.of_nat (length al))%Z)
    md c al : (0 <= md < 2 ^ 22)%Z -> cube4_is_solved (fold_left app al c) = true -> (Z.of_nat (length al) <= md)%Z ->
    exists f r, (forall fuel, f <= fuel -> solve f32_costs (cube4_searcher app ms h) fuel md c = SolveDone (Some r)) /\
      cube4_is_solved (fold_left app r c) = true /\ forall al', cube4_is_solved (fold_left app al' c) = true -> length r <= length al'.
  Proof.
    intros Md S L. pose proof (bounded4 c) as B.
    assert (Adm : admissible (2 ^ 0) ex app).
    { intros x bl R. apply Ad in R. change (2 ^ 0)%Z with 1%Z. cbn [ex pr_heuristic]. lia. }
    destruct (C29_complete Cube4 M 0 (2 ^ 22) ex app ltac:(lia) eq4 complete4 bounded4 md ltac:(lia) ltac:(lia) c al S) as (f & [r c'] & F).
    { right. split; [exact Adm|]. change (2 ^ 0)%Z with 1%Z. lia. }
    assert (F' : forall fuel, f <= fuel -> search f32_costs (cube4_searcher app ms h) fuel md c = SearchDone (Some (r, c'))).
    { intros fuel Lf. rewrite dyadic4. apply F, Lf. }
    destruct (C28_search_sound _ _ _ _ _ _ sound4 _ _ _ _ _ (F' f (le_n f))) as (R & T).
    exists f, r. split; [intros fuel Lf; unfold solve; rewrite (F' fuel Lf), T; reflexivity|]. split; [rewrite R; exact T|].
    exact (C29_optimal_f32 Cube4 M 0 (2 ^ 22) ex app ltac:(lia) eq4 complete4 bounded4 Adm f md ltac:(lia) c r c' (F f (le_n f))).
  Qed.
  Lemma none4 md c : (0 <= md < 2 ^ 22)%Z -> (forall al, cube4_is_solved (fold_left app al c) <> true) ->
    forall fuel, (est c + md + 1 < Z.of_nat fuel)%Z -> solve f32_costs (cube4_searcher app ms h) fuel md c = SolveDone None.
  Proof.
    intros Md No fuel L.
    destruct (C30_depth_bounded Cube4 M 0 (2 ^ 22) ex ltac:(lia) bounded4 md ltac:(lia) ltac:(lia) c fuel) as (r & R).
    { change (2 ^ 0)%Z with 1%Z. cbn [ex pr_heuristic]. lia. }
    unfold solve. rewrite <- dyadic4 in R. rewrite R. destruct r as [[al c']|]; [|reflexivity].
    destruct (C28_search_sound _ _ _ _ _ _ sound4 _ _ _ _ _ R) as (F & T). destruct (No al). rewrite F. exact T.
  Qed.
End Facts.

(** ** Scrambled with plain moves, solved with plain moves *)

Lemma plain_as_two scramble al :
  plain_solution (fold_left cube4_apply scramble cube4_solved) al <->
  fold_left cube2_apply al (fold_left cube2_apply scramble cube2_solved) = cube2_solved.
Proof.
  unfold plain_solution. rewrite <- !fold_left_app. pose proof (C80_solved_alike Size4 (scramble ++ al)) as E.
  change (cube4_is_solved (fold_left cube4_apply (scramble ++ al) cube4_solved) = cube2_is_solved (fold_left cube2_apply (scramble ++ al) cube2_solved)) in E.
  rewrite E. apply solved2.
Qed.

(** [AxisMove]s turn both layers of their half of a 4x4x4 (C80). One turned only with them has the
    solutions of the 2x2x2 turned the same way, and the searcher finds a shortest one. *)
Theorem C108_plain : forall heuristic estimate, whole4 heuristic estimate ->
  (forall c al, plain_solution c al -> (estimate c <= Z.of_nat (length al))%Z) ->
  forall max_depth, (125 <= max_depth < 2 ^ 22)%Z ->
  forall scramble, let c4 := fold_left cube4_apply scramble cube4_solved in let c2 := fold_left cube2_apply scramble cube2_solved in
  exists fuel0 al, (forall fuel, fuel0 <= fuel -> cube4_solve_plain heuristic max_depth fuel c4 = SolveDone (Some al)) /\
    fold_left cube4_apply al c4 = cube4_solved /\ (forall al', plain_solution c4 al' -> length al <= length al') /\ shortest c2 al /\ length al <= 125.
Proof.
  intros h est W Ad md Md scramble c4 c2.
  assert (Sv : exists al, fold_left cube2_apply al c2 = cube2_solved).
  { exists (alg_reversed move_inverse scramble). exact (C01_reversed_axis Size2 cube2_solved scramble). }
  destruct (C105_shortest (zero_heuristic f32_costs) (fun _ => 0%Z)) with (max_depth := 125%Z) (c := c2) as (_ & bl & _ & [Sb Ob] & Lb).
  { intros x. split; [reflexivity|lia]. } { intros x a _. lia. } { lia. } { exact Sv. }
  destruct (found4 cube4_apply all_moves all_moves_complete h est W Ad md c4 bl ltac:(lia)) as (f & r & F & S & O).
  { apply plain_as_two, Sb. } { lia. }
  assert (S2 : fold_left cube2_apply r c2 = cube2_solved) by (apply plain_as_two, S).
  exists f, r. split; [exact F|]. split; [|split; [exact O|]].
  - pose proof (proj2 (C80_same_state Size4 (scramble ++ r) [])) as E.
    unfold c4. rewrite <- fold_left_app. apply E. unfold c2 in S2. rewrite <- fold_left_app in S2. exact S2.
  - split; [split; [exact S2|]|].
    + intros al' E. apply O, plain_as_two, E.
    + specialize (O bl (proj2 (plain_as_two _ _) Sb)). lia.
Qed.

(** A 4x4x4 that no plain moves solve gets [None], within the fuel given here. *)
Theorem C108_plain_none : forall heuristic estimate, whole4 heuristic estimate ->
  forall max_depth, (0 <= max_depth < 2 ^ 22)%Z ->
  forall c, (forall al, ~ plain_solution c al) ->
  forall fuel, (estimate c + max_depth + 1 < Z.of_nat fuel)%Z -> cube4_solve_plain heuristic max_depth fuel c = SolveDone None.
Proof. intros h est W md Md c No fuel L. exact (none4 cube4_apply all_moves h est W md c Md No fuel L). Qed.

(** ** Wide moves *)

Lemma wide_of_four c bl : cube4_is_solved (fold_left four_apply bl c) = true <-> wide_solution c (map four_wide bl).
Proof. unfold wide_solution. rewrite four_run. split; [intros H; split; [apply four_fits|exact H]|intros [_ H]; exact H]. Qed.

(** Whatever can be made to look solved within the limit is solved with as few wide moves as possible. *)
Theorem C108_wide : forall heuristic estimate, whole4 heuristic estimate ->
  (forall c al, wide_solution c al -> (estimate c <= Z.of_nat (length al))%Z) ->
  forall max_depth, (0 <= max_depth < 2 ^ 22)%Z ->
  forall c, (exists al, wide_solution c al /\ (Z.of_nat (length al) <= max_depth)%Z) ->
  exists fuel0 al, (forall fuel, fuel0 <= fuel -> cube4_solve_wide heuristic max_depth fuel c = SolveDone (Some al)) /\
    wide_solution c (map four_wide al) /\ forall al', wide_solution c al' -> length al <= length al'.
Proof.
  intros h est W Ad md Md c (al & S & L). destruct (four_back al (proj1 S)) as (bl & <-). rewrite map_length in L.
  destruct (found4 four_apply all_four_moves four_all h est W) with (md := md) (c := c) (al := bl) as (f & r & F & Sr & O).
  - intros x xl R. apply wide_of_four, Ad in R. rewrite map_length in R. exact R.
  - exact Md.
  - apply wide_of_four, S.
  - exact L.
  - exists f, r. split; [exact F|]. split; [apply wide_of_four, Sr|].
    intros al' S'. destruct (four_back al' (proj1 S')) as (cl & <-). rewrite map_length. apply O, wide_of_four, S'.
Qed.
(** So every 4x4x4 that turning can produce, with a limit of at least 5423 moves. *)
Theorem C108_wide_reachable : forall heuristic estimate, whole4 heuristic estimate ->
  (forall c al, wide_solution c al -> (estimate c <= Z.of_nat (length al))%Z) ->
  forall max_depth, (5423 <= max_depth < 2 ^ 22)%Z ->
  forall scramble, Forall (fits Size4) scramble -> let c := fold_left cube4_apply_wide scramble cube4_solved in
  exists fuel0 al, (forall fuel, fuel0 <= fuel -> cube4_solve_wide heuristic max_depth fuel c = SolveDone (Some al)) /\
    wide_solution c (map four_wide al) /\ (forall al', wide_solution c al' -> length al <= length al') /\ length al <= length scramble.
Proof.
  intros h est W Ad md Md scramble F c. 
  assert (R : reachable Size4 c) by (exists scramble; split; [exact F|reflexivity]).
  apply C72_4x4x4_reachable, C72_4x4x4_solvable in R. destruct R as (al & Fa & L & E).
  assert (S : wide_solution c al).
  { split; [exact Fa|]. change (cube4_is_solved (turned Size4 c al) = true). rewrite E. vm_compute. reflexivity. }
  destruct (C108_wide h est W Ad md ltac:(lia) c) as (f & r & Fd & Sr & O).
  { exists al. split; [exact S|]. unfold enough in L. lia. }
  exists f, r. split; [exact Fd|]. split; [exact Sr|]. split; [exact O|].
  replace (length scramble) with (length (alg_reversed wide_inverse scramble)) by (unfold alg_reversed; rewrite map_length, rev_length; reflexivity).
  apply O. split.
  - apply Forall_map, Forall_rev. revert F. apply Forall_impl. intros [d m] H. exact H.
  - change (cube4_is_solved (apply_alg (cube_apply_wide Size4) (apply_alg (cube_apply_wide Size4) cube4_solved scramble) (alg_reversed wide_inverse scramble)) = true).
    rewrite (C01_reversed_wide Size4 cube4_solved scramble). vm_compute. reflexivity.
Qed.
(** And [None], within the fuel given here, for one that can never look solved. *)
Theorem C108_wide_none : forall heuristic estimate, whole4 heuristic estimate ->
  forall max_depth, (0 <= max_depth < 2 ^ 22)%Z ->
  forall c, cube_well_formed Size4 c -> ~ twists_divisible (c4_corners c) ->
  forall fuel, (estimate c + max_depth + 1 < Z.of_nat fuel)%Z -> cube4_solve_wide heuristic max_depth fuel c = SolveDone None.
Proof.
  intros h est W md Md c Wf No fuel L. apply (none4 four_apply all_four_moves h est W md c Md); [|exact L].
  intros al S. apply No, (C73_4x4x4 c Wf). apply wide_of_four in S. destruct S as [F S]. exists (map four_wide al). split; [exact F|exact S].
Qed.
(** The same bound does for every 4x4x4 put together at random. *)
Lemma within4 c : cube_well_formed Size4 c -> twists_divisible (c4_corners c) ->
  exists al, wide_solution c al /\ (N.of_nat (length al) <= enough)%N.
Proof.
  intros W T. pose proof W as W'. cbn in W'. destruct W' as (C & Wg & Z). set (f := filler (odd_list (c4_corners c))).
  destruct (filler_laws (odd_list (c4_corners c))) as (W7 & _ & _ & _ & (HK & _) & F1 & F2). fold f in W7, HK, F1, F2.
  cbn in W7. destruct W7 as (_ & E & _ & _ & _ & _ & CW & E1 & E2).
  destruct (looks_solved_7 (mkCube7 (c4_corners c) (c7_edges f) (c4_wings c) (c4_wings c) (c4_centers c) (c4_centers c) (c7_center_wings f)
            (c7_center_edges_1 f) (c7_center_edges_2 f))) as (al & Fa & La & S).
  { cbn; auto 12. } { apply filler_invariants, T. } { exact HK. } { exact F1. } { exact F2. }
  exists (map cut al). split; [|rewrite map_length; apply enough_moves, La]. split; [apply cut_fits|].
  apply is_solved_small in S as [S _]. rewrite small4_turned in S. destruct c; exact S.
Qed.
(** So with this limit the searcher answers for every assembled cube: with a shortest solution if the
    corner twists add up to full turns, with [None] otherwise. *)
Theorem C108_wide_decides : forall heuristic estimate, whole4 heuristic estimate ->
  (forall c al, wide_solution c al -> (estimate c <= Z.of_nat (length al))%Z) ->
  forall max_depth, (5423 <= max_depth < 2 ^ 22)%Z ->
  forall c, cube_well_formed Size4 c -> exists fuel0 answer,
    (forall fuel, fuel0 <= fuel -> cube4_solve_wide heuristic max_depth fuel c = SolveDone answer) /\
    (twists_divisible (c4_corners c) <-> answer <> None) /\
    forall al, answer = Some al -> wide_solution c (map four_wide al) /\ forall al', wide_solution c al' -> length al <= length al'.
Proof.
  intros h est W Ad md Md c Wf. destruct (Nat.eq_dec (list_sum (map twists (c4_corners c)) mod 3) 0) as [T|T].
  - destruct (within4 c Wf T) as (al & S & L). destruct (C108_wide h est W Ad md ltac:(lia) c) as (f & r & Fd & Sr & O).
    { exists al. split; [exact S|]. unfold enough in L. lia. }
    exists f, (Some r). split; [exact Fd|]. split; [split; [discriminate|intros _; exact T]|]. intros al0 E. injection E as <-. split; [exact Sr|exact O].
  - exists (S (S (Z.to_nat (est c + md + 1)))), None. split.
    + intros fuel Lf. apply (C108_wide_none h est W md ltac:(lia) c Wf); [exact T|]. pose proof (proj2 (W c)). lia.
    + split; [split; [intros K; destruct (T K)|intros K; destruct (K eq_refl)]|discriminate].
Qed.
(** A plain solution is a wide one (of depth 1 throughout), so wide moves never need more. *)
Theorem C108_wide_at_most_plain : forall c al, plain_solution c al -> wide_solution c (map (mkWide 1) al).
Proof.
  intros c al S. split; [apply Forall_map, Forall_forall; intros m _; unfold fits; cbn; lia|]. unfold plain_solution in S. rewrite <- S. f_equal.
  clear S. revert c. induction al as [|m al IH]; intros c; [reflexivity|]. cbn [map fold_left].
  rewrite IH. reflexivity.
Qed.

(** One turn of an outer layer alone, which a wide move of depth 0 undoes, cannot be undone with plain
    moves at all: the searcher goes through everything up to its limit and answers [None]. *)
Definition one_outer : Cube4 := cube4_apply_wide cube4_solved (mkWide 0 (mkMove fR Single)).
Theorem C108_outer_turn : wide_solution one_outer [mkWide 0 (mkMove fR Inverse)] /\
  (forall al, ~ plain_solution one_outer al) /\
  forall max_depth fuel, (0 <= max_depth < 2 ^ 22)%Z -> (max_depth + 1 < Z.of_nat fuel)%Z ->
    cube4_solve_plain (zero_heuristic f32_costs) max_depth fuel one_outer = SolveDone None.
Proof.
  assert (No : forall al, ~ plain_solution one_outer al).
  { intros al S.
    assert (E : small_part Size4 (after Size4 al one_outer) = cube_solved Size2).
    { apply (big_small_solved Size4); [|exact S]. apply after_well_formed.
      exact (wf_turned Size4 [mkWide 0 (mkMove fR Single)] cube4_solved (cube_well_formed_solved Size4)). }
    rewrite C80_small_part in E.
    assert (E2 : forall c, after Size2 (mkMove fR Single :: al) c = after Size2 [] c).
    { apply C78_solved_decides. exact E. }
    pose proof (proj2 (C80_same_effect Size4 (mkMove fR Single :: al) []) E2 (cube4_apply one_outer (mkMove fR Inverse))) as E4.
    change (after Size4 al (cube4_apply (cube4_apply one_outer (mkMove fR Inverse)) (mkMove fR Single)) = cube4_apply one_outer (mkMove fR Inverse)) in E4.
    assert (R : cube4_apply (cube4_apply one_outer (mkMove fR Inverse)) (mkMove fR Single) = one_outer) by (vm_compute; reflexivity).
    rewrite R in E4. unfold plain_solution in S. change (fold_left cube4_apply al one_outer) with (after Size4 al one_outer) in S. rewrite E4 in S.
    vm_compute in S. discriminate. }
  split; [split; [repeat constructor; unfold fits; cbn; lia|vm_compute; reflexivity]|]. split; [exact No|].
  intros md fuel Md L. apply (C108_plain_none (zero_heuristic f32_costs) (fun _ => 0%Z)); [|exact Md|exact No|lia].
  intros c. split; [reflexivity|lia].
Qed.

(** The hypotheses hold: the zero heuristic, and two scrambles of one move. *)
Example C108_zero : whole4 (zero_heuristic f32_costs) (fun _ => 0%Z).
Proof. intros c. split; [reflexivity|lia]. Qed.
Definition one_wide : Cube4 := cube4_apply_wide cube4_solved (mkWide 1 (mkMove fR Single)).
Example C108_example :
  wide_solution one_wide [mkWide 1 (mkMove fR Inverse)] /\
  cube4_solve_wide (zero_heuristic f32_costs) 3 5 one_wide = SolveDone (Some [(true, mkMove fR Inverse)]) /\
  cube4_solve_plain (zero_heuristic f32_costs) 3 5 (fold_left cube4_apply [mkMove fR Single] cube4_solved) = SolveDone (Some [mkMove fR Inverse]).
Proof. split; [split; [repeat constructor; unfold fits; cbn; lia|vm_compute; reflexivity]|]. split; vm_compute; reflexivity. Qed.
Print Assumptions C108_plain.
Print Assumptions C108_plain_none.
Print Assumptions C108_wide.
Print Assumptions C108_wide_reachable.
Print Assumptions C108_wide_none.
Print Assumptions C108_wide_decides.
Print Assumptions C108_wide_at_most_plain.
Print Assumptions C108_outer_turn.

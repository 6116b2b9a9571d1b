(** C110: the searcher finds the shortest way from one cube to another. *)

From Coq Require Import List Bool Arith ZArith NArith Lia.
From Verif Require Import Model_Base Model_Float Model_Space Model_Moves Model_Pieces Model_PieceSet Model_Cubes Model_Invariants Model_Search Model_Mus Model_Cache Model_Connect
  Spec_Search Spec_Sets Spec_Invariants Spec_Words Spec_Moves Proof_Sets Proof_Solve Proof_Search Proof_Cross Proof_Words Prop_Moves Prop_Sets Prop_Search Prop_Invariants Prop_Words.
Import ListNotations.
Local Open Scope nat_scope.

(** generic/search/ida.rs:33-40 [IDASearcher::new] with the moves of [AxisMove::all], and
    generic/search/ida.rs:98-119 [search] with the closure [|x| x == goal]. Of the cubes only [Cube2], [Cube3] and
    [Cube4] derive [Hash], which the searcher asks for; the model does not need that. *)
Definition between_problem (n : CubeSize) (heuristic : CubeOf n -> f32) (goal : CubeOf n) : Problem f32 (CubeOf n) AxisMove :=
  mkProblem f32 (CubeOf n) AxisMove (cube_eqb n) (fun c => map (fun m => (cube_apply n c m, m)) all_moves) heuristic (fun c => cube_eqb n c goal).
Definition search_between (n : CubeSize) (heuristic : CubeOf n -> f32) (max_depth : Z) (fuel : nat) (c goal : CubeOf n) : search_result :=
  search f32_costs (between_problem n heuristic goal) fuel max_depth c.

(** The moves lead from [c] to [d], and no fewer do. *)
Definition way (n : CubeSize) (c d : CubeOf n) (al : list AxisMove) : Prop := fold_left (cube_apply n) al c = d.
Definition shortest_way (n : CubeSize) (c d : CubeOf n) (al : list AxisMove) : Prop :=
  way n c d al /\ forall al', way n c d al' -> length al <= length al'.

Section Facts.
  Context (n : CubeSize) (h : CubeOf n -> f32) (est : CubeOf n -> Z) (goal : CubeOf n).
  Context (W : forall c, h c = f32_of_Z (est c) /\ (0 <= est c < 2 ^ 22)%Z).
  Let ex : Problem Z (CubeOf n) AxisMove :=
    mkProblem Z (CubeOf n) AxisMove (cube_eqb n) (fun c => map (fun m => (cube_apply n c m, m)) all_moves) est (fun c => cube_eqb n c goal).
  Lemma between_sound : successors_sound (between_problem n h goal) (cube_apply n).
  Proof. intros x s m I. apply in_map_iff in I as (m' & E & _). injection E as <- <-. reflexivity. Qed.
  Lemma between_eq : equality_ok ex.
  Proof. intros a b. apply cube_eqb_eq. Qed.
  Lemma between_complete : successors_complete ex (cube_apply n).
  Proof. intros x m. apply in_map_iff. exists m. split; [reflexivity|apply all_moves_complete]. Qed.
  Lemma between_bounded : forall c, (0 <= pr_heuristic ex c <= 2 ^ 22)%Z.
  Proof. intros c. pose proof (proj2 (W c)). cbn [ex pr_heuristic]. lia. Qed.
  Lemma between_dyadic fuel md c : search_between n h md fuel c goal = search f32_costs (dyadic_problem 0 ex) fuel md c.
  Proof. apply search_ext; try reflexivity. intros x. apply (W x). Qed.
  Lemma between_reaches c al : reaches_target ex (cube_apply n) c al <-> way n c goal al.
  Proof. apply cube_eqb_eq. Qed.
  Lemma between_result fuel md c al d : search_between n h md fuel c goal = SearchDone (Some (al, d)) -> d = goal /\ way n c goal al.
  Proof.
    intros R. destruct (C28_search_sound _ _ _ _ _ _ between_sound _ _ _ _ _ R) as (F & T). apply cube_eqb_eq in T. subst d. split; [exact T|].
    unfold way. exact T.
  Qed.
End Facts.

(** ** The shortest way, whatever the size *)

Theorem C110_found : forall n heuristic estimate c goal,
  (forall x, heuristic x = f32_of_Z (estimate x) /\ (0 <= estimate x < 2 ^ 22)%Z) ->
  (forall x al, way n x goal al -> (estimate x <= Z.of_nat (length al))%Z) ->
  forall max_depth, (0 <= max_depth < 2 ^ 22)%Z ->
  (exists al, way n c goal al /\ (Z.of_nat (length al) <= max_depth)%Z) ->
  exists fuel0 al, (forall fuel, fuel0 <= fuel -> search_between n heuristic max_depth fuel c goal = SearchDone (Some (al, goal))) /\
    shortest_way n c goal al.
Proof.
  intros n h est c goal W Ad md Md (al & E & L). pose proof (between_bounded n h est goal W c) as B.
  assert (Adm : admissible (2 ^ 0) (mkProblem Z (CubeOf n) AxisMove (cube_eqb n) (fun c => map (fun m => (cube_apply n c m, m)) all_moves) est (fun c => cube_eqb n c goal)) (cube_apply n)).
  { intros x xl R. apply between_reaches, Ad in R. change (2 ^ 0)%Z with 1%Z. cbn [pr_heuristic]. lia. }
  destruct (C29_complete (CubeOf n) AxisMove 0 (2 ^ 22) _ (cube_apply n) ltac:(lia) (between_eq n est goal) (between_complete n est goal) (between_bounded n h est goal W) md ltac:(lia) ltac:(lia) c al) as (f & [r d] & F).
  { apply between_reaches, E. }
  { right. split; [exact Adm|]. change (2 ^ 0)%Z with 1%Z. lia. }
  assert (F' : forall fuel, f <= fuel -> search_between n h md fuel c goal = SearchDone (Some (r, d))).
  { intros fuel Lf. rewrite (between_dyadic n h est goal W). apply F, Lf. }
  destruct (between_result n h goal f md c r d (F' f (le_n f))) as (-> & Wr).
  exists f, r. split; [exact F'|]. split; [exact Wr|]. intros al' E'.
  apply (C29_optimal_f32 (CubeOf n) AxisMove 0 (2 ^ 22) _ (cube_apply n) ltac:(lia) (between_eq n est goal) (between_complete n est goal) (between_bounded n h est goal W) Adm f md ltac:(lia) c r goal (F f (le_n f))).
  apply between_reaches, E'.
Qed.
Theorem C110_none : forall n heuristic estimate c goal,
  (forall x, heuristic x = f32_of_Z (estimate x) /\ (0 <= estimate x < 2 ^ 22)%Z) ->
  forall max_depth, (0 <= max_depth < 2 ^ 22)%Z -> (forall al, ~ way n c goal al) ->
  forall fuel, (estimate c + max_depth + 1 < Z.of_nat fuel)%Z -> search_between n heuristic max_depth fuel c goal = SearchDone None.
Proof.
  intros n h est c goal W md Md No fuel L.
  destruct (C30_depth_bounded (CubeOf n) AxisMove 0 (2 ^ 22) _ ltac:(lia) (between_bounded n h est goal W) md ltac:(lia) ltac:(lia) c fuel) as (r & R).
  { change (2 ^ 0)%Z with 1%Z. cbn [pr_heuristic]. lia. }
  rewrite <- (between_dyadic n h est goal W) in R. rewrite R. destruct r as [[al d]|]; [|reflexivity].
  destruct (between_result n h goal fuel md c al d R) as (_ & Wr). destruct (No al Wr).
Qed.

(** ** The ways behave like those of a metric space *)

Lemma way_back n c d al : way n c d al -> way n d c (alg_reversed move_inverse al).
Proof. intros <-. exact (C01_reversed_axis n c al). Qed.
Lemma reversed_length al : length (alg_reversed move_inverse al) = length al.
Proof. unfold alg_reversed. rewrite map_length, rev_length. reflexivity. Qed.
(** There and back are equally far, the way back being the reversed alg; there is a way of no moves
    exactly between equal cubes; and no detour is shorter. *)
Theorem C110_back : forall n c d al, shortest_way n c d al -> shortest_way n d c (alg_reversed move_inverse al).
Proof.
  intros n c d al [Wa O]. split; [apply way_back, Wa|]. intros bl Wb. rewrite reversed_length, <- (reversed_length bl). apply O, way_back, Wb.
Qed.
Theorem C110_no_moves : forall n c d al, shortest_way n c d al -> (length al = 0 <-> c = d).
Proof.
  intros n c d al [Wa O]. split.
  - intros L. destruct al; [exact Wa|discriminate].
  - intros <-. specialize (O [] eq_refl). cbn in O. lia.
Qed.
Theorem C110_detour : forall n c d e al bl cl, shortest_way n c d al -> shortest_way n d e bl -> shortest_way n c e cl ->
  length cl <= length al + length bl.
Proof.
  intros n c d e al bl cl [Wa _] [Wb _] [_ O]. rewrite <- app_length. apply O. unfold way in *. rewrite fold_left_app, Wa. exact Wb.
Qed.

(** ** Where the ways lead does not depend on what was done before *)

(** The ways between two scrambled cubes are the same as between the cubes with the same moves made
    before both scrambles. *)
Theorem C110_before : forall n pre sl tl al,
  way n (after n (pre ++ sl) (cube_solved n)) (after n (pre ++ tl) (cube_solved n)) al <->
  way n (after n sl (cube_solved n)) (after n tl (cube_solved n)) al.
Proof.
  intros n pre sl tl al. unfold way. 
  change (fold_left (cube_apply n) al (after n (pre ++ sl) (cube_solved n))) with (after n al (after n (pre ++ sl) (cube_solved n))).
  change (fold_left (cube_apply n) al (after n sl (cube_solved n))) with (after n al (after n sl (cube_solved n))).
  assert (J : forall xl yl x, after n yl (after n xl x) = after n (xl ++ yl) x) by (intros; unfold after; rewrite fold_left_app; reflexivity).
  rewrite !J, <- app_assoc. split; intros E.
  - apply C78_solved_decides. intros c.
    assert (G : forall x, after n (pre ++ sl ++ al) x = after n (pre ++ tl) x) by (apply C78_solved_decides; exact E).
    specialize (G (after n (alg_reversed move_inverse pre) c)). rewrite <- !(J pre) in G.
    assert (B : after n pre (after n (alg_reversed move_inverse pre) c) = c).
    { pose proof (C01_reversed_axis n c (alg_reversed move_inverse pre)) as X. rewrite C01_reversed_twice in X. exact X. }
    rewrite B in G. exact G.
  - rewrite <- !(J pre). exact (proj1 (C78_solved_decides n (sl ++ al) tl) E _).
Qed.

(** ** The 3x3x3 *)

(** Between solvable cubes there is always a way, of at most 139 moves, and a shortest one is as long
    as a shortest solution of a third cube. *)
Theorem C110_cube3 : forall c d : Cube3, (exists al, way Size3 c cube3_solved al) -> (exists al, way Size3 d cube3_solved al) ->
  (exists e : Cube3, forall al, way Size3 c d al <-> way Size3 e cube3_solved al) /\
  exists al, shortest_way Size3 c d al /\ length al <= 139.
Proof.
  intros c d (al & Ea) (bl & Eb).
  assert (J : forall xl yl x, after Size3 yl (after Size3 xl x) = after Size3 (xl ++ yl) x) by (intros; unfold after; rewrite fold_left_app; reflexivity).
  pose proof (way_back Size3 c _ al Ea) as Ra. pose proof (way_back Size3 d _ bl Eb) as Rb.
  set (A := alg_reversed move_inverse al) in *. set (e := after Size3 (bl ++ A) cube3_solved).
  assert (Iff : forall wl, way Size3 c d wl <-> way Size3 e cube3_solved wl).
  { intros wl. unfold way in *. change (fold_left (cube_apply Size3) wl e) with (after Size3 wl e). unfold e. rewrite J. split; intros E.
    - pose proof (proj2 (C78_solved_decides Size3 (bl ++ A ++ wl) [])) as G. rewrite <- app_assoc. apply G. clear G.
      assert (G : forall x, after Size3 (A ++ wl ++ bl) x = after Size3 [] x).
      { apply C78_solved_decides. rewrite <- !J. unfold after. cbn [fold_left]. change (cube_solved Size3) with cube3_solved. rewrite Ra, E. exact Eb. }
      intros x. specialize (G (after Size3 bl x)). rewrite J in G. rewrite app_assoc, app_assoc in G. rewrite <- J in G.
      change (after Size3 [] (after Size3 bl x)) with (after Size3 bl x) in G.
      rewrite <- app_assoc in G. set (y := after Size3 (bl ++ A ++ wl) x) in *.
      pose proof (C01_reversed_axis Size3 y bl) as Y. pose proof (C01_reversed_axis Size3 x bl) as X.
      change (apply_alg (cube_apply Size3) y bl) with (after Size3 bl y) in Y. rewrite G in Y.
      exact (eq_trans (eq_sym Y) X).
    - assert (G : forall x, after Size3 ((bl ++ A) ++ wl) x = after Size3 [] x) by (apply C78_solved_decides; exact E).
      specialize (G d). rewrite <- app_assoc in G. rewrite <- !J in G. unfold after in G. cbn [fold_left] in G. rewrite Eb, Ra in G. exact G. }
  split; [exists e; exact Iff|].
  assert (Se : exists wl, fold_left cube3_apply wl e = cube3_solved).
  { exists (alg_reversed move_inverse (bl ++ A)). exact (C01_reversed_axis Size3 cube3_solved (bl ++ A)). }
  apply C07_solvable_exactly in Se as (We & I1 & I2 & I3). destruct (C07_invariants_solvable e We I1 I2 I3) as (wl & Lw & Ew).
  destruct (C110_found Size3 (zero_heuristic f32_costs) (fun _ => 0%Z) c d) with (max_depth := 200%Z) as (f & r & _ & Sr).
  - intros x. split; [reflexivity|lia].
  - intros x xl _. lia.
  - lia.
  - exists wl. split; [apply Iff, Ew|lia].
  - exists r. split; [exact Sr|]. destruct Sr as [_ O]. specialize (O wl (proj2 (Iff wl) Ew)). lia.
Qed.

(** From a solvable cube to one that is not, or back, there is none, and the search says so. *)
Theorem C110_cube3_none : forall c d : Cube3,
  ((exists al, way Size3 c cube3_solved al) /\ ~ (exists al, way Size3 d cube3_solved al) \/
   ~ (exists al, way Size3 c cube3_solved al) /\ (exists al, way Size3 d cube3_solved al)) ->
  forall max_depth fuel, (0 <= max_depth < 2 ^ 22)%Z -> (max_depth + 1 < Z.of_nat fuel)%Z ->
  search_between Size3 (zero_heuristic f32_costs) max_depth fuel c d = SearchDone None.
Proof.
  intros c d H md fuel Md L. apply (C110_none Size3 _ (fun _ => 0%Z)); [intros x; split; [reflexivity|lia]|exact Md| |lia].
  intros wl Ww. destruct H as [((al & Ea) & N)|(N & (al & Ea))]; apply N.
  - exists (alg_reversed move_inverse wl ++ al). unfold way. rewrite fold_left_app, (way_back Size3 c d wl Ww). exact Ea.
  - exists (wl ++ al). unfold way. rewrite fold_left_app, Ww. exact Ea.
Qed.

(** One edge flipped: no way there from the solved cube. *)
Example C110_one_flip :
  let d := mkCube3 (match edge_solved with e :: l => edge_flip e :: l | [] => [] end) corner_solved in
  (exists al, way Size3 cube3_solved cube3_solved al) /\ ~ (exists al, way Size3 d cube3_solved al).
Proof.
  intros d. split; [exists []; reflexivity|]. intros S. apply C07_solvable_exactly in S as (_ & _ & F & _). vm_compute in F. discriminate.
Qed.
(** Two moves from one scramble to another, found by the search. *)
Example C110_example :
  let c := after Size3 [mkMove fF Single; mkMove fR Single] cube3_solved in let d := after Size3 [mkMove fF Single; mkMove fU Double] cube3_solved in
  search_between Size3 (zero_heuristic f32_costs) 5 9 c d = SearchDone (Some ([mkMove fR Inverse; mkMove fU Double], d)).
Proof. vm_compute. reflexivity. Qed.
Print Assumptions C110_found.
Print Assumptions C110_none.
Print Assumptions C110_back.
Print Assumptions C110_no_moves.
Print Assumptions C110_detour.
Print Assumptions C110_before.
Print Assumptions C110_cube3.
Print Assumptions C110_cube3_none.

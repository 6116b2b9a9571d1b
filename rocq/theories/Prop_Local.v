(** C109: a search asks about no other states than those that can be reached. *)

From Coq Require Import List Bool Arith ZArith NArith Lia.
From Verif Require Import Model_Base Model_Float Model_Space Model_Moves Model_Pieces Model_PieceSet Model_Cubes Model_Invariants Model_Search Model_Mus Model_Cache Model_Connect
  Spec_Search Spec_Sets Spec_Invariants Spec_Cache Spec_BigLaws Spec_Words Proof_Sets Proof_Stickers Proof_Solve Proof_Search Proof_Cross Proof_Words Prop_Moves Prop_Sets Prop_Search Prop_Invariants Prop_Cache Prop_BigLaws Prop_Words
  Prop_TwoSearch Prop_FourSearch.
Import ListNotations.
Local Open Scope nat_scope.

(** Two problems give the same answers about every state that moves lead to from [c]: the same
    heuristic, the same successors, the same verdict whether it is a target, and the same comparisons. *)
Definition agree_from {K C M} (pr pr' : Problem K C M) (app : C -> M -> C) (c : C) : Prop :=
  forall al, let x := fold_left app al c in
    pr_heuristic pr' x = pr_heuristic pr x /\ pr_successors pr' x = pr_successors pr x /\ pr_is_target pr' x = pr_is_target pr x /\
    forall bl, pr_eqb pr' x (fold_left app bl c) = pr_eqb pr x (fold_left app bl c).

Section Local.
  Context {K C M : Type} (ops : CostOps K) (pr pr' : Problem K C M) (app : C -> M -> C) (start : C).
  Context (Snd : successors_sound pr app) (A : agree_from pr pr' app start).
  Let met (x : C) : Prop := exists al, x = fold_left app al start.
  Lemma met_next x s m : met x -> In (s, m) (pr_successors pr x) -> met s.
  Proof. intros (al & ->) I. apply Snd in I. subst s. exists (al ++ [m]). rewrite fold_left_app. reflexivity. Qed.
  Lemma met_path x path : met x -> Forall met path -> existsb (pr_eqb pr' x) path = existsb (pr_eqb pr x) path.
  Proof.
    intros (al & ->). induction 1 as [|y path (bl & ->) _ IH]; [reflexivity|]. cbn [existsb]. rewrite IH. f_equal. apply (A al).
  Qed.
  Lemma try_local rec rec' path : Forall met path -> (forall s mn, met s -> rec' (s :: path) mn = rec (s :: path) mn) ->
    forall succs, Forall (fun x => met (fst x)) succs -> forall mn, ida_try pr' rec' path succs mn = ida_try pr rec path succs mn.
  Proof.
    intros P H. induction 1 as [|[s m] succs Hs _ IH]; intros mn; cbn [ida_try]; [reflexivity|]. cbn [fst] in Hs.
    rewrite (met_path s path Hs P). destruct (existsb (pr_eqb pr s) path); [apply IH|]. rewrite (H s mn Hs).
    destruct (rec (s :: path) mn); auto.
  Qed.
  Lemma impl_local : forall fuel path cur bound mn, Forall met path ->
    search_impl ops pr' fuel path cur bound mn = search_impl ops pr fuel path cur bound mn.
  Proof.
    induction fuel as [|fuel IH]; intros path cur bound mn P; cbn [search_impl]; [reflexivity|].
    destruct path as [|c rest]; [reflexivity|]. pose proof (Forall_inv P) as Pc. pose proof Pc as (al & E).
    destruct (A al) as (Hh & Hs & Ht & _). rewrite <- E in Hh, Hs, Ht. rewrite Hh, Ht, Hs. destruct (k_ltb ops bound _); [reflexivity|].
    destruct (pr_is_target pr c); [reflexivity|]. apply try_local; [exact P| |].
    - intros s mn' Ms. apply IH. constructor; assumption.
    - apply Forall_forall. intros [s m] I. exact (met_next c s m Pc I).
  Qed.
  Lemma iter_local fuel : forall n bound, search_iter ops pr' fuel start n bound = search_iter ops pr fuel start n bound.
  Proof.
    induction n as [|n IH]; intros bound; cbn [search_iter]; [reflexivity|]. rewrite impl_local by (constructor; [exists []; reflexivity|constructor]).
    destruct (search_impl ops pr fuel [start] _ bound _); auto.
  Qed.
  Lemma search_local fuel md : search ops pr' fuel md start = search ops pr fuel md start.
  Proof. unfold search. destruct (A []) as (Hh & _). cbn in Hh. rewrite Hh. apply iter_local. Qed.
End Local.

(** What the closures given to [IDASearcher::new] and [Searcher::search] answer about other states makes
    no difference, whatever the costs, the fuel and the limit. *)
Theorem C109_local : forall (K C M : Type) (ops : CostOps K) (pr pr' : Problem K C M) (app : C -> M -> C) c,
  successors_sound pr app -> agree_from pr pr' app c ->
  forall fuel max_depth, search ops pr' fuel max_depth c = search ops pr fuel max_depth c.
Proof. intros K C M ops pr pr' app c S A fuel md. exact (search_local ops pr pr' app c S A fuel md). Qed.

(** So a heuristic must be right only inside a set of states, given by a test, that no move leaves. *)
Theorem C109_shortest_inside : forall (C M : Type) (k H : Z) (pr : Problem Z C M) (app : C -> M -> C) (inside : C -> bool),
  (0 <= k <= 23)%Z -> equality_ok pr -> successors_sound pr app -> successors_complete pr app ->
  (forall c m, inside c = true -> inside (app c m) = true) ->
  (0 <= H)%Z -> (forall c, inside c = true -> (0 <= pr_heuristic pr c <= H)%Z) ->
  (forall c al, inside c = true -> reaches_target pr app c al -> (pr_heuristic pr c <= 2 ^ k * Z.of_nat (length al))%Z) ->
  forall max_depth, (0 <= max_depth)%Z -> (2 * H + 2 ^ k * (max_depth + 2) < 2 ^ 24)%Z ->
  forall c al, inside c = true -> reaches_target pr app c al -> (2 ^ k * Z.of_nat (length al) <= pr_heuristic pr c + max_depth)%Z ->
  exists fuel0 al', (forall fuel, fuel0 <= fuel ->
      search f32_costs (dyadic_problem k pr) fuel max_depth c = SearchDone (Some (al', fold_left app al' c))) /\
    reaches_target pr app c al' /\ forall bl, reaches_target pr app c bl -> length al' <= length bl.
Proof.
  intros C M k H pr app ins Hk E Snd Comp Cl H0 B Ad md Md Sm c al Ic R L.
  set (pr0 := mkProblem Z C M (pr_eqb pr) (pr_successors pr) (fun x => if ins x then pr_heuristic pr x else 0%Z) (pr_is_target pr)).
  assert (Run : forall bl x, ins x = true -> ins (fold_left app bl x) = true).
  { induction bl as [|m bl IH]; intros x Ix; [exact Ix|]. apply IH, Cl, Ix. }
  assert (P : (0 < 2 ^ k)%Z) by (apply Z.pow_pos_nonneg; lia).
  assert (B0 : forall x, (0 <= pr_heuristic pr0 x <= H)%Z).
  { intros x. cbn [pr0 pr_heuristic]. destruct (ins x) eqn:Ix; [apply B, Ix|lia]. }
  assert (Ad0 : admissible (2 ^ k) pr0 app).
  { intros x xl Rx. cbn [pr0 pr_heuristic]. destruct (ins x) eqn:Ix; [apply Ad; [exact Ix|exact Rx]|nia]. }
  assert (Same : forall fuel, search f32_costs (dyadic_problem k pr) fuel md c = search f32_costs (dyadic_problem k pr0) fuel md c).
  { intros fuel. apply (C109_local f32 C M f32_costs (dyadic_problem k pr0) (dyadic_problem k pr) app c Snd).
    intros bl x. cbn [dyadic_problem pr0 pr_heuristic pr_successors pr_is_target pr_eqb]. rewrite (Run bl c Ic : ins x = true). auto. }
  destruct (C29_complete C M k H pr0 app Hk E Comp B0 md Md Sm c al R) as (f & [r c'] & F).
  { right. split; [exact Ad0|]. cbn [pr0 pr_heuristic]. rewrite Ic. exact L. }
  destruct (C28_search_sound _ _ _ f32_costs (dyadic_problem k pr0) app Snd _ _ _ _ _ (F f (le_n f))) as (Er & T). subst c'.
  exists f, r. split; [intros fuel Lf; rewrite Same; apply F, Lf|]. split; [exact T|].
  intros bl Rb. refine (C29_optimal_f32 C M k H pr0 app Hk E Comp B0 Ad0 f md _ c r _ (F f (le_n f)) bl Rb). lia.
Qed.

(** ** The table of the 3x3x3's corners guides a search on the 4x4x4 *)

(** cube3/heuristics/mus.rs:16-18 [mus], asked about a [Cube3] with the corners of the [Cube4]. Of a [Cube4]
    whose corners are not a valid set (which no API produces) it need not say anything right. *)
Definition corner_heuristic ca (c : Cube4) : f32 := mus_value ca (as_cube3 (mkCube2 (c4_corners c))).

Definition corners_valid (c : Cube4) : bool :=
  (length (c4_corners c) =? 8) && match set_validate corner_desc (c4_corners c) with None => true | Some _ => false end.
Lemma corners_valid_spec c : corners_valid c = true <-> set_valid corner_desc (c4_corners c).
Proof.
  unfold corners_valid, set_valid. rewrite andb_true_iff, Nat.eqb_eq, <- (validate_none _ corner_desc_ok).
  change (length (pd_reference corner_desc)) with 8. destruct (set_validate corner_desc (c4_corners c)); intuition (auto; discriminate).
Qed.
Lemma corners4_run al : forall c, c4_corners (fold_left cube4_apply al c) = fold_left corner_set_apply al (c4_corners c).
Proof. induction al as [|m al IH]; intros c; [reflexivity|]. cbn [fold_left]. rewrite IH. reflexivity. Qed.

(** For every 4x4x4 with valid corners that plain moves can make look solved within the limit, the search
    guided by the table gives a shortest such alg. *)
Theorem C109_corner_table : forall ca, complete_cache ca ->
  forall max_depth, (0 <= max_depth < 2 ^ 22)%Z ->
  forall c, one_piece_everywhere corner_desc (c4_corners c) ->
  (exists al, plain_solution c al /\ (Z.of_nat (length al) <= max_depth)%Z) ->
  exists fuel0 al, (forall fuel, fuel0 <= fuel -> cube4_solve_plain (corner_heuristic ca) max_depth fuel c = SolveDone (Some al)) /\
    plain_solution c al /\ forall al', plain_solution c al' -> length al <= length al'.
Proof.
  intros ca CC md Md c V (al & S & L). apply (set_valid_spec _ corner_desc_ok) in V.
  set (est := fun c => match cache_get ca (as_cube3 (mkCube2 (c4_corners c))) with Done v => Z.of_N v | Panic => 0%Z end).
  set (ex := mkProblem Z Cube4 AxisMove cube4_eqb (fun c => map (fun m => (cube4_apply c m, m)) all_moves) est cube4_is_solved).
  assert (W : whole4 (corner_heuristic ca) est).
  { intros x. split.
    + unfold corner_heuristic, mus_value, mus, cache_get_or_init, est. destruct (cache_get ca _); reflexivity.
    + unfold est. destruct (cache_get ca _) as [v|] eqn:G; [|lia]. apply (cache_bounded ca _ v CC) in G. lia. }
  destruct (C109_shortest_inside Cube4 AxisMove 0 (2 ^ 22) ex cube4_apply corners_valid) with (max_depth := md) (c := c) (al := al) as (f & r & F & T & O).
  - lia.
  - apply (eq4 cube4_apply all_moves).
  - apply (sound4 cube4_apply all_moves (corner_heuristic ca)).
  - apply (complete4 cube4_apply all_moves all_moves_complete).
  - intros x m Vx. apply corners_valid_spec in Vx. apply corners_valid_spec. exact (corner_set_valid (c4_corners x) m Vx).
  - lia.
  - intros x _. pose proof (proj2 (W x)). cbn [ex pr_heuristic]. lia.
  - intros x xl Vx Rx. apply corners_valid_spec in Vx. change (2 ^ 0)%Z with 1%Z. cbn [ex pr_heuristic].
    unfold reaches_target in Rx. cbn [ex pr_is_target] in Rx. unfold cube4_is_solved in Rx. rewrite !andb_true_iff in Rx. destruct Rx as [[Rx _] _].
    rewrite corners4_run in Rx. apply corner_set_is_solved in Rx.
    2:{ clear Rx. revert x Vx. induction xl as [|m xl IH]; intros x Vx; [apply Vx|]. cbn [fold_left]. apply (IH (cube4_apply x m)). exact (corner_set_valid (c4_corners x) m Vx). }
    assert (E : fold_left cube2_apply xl (mkCube2 (c4_corners x)) = cube2_solved) by (rewrite cube2_run, Rx; reflexivity).
    destruct (table_value ca _ CC (ex_intro _ xl E)) as (d & G & _ & al' & [_ O] & Le). specialize (O xl E).
    unfold est. rewrite G. lia.
  - lia.
  - lia.
  - apply corners_valid_spec, V.
  - exact S.
  - change (2 ^ 0)%Z with 1%Z. pose proof (proj2 (W c)). cbn [ex pr_heuristic]. lia.
  - exists f, r. split; [|split; [exact T|exact O]]. intros fuel Lf. unfold cube4_solve_plain, solve.
    rewrite (dyadic4 cube4_apply all_moves _ est W). fold ex. rewrite (F fuel Lf). unfold reaches_target in T. cbn [ex pr_is_target] in T.
    cbn [cube4_searcher pr_is_target]. rewrite T. reflexivity.
Qed.

(** Two heuristics that differ, but not on any state that the start leads to. *)
Example C109_example :
  let pr h := mkProblem Z nat unit Nat.eqb (fun n => [(n + 2, tt)]) h (fun n => n =? 6) in
  let right n := Z.of_nat ((6 - n) / 2) in let wrong n := if Nat.even n then right n else 1000%Z in
  agree_from (pr right) (pr wrong) (fun n _ => n + 2) 0 /\ wrong 1 <> right 1 /\ search (exact_costs 1) (pr wrong) 9 5 0 = SearchDone (Some ([tt; tt; tt], 6)).
Proof.
  cbv zeta. split; [|split; [discriminate|vm_compute; reflexivity]]. intros al x.
  assert (E : Nat.even x = true).
  { subst x. assert (G : forall n, Nat.even n = true -> Nat.even (fold_left (fun n (_ : unit) => n + 2) al n) = true); [|apply G; reflexivity].
    induction al as [|m al IH]; intros n Hn; [exact Hn|]. cbn [fold_left]. apply IH. rewrite Nat.even_add, Hn. reflexivity. }
  cbn [pr_heuristic pr_successors pr_is_target pr_eqb]. rewrite E. auto.
Qed.
Print Assumptions C109_local.
Print Assumptions C109_shortest_inside.
Print Assumptions C109_corner_table.

(** Properties of the global cache used by several threads (C61) and of searches whose
    heuristic changes while they run (C62). *)

From Coq Require Import List Bool Arith NArith ZArith Lia ZifyBool ZifyN ZifyNat.
From Verif Require Import Model_Base Model_Space Model_Moves Model_Pieces Model_Cubes Model_Float Model_Search Model_Invariants
  Model_Mus Model_Cache Model_Disk Model_Concurrent Model_Timed Model_Threads
  Spec_Search Spec_Sets Spec_Invariants Spec_Mus Spec_Cache Proof_Moves Proof_Sets Proof_Search Proof_Mus Proof_Float Proof_FloatSearch Proof_Timed
  Prop_Moves Prop_Invariants Prop_Sets Prop_Search Prop_Cache Prop_Concurrent.
Import ListNotations.
Local Open Scope nat_scope.
#[local] Opaque build_table.

(* ------------------------------------------------------------------ *)
(** * C61 All threads get their answers from one cache *)

(** The caches stored so far, the latest first. *)
Definition stored (h : list Event) : list Cache :=
  flat_map (fun e => match e with Initialised _ ca => [ca] | _ => [] end) h.

(** The answer to a call, given what happened before it. *)
Definition right_answer (init_returns : Cache -> Prop) (e : Event) (earlier : list Event) : Prop :=
  match e with
  | AnsweredGet _ c value => value = match stored earlier with [] => None | ca :: _ => Some (cache_get ca c) end
  | AnsweredInit _ c value => exists ca, stored earlier = [ca] /\ value = cache_get ca c
  | Initialised _ ca => stored earlier = [] /\ init_returns ca
  | InitPanicked _ => stored earlier = []
  end.

Section C61.
  Context (init_returns : Cache -> Prop).

  Definition world_ok (w : World) : Prop :=
    stored (wo_history w) = match wo_lock w with Full ca => [ca] | _ => [] end /\
    (forall t, wo_lock w = Busy t <-> exists c, nth_error (wo_threads w) t = Some (Initialising c)) /\
    (forall later e earlier, wo_history w = later ++ e :: earlier -> right_answer init_returns e earlier).

  Lemma nth_set {A} (l : list A) i j x : i < length l -> nth_error (set_nth l i x) j = if Nat.eqb i j then Some x else nth_error l j.
  Proof.
    intros H. destruct (Nat.eqb_spec i j) as [<-|N]; [apply set_nth_same, H|apply set_nth_other, N].
  Qed.
  Lemma nth_some_lt {A} (l : list A) i x : nth_error l i = Some x -> i < length l.
  Proof. intros H. apply nth_error_Some. rewrite H. discriminate. Qed.
  Lemma history_cons (e0 : Event) h (Q : Event -> list Event -> Prop) : Q e0 h ->
    (forall later e earlier, h = later ++ e :: earlier -> Q e earlier) ->
    forall later e earlier, e0 :: h = later ++ e :: earlier -> Q e earlier.
  Proof. intros Q0 Qh [|x later] e earlier E; cbn in E; injection E as -> E; [subst; exact Q0|exact (Qh _ _ _ E)]. Qed.

  Lemma world_step_ok w w' : world_step init_returns w w' -> world_ok w -> world_ok w'.
  Proof.
    intros S (S1 & S2 & S3). destruct S as [l ts h|l ts h t c Ht|l ts h t c Ht|ca ts h t c Ht|ts h t c Ht|ts h t c ca Ht Ic|ts h t c Ht];
      cbn [wo_lock wo_threads wo_history] in *; try pose proof (nth_some_lt _ _ _ Ht) as Lt; (split; [|split]); cbn [wo_lock wo_threads wo_history].
    - exact S1.
    - intros t. rewrite S2. split; intros (c & E); exists c.
      + rewrite nth_error_app1 by (apply (nth_some_lt _ _ _ E)). exact E.
      + destruct (Nat.lt_ge_cases t (length ts)) as [L|L]; [rewrite nth_error_app1 in E by exact L; exact E|].
        rewrite nth_error_app2 in E by exact L. destruct (t - length ts) as [|[|n]]; discriminate E.
    - exact S3.
    - exact S1.
    - exact S2.
    - apply history_cons; [|exact S3]. cbn [right_answer]. rewrite S1. destruct l; reflexivity.
    - exact S1.
    - intros t'. rewrite S2, nth_set by exact Lt. destruct (Nat.eqb_spec t t') as [<-|N]; [|reflexivity].
      rewrite Ht. split; intros (x & E); discriminate E.
    - exact S3.
    - exact S1.
    - intros t'. rewrite S2, nth_set by exact Lt. destruct (Nat.eqb_spec t t') as [<-|N]; [|reflexivity].
      rewrite Ht. split; intros (x & E); discriminate E.
    - apply history_cons; [|exact S3]. cbn [right_answer]. exists ca. split; [exact S1|reflexivity].
    - exact S1.
    - intros t'. rewrite nth_set by exact Lt. destruct (Nat.eqb_spec t t') as [<-|N].
      + split; [intros _; exists c; reflexivity|reflexivity].
      + split; [intros [= E]; contradiction|]. intros E. apply S2 in E. discriminate E.
    - exact S3.
    - cbn [stored flat_map]. fold (stored h). rewrite S1. reflexivity.
    - intros t'. rewrite nth_set by exact Lt. destruct (Nat.eqb_spec t t') as [<-|N].
      + split; [discriminate|]. intros (x & E). discriminate E.
      + split; [discriminate|]. intros E. apply S2 in E. injection E as E. contradiction.
    - apply history_cons; [|exact S3]. cbn [right_answer]. split; assumption.
    - exact S1.
    - intros t'. rewrite nth_set by exact Lt. destruct (Nat.eqb_spec t t') as [<-|N].
      + split; [discriminate|]. intros (x & E). discriminate E.
      + split; [discriminate|]. intros E. apply S2 in E. injection E as E. contradiction.
    - apply history_cons; [|exact S3]. exact S1.
  Qed.
  Lemma world_reach_ok w : world_reach init_returns w -> world_ok w.
  Proof.
    induction 1 as [|w w' _ IH S]; [|exact (world_step_ok w w' S IH)]. split; [reflexivity|]. split.
    - intros t. cbn. split; [discriminate|]. intros (c & E). destruct t; discriminate E.
    - intros later e0 earlier E; destruct later; discriminate E.
  Qed.
End C61.

(** For every execution of any number of threads: every answer is the one that the single
    stored cache gives, [get] says [None] exactly before it is stored, and the initialiser is
    never run again afterwards. *)
Theorem C61_answers : forall init_returns w later e earlier, world_reach init_returns w ->
  wo_history w = later ++ e :: earlier -> right_answer init_returns e earlier.
Proof. intros ir w later e earlier H. exact (proj2 (proj2 (world_reach_ok ir w H)) later e earlier). Qed.

(** At most one cache is ever stored, it is one that [Cache::init] returned, and at most one
    thread runs the initialiser at a time. *)
Theorem C61_one_cache : forall init_returns w, world_reach init_returns w ->
  length (stored (wo_history w)) <= 1 /\ (forall ca, In ca (stored (wo_history w)) -> init_returns ca) /\
  (forall t1 c1 t2 c2, nth_error (wo_threads w) t1 = Some (Initialising c1) -> nth_error (wo_threads w) t2 = Some (Initialising c2) -> t1 = t2).
Proof.
  intros ir w H. destruct (world_reach_ok ir w H) as (S1 & S2 & S3). split; [|split].
  - rewrite S1. destruct (wo_lock w); cbn; lia.
  - intros ca I. apply in_flat_map in I as (e & Ie & Ic). destruct e as [t ca'| | |]; cbn in Ic; try contradiction.
    destruct Ic as [<-|[]]. apply in_split in Ie as (later & earlier & E). exact (proj2 (S3 _ _ _ E)).
  - intros t1 c1 t2 c2 E1 E2. assert (B1 := proj2 (S2 t1) (ex_intro _ c1 E1)). assert (B2 := proj2 (S2 t2) (ex_intro _ c2 E2)). congruence.
Qed.

(** Answers about the same cube, to any threads at any times, are equal. *)
Definition answer (e : Event) (c : Cube3) (v : outcome N) : Prop :=
  exists t, e = AnsweredInit t c v \/ e = AnsweredGet t c (Some v).
Lemma stored_app a b : stored (a ++ b) = stored a ++ stored b.
Proof. apply flat_map_app. Qed.
Lemma answer_from_stored ir w e c v : world_reach ir w -> In e (wo_history w) -> answer e c v ->
  exists ca, stored (wo_history w) = [ca] /\ v = cache_get ca c.
Proof.
  intros H I (t & A). apply in_split in I as (later & earlier & E). pose proof (C61_answers ir w later e earlier H E) as R.
  destruct (C61_one_cache ir w H) as (L & _). rewrite E in L |- *. rewrite stored_app in L |- *.
  assert (X : exists ca, stored earlier = [ca] /\ v = cache_get ca c).
  { destruct A as [-> | ->]; cbn [right_answer] in R; [exact R|].
    cbn [stored flat_map app] in L. fold (stored earlier) in L. rewrite app_length in L.
    destruct (stored earlier) as [|ca [|? ?]]; [discriminate R| |cbn in L; lia]. exists ca. split; [reflexivity|]. injection R as ->. reflexivity. }
  destruct X as (ca & Sc & Hv). exists ca. split; [|exact Hv].
  assert (Se : stored (e :: earlier) = [ca]). { destruct A as [-> | ->]; cbn [stored flat_map app]; exact Sc. }
  rewrite Se in L |- *. rewrite app_length in L. cbn [length] in L. destruct (stored later); [reflexivity|cbn in L; lia].
Qed.
Theorem C61_answers_agree : forall init_returns w e1 e2 c v1 v2, world_reach init_returns w ->
  In e1 (wo_history w) -> In e2 (wo_history w) -> answer e1 c v1 -> answer e2 c v2 -> v1 = v2.
Proof.
  intros ir w e1 e2 c v1 v2 H I1 I2 A1 A2. destruct (answer_from_stored ir w e1 c v1 H I1 A1) as (ca & E & ->).
  destruct (answer_from_stored ir w e2 c v2 H I2 A2) as (ca' & E' & ->). congruence.
Qed.

(** No deadlock and no poisoning: in every reachable situation, whatever panics there were
    before, every call of [get_or_init] that is waiting can still be answered. *)
Theorem C61_no_deadlock : forall (init_returns : Cache -> Prop) ca0 w t c, init_returns ca0 -> world_reach init_returns w ->
  nth_error (wo_threads w) t = Some (Asking c) \/ nth_error (wo_threads w) t = Some (Initialising c) ->
  exists w' ca h, world_steps init_returns w w' /\ wo_history w' = AnsweredInit t c (cache_get ca c) :: h /\ stored h = [ca].
Proof.
  intros ir ca0 w t c I0 H Ht. destruct (world_reach_ok ir w H) as (S1 & S2 & _). destruct w as [l ts h].
  cbn [wo_lock wo_threads wo_history] in *.
  assert (One : forall ts h ca1, nth_error ts t = Some (Asking c) -> stored h = [ca1] ->
    exists w' ca h', world_steps ir (mkWorld (Full ca1) ts h) w' /\ wo_history w' = AnsweredInit t c (cache_get ca c) :: h' /\ stored h' = [ca]).
  { intros ts' h' ca E Sc. eexists _, ca, h'. split; [eapply steps_more; [apply (step_answer ir ca ts' h' t c E)|apply steps_none]|]. split; [reflexivity|exact Sc]. }
  assert (Two : forall ts h, nth_error ts t = Some (Initialising c) -> stored h = [] ->
    exists w' ca h', world_steps ir (mkWorld (Busy t) ts h) w' /\ wo_history w' = AnsweredInit t c (cache_get ca c) :: h' /\ stored h' = [ca]).
  { intros ts' h' E Sc. destruct (One (set_nth ts' t (Asking c)) (Initialised t ca0 :: h') ca0) as (w' & ca & h'' & St & A).
    - apply set_nth_same, (nth_some_lt _ _ _ E).
    - cbn [stored flat_map app]. fold (stored h'). rewrite Sc. reflexivity.
    - exists w', ca, h''. split; [|exact A]. eapply steps_more; [apply (step_store ir ts' h' t c ca0 E I0)|exact St]. }
  assert (Three : forall ts h, nth_error ts t = Some (Asking c) -> stored h = [] ->
    exists w' ca h', world_steps ir (mkWorld Empty ts h) w' /\ wo_history w' = AnsweredInit t c (cache_get ca c) :: h' /\ stored h' = [ca]).
  { intros ts' h' E Sc. destruct (Two (set_nth ts' t (Initialising c)) h') as (w' & ca & h'' & St & A).
    - apply set_nth_same, (nth_some_lt _ _ _ E).
    - exact Sc.
    - exists w', ca, h''. split; [|exact A]. eapply steps_more; [apply (step_enter ir ts' h' t c E)|exact St]. }
  destruct Ht as [Ht|Ht].
  - destruct l as [|t'|ca].
    + apply Three; assumption.
    + destruct (proj1 (S2 t') eq_refl) as (c' & E'). assert (N : t' <> t) by (intros ->; congruence).
      destruct (One (set_nth ts t' (Asking c')) (Initialised t' ca0 :: h) ca0) as (w' & ca & h'' & St & A).
      * rewrite set_nth_other by exact N. exact Ht.
      * cbn [stored flat_map app]. fold (stored h). rewrite S1. reflexivity.
      * exists w', ca, h''. split; [|exact A]. eapply steps_more; [apply (step_store ir ts h t' c' ca0 E' I0)|exact St].
    + apply One; assumption.
  - assert (B := proj2 (S2 t) (ex_intro _ c Ht)). rewrite B in *. apply Two; assumption.
Qed.

(** Example: two threads; the first initialiser panics, the waiting thread then runs its own,
    and a third call of [get] sees the same cache. *)
Example C61_example (ca : Cache) (c : Cube3) :
  world_reach (eq ca) (mkWorld (Full ca) [Panicked; Outside]
    [AnsweredGet 1 c (Some (cache_get ca c)); AnsweredInit 1 c (cache_get ca c); Initialised 1 ca; InitPanicked 0; AnsweredGet 1 c None]).
Proof.
  eapply world_next; [|exact (step_get (eq ca) (Full ca) [Panicked; Outside] _ 1 c eq_refl)].
  eapply world_next; [|exact (step_answer (eq ca) ca [Panicked; Asking c] _ 1 c eq_refl)].
  eapply world_next; [|exact (step_store (eq ca) [Panicked; Initialising c] _ 1 c ca eq_refl eq_refl)].
  eapply world_next; [|exact (step_enter (eq ca) [Panicked; Asking c] _ 1 c eq_refl)].
  eapply world_next; [|exact (step_panic (eq ca) [Initialising c; Asking c] _ 0 c eq_refl)].
  eapply world_next; [|exact (step_call (eq ca) (Busy 0) [Initialising c; Outside] _ 1 c eq_refl)].
  eapply world_next; [|exact (step_get (eq ca) (Busy 0) [Initialising c; Outside] [] 1 c eq_refl)].
  eapply world_next; [|exact (step_enter (eq ca) [Asking c; Outside] _ 0 c eq_refl)].
  eapply world_next; [|exact (step_call (eq ca) Empty [Outside; Outside] _ 0 c eq_refl)].
  eapply world_next; [|exact (step_spawn (eq ca) Empty [Outside] [])].
  eapply world_next; [|exact (step_spawn (eq ca) Empty [] [])].
  apply world_start.
Qed.

(* ------------------------------------------------------------------ *)
(** * C62 Searches stay correct and optimal while the heuristic changes *)

(** With a heuristic that does not change and does not panic this is the searcher of C28-C30. *)
Theorem C62_unchanging_heuristic : forall (K C M : Type) (ops : CostOps K) (pr : Problem K C M) fuel max_depth c,
  timed_search ops (pr_eqb pr) (pr_successors pr) (pr_is_target pr) (fun _ c => Done (pr_heuristic pr c)) fuel max_depth c
  = search ops pr fuel max_depth c /\
  timed_solve ops (pr_eqb pr) (pr_successors pr) (pr_is_target pr) (fun _ c => Done (pr_heuristic pr c)) fuel max_depth c
  = solve ops pr fuel max_depth c.
Proof.
  intros K C M ops pr fuel md c.
  assert (E : timed_search ops (pr_eqb pr) (pr_successors pr) (pr_is_target pr) (fun _ c => Done (pr_heuristic pr c)) fuel md c
    = search ops pr fuel md c) by (unfold timed_search, search; apply timed_iter_constant).
  split; [exact E|]. unfold timed_solve, solve. rewrite E. reflexivity.
Qed.

(** Whatever the heuristic answers at each call (also NaN, also a panic in the middle), what
    is returned leads to the target. *)
Theorem C62_sound : forall (K C M : Type) (ops : CostOps K) (eqb : C -> C -> bool) (successors : C -> list (C * M))
  (is_target : C -> bool) (heuristic : nat -> C -> outcome K) (app : C -> M -> C),
  (forall c s m, In (s, m) (successors c) -> s = app c m) ->
  forall fuel max_depth c,
  (forall al c', timed_search ops eqb successors is_target heuristic fuel max_depth c = SearchDone (Some (al, c')) ->
    fold_left app al c = c' /\ is_target c' = true) /\
  (forall al, timed_solve ops eqb successors is_target heuristic fuel max_depth c = SolveDone (Some al) ->
    is_target (fold_left app al c) = true).
Proof.
  intros K C M ops eqb sc tg h app S fuel md c.
  assert (F : forall al c', timed_search ops eqb sc tg h fuel md c = SearchDone (Some (al, c')) -> fold_left app al c = c' /\ tg c' = true).
  { intros al c'. unfold timed_search. destruct (h 0 c); [|discriminate]. apply timed_iter_found, S. }
  split; [exact F|]. intros al. unfold timed_solve. destruct (timed_search ops eqb sc tg h fuel md c) as [[[al' c']|]| |]; try discriminate.
  destruct (F al' c' eq_refl) as (<- & T). rewrite T. intros [= <-]. exact T.
Qed.

(** If every answer is between 0 and the number of moves of any solution, a shortest solution
    is found, however the answers change from call to call. *)
Theorem C62_optimal : forall (heuristic : nat -> Cube3 -> outcome f32) (estimate : nat -> Cube3 -> Z),
  (forall k c, cube_well_formed Size3 c -> heuristic k c = Done (f32_of_Z (estimate k c)) /\ (0 <= estimate k c < 2 ^ 22)%Z) ->
  (forall k c al, fold_left cube3_apply al c = cube3_solved -> (estimate k c <= Z.of_nat (length al))%Z) ->
  forall c, (exists al, fold_left cube3_apply al c = cube3_solved) ->
  exists fuel0 al, (forall fuel, fuel0 <= fuel -> timed_solve_with_heuristic f32_costs heuristic fuel c = SolveDone (Some al)) /\
    fold_left cube3_apply al c = cube3_solved /\
    (forall al', fold_left cube3_apply al' c = cube3_solved -> length al <= length al').
Proof.
  intros h est Ans Ad c Sv. apply C07_solvable_exactly in Sv as (W & I1 & I2 & I3).
  destruct (C07_invariants_solvable c W I1 I2 I3) as (al200 & L200 & S200).
  assert (Solved : forall x, cube3_is_solved x = true <-> x = cube3_solved) by (intros x; apply cube3_eqb_eq).
  assert (Sound : forall c s m, In (s, m) (cube3_successors c) -> s = cube3_apply c m).
  { intros x s m I. apply in_map_iff in I as (m' & [= <- <-] & _). reflexivity. }
  assert (Complete : forall c m, In (cube3_apply c m, m) (cube3_successors c)).
  { intros x m. apply in_map_iff. exists m. split; [reflexivity|apply all_moves_complete]. }
  assert (Stays : forall c m, cube_well_formed Size3 c -> cube_well_formed Size3 (cube3_apply c m)).
  { intros x m Wx. exact (cube_well_formed_move Size3 x m Wx). }
  set (hz := fun k c => Done (est k c)).
  assert (AnsZ : forall k c, cube_well_formed Size3 c -> exists z, hz k c = Done z /\ (0 <= z <= 2 ^ 22 - 1)%Z).
  { intros k x Wx. exists (est k x). split; [reflexivity|]. destruct (Ans k x Wx). lia. }
  assert (Same : forall t c, cube_well_formed Size3 c -> h t c = map_o (f32_scaled (- 0)) (hz t c)).
  { intros t x Wx. destruct (Ans t x Wx) as (-> & _). reflexivity. }
  set (F := 201).
  (* for every solution the search finds one that is not longer *)
  assert (Any : forall al, fold_left cube3_apply al c = cube3_solved -> length al <= 200 ->
    exists r c', timed_search f32_costs cube3_eqb cube3_successors cube3_is_solved h (S F) 200 c = SearchDone (Some (r, c')) /\ length r <= length al).
  { intros al Sal Lal. destruct (remove_loops cube3_apply cube3_eqb cube3_eqb_eq al c) as (al' & L' & F' & N').
    assert (T' : cube3_is_solved (fold_left cube3_apply al' c) = true) by (apply Solved; rewrite F'; exact Sal).
    unfold timed_search. destruct (Ans 0%nat c W) as (-> & B0).
    assert (Ad0 : (est 0%nat c <= Z.of_nat (length al'))%Z) by (apply Ad; apply Solved; exact T').
    destruct (timed_iter_optimal 1 ltac:(lia) cube3_eqb cube3_successors cube3_is_solved hz cube3_apply (cube_well_formed Size3)
      cube3_eqb_eq Sound Complete Stays) with (fuel := F) (c := c) (al := al') (n := Z.to_nat (200 + 1)) (bound := est 0%nat c) (k := 1) as (r & c' & E & Lr).
    - intros k x Wx. destruct (AnsZ k x Wx) as (z & Hz & Bz). exists z. split; [exact Hz|lia].
    - intros k x ax z Tx [= <-]. rewrite Z.mul_1_l. apply Ad, Solved, Tx.
    - exact W.
    - exact T'.
    - exact N'.
    - lia.
    - unfold F. lia.
    - lia.
    - lia.
    - exists r, c'. split; [|lia]. rewrite <- E. change (exact_costs 1) with (exact_costs (2 ^ 0)).
      change (f32_of_Z (est 0%nat c)) with (f32_scaled (- 0) (est 0%nat c)).
      apply (timed_iter_float 0 ltac:(lia) cube3_eqb cube3_successors cube3_is_solved hz (cube_well_formed Size3) (2 ^ 22 - 1)).
      + intros x s m Wx I. rewrite (Sound _ _ _ I). apply Stays, Wx.
      + exact AnsZ.
      + exact Same.
      + exact W.
      + lia.
      + change (2 ^ 0)%Z with 1%Z. lia. }
  destruct (Any al200 S200 ltac:(lia)) as (r & c' & E & Lr).
  destruct (proj1 (C62_sound f32 Cube3 AxisMove f32_costs cube3_eqb cube3_successors cube3_is_solved h cube3_apply Sound (S F) 200 c) r c' E) as (Er & Tr).
  exists (S F), r. split; [|split].
  - intros fuel Lf. unfold timed_solve_with_heuristic, timed_solve.
    assert (E' : timed_search f32_costs cube3_eqb cube3_successors cube3_is_solved h fuel 200 c = SearchDone (Some (r, c'))).
    { rewrite <- E. unfold timed_search in *. destruct (h 0 c) as [b|]; [|reflexivity].
      replace fuel with (S F + (fuel - S F)) by lia. apply timed_iter_fuel. rewrite E. discriminate. }
    rewrite E', Tr. reflexivity.
  - rewrite Er. apply Solved, Tr.
  - intros al' Sal'. destruct (Nat.le_gt_cases (length al') 200) as [L|L]; [|lia].
    destruct (Any al' Sal' L) as (r' & c'' & E' & Lr'). rewrite E in E'. injection E' as <- <-. exact Lr'.
Qed.

(** The use in the code: [mus_with_fallback] with an admissible fallback, while other threads
    (or this one) fill the cache at any moment, possibly from files that other processes were
    writing. *)
Theorem C62_mus_with_fallback : forall (fallback : Cube3 -> outcome f32) (estimate : Cube3 -> Z) (lock : nat -> option Cache),
  (forall c, cube_well_formed Size3 c -> fallback c = Done (f32_of_Z (estimate c)) /\ (0 <= estimate c < 2 ^ 22)%Z) ->
  (forall c al, fold_left cube3_apply al c = cube3_solved -> (estimate c <= Z.of_nat (length al))%Z) ->
  (forall k ca, lock k = Some ca -> exists s, sys_reach s /\ In (Returned ca) (sy_procs s)) ->
  forall c, cube_well_formed Size3 c -> invariants c ->
  exists fuel0 al, (forall fuel, fuel0 <= fuel ->
      timed_solve_with_heuristic f32_costs (timed_mus_with_fallback fallback lock) fuel c = SolveDone (Some al)) /\
    fold_left cube3_apply al c = cube3_solved /\
    (forall al', fold_left cube3_apply al' c = cube3_solved -> length al <= length al').
Proof.
  intros fb est lock Fb Ad Lk c W Iv.
  set (e := fun k c => match lock k with None => est c | Some ca => match cache_get ca c with Done v => Z.of_N v | Panic => 0%Z end end).
  apply (C62_optimal (timed_mus_with_fallback fb lock) e).
  - intros k x Wx. unfold timed_mus_with_fallback, mus_with_fallback, cache_lock_get, e.
    destruct (lock k) as [ca|] eqn:El; cbn [option_map]; [|apply Fb, Wx].
    destruct (Lk k ca El) as (s & HR & HI). destruct (C52_entries_right_or_zero s ca HR HI) as (full & CC & Ne & Nc).
    destruct (C36_consistent full x (mkMove fR Single) CC Wx) as (v & _ & G & _).
    destruct (nearly_below ca full x v Ne Nc G) as (v' & G' & L). rewrite G'. cbn [map_o]. split; [reflexivity|].
    pose proof (cache_bounded full x v CC G). lia.
  - intros k x al S. unfold e. destruct (lock k) as [ca|] eqn:El; [|apply Ad, S].
    destruct (Lk k ca El) as (s & HR & HI). destruct (C52_never_overestimates s ca x al HR HI S) as (v & G & L). rewrite G. lia.
  - destruct Iv as (I1 & I2 & I3). destruct (C07_invariants_solvable c W I1 I2 I3) as (al & _ & Sv). exists al. exact Sv.
Qed.

(** Example: the fallback 0, and a cache that appears after five calls (the incomplete one
    of C53_exact_refuted); the cube after one move is solved optimally. *)
Example C62_example : exists fuel0 al ca, (forall fuel, fuel0 <= fuel ->
    timed_solve_with_heuristic f32_costs (timed_mus_with_fallback (fun _ => Done (f32_of_Z 0)) (fun k => if k <? 5 then None else Some ca)) fuel
      (cube3_apply cube3_solved (mkMove fR Single)) = SolveDone (Some al)) /\
    fold_left cube3_apply al (cube3_apply cube3_solved (mkMove fR Single)) = cube3_solved /\ length al <= 1.
Proof.
  destruct C53_exact_refuted as (s & ca & _ & HR & HI & _).
  destruct (C62_mus_with_fallback (fun _ => Done (f32_of_Z 0)) (fun _ => 0%Z) (fun k => if k <? 5 then None else Some ca)) with (c := cube3_apply cube3_solved (mkMove fR Single))
    as (f & al & A & B & D).
  - intros c _. split; [reflexivity|lia].
  - intros c al _. lia.
  - intros k ca'. destruct (k <? 5); [discriminate|]. intros [= <-]. exists s. split; assumption.
  - exact (proj1 (C06_reachable_invariants [mkMove fR Single])).
  - exact (proj2 (C06_reachable_invariants [mkMove fR Single])).
  - exists f, al, ca. split; [exact A|]. split; [exact B|]. apply (D [move_inverse (mkMove fR Single)]). vm_compute. reflexivity.
Qed.
Print Assumptions C61_answers.
Print Assumptions C61_one_cache.
Print Assumptions C61_answers_agree.
Print Assumptions C61_no_deadlock.
Print Assumptions C62_unchanging_heuristic.
Print Assumptions C62_sound.
Print Assumptions C62_optimal.
Print Assumptions C62_mus_with_fallback.

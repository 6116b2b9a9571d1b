(** C98: the cache files after a loss of power. *)

From Coq Require Import List Bool Arith NArith Lia ZifyBool ZifyN ZifyNat.
From Verif Require Import Model_Base Model_Space Model_Moves Model_Pieces Model_Cubes Model_Search Model_Float Model_Mus Model_Cache Model_Disk
  Spec_Sets Spec_Invariants Spec_Mus Spec_Cache Spec_Power Proof_Random Proof_Invariants Proof_Cache Prop_Sets Prop_Mus Prop_Cache Prop_Disk Prop_Concurrent.
Import ListNotations.
Local Open Scope nat_scope.
#[local] Opaque build_table.

(** ** What can be in a file *)

Definition remains (d : Disk) : Prop := forall p bytes table, right_table p table -> file d p = Some bytes -> left_of table bytes.

Lemma left_of_firstn k (t : list N) : left_of t (firstn k t).
Proof.
  split; [rewrite firstn_length; lia|]. intros j b. rewrite nth_error_firstn. destruct (j <? k); [|discriminate]. auto.
Qed.
Lemma left_of_trans a b c : left_of a b -> left_of b c -> left_of a c.
Proof.
  intros [L H] [L' H']. split; [lia|]. intros j x E. destruct (H' j x E) as [->|E']; [left; reflexivity|exact (H j x E')].
Qed.
Lemma with_remains d p table k : right_table p table -> remains d -> remains (with_file d p (firstn k table)).
Proof.
  intros R H p' bytes t' R' F. rewrite file_with in F. destruct (dk_dir d); [|discriminate F].
  destruct p, p'; try (apply (H _ _ _ R' F)); injection F as <-; rewrite (right_unique _ _ _ R' R); apply left_of_firstn.
Qed.
Lemma write_remains fault d p table : right_table p table -> remains d -> forall d', In d' (rn_trace (fs_write fault d p table)) -> remains d'.
Proof.
  intros R H d'. unfold fs_write. destruct (dk_dir d); [|intros []].
  destruct fault as [| |n]; cbn [rn_trace]; [|intros []|]; unfold write_steps; intros I; apply in_map_iff in I; destruct I as (k & <- & _);
    apply with_remains; assumption.
Qed.
Lemma final_remains {A} d (r : Run A) : remains d -> (forall d', In d' (rn_trace r) -> remains d') -> remains (final_disk d r).
Proof. intros H T. unfold final_disk. destruct (last_in (rn_trace r) d) as [<-|I]; [exact H|exact (T _ I)]. Qed.
Lemma bind_remains {A B} d (r : Run A) (f : A -> Disk -> Run B) : remains d -> (forall d', In d' (rn_trace r) -> remains d') ->
  (forall a d', remains d' -> forall d'', In d'' (rn_trace (f a d')) -> remains d'') ->
  forall d', In d' (rn_trace (run_bind d r f)) -> remains d'.
Proof.
  intros H T F d'. unfold run_bind. destruct (rn_result r) as [[a|e]|]; cbn [rn_trace]; [|apply T|apply T].
  intros I. apply in_app_or in I. destruct I as [I|I]; [exact (T _ I)|]. revert d' I. apply F, final_remains; assumption.
Qed.
Lemma mkdir_remains fault d : remains d -> forall d', In d' (rn_trace (fs_create_dir fault d)) -> remains d'.
Proof.
  intros H d'. unfold fs_create_dir. destruct fault; [intros []|]. cbn. intros [<-|[]]. destruct (dk_dir d); [exact H|].
  intros p bytes t _ F. destruct p; discriminate F.
Qed.
Lemma write_partial_remains p table ft d : right_table p table -> remains d ->
  forall d', In d' (rn_trace (write_partial p (path_total p) ft d table)) -> remains d'.
Proof.
  intros R H. unfold write_partial. destruct (correct_cache_size _ _); [|intros d' []]. cbv zeta.
  assert (W : forall d', In d' (rn_trace (fs_write (ft_write ft) d p table)) -> remains d') by (apply write_remains; assumption).
  destruct (rn_result (fs_write (ft_write ft) d p table)) as [[a|[]]|]; try exact W.
  apply bind_remains; [exact H|apply mkdir_remains, H|]. intros _ d1 H1. apply write_remains; assumption.
Qed.
Lemma partial_remains p table ft d : right_table p table -> remains d ->
  forall d', In d' (rn_trace (load_or_build_partial p (path_total p) (Done table) ft d)) -> remains d'.
Proof.
  intros R H. unfold load_or_build_partial. destruct (load_partial p (path_total p) ft d) as [[a|[]]|]; try (intros d' []).
  unfold build_partial. apply bind_remains; [exact H|apply write_partial_remains; assumption|]. intros _ d1 _ d2 [].
Qed.
Lemma init_remains fe fc d : remains d -> forall d', In d' (rn_trace (cache_init fe fc d)) -> remains d'.
Proof.
  intros H. unfold cache_init. cbn [rn_trace]. destruct (right_ex EdgesPath) as (te & Re). destruct (right_ex CornersPath) as (tc & Rc).
  rewrite (load_or_build_eq fe fc d te tc Re Rc).
  apply bind_remains; [exact H|apply partial_remains; assumption|]. intros edges d1 H1.
  apply bind_remains; [exact H1|apply partial_remains; assumption|]. intros corners d2 _ d3 [].
Qed.
Lemma rough_remains d : rough_history d -> remains d.
Proof.
  induction 1 as [|d d' fe fc _ IH I|d fe fc _ IH|d ke kc _ IH|d d' _ IH L].
  - intros p bytes t _ F. destruct p; discriminate F.
  - destruct I as [<-|I]; [exact IH|]. exact (init_remains fe fc d IH d' I).
  - apply final_remains; [exact IH|]. apply init_remains, IH.
  - intros p bytes t R F. apply (IH p bytes t R). destruct d as [[] e c], p, ke, kc; cbn in *; try discriminate F; exact F.
  - intros p bytes t R F. specialize (L p). rewrite F in L. destruct (file d p) as [b|] eqn:E; [|destruct L].
    exact (left_of_trans t b bytes (IH p b t R E) L).
Qed.

Lemma full_nearly p t bytes : right_table p t -> left_of t bytes -> N.of_nat (length bytes) = path_total p -> nearly bytes t.
Proof. intros R [L H] E. split; [|exact H]. pose proof (right_length p t R). lia. Qed.
Lemma load_partial_nearly p ft d bytes t : right_table p t -> remains d -> load_partial p (path_total p) ft d = Done (Ok bytes) -> nearly bytes t.
Proof.
  intros R H. unfold load_partial, fs_read. destruct (ft_read ft); [discriminate|].
  destruct (file d p) as [b|] eqn:F; [|discriminate]. unfold correct_cache_size. destruct (N.eqb_spec (N.of_nat (length b)) (path_total p)) as [L|]; [|discriminate].
  intros E. injection E as <-. exact (full_nearly p t b R (H p b t R F) L).
Qed.
Lemma nearly_refl t : nearly t t.
Proof. split; [reflexivity|]. auto. Qed.
Lemma partial_nearly p table ft d bytes : right_table p table -> remains d ->
  rn_result (load_or_build_partial p (path_total p) (Done table) ft d) = Done (Ok bytes) -> nearly bytes table.
Proof.
  intros R H. unfold load_or_build_partial. destruct (load_partial p (path_total p) ft d) as [[a|[]]|] eqn:L; cbn [rn_result]; try discriminate.
  - intros E. injection E as <-. exact (load_partial_nearly p ft d a table R H L).
  - unfold build_partial, run_bind. destruct (rn_result (write_partial p (path_total p) ft d table)) as [[]|]; cbn; try discriminate.
    intros E. injection E as <-. apply nearly_refl.
Qed.

(** ** What [init] and [load] return *)

(** Whatever happened before: every entry of a table that [init] or [load] returns is the
    right one or 0. *)
Theorem C98_entries_right_or_zero_partial : forall d fe fc ca, rough_history d ->
  rn_result (cache_init fe fc d) = Done (Ok ca) \/ cache_load fe fc d = Done (Ok ca) ->
  exists full, complete_cache full /\ nearly (ca_edges ca) (ca_edges full) /\ nearly (ca_corners ca) (ca_corners full).
Proof.
  intros d fe fc ca H E. apply rough_remains in H.
  destruct (right_ex EdgesPath) as (te & Re). destruct (right_ex CornersPath) as (tc & Rc).
  exists (mkCache te tc). split; [split; assumption|]. cbn [ca_edges ca_corners]. destruct E as [E|E].
  - unfold cache_init in E. cbn [rn_result] in E.
    rewrite (load_or_build_eq fe fc d te tc Re Rc) in E. unfold run_bind at 1 in E.
    destruct (rn_result (load_or_build_partial EdgesPath _ _ fe d)) as [[edges|]|] eqn:E1; [|discriminate E|discriminate E]. cbv zeta in E. cbn [rn_result] in E.
    pose proof (partial_nearly _ _ _ _ _ Re H E1) as R1.
    set (d1 := final_disk d _) in E. assert (H1 : remains d1) by (apply final_remains; [exact H|apply partial_remains; assumption]).
    unfold run_bind in E. destruct (rn_result (load_or_build_partial CornersPath _ _ fc d1)) as [[corners|]|] eqn:E2; [|discriminate E|discriminate E].
    pose proof (partial_nearly _ _ _ _ _ Rc H1 E2) as R2. cbn in E. injection E as <-. split; assumption.
  - unfold cache_load in E.
    change edges_total_set_size with (path_total EdgesPath) in E. change corners_total_set_size with (path_total CornersPath) in E.
    destruct (load_partial EdgesPath (path_total EdgesPath) fe d) as [[edges|]|] eqn:E1; try discriminate E. cbn [bind_o] in E.
    destruct (load_partial CornersPath (path_total CornersPath) fc d) as [[corners|]|] eqn:E2; try discriminate E. cbn [bind_o] in E.
    injection E as <-. split; [exact (load_partial_nearly EdgesPath _ _ _ te Re H E1)|exact (load_partial_nearly CornersPath _ _ _ tc Rc H E2)].
Qed.

(** So the heuristic never overestimates and solutions are still as short as possible. *)
Theorem C98_never_overestimates : forall d fe fc ca c al, rough_history d ->
  rn_result (cache_init fe fc d) = Done (Ok ca) \/ cache_load fe fc d = Done (Ok ca) ->
  fold_left cube3_apply al c = cube3_solved -> exists v, cache_get ca c = Done v /\ N.to_nat v <= length al.
Proof.
  intros d fe fc ca c al H I E. destruct (C98_entries_right_or_zero_partial d fe fc ca H I) as (full & CC & Ne & Nc).
  exact (nearly_over ca full c al CC Ne Nc E).
Qed.
Theorem C98_solutions_optimal : forall d fe fc ca c, rough_history d ->
  rn_result (cache_init fe fc d) = Done (Ok ca) \/ cache_load fe fc d = Done (Ok ca) ->
  cube_well_formed Size3 c -> invariants c ->
  exists fuel0 al, (forall fuel, fuel0 <= fuel ->
      solve_with_heuristic f32_costs (mus_value ca) fuel c = SolveDone (Some al)) /\
    fold_left cube3_apply al c = cube3_solved /\
    (forall al', fold_left cube3_apply al' c = cube3_solved -> length al <= length al').
Proof.
  intros d fe fc ca c H I W Iv. destruct (C98_entries_right_or_zero_partial d fe fc ca H I) as (full & CC & Ne & Nc).
  exact (nearly_optimal ca full c CC Ne Nc W Iv).
Qed.

(** ** What becomes of the files *)

(** A file that is missing is built again; one of the right length is taken as it is, whatever
    is in it. Then [load] finds the same tables. *)
Lemma partial_any p table d : right_table p table -> ~ corrupt d p ->
  let bytes := match file d p with Some b => b | None => table end in
  exists d', rn_result (load_or_build_partial p (path_total p) (Done table) no_faults d) = Done (Ok bytes) /\
    final_disk d (load_or_build_partial p (path_total p) (Done table) no_faults d) = d' /\
    file d' p = Some bytes /\ forall p', p' <> p -> file d' p' = file d p'.
Proof.
  intros R NC. cbv zeta. unfold load_or_build_partial, load_partial, fs_read. cbn [ft_read no_faults].
  destruct (file d p) as [b|] eqn:F.
  - unfold correct_cache_size. destruct (N.eqb_spec (N.of_nat (length b)) (path_total p)) as [L|L].
    + exists d. split; [reflexivity|]. split; [reflexivity|]. split; [exact F|reflexivity].
    + destruct NC. exists b. auto.
  - unfold build_partial. destruct (write_partial_ok p table d R) as (d' & E1 & E2 & E3 & E4).
    destruct (run_bind_ok d (write_partial p (path_total p) no_faults d table) (fun _ _ => mkRun [] (Done (Ok table))) tt E1) as [B1 B2].
    rewrite B1, B2. exists d'. split; [reflexivity|]. split; [exact E2|]. split; assumption.
Qed.
Lemma any_length p table d : right_table p table -> ~ corrupt d p ->
  N.of_nat (length (match file d p with Some b => b | None => table end)) = path_total p.
Proof.
  intros R NC. destruct (file d p) as [b|] eqn:F; [|apply right_length, R].
  destruct (N.eq_dec (N.of_nat (length b)) (path_total p)) as [L|L]; [exact L|]. destruct NC. exists b. auto.
Qed.
Theorem C98_init_without_faults : forall d full, complete_cache full ->
  (forall p b, file d p = Some b -> N.of_nat (length b) = path_total p) ->
  exists ca, rn_result (cache_init no_faults no_faults d) = Done (Ok ca) /\
    ca_edges ca = match file d EdgesPath with Some b => b | None => ca_edges full end /\
    ca_corners ca = match file d CornersPath with Some b => b | None => ca_corners full end /\
    cache_load no_faults no_faults (final_disk d (cache_init no_faults no_faults d)) = Done (Ok ca).
Proof.
  intros d [te tc] [Re Rc] A. cbn [ca_edges ca_corners] in *.
  assert (N : forall p, ~ corrupt d p) by (intros p (b & F & L); exact (L (A p b F))).
  pose proof (any_length EdgesPath te d Re (N EdgesPath)) as Le. pose proof (any_length CornersPath tc d Rc (N CornersPath)) as Lc.
  unfold cache_init. cbn [rn_result]. set (r := load_or_build no_faults no_faults d).
  set (xe := match file d EdgesPath with Some b => b | None => te end) in *. set (xc := match file d CornersPath with Some b => b | None => tc end) in *.
  assert (X : rn_result r = Done (Ok (mkCache xe xc)) /\ file (final_disk d r) EdgesPath = Some xe /\ file (final_disk d r) CornersPath = Some xc).
  { subst r. rewrite (load_or_build_eq _ _ _ te tc Re Rc).
    destruct (partial_any EdgesPath te d Re (N EdgesPath)) as (d1 & A1 & A2 & A3 & A4). fold xe in A1, A3.
    set (r1 := load_or_build_partial EdgesPath _ _ _ d) in *.
    destruct (run_bind_ok d r1 (fun edges d => run_bind d (load_or_build_partial CornersPath (path_total CornersPath) (Done tc) no_faults d)
      (fun corners _ => mkRun [] (Done (Ok (mkCache edges corners))))) xe A1) as [B1 B2].
    rewrite B1, B2, A2.
    assert (NC1 : ~ corrupt d1 CornersPath). { intros (b & F & L). rewrite A4 in F by discriminate. apply (N CornersPath). exists b. auto. }
    destruct (partial_any CornersPath tc d1 Rc NC1) as (d2 & C1 & C2 & C3 & C4).
    rewrite (A4 CornersPath) in C1, C3 by discriminate. fold xc in C1, C3.
    destruct (run_bind_ok d1 _ (fun corners _ => mkRun [] (Done (Ok (mkCache xe corners)))) xc C1) as [D1 D2].
    rewrite D1, D2, C2. split; [reflexivity|]. change (final_disk d2 (mkRun [] (Done (Ok (mkCache xe xc))))) with d2.
    split; [|exact C3]. rewrite C4 by discriminate. exact A3. }
  destruct X as (X1 & X2 & X3). exists (mkCache xe xc). rewrite X1. split; [reflexivity|]. split; [reflexivity|]. split; [reflexivity|].
  change (final_disk d (mkRun (rn_trace r) (Done (Ok (mkCache xe xc))))) with (final_disk d r).
  unfold cache_load, load_partial, fs_read. cbn [ft_read no_faults]. rewrite X2, X3.
  change edges_total_set_size with (path_total EdgesPath). change corners_total_set_size with (path_total CornersPath).
  unfold correct_cache_size. rewrite Le, Lc, !N.eqb_refl. reflexivity.
Qed.
(** So after both files are deleted everything is right again. *)
Theorem C98_after_deletion : forall d, rough_history d ->
  exists ca, rn_result (cache_init no_faults no_faults (mkDisk (dk_dir d) None None)) = Done (Ok ca) /\ complete_cache ca.
Proof.
  intros d _. destruct C36_complete_cache_exists as ([te tc] & CC).
  assert (F : forall p, file (mkDisk (dk_dir d) None None) p = None) by (intros []; unfold file; cbn [dk_dir dk_edges dk_corners]; destruct (dk_dir d); reflexivity).
  destruct (C98_init_without_faults (mkDisk (dk_dir d) None None) (mkCache te tc) CC) as ([e c] & E & X & Y & _).
  - intros p b B. rewrite F in B. discriminate B.
  - rewrite F in X, Y. cbn [ca_edges ca_corners] in X, Y. subst e c. eexists. split; [exact E|exact CC].
Qed.

(** Files of the right length are never written again: whatever is in them, every later
    [init] leaves them as they are, also when it meets faults or is stopped. *)
Lemma full_untouched p ft d t b : file d p = Some b -> N.of_nat (length b) = path_total p ->
  rn_trace (load_or_build_partial p (path_total p) t ft d) = [].
Proof.
  intros F L. unfold load_or_build_partial, load_partial, fs_read. destruct (ft_read ft); [reflexivity|].
  rewrite F. unfold correct_cache_size. rewrite L, N.eqb_refl. reflexivity.
Qed.
Theorem C98_kept : forall d d' e c, file d EdgesPath = Some e -> N.of_nat (length e) = 42577920%N ->
  file d CornersPath = Some c -> N.of_nat (length c) = 88179840%N -> later_init d d' ->
  file d' EdgesPath = Some e /\ file d' CornersPath = Some c /\
  rn_result (cache_init no_faults no_faults d') = Done (Ok (mkCache e c)).
Proof.
  intros d d' e c Fe Le Fc Lc H. destruct C36_complete_cache_exists as ([te tc] & CC).
  assert (K : file d' EdgesPath = Some e /\ file d' CornersPath = Some c).
  { induction H as [|d1 d2 fe fc _ [Ke Kc] I]; [auto|]. destruct CC as [Re Rc]. cbn [ca_edges ca_corners] in *.
    destruct I as [<-|I]; [auto|]. rewrite init_trace, (load_or_build_eq fe fc d1 te tc Re Rc) in I.
    pose proof (full_untouched EdgesPath fe d1 (Done te) e Ke Le) as Te.
    unfold run_bind at 1 in I. destruct (rn_result (load_or_build_partial EdgesPath _ _ fe d1)) as [[edges|]|]; cbn [rn_trace] in I; rewrite Te in I; [|destruct I|destruct I].
    cbn [app] in I. unfold final_disk in I. rewrite Te in I. cbn [last] in I.
    pose proof (full_untouched CornersPath fc d1 (Done tc) c Kc Lc) as Tc.
    unfold run_bind in I. destruct (rn_result (load_or_build_partial CornersPath _ _ fc d1)) as [[corners|]|]; cbn [rn_trace] in I; rewrite Tc in I; destruct I. }
  destruct K as [Ke Kc]. split; [exact Ke|]. split; [exact Kc|].
  destruct (C98_init_without_faults d' (mkCache te tc) CC) as ([xe xc] & E & X & Y & _).
  - intros [] b F; [rewrite Ke in F|rewrite Kc in F]; injection F as <-; assumption.
  - rewrite Ke in X. rewrite Kc in Y. cbn [ca_edges ca_corners] in X, Y. subst xe xc. exact E.
Qed.

(** The full claim, that [init] after a loss of power returns the right tables or reports, is
    false: the files have no checksum. After the first [init] has ended the power may fail
    so that nothing but the lengths reached the disk; every later [init] takes the zeros for
    the tables, so the heuristic is 0 on every cube. *)
Lemma repeat_left (t : list N) : left_of t (repeat 0%N (length t)).
Proof.
  split; [rewrite repeat_length; lia|]. intros j b E. left. apply nth_error_In in E. exact (repeat_spec _ _ _ E).
Qed.
Lemma first_init_ends te tc : right_table EdgesPath te -> right_table CornersPath tc ->
  file (final_disk empty_disk (cache_init no_faults no_faults empty_disk)) EdgesPath = Some te /\
  file (final_disk empty_disk (cache_init no_faults no_faults empty_disk)) CornersPath = Some tc.
Proof.
  intros Re Rc. assert (Fd : forall p, file empty_disk p = None) by (intros []; reflexivity). revert Fd. generalize empty_disk. intros d Fd.
  assert (FD : final_disk d (cache_init no_faults no_faults d) = final_disk d (load_or_build no_faults no_faults d))
    by (unfold final_disk; rewrite init_trace; reflexivity).
  rewrite FD, (load_or_build_eq _ _ _ te tc Re Rc). clear FD.
  assert (N : forall d' p, file d' p = None -> ~ corrupt d' p) by (intros d' p F (b & F' & _); congruence).
  destruct (partial_any EdgesPath te d Re (N _ _ (Fd EdgesPath))) as (d1 & A1 & A2 & A3 & A4). rewrite Fd in A1, A3.
  set (r1 := load_or_build_partial EdgesPath _ _ _ d) in *.
  destruct (run_bind_ok d r1 (fun edges d => run_bind d (load_or_build_partial CornersPath (path_total CornersPath) (Done tc) no_faults d)
    (fun corners _ => mkRun [] (Done (Ok (mkCache edges corners))))) te A1) as [_ B2].
  rewrite B2, A2.
  assert (F1 : file d1 CornersPath = None) by (rewrite A4 by discriminate; apply Fd).
  destruct (partial_any CornersPath tc d1 Rc (N _ _ F1)) as (d2 & C1 & C2 & C3 & C4). rewrite F1 in C1, C3.
  destruct (run_bind_ok d1 _ (fun corners _ => mkRun [] (Done (Ok (mkCache te corners)))) tc C1) as [_ D2].
  rewrite D2, C2. change (final_disk d2 (mkRun [] (Done (Ok (mkCache te tc))))) with d2.
  split; [|exact C3]. rewrite C4 by discriminate. exact A3.
Qed.
Lemma zero_get n m c v : cache_get (mkCache (repeat 0%N n) (repeat 0%N m)) c = Done v -> v = 0%N.
Proof.
  assert (Zero : forall n i x, nth_error (repeat 0%N n) i = Some x -> x = 0%N) by (intros k i x E; apply nth_error_In in E; exact (repeat_spec _ _ _ E)).
  unfold cache_get. destruct (cube_indices c) as [ix|]; [|discriminate]. cbn [bind_o ca_corners ca_edges].
  destruct (nth_error (repeat 0%N m) _) as [x|] eqn:X; [|discriminate].
  destruct (nth_error (repeat 0%N n) (N.to_nat (ix_edges1 ix))) as [y|] eqn:Y; [|discriminate].
  destruct (nth_error (repeat 0%N n) (N.to_nat (ix_edges2 ix))) as [z|] eqn:Z; [|discriminate].
  intros [= <-]. rewrite (Zero _ _ _ X), (Zero _ _ _ Y), (Zero _ _ _ Z). reflexivity.
Qed.
Theorem C98_right_tables_refuted : exists d, rough_history d /\
  power_fails (final_disk empty_disk (cache_init no_faults no_faults empty_disk)) d /\
  exists ca, (forall d', later_init d d' -> rn_result (cache_init no_faults no_faults d') = Done (Ok ca)) /\
    ~ complete_cache ca /\
    forall c, cube_well_formed Size3 c -> invariants c -> cache_get ca c = Done 0%N.
Proof.
  destruct (right_ex EdgesPath) as (te & Re). destruct (right_ex CornersPath) as (tc & Rc).
  destruct (first_init_ends te tc Re Rc) as [Fe Fc]. set (d0 := final_disk _ _) in *.
  set (ze := repeat 0%N (length te)). set (zc := repeat 0%N (length tc)). set (d := mkDisk true (Some ze) (Some zc)).
  assert (PF : power_fails d0 d). { intros []; [rewrite Fe|rewrite Fc]; apply repeat_left. }
  exists d. split; [exact (power_failed d0 d (ended _ _ _ at_first) PF)|]. split; [exact PF|].
  pose proof (right_length _ _ Re) as Le. pose proof (right_length _ _ Rc) as Lc.
  assert (Ze : N.of_nat (length ze) = 42577920%N) by (unfold ze; rewrite repeat_length; exact Le).
  assert (Zc : N.of_nat (length zc) = 88179840%N) by (unfold zc; rewrite repeat_length; exact Lc).
  exists (mkCache ze zc). split; [intros d' H; exact (proj2 (proj2 (C98_kept d d' ze zc eq_refl Ze eq_refl Zc H)))|].
  assert (Zero : forall n i x, nth_error (repeat 0%N n) i = Some x -> x = 0%N) by (intros n i x E; apply nth_error_In in E; exact (repeat_spec _ _ _ E)).
  split.
  - intros [X _]. cbn [ca_edges] in X. pose proof (right_unique EdgesPath _ _ X Re) as T.
    destruct (second_entry te Re) as (v & V & NZ). rewrite <- T in V. exact (NZ (Zero _ _ _ V)).
  - intros c W Iv. apply cube3_sets_valid_spec in W. destruct (solvable c W Iv) as (al & _ & Sv).
    assert (Ne : nearly ze te) by (split; [apply repeat_length|exact (proj2 (repeat_left te))]).
    assert (Nc : nearly zc tc) by (split; [apply repeat_length|exact (proj2 (repeat_left tc))]).
    destruct (nearly_over (mkCache ze zc) (mkCache te tc) c al (conj Re Rc) Ne Nc Sv) as (v & G & _).
    rewrite (zero_get _ _ _ _ G) in G. exact G.
Qed.

(** A loss of power while the first [init] writes: the file is shorter, or has zeros. *)
Example C98_example :
  left_of [3; 4; 5]%N [3; 0]%N /\ left_of [3; 4; 5]%N [0; 4; 5]%N /\ ~ left_of [3; 4; 5]%N [4; 4; 5]%N /\
  file_left (Some [3; 4; 5]%N) None /\ ~ file_left None (Some [3]%N) /\
  rough_history (mkDisk true (Some []) None) /\ rough_history (mkDisk true None None).
Proof.
  assert (R : rough_history (mkDisk true (Some []) None)) by exact (stopped _ _ _ _ at_first first_crash).
  split; [|split; [|split; [|split; [|split; [|split]]]]].
  - split; [cbn; lia|]. intros [|[|[|j]]] b E; cbn in E; try discriminate E; injection E as <-; cbn; auto.
  - split; [cbn; lia|]. intros [|[|[|[|j]]]] b E; cbn in E; try discriminate E; injection E as <-; cbn; auto.
  - intros [_ H]. destruct (H 0 4%N eq_refl) as [X|X]; discriminate X.
  - exact I.
  - intros [].
  - exact R.
  - refine (power_failed _ _ R _). intros []; exact I.
Qed.
Print Assumptions C98_entries_right_or_zero_partial.
Print Assumptions C98_never_overestimates.
Print Assumptions C98_solutions_optimal.
Print Assumptions C98_init_without_faults.
Print Assumptions C98_after_deletion.
Print Assumptions C98_kept.
Print Assumptions C98_right_tables_refuted.

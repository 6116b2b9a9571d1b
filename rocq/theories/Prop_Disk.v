(** Properties of the cache files under crashes (C38). *)

From Coq Require Import List Bool Arith NArith Lia ZifyBool ZifyN ZifyNat.
From Verif Require Import Model_Base Model_Space Model_Moves Model_Pieces Model_Cubes Model_Mus Model_Cache Model_Disk
  Spec_Mus Spec_Cache Proof_Cache Prop_Cache.
Import ListNotations.
Local Open Scope nat_scope.
#[local] Opaque build_table.

(* ------------------------------------------------------------------ *)
(** * C38 Cache files are never silently wrong after a crash *)

(** The disks that can be found: starting without files, processes call [Cache::init] with
    any faults of the file system and are stopped at any point, or run to the end; files
    may be deleted by hand. ([Cache::load] writes nothing.) *)
Inductive history : Disk -> Prop :=
| no_history : history empty_disk
| after_stop d d' fe fc : history d -> In d' (crash_disks d (cache_init fe fc d)) -> history d'
| after_end d fe fc : history d -> history (final_disk d (cache_init fe fc d))
| after_delete d keep_edges keep_corners : history d ->
    history (mkDisk (dk_dir d) (if keep_edges : bool then dk_edges d else None) (if keep_corners : bool then dk_corners d else None)).

(** The table that belongs in a file. *)
Definition right_table (p : Path) (table : list N) : Prop :=
  match p with
  | EdgesPath => build_table half_edges_mus = Done table
  | CornersPath => build_table corners_mus = Done table
  end.
Definition path_total (p : Path) : N := match p with EdgesPath => half_edge_states | CornersPath => corner_states end.
(** A file of the wrong length. *)
Definition corrupt (d : Disk) (p : Path) : Prop := exists bytes, file d p = Some bytes /\ N.of_nat (length bytes) <> path_total p.

Definition prefixes (d : Disk) : Prop := forall p bytes table, right_table p table -> file d p = Some bytes -> exists k, bytes = firstn k table.

Lemma right_length p table : right_table p table -> N.of_nat (length table) = path_total p.
Proof.
  destruct p; cbn [right_table path_total]; intros B.
  - destruct C35_half_edge_table as (t & B' & L & _). rewrite B in B'. injection B' as <-. rewrite L. lia.
  - destruct C35_corner_table as (t & B' & L & _). rewrite B in B'. injection B' as <-. rewrite L. lia.
Qed.
Lemma right_ex p : exists table, right_table p table.
Proof. destruct p; cbn [right_table]; [destruct C35_half_edge_table as (t & B & _)|destruct C35_corner_table as (t & B & _)]; exists t; exact B. Qed.
Lemma right_unique p t t' : right_table p t -> right_table p t' -> t = t'.
Proof. destruct p; cbn [right_table]; intros -> E; injection E as <-; reflexivity. Qed.
Lemma prefix_full p table k : right_table p table -> N.of_nat (length (firstn k table)) = path_total p -> firstn k table = table.
Proof. intros R L. apply right_length in R. rewrite firstn_length in L. apply firstn_all2. lia. Qed.

Lemma file_with d p p' bytes : file (with_file d p bytes) p' =
  if dk_dir d then match p, p' with EdgesPath, EdgesPath | CornersPath, CornersPath => Some bytes | _, _ => file d p' end else None.
Proof. destruct d as [[] e c], p, p'; reflexivity. Qed.

Lemma with_prefix d p table k : right_table p table -> prefixes d -> prefixes (with_file d p (firstn k table)).
Proof.
  intros R H p' bytes t' R' F. rewrite file_with in F. destruct (dk_dir d); [|discriminate F].
  destruct p, p'; try (apply (H _ _ _ R' F)); injection F as <-; rewrite (right_unique _ _ _ R' R); exists k; reflexivity.
Qed.
Lemma write_good fault d p table : right_table p table -> prefixes d -> forall d', In d' (rn_trace (fs_write fault d p table)) -> prefixes d'.
Proof.
  intros R H d'. unfold fs_write. destruct (dk_dir d); [|intros []].
  destruct fault as [| |n]; cbn [rn_trace]; [|intros []|]; unfold write_steps; intros I; apply in_map_iff in I; destruct I as (k & <- & _);
    apply with_prefix; assumption.
Qed.
Lemma last_in {A} (l : list A) : forall d, In (last l d) (d :: l).
Proof.
  induction l as [|a l IH]; intros d; [left; reflexivity|]. destruct l as [|b l]; [right; left; reflexivity|].
  change (last (a :: b :: l) d) with (last (b :: l) d). destruct (IH d) as [E|I]; [left; exact E|right; right; exact I].
Qed.
Lemma final_good {A} d (r : Run A) : prefixes d -> (forall d', In d' (rn_trace r) -> prefixes d') -> prefixes (final_disk d r).
Proof. intros H T. unfold final_disk. destruct (last_in (rn_trace r) d) as [<-|I]; [exact H|exact (T _ I)]. Qed.
Lemma bind_good {A B} d (r : Run A) (f : A -> Disk -> Run B) : prefixes d -> (forall d', In d' (rn_trace r) -> prefixes d') ->
  (forall a d', prefixes d' -> forall d'', In d'' (rn_trace (f a d')) -> prefixes d'') ->
  forall d', In d' (rn_trace (run_bind d r f)) -> prefixes d'.
Proof.
  intros H T F d'. unfold run_bind. destruct (rn_result r) as [[a|e]|]; cbn [rn_trace]; [|apply T|apply T].
  intros I. apply in_app_or in I. destruct I as [I|I]; [exact (T _ I)|]. revert d' I. apply F, final_good; assumption.
Qed.
Lemma mkdir_good fault d : prefixes d -> forall d', In d' (rn_trace (fs_create_dir fault d)) -> prefixes d'.
Proof.
  intros H d'. unfold fs_create_dir. destruct fault; [intros []|]. cbn. intros [<-|[]]. destruct (dk_dir d); [exact H|].
  intros p bytes t _ F. destruct p; discriminate F.
Qed.
Lemma write_partial_good p table ft d : right_table p table -> prefixes d ->
  forall d', In d' (rn_trace (write_partial p (path_total p) ft d table)) -> prefixes d'.
Proof.
  intros R H. unfold write_partial. destruct (correct_cache_size _ _); [|intros d' []]. cbv zeta.
  assert (W : forall d', In d' (rn_trace (fs_write (ft_write ft) d p table)) -> prefixes d') by (apply write_good; assumption).
  destruct (rn_result (fs_write (ft_write ft) d p table)) as [[a|[]]|]; try exact W.
  apply bind_good; [exact H|apply mkdir_good, H|]. intros _ d1 H1. apply write_good; assumption.
Qed.
Lemma partial_good p table ft d : right_table p table -> prefixes d ->
  forall d', In d' (rn_trace (load_or_build_partial p (path_total p) (Done table) ft d)) -> prefixes d'.
Proof.
  intros R H. unfold load_or_build_partial. destruct (load_partial p (path_total p) ft d) as [[a|[]]|]; try (intros d' []).
  unfold build_partial. apply bind_good; [exact H|apply write_partial_good; assumption|]. intros _ d1 _ d2 [].
Qed.
Lemma load_or_build_eq fe fc d te tc : right_table EdgesPath te -> right_table CornersPath tc ->
  load_or_build fe fc d =
  run_bind d (load_or_build_partial EdgesPath (path_total EdgesPath) (Done te) fe d) (fun edges d =>
  run_bind d (load_or_build_partial CornersPath (path_total CornersPath) (Done tc) fc d) (fun corners _ =>
  mkRun [] (Done (Ok (mkCache edges corners))))).
Proof. cbn [right_table path_total]. intros Be Bc. unfold load_or_build. rewrite Be, Bc. reflexivity. Qed.
Lemma init_good fe fc d : prefixes d -> forall d', In d' (rn_trace (cache_init fe fc d)) -> prefixes d'.
Proof.
  intros H. unfold cache_init. cbn [rn_trace]. destruct (right_ex EdgesPath) as (te & Re). destruct (right_ex CornersPath) as (tc & Rc).
  rewrite (load_or_build_eq fe fc d te tc Re Rc).
  apply bind_good; [exact H|apply partial_good; assumption|]. intros edges d1 H1.
  apply bind_good; [exact H1|apply partial_good; assumption|]. intros corners d2 _ d3 [].
Qed.
Lemma history_good d : history d -> prefixes d.
Proof.
  induction 1 as [|d d' fe fc _ IH I|d fe fc _ IH|d ke kc _ IH].
  - intros p bytes t _ F. destruct p; discriminate F.
  - destruct I as [<-|I]; [exact IH|]. exact (init_good fe fc d IH d' I).
  - apply final_good; [exact IH|]. apply init_good, IH.
  - intros p bytes t R F. apply (IH p bytes t R). destruct d as [[] e c], p, ke, kc; cbn in *; try discriminate F; exact F.
Qed.

(** ** What is loaded is never partial *)

Lemma load_partial_right p ft d bytes : prefixes d -> load_partial p (path_total p) ft d = Done (Ok bytes) -> right_table p bytes.
Proof.
  intros H. unfold load_partial, fs_read. destruct (ft_read ft); [discriminate|].
  destruct (file d p) as [b|] eqn:F; [|discriminate]. unfold correct_cache_size. destruct (N.eqb_spec (N.of_nat (length b)) (path_total p)) as [L|]; [|discriminate].
  intros E. injection E as <-. destruct (right_ex p) as (t & R). destruct (H p b t R F) as (k & ->).
  rewrite (prefix_full p t k R L). exact R.
Qed.
Lemma partial_right p table ft d bytes : right_table p table -> prefixes d ->
  rn_result (load_or_build_partial p (path_total p) (Done table) ft d) = Done (Ok bytes) -> right_table p bytes.
Proof.
  intros R H. unfold load_or_build_partial. destruct (load_partial p (path_total p) ft d) as [[a|[]]|] eqn:L; cbn [rn_result]; try discriminate.
  - intros E. injection E as <-. exact (load_partial_right p ft d a H L).
  - unfold build_partial, run_bind. destruct (rn_result (write_partial p (path_total p) ft d table)) as [[]|]; cbn; try discriminate.
    intros E. injection E as <-. exact R.
Qed.

Theorem C38_init_never_partial : forall d fe fc ca, history d ->
  rn_result (cache_init fe fc d) = Done (Ok ca) -> complete_cache ca.
Proof.
  intros d fe fc ca H E. apply history_good in H. unfold cache_init in E. cbn [rn_result] in E.
  destruct (right_ex EdgesPath) as (te & Re). destruct (right_ex CornersPath) as (tc & Rc).
  rewrite (load_or_build_eq fe fc d te tc Re Rc) in E. unfold run_bind at 1 in E.
  destruct (rn_result (load_or_build_partial EdgesPath _ _ fe d)) as [[edges|]|] eqn:E1; [|discriminate E|discriminate E]. cbv zeta in E. cbn [rn_result] in E.
  pose proof (partial_right _ _ _ _ _ Re H E1) as R1.
  set (d1 := final_disk d _) in E. assert (H1 : prefixes d1) by (apply final_good; [exact H|apply partial_good; assumption]).
  unfold run_bind in E. destruct (rn_result (load_or_build_partial CornersPath _ _ fc d1)) as [[corners|]|] eqn:E2; [|discriminate E|discriminate E].
  pose proof (partial_right _ _ _ _ _ Rc H1 E2) as R2. cbn in E. injection E as <-. split; assumption.
Qed.
Theorem C38_load_never_partial : forall d fe fc ca, history d ->
  cache_load fe fc d = Done (Ok ca) -> complete_cache ca.
Proof.
  intros d fe fc ca H E. apply history_good in H. unfold cache_load in E.
  change edges_total_set_size with (path_total EdgesPath) in E. change corners_total_set_size with (path_total CornersPath) in E.
  destruct (load_partial EdgesPath (path_total EdgesPath) fe d) as [[edges|]|] eqn:E1; try discriminate E. cbn [bind_o] in E.
  destruct (load_partial CornersPath (path_total CornersPath) fc d) as [[corners|]|] eqn:E2; try discriminate E. cbn [bind_o] in E.
  injection E as <-. split; [exact (load_partial_right EdgesPath _ _ _ H E1)|exact (load_partial_right CornersPath _ _ _ H E2)].
Qed.
(** [load] panics only because of a file of the wrong length. *)
Theorem C38_load_panic : forall d fe fc, cache_load fe fc d = Panic -> corrupt d EdgesPath \/ corrupt d CornersPath.
Proof.
  intros d fe fc E. unfold cache_load in E.
  change edges_total_set_size with (path_total EdgesPath) in E. change corners_total_set_size with (path_total CornersPath) in E.
  assert (A : forall p ft, load_partial p (path_total p) ft d = Panic -> corrupt d p).
  { intros p ft. unfold load_partial, fs_read. destruct (ft_read ft); [discriminate|]. destruct (file d p) as [b|] eqn:F; [|discriminate].
    unfold correct_cache_size. destruct (N.eqb_spec (N.of_nat (length b)) (path_total p)) as [L|L]; [discriminate|]. intros _. exists b. auto. }
  destruct (load_partial EdgesPath (path_total EdgesPath) fe d) as [[edges|]|] eqn:E1; [|discriminate E|left; exact (A _ _ E1)]. cbn [bind_o] in E.
  destruct (load_partial CornersPath (path_total CornersPath) fc d) as [[corners|]|] eqn:E2; [discriminate E|discriminate E|right; exact (A _ _ E2)].
Qed.

(** ** Without faults and corrupt files, init succeeds and leaves complete files *)

Lemma last_map_seq {A} (f : nat -> A) n d : last (map f (seq 0 (S n))) d = f n.
Proof. rewrite seq_S, map_app. cbn. apply last_last. Qed.

(** The file [p] is complete. *)
Definition complete_file (d : Disk) (p : Path) : Prop := exists table, right_table p table /\ file d p = Some table.

Lemma write_ok d p table : dk_dir d = true -> rn_result (fs_write NoFault d p table) = Done (Ok tt) /\
  final_disk d (fs_write NoFault d p table) = with_file d p table.
Proof.
  intros D. unfold fs_write, final_disk. rewrite D. cbn [rn_result rn_trace]. split; [reflexivity|].
  unfold write_steps. rewrite last_map_seq, firstn_all. reflexivity.
Qed.
Lemma last_app_two {A} (r : list A) : forall l d, last (l ++ r) d = last r (last l d).
Proof.
  destruct r as [|x r _] using rev_ind; intros l d; [rewrite app_nil_r; reflexivity|]. rewrite app_assoc, !last_last. reflexivity.
Qed.
Lemma run_bind_ok {A B} d (r : Run A) (f : A -> Disk -> Run B) a : rn_result r = Done (Ok a) ->
  rn_result (run_bind d r f) = rn_result (f a (final_disk d r)) /\
  final_disk d (run_bind d r f) = final_disk (final_disk d r) (f a (final_disk d r)).
Proof.
  intros E. unfold run_bind. rewrite E. cbn [rn_result]. split; [reflexivity|]. unfold final_disk at 1. cbn [rn_trace]. apply last_app_two.
Qed.
Lemma write_partial_ok p table d : right_table p table ->
  exists d', rn_result (write_partial p (path_total p) no_faults d table) = Done (Ok tt) /\
    final_disk d (write_partial p (path_total p) no_faults d table) = d' /\
    file d' p = Some table /\ forall p', p' <> p -> file d' p' = file d p'.
Proof.
  intros R. unfold write_partial, correct_cache_size. rewrite (right_length p table R), N.eqb_refl. cbv zeta.
  cbn [ft_write ft_mkdir ft_write_again no_faults]. destruct (dk_dir d) eqn:D.
  - destruct (write_ok d p table D) as [E1 E2]. rewrite E1.
    exists (with_file d p table). split; [exact E1|]. split; [exact E2|].
    rewrite file_with, D. split; [destruct p; reflexivity|]. intros p' N. rewrite file_with, D. destruct p, p'; try reflexivity; destruct (N eq_refl).
  - set (d0 := mkDisk true None None). destruct (write_ok d0 p table eq_refl) as [E1 E2].
    assert (W : fs_write NoFault d p table = mkRun [] (Done (Err NotFound))) by (unfold fs_write; rewrite D; reflexivity).
    rewrite W. cbn [rn_result].
    assert (M : fs_create_dir false d = mkRun [d0] (Done (Ok tt))) by (unfold fs_create_dir; rewrite D; reflexivity).
    rewrite M. destruct (run_bind_ok d (mkRun [d0] (Done (Ok tt))) (fun _ d => fs_write NoFault d p table) tt eq_refl) as [B1 B2].
    rewrite B1, B2.
    change (final_disk d (mkRun [d0] (Done (Ok tt)))) with d0. rewrite E1, E2. exists (with_file d0 p table).
    split; [reflexivity|]. split; [reflexivity|]. rewrite file_with. split; [destruct p; reflexivity|].
    intros p' N. rewrite file_with.
    assert (Fn : file d p' = None) by (unfold file; rewrite D; reflexivity). rewrite Fn.
    destruct p, p'; try reflexivity; destruct (N eq_refl).
Qed.
Lemma partial_ok p table d : right_table p table -> prefixes d -> ~ corrupt d p ->
  exists d', rn_result (load_or_build_partial p (path_total p) (Done table) no_faults d) = Done (Ok table) /\
    final_disk d (load_or_build_partial p (path_total p) (Done table) no_faults d) = d' /\
    file d' p = Some table /\ forall p', p' <> p -> file d' p' = file d p'.
Proof.
  intros R H NC. unfold load_or_build_partial, load_partial, fs_read. cbn [ft_read no_faults].
  destruct (file d p) as [b|] eqn:F.
  - unfold correct_cache_size. destruct (N.eqb_spec (N.of_nat (length b)) (path_total p)) as [L|L].
    + destruct (H p b table R F) as (k & ->). rewrite (prefix_full p table k R L) in *. exists d.
      split; [reflexivity|]. split; [reflexivity|]. split; [exact F|reflexivity].
    + destruct NC. exists b. auto.
  - unfold build_partial. destruct (write_partial_ok p table d R) as (d' & E1 & E2 & E3 & E4).
    destruct (run_bind_ok d (write_partial p (path_total p) no_faults d table) (fun _ _ => mkRun [] (Done (Ok table))) tt E1) as [B1 B2].
    rewrite B1, B2. exists d'. split; [reflexivity|]. split; [exact E2|]. split; assumption.
Qed.

Theorem C38_recovery_partial : forall d, history d -> ~ corrupt d EdgesPath -> ~ corrupt d CornersPath ->
  exists ca, rn_result (cache_init no_faults no_faults d) = Done (Ok ca) /\ complete_cache ca /\
    cache_load no_faults no_faults (final_disk d (cache_init no_faults no_faults d)) = Done (Ok ca).
Proof.
  intros d H N1 N2. apply history_good in H.
  destruct (right_ex EdgesPath) as (te & Re). destruct (right_ex CornersPath) as (tc & Rc).
  unfold cache_init. cbn [rn_result]. set (r := load_or_build no_faults no_faults d).
  assert (X : rn_result r = Done (Ok (mkCache te tc)) /\ file (final_disk d r) EdgesPath = Some te /\ file (final_disk d r) CornersPath = Some tc).
  { subst r. rewrite (load_or_build_eq _ _ _ te tc Re Rc).
    destruct (partial_ok EdgesPath te d Re H N1) as (d1 & A1 & A2 & A3 & A4).
    set (r1 := load_or_build_partial EdgesPath _ _ _ d) in *.
    destruct (run_bind_ok d r1 (fun edges d => run_bind d (load_or_build_partial CornersPath (path_total CornersPath) (Done tc) no_faults d)
      (fun corners _ => mkRun [] (Done (Ok (mkCache edges corners))))) te A1) as [B1 B2].
    rewrite B1, B2, A2.
    assert (H1 : prefixes d1). { rewrite <- A2. apply final_good; [exact H|]. apply partial_good; assumption. }
    assert (NC1 : ~ corrupt d1 CornersPath). { intros (b & F & L). rewrite A4 in F by discriminate. apply N2. exists b. auto. }
    destruct (partial_ok CornersPath tc d1 Rc H1 NC1) as (d2 & C1 & C2 & C3 & C4).
    destruct (run_bind_ok d1 _ (fun corners _ => mkRun [] (Done (Ok (mkCache te corners)))) tc C1) as [D1 D2].
    rewrite D1, D2, C2. split; [reflexivity|]. change (final_disk d2 (mkRun [] (Done (Ok (mkCache te tc))))) with d2.
    split; [|exact C3]. rewrite C4 by discriminate. exact A3. }
  destruct X as (X1 & X2 & X3). exists (mkCache te tc). rewrite X1. split; [reflexivity|]. split; [split; assumption|].
  change (final_disk d (mkRun (rn_trace r) (Done (Ok (mkCache te tc))))) with (final_disk d r).
  unfold cache_load, load_partial, fs_read. cbn [ft_read no_faults]. rewrite X2, X3.
  change edges_total_set_size with (path_total EdgesPath). change corners_total_set_size with (path_total CornersPath).
  unfold correct_cache_size. rewrite (right_length _ _ Re), (right_length _ _ Rc), !N.eqb_refl. reflexivity.
Qed.
(** In particular on a first start, and after the files are deleted. *)
Theorem C38_clean_start : forall d, history d -> file d EdgesPath = None -> file d CornersPath = None ->
  exists ca, rn_result (cache_init no_faults no_faults d) = Done (Ok ca) /\ complete_cache ca.
Proof.
  intros d H F1 F2. destruct (C38_recovery_partial d H) as (ca & E & C & _); [intros (b & F & _); congruence|intros (b & F & _); congruence|].
  exists ca. auto.
Qed.

(** ** It does not recover by itself *)

Lemma load_corrupt p ft d table : corrupt d p ->
  load_or_build_partial p (path_total p) table ft d = mkRun [] Panic \/
  load_or_build_partial p (path_total p) table ft d = mkRun [] (Done (Err OtherError)).
Proof.
  intros (b & F & L). unfold load_or_build_partial, load_partial, fs_read, correct_cache_size. rewrite F.
  destruct (ft_read ft); [right; reflexivity|left]. rewrite (proj2 (N.eqb_neq _ _) L). reflexivity.
Qed.
(** Nothing done for one file touches the other. *)
Lemma write_other fault d p p' bytes : p' <> p -> forall d', In d' (rn_trace (fs_write fault d p bytes)) ->
  file d' p' = file d p' /\ dk_dir d' = true.
Proof.
  intros N d'. unfold fs_write. destruct (dk_dir d) eqn:D; [|intros []].
  destruct fault as [| |n]; cbn [rn_trace]; [|intros []|]; unfold write_steps; intros I; apply in_map_iff in I; destruct I as (k & <- & _);
    rewrite file_with, D; (split; [destruct p, p'; try reflexivity; destruct (N eq_refl)|destruct p; exact D]).
Qed.
Lemma partial_other p p' total table ft d : p' <> p -> dk_dir d = true ->
  forall d', In d' (rn_trace (load_or_build_partial p total table ft d)) -> file d' p' = file d p'.
Proof.
  intros N D d'. unfold load_or_build_partial. destruct (load_partial p total ft d) as [[a|[]]|]; try (intros []).
  unfold build_partial. destruct table as [t|]; [|intros []].
  assert (W : forall d', In d' (rn_trace (write_partial p total ft d t)) -> file d' p' = file d p').
  { intros d1. unfold write_partial. destruct (correct_cache_size total t); [|intros []]. cbv zeta.
    assert (NF : rn_result (fs_write (ft_write ft) d p t) <> Done (Err NotFound)).
    { unfold fs_write. rewrite D. destruct (ft_write ft); discriminate. }
    destruct (rn_result (fs_write (ft_write ft) d p t)) as [[a|[]]|]; try (destruct (NF eq_refl)); intros I; apply (write_other _ _ _ _ _ N _ I). }
  unfold run_bind. destruct (rn_result (write_partial p total ft d t)) as [[]|]; cbn [rn_trace]; [rewrite app_nil_r|..]; apply W.
Qed.

(** Whatever the faults, a file of the wrong length makes every later init panic, and it
    keeps its wrong length through every later init. *)
Theorem C38_corrupt_stays : forall d p fe fc, corrupt d p ->
  rn_result (cache_init fe fc d) = Panic /\ forall d', In d' (crash_disks d (cache_init fe fc d)) -> corrupt d' p.
Proof.
  intros d p fe fc C. unfold cache_init, load_or_build.
  change edges_total_set_size with (path_total EdgesPath). change corners_total_set_size with (path_total CornersPath).
  set (tc := build_table corners_mus). set (te := build_table half_edges_mus). destruct p.
  - destruct (load_corrupt EdgesPath fe d te C) as [E|E]; rewrite E; (split; [reflexivity|]); intros d' [<-|[]]; exact C.
  - pose proof C as (b & F & L). assert (D : dk_dir d = true) by (unfold file in F; destruct (dk_dir d); [reflexivity|discriminate F]).
    set (r1 := load_or_build_partial EdgesPath (path_total EdgesPath) te fe d).
    assert (O : forall d', In d' (d :: rn_trace r1) -> corrupt d' CornersPath).
    { intros d' [<-|I]; [exact C|]. exists b. split; [|exact L]. rewrite <- F. apply (partial_other EdgesPath CornersPath _ _ _ _ ltac:(discriminate) D _ I). }
    set (r := run_bind d r1 _).
    assert (X : rn_trace r = rn_trace r1 /\ match rn_result r with Done (Ok _) => False | _ => True end).
    { subst r. unfold run_bind at 1 3. destruct (rn_result r1) as [[edges|e]|]; [|split; exact I || reflexivity..].
      set (d1 := final_disk d r1). assert (C1 : corrupt d1 CornersPath) by (apply O, last_in). cbv zeta.
      destruct (load_corrupt CornersPath fc d1 tc C1) as [E|E]; rewrite E; (split; [apply app_nil_r|exact I]). }
    destruct X as [X1 X2]. split; [cbn [rn_result]; destruct (rn_result r) as [[]|]; [destruct X2|reflexivity..]|].
    unfold crash_disks. cbn [rn_trace]. rewrite X1. exact O.
Qed.
(** So the second half of the property is false: a crash during the first init can leave a
    disk on which every later init, however often repeated, panics. *)
Inductive later_init (d : Disk) : Disk -> Prop :=
| now : later_init d d
| again d1 d2 fe fc : later_init d d1 -> In d2 (crash_disks d1 (cache_init fe fc d1)) -> later_init d d2.
Lemma trace_bind {A B} (d d0 : Disk) (r : Run A) (f : A -> Disk -> Run B) : In d (rn_trace r) -> In d (rn_trace (run_bind d0 r f)).
Proof. intros J. unfold run_bind. destruct (rn_result r) as [[]|]; cbn [rn_trace]; [apply in_or_app; left|..]; exact J. Qed.
Lemma first_write te : N.of_nat (length te) = path_total EdgesPath ->
  In (mkDisk true (Some []) None) (rn_trace (load_or_build_partial EdgesPath (path_total EdgesPath) (Done te) no_faults empty_disk)).
Proof.
  generalize (path_total EdgesPath). intros total L.
  change (load_or_build_partial EdgesPath total (Done te) no_faults empty_disk)
    with (run_bind empty_disk (write_partial EdgesPath total no_faults empty_disk te) (fun _ _ => mkRun [] (Done (Ok te)))).
  apply trace_bind. unfold write_partial, correct_cache_size. rewrite L, N.eqb_refl. right. left. reflexivity.
Qed.
Lemma init_trace fe fc d : rn_trace (cache_init fe fc d) = rn_trace (load_or_build fe fc d).
Proof. reflexivity. Qed.
Lemma crash_later {A} d d' (r : Run A) : In d' (rn_trace r) -> In d' (crash_disks d r).
Proof. intros I. right. exact I. Qed.
Lemma first_crash : In (mkDisk true (Some []) None) (crash_disks empty_disk (cache_init no_faults no_faults empty_disk)).
Proof.
  destruct (right_ex EdgesPath) as (te & Re). destruct (right_ex CornersPath) as (tc & Rc).
  apply crash_later. rewrite init_trace, (load_or_build_eq no_faults no_faults empty_disk te tc Re Rc).
  apply trace_bind, first_write, (right_length _ _ Re).
Qed.
Theorem C38_recovery_refuted : exists d, history d /\
  In d (crash_disks empty_disk (cache_init no_faults no_faults empty_disk)) /\
  forall d', later_init d d' -> forall fe fc, rn_result (cache_init fe fc d') = Panic.
Proof.
  set (d := mkDisk true (Some []) None). pose proof first_crash as I. fold d in I.
  exists d. split; [exact (after_stop _ _ _ _ no_history I)|]. split; [exact I|].
  assert (C : forall d', later_init d d' -> corrupt d' EdgesPath).
  { induction 1 as [|d1 d2 fe fc _ IH J]; [exists []; split; [reflexivity|discriminate]|].
    exact (proj2 (C38_corrupt_stays d1 EdgesPath fe fc IH) d2 J). }
  intros d' L fe fc. exact (proj1 (C38_corrupt_stays d' EdgesPath fe fc (C d' L))).
Qed.

(** A disk left by a crash in the middle of the first write; after its files are deleted the
    next init succeeds. *)
Example C38_example : let d := mkDisk true (Some []) None in
  history d /\ corrupt d EdgesPath /\ history (mkDisk true None None) /\
  exists ca, rn_result (cache_init no_faults no_faults (mkDisk true None None)) = Done (Ok ca) /\ complete_cache ca.
Proof.
  cbv zeta. pose proof (after_stop _ _ _ _ no_history first_crash) as H.
  pose proof (after_delete _ false false H) as H'. cbn [dk_dir] in H'.
  split; [exact H|]. split; [exists []; split; [reflexivity|discriminate]|]. split; [exact H'|].
  exact (C38_clean_start _ H' eq_refl eq_refl).
Qed.

Print Assumptions C38_init_never_partial.
Print Assumptions C38_load_never_partial.
Print Assumptions C38_load_panic.
Print Assumptions C38_recovery_partial.
Print Assumptions C38_clean_start.
Print Assumptions C38_corrupt_stays.
Print Assumptions C38_recovery_refuted.

(** Properties of the cache directory shared by several processes (C52, C53). *)

From Coq Require Import List Bool Arith NArith ZArith Lia ZifyBool ZifyN ZifyNat.
From Verif Require Import Model_Base Model_Space Model_Moves Model_Pieces Model_Cubes Model_Float Model_Search Model_Invariants Model_Mus Model_Cache Model_Disk Model_Concurrent
  Spec_Sets Spec_Invariants Spec_Mus Spec_Cache Proof_Sets Proof_Random Proof_Invariants Proof_Solve Proof_Cache Proof_Mus Proof_Cross Prop_Sets Prop_Mus Prop_Search Prop_Cache Prop_Disk.
Import ListNotations.
Local Open Scope nat_scope.
#[local] Opaque build_table.

(* ------------------------------------------------------------------ *)
(** * C52 Processes that share the cache directory never get an overestimating table *)

(** A table that agrees with the right one except for entries that are 0. *)
Definition nearly (bytes table : list N) : Prop :=
  length bytes = length table /\ forall j b, nth_error bytes j = Some b -> b = 0%N \/ nth_error table j = Some b.

(** ** What can be in a file *)

Definition good_bytes (p : Path) (c : list N) : Prop :=
  exists table, right_table p table /\ length c <= length table /\
    forall j b, nth_error c j = Some b -> b = 0%N \/ nth_error table j = Some b.
Definition full_bytes (p : Path) (c : list N) : Prop := exists table, right_table p table /\ nearly c table.
Definition has_inode (fs : FS) (i : nat) (p : Path) : Prop := exists c, nth_error (fs_inodes fs) i = Some (p, c).
Definition fs_ok (fs : FS) : Prop :=
  (forall i p c, nth_error (fs_inodes fs) i = Some (p, c) -> good_bytes p c) /\
  (forall p i, fs_link fs p = Some i -> has_inode fs i p).
Definition stage_ok (fs : FS) (p : Path) (st : Stage) : Prop :=
  match st with
  | OpenRead => True
  | Reading i got => has_inode fs i p /\ good_bytes p got
  | OpenWrite t _ | MakeDir t => right_table p t
  | Writing t i off => right_table p t /\ has_inode fs i p /\ off <= length t
  end.
Definition proc_ok (fs : FS) (pr : Proc) : Prop :=
  match pr with
  | Running g e st => match e with Some t => full_bytes EdgesPath t | None => True end /\ stage_ok fs (busy_with e) st
  | Returned ca => full_bytes EdgesPath (ca_edges ca) /\ full_bytes CornersPath (ca_corners ca)
  | Stopped => True
  end.

Lemma built_right p table : built p = Done table <-> right_table p table.
Proof. destruct p; reflexivity. Qed.
Lemma total_path p : total_of p = path_total p.
Proof. destruct p; reflexivity. Qed.

Lemma write_at_nth c off b j : nth_error (write_at c off b) j =
  if j <? off then (if j <? length c then nth_error c j else Some 0%N)
  else if j <? off + length b then nth_error b (j - off) else nth_error c j.
Proof.
  unfold write_at. destruct (Nat.ltb_spec j off) as [A|A].
  - destruct (Nat.ltb_spec j (length c)) as [B|B].
    + rewrite nth_error_app1 by (rewrite firstn_length; lia). rewrite nth_error_firstn.
      destruct (Nat.ltb_spec j off); [reflexivity|lia].
    + rewrite nth_error_app2 by (rewrite firstn_length; lia). rewrite firstn_length.
      rewrite nth_error_app1 by (rewrite repeat_length; lia). apply nth_error_repeat. lia.
  - rewrite nth_error_app2 by (rewrite firstn_length; lia). rewrite firstn_length.
    rewrite nth_error_app2 by (rewrite repeat_length; lia). rewrite repeat_length.
    replace (j - Nat.min off (length c) - (off - length c)) with (j - off) by lia.
    destruct (Nat.ltb_spec j (off + length b)) as [B|B].
    + rewrite nth_error_app1 by lia. reflexivity.
    + rewrite nth_error_app2 by lia. rewrite nth_error_skipn. f_equal. lia.
Qed.
Lemma write_at_length c off b : length (write_at c off b) = Nat.max (off + length b) (length c).
Proof. unfold write_at. rewrite !app_length, firstn_length, repeat_length, skipn_length. lia. Qed.

Lemma good_write p c off k t : right_table p t -> off <= length t -> good_bytes p c ->
  good_bytes p (write_at c off (firstn k (skipn off t))).
Proof.
  intros R O (t' & R' & L & H). rewrite (right_unique _ _ _ R' R) in *. exists t. split; [exact R|].
  split; [rewrite write_at_length, firstn_length, skipn_length; lia|].
  intros j b. rewrite write_at_nth. destruct (Nat.ltb_spec j off).
  - destruct (Nat.ltb_spec j (length c)); [apply H|]. intros [= <-]. left. reflexivity.
  - destruct (Nat.ltb_spec j (off + length (firstn k (skipn off t)))); [|apply H].
    rewrite nth_error_firstn. destruct (j - off <? k); [|discriminate]. rewrite nth_error_skipn.
    replace (off + (j - off)) with j by lia. auto.
Qed.
Lemma good_nil p : good_bytes p [].
Proof. destruct (right_ex p) as (t & R). exists t. split; [exact R|]. split; [cbn; lia|]. intros [|j] b; discriminate. Qed.
Lemma good_read p got c k : good_bytes p got -> good_bytes p c -> good_bytes p (got ++ firstn k (skipn (length got) c)).
Proof.
  intros (t & R & L & H) (t' & R' & L' & H'). rewrite (right_unique _ _ _ R' R) in *. exists t. split; [exact R|].
  split; [rewrite app_length, firstn_length, skipn_length; lia|].
  intros j b. destruct (Nat.ltb_spec j (length got)).
  - rewrite nth_error_app1 by assumption. apply H.
  - rewrite nth_error_app2 by assumption. rewrite nth_error_firstn. destruct (_ <? k); [|discriminate].
    rewrite nth_error_skipn. replace (length got + (j - length got)) with j by lia. apply H'.
Qed.
Lemma good_full p c : good_bytes p c -> correct_cache_size (total_of p) c = true -> full_bytes p c.
Proof.
  intros (t & R & L & H) S. exists t. split; [exact R|]. split; [|exact H].
  unfold correct_cache_size in S. apply N.eqb_eq in S. rewrite total_path, <- (right_length p t R) in S. lia.
Qed.
Lemma right_full p t : right_table p t -> full_bytes p t.
Proof. intros R. exists t. split; [exact R|]. split; [reflexivity|]. auto. Qed.

(** ** Inodes keep their owner *)

Definition keeps (fs fs' : FS) : Prop := forall i p, has_inode fs i p -> has_inode fs' i p.
Lemma keeps_refl fs : keeps fs fs.
Proof. intros i p H. exact H. Qed.
Lemma proc_ok_keeps fs fs' pr : keeps fs fs' -> proc_ok fs pr -> proc_ok fs' pr.
Proof.
  intros K. destruct pr as [g e st| |]; cbn [proc_ok]; auto. intros [E S]. split; [exact E|].
  destruct st; cbn [stage_ok] in *; auto.
  - destruct S as [I G]. split; [apply K, I|exact G].
  - destruct S as (R & I & O). split; [exact R|]. split; [apply K, I|exact O].
Qed.
Lemma set_inode_has fs j q c' i p : has_inode fs j q -> has_inode fs i p -> has_inode (set_inode fs j (q, c')) i p.
Proof.
  intros (cj & J) (c & I). unfold has_inode, set_inode. cbn [fs_inodes]. rewrite nth_error_set_nth.
  destruct (Nat.eqb_spec j i) as [<-|N]; [|exists c; exact I]. rewrite J in I. injection I as -> ->.
  assert (j < length (fs_inodes fs)) by (apply nth_error_Some; rewrite J; discriminate).
  destruct (Nat.ltb_spec j (length (fs_inodes fs))); [exists c'; reflexivity|lia].
Qed.
Lemma set_inode_ok fs j q c' : fs_ok fs -> has_inode fs j q -> good_bytes q c' -> fs_ok (set_inode fs j (q, c')).
Proof.
  intros [G L] J C. split.
  - intros i p c. unfold set_inode. cbn [fs_inodes]. rewrite nth_error_set_nth. destruct (Nat.eqb_spec j i); [|apply G].
    destruct (j <? _); [|discriminate]. intros [= <- <-]. exact C.
  - intros p i E. apply set_inode_has; [exact J|]. apply L. destruct p; exact E.
Qed.
Lemma add_inode_has fs q i p : has_inode fs i p -> has_inode (add_inode fs q) i p.
Proof.
  intros (c & I). exists c. unfold add_inode. destruct q; cbn [set_link fs_inodes]; (rewrite nth_error_app1; [exact I|]); apply nth_error_Some; rewrite I; discriminate.
Qed.
Lemma add_inode_new fs q : has_inode (add_inode fs q) (length (fs_inodes fs)) q.
Proof.
  exists []. unfold add_inode. destruct q; cbn [set_link fs_inodes]; (rewrite nth_error_app2 by lia); rewrite Nat.sub_diag; reflexivity.
Qed.
Lemma add_inode_ok fs q : fs_ok fs -> fs_ok (add_inode fs q).
Proof.
  intros [G L]. split.
  - intros i p c. assert (E : fs_inodes (add_inode fs q) = fs_inodes fs ++ [(q, [])]) by (destruct q; reflexivity). rewrite E.
    destruct (Nat.ltb_spec i (length (fs_inodes fs))); [rewrite nth_error_app1 by assumption; apply G|].
    rewrite nth_error_app2 by assumption. destruct (i - length (fs_inodes fs)) as [|[]]; [|discriminate..]. intros [= <- <-]. apply good_nil.
  - intros p i E. assert (D : p = q /\ i = length (fs_inodes fs) \/ fs_link fs p = Some i).
    { destruct p, q; cbn in E; try (right; exact E); left; split; congruence. }
    destruct D as [[-> ->]|D]; [apply add_inode_new|apply add_inode_has, L, D].
Qed.

(** ** The invariant *)

Lemma next_ok fs g e table : match e with Some t => full_bytes EdgesPath t | None => True end -> full_bytes (busy_with e) table ->
  proc_ok fs (next_table g e table).
Proof. destruct e as [t|]; cbn; auto. Qed.
Lemma proc_step_ok fs pr fs' pr' : proc_step fs pr fs' pr' -> fs_ok fs -> proc_ok fs pr -> fs_ok fs' /\ keeps fs fs' /\ proc_ok fs' pr'.
Proof.
  intros S F P. destruct S as [fs g e i H|fs e t H B C|fs g e i got p c k H|fs g e i got p c H L C|fs g e t ag i p c H I|fs g e t ag H D
    |fs g e t D|fs g e t|fs g e t i off p c k I K O|fs g e t i off L|fs g e st]; cbn [proc_ok stage_ok] in P; try destruct P as [E P].
  - split; [exact F|]. split; [apply keeps_refl|]. split; [exact E|]. split; [apply (proj2 F), H|apply good_nil].
  - split; [exact F|]. split; [apply keeps_refl|]. split; [exact E|]. apply built_right, B.
  - destruct P as [(c' & I) G]. rewrite H in I. injection I as -> ->. split; [exact F|]. split; [apply keeps_refl|]. split; [exact E|].
    split; [exists c'; exact H|]. apply good_read; [exact G|]. exact (proj1 F _ _ _ H).
  - destruct P as [(c' & I) G]. split; [exact F|]. split; [apply keeps_refl|]. apply next_ok; [exact E|]. apply good_full; assumption.
  - destruct (proj2 F _ _ H) as (c' & I'). rewrite I in I'. injection I' as -> ->.
    assert (J : has_inode fs i (busy_with e)) by (exists c'; exact I).
    split; [apply set_inode_ok; [exact F|exact J|apply good_nil]|]. split; [intros j q; apply set_inode_has, J|].
    split; [exact E|]. split; [exact P|]. split; [apply set_inode_has; exact J|lia].
  - split; [apply add_inode_ok, F|]. split; [intros j q; apply add_inode_has|]. split; [exact E|]. split; [exact P|].
    split; [apply add_inode_new|lia].
  - split; [exact F|]. split; [apply keeps_refl|]. split; [exact E|exact P].
  - assert (F' : fs_ok (make_dir fs)). { split; [exact (proj1 F)|]. intros p i H. apply (proj2 F p i). destruct p; exact H. }
    split; [exact F'|]. split; [intros i p H; exact H|]. split; [exact E|exact P].
  - destruct P as (R & (c' & I') & O'). rewrite I in I'. injection I' as -> ->.
    assert (J : has_inode fs i (busy_with e)) by (exists c'; exact I).
    split; [apply set_inode_ok; [exact F|exact J|]; apply good_write; [exact R|exact O'|exact (proj1 F _ _ _ I)]|].
    split; [intros j q; apply set_inode_has, J|]. split; [exact E|]. split; [exact R|]. split; [apply set_inode_has; exact J|].
    rewrite firstn_length, skipn_length. lia.
  - destruct P as (R & _). split; [exact F|]. split; [apply keeps_refl|]. apply next_ok; [exact E|]. apply right_full, R.
  - split; [exact F|]. split; [apply keeps_refl|exact I].
Qed.

Definition sys_ok (s : Sys) : Prop := fs_ok (sy_fs s) /\ forall pr, In pr (sy_procs s) -> proc_ok (sy_fs s) pr.
Lemma in_set_nth {A} (l : list A) : forall i x y, In y (set_nth l i x) -> y = x \/ In y l.
Proof.
  induction l as [|a l IH]; intros [|i] x y; cbn; try tauto.
  - intros [->|I]; auto.
  - intros [->|I]; [auto|]. apply IH in I. tauto.
Qed.
Lemma sys_step_ok s s' : sys_step s s' -> sys_ok s -> sys_ok s'.
Proof.
  intros S [F P]. destruct S as [fs procs n pr fs' pr' H S|fs procs g|fs procs p|fs procs H1 H2]; cbn [sy_fs sy_procs] in *.
  - destruct (proc_step_ok _ _ _ _ S F (P _ (nth_error_In _ _ H))) as (F' & K & P'). split; [exact F'|]. cbn [sy_fs sy_procs].
    intros q I. apply in_set_nth in I. destruct I as [->|I]; [exact P'|]. apply (proc_ok_keeps fs fs' q K), P, I.
  - split; [exact F|]. cbn [sy_fs sy_procs]. intros q I. apply in_app_or in I. destruct I as [I|[<-|[]]]; [apply P, I|]. split; exact Logic.I.
  - assert (E : fs_inodes (set_link fs p None) = fs_inodes fs) by (destruct p; reflexivity).
    assert (K : keeps fs (set_link fs p None)) by (intros i q (c & I); exists c; rewrite E; exact I).
    split; [split|]; cbn [sy_fs sy_procs].
    + rewrite E. exact (proj1 F).
    + intros q i L. apply K, (proj2 F q i). destruct p, q; cbn in L; (discriminate L || exact L).
    + intros q I. apply (proc_ok_keeps fs _ q K), P, I.
  - assert (K : keeps fs (mkFS false None None (fs_inodes fs))) by (intros i q I; exact I).
    split; [split|]; cbn [sy_fs sy_procs].
    + exact (proj1 F).
    + intros [] i L; discriminate L.
    + intros q I. apply (proc_ok_keeps fs _ q K), P, I.
Qed.
Lemma sys_reach_ok s : sys_reach s -> sys_ok s.
Proof.
  induction 1 as [|s s' _ IH S]; [|exact (sys_step_ok s s' S IH)].
  split; [split|]; cbn; [intros [|i] p c; discriminate|intros [] i; discriminate|intros pr []].
Qed.

(** Every cache that any process ever obtains has the right lengths, and each of its entries
    is right or 0. *)
Theorem C52_entries_right_or_zero : forall s ca, sys_reach s -> In (Returned ca) (sy_procs s) ->
  exists full, complete_cache full /\ nearly (ca_edges ca) (ca_edges full) /\ nearly (ca_corners ca) (ca_corners full).
Proof.
  intros s ca H I. destruct (sys_reach_ok s H) as [_ P]. destruct (P _ I) as [(te & Re & Ne) (tc & Rc & Nc)].
  exists (mkCache te tc). split; [split; assumption|]. split; assumption.
Qed.

(** So the heuristic still never overestimates, and searches with it are still optimal. *)
Lemma nearly_below ca full c v : nearly (ca_edges ca) (ca_edges full) -> nearly (ca_corners ca) (ca_corners full) ->
  cache_get full c = Done v -> exists v', cache_get ca c = Done v' /\ (v' <= v)%N.
Proof.
  intros [Le He] [Lc Hc]. unfold cache_get. destruct (cube_indices c) as [ix|]; [|discriminate]. cbn [bind_o].
  assert (N : forall a b i x, length a = length b -> (forall j b', nth_error a j = Some b' -> b' = 0%N \/ nth_error b j = Some b') ->
    nth_error b i = Some x -> exists y, nth_error a i = Some y /\ (y <= x)%N).
  { intros a b i x L H E. destruct (nth_error a i) as [y|] eqn:Y.
    - exists y. split; [reflexivity|]. destruct (H _ _ Y) as [->|H']; [lia|]. rewrite E in H'. injection H' as <-. lia.
    - apply nth_error_None in Y. assert (i < length b) by (apply nth_error_Some; rewrite E; discriminate). lia. }
  destruct (nth_error (ca_corners full) _) as [x|] eqn:X; [|discriminate].
  destruct (nth_error (ca_edges full) (N.to_nat (ix_edges1 ix))) as [y|] eqn:Y; [|discriminate].
  destruct (nth_error (ca_edges full) (N.to_nat (ix_edges2 ix))) as [z|] eqn:Z; [|discriminate]. intros [= <-].
  destruct (N _ _ _ _ Lc Hc X) as (x' & -> & ?). destruct (N _ _ _ _ Le He Y) as (y' & -> & ?). destruct (N _ _ _ _ Le He Z) as (z' & -> & ?).
  eexists. split; [reflexivity|]. lia.
Qed.
Lemma nearly_over ca full c al : complete_cache full -> nearly (ca_edges ca) (ca_edges full) -> nearly (ca_corners ca) (ca_corners full) ->
  fold_left cube3_apply al c = cube3_solved -> exists v, cache_get ca c = Done v /\ (N.to_nat v <= length al)%nat.
Proof.
  intros CC Ne Nc E. destruct (C36_admissible full c al CC E) as (v & G & L). destruct (nearly_below ca full c v Ne Nc G) as (v' & G' & L').
  exists v'. split; [exact G'|lia].
Qed.
Lemma nearly_optimal ca full c : complete_cache full -> nearly (ca_edges ca) (ca_edges full) -> nearly (ca_corners ca) (ca_corners full) ->
  cube_well_formed Size3 c -> invariants c ->
  exists fuel0 al, (forall fuel, (fuel0 <= fuel)%nat ->
      solve_with_heuristic f32_costs (mus_value ca) fuel c = SolveDone (Some al)) /\
    fold_left cube3_apply al c = cube3_solved /\
    (forall al', fold_left cube3_apply al' c = cube3_solved -> (length al <= length al')%nat).
Proof.
  intros CC Ne Nc W Iv.
  set (h := fun c => match cache_get ca c with Done v => Z.of_N v | Panic => 0%Z end).
  assert (E : forall x, mus_value ca x = f32_of_Z (h x)).
  { intros x. unfold mus_value, mus, cache_get_or_init, h. destruct (cache_get ca x); reflexivity. }
  apply cube3_sets_valid_spec in W. destruct (solvable c W Iv) as (al & _ & Sv).
  destruct (C29_solve_with_heuristic h) with (c := c) as (f0 & al' & R & S & O).
  - intros x. unfold h. destruct (cache_get ca x) as [v|] eqn:G; [|lia].
    assert (X : exists v', cache_get full x = Done v').
    { unfold cache_get in *. destruct (cube_indices x) as [ix|]; [|discriminate G]. cbn [bind_o] in *.
      assert (NE : forall (a b : list N) i y, length a = length b -> nth_error a i = Some y -> exists z, nth_error b i = Some z).
      { intros a b i y L Y. destruct (nth_error b i) as [z|] eqn:Z; [exists z; reflexivity|]. apply nth_error_None in Z.
        assert (i < length a) by (apply nth_error_Some; rewrite Y; discriminate). lia. }
      destruct (nth_error (ca_corners ca) _) as [a|] eqn:A; [|discriminate G].
      destruct (nth_error (ca_edges ca) (N.to_nat (ix_edges1 ix))) as [b|] eqn:B; [|discriminate G].
      destruct (nth_error (ca_edges ca) (N.to_nat (ix_edges2 ix))) as [d|] eqn:D; [|discriminate G].
      destruct (NE _ _ _ _ (proj1 Nc) A) as (a' & ->). destruct (NE _ _ _ _ (proj1 Ne) B) as (b' & ->). destruct (NE _ _ _ _ (proj1 Ne) D) as (d' & ->).
      eexists. reflexivity. }
    destruct X as (v' & G'). pose proof (cache_bounded full x v' CC G') as B. destruct (nearly_below ca full x v' Ne Nc G') as (v'' & G'' & L).
    rewrite G in G''. injection G'' as <-. lia.
  - intros x ax Ex. destruct (nearly_over ca full x ax CC Ne Nc Ex) as (v & G & L). unfold h. rewrite G. lia.
  - exists al. exact Sv.
  - exists f0, al'. split; [|split; assumption]. intros fuel Hf. rewrite <- (R fuel Hf). unfold solve_with_heuristic, solve.
    rewrite (search_ext f32_costs (cube3_problem (fun c => f32_of_Z (h c))) (cube3_problem (mus_value ca)) eq_refl eq_refl eq_refl E).
    reflexivity.
Qed.
Theorem C52_never_overestimates : forall s ca c al, sys_reach s -> In (Returned ca) (sy_procs s) ->
  fold_left cube3_apply al c = cube3_solved -> exists v, cache_get ca c = Done v /\ (N.to_nat v <= length al)%nat.
Proof.
  intros s ca c al H I E. destruct (C52_entries_right_or_zero s ca H I) as (full & CC & Ne & Nc).
  exact (nearly_over ca full c al CC Ne Nc E).
Qed.
Theorem C52_solutions_optimal : forall s ca c, sys_reach s -> In (Returned ca) (sy_procs s) -> cube_well_formed Size3 c -> invariants c ->
  exists fuel0 al, (forall fuel, (fuel0 <= fuel)%nat ->
      solve_with_heuristic f32_costs (mus_value ca) fuel c = SolveDone (Some al)) /\
    fold_left cube3_apply al c = cube3_solved /\
    (forall al', fold_left cube3_apply al' c = cube3_solved -> (length al <= length al')%nat).
Proof.
  intros s ca c HR HI W Iv. destruct (C52_entries_right_or_zero s ca HR HI) as (full & CC & Ne & Nc).
  exact (nearly_optimal ca full c CC Ne Nc W Iv).
Qed.

(* ------------------------------------------------------------------ *)
(** * C53 Processes that share the cache directory get complete tables *)

(** ** When no write is abandoned, quiet files are complete *)

(** A step in which a process stops in the middle of writing. *)
Definition abandons (s s' : Sys) : Prop := exists n g e t i off,
  nth_error (sy_procs s) n = Some (Running g e (Writing t i off)) /\ nth_error (sy_procs s') n = Some Stopped.
Inductive calm_reach : Sys -> Prop :=
| calm_init : calm_reach sys_init
| calm_step s s' : calm_reach s -> sys_step s s' -> ~ abandons s s' -> calm_reach s'.

Lemma calm_reachable s : calm_reach s -> sys_reach s.
Proof. induction 1 as [|s s' _ IH S _]; [exact sys_reach_init|exact (sys_reach_step _ _ IH S)]. Qed.

(** The first bytes of every inode are right: all of them, or as many as one of the
    processes writing to it has written. *)
Definition owned (s : Sys) : Prop := forall i p c, nth_error (fs_inodes (sy_fs s)) i = Some (p, c) ->
  exists t off, right_table p t /\ off <= length c /\ (forall j, j < off -> nth_error c j = nth_error t j) /\
    (length t <= off \/ exists g e, In (Running g e (Writing t i off)) (sy_procs s)).

Lemma in_set_other {A} (l : list A) : forall n a b x, nth_error l n = Some a -> In x l -> x <> a -> In x (set_nth l n b).
Proof.
  induction l as [|y l IH]; intros [|n] a b x E I N; cbn in *; try contradiction.
  - injection E as ->. destruct I as [->|I]; [congruence|auto].
  - destruct I as [->|I]; [auto|]. right. exact (IH n a b x E I N).
Qed.
Lemma in_set_new {A} (l : list A) : forall n a b, nth_error l n = Some a -> In b (set_nth l n b).
Proof. induction l as [|y l IH]; intros [|n] a b E; cbn in *; try discriminate; [auto|]. right. exact (IH n a b E). Qed.
Lemma nth_set_new {A} (l : list A) n a b : nth_error l n = Some a -> nth_error (set_nth l n b) n = Some b.
Proof.
  intros E. rewrite nth_error_set_nth, Nat.eqb_refl. assert (n < length l) by (apply nth_error_Some; rewrite E; discriminate).
  destruct (Nat.ltb_spec n (length l)); [reflexivity|lia].
Qed.

Lemma owned_step s s' : sys_ok s -> owned s -> sys_step s s' -> ~ abandons s s' -> owned s'.
Proof.
  intros [F P] O S A. destruct S as [fs procs n pr fs' pr' H S|fs procs g|fs procs p|fs procs H1 H2]; unfold owned in *; cbn [sy_fs sy_procs] in *.
  - (* the same inodes, a process that is not writing *)
    assert (Same : (forall g e t i off, pr <> Running g e (Writing t i off)) -> fs_inodes fs' = fs_inodes fs ->
      forall i p c, nth_error (fs_inodes fs') i = Some (p, c) -> exists t off, right_table p t /\ off <= length c /\
        (forall j, j < off -> nth_error c j = nth_error t j) /\ (length t <= off \/ exists g e, In (Running g e (Writing t i off)) (set_nth procs n pr'))).
    { intros NW E i p c I. rewrite E in I. destruct (O i p c I) as (t & off & R & L & Q & W). exists t, off. repeat (split; [assumption|]).
      destruct W as [W|(g & e & W)]; [left; exact W|]. right. exists g, e. apply (in_set_other procs n pr); [exact H|exact W|].
      intros X. exact (NW _ _ _ _ _ (eq_sym X)). }
    pose proof (P _ (nth_error_In _ _ H)) as Ppr.
    destruct S as [fs g e i0 H0|fs e t0 H0 B C|fs g e i0 got p0 c0 k H0|fs g e i0 got p0 c0 H0 L C|fs g e t0 ag i0 p0 c0 H0 I0|fs g e t0 ag H0 D
      |fs g e t0 D|fs g e t0|fs g e t0 i0 off0 p0 c0 k I0 K O0|fs g e t0 i0 off0 L|fs g e st]; cbn [proc_ok stage_ok] in Ppr.
    + apply Same; [intros; discriminate|reflexivity].
    + apply Same; [intros; discriminate|reflexivity].
    + apply Same; [intros; discriminate|reflexivity].
    + apply Same; [intros; discriminate|reflexivity].
    + (* truncate *)
      intros i p c. unfold set_inode. cbn [fs_inodes]. rewrite nth_error_set_nth. destruct (Nat.eqb_spec i0 i) as [<-|N].
      * destruct (i0 <? _); [|discriminate]. intros [= <- <-]. exists t0, 0.
        destruct (proj2 F _ _ H0) as (c' & I'). rewrite I0 in I'. injection I' as -> ->.
        split; [apply Ppr|]. split; [cbn; lia|]. split; [lia|]. right. exists g, e. exact (in_set_new procs n _ _ H).
      * intros I. destruct (O i p c I) as (t & off & R & L & Q & W). exists t, off. repeat (split; [assumption|]).
        destruct W as [W|(g' & e' & W)]; [left; exact W|]. right. exists g', e'. apply (in_set_other procs n _ _ _ H W). discriminate.
    + (* create *)
      intros i p c. assert (E : fs_inodes (add_inode fs (busy_with e)) = fs_inodes fs ++ [(busy_with e, [])]) by (destruct (busy_with e); reflexivity).
      rewrite E. destruct (Nat.ltb_spec i (length (fs_inodes fs))) as [Lt|Ge].
      * rewrite nth_error_app1 by exact Lt. intros I. destruct (O i p c I) as (t & off & R & L & Q & W). exists t, off. repeat (split; [assumption|]).
        destruct W as [W|(g' & e' & W)]; [left; exact W|]. right. exists g', e'. apply (in_set_other procs n _ _ _ H W). discriminate.
      * rewrite nth_error_app2 by exact Ge. destruct (i - length (fs_inodes fs)) as [|[]] eqn:Z; [|discriminate..]. intros [= <- <-].
        replace i with (length (fs_inodes fs)) by lia. exists t0, 0. split; [apply Ppr|]. split; [cbn; lia|]. split; [lia|].
        right. exists g, e. exact (in_set_new procs n _ _ H).
    + apply Same; [intros; discriminate|reflexivity].
    + apply Same; [intros; discriminate|reflexivity].
    + (* write *)
      destruct Ppr as (_ & R0 & (c' & I') & O0'). rewrite I0 in I'. injection I' as -> ->.
      assert (LB : length (firstn k (skipn off0 t0)) = Nat.min k (length t0 - off0)) by (rewrite firstn_length, skipn_length; reflexivity).
      assert (WB : forall j, off0 <= j -> j < off0 + length (firstn k (skipn off0 t0)) -> nth_error (firstn k (skipn off0 t0)) (j - off0) = nth_error t0 j).
      { intros j J1 J2. rewrite nth_error_firstn. destruct (Nat.ltb_spec (j - off0) k); [|lia]. rewrite nth_error_skipn. f_equal. lia. }
      intros i p c. unfold set_inode. cbn [fs_inodes]. rewrite nth_error_set_nth. destruct (Nat.eqb_spec i0 i) as [<-|N].
      * destruct (i0 <? _); [|discriminate]. intros [= <- <-].
        destruct (O i0 _ _ I0) as (t & off & R & L & Q & W). rewrite (right_unique _ _ _ R R0) in *. clear R.
        assert (Other : off <= length (write_at c' off0 (firstn k (skipn off0 t0))) /\
                        forall j, j < off -> nth_error (write_at c' off0 (firstn k (skipn off0 t0))) j = nth_error t0 j).
        { split; [rewrite write_at_length; lia|]. intros j J. rewrite write_at_nth. destruct (Nat.ltb_spec j off0).
          - destruct (Nat.ltb_spec j (length c')); [apply Q, J|lia].
          - destruct (Nat.ltb_spec j (off0 + length (firstn k (skipn off0 t0)))); [apply WB; assumption|apply Q, J]. }
        destruct (Nat.eq_dec off off0) as [->|Ne].
        -- exists t0, (off0 + length (firstn k (skipn off0 t0))). split; [exact R0|].
           split; [rewrite write_at_length; lia|]. split.
           ++ intros j J. destruct (Nat.ltb_spec j off0); [apply Other; assumption|]. rewrite write_at_nth.
              destruct (Nat.ltb_spec j off0); [lia|]. destruct (Nat.ltb_spec j (off0 + length (firstn k (skipn off0 t0)))); [apply WB; assumption|lia].
           ++ right. exists g, e. exact (in_set_new procs n _ _ H).
        -- exists t0, off. split; [exact R0|]. split; [apply Other|]. split; [apply Other|].
           destruct W as [W|(g' & e' & W)]; [left; exact W|]. right. exists g', e'. apply (in_set_other procs n _ _ _ H W). congruence.
      * intros I. destruct (O i p c I) as (t & off & R & L & Q & W). exists t, off. repeat (split; [assumption|]).
        destruct W as [W|(g' & e' & W)]; [left; exact W|]. right. exists g', e'. apply (in_set_other procs n _ _ _ H W). congruence.
    + (* written *)
      intros i p c I. destruct (O i p c I) as (t & off & R & L' & Q & W). exists t, off. repeat (split; [assumption|]).
      destruct W as [W|(g' & e' & W)]; [left; exact W|].
      destruct (Nat.le_gt_cases (length t) off) as [T|T]; [left; exact T|]. right. exists g', e'. apply (in_set_other procs n _ _ _ H W).
      intros [= -> -> -> -> ->]. lia.
    + apply Same; [|reflexivity]. intros g' e' t i off E. apply A. exists n, g', e', t, i, off. cbn [sy_procs].
      split; [rewrite H, E; reflexivity|]. exact (nth_set_new procs n _ _ H).
  - intros i p c I. destruct (O i p c I) as (t & off & R & L & Q & W). exists t, off. repeat (split; [assumption|]).
    destruct W as [W|(g' & e' & W)]; [left; exact W|]. right. exists g', e'. apply in_or_app. left. exact W.
  - intros i q c I. apply (O i q c). destruct p; exact I.
  - intros i q c I. apply (O i q c). exact I.
Qed.
Lemma calm_owned s : calm_reach s -> owned s.
Proof.
  induction 1 as [|s s' R IH S A]; [intros [|i] p c; discriminate|].
  exact (owned_step s s' (sys_reach_ok s (calm_reachable s R)) IH S A).
Qed.

Lemma nth_error_ext' {A} (l r : list A) : (forall j, nth_error l j = nth_error r j) -> l = r.
Proof.
  revert r. induction l as [|a l IH]; intros [|b r] E; [reflexivity|discriminate (E 0)|discriminate (E 0)|].
  pose proof (E 0) as E0. injection E0 as ->. f_equal. apply IH. intros j. exact (E (S j)).
Qed.
(** If no process ever stops in the middle of writing, then a file to which nobody is
    writing is complete, however many processes wrote to it at the same time. *)
Theorem C53_quiet_files_partial : forall s p i, calm_reach s -> fs_link (sy_fs s) p = Some i ->
  (forall g e t off, ~ In (Running g e (Writing t i off)) (sy_procs s)) ->
  exists c, nth_error (fs_inodes (sy_fs s)) i = Some (p, c) /\ right_table p c.
Proof.
  intros s p i R L Q. pose proof (sys_reach_ok s (calm_reachable s R)) as [F _]. destruct (proj2 F p i L) as (c & I).
  exists c. split; [exact I|]. destruct (calm_owned s R i p c I) as (t & off & Rt & Lo & E & [W|(g & e & W)]); [|destruct (Q _ _ _ _ W)].
  destruct (proj1 F i p c I) as (t' & Rt' & Lc & _). rewrite (right_unique _ _ _ Rt' Rt) in Lc.
  assert (X : c = t); [|rewrite X; exact Rt]. apply nth_error_ext'. intros j. destruct (Nat.ltb_spec j off); [apply E; assumption|].
  rewrite (proj2 (nth_error_None c j)) by lia. symmetry. apply nth_error_None. lia.
Qed.

(** ** A run of [init] leaves both files behind *)

(** A step that deletes nothing: a process goes on or is started. *)
Definition deletes (s s' : Sys) : Prop := exists p, fs_link (sy_fs s) p <> None /\ sy_procs s' = sy_procs s /\
  fs_link (sy_fs s') p = None.
Inductive kept_run (s : Sys) : Sys -> Prop :=
| kept_start : kept_run s s
| kept_step s' s'' : kept_run s s' -> sys_step s' s'' -> ~ deletes s' s'' -> kept_run s s''.

Lemma proc_step_links fs pr fs' pr' p : proc_step fs pr fs' pr' -> fs_link fs p <> None -> fs_link fs' p = fs_link fs p.
Proof.
  intros S N. destruct S as [fs g e i0 H0|fs e t0 H0 B C|fs g e i0 got p0 c0 k H0|fs g e i0 got p0 c0 H0 L C|fs g e t0 ag i0 p0 c0 H0 I0|fs g e t0 ag H0 D
      |fs g e t0 D|fs g e t0|fs g e t0 i0 off0 p0 c0 k I0 K O0|fs g e t0 i0 off0 L|fs g e st]; try (destruct p; reflexivity).
  unfold add_inode. destruct p, (busy_with e); cbn [set_link fs_link fs_edges fs_corners] in *; first [reflexivity|congruence].
Qed.
Lemma sys_step_links s s' p : sys_step s s' -> ~ deletes s s' -> fs_link (sy_fs s) p <> None -> fs_link (sy_fs s') p = fs_link (sy_fs s) p.
Proof.
  intros S D N. destruct S as [fs procs n pr fs' pr' H S|fs procs g|fs procs q|fs procs H1 H2]; cbn [sy_fs] in *.
  - exact (proc_step_links _ _ _ _ p S N).
  - reflexivity.
  - destruct (fs_link (set_link fs q None) p) as [j|] eqn:E.
    + rewrite <- E. destruct p, q; cbn [set_link fs_link fs_edges fs_corners] in *; first [reflexivity|discriminate E].
    + exfalso. apply D. exists p. repeat split; [exact N|exact E].
  - destruct p; cbn [fs_link] in N; congruence.
Qed.

(** As long as nothing is deleted, a file keeps its name and stays the same file. *)
Theorem C53_files_stay_partial : forall s s' p i, kept_run s s' ->
  fs_link (sy_fs s) p = Some i -> fs_link (sy_fs s') p = Some i.
Proof.
  intros s s' p i R E. induction R as [|s' s'' R IH S D]; [exact E|].
  rewrite (sys_step_links _ _ p S D); [exact IH|]. rewrite IH. discriminate.
Qed.

Definition left_files (fs : FS) (pr : Proc) : Prop :=
  match pr with
  | Running _ e st => (e <> None -> fs_link fs EdgesPath <> None) /\
      match st with Reading _ _ | Writing _ _ _ => fs_link fs (busy_with e) <> None | _ => True end
  | Returned _ => fs_link fs EdgesPath <> None /\ fs_link fs CornersPath <> None
  | Stopped => True
  end.
Lemma left_files_mono fs fs' pr : (forall p, fs_link fs p <> None -> fs_link fs' p <> None) -> left_files fs pr -> left_files fs' pr.
Proof.
  intros M. destruct pr as [g e st|ca|]; cbn [left_files]; [|intros [H1 H2]; split; apply M; assumption|trivial].
  intros [H1 H2]. split; [intros X; apply M, H1, X|]. destruct st; first [exact I|apply M, H2].
Qed.
Lemma left_files_next fs g e t : (e <> None -> fs_link fs EdgesPath <> None) -> fs_link fs (busy_with e) <> None -> left_files fs (next_table g e t).
Proof. intros H1 H2. destruct e; cbn in *; [split; [apply H1; discriminate|exact H2]|split; [intros _; exact H2|exact I]]. Qed.
Lemma left_files_step fs pr fs' pr' : proc_step fs pr fs' pr' -> left_files fs pr -> left_files fs' pr'.
Proof.
  intros S L. assert (M : forall p, fs_link fs p <> None -> fs_link fs' p <> None).
  { intros p N. rewrite (proc_step_links _ _ _ _ p S N). exact N. }
  destruct S as [fs g e i0 H0|fs e t0 H0 B C|fs g e i0 got p0 c0 k H0|fs g e i0 got p0 c0 H0 L0 C|fs g e t0 ag i0 p0 c0 H0 I0|fs g e t0 ag H0 D
      |fs g e t0 D|fs g e t0|fs g e t0 i0 off0 p0 c0 k I0 K O0|fs g e t0 i0 off0 L0|fs g e st]; cbn [left_files] in L |- *;
    try (destruct L as [L1 L2]).
  - split; [exact L1|rewrite H0; discriminate].
  - split; [exact L1|exact I].
  - split; assumption.
  - apply left_files_next; assumption.
  - split; [intros X; apply M, L1, X|]. apply M. rewrite H0. discriminate.
  - split; [intros X; apply M, L1, X|]. unfold add_inode. destruct (busy_with e); cbn [set_link fs_link fs_edges fs_corners]; discriminate.
  - split; [exact L1|exact I].
  - split; [intros X; apply M, L1, X|exact I].
  - split; [intros X; apply M, L1, X|apply M, L2].
  - apply left_files_next; assumption.
  - exact I.
Qed.
Lemma left_files_run s : kept_run sys_init s -> forall pr, In pr (sy_procs s) -> left_files (sy_fs s) pr.
Proof.
  induction 1 as [|s s' R IH S D]; intros pr I; [destruct I|].
  assert (M : forall p, fs_link (sy_fs s) p <> None -> fs_link (sy_fs s') p <> None).
  { intros p N. rewrite (sys_step_links _ _ p S D N). exact N. }
  destruct S as [fs procs n pr0 fs' pr' H S|fs procs g|fs procs q|fs procs H1 H2]; cbn [sy_fs sy_procs] in *.
  - apply In_nth_error in I. destruct I as [kk I]. rewrite nth_error_set_nth in I. destruct (Nat.eqb_spec n kk) as [->|N].
    + destruct (kk <? length procs); [|discriminate I]. injection I as <-. apply (left_files_step _ _ _ _ S), IH. exact (nth_error_In _ _ H).
    + apply (left_files_mono _ _ _ M), IH. exact (nth_error_In _ _ I).
  - apply in_app_or in I. destruct I as [I|[<-|[]]]; [apply IH, I|]. split; [congruence|trivial].
  - apply (left_files_mono _ _ _ M), IH, I.
  - apply (left_files_mono _ _ _ M), IH, I.
Qed.

(** Once a process has its cache, both files exist, until something is deleted; if besides no
    process stopped in the middle of writing and none is writing now, then both are complete
    and the next process reads them instead of building the tables. *)
Theorem C53_files_left_partial : forall s ca, kept_run sys_init s -> In (Returned ca) (sy_procs s) ->
  exists i j, fs_link (sy_fs s) EdgesPath = Some i /\ fs_link (sy_fs s) CornersPath = Some j /\
    (calm_reach s -> (forall g e t k off, ~ In (Running g e (Writing t k off)) (sy_procs s)) ->
     exists te tc, nth_error (fs_inodes (sy_fs s)) i = Some (EdgesPath, te) /\ nth_error (fs_inodes (sy_fs s)) j = Some (CornersPath, tc) /\
       complete_cache (mkCache te tc) /\
       cache_load no_faults no_faults (mkDisk true (Some te) (Some tc)) = Done (Ok (mkCache te tc)) /\
         cache_init no_faults no_faults (mkDisk true (Some te) (Some tc)) = mkRun [] (Done (Ok (mkCache te tc)))).
Proof.
  intros s ca R I. destruct (left_files_run s R _ I) as [H1 H2].
  destruct (fs_link (sy_fs s) EdgesPath) as [i|] eqn:Ei; [|congruence]. destruct (fs_link (sy_fs s) CornersPath) as [j|] eqn:Ej; [|congruence].
  exists i, j. split; [reflexivity|]. split; [reflexivity|]. intros C Q.
  destruct (C53_quiet_files_partial s EdgesPath i C Ei (fun g e t off => Q g e t i off)) as (te & Ie & Re).
  destruct (C53_quiet_files_partial s CornersPath j C Ej (fun g e t off => Q g e t j off)) as (tc & Ic & Rc).
  exists te, tc. split; [exact Ie|]. split; [exact Ic|]. split; [split; assumption|]. set (d := mkDisk true (Some te) (Some tc)).
  assert (LP : forall p t, file d p = Some t -> N.of_nat (length t) = path_total p -> load_partial p (path_total p) no_faults d = Done (Ok t)).
  { intros p t E S. unfold load_partial, fs_read, correct_cache_size. cbn [ft_read no_faults]. rewrite E, S, N.eqb_refl. reflexivity. }
  assert (L : forall p t, file d p = Some t -> N.of_nat (length t) = path_total p -> forall b,
    load_or_build_partial p (path_total p) b no_faults d = mkRun [] (Done (Ok t))).
  { intros p t E S b'. unfold load_or_build_partial. rewrite (LP p t E S). reflexivity. }
  split.
  - unfold cache_load. change edges_total_set_size with (path_total EdgesPath). rewrite (LP EdgesPath te eq_refl (right_length _ _ Re)). cbn [bind_o].
    change corners_total_set_size with (path_total CornersPath). rewrite (LP CornersPath tc eq_refl (right_length _ _ Rc)). reflexivity.
  - assert (X : load_or_build no_faults no_faults d = mkRun [] (Done (Ok (mkCache te tc)))).
    { rewrite (load_or_build_eq no_faults no_faults d te tc Re Rc).
      rewrite (L EdgesPath te eq_refl (right_length _ _ Re)). unfold run_bind at 1. cbn [rn_result rn_trace].
      change (final_disk d _) with d. rewrite (L CornersPath tc eq_refl (right_length _ _ Rc)). reflexivity. }
    unfold cache_init. rewrite X. reflexivity.
Qed.

(** ** But tables can be incomplete *)

(** The second state of the edge table is not the solved one. *)
Lemma second_entry te : right_table EdgesPath te -> exists v, nth_error te 1 = Some v /\ v <> 0%N.
Proof.
  intros B. cbn [right_table] in B. destruct C35_half_edge_table as (t' & B' & L & X). rewrite B in B'. injection B' as <-.
  destruct (X 1%N) as (t & d & G & N & D); [reflexivity|]. exists d. split; [exact N|]. intros ->.
  destruct D as [(al & La & E) _]. destruct al; [|discriminate La]. cbn in E. subst t.
  destruct (proj2 edges_numbering 1%N) as (t & G' & _ & I); [reflexivity|]. rewrite G in G'. injection G' as <-.
  change (edges_index (firstn 6 edge_solved) = Done 1%N) in I. rewrite (proj1 C32_solved_is_zero) in I. discriminate I.
Qed.

Lemma size_ok p t : right_table p t -> correct_cache_size (total_of p) t = true.
Proof. intros R. unfold correct_cache_size. rewrite total_path, (right_length p t R). apply N.eqb_refl. Qed.

(** Two processes write the edge table at the same time. The first has written two bytes
    when the second empties the file; then the first writes the rest and the second is
    stopped. The file now has the right length and two zeros at the start; a third process
    accepts it, and so does every later one. *)
Definition torn (te : list N) : list N := repeat 0%N 2 ++ skipn 2 te.
Ltac look R := match type of R with sys_reach (mkSys ?f ?p) => pose (fs := f); pose (procs := p) end.
Ltac next R := clear R; match goal with R' : sys_reach _ |- _ => rename R' into R end; repeat match goal with x := _ : FS |- _ => subst x | x := _ : list Proc |- _ => subst x end;
  cbn [sy_fs sy_procs set_nth empty_fs make_dir add_inode set_link set_inode next_table fs_dir fs_edges fs_corners fs_inodes app length busy_with Nat.add] in R; rewrite ?skipn_O in R.
Lemma torn_schedule te tc : right_table EdgesPath te -> right_table CornersPath tc ->
  sys_reach (mkSys (mkFS true (Some 0) (Some 1) [(EdgesPath, torn te); (CornersPath, tc)]) [Stopped; Stopped; Returned (mkCache (torn te) tc)]).
Proof.
  intros Re Rc. pose proof (right_length _ _ Re) as Le. pose proof (right_length _ _ Rc) as Lc. cbn [path_total] in Le, Lc.
  assert (L2 : 2 < length te) by (change half_edge_states with 42577920%N in Le; lia).
  assert (L1 : 0 < length tc) by (change corner_states with 88179840%N in Lc; lia).
  assert (TL : length (torn te) = length te) by (unfold torn; rewrite app_length, repeat_length, skipn_length; lia).
  pose proof (size_ok _ _ Re) as Se. pose proof (size_ok _ _ Rc) as Sc.
  assert (St : correct_cache_size (total_of EdgesPath) (torn te) = true) by (unfold correct_cache_size in *; rewrite TL; exact Se).
  clear Le Lc. apply built_right in Re, Rc.
  assert (Do : forall fs procs n pr fs' pr', sys_reach (mkSys fs procs) -> nth_error procs n = Some pr -> proc_step fs pr fs' pr' ->
     sys_reach (mkSys fs' (set_nth procs n pr'))).
  { intros fs procs n pr fs' pr' R H S. exact (sys_reach_step _ _ R (sys_proc fs procs n pr fs' pr' H S)). }
  pose proof (sys_reach_step _ _ sys_reach_init (sys_start _ _ DoInit)) as R.
  pose proof (sys_reach_step _ _ R (sys_start _ _ DoInit)) as R'; clear R; rename R' into R.
  pose proof (sys_reach_step _ _ R (sys_start _ _ DoInit)) as R'; clear R; rename R' into R. cbn [app] in R.
  assert (W0 : write_at [] 0 (firstn 2 te) = firstn 2 te).
  { unfold write_at. cbn [firstn length Nat.sub repeat app]. rewrite skipn_nil, app_nil_r. reflexivity. }
  assert (F2 : length (firstn 2 te) = 2) by (rewrite firstn_length; lia).
  assert (FA : firstn (length te) (skipn 2 te) = skipn 2 te) by (apply firstn_all2; rewrite skipn_length; lia).
  assert (W2 : write_at [] 2 (skipn 2 te) = torn te).
  { unfold write_at, torn. cbn [firstn length Nat.sub app]. rewrite skipn_nil, app_nil_r. reflexivity. }
  assert (W3 : write_at [] 0 (firstn (length tc) tc) = tc).
  { unfold write_at. cbn [firstn length Nat.sub repeat app]. rewrite skipn_nil, app_nil_r. apply firstn_all. }
  (* both find no file and build *)
  look R. pose proof (Do fs procs 0 _ _ _ R eq_refl (step_build fs None te eq_refl Re Se)) as R'; next R.
  look R. pose proof (Do fs procs 1 _ _ _ R eq_refl (step_build fs None te eq_refl Re Se)) as R'; next R.
  (* the first makes the directory, creates the file and writes two bytes *)
  look R. pose proof (Do fs procs 0 _ _ _ R eq_refl (step_no_dir fs DoInit None te eq_refl)) as R'; next R.
  look R. pose proof (Do fs procs 0 _ _ _ R eq_refl (step_mkdir fs DoInit None te)) as R'; next R.
  look R. pose proof (Do fs procs 0 _ _ _ R eq_refl (step_create fs DoInit None te true eq_refl eq_refl)) as R'; next R.
  look R. pose proof (Do fs procs 0 _ _ _ R eq_refl (step_write fs DoInit None te 0 0 EdgesPath [] 2 eq_refl ltac:(lia) ltac:(lia))) as R'; next R.
  cbn [sy_fs sy_procs set_nth empty_fs make_dir add_inode set_link set_inode fs_dir fs_edges fs_corners fs_inodes app length busy_with Nat.add] in R.
  rewrite W0, F2 in R.
  (* the second empties it *)
  look R. pose proof (Do fs procs 1 _ _ _ R eq_refl (step_truncate fs DoInit None te false 0 EdgesPath (firstn 2 te) eq_refl eq_refl)) as R'; next R.
  (* the first writes the rest *)
  look R. pose proof (Do fs procs 0 _ _ _ R eq_refl (step_write fs DoInit None te 0 2 EdgesPath [] (length te) eq_refl ltac:(lia) L2)) as R'; next R.
  cbn [sy_fs sy_procs set_nth set_inode fs_dir fs_edges fs_corners fs_inodes] in R. rewrite FA, W2 in R.
  look R. pose proof (Do fs procs 0 _ _ _ R eq_refl (step_stop fs DoInit None _)) as R'; next R.
  look R. pose proof (Do fs procs 1 _ _ _ R eq_refl (step_stop fs DoInit None _)) as R'; next R.
  (* the third reads it *)
  look R. pose proof (Do fs procs 2 _ _ _ R eq_refl (step_found fs DoInit None 0 eq_refl)) as R'; next R.
  look R. pose proof (Do fs procs 2 _ _ _ R eq_refl (step_read fs DoInit None 0 [] EdgesPath (torn te) (length (torn te)) eq_refl)) as R'; next R.
  cbn [sy_fs sy_procs set_nth set_inode fs_dir fs_edges fs_corners fs_inodes app length] in R. rewrite firstn_all in R.
  look R. pose proof (Do fs procs 2 _ _ _ R eq_refl (step_loaded fs DoInit None 0 (torn te) EdgesPath (torn te) eq_refl (Nat.le_refl _) St)) as R'; next R.
  (* and makes the corner table *)
  look R. pose proof (Do fs procs 2 _ _ _ R eq_refl (step_build fs (Some (torn te)) tc eq_refl Rc Sc)) as R'; next R.
  look R. pose proof (Do fs procs 2 _ _ _ R eq_refl (step_create fs DoInit (Some (torn te)) tc false eq_refl eq_refl)) as R'; next R.
  look R. pose proof (Do fs procs 2 _ _ _ R eq_refl (step_write fs DoInit (Some (torn te)) tc 1 0 CornersPath [] (length tc) eq_refl L1 L1)) as R'; next R.
  cbn [sy_fs sy_procs set_nth add_inode set_link set_inode fs_dir fs_edges fs_corners fs_inodes app length busy_with Nat.add] in R.
  rewrite W3, firstn_all in R.
  look R. pose proof (Do fs procs 2 _ _ _ R eq_refl (step_written fs DoInit (Some (torn te)) tc 1 (length tc) (Nat.le_refl _))) as R'; next R.
  exact R.
Qed.
(** So [Cache::init] can return an incomplete table, to that process and to all later ones. *)
Theorem C53_exact_refuted : exists s ca te, sys_reach s /\ In (Returned ca) (sy_procs s) /\ ~ complete_cache ca /\
  (forall pr, In pr (sy_procs s) -> forall g e st, pr <> Running g e st) /\
  fs_inodes (sy_fs s) = [(EdgesPath, te); (CornersPath, ca_corners ca)] /\
  fs_link (sy_fs s) EdgesPath = Some 0 /\ fs_link (sy_fs s) CornersPath = Some 1 /\
  rn_result (cache_init no_faults no_faults (mkDisk true (Some te) (Some (ca_corners ca)))) = Done (Ok ca).
Proof.
  destruct (right_ex EdgesPath) as (te & Re). destruct (right_ex CornersPath) as (tc & Rc).
  exists (mkSys (mkFS true (Some 0) (Some 1) [(EdgesPath, torn te); (CornersPath, tc)]) [Stopped; Stopped; Returned (mkCache (torn te) tc)]),
         (mkCache (torn te) tc), (torn te).
  split; [exact (torn_schedule te tc Re Rc)|]. split; [cbn; auto|]. split.
  { intros [X _]. cbn [ca_edges] in X. pose proof (right_unique EdgesPath _ _ X Re) as T.
    destruct (second_entry te Re) as (v & V & NZ). rewrite <- T in V. cbn in V. injection V as <-. exact (NZ eq_refl). }
  split; [intros pr [<-|[<-|[<-|[]]]]; discriminate|]. split; [reflexivity|]. split; [reflexivity|]. split; [reflexivity|].
  assert (L : forall p d b, file d p = Some b -> N.of_nat (length b) = path_total p -> forall t,
    load_or_build_partial p (path_total p) t no_faults d = mkRun [] (Done (Ok b))).
  { intros p d b E S t. unfold load_or_build_partial, load_partial, fs_read, correct_cache_size. cbn [ft_read no_faults]. rewrite E, S, N.eqb_refl. reflexivity. }
  assert (TL : N.of_nat (length (torn te)) = path_total EdgesPath).
  { rewrite <- (right_length _ _ Re). unfold torn. rewrite app_length, repeat_length, skipn_length.
    pose proof (right_length _ _ Re) as X. change (path_total EdgesPath) with 42577920%N in X. lia. }
  cbn [ca_corners]. set (d := mkDisk true (Some (torn te)) (Some tc)).
  unfold cache_init. cbn [rn_result]. rewrite (load_or_build_eq no_faults no_faults d te tc Re Rc).
  rewrite (L EdgesPath d (torn te) eq_refl TL). unfold run_bind at 1. cbn [rn_result rn_trace].
  change (final_disk d _) with d. rewrite (L CornersPath d tc eq_refl (right_length _ _ Rc)). reflexivity.
Qed.

Ltac look2 R := match type of R with calm_reach (mkSys ?f _) /\ _ => pose (fs := f) end.
(** A process that runs alone and is not stopped: both files are complete, and the process
    has the complete tables. *)
Example C53_example : exists s ca, (calm_reach s /\ kept_run sys_init s) /\ In (Returned ca) (sy_procs s) /\ complete_cache ca /\
  fs_link (sy_fs s) EdgesPath = Some 0 /\ fs_link (sy_fs s) CornersPath = Some 1 /\
  (forall g e t i off, ~ In (Running g e (Writing t i off)) (sy_procs s)).
Proof.
  destruct (right_ex EdgesPath) as (te & Re). destruct (right_ex CornersPath) as (tc & Rc).
  exists (mkSys (mkFS true (Some 0) (Some 1) [(EdgesPath, te); (CornersPath, tc)]) [Returned (mkCache te tc)]), (mkCache te tc).
  split; [|split; [left; reflexivity|split; [split; assumption|split; [reflexivity|split; [reflexivity|intros g e t i off [X|[]]; discriminate X]]]]].
  pose proof (right_length _ _ Re) as Le. pose proof (right_length _ _ Rc) as Lc. cbn [path_total] in Le, Lc.
  assert (L2 : 0 < length te) by (change half_edge_states with 42577920%N in Le; lia).
  assert (L1 : 0 < length tc) by (change corner_states with 88179840%N in Lc; lia).
  pose proof (size_ok _ _ Re) as Se. pose proof (size_ok _ _ Rc) as Sc.
  clear Le Lc. apply built_right in Re, Rc.
  assert (Do : forall fs pr fs' pr', calm_reach (mkSys fs [pr]) /\ kept_run sys_init (mkSys fs [pr]) -> proc_step fs pr fs' pr' -> pr' <> Stopped ->
    calm_reach (mkSys fs' [pr']) /\ kept_run sys_init (mkSys fs' [pr'])).
  { intros fs pr fs' pr' [R K] S NS. split; [|refine (kept_step _ _ _ K (sys_proc fs [pr] 0 pr fs' pr' eq_refl S) _);
      intros (p & X & _ & Y); cbn [sy_fs] in *; rewrite (proc_step_links _ _ _ _ p S X) in Y; exact (X Y)].
    refine (calm_step _ _ R (sys_proc fs [pr] 0 pr fs' pr' eq_refl S) _).
    intros (n & g & e & t & i & off & _ & X). destruct n as [|n]; cbn in X; [injection X; exact NS|destruct n; discriminate X]. }
  assert (W : forall t, write_at [] 0 (firstn (length t) t) = t).
  { intros t. unfold write_at. cbn [firstn length Nat.sub repeat app]. rewrite skipn_nil, app_nil_r. apply firstn_all. }
  assert (R : calm_reach (mkSys empty_fs [Running DoInit None OpenRead]) /\ kept_run sys_init (mkSys empty_fs [Running DoInit None OpenRead])).
  { split; [|refine (kept_step _ _ _ (kept_start _) (sys_start _ _ DoInit) _); intros (p & X & _); destruct p; exact (X eq_refl)]. refine (calm_step _ _ calm_init (sys_start _ _ DoInit) _). intros (n & g & e & t & i & off & X & _). destruct n; discriminate X. }
  look2 R. pose proof (Do fs _ _ _ R (step_build fs None te eq_refl Re Se) ltac:(discriminate)) as R1; subst fs.
  look2 R1. pose proof (Do fs _ _ _ R1 (step_no_dir fs DoInit None te eq_refl) ltac:(discriminate)) as R2; subst fs.
  look2 R2. pose proof (Do fs _ _ _ R2 (step_mkdir fs DoInit None te) ltac:(discriminate)) as R3; subst fs.
  look2 R3. pose proof (Do fs _ _ _ R3 (step_create fs DoInit None te true eq_refl eq_refl) ltac:(discriminate)) as R4; subst fs.
  look2 R4. pose proof (Do fs _ _ _ R4 (step_write fs DoInit None te 0 0 EdgesPath [] (length te) eq_refl L2 L2) ltac:(discriminate)) as R5; subst fs.
  cbn [make_dir empty_fs add_inode set_link set_inode busy_with fs_dir fs_edges fs_corners fs_inodes app length set_nth Nat.add] in R5.
  rewrite skipn_O, W, firstn_all in R5.
  look2 R5. pose proof (Do fs _ _ _ R5 (step_written fs DoInit None te 0 (length te) (Nat.le_refl _)) ltac:(discriminate)) as R6; subst fs. cbn [next_table] in R6.
  look2 R6. pose proof (Do fs _ _ _ R6 (step_build fs (Some te) tc eq_refl Rc Sc) ltac:(discriminate)) as R7; subst fs.
  look2 R7. pose proof (Do fs _ _ _ R7 (step_create fs DoInit (Some te) tc false eq_refl eq_refl) ltac:(discriminate)) as R8; subst fs.
  look2 R8. pose proof (Do fs _ _ _ R8 (step_write fs DoInit (Some te) tc 1 0 CornersPath [] (length tc) eq_refl L1 L1) ltac:(discriminate)) as R9; subst fs.
  cbn [add_inode set_link set_inode busy_with fs_dir fs_edges fs_corners fs_inodes app length set_nth Nat.add] in R9.
  rewrite skipn_O, W, firstn_all in R9.
  look2 R9. exact (Do fs _ _ _ R9 (step_written fs DoInit (Some te) tc 1 (length tc) (Nat.le_refl _)) ltac:(discriminate)).
Qed.
(** The hypotheses of the C52 theorems are met: a process that has returned, and a turned cube. *)
Example C52_example : exists s ca, sys_reach s /\ In (Returned ca) (sy_procs s) /\
  exists c, fold_left cube3_apply [mkMove fR Single; mkMove fU Inverse] c = cube3_solved /\ cube_well_formed Size3 c /\ invariants c.
Proof.
  destruct C53_example as (s & ca & [R _] & I & _). exists s, ca. split; [exact (calm_reachable s R)|]. split; [exact I|].
  exists (fold_left cube3_apply [mkMove fU Single; mkMove fR Inverse] cube3_solved).
  assert (E : fold_left cube3_apply [mkMove fR Single; mkMove fU Inverse] (fold_left cube3_apply [mkMove fU Single; mkMove fR Inverse] cube3_solved) = cube3_solved) by (vm_compute; reflexivity).
  split; [exact E|]. exact (solved_well_formed _ _ E).
Qed.
Print Assumptions C52_entries_right_or_zero.
Print Assumptions C52_never_overestimates.
Print Assumptions C52_solutions_optimal.
Print Assumptions C53_quiet_files_partial.
Print Assumptions C53_exact_refuted.
Print Assumptions C53_files_stay_partial.
Print Assumptions C53_files_left_partial.

(** When a big cube can be turned until [is_solved] is true: pieces of one colour look alike. *)

From Coq Require Import List Bool Arith NArith ZArith Lia Permutation.
From Verif Require Import Model_Base Model_Space Model_Moves Model_Pieces Model_PieceSet Model_Cubes
  Model_Visual Spec_Moves Spec_Geometry Spec_Sets Spec_Invariants Spec_BigLaws
  Proof_Moves Proof_Sets Proof_Stickers Proof_Parity Proof_Invariants Proof_BigSolve Proof_BigLaws.
Import ListNotations.
Open Scope nat_scope.

(* ------------------------------------------------------------------ *)
(** * Centre wings *)

Definition cw_run (al : list WideAxisMove) (p : CenterWing) : CenterWing := fold_left (fun p w => mo_act cw_mover 1 2 2 p w) al p.
Lemma cw_run_hand al : forall p, right_handed (cw_run al p) = right_handed p.
Proof.
  induction al as [|w al IH]; intros p; [reflexivity|]. change (cw_run (w :: al) p) with (cw_run al (mo_act cw_mover 1 2 2 p w)).
  rewrite IH. apply right_handed_move.
Qed.
Lemma cws_run al : forall s, fold_left (cws_apply 1 2 2) al s = map (cw_run al) s.
Proof.
  induction al as [|w al IH]; intros s; [symmetry; apply map_id|]. cbn [fold_left]. rewrite IH.
  change (cws_apply 1 2 2 s w) with (map (fun p => mo_act cw_mover 1 2 2 p w) s). rewrite map_map. reflexivity.
Qed.
Lemma wings6_turned al : forall c, c6_center_wings (turned Size6 c al) = map (cw_run al) (c6_center_wings c).
Proof. intros c. rewrite <- cws_run. revert c. induction al as [|w al IH]; intros c; [reflexivity|]. exact (IH (cube6_apply_wide c w)). Qed.
Lemma wings7_turned al : forall c, c7_center_wings (turned Size7 c al) = map (cw_run al) (c7_center_wings c).
Proof. intros c. rewrite <- cws_run. revert c. induction al as [|w al IH]; intros c; [reflexivity|]. exact (IH (cube7_apply_wide c w)). Qed.

Lemma count_map {R} (P : R -> bool) (Q : CenterWing -> bool) g : (forall p, Q (g p) = Q p) -> forall (r : list R) s,
  length (filter (fun x => P (fst x) && Q (snd x)) (combine r (map g s))) = length (filter (fun x => P (fst x) && Q (snd x)) (combine r s)).
Proof.
  intros H r. induction r as [|a r IH]; intros [|p s]; try reflexivity. cbn [map combine filter fst snd]. rewrite H.
  destruct (P a && Q p); cbn [length]; rewrite IH; reflexivity.
Qed.
Lemma balanced_run al s : hands_balanced (map (cw_run al) s) <-> hands_balanced s.
Proof.
  split; intros H f; specialize (H f).
  - rewrite (count_map (fun o => face_eqb (ce_main (cw_edge o)) f) right_handed (cw_run al) (cw_run_hand al)) in H. exact H.
  - rewrite (count_map (fun o => face_eqb (ce_main (cw_edge o)) f) right_handed (cw_run al) (cw_run_hand al)). exact H.
Qed.

Lemma filter_at_most {A} (f : A -> bool) l : length (filter f l) <= length l.
Proof. induction l as [|x l IH]; cbn; [lia|]. destruct (f x); cbn; lia. Qed.
Lemma filter_perm_length {A} (f : A -> bool) l l' : Permutation l l' -> length (filter f l) = length (filter f l').
Proof. induction 1; cbn; repeat (destruct (f _); cbn); lia. Qed.
Lemma forallb_perm {A} (f : A -> bool) l l' : Permutation l l' -> forallb f l = forallb f l'.
Proof. induction 1; cbn; [reflexivity|rewrite IHPermutation; reflexivity|destruct (f x), (f y); reflexivity|congruence]. Qed.

Lemma balanced_solved s : set_valid cw_desc s -> set_is_solved cw_desc s = true -> hands_balanced s.
Proof.
  intros V S f.
  assert (E : forall r s, length s = length r -> forallb (fun x => cw_is_solved (snd x) (fst x)) (combine r s) = true ->
    length (filter (fun x => face_eqb (ce_main (cw_edge (fst x))) f && right_handed (snd x)) (combine r s))
    = length (filter (fun p => face_eqb (ce_main (cw_edge p)) f && right_handed p) s)).
  { clear. induction r as [|o r IH]; intros [|p s] L H; try discriminate L; [reflexivity|]. cbn [combine forallb fst snd] in H.
    apply andb_true_iff in H as [H1 H2]. unfold cw_is_solved in H1. apply face_eqb_eq in H1. cbn [combine filter fst snd]. rewrite H1.
    destruct (face_eqb (ce_main (cw_edge o)) f && right_handed p); cbn [length]; rewrite IH; auto. }
  rewrite E.
  - pose proof (set_valid_perm _ cw_desc_ok s V) as P. change (map (pd_position cw_desc) s) with (map (fun c : CenterWing => c) s) in P.
    rewrite map_id in P. rewrite (filter_perm_length _ _ _ P). change (pd_reference cw_desc) with cw_solved.
    destruct f as [[] []]; vm_compute; reflexivity.
  - exact (proj1 V).
  - exact S.
Qed.

(** Rearranging the pieces that stand at places of one colour. *)
Definition cw_colors : list Face := map (fun c => ce_main (cw_edge c)) cw_solved.
(** The same pieces, in another order among the places of each colour. *)
Definition alike (s s' : list CenterWing) : Prop :=
  length s = 48 /\ length s' = 48 /\ Permutation (combine cw_colors s) (combine cw_colors s').
Lemma combine_snd {A B} (a : list A) (b : list B) : length b = length a -> map snd (combine a b) = b.
Proof. revert b. induction a as [|x a IH]; intros [|y b] L; try discriminate; [reflexivity|]. cbn. f_equal. apply IH. cbn in L. lia. Qed.
Lemma alike_perm s s' : alike s s' -> Permutation s s'.
Proof.
  intros (L & L' & P). rewrite <- (combine_snd cw_colors s), <- (combine_snd cw_colors s') by assumption. apply Permutation_map, P.
Qed.
Lemma combine_map_right {A B} (g : B -> B) (a : list A) b : combine a (map g b) = map (fun x => (fst x, g (snd x))) (combine a b).
Proof. revert b. induction a as [|x a IH]; intros [|y b]; try reflexivity. cbn. f_equal. apply IH. Qed.
Lemma combine_map_left {A B C} (g : A -> C) (a : list A) (b : list B) : combine (map g a) b = map (fun x => (g (fst x), snd x)) (combine a b).
Proof. revert b. induction a as [|x a IH]; intros [|y b]; try reflexivity. cbn. f_equal. apply IH. Qed.
Lemma alike_map g s s' : alike s s' -> alike (map g s) (map g s').
Proof.
  intros (L & L' & P). unfold alike. rewrite !map_length, !combine_map_right. split; [exact L|]. split; [exact L'|]. apply Permutation_map, P.
Qed.
Lemma forallb_map {A B} (g : A -> B) (f : B -> bool) l : forallb f (map g l) = forallb (fun x => f (g x)) l.
Proof. induction l as [|x l IH]; [reflexivity|]. cbn. rewrite IH. reflexivity. Qed.
Lemma alike_is_solved s s' : alike s s' -> set_is_solved cw_desc s = set_is_solved cw_desc s'.
Proof.
  intros (_ & _ & P). pose proof (forallb_perm (fun x => face_eqb (ce_main (cw_edge (snd x))) (fst x)) _ _ P) as E.
  unfold cw_colors in E. rewrite !combine_map_left, !forallb_map in E. exact E.
Qed.

Section Deal.
Context {A : Type}.
Definition at_color (h : A -> bool) (f : Face) (x : Face * A) : bool := face_eqb (fst x) f && h (snd x).
Lemma swap_in (f : Face) (p q : A) : forall C s, length s = length C -> In (f, q) (combine C s) ->
  exists s1, length s1 = length C /\ Permutation ((f, p) :: combine C s) ((f, q) :: combine C s1).
Proof.
  induction C as [|g C IH]; intros [|r s] L I; try discriminate L; [destruct I|]. cbn [combine] in I. destruct I as [I|I].
  - inversion I; subst g r. exists (p :: s). split; [exact L|]. apply perm_swap.
  - destruct (IH s) as (s1 & L1 & P); [cbn in L; lia|exact I|]. exists (r :: s1). split; [cbn; lia|]. cbn [combine].
    transitivity ((g, r) :: (f, p) :: combine C s); [apply perm_swap|].
    transitivity ((g, r) :: (f, q) :: combine C s1); [apply perm_skip, P|apply perm_swap].
Qed.
Lemma pattern_at_most (f : Face) : forall C (pat : list bool), length pat = length C ->
  length (filter (fun x => face_eqb (fst x) f && snd x) (combine C pat)) <= length (filter (fun g => face_eqb g f) C).
Proof.
  induction C as [|g C IH]; intros [|x pat] L; try discriminate L; [auto|]. cbn [combine filter fst snd].
  specialize (IH pat ltac:(cbn in L; lia)). destruct (face_eqb g f), x; cbn [andb length]; lia.
Qed.
Lemma some_other (h : A -> bool) (f : Face) : forall C s, length s = length C ->
  length (filter (at_color h f) (combine C s)) < length (filter (fun g => face_eqb g f) C) ->
  exists q, In (f, q) (combine C s) /\ h q = false.
Proof.
  induction C as [|g C IH]; intros [|r s] L H; try discriminate L; [cbn in H; lia|]. cbn [combine filter] in H.
  unfold at_color at 1 in H. cbn [fst snd] in H. destruct (face_eqb g f) eqn:E.
  - apply face_eqb_eq in E. subst g. destruct (h r) eqn:Hr; cbn [andb length] in H.
    + destruct (IH s) as (q & I & Q); [cbn in L; lia|lia|]. exists q. split; [right; exact I|exact Q].
    + exists r. split; [left; reflexivity|exact Hr].
  - cbn [andb] in H. destruct (IH s) as (q & I & Q); [cbn in L; lia|exact H|]. exists q. split; [right; exact I|exact Q].
Qed.
Lemma deal (h : A -> bool) : forall C s (pat : list bool), length s = length C -> length pat = length C ->
  (forall f, length (filter (at_color h f) (combine C s)) = length (filter (fun x => face_eqb (fst x) f && snd x) (combine C pat))) ->
  exists s', length s' = length C /\ Permutation (combine C s) (combine C s') /\ map h s' = pat.
Proof.
  induction C as [|f C IH]; intros [|p s] [|x pat] L LP H; try discriminate; [exists []; auto|]. cbn [length] in L, LP.
  assert (S : exists q s1, h q = x /\ length s1 = length C /\ Permutation ((f, p) :: combine C s) ((f, q) :: combine C s1)).
  { destruct (bool_dec (h p) x) as [E|E]; [exists p, s; split; [exact E|]; split; [lia|reflexivity]|].
    assert (S : exists q, In (f, q) (combine C s) /\ h q = x).
    { specialize (H f). cbn [combine filter] in H. unfold at_color at 1 in H. cbn [fst snd] in H.
      rewrite (proj2 (face_eqb_eq f f) eq_refl) in H. cbn [andb] in H. destruct x.
      - destruct (h p); [congruence|]. cbn [length] in H.
        destruct (filter (at_color h f) (combine C s)) as [|[g q] r] eqn:F; [discriminate H|].
        assert (I : In (g, q) (filter (at_color h f) (combine C s))) by (rewrite F; left; reflexivity).
        apply filter_In in I as [I Q]. unfold at_color in Q. cbn [fst snd] in Q. apply andb_true_iff in Q as [Q1 Q2].
        apply face_eqb_eq in Q1. subst g. exists q. auto.
      - destruct (h p); [|congruence]. cbn [length] in H. pose proof (pattern_at_most f C pat ltac:(lia)) as M.
        destruct (some_other h f C s ltac:(lia) ltac:(lia)) as (q & I & Q). exists q. auto. }
    destruct S as (q & I & Q). destruct (swap_in f p q C s ltac:(lia) I) as (s1 & L1 & P). exists q, s1. auto. }
  destruct S as (q & s1 & Q & L1 & P). destruct (IH s1 pat L1 ltac:(lia)) as (s' & L' & P' & M).
  { intros g. specialize (H g). cbn [combine] in H. rewrite (filter_perm_length _ _ _ P) in H. cbn [filter] in H.
    unfold at_color at 1 in H. cbn [fst snd] in H. rewrite Q in H. destruct (face_eqb f g && x); cbn [length] in H; lia. }
  exists (q :: s'). split; [cbn; lia|]. split; [|cbn; rewrite Q, M; reflexivity].
  cbn [combine]. etransitivity; [exact P|]. apply perm_skip, P'.
Qed.
End Deal.

Lemma filter_map {B C} (g : B -> C) (f : C -> bool) l : filter f (map g l) = map g (filter (fun x => f (g x)) l).
Proof. induction l as [|x l IH]; [reflexivity|]. cbn. destruct (f (g x)); cbn; rewrite IH; reflexivity. Qed.
Lemma regroup_wings s : length s = 48 -> hands_balanced s -> exists s', alike s s' /\ hands_kept s'.
Proof.
  intros L H. destruct (deal right_handed cw_colors s (map right_handed cw_solved)) as (s' & L' & P & M).
  - exact L.
  - reflexivity.
  - intros f. specialize (H f). unfold cw_colors. rewrite combine_map_left, filter_map, map_length. unfold at_color. cbn [fst snd].
    transitivity 4; [exact H|]. destruct f as [[] []]; vm_compute; reflexivity.
  - exists s'. split; [|exact M]. split; [exact L|]. split; [exact L'|exact P].
Qed.

(* ------------------------------------------------------------------ *)
(** * Centre edges *)

Lemma match_table : forallb (fun e0 => forallb (fun e => forallb (fun p => if negb (near e e0 p) then true else
   existsb (fun home => showsb e0 e home p && forallb (fun y => if face_eqb (fst y) (ce_main p) then face_eqb (snd y) (ce_main home) else true) (edge_colors e e0))
   ce_solved) ce_solved) all_edges) edge_reference = true.
Proof. vm_compute. reflexivity. Qed.
Lemma match_home e0 e p col other : In (ce_main p, col) (edge_colors e e0) -> In (ce_side_face p, other) (edge_colors e e0) ->
  exists home, ce_main home = col /\ shows e0 e home p.
Proof.
  intros H1 H2. pose proof match_table as T. rewrite forallb_forall in T. specialize (T e0 (edgepos_in_reference e0)).
  rewrite forallb_forall in T. specialize (T e (all_edges_complete e)). rewrite forallb_forall in T. specialize (T p (ce_in_solved p)).
  assert (N : near e e0 p = true).
  { unfold near. apply andb_true_iff. split; apply existsb_exists.
    - eexists. split; [exact H1|]. apply face_eqb_eq. reflexivity.
    - eexists. split; [exact H2|]. apply face_eqb_eq. reflexivity. }
  rewrite N in T. cbn [negb] in T. apply existsb_exists in T as (home & _ & T). apply andb_true_iff in T as [T1 T2].
  exists home. split; [|apply showsb_spec, T1]. rewrite forallb_forall in T2. specialize (T2 _ H1). cbn [fst snd] in T2.
  rewrite (proj2 (face_eqb_eq _ _) eq_refl) in T2. symmetry. apply face_eqb_eq, T2.
Qed.
Lemma matches_move nd mx es ces w : (nd <= mx)%N -> matches_edges es ces ->
  matches_edges (edge_set_apply es (w_move w)) (ces_apply nd mx ces w).
Proof.
  intros L F home p I. apply In_nth_error in I as (i & Hi). apply combine_nth_error in Hi as [H1 H2].
  change (ces_apply nd mx ces w) with (map (fun x => mo_act ce_mover nd 0 mx x w) ces) in H2. rewrite nth_error_map in H2.
  destruct (nth_error ces i) as [q|] eqn:Q; [|discriminate]. cbn in H2. inversion H2; subst p.
  destruct (F home q) as (e0 & e & other & I' & S1 & S2). { apply nth_error_In with (n := i), combine_nth_error. auto. }
  destruct (match_home e0 e q _ _ S1 S2) as (home' & M & S). apply (shows_move _ _ _ _ (w_move w)) in S.
  apply In_nth_error in I' as (j & Hj). apply combine_nth_error in Hj as [J1 J2].
  exists e0, (edge_apply e (w_move w)), (ce_side_face home'). split.
  - apply nth_error_In with (n := j), combine_nth_error. split; [exact J1|]. unfold edge_set_apply. rewrite nth_error_map, J2. reflexivity.
  - rewrite (ce_act_any nd mx w q L), <- M. exact S.
Qed.

Lemma own_colors_table : forallb (fun e0 => forallb (fun y => face_eqb (fst y) (snd y)) (edge_colors (edge_oriented e0) e0)) edge_reference = true.
Proof. vm_compute. reflexivity. Qed.
Lemma matches_solved ces : matches_edges edge_solved ces <->
  forall home p, In (home, p) (combine ce_solved ces) -> ce_main p = ce_main home.
Proof.
  split; intros F home p I.
  - destruct (F home p I) as (e0 & e & other & I' & S1 & _).
    assert (E : e = edge_oriented e0).
    { apply In_nth_error in I' as (j & Hj). apply combine_nth_error in Hj as [J1 J2]. unfold edge_solved in J2.
      rewrite nth_error_map, J1 in J2. cbn in J2. congruence. }
    subst e. pose proof own_colors_table as T. rewrite forallb_forall in T. specialize (T e0 (edgepos_in_reference e0)).
    rewrite forallb_forall in T. apply face_eqb_eq, (T _ S1).
  - pose proof follows_here_table as T. rewrite forallb_forall in T. specialize (T p (ce_in_solved p)).
    apply existsb_exists in T as (e0 & _ & S). apply showsb_spec in S. destruct S as [S1 S2]. exists e0, (edge_oriented e0), (ce_side_face p).
    split; [|split; [rewrite <- (F home p I); exact S1|exact S2]].
    pose proof (edgepos_in_reference e0) as J. apply In_nth_error in J as (j & Hj). apply nth_error_In with (n := j), combine_nth_error.
    split; [exact Hj|]. unfold edge_solved. rewrite nth_error_map, Hj. reflexivity.
Qed.
Lemma ce_set_solved ces : set_is_solved ce_desc ces = true <-> forall home p, In (home, p) (combine ce_solved ces) -> ce_main p = ce_main home.
Proof.
  unfold set_is_solved, iter_with_pos. change (pd_reference ce_desc) with ce_solved. rewrite forallb_forall. split.
  - intros H home p I. specialize (H _ I). cbn [fst snd] in H. apply face_eqb_eq. exact H.
  - intros H [home p] I. cbn [fst snd]. apply face_eqb_eq, (H home p I).
Qed.

(** The pieces of a 7x7x7 as one type, the words of Data_Big checked on it, and solving by
    three-cycles. *)

From Coq Require Import List Bool Arith NArith ZArith Lia Permutation.
From Verif Require Import Model_Base Model_Space Model_Moves Model_Pieces Model_PieceSet Model_Cubes
  Model_Visual Spec_Moves Spec_Geometry Spec_Sets Spec_Invariants Spec_BigLaws
  Proof_Moves Proof_Sets Proof_Parity Proof_Invariants Proof_Sort Data_Big.
Import ListNotations.
Open Scope nat_scope.

(* ------------------------------------------------------------------ *)
(** * Pieces of all kinds *)

Inductive Cubie :=
| QCorner (p : Corner) | QEdge (p : Edge) | QWing1 (p : Wing) | QWing2 (p : Wing)
| QCC1 (p : CenterCorner) | QCC2 (p : CenterCorner) | QCW (p : CenterWing)
| QCE1 (p : CenterEdge) | QCE2 (p : CenterEdge).

Definition act (q : Cubie) (w : WideAxisMove) : Cubie :=
  match q with
  | QCorner p => QCorner (corner_apply p (w_move w))
  | QEdge p => QEdge (edge_apply p (w_move w))
  | QWing1 p => QWing1 (mo_act wing_mover 1 0 2 p w)
  | QWing2 p => QWing2 (mo_act wing_mover 2 0 2 p w)
  | QCC1 p => QCC1 (mo_act cc_mover 1 0 2 p w)
  | QCC2 p => QCC2 (mo_act cc_mover 2 0 2 p w)
  | QCW p => QCW (mo_act cw_mover 1 2 2 p w)
  | QCE1 p => QCE1 (mo_act ce_mover 1 0 2 p w)
  | QCE2 p => QCE2 (mo_act ce_mover 2 0 2 p w)
  end.

Lemma act_inverse q w : act (act q w) (wide_inverse w) = q.
Proof.
  destruct q; cbn [act]; f_equal; try apply mo_act_inverse.
  - destruct w as [d m]. apply corner_apply_inverse.
  - destruct w as [d m]. apply edge_apply_inverse.
Qed.

(** The orbits: pieces that can change places. *)
Definition kind (q : Cubie) : nat :=
  match q with
  | QCorner _ => 0 | QEdge _ => 1 | QWing1 _ => 2 | QWing2 _ => 3 | QCC1 _ => 4 | QCC2 _ => 5
  | QCW p => if right_handed p then 7 else 6
  | QCE1 _ => 8 | QCE2 _ => 9
  end.

Lemma right_handed_move p w nd td mx : right_handed (mo_act cw_mover nd td mx p w) = right_handed p.
Proof.
  unfold mo_act, wide_act. cbn [mo_in mo_rot cw_mover]. destruct (cw_in_wide p nd td mx w); [|reflexivity].
  destruct w as [d [[[] []] []]], p as [[[[] []] [] []] []]; reflexivity.
Qed.
Lemma kind_act q w : kind (act q w) = kind q.
Proof. destruct q; cbn [act kind]; try reflexivity. rewrite right_handed_move. reflexivity. Qed.

Definition run (al : list WideAxisMove) (q : Cubie) : Cubie := fold_left act al q.
Lemma run_app a b q : run (a ++ b) q = run b (run a q).
Proof. apply fold_left_app. Qed.
Lemma run_cons w al q : run (w :: al) q = run al (act q w).
Proof. reflexivity. Qed.
Lemma kind_run al : forall q, kind (run al q) = kind q.
Proof. induction al as [|w al IH]; intros q; [reflexivity|]. rewrite run_cons, IH. apply kind_act. Qed.

Definition undo (al : list WideAxisMove) : list WideAxisMove := rev (map wide_inverse al).
Lemma run_undo al : forall q, run (undo al) (run al q) = q.
Proof.
  induction al as [|w al IH]; intros q; [reflexivity|]. unfold undo. cbn [map rev]. rewrite run_cons, run_app.
  fold (undo al). rewrite IH. cbn. apply act_inverse.
Qed.
Lemma wide_inverse_twice w : wide_inverse (wide_inverse w) = w.
Proof. destruct w as [d [f []]]; reflexivity. Qed.
Lemma undo_twice al : undo (undo al) = al.
Proof.
  unfold undo. rewrite map_rev, rev_involutive, map_map. rewrite <- (map_id al) at 2. apply map_ext. apply wide_inverse_twice.
Qed.
Lemma undo_run al q : run al (run (undo al) q) = q.
Proof. rewrite <- (undo_twice al) at 1. apply run_undo. Qed.
Lemma undo_length al : length (undo al) = length al.
Proof. unfold undo. rewrite rev_length, map_length. reflexivity. Qed.

Definition deep (w : WideAxisMove) : Prop := (w_depth w <= 2)%N.
Lemma deep_undo al : Forall deep al -> Forall deep (undo al).
Proof.
  intros F. unfold undo. apply Forall_rev. rewrite Forall_map. eapply Forall_impl; [|exact F]. intros [d m]. exact (fun H => H).
Qed.

(* ------------------------------------------------------------------ *)
(** * The words of Data_Big *)

Definition wide_of_code (k : nat) : WideAxisMove :=
  mkWide (N.of_nat (k / 18)) (nth (k mod 18) all_moves (mkMove fR Single)).
Definition word (l : list nat) : list WideAxisMove := map wide_of_code l.

Lemma wide_of_code_depth k : k < 54 -> deep (wide_of_code k).
Proof. intros H. unfold deep, wide_of_code. cbn [w_depth]. assert (k / 18 < 3) by (apply Nat.div_lt_upper_bound; lia). lia. Qed.

Definition orbit (k : nat) : list Cubie :=
  match k with
  | 2 => map QWing1 wing_solved | 3 => map QWing2 wing_solved
  | 4 => map QCC1 cc_solved | 5 => map QCC2 cc_solved
  | 6 => map QCW (filter (same_hand false) cw_solved)
  | 7 => map QCW (filter (same_hand true) cw_solved)
  | _ => []
  end.
Definition cycle_of (k : nat) : list nat :=
  match k with
  | 2 => wings_1_cycle | 3 => wings_2_cycle | 4 => center_corners_1_cycle | 5 => center_corners_2_cycle
  | 6 => center_wings_l_cycle | _ => center_wings_r_cycle
  end.
Definition setups_of (k : nat) : list (list nat) :=
  match k with
  | 2 => wings_1_setups | 3 => wings_2_setups | 4 => center_corners_1_setups | 5 => center_corners_2_setups
  | 6 => center_wings_l_setups | _ => center_wings_r_setups
  end.

(** All pieces in all states. *)
Definition all_cubies : list Cubie :=
  map QCorner (flat_map (fun p => map (mkCorner p) [AX; AY; AZ]) corner_reference) ++
  map QEdge (flat_map (fun p => [mkEdge (fst p) (snd p) true; mkEdge (fst p) (snd p) false]) edge_reference) ++
  map QWing1 wing_solved ++ map QWing2 wing_solved ++ map QCC1 cc_solved ++ map QCC2 cc_solved ++
  map QCW cw_solved ++ map QCE1 ce_solved ++ map QCE2 ce_solved.
Lemma all_cubies_complete q : In q all_cubies.
Proof.
  unfold all_cubies. rewrite !in_app_iff. destruct q as [p|p|p|p|p|p|p|p|p].
  - left. apply in_map. apply in_flat_map. exists (c_pos p). split; [apply vec3_in_reference|].
    destruct p as [p []]; cbn; auto.
  - right; left. apply in_map. apply in_flat_map. exists (edge_position p). split; [apply edgepos_in_reference|].
    destruct p as [a s []]; cbn; auto.
  - do 2 right; left. apply in_map, wing_in_solved.
  - do 3 right; left. apply in_map, wing_in_solved.
  - do 4 right; left. apply in_map, cc_in_solved.
  - do 5 right; left. apply in_map, cc_in_solved.
  - do 6 right; left. apply in_map, cw_in_solved.
  - do 7 right; left. apply in_map, ce_in_solved.
  - do 8 right. apply in_map, ce_in_solved.
Qed.

Definition cubie_eqb (a b : Cubie) : bool :=
  match a, b with
  | QCorner p, QCorner q => corner_eqb p q
  | QEdge p, QEdge q => edge_eqb p q
  | QWing1 p, QWing1 q => wing_eqb p q
  | QWing2 p, QWing2 q => wing_eqb p q
  | QCC1 p, QCC1 q => cc_eqb p q
  | QCC2 p, QCC2 q => cc_eqb p q
  | QCW p, QCW q => cw_eqb p q
  | QCE1 p, QCE1 q => ce_eqb p q
  | QCE2 p, QCE2 q => ce_eqb p q
  | _, _ => false
  end.
Lemma cubie_eqb_eq a b : cubie_eqb a b = true <-> a = b.
Proof.
  destruct a, b; cbn [cubie_eqb]; try (split; [discriminate|intros; discriminate]);
    rewrite ?corner_eqb_eq, ?edge_eqb_eq, ?wing_eqb_eq, ?cc_eqb_eq, ?ce_eqb_eq, ?cw_eqb_eq; split; congruence.
Qed.

Definition at_place (k i : nat) : Cubie := nth i (orbit k) (QCE1 (mkCE fR Positive Positive)).
Definition place_of (k : nat) (q : Cubie) : nat := place cubie_eqb (orbit k) q.

Definition orbits : list nat := [2; 3; 4; 5; 6; 7].

(** The orbits have 24 places. *)
Lemma orbit_length k : In k orbits -> length (orbit k) = 24.
Proof. cbn. intros [<-|[<-|[<-|[<-|[<-|[<-|[]]]]]]]; reflexivity. Qed.
Lemma orbit_kind : forallb (fun k => forallb (fun q => Bool.eqb (existsb (cubie_eqb q) (orbit k)) (kind q =? k)) all_cubies) orbits = true.
Proof. vm_compute. reflexivity. Qed.
Lemma in_orbit k q : In k orbits -> In q (orbit k) <-> kind q = k.
Proof.
  intros K. pose proof orbit_kind as T. rewrite forallb_forall in T. specialize (T k K). rewrite forallb_forall in T.
  specialize (T q (all_cubies_complete q)). apply eqb_prop in T. rewrite <- Nat.eqb_eq, <- T, existsb_exists. split.
  - intros H. exists q. split; [exact H|apply cubie_eqb_eq; reflexivity].
  - intros (x & H & E). apply cubie_eqb_eq in E. subst x. exact H.
Qed.

Lemma place_spec {A} (eqb : A -> A -> bool) (H : forall a b, eqb a b = true <-> a = b) l x d :
  In x l -> place eqb l x < length l /\ nth (place eqb l x) l d = x.
Proof.
  intros I. unfold place. destruct (find_index _ l) as [i|] eqn:F.
  - apply find_index_Some in F as (a & Ha & E & _). apply H in E. subst a.
    split; [apply nth_error_Some; congruence|apply nth_error_nth, Ha].
  - rewrite find_index_None in F. specialize (F x I). rewrite (proj2 (H x x) eq_refl) in F. discriminate.
Qed.
Lemma place_of_spec k q : In k orbits -> kind q = k -> place_of k q < 24 /\ at_place k (place_of k q) = q.
Proof. intros K H. rewrite <- (orbit_length k K). apply place_spec; [apply cubie_eqb_eq|]. apply in_orbit; assumption. Qed.

Lemma orbit_places : forallb (fun k => list_eqb Nat.eqb (map (place_of k) (orbit k)) (seq 0 24)) orbits = true.
Proof. vm_compute. reflexivity. Qed.
Lemma orbit_place k : In k orbits -> map (place_of k) (orbit k) = seq 0 24.
Proof.
  intros K. pose proof orbit_places as T. rewrite forallb_forall in T. specialize (T k K).
  apply (list_eqb_eq _ Nat.eqb_eq) in T. exact T.
Qed.
Lemma place_at k i : In k orbits -> i < 24 -> place_of k (at_place k i) = i.
Proof.
  intros K H. pose proof (orbit_place k K) as E. apply (f_equal (fun l => nth i l 0)) in E.
  rewrite seq_nth in E by exact H. cbn in E. rewrite <- E at 2.
  rewrite (nth_indep _ 0 (place_of k (QCE1 (mkCE fR Positive Positive)))) by (rewrite map_length, orbit_length; assumption).
  rewrite map_nth. reflexivity.
Qed.
Lemma at_place_kind k i : In k orbits -> i < 24 -> kind (at_place k i) = k.
Proof. intros K H. apply in_orbit; [exact K|]. apply nth_In. rewrite orbit_length; assumption. Qed.

(** The cycle of each orbit moves no other piece. *)
Lemma cycle_pure_table :
  forallb (fun k => forallb (fun q => (kind q =? k) || cubie_eqb (run (word (cycle_of k)) q) q) all_cubies) orbits = true.
Proof. vm_compute. reflexivity. Qed.
Lemma cycle_pure k q : In k orbits -> kind q <> k -> run (word (cycle_of k)) q = q.
Proof.
  intros K H. pose proof cycle_pure_table as T. rewrite forallb_forall in T. specialize (T k K). rewrite forallb_forall in T.
  specialize (T q (all_cubies_complete q)). apply orb_true_iff in T as [T|T]; [apply Nat.eqb_eq in T; contradiction|].
  apply cubie_eqb_eq, T.
Qed.

(** Conjugated by its setups it is the three-cycle of the places 0, 1 and [c]. *)
Definition conjugate (k c : nat) : list WideAxisMove :=
  let s := word (nth (c - 2) (setups_of k) []) in undo s ++ word (cycle_of k) ++ s.
Definition step_word (k : nat) (o : nat * bool) : list WideAxisMove :=
  if snd o then conjugate k (fst o) else undo (conjugate k (fst o)).

Lemma conjugate_table :
  forallb (fun k => forallb (fun c => forallb (fun i =>
    cubie_eqb (run (conjugate k c) (at_place k i)) (at_place k (three c i))) (seq 0 24)) (seq 2 22)) orbits = true.
Proof. vm_compute. reflexivity. Qed.
Lemma conjugate_three k c i : In k orbits -> 2 <= c < 24 -> i < 24 ->
  run (conjugate k c) (at_place k i) = at_place k (three c i).
Proof.
  intros K C I. pose proof conjugate_table as T. rewrite forallb_forall in T. specialize (T k K). rewrite forallb_forall in T.
  specialize (T c ltac:(apply in_seq; lia)). rewrite forallb_forall in T. specialize (T i ltac:(apply in_seq; lia)).
  apply cubie_eqb_eq, T.
Qed.
Lemma conjugate_pure k c q : In k orbits -> kind q <> k -> run (conjugate k c) q = q.
Proof.
  intros K H. unfold conjugate. set (s := word _). rewrite !run_app. rewrite cycle_pure; [apply undo_run|exact K|].
  rewrite kind_run. exact H.
Qed.

Lemma step_word_at k o i : In k orbits -> step_ok o -> i < 24 -> run (step_word k o) (at_place k i) = at_place k (step o i).
Proof.
  intros K O I. unfold step_word, step. destruct o as [c []]; unfold step_ok in O; cbn [fst snd] in *.
  - apply conjugate_three; assumption.
  - assert (E : run (conjugate k c) (at_place k (three_back c i)) = at_place k i).
    { rewrite conjugate_three; auto.
      - f_equal. unfold three_back. nat_cases; unfold three; nat_cases; lia.
      - unfold three_back. nat_cases; lia. }
    rewrite <- E. apply run_undo.
Qed.
Lemma step_word_pure k o q : In k orbits -> kind q <> k -> run (step_word k o) q = q.
Proof.
  intros K H. unfold step_word. destruct (snd o); [apply conjugate_pure; assumption|].
  rewrite <- (conjugate_pure k (fst o) q K H) at 1. apply run_undo.
Qed.

Lemma words_small :
  forallb (fun k => forallb (fun l => forallb (fun x => x <? 54) l && (length l <=? 4)) (setups_of k)
    && forallb (fun x => x <? 54) (cycle_of k) && (length (cycle_of k) <=? 12)) orbits = true.
Proof. vm_compute. reflexivity. Qed.
Lemma word_deep l : forallb (fun x => x <? 54) l = true -> Forall deep (word l).
Proof.
  intros H. unfold word. rewrite Forall_map. apply Forall_forall. intros x Hx. rewrite forallb_forall in H. specialize (H x Hx).
  apply Nat.ltb_lt in H. apply wide_of_code_depth, H.
Qed.
Lemma conjugate_small k c : In k orbits -> Forall deep (conjugate k c) /\ length (conjugate k c) <= 20.
Proof.
  intros K. pose proof words_small as T. rewrite forallb_forall in T. specialize (T k K).
  apply andb_true_iff in T as [T T3]. apply andb_true_iff in T as [T1 T2]. apply Nat.leb_le in T3.
  assert (S : forallb (fun x => x <? 54) (nth (c - 2) (setups_of k) []) = true /\ length (nth (c - 2) (setups_of k) []) <= 4).
  { destruct (nth_in_or_default (c - 2) (setups_of k) []) as [I|E].
    - rewrite forallb_forall in T1. specialize (T1 _ I). apply andb_true_iff in T1 as [A B]. apply Nat.leb_le in B. auto.
    - rewrite E. cbn. auto with arith. }
  destruct S as [S1 S2]. unfold conjugate. split.
  - apply Forall_app; split; [apply deep_undo, word_deep, S1|]. apply Forall_app; split; apply word_deep; assumption.
  - rewrite !app_length, undo_length. unfold word. rewrite !map_length. lia.
Qed.
Lemma step_word_small k o : In k orbits -> Forall deep (step_word k o) /\ length (step_word k o) <= 20.
Proof.
  intros K. destruct (conjugate_small k (fst o) K) as [D L]. unfold step_word. destruct (snd o); [auto|].
  split; [apply deep_undo, D|rewrite undo_length; exact L].
Qed.

Definition steps_word (k : nat) (os : list (nat * bool)) : list WideAxisMove := flat_map (step_word k) os.
Lemma steps_word_at k os : In k orbits -> Forall step_ok os -> forall i, i < 24 ->
  run (steps_word k os) (at_place k i) = at_place k (steps os i).
Proof.
  intros K F. induction F as [|o os O F IH]; intros i I; [reflexivity|].
  unfold steps_word. cbn [flat_map]. rewrite run_app, step_word_at by assumption. fold (steps_word k os).
  rewrite IH by (apply step_range; assumption). reflexivity.
Qed.
Lemma steps_word_pure k os q : In k orbits -> kind q <> k -> run (steps_word k os) q = q.
Proof.
  intros K H. induction os as [|o os IH]; [reflexivity|]. unfold steps_word. cbn [flat_map].
  rewrite run_app, step_word_pure by assumption. exact IH.
Qed.
Lemma steps_word_small k os : In k orbits -> Forall deep (steps_word k os) /\ length (steps_word k os) <= 20 * length os.
Proof.
  intros K. induction os as [|o os [IH1 IH2]]; [split; [constructor|cbn; lia]|]. unfold steps_word. cbn [flat_map].
  destruct (step_word_small k o K) as [D L]. split; [apply Forall_app; auto|]. rewrite app_length. cbn [length].
  fold (steps_word k os). lia.
Qed.

(* ------------------------------------------------------------------ *)
(** * Sorting an orbit *)

Definition of_kind (k : nat) (l : list Cubie) : list Cubie := filter (fun q => kind q =? k) l.
Definition places (k : nat) (l : list Cubie) : list nat := map (place_of k) (of_kind k l).

Lemma of_kind_map k (f : Cubie -> Cubie) l : (forall q, kind (f q) = kind q) -> of_kind k (map f l) = map f (of_kind k l).
Proof.
  intros H. unfold of_kind. induction l as [|q l IH]; [reflexivity|]. cbn [map filter]. rewrite H, IH.
  destruct (kind q =? k); reflexivity.
Qed.
Lemma of_kind_run k al l : of_kind k (map (run al) l) = map (run al) (of_kind k l).
Proof. apply of_kind_map, kind_run. Qed.
Lemma of_kind_in k l q : In q (of_kind k l) -> kind q = k.
Proof. unfold of_kind. rewrite filter_In, Nat.eqb_eq. tauto. Qed.

Lemma sort_orbit k l : In k orbits -> Permutation (places k l) (seq 0 24) -> odd_inv (places k l) = false ->
  exists al, Forall deep al /\ length al <= 880 /\ of_kind k (map (run al) l) = orbit k /\
    forall q, kind q <> k -> run al q = q.
Proof.
  intros K P E. destruct (sort_even _ P E) as (os & F & L & M). exists (steps_word k os).
  destruct (steps_word_small k os K) as [D S]. split; [exact D|]. split; [lia|]. split.
  - rewrite of_kind_run.
    assert (Hm : map (fun q => at_place k (steps os (place_of k q))) (of_kind k l) = map (at_place k) (seq 0 24)).
    { rewrite <- M. unfold places. rewrite !map_map. reflexivity. }
    transitivity (map (at_place k) (seq 0 24)).
    + rewrite <- Hm. apply map_ext_in. intros q Hq. apply of_kind_in in Hq. destruct (place_of_spec k q K Hq) as [I A].
      rewrite <- A at 1. apply steps_word_at; assumption.
    + rewrite <- (orbit_place k K), map_map. rewrite <- (map_id (orbit k)) at 2. apply map_ext_in. intros q Hq.
      apply in_orbit in Hq; [|exact K]. apply place_of_spec; assumption.
  - intros q Hq. apply steps_word_pure; assumption.
Qed.

(** Sorting several orbits one after another. *)
Lemma sort_orbits ks : NoDup ks -> incl ks orbits -> forall l,
  (forall k, In k ks -> Permutation (places k l) (seq 0 24) /\ odd_inv (places k l) = false) ->
  exists al, Forall deep al /\ length al <= 880 * length ks /\
    (forall k, In k ks -> of_kind k (map (run al) l) = orbit k) /\
    forall q, ~ In (kind q) ks -> run al q = q.
Proof.
  intros N. induction N as [|k ks Hk N IH]; intros I l H.
  - exists []. split; [constructor|]. split; [cbn; lia|]. split; [intros k []|reflexivity].
  - assert (K : In k orbits) by (apply I; left; reflexivity).
    destruct (H k (or_introl eq_refl)) as [P E]. destruct (sort_orbit k l K P E) as (al & D & L & S & U).
    assert (Same : forall j, j <> k -> of_kind j (map (run al) l) = of_kind j l).
    { intros j Hj. rewrite of_kind_run. rewrite <- (map_id (of_kind j l)) at 2. apply map_ext_in. intros q Hq.
      apply of_kind_in in Hq. apply U. congruence. }
    destruct (IH (fun j Hj => I j (or_intror Hj)) (map (run al) l)) as (bl & D' & L' & S' & U').
    { intros j Hj. assert (j <> k) by (intros ->; contradiction). unfold places. rewrite (Same j H0).
      apply (H j (or_intror Hj)). }
    assert (MM : map (run (al ++ bl)) l = map (run bl) (map (run al) l)).
    { rewrite map_map. apply map_ext. intros q. apply run_app. }
    exists (al ++ bl). split; [apply Forall_app; auto|]. split; [rewrite app_length; cbn [length]; lia|]. split.
    + intros j [<-|Hj]; rewrite MM; [|apply S', Hj].
      rewrite of_kind_run, S. rewrite <- (map_id (orbit k)) at 2. apply map_ext_in. intros q Hq. apply U'.
      apply in_orbit in Hq; [|exact K]. rewrite Hq. exact Hk.
    + intros q Hq. rewrite run_app, U, U'; [reflexivity| |]; intros X; apply Hq; [right; exact X|left; congruence].
Qed.

(** Two lists with the same kinds that agree kind by kind. *)
Lemma kind_small q : kind q < 10.
Proof. destruct q as [p|p|p|p|p|p|p|p|p]; cbn [kind]; try destruct (right_handed p); lia. Qed.
Lemma kinds_eq l1 : forall l2, map kind l1 = map kind l2 -> (forall k, k < 10 -> of_kind k l1 = of_kind k l2) -> l1 = l2.
Proof.
  induction l1 as [|a l1 IH]; intros [|b l2] E H; try discriminate E; [reflexivity|]. cbn in E. inversion E as [[E1 E2]].
  pose proof (H (kind a) (kind_small a)) as Ha. unfold of_kind in Ha. cbn [filter] in Ha. rewrite <- E1, Nat.eqb_refl in Ha. inversion Ha; subst b.
  f_equal. apply IH; [exact E2|]. intros k Hk. specialize (H k Hk). unfold of_kind in H. cbn [filter] in H.
  unfold of_kind. destruct (kind a =? k); [congruence|exact H].
Qed.

(* ------------------------------------------------------------------ *)
(** * Parities *)

Definition orbit_fun (k : nat) (w : WideAxisMove) (i : nat) : nat := place_of k (act (at_place k i) w).

Lemma places_act k w l : In k orbits -> places k (map (fun q => act q w) l) = map (orbit_fun k w) (places k l).
Proof.
  intros K. unfold places. rewrite (of_kind_map k (fun q => act q w) l) by (intros q; apply kind_act). rewrite !map_map.
  apply map_ext_in. intros q Hq. apply of_kind_in in Hq. destruct (place_of_spec k q K Hq) as [_ A]. unfold orbit_fun.
  rewrite A. reflexivity.
Qed.

(** Whether a quarter turn with the given depth is odd on the orbit. *)
Definition odd_depth (k : nat) (d : N) : bool :=
  match k with
  | 2 => (1 <=? d)%N | 3 => (2 <=? d)%N | 4 | 5 => true
  | _ => xorb true (xorb (1 <=? d) (2 <=? d))%N
  end.
Definition all_wide : list WideAxisMove := flat_map (fun d => map (mkWide d) all_moves) [0; 1; 2]%N.
Lemma all_wide_complete w : deep w -> In w all_wide.
Proof.
  destruct w as [d m]. unfold deep. cbn [w_depth]. intros H. unfold all_wide. apply in_flat_map. exists d. split.
  - assert (d = 0 \/ d = 1 \/ d = 2)%N as [->|[->| ->]] by lia; cbn; auto.
  - apply in_map. destruct m as [[[] []] []]; cbn; tauto.
Qed.
Lemma orbit_sign_table : forallb (fun k => forallb (fun w =>
  Bool.eqb (odd_inv (map (orbit_fun k w) (seq 0 24))) (odd_depth k (w_depth w) && odd_move (w_move w))) all_wide) orbits = true.
Proof. vm_compute. reflexivity. Qed.
Lemma orbit_sign k w : In k orbits -> deep w ->
  odd_inv (map (orbit_fun k w) (seq 0 24)) = odd_depth k (w_depth w) && odd_move (w_move w).
Proof.
  intros K H. pose proof orbit_sign_table as T. rewrite forallb_forall in T. specialize (T k K). rewrite forallb_forall in T.
  specialize (T w (all_wide_complete w H)). apply eqb_prop, T.
Qed.

Lemma orbit_fun_inj k w i j : In k orbits -> i < 24 -> j < 24 -> orbit_fun k w i = orbit_fun k w j -> i = j.
Proof.
  intros K I J E. unfold orbit_fun in E.
  assert (A : forall i, i < 24 -> at_place k (place_of k (act (at_place k i) w)) = act (at_place k i) w).
  { intros x Hx. apply place_of_spec; [exact K|]. rewrite kind_act. apply at_place_kind; assumption. }
  apply (f_equal (at_place k)) in E. rewrite !A in E by assumption. apply (f_equal (fun q => act q (wide_inverse w))) in E.
  rewrite !act_inverse in E. apply (f_equal (place_of k)) in E. rewrite !place_at in E by assumption. exact E.
Qed.
Lemma places_perm_act k w l : In k orbits -> Permutation (places k l) (seq 0 24) ->
  Permutation (places k (map (fun q => act q w) l)) (seq 0 24).
Proof.
  intros K P. rewrite places_act by exact K. apply NoDup_Permutation_bis.
  - assert (B : forall x, In x (places k l) -> x < 24) by (intros x Hx; apply (Permutation_in _ P), in_seq in Hx; lia).
    pose proof (cyc_nodup _ _ P) as N. clear P. induction (places k l) as [|x r IH]; [constructor|]. inversion N; subst.
    cbn [map]. constructor; [|apply IH; auto; intros y Hy; apply B; right; exact Hy].
    rewrite in_map_iff. intros (y & E & Hy). apply orbit_fun_inj in E; auto using in_eq, in_cons. subst. contradiction.
  - rewrite map_length, (Permutation_length P), seq_length. lia.
  - intros x Hx. apply in_map_iff in Hx as (y & <- & Hy). apply (Permutation_in _ P), in_seq in Hy. apply in_seq. split; [lia|].
    cbn. unfold orbit_fun. apply place_of_spec; [exact K|]. rewrite kind_act. apply at_place_kind; [exact K|lia].
Qed.
Lemma parity_act k w l : In k orbits -> deep w -> Permutation (places k l) (seq 0 24) ->
  odd_inv (places k (map (fun q => act q w) l)) = xorb (odd_depth k (w_depth w) && odd_move (w_move w)) (odd_inv (places k l)).
Proof.
  intros K D P. pose proof (places_perm_act k w l K P) as P'. rewrite places_act in * by exact K.
  assert (E := odd_inv_map (orbit_fun k w) _ _ P). rewrite orbit_sign in E by assumption.
  change (odd_inv (seq 0 24)) with false in E. rewrite xorb_false_r in E. rewrite <- E.
  - destruct (odd_inv (map _ _)), (odd_inv (places k l)); reflexivity.
  - apply (cyc_nodup _ _ P).
  - apply (cyc_nodup _ _ P').
Qed.

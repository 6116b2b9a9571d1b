(** After how many rounds an alg of wide moves comes back. *)

From Coq Require Import List Bool Arith NArith ZArith Lia Permutation.
From Coq Require Import ZifyBool ZifyN ZifyNat.
From Verif Require Import Model_Base Model_Space Model_Moves Model_Pieces Model_PieceSet Model_Cubes
  Spec_Moves Spec_Sets Spec_Invariants Spec_BigLaws Spec_Words Data_Rounds
  Proof_Moves Proof_Sets Proof_Parity Proof_Solve Proof_Invariants Proof_Random Proof_Stickers Proof_BigSolve Proof_BigLaws Proof_Words Proof_Orders.
Import Proof_BigSolve.
Import ListNotations.
Open Scope nat_scope.

(* ------------------------------------------------------------------ *)
(** * Every alg has a number of rounds *)

(** All pieces of the kinds of the size are back. *)
Definition kinds_back (n : CubeSize) (al : list WideAxisMove) (k : N) : Prop :=
  forall q, In (kind q) (kinds_of n) -> N.iter k (run al) q = q.
Definition kinds_backb (n : CubeSize) (al : list WideAxisMove) (k : N) : bool :=
  forallb (fun q => if inb (kind q) (kinds_of n) then cubie_eqb (N.iter k (run al) q) q else true) all_cubies.
Lemma kinds_backb_spec n al k : kinds_backb n al k = true <-> kinds_back n al k.
Proof.
  unfold kinds_backb, kinds_back. rewrite forallb_forall. split; intros H q Q.
  - specialize (H q (all_cubies_complete q)). apply inb_spec in Q. rewrite Q in H. apply cubie_eqb_eq, H.
  - destruct (inb (kind q) (kinds_of n)) eqn:E; [|reflexivity]. apply cubie_eqb_eq, H, inb_spec, E.
Qed.
Lemma kinds_back_cube n al k c : kinds_back n al k -> N.iter k (after_wide n al) c = c.
Proof. intros H. apply iter_same. intros q Q. apply H. eapply pieces_kind, Q. Qed.

(** A valid cube has a piece everywhere. *)
Lemma everywhere {P Pos} (d : PieceDesc P Pos) (s : list P) pos : one_piece_everywhere d s -> exists p, In p s /\ pd_position d p = pos.
Proof. intros [_ W]. destruct (W pos) as (i & p & I & E & _). exists p. split; [eapply nth_error_In, I|exact E]. Qed.
Lemma piece_in_cube n c q : cube_well_formed n c -> In (kind q) (kinds_of n) ->
  exists s, In s (pieces_of n c) /\ (q = s \/ q = twist s \/ q = twist (twist s)).
Proof.
  intros W K. unfold pieces_of, cubies.
  assert (C : set_valid corner_desc (c7_corners (as7 n c))) by apply (corners_valid n c W). apply (set_valid_spec _ corner_desc_ok) in C.
  destruct q as [p|p|p|p|p|p|p|p|p].
  - destruct (everywhere _ _ (c_pos p) C) as (s & S & E). exists (QCorner s). split; [rewrite !in_app_iff; left; apply in_map, S|].
    destruct (corner_same_place s p E) as [->|[->| ->]]; auto.
  - assert (V : one_piece_everywhere edge_desc (c7_edges (as7 n c))).
    { destruct n; cbn [kind kinds_of In] in K; try (clear - K; exfalso; intuition discriminate); cbn [cube_well_formed] in W; cbn [as7 c7_edges]; apply W. }
    destruct (everywhere _ _ (edge_position p) V) as (s & S & E). exists (QEdge s). split; [rewrite !in_app_iff; right; left; apply in_map, S|].
    destruct (edge_same_place s p E) as [->| ->]; auto.
  - assert (V : one_piece_everywhere wing_desc (c7_wings_1 (as7 n c))).
    { destruct n; cbn [kind kinds_of In] in K; try (clear - K; exfalso; intuition discriminate); cbn [cube_well_formed] in W; cbn [as7 c7_wings_1]; apply W. }
    destruct (everywhere _ _ p V) as (s & S & E). cbn in E. subst s. exists (QWing1 p). split; [|auto].
    rewrite !in_app_iff. do 2 right. left. apply in_map, S.
  - assert (V : one_piece_everywhere wing_desc (c7_wings_2 (as7 n c))).
    { destruct n; cbn [kind kinds_of In] in K; try (clear - K; exfalso; intuition discriminate); cbn [cube_well_formed] in W; cbn [as7 c7_wings_2]; apply W. }
    destruct (everywhere _ _ p V) as (s & S & E). cbn in E. subst s. exists (QWing2 p). split; [|auto].
    rewrite !in_app_iff. do 3 right. left. apply in_map, S.
  - assert (V : one_piece_everywhere cc_desc (c7_center_corners_1 (as7 n c))).
    { destruct n; cbn [kind kinds_of In] in K; try (clear - K; exfalso; intuition discriminate); cbn [cube_well_formed] in W; cbn [as7 c7_center_corners_1]; apply W. }
    destruct (everywhere _ _ p V) as (s & S & E). cbn in E. subst s. exists (QCC1 p). split; [|auto].
    rewrite !in_app_iff. do 4 right. left. apply in_map, S.
  - assert (V : one_piece_everywhere cc_desc (c7_center_corners_2 (as7 n c))).
    { destruct n; cbn [kind kinds_of In] in K; try (clear - K; exfalso; intuition discriminate); cbn [cube_well_formed] in W; cbn [as7 c7_center_corners_2]; apply W. }
    destruct (everywhere _ _ p V) as (s & S & E). cbn in E. subst s. exists (QCC2 p). split; [|auto].
    rewrite !in_app_iff. do 5 right. left. apply in_map, S.
  - assert (V : one_piece_everywhere cw_desc (c7_center_wings (as7 n c))).
    { cbn [kind] in K. destruct n; cbn [kinds_of In] in K; try (clear - K; exfalso; destruct (right_handed p); cbn [In] in K; intuition discriminate);
        cbn [cube_well_formed] in W; cbn [as7 c7_center_wings]; apply W. }
    destruct (everywhere _ _ p V) as (s & S & E). cbn in E. subst s. exists (QCW p). split; [|auto].
    rewrite !in_app_iff. do 6 right. left. apply in_map, S.
  - assert (V : one_piece_everywhere ce_desc (c7_center_edges_1 (as7 n c))).
    { destruct n; cbn [kind kinds_of In] in K; try (clear - K; exfalso; intuition discriminate); cbn [cube_well_formed] in W; cbn [as7 c7_center_edges_1]; apply W. }
    destruct (everywhere _ _ p V) as (s & S & E). cbn in E. subst s. exists (QCE1 p). split; [|auto].
    rewrite !in_app_iff. do 7 right. left. apply in_map, S.
  - assert (V : one_piece_everywhere ce_desc (c7_center_edges_2 (as7 n c))).
    { destruct n; cbn [kind kinds_of In] in K; try (clear - K; exfalso; intuition discriminate); cbn [cube_well_formed] in W; cbn [as7 c7_center_edges_2]; apply W. }
    destruct (everywhere _ _ p V) as (s & S & E). cbn in E. subst s. exists (QCE2 p). split; [|auto].
    rewrite !in_app_iff. do 8 right. apply in_map, S.
Qed.
Lemma cube_kinds_back n al k c : cube_well_formed n c -> N.iter k (after_wide n al) c = c -> kinds_back n al k.
Proof.
  intros W H q Q. rewrite iter_same in H. destruct (piece_in_cube n c q W Q) as (s & S & [->|[->| ->]]); rewrite <- ?twist_iter, (H s S); reflexivity.
Qed.
Lemma kinds_back_divide n al o k : (o | k)%N -> kinds_back n al o -> kinds_back n al k.
Proof. intros D H q Q. apply (iter_divide _ _ _ _ D), H, Q. Qed.
Lemma kinds_back_period n al : kinds_back n al (period_of_wide_algs n).
Proof.
  intros q Q. apply (proj1 (iter_from_solved n al (period_of_wide_algs n))); [|exact Q]. apply wide_period, N.divide_refl.
Qed.
Lemma period_positive n : (0 < period_of_wide_algs n)%N.
Proof. destruct n; reflexivity. Qed.
Lemma bounded_search (Q : N -> bool) p : (exists j, (0 < j < p)%N /\ Q j = true) \/ forall j, (0 < j < p)%N -> Q j = false.
Proof.
  induction p as [|p IH] using N.peano_ind; [right; lia|]. destruct IH as [(j & J & E)|F].
  - left. exists j. split; [lia|exact E].
  - destruct (N.eq_dec p 0) as [->|Z]; [right; lia|]. destruct (Q p) eqn:E.
    + left. exists p. split; [lia|exact E].
    + right. intros j J. destruct (N.eq_dec j p) as [->|D]; [exact E|apply F; lia].
Qed.
(** The first number that is enough divides all the others. *)
Lemma least_back (Q : N -> bool) (p : N) : (0 < p)%N -> Q p = true ->
  exists o, (0 < o)%N /\ Q o = true /\ forall j, (0 < j < o)%N -> Q j = false.
Proof.
  revert Q. induction p as [p IH] using (well_founded_induction N.lt_wf_0). intros Q P H.
  destruct (bounded_search Q p) as [(j & J & E)|F].
  - apply (IH j); [lia|lia|exact E].
  - exists p. split; [exact P|]. split; [exact H|exact F].
Qed.

Lemma wide_alg_order n al : exists o, (0 < o)%N /\ forall k, kinds_back n al k <-> (o | k)%N.
Proof.
  destruct (least_back (kinds_backb n al) (period_of_wide_algs n) (period_positive n)) as (o & O & B & M).
  { apply kinds_backb_spec, kinds_back_period. }
  apply kinds_backb_spec in B. exists o. split; [exact O|]. intros k. split; [|intros D; apply (kinds_back_divide n al o k D B)].
  intros H. apply N.mod_divide; [lia|]. destruct (N.eq_dec (k mod o) 0) as [Z|Z]; [exact Z|exfalso].
  assert (R : kinds_back n al (k mod o)) by (intros q Q; apply iter_mod; [lia|apply B, Q|apply H, Q]).
  apply kinds_backb_spec in R. rewrite M in R; [discriminate R|]. pose proof (N.mod_lt k o). lia.
Qed.

(* ------------------------------------------------------------------ *)
(** * The orbits of 24 pieces *)

(** For each place of the orbit where its piece goes. *)
Definition orbit_perm (k : nat) (al : list WideAxisMove) : list nat := places k (map (run al) (orbit k)).
Lemma orbit_of_kind k : In k orbits -> of_kind k (orbit k) = orbit k.
Proof. cbn. intros [<-|[<-|[<-|[<-|[<-|[<-|[]]]]]]]; vm_compute; reflexivity. Qed.
Lemma places_run_perm k al : In k orbits -> forall l, Permutation (places k l) (seq 0 24) -> Permutation (places k (map (run al) l)) (seq 0 24).
Proof.
  intros K. induction al as [|w al IH]; intros l P.
  - rewrite (map_ext (run []) (fun q => q)), map_id by reflexivity. exact P.
  - apply (places_perm_act k w l K), IH in P. rewrite map_map in P. exact P.
Qed.
Lemma orbit_perm_perm k al : In k orbits -> Permutation (orbit_perm k al) (seq 0 24).
Proof. intros K. apply places_run_perm; [exact K|]. unfold places. rewrite orbit_of_kind, orbit_place by exact K. apply Permutation_refl. Qed.
Lemma orbit_perm_nth k al q : In k orbits -> kind q = k -> place_of k (run al q) = fun_of (orbit_perm k al) (place_of k q).
Proof.
  intros K Q. destruct (place_of_spec k q K Q) as [B A]. unfold orbit_perm, places, fun_of. rewrite of_kind_run, orbit_of_kind, map_map by exact K.
  rewrite (nth_indep _ 0 (place_of k (run al (QCE1 (mkCE fR Positive Positive))))) by (rewrite map_length, orbit_length; assumption).
  rewrite (map_nth (fun x => place_of k (run al x))). unfold at_place in A. rewrite A. reflexivity.
Qed.
(** Centre corners are odd with the quarter turns. *)
Lemma act_cut_map w l : map (fun q => act q w) l = map (fun q => act q (cut w)) l.
Proof. apply map_ext. intros q. symmetry. apply act_cut. Qed.
Lemma cut_deep w : deep (cut w).
Proof. unfold deep, cut. cbn [w_depth]. lia. Qed.
Lemma center_parity al : forall l, Permutation (places 4 l) (seq 0 24) ->
  odd_inv (places 4 (map (run al) l)) = xorb (Nat.odd (total_turns (map w_move al))) (odd_inv (places 4 l)).
Proof.
  induction al as [|w al IH]; intros l P.
  - rewrite (map_ext (run []) (fun q => q)), map_id by reflexivity. change (Nat.odd (total_turns (map w_move []))) with false.
    destruct (odd_inv (places 4 l)); reflexivity.
  - assert (E : map (run (w :: al)) l = map (run al) (map (fun q => act q w) l)) by (rewrite map_map; reflexivity).
    assert (K : In 4 orbits) by (cbn; tauto).
    rewrite E, IH by (apply (places_perm_act 4 w l K P)). rewrite act_cut_map, parity_act by (try apply cut_deep; assumption).
    cbn [odd_depth andb cut w_move map].
    assert (O : Nat.odd (total_turns (w_move w :: map w_move al)) = xorb (odd_move (w_move w)) (Nat.odd (total_turns (map w_move al)))).
    { unfold total_turns. cbn [map list_sum fold_right]. rewrite Nat.odd_add. destruct w as [d [f []]]; reflexivity. }
    rewrite O. destruct (odd_move (w_move w)), (Nat.odd (total_turns (map w_move al))), (odd_inv (places 4 l)); reflexivity.
Qed.
Lemma center_perm_parity al : odd_inv (orbit_perm 4 al) = Nat.odd (total_turns (map w_move al)).
Proof.
  unfold orbit_perm. rewrite center_parity.
  - change (odd_inv (places 4 (orbit 4))) with (odd_inv (places 4 (orbit 4))). assert (X : odd_inv (places 4 (orbit 4)) = false) by (vm_compute; reflexivity).
    rewrite X. apply xorb_false_r.
  - unfold places. rewrite orbit_of_kind, orbit_place by (cbn; tauto). apply Permutation_refl.
Qed.
Lemma corner_set_run al : forall s, fold_left corner_set_apply al s = map (crun al) s.
Proof.
  induction al as [|m al IH]; intros s; [symmetry; apply map_id|]. cbn [fold_left]. rewrite IH. unfold corner_set_apply. rewrite map_map. reflexivity.
Qed.
Lemma corner_perm_parity al : odd_inv (corner_perm al) = Nat.odd (total_turns al).
Proof.
  unfold corner_perm. rewrite <- corner_set_run, corner_parity_after by apply solved_valid_c.
  assert (X : odd_inv (corner_permutation corner_solved) = false) by (vm_compute; reflexivity). rewrite X. apply xorb_false_r.
Qed.

(** When the pieces of an orbit are back. *)
Definition kind_back (k : nat) (al : list WideAxisMove) (j : nat) : Prop := forall q, kind q = k -> Nat.iter j (run al) q = q.
Lemma orbit_iter k al j q : In k orbits -> kind q = k ->
  (place_of k (Nat.iter j (run al) q), 0) = Nat.iter j (round 1 (orbit_perm k al) (repeat 0 24)) (place_of k q, 0).
Proof.
  intros K Q. induction j as [|j IH]; [reflexivity|]. rewrite !niter_S, <- IH. unfold round. cbn [fst snd].
  rewrite Nat.mod_1_r, <- orbit_perm_nth; [reflexivity|exact K|]. rewrite iter_run_kind. exact Q.
Qed.
Lemma orbit_back k al j : In k orbits -> all_back 24 1 (orbit_perm k al) (repeat 0 24) j -> kind_back k al j.
Proof.
  intros K H q Q. destruct (place_of_spec k q K Q) as [B A].
  assert (Q' : kind (Nat.iter j (run al) q) = k) by (rewrite iter_run_kind; exact Q).
  destruct (place_of_spec k _ K Q') as [_ A']. pose proof (orbit_iter k al j q K Q) as E. rewrite H in E by lia. injection E as E.
  rewrite <- A', E, A. reflexivity.
Qed.

(* ------------------------------------------------------------------ *)
(** * The largest orders *)

(** [o] divides an order of the list that has the same parity. *)
Definition covered (t : list (N * bool)) (o : N) (b : bool) : Prop := exists p, In p t /\ snd p = b /\ (o | fst p)%N.
Definition coveredb (t : list (N * bool)) (o : N) (b : bool) : bool :=
  existsb (fun p => if Bool.eqb (snd p) b then (fst p mod o =? 0)%N else false) t.
Lemma coveredb_spec t o b : o <> 0%N -> coveredb t o b = true -> covered t o b.
Proof.
  intros O H. apply existsb_exists in H as (p & I & H). exists p. split; [exact I|].
  destruct (Bool.eqb_spec (snd p) b) as [E|E]; [|discriminate H]. split; [exact E|]. apply N.mod_divide; [exact O|]. apply N.eqb_eq, H.
Qed.
Definition orbit_cover (k : nat) : list (N * bool) := nth k orbit_covers [].
Lemma covers_table : forallb (fun k => forallb (fun c => forallb (fun p : N * bool =>
  let o := N.lcm (N.of_nat c) (fst p) in
  if (o =? 0)%N then false else coveredb (orbit_cover k) o (xorb (snd p) (Nat.odd (S c)))) (orbit_cover (k - c))) (seq 1 k)) (seq 1 24) = true.
Proof. vm_compute. reflexivity. Qed.
Lemma covers_step k c p : 1 <= k <= 24 -> 1 <= c <= k -> In p (orbit_cover (k - c)) ->
  covered (orbit_cover k) (N.lcm (N.of_nat c) (fst p)) (xorb (snd p) (Nat.odd (S c))).
Proof.
  intros K C I. pose proof covers_table as T. rewrite forallb_forall in T. specialize (T k ltac:(apply in_seq; lia)).
  rewrite forallb_forall in T. specialize (T c ltac:(apply in_seq; lia)). rewrite forallb_forall in T. specialize (T p I). cbv zeta in T.
  destruct (N.eqb_spec (N.lcm (N.of_nat c) (fst p)) 0) as [E|E]; [discriminate T|]. apply coveredb_spec; assumption.
Qed.
Lemma profiles_inv m k p : In p (profiles m (S k)) -> exists c t p', 1 <= c <= S k /\ t < m /\ In p' (profiles m (S k - c)) /\ p = extend m (c, t) p'.
Proof.
  intros I. unfold profiles in I. cbn [tables hd] in I. rewrite (dedup_in _ profile_eqb_eq) in I. apply in_flat_map in I as ([c ps] & X & I).
  cbn [fst snd] in I. apply in_flat_map in I as (t & T & I). apply in_seq in T. apply in_map_iff in I as (p' & <- & I).
  destruct (In_nth _ _ (0, []) X) as (i & L & E). rewrite combine_length, seq_length, tables_length, Nat.min_id in L.
  rewrite combine_nth in E by (rewrite seq_length, tables_length; reflexivity). rewrite seq_nth, tables_nth in E by lia. injection E as <- <-.
  exists (1 + i), t, p'. split; [lia|]. split; [lia|]. split; [exact I|reflexivity].
Qed.
Lemma profiles_covered k : k <= 24 -> forall o b s, In (o, b, s) (profiles 1 k) -> covered (orbit_cover k) o b.
Proof.
  induction k as [k IH] using lt_wf_ind. intros K o b s I. destruct k as [|k].
  - destruct I as [I|[]]. injection I as <- <- <-. exists (1%N, false). split; [left; reflexivity|]. split; [reflexivity|apply N.divide_refl].
  - apply profiles_inv in I as (c & t & [[o' b'] s'] & C & T & I & E). cbn [extend fst snd] in E. injection E as E1 E2 _.
    assert (t = 0) by lia. subst t. destruct (IH (S k - c) ltac:(lia) ltac:(lia) o' b' s' I) as (p & P & B & D).
    destruct (covers_step (S k) c p ltac:(lia) C P) as (q & Q & B' & D'). exists q. split; [exact Q|]. split.
    + rewrite B', B. congruence.
    + apply N.divide_trans with (2 := D'). rewrite E1. unfold factor. cbn [Nat.eqb]. rewrite Nat.mul_1_r. apply N.lcm_least.
      * apply N.divide_lcm_l.
      * apply N.divide_trans with (1 := D), N.divide_lcm_r.
Qed.
Lemma orbit_order k al : In k orbits -> exists o b, In (o, b) (orbit_cover 24) /\ b = odd_inv (orbit_perm k al) /\
  forall j, (o | N.of_nat j)%N -> kind_back k al j.
Proof.
  intros K. destruct (round_order 24 1 _ (repeat 0 24) (orbit_perm_perm k al K) ltac:(tauto) eq_refl) as (o & I & B).
  destruct (profiles_covered 24 ltac:(lia) _ _ _ I) as ([o' b'] & P & E & D). cbn [fst snd] in *. exists o', b'. split; [exact P|]. split; [exact E|].
  intros j J. apply orbit_back; [exact K|]. apply B. apply N.divide_trans with (1 := D), J.
Qed.

(** Corners and edges. *)
Lemma corner_cover_table : forallb (fun p : Profile => if snd p =? 0 then
  if (fst (fst p) =? 0)%N then false else coveredb corner_cover (fst (fst p)) (snd (fst p)) else true) (profiles 3 8) = true.
Proof. vm_compute. reflexivity. Qed.
Lemma edge_cover_table : forallb (fun p : Profile => if snd p =? 0 then
  if (fst (fst p) =? 0)%N then false else coveredb edge_cover (fst (fst p)) (snd (fst p)) else true) (profiles 2 12) = true.
Proof. vm_compute. reflexivity. Qed.
Lemma cover_table_spec t l : forallb (fun p : Profile => if snd p =? 0 then
    if (fst (fst p) =? 0)%N then false else coveredb t (fst (fst p)) (snd (fst p)) else true) l = true ->
  forall o b, In (o, b, 0) l -> covered t o b.
Proof.
  intros T o b I. rewrite forallb_forall in T. specialize (T _ I). cbn [fst snd Nat.eqb] in T.
  destruct (N.eqb_spec o 0) as [E|E]; [discriminate T|]. apply coveredb_spec; assumption.
Qed.
Lemma corner_order al : exists o, In (o, Nat.odd (total_turns (map w_move al))) corner_cover /\ forall j, (o | N.of_nat j)%N -> kind_back 0 al j.
Proof.
  set (ml := map w_move al). destruct (laws_after ml) as (PC & _ & _ & SC & _).
  destruct (round_order 8 3 _ (corner_turns ml) PC ltac:(tauto) eq_refl) as (o & I & K). rewrite SC, corner_perm_parity in I.
  destruct (cover_table_spec _ _ corner_cover_table _ _ I) as ([o' b] & P & E & D). cbn [fst snd] in *. subst b. exists o'. split; [exact P|].
  intros j J q Q. destruct (small_cases q Q) as (p & ->). rewrite iter_corner. fold ml. f_equal. clear Q. revert p. apply corners_back, K.
  apply N.divide_trans with (1 := D), J.
Qed.
Lemma edge_order al : exists o, In (o, Nat.odd (total_turns (map w_move al))) edge_cover /\ forall j, (o | N.of_nat j)%N -> kind_back 1 al j.
Proof.
  set (ml := map w_move al). destruct (laws_after ml) as (_ & PE & B & _ & SE).
  destruct (round_order 12 2 _ (edge_turns ml) PE ltac:(tauto) eq_refl) as (o & I & K). rewrite SE, B, corner_perm_parity in I.
  destruct (cover_table_spec _ _ edge_cover_table _ _ I) as ([o' b] & P & E & D). cbn [fst snd] in *. subst b. exists o'. split; [exact P|].
  intros j J q Q. destruct (edge_cases q Q) as (p & ->). rewrite iter_edge. fold ml. f_equal. clear Q. revert p. apply edges_back, K.
  apply N.divide_trans with (1 := D), J.
Qed.
(** Centre edges go with the edges. *)
Lemma center_edge_table : forallb (fun w => forallb (fun q => cubie_eqb (leader (act q w)) (act (leader q) w)) (same_kind 8)) all_wide = true.
Proof. vm_compute. reflexivity. Qed.
Lemma center_edge_act q w : kind q = 8 -> leader (act q w) = act (leader q) w.
Proof.
  intros Q. rewrite <- (act_cut q w), <- (act_cut (leader q)). pose proof center_edge_table as T. rewrite forallb_forall in T.
  specialize (T _ (cut_in w)). rewrite forallb_forall in T. apply cubie_eqb_eq, T. apply filter_In. split; [apply all_cubies_complete|apply Nat.eqb_eq, Q].
Qed.
Lemma center_edge_run al : forall q, kind q = 8 -> leader (run al q) = run al (leader q).
Proof.
  induction al as [|w al IH]; intros q Q; [reflexivity|]. rewrite !run_cons, IH, center_edge_act by (rewrite ?kind_act; exact Q). reflexivity.
Qed.
Lemma center_edges_back al j : kind_back 1 al j -> kind_back 8 al j.
Proof.
  intros H q Q.
  assert (L : leader (Nat.iter j (run al) q) = Nat.iter j (run al) (leader q)).
  { clear H. induction j as [|j IH]; [reflexivity|]. rewrite !niter_S, center_edge_run, IH by (rewrite iter_run_kind; exact Q). reflexivity. }
  apply leader_inj; [rewrite iter_run_kind; reflexivity|]. rewrite L. apply H. rewrite leader_kind, Q. reflexivity.
Qed.

(** ** The bounds of each size *)
Lemma kinds_back_each n al k : (forall kd, In kd (kinds_of n) -> kind_back kd al (N.to_nat k)) -> kinds_back n al k.
Proof. intros H q Q. rewrite iter_fold. apply (H (kind q) Q), eq_refl. Qed.
Definition divides_one (l : list N) (o : N) : bool := if (o =? 0)%N then false else existsb (fun m => (m mod o =? 0)%N) l.
Lemma divides_one_spec l o : divides_one l o = true -> exists m, In m l /\ (o | m)%N.
Proof.
  unfold divides_one. destruct (N.eqb_spec o 0) as [E|E]; [discriminate|]. intros H. apply existsb_exists in H as (m & I & H).
  exists m. split; [exact I|]. apply N.mod_divide; [exact E|]. apply N.eqb_eq, H.
Qed.
Lemma corner_center_table : forallb (fun p : N * bool => forallb (fun q : N * bool =>
  if Bool.eqb (snd p) (snd q) then divides_one corner_center_cover (N.lcm (fst p) (fst q)) else true) (orbit_cover 24)) corner_cover = true.
Proof. vm_compute. reflexivity. Qed.
Lemma size4_table : forallb (fun o => forallb (fun p : N * bool => divides_one (longest_wide_rounds Size4) (N.lcm o (fst p))) (orbit_cover 24)) corner_center_cover = true.
Proof. vm_compute. reflexivity. Qed.
Lemma size5_table : forallb (fun p : N * bool => forallb (fun e : N * bool => if Bool.eqb (snd p) (snd e) then
    let o := N.lcm (fst p) (fst e) in
    forallb (fun q : N * bool => if Bool.eqb (snd p) (snd q) then divides_one (longest_wide_rounds Size5) (N.lcm o (fst q)) else true) (orbit_cover 24)
  else true) edge_cover) corner_cover = true.
Proof. vm_compute. reflexivity. Qed.
Lemma size2_table : forallb (fun p : N * bool => divides_one (longest_wide_rounds Size2) (fst p)) corner_cover = true.
Proof. vm_compute. reflexivity. Qed.
Lemma size3_table : forallb (fun p : N * bool => forallb (fun e : N * bool => if Bool.eqb (snd p) (snd e) then
    divides_one (longest_wide_rounds Size3) (N.lcm (fst p) (fst e)) else true) edge_cover) corner_cover = true.
Proof. vm_compute. reflexivity. Qed.

Lemma rounds_bound n al : exists m, In m (longest_wide_rounds n) /\ kinds_back n al m.
Proof.
  destruct (corner_order al) as (oc & Ic & Kc). destruct (edge_order al) as (oe & Ie & Ke).
  destruct (orbit_order 2 al ltac:(cbn; tauto)) as (ow & bw & Iw & _ & Kw).
  destruct (orbit_order 4 al ltac:(cbn; tauto)) as (ox & bx & Ix & Ex & Kx). rewrite center_perm_parity in Ex. subst bx.
  set (b := Nat.odd (total_turns (map w_move al))) in *.
  assert (U : forall o j, (o | j)%N -> (o | N.of_nat (N.to_nat j))%N) by (intros o j D; rewrite N2Nat.id; exact D).
  destruct n.
  - pose proof size2_table as T. rewrite forallb_forall in T. specialize (T _ Ic). apply divides_one_spec in T as (m & M & D). cbn [fst] in D.
    exists m. split; [exact M|]. apply kinds_back_each. intros kd [<-|[]]. apply Kc, U, D.
  - pose proof size3_table as T. rewrite forallb_forall in T. specialize (T _ Ic). rewrite forallb_forall in T. specialize (T _ Ie). cbn [fst snd] in T.
    rewrite Bool.eqb_reflx in T. apply divides_one_spec in T as (m & M & D). exists m. split; [exact M|]. apply kinds_back_each.
    intros kd [<-|[<-|[]]]; [apply Kc, U|apply Ke, U]; apply N.divide_trans with (2 := D); [apply N.divide_lcm_l|apply N.divide_lcm_r].
  - pose proof corner_center_table as T. rewrite forallb_forall in T. specialize (T _ Ic). rewrite forallb_forall in T. specialize (T _ Ix). cbn [fst snd] in T.
    rewrite Bool.eqb_reflx in T. apply divides_one_spec in T as (o & O & D).
    pose proof size4_table as T. rewrite forallb_forall in T. specialize (T _ O). rewrite forallb_forall in T. specialize (T _ Iw). cbn [fst snd] in T.
    apply divides_one_spec in T as (m & M & D'). exists m. split; [exact M|]. apply kinds_back_each.
    assert (Dm : (N.lcm oc ox | m)%N) by (apply N.divide_trans with (1 := D); apply N.divide_trans with (2 := D'); apply N.divide_lcm_l).
    intros kd [<-|[<-|[<-|[]]]]; [apply Kc, U|apply Kw, U|apply Kx, U].
    + apply N.divide_trans with (2 := Dm). apply N.divide_lcm_l.
    + apply N.divide_trans with (2 := D'). apply N.divide_lcm_r.
    + apply N.divide_trans with (2 := Dm). apply N.divide_lcm_r.
  - pose proof size5_table as T. rewrite forallb_forall in T. specialize (T _ Ic). rewrite forallb_forall in T. specialize (T _ Ie). cbn [fst snd] in T.
    rewrite Bool.eqb_reflx in T. cbv zeta in T. rewrite forallb_forall in T. specialize (T _ Ix). cbn [fst snd] in T. rewrite Bool.eqb_reflx in T.
    apply divides_one_spec in T as (m & M & D). exists m. split; [exact M|].
    assert (Dm : (N.lcm oc oe | m)%N) by (apply N.divide_trans with (2 := D); apply N.divide_lcm_l).
    assert (E : kind_back 1 al (N.to_nat m)) by (apply Ke, U, N.divide_trans with (2 := Dm), N.divide_lcm_r).
    apply kinds_back_each. intros kd [<-|[<-|[<-|[<-|[]]]]]; [apply Kc, U|exact E|apply Kx, U|apply center_edges_back, E].
    + apply N.divide_trans with (2 := Dm). apply N.divide_lcm_l.
    + apply N.divide_trans with (2 := D). apply N.divide_lcm_r.
  - exists 5354228880%N. split; [left; reflexivity|]. apply (kinds_back_period Size6).
  - exists 5354228880%N. split; [left; reflexivity|]. apply (kinds_back_period Size7).
Qed.

(* ------------------------------------------------------------------ *)
(** * All these numbers occur *)

(** The pieces of one kind, numbered. *)
Definition number (k : nat) (q : Cubie) : nat := place cubie_eqb (same_kind k) q.
Definition numbered (k : nat) (i : nat) : Cubie := nth i (same_kind k) (QCE1 beside_some_edge).
Definition kind_perm (k : nat) (al : list WideAxisMove) : list nat := map (fun q => number k (run al q)) (same_kind k).
Lemma in_same_kind q k : kind q = k -> In q (same_kind k).
Proof. intros Q. apply filter_In. split; [apply all_cubies_complete|apply Nat.eqb_eq, Q]. Qed.
Lemma number_spec k q : kind q = k -> number k q < 24 /\ numbered k (number k q) = q.
Proof.
  intros Q. pose proof (kind_small q) as K. rewrite Q in K. rewrite <- (same_kind_length k K). apply place_spec; [apply cubie_eqb_eq|apply in_same_kind, Q].
Qed.
Lemma kind_perm_nth k al q : kind q = k -> number k (run al q) = fun_of (kind_perm k al) (number k q).
Proof.
  intros Q. destruct (number_spec k q Q) as [B A]. pose proof (kind_small q) as K. rewrite Q in K. unfold kind_perm, fun_of.
  rewrite (nth_indep _ 0 (number k (run al (QCE1 beside_some_edge)))) by (rewrite map_length, same_kind_length; assumption).
  rewrite (map_nth (fun x => number k (run al x))). unfold numbered in A. rewrite A. reflexivity.
Qed.
Lemma kind_perm_iter k al j q : kind q = k -> number k (Nat.iter j (run al) q) = Nat.iter j (fun_of (kind_perm k al)) (number k q).
Proof. intros Q. induction j as [|j IH]; [reflexivity|]. rewrite !niter_S, <- IH. apply kind_perm_nth. rewrite iter_run_kind. exact Q. Qed.
Lemma number_onto_table : forallb (fun k => list_eqb Nat.eqb (map (number k) (same_kind k)) (seq 0 24)) (seq 0 10) = true.
Proof. vm_compute. reflexivity. Qed.
Lemma number_onto k i : k < 10 -> i < 24 -> exists q, kind q = k /\ number k q = i.
Proof.
  intros K I. pose proof number_onto_table as T. rewrite forallb_forall in T. specialize (T k ltac:(apply in_seq; lia)).
  apply (list_eqb_eq _ Nat.eqb_eq) in T. assert (X : In i (map (number k) (same_kind k))) by (rewrite T; apply in_seq; lia).
  apply in_map_iff in X as (q & E & Q). apply filter_In in Q as [_ Q]. exists q. split; [apply Nat.eqb_eq, Q|exact E].
Qed.
Lemma kind_back_perm k al j : k < 10 -> kind_back k al j <-> forall i, In i (seq 0 24) -> Nat.iter j (fun_of (kind_perm k al)) i = i.
Proof.
  intros K. split.
  - intros H i I. apply in_seq in I. destruct (number_onto k i K ltac:(lia)) as (q & Q & <-). rewrite <- kind_perm_iter, H by exact Q. reflexivity.
  - intros H q Q. destruct (number_spec k q Q) as [B A]. assert (Q' : kind (Nat.iter j (run al) q) = k) by (rewrite iter_run_kind; exact Q).
    destruct (number_spec k _ Q') as [_ A']. rewrite <- A', kind_perm_iter, H, A by (exact Q || apply in_seq; lia). reflexivity.
Qed.
Definition kind_rounds (k : nat) (al : list WideAxisMove) : option N := let p := kind_perm k al in all_rounds Nat.eqb (fun_of p) (seq 0 24).
Lemma kind_rounds_spec k al o : k < 10 -> kind_rounds k al = Some o -> forall j, kind_back k al j <-> (o | N.of_nat j)%N.
Proof. intros K H j. rewrite kind_back_perm by exact K. apply (all_rounds_spec Nat.eqb Nat.eqb_eq). exact H. Qed.
Definition alg_rounds (n : CubeSize) (al : list WideAxisMove) : option N :=
  fold_right (fun k o => match o, kind_rounds k al with Some o, Some o' => Some (N.lcm o' o) | _, _ => None end) (Some 1%N) (kinds_of n).
Lemma kinds_small n k : In k (kinds_of n) -> k < 10.
Proof. destruct n; cbn [kinds_of In]; lia. Qed.
Lemma alg_rounds_spec n al o : alg_rounds n al = Some o -> forall k, kinds_back n al k <-> (o | k)%N.
Proof.
  unfold alg_rounds. intros H k.
  assert (X : forall l, (forall x, In x l -> x < 10) -> forall o,
    fold_right (fun k o => match o, kind_rounds k al with Some o, Some o' => Some (N.lcm o' o) | _, _ => None end) (Some 1%N) l = Some o ->
    ((forall x, In x l -> kind_back x al (N.to_nat k)) <-> (o | k)%N)).
  { clear H o. induction l as [|x l IH]; intros B o H; cbn [fold_right] in H.
    - injection H as <-. split; [intros _; apply N.divide_1_l|intros _ x []].
    - destruct (fold_right _ _ l) as [o'|] in H, IH; [|discriminate H]. specialize (IH (fun y Y => B y (or_intror Y)) o' eq_refl).
      destruct (kind_rounds x al) as [ox|] eqn:E; [|discriminate H]. injection H as <-.
      pose proof (kind_rounds_spec x al ox (B x (or_introl eq_refl)) E (N.to_nat k)) as S. rewrite N2Nat.id in S. split.
      + intros F. apply N.lcm_least; [apply S, F; left; reflexivity|]. apply IH. intros y Y. apply F. right. exact Y.
      + intros D y [<-|Y].
        * apply S. apply N.divide_trans with (2 := D), N.divide_lcm_l.
        * apply IH; [|exact Y]. apply N.divide_trans with (2 := D), N.divide_lcm_r. }
  rewrite <- (X (kinds_of n) (kinds_small n) o H). split.
  - intros F x I q Q. rewrite <- iter_fold. apply F. rewrite Q. exact I.
  - intros F. apply kinds_back_each, F.
Qed.
Lemma longest_table : forallb (fun n => list_eqb N.eqb (map (fun w => match alg_rounds n (word w) with Some o => o | None => 0%N end) (longest_codes n))
  (longest_wide_rounds n)) all_sizes = true.
Proof. vm_compute. reflexivity. Qed.
Lemma longest_fit : forallb (fun n => forallb (fun w => forallb (fitsb n) (word w)) (longest_codes n)) all_sizes = true.
Proof. vm_compute. reflexivity. Qed.
Lemma longest_positive n m : In m (longest_wide_rounds n) -> (0 < m)%N.
Proof.
  intros H. assert (X : forallb (fun m => (0 <? m)%N) (longest_wide_rounds n) = true) by (destruct n; vm_compute; reflexivity).
  rewrite forallb_forall in X. apply N.ltb_lt, X, H.
Qed.
Lemma longest_most n m : In m (longest_wide_rounds n) -> (m <= most_wide_rounds n)%N.
Proof.
  intros H. assert (X : forallb (fun m => (m <=? most_wide_rounds n)%N) (longest_wide_rounds n) = true) by (destruct n; vm_compute; reflexivity).
  rewrite forallb_forall in X. apply N.leb_le, X, H.
Qed.
Lemma most_in n : In (most_wide_rounds n) (longest_wide_rounds n).
Proof. destruct n; cbn; tauto. Qed.
Lemma longest_occur n m : In m (longest_wide_rounds n) -> exists al, Forall (fits n) al /\ forall k, kinds_back n al k <-> (m | k)%N.
Proof.
  intros I. pose proof longest_table as T. rewrite forallb_forall in T. specialize (T n (all_sizes_complete n)). apply (list_eqb_eq _ N.eqb_eq) in T.
  rewrite <- T in I. apply in_map_iff in I as (w & E & W).
  pose proof longest_fit as F. rewrite forallb_forall in F. specialize (F n (all_sizes_complete n)). rewrite forallb_forall in F. specialize (F w W).
  exists (word w). split.
  - apply Forall_forall. intros x X. rewrite forallb_forall in F. specialize (F x X). apply N.leb_le in F. exact F.
  - destruct (alg_rounds n (word w)) as [o|] eqn:A.
    + subst o. apply alg_rounds_spec, A.
    + exfalso. subst m. assert (X : In 0%N (longest_wide_rounds n)).
      { rewrite <- T. apply in_map_iff. exists w. rewrite A. auto. }
      apply longest_positive in X. lia.
Qed.
Lemma run_repeat al r : forall q, run (concat (repeat al r)) q = Nat.iter r (run al) q.
Proof.
  induction r as [|r IH]; intros q; [reflexivity|]. cbn [repeat concat]. rewrite run_app, IH. clear. rewrite niter_S.
  induction r as [|r IH]; [reflexivity|]. rewrite !niter_S, IH. reflexivity.
Qed.
Lemma divisors_occur n m k : In m (longest_wide_rounds n) -> (k | m)%N -> exists al, Forall (fits n) al /\ forall j, kinds_back n al j <-> (k | j)%N.
Proof.
  intros I (r & ->). pose proof (longest_positive n _ I) as P. destruct (longest_occur n _ I) as (al & F & K).
  assert (R : r <> 0%N) by (intros ->; lia).
  exists (concat (repeat al (N.to_nat r))). split.
  - apply Forall_concat, Forall_forall. intros x X. apply repeat_spec in X. subst x. exact F.
  - intros j. assert (E : kinds_back n (concat (repeat al (N.to_nat r))) j <-> kinds_back n al (j * r)).
    { assert (Z : forall q, N.iter j (run (concat (repeat al (N.to_nat r)))) q = N.iter (j * r) (run al) q).
      { intros q. rewrite !iter_fold, N2Nat.inj_mul, <- niter_mul. apply niter_ext. intros x. apply run_repeat. }
      split; intros H q Q; [rewrite <- Z|rewrite Z]; apply H, Q. }
    rewrite E, K. split.
    + intros (x & X). exists x. apply (N.mul_cancel_r _ _ r R). lia.
    + intros (x & ->). exists x. lia.
Qed.

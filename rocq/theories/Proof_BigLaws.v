(** The laws of the big cubes: kept by every wide move, and enough to be solvable. *)

From Coq Require Import List Bool Arith NArith ZArith Lia Permutation.
From Verif Require Import Model_Base Model_Space Model_Moves Model_Pieces Model_PieceSet Model_Cubes
  Model_Visual Spec_Moves Spec_Geometry Spec_Sets Spec_Invariants Spec_BigLaws
  Proof_Moves Proof_Sets Proof_Parity Proof_Invariants Proof_Sort Proof_BigSolve.
Import ListNotations.
Open Scope nat_scope.

(* ------------------------------------------------------------------ *)
(** * A 7x7x7 as a list of pieces *)

Definition cubies (c : Cube7) : list Cubie :=
  map QCorner (c7_corners c) ++ map QEdge (c7_edges c) ++
  map QWing1 (c7_wings_1 c) ++ map QWing2 (c7_wings_2 c) ++
  map QCC1 (c7_center_corners_1 c) ++ map QCC2 (c7_center_corners_2 c) ++
  map QCW (c7_center_wings c) ++ map QCE1 (c7_center_edges_1 c) ++ map QCE2 (c7_center_edges_2 c).

Lemma cubies_apply c w : cubies (cube7_apply_wide c w) = map (fun q => act q w) (cubies c).
Proof.
  unfold cubies. rewrite !map_app, !map_map. unfold cube7_apply_wide.
  cbn [c7_corners c7_edges c7_wings_1 c7_wings_2 c7_center_corners_1 c7_center_corners_2 c7_center_wings c7_center_edges_1 c7_center_edges_2].
  unfold corner_set_apply, edge_set_apply, wings_apply, ccs_apply, cws_apply, ces_apply, depth_set_apply.
  rewrite !map_map. reflexivity.
Qed.
Lemma cubies_turned al : forall c, cubies (turned Size7 c al) = map (run al) (cubies c).
Proof.
  induction al as [|w al IH]; intros c; [symmetry; apply map_id|].
  transitivity (map (run al) (cubies (cube7_apply_wide c w))); [exact (IH _)|]. rewrite cubies_apply, map_map. reflexivity.
Qed.

Definition pick {A} (f : Cubie -> option A) (l : list Cubie) : list A :=
  flat_map (fun q => match f q with Some a => [a] | None => [] end) l.
Lemma pick_app {A} (f : Cubie -> option A) l1 l2 : pick f (l1 ++ l2) = pick f l1 ++ pick f l2.
Proof. unfold pick. rewrite flat_map_app. reflexivity. Qed.
Lemma pick_yes {A B} (f : Cubie -> option A) (g : B -> Cubie) (h : B -> A) l : (forall b, f (g b) = Some (h b)) -> pick f (map g l) = map h l.
Proof. intros H. induction l as [|b l IH]; [reflexivity|]. unfold pick in *. cbn [map flat_map]. rewrite H, IH. reflexivity. Qed.
Lemma pick_no {A B} (f : Cubie -> option A) (g : B -> Cubie) l : (forall b, f (g b) = None) -> pick f (map g l) = [].
Proof. intros H. induction l as [|b l IH]; [reflexivity|]. unfold pick in *. cbn [map flat_map]. rewrite H, IH. reflexivity. Qed.

Definition from_cubies (l : list Cubie) : Cube7 :=
  mkCube7 (pick (fun q => match q with QCorner p => Some p | _ => None end) l)
          (pick (fun q => match q with QEdge p => Some p | _ => None end) l)
          (pick (fun q => match q with QWing1 p => Some p | _ => None end) l)
          (pick (fun q => match q with QWing2 p => Some p | _ => None end) l)
          (pick (fun q => match q with QCC1 p => Some p | _ => None end) l)
          (pick (fun q => match q with QCC2 p => Some p | _ => None end) l)
          (pick (fun q => match q with QCW p => Some p | _ => None end) l)
          (pick (fun q => match q with QCE1 p => Some p | _ => None end) l)
          (pick (fun q => match q with QCE2 p => Some p | _ => None end) l).
Lemma from_cubies_id c : from_cubies (cubies c) = c.
Proof.
  unfold from_cubies, cubies. rewrite !pick_app.
  repeat match goal with
  | |- context [pick ?f (map ?g ?l)] =>
      first [ rewrite (pick_no f g l) by reflexivity | rewrite (pick_yes f g (fun x => x) l) by reflexivity ]
  end.
  rewrite !map_id, ?app_nil_r. cbn [app]. rewrite ?app_nil_r. destruct c; reflexivity.
Qed.
Lemma cubies_inj a b : cubies a = cubies b -> a = b.
Proof. intros E. rewrite <- (from_cubies_id a), E. apply from_cubies_id. Qed.

(** The pieces of each kind. *)
Lemma of_kind_app k a b : of_kind k (a ++ b) = of_kind k a ++ of_kind k b.
Proof. apply filter_app. Qed.
Lemma of_kind_all {B} k (g : B -> Cubie) l : (forall b, kind (g b) = k) -> of_kind k (map g l) = map g l.
Proof. intros H. unfold of_kind. induction l as [|b l IH]; [reflexivity|]. cbn [map filter]. rewrite H, Nat.eqb_refl, IH. reflexivity. Qed.
Lemma of_kind_none {B} k (g : B -> Cubie) l : (forall b, kind (g b) <> k) -> of_kind k (map g l) = [].
Proof.
  intros H. unfold of_kind. induction l as [|b l IH]; [reflexivity|]. cbn [map filter].
  rewrite (proj2 (Nat.eqb_neq _ _) (H b)). exact IH.
Qed.
Lemma of_kind_cw h l : of_kind (if h : bool then 7 else 6) (map QCW l) = map QCW (filter (same_hand h) l).
Proof.
  unfold of_kind. induction l as [|b l IH]; [reflexivity|]. cbn [map filter]. rewrite IH.
  assert (E : (kind (QCW b) =? (if h then 7 else 6)) = same_hand h b).
  { unfold same_hand. cbn [kind]. destruct (right_handed b), h; reflexivity. }
  rewrite E. destruct (same_hand h b); reflexivity.
Qed.

Lemma kind_cw_range p : kind (QCW p) = 6 \/ kind (QCW p) = 7.
Proof. cbn. destruct (right_handed p); auto. Qed.

Ltac kinds c :=
  unfold cubies; rewrite !of_kind_app;
  repeat match goal with
  | |- context [of_kind ?k (map QCW ?l)] =>
      first [ rewrite (of_kind_none k QCW l) by (let p := fresh in intros p; destruct (kind_cw_range p) as [->| ->]; lia)
            | change (of_kind k (map QCW l)) with (of_kind (if true then k else 6) (map QCW l)); rewrite (of_kind_cw true l)
            | change (of_kind k (map QCW l)) with (of_kind (if false then 7 else k) (map QCW l)); rewrite (of_kind_cw false l) ]
  | |- context [of_kind ?k (map ?g ?l)] =>
      first [ rewrite (of_kind_all k g l) by reflexivity | rewrite (of_kind_none k g l) by (intros; cbn [kind]; lia) ]
  end;
  rewrite ?app_nil_r; cbn [app]; rewrite ?app_nil_r.

Lemma kinds_0 c : of_kind 0 (cubies c) = map QCorner (c7_corners c). Proof. kinds c. reflexivity. Qed.
Lemma kinds_1 c : of_kind 1 (cubies c) = map QEdge (c7_edges c). Proof. kinds c. reflexivity. Qed.
Lemma kinds_2 c : of_kind 2 (cubies c) = map QWing1 (c7_wings_1 c). Proof. kinds c. reflexivity. Qed.
Lemma kinds_3 c : of_kind 3 (cubies c) = map QWing2 (c7_wings_2 c). Proof. kinds c. reflexivity. Qed.
Lemma kinds_4 c : of_kind 4 (cubies c) = map QCC1 (c7_center_corners_1 c). Proof. kinds c. reflexivity. Qed.
Lemma kinds_5 c : of_kind 5 (cubies c) = map QCC2 (c7_center_corners_2 c). Proof. kinds c. reflexivity. Qed.
Lemma kinds_8 c : of_kind 8 (cubies c) = map QCE1 (c7_center_edges_1 c). Proof. kinds c. reflexivity. Qed.
Lemma kinds_9 c : of_kind 9 (cubies c) = map QCE2 (c7_center_edges_2 c). Proof. kinds c. reflexivity. Qed.
Lemma kinds_cw h c : of_kind (if h : bool then 7 else 6) (cubies c) = map QCW (filter (same_hand h) (c7_center_wings c)).
Proof.
  unfold cubies. rewrite !of_kind_app, of_kind_cw.
  rewrite !of_kind_none by (intros; cbn [kind]; destruct h; lia). rewrite !app_nil_r. reflexivity.
Qed.

(* ------------------------------------------------------------------ *)
(** * The rearrangements *)

Lemma place_map {A B} (eqa : A -> A -> bool) (eqb : B -> B -> bool) (g : A -> B) l x :
  (forall a b, eqb (g a) (g b) = eqa a b) -> place eqb (map g l) (g x) = place eqa l x.
Proof.
  intros H. unfold place. rewrite map_length. 
  assert (E : find_index (fun q => eqb q (g x)) (map g l) = find_index (fun q => eqa q x) l).
  { induction l as [|a l IH]; [reflexivity|]. cbn. rewrite H. destruct (eqa a x); [reflexivity|]. rewrite IH. reflexivity. }
  rewrite E. reflexivity.
Qed.
Lemma places_2 c : places 2 (cubies c) = wing_permutation (c7_wings_1 c).
Proof. unfold places. rewrite kinds_2, map_map. apply map_ext. intros p. apply (place_map wing_eqb cubie_eqb QWing1). reflexivity. Qed.
Lemma places_3 c : places 3 (cubies c) = wing_permutation (c7_wings_2 c).
Proof. unfold places. rewrite kinds_3, map_map. apply map_ext. intros p. apply (place_map wing_eqb cubie_eqb QWing2). reflexivity. Qed.
Lemma places_4 c : places 4 (cubies c) = cc_permutation (c7_center_corners_1 c).
Proof. unfold places. rewrite kinds_4, map_map. apply map_ext. intros p. apply (place_map cc_eqb cubie_eqb QCC1). reflexivity. Qed.
Lemma places_5 c : places 5 (cubies c) = cc_permutation (c7_center_corners_2 c).
Proof. unfold places. rewrite kinds_5, map_map. apply map_ext. intros p. apply (place_map cc_eqb cubie_eqb QCC2). reflexivity. Qed.
Lemma places_cw h c : places (if h : bool then 7 else 6) (cubies c) = cw_permutation h (c7_center_wings c).
Proof.
  unfold places. rewrite kinds_cw, map_map. apply map_ext. intros p. unfold place_of.
  assert (E : orbit (if h then 7 else 6) = map QCW (filter (same_hand h) cw_solved)) by (destruct h; reflexivity).
  rewrite E. apply (place_map cw_eqb cubie_eqb QCW). reflexivity.
Qed.

Lemma Permutation_filter {A} (f : A -> bool) l1 l2 : Permutation l1 l2 -> Permutation (filter f l1) (filter f l2).
Proof.
  induction 1 as [|x l1 l2 P IH|x y l|l1 l2 l3 P1 IH1 P2 IH2]; cbn; [constructor| | |rewrite IH1; exact IH2].
  - destruct (f x); [constructor|]; exact IH.
  - destruct (f x), (f y); try reflexivity. constructor.
Qed.

Lemma wing_perm s : set_valid wing_desc s -> Permutation (wing_permutation s) (seq 0 24).
Proof.
  intros V. pose proof (set_valid_perm _ wing_desc_ok s V) as P. change (map (pd_position wing_desc) s) with (map (fun x : Wing => x) s) in P.
  rewrite map_id in P. change (pd_reference wing_desc) with wing_solved in P.
  apply (Permutation_map (place wing_eqb wing_solved)) in P. exact P.
Qed.
Lemma cc_perm s : set_valid cc_desc s -> Permutation (cc_permutation s) (seq 0 24).
Proof.
  intros V. pose proof (set_valid_perm _ cc_desc_ok s V) as P. change (map (pd_position cc_desc) s) with (map (fun x : CenterCorner => x) s) in P.
  rewrite map_id in P. change (pd_reference cc_desc) with cc_solved in P.
  apply (Permutation_map (place cc_eqb cc_solved)) in P. exact P.
Qed.
Lemma cw_perm h s : set_valid cw_desc s -> Permutation (cw_permutation h s) (seq 0 24).
Proof.
  intros V. pose proof (set_valid_perm _ cw_desc_ok s V) as P. change (map (pd_position cw_desc) s) with (map (fun x : CenterWing => x) s) in P.
  rewrite map_id in P. change (pd_reference cw_desc) with cw_solved in P.
  apply (Permutation_filter (same_hand h)) in P.
  apply (Permutation_map (place cw_eqb (filter (same_hand h) cw_solved))) in P. unfold cw_permutation. rewrite P.
  destruct h; reflexivity.
Qed.

Lemma places_perm k c : In k orbits -> cube_well_formed Size7 c -> Permutation (places k (cubies c)) (seq 0 24).
Proof.
  intros K W. cbn in W. rewrite <- ?(set_valid_spec _ corner_desc_ok), <- ?(set_valid_spec _ edge_desc_ok),
    <- ?(set_valid_spec _ wing_desc_ok), <- ?(set_valid_spec _ cc_desc_ok),
    <- ?(set_valid_spec _ ce_desc_ok), <- ?(set_valid_spec _ cw_desc_ok) in W.
  destruct W as (_ & _ & W1 & W2 & C1 & C2 & CW & _ & _).
  destruct K as [<-|[<-|[<-|[<-|[<-|[<-|[]]]]]]].
  - rewrite places_2. apply wing_perm, W1.
  - rewrite places_3. apply wing_perm, W2.
  - rewrite places_4. apply cc_perm, C1.
  - rewrite places_5. apply cc_perm, C2.
  - change 6 with (if false then 7 else 6). rewrite places_cw. apply cw_perm, CW.
  - change 7 with (if true then 7 else 6). rewrite places_cw. apply cw_perm, CW.
Qed.

(* ------------------------------------------------------------------ *)
(** * Centre edges next to their edges *)

Definition shows (e0 : EdgePos) (e : Edge) (home p : CenterEdge) : Prop :=
  In (ce_main p, ce_main home) (edge_colors e e0) /\ In (ce_side_face p, ce_side_face home) (edge_colors e e0).
Definition showsb (e0 : EdgePos) (e : Edge) (home p : CenterEdge) : bool :=
  let has x := existsb (fun y => face_eqb (fst x) (fst y) && face_eqb (snd x) (snd y)) (edge_colors e e0) in
  has (ce_main p, ce_main home) && has (ce_side_face p, ce_side_face home).
Lemma showsb_spec e0 e home p : showsb e0 e home p = true <-> shows e0 e home p.
Proof.
  assert (H : forall x l, existsb (fun y : Face * Face => face_eqb (fst x) (fst y) && face_eqb (snd x) (snd y)) l = true <-> In x l).
  { intros x l. rewrite existsb_exists. split.
    - intros (y & I & E). apply andb_true_iff in E as [E1 E2]. apply face_eqb_eq in E1. apply face_eqb_eq in E2.
      destruct x, y; cbn in *; subst; exact I.
    - intros I. exists x. split; [exact I|]. apply andb_true_iff. split; apply face_eqb_eq; reflexivity. }
  unfold showsb, shows. rewrite andb_true_iff, !H. tauto.
Qed.

Definition all_edges : list Edge := flat_map (fun p => [mkEdge (fst p) (snd p) true; mkEdge (fst p) (snd p) false]) edge_reference.
Lemma all_edges_complete e : In e all_edges.
Proof.
  apply in_flat_map. exists (edge_position e). split; [apply edgepos_in_reference|]. destruct e as [a s []]; cbn; auto.
Qed.
Definition near (e : Edge) (e0 : EdgePos) (p : CenterEdge) : bool := existsb (fun y => face_eqb (ce_main p) (fst y)) (edge_colors e e0) && existsb (fun y => face_eqb (ce_side_face p) (fst y)) (edge_colors e e0).

Lemma follow_table : forallb (fun e0 => forallb (fun e => forallb (fun p => if negb (near e e0 p) then true else
   forallb (fun home => if showsb e0 e home p
     then forallb (fun m => showsb e0 (edge_apply e m) home (mo_act ce_mover 1 0 2 p (mkWide 0 m))) all_moves else true)
   ce_solved) ce_solved) all_edges) edge_reference = true.
Proof. vm_compute. reflexivity. Qed.

Lemma ce_act_any nd mx w p : (nd <= mx)%N -> mo_act ce_mover nd 0 mx p w = mo_act ce_mover 1 0 2 p (mkWide 0 (w_move w)).
Proof.
  intros H. unfold mo_act, wide_act. cbn [mo_in mo_rot ce_mover w_move]. unfold ce_in_wide. cbn [w_move].
  rewrite (proj2 (N.leb_le nd mx) H). reflexivity.
Qed.
Lemma move_in_all m : In m all_moves.
Proof. destruct m as [[[] []] []]; cbn; tauto. Qed.

Lemma shows_move e0 e home p m : shows e0 e home p -> shows e0 (edge_apply e m) home (mo_act ce_mover 1 0 2 p (mkWide 0 m)).
Proof.
  intros H. pose proof follow_table as T. rewrite forallb_forall in T. specialize (T e0 (edgepos_in_reference e0)).
  rewrite forallb_forall in T. specialize (T e (all_edges_complete e)). rewrite forallb_forall in T. specialize (T p (ce_in_solved p)).
  assert (N : near e e0 p = true).
  { unfold near. apply andb_true_iff. split; apply existsb_exists.
    - exists (ce_main p, ce_main home). split; [apply H|]. apply face_eqb_eq. reflexivity.
    - exists (ce_side_face p, ce_side_face home). split; [apply H|]. apply face_eqb_eq. reflexivity. }
  rewrite N in T. cbn [negb] in T. rewrite forallb_forall in T. specialize (T home (ce_in_solved home)).
  apply showsb_spec in H. rewrite H in T. rewrite forallb_forall in T. apply showsb_spec, T, move_in_all.
Qed.

Lemma follows_move nd mx es ces w : (nd <= mx)%N -> follows_edges es ces ->
  follows_edges (edge_set_apply es (w_move w)) (ces_apply nd mx ces w).
Proof.
  intros L F home p I. apply In_nth_error in I as (i & Hi). apply combine_nth_error in Hi as [H1 H2].
  change (ces_apply nd mx ces w) with (map (fun x => mo_act ce_mover nd 0 mx x w) ces) in H2. rewrite nth_error_map in H2.
  destruct (nth_error ces i) as [q|] eqn:Q; [|discriminate]. cbn in H2. inversion H2; subst p.
  destruct (F home q) as (e0 & e & I' & S1 & S2). { apply nth_error_In with (n := i), combine_nth_error. auto. }
  apply In_nth_error in I' as (j & Hj). apply combine_nth_error in Hj as [J1 J2].
  exists e0, (edge_apply e (w_move w)). split.
  - apply nth_error_In with (n := j), combine_nth_error. split; [exact J1|]. unfold edge_set_apply. rewrite nth_error_map, J2. reflexivity.
  - rewrite (ce_act_any nd mx w q L). apply shows_move. split; assumption.
Qed.

Lemma follow_solved_table : forallb (fun e0 => forallb (fun home => forallb (fun p =>
  implb (showsb e0 (edge_oriented e0) home p) (ce_eqb p home)) ce_solved) ce_solved) edge_reference = true.
Proof. vm_compute. reflexivity. Qed.
Lemma follows_solved ces : length ces = 24 -> follows_edges edge_solved ces -> ces = ce_solved.
Proof.
  intros L F. assert (A : forall i, nth_error ces i = nth_error ce_solved i).
  { intros i. destruct (nth_error ce_solved i) as [home|] eqn:H.
    - destruct (nth_error ces i) as [p|] eqn:P.
      + destruct (F home p) as (e0 & e & I & S). { apply nth_error_In with (n := i), combine_nth_error. auto. }
        assert (E : e = edge_oriented e0).
        { apply In_nth_error in I as (j & Hj). apply combine_nth_error in Hj as [J1 J2]. unfold edge_solved in J2.
          rewrite nth_error_map, J1 in J2. cbn in J2. congruence. }
        subst e. pose proof follow_solved_table as T. rewrite forallb_forall in T. specialize (T e0 (edgepos_in_reference e0)).
        rewrite forallb_forall in T. specialize (T home (ce_in_solved home)). rewrite forallb_forall in T. specialize (T p (ce_in_solved p)).
        rewrite (proj2 (showsb_spec _ _ _ _) S) in T. cbn [implb] in T. apply ce_eqb_eq in T. congruence.
      + apply nth_error_None in P. assert (i < 24) by (change 24 with (length ce_solved); apply nth_error_Some; congruence). lia.
    - apply nth_error_None in H. apply nth_error_None. change (length ce_solved) with 24 in H. lia. }
  clear - A. revert A. generalize ce_solved as m. induction ces as [|a l IH]; intros [|b m] A; [reflexivity|discriminate (A 0)|discriminate (A 0)|].
  pose proof (A 0) as A0. cbn in A0. inversion A0; subst. f_equal. apply IH. intros i. exact (A (S i)).
Qed.
Lemma follows_here_table : forallb (fun home => existsb (fun e0 => showsb e0 (edge_oriented e0) home home) edge_reference) ce_solved = true.
Proof. vm_compute. reflexivity. Qed.
Lemma follows_edges_solved : follows_edges edge_solved ce_solved.
Proof.
  intros home p I. assert (p = home). { apply In_nth_error in I as (i & Hi). apply combine_nth_error in Hi as [A B]. congruence. }
  subst p. pose proof follows_here_table as T. rewrite forallb_forall in T. specialize (T home (ce_in_solved home)).
  apply existsb_exists in T as (e0 & _ & S). exists e0, (edge_oriented e0). split; [|apply showsb_spec, S].
  pose proof (edgepos_in_reference e0) as J. apply In_nth_error in J as (j & Hj). apply nth_error_In with (n := j), combine_nth_error.
  split; [exact Hj|]. unfold edge_solved. rewrite nth_error_map, Hj. reflexivity.
Qed.

(* ------------------------------------------------------------------ *)
(** * The laws of the 7x7x7 are kept *)

Definition odd_corners (c : Cube7) : bool := odd_inv (corner_permutation (c7_corners c)).

(** The laws with parities as booleans. *)
Definition laws7b (c : Cube7) : Prop :=
  cube_well_formed Size7 c /\ invariants (mkCube3 (c7_edges c) (c7_corners c)) /\
  odd_inv (places 4 (cubies c)) = odd_corners c /\ odd_inv (places 5 (cubies c)) = odd_corners c /\
  hands_kept (c7_center_wings c) /\
  (forall h : bool, odd_inv (places (if h then 7 else 6) (cubies c))
     = xorb (odd_corners c) (xorb (odd_inv (places 2 (cubies c))) (odd_inv (places 3 (cubies c))))) /\
  follows_edges (c7_edges c) (c7_center_edges_1 c) /\ follows_edges (c7_edges c) (c7_center_edges_2 c).

Lemma negb_inj a b : negb a = negb b <-> a = b.
Proof. destruct a, b; cbn; split; congruence. Qed.
Lemma same_parity_odd l m : same_parity l m <-> odd_inv l = odd_inv m.
Proof. unfold same_parity. rewrite !even_permutation_odd. apply negb_inj. Qed.

Lemma laws7_b c : laws7 c <-> laws7b c.
Proof.
  unfold laws7, laws7b, cw_parity_law, odd_corners. rewrite !same_parity_odd, places_2, places_3, places_4, places_5.
  assert (E : (forall h, even_permutation (cw_permutation h (c7_center_wings c)) =
      eqb (even_permutation (corner_permutation (c7_corners c)))
        (eqb (even_permutation (wing_permutation (c7_wings_1 c))) (even_permutation (wing_permutation (c7_wings_2 c)))))
    <-> (forall h : bool, odd_inv (places (if h then 7 else 6) (cubies c)) =
      xorb (odd_inv (corner_permutation (c7_corners c)))
        (xorb (odd_inv (wing_permutation (c7_wings_1 c))) (odd_inv (wing_permutation (c7_wings_2 c)))))).
  { split; intros H h; specialize (H h); rewrite places_cw in *; rewrite !even_permutation_odd in *;
      destruct (odd_inv (cw_permutation _ _)), (odd_inv (corner_permutation _)), (odd_inv (wing_permutation (c7_wings_1 c))),
        (odd_inv (wing_permutation (c7_wings_2 c))); cbn in *; congruence. }
  rewrite E. tauto.
Qed.

Lemma wf7_valid c : cube_well_formed Size7 c -> set_valid edge_desc (c7_edges c) /\ set_valid corner_desc (c7_corners c) /\
  length (c7_center_edges_1 c) = 24 /\ length (c7_center_edges_2 c) = 24.
Proof.
  intros W. cbn in W. destruct W as (C & E & _ & _ & _ & _ & _ & E1 & E2).
  apply (set_valid_spec _ corner_desc_ok) in C. apply (set_valid_spec _ edge_desc_ok) in E.
  split; [exact E|]. split; [exact C|]. split; [apply E1|apply E2].
Qed.

Lemma laws7b_move c w : deep w -> laws7b c -> laws7b (cube7_apply_wide c w).
Proof.
  intros D (W & I & P4 & P5 & HK & CW & F1 & F2).
  destruct (wf7_valid c W) as (VE & VC & _ & _).
  assert (OC : odd_corners (cube7_apply_wide c w) = xorb (odd_move (w_move w)) (odd_corners c)).
  { unfold odd_corners. cbn [cube7_apply_wide c7_corners]. apply corner_parity_move, VC. }
  assert (PA : forall k, In k orbits -> odd_inv (places k (cubies (cube7_apply_wide c w)))
     = xorb (odd_depth k (w_depth w) && odd_move (w_move w)) (odd_inv (places k (cubies c)))).
  { intros k K. rewrite cubies_apply. apply parity_act; [exact K|exact D|]. apply places_perm; assumption. }
  split; [exact (cube_well_formed_wide Size7 c w W)|]. split.
  { exact (proj2 (invariants_move (mkCube3 (c7_edges c) (c7_corners c)) (w_move w) (conj VE VC)) I). }
  rewrite OC, !PA by (cbn; tauto). cbn [odd_depth]. rewrite P4, P5, andb_true_l.
  split; [reflexivity|]. split; [reflexivity|]. split; [|split; [|split]].
  - unfold hands_kept in *. rewrite <- HK. cbn [cube7_apply_wide c7_center_wings].
    change (cws_apply 1 2 2 (c7_center_wings c) w) with (map (fun p => mo_act cw_mover 1 2 2 p w) (c7_center_wings c)).
    rewrite map_map. apply map_ext. intros p. apply right_handed_move.
  - intros h. rewrite PA by (destruct h; cbn; tauto). rewrite CW.
    assert (O : odd_depth (if h then 7 else 6) (w_depth w) = xorb true (xorb (1 <=? w_depth w) (2 <=? w_depth w))%N) by (destruct h; reflexivity).
    rewrite O. destruct (1 <=? w_depth w)%N, (2 <=? w_depth w)%N, (odd_move (w_move w)), (odd_corners c),
      (odd_inv (places 2 (cubies c))), (odd_inv (places 3 (cubies c))); reflexivity.
  - apply follows_move; [lia|exact F1].
  - apply follows_move; [lia|exact F2].
Qed.

Lemma laws7b_solved : laws7b cube7_solved.
Proof.
  split; [exact (cube_well_formed_solved Size7)|]. split; [exact invariants_solved|].
  split; [vm_compute; reflexivity|]. split; [vm_compute; reflexivity|]. split; [reflexivity|].
  split; [intros []; vm_compute; reflexivity|]. split; exact follows_edges_solved.
Qed.

Lemma laws7b_turned al : Forall deep al -> forall c, laws7b c -> laws7b (turned Size7 c al).
Proof.
  intros F. induction F as [|w al D F IH]; intros c L; [exact L|]. apply (IH (cube7_apply_wide c w)), laws7b_move; assumption.
Qed.

(* ------------------------------------------------------------------ *)
(** * The laws of the 7x7x7 are enough *)

Lemma turned_app n c a b : turned n c (a ++ b) = turned n (turned n c a) b.
Proof. apply fold_left_app. Qed.

Lemma turned_core al : forall c, mkCube3 (c7_edges (turned Size7 c al)) (c7_corners (turned Size7 c al))
  = fold_left cube3_apply (map w_move al) (mkCube3 (c7_edges c) (c7_corners c)).
Proof. induction al as [|w al IH]; intros c; [reflexivity|]. exact (IH (cube7_apply_wide c w)). Qed.

Definition slice (d : N) : list WideAxisMove := [mkWide d (mkMove fR Single); mkWide (d - 1) (mkMove fR Inverse)].

Lemma slice_core d c : mkCube3 (c7_edges (turned Size7 c (slice d))) (c7_corners (turned Size7 c (slice d)))
  = mkCube3 (c7_edges c) (c7_corners c).
Proof.
  rewrite turned_core. cbn [slice map w_move fold_left]. generalize (mkCube3 (c7_edges c) (c7_corners c)). intros [es cs].
  unfold cube3_apply. cbn [c3_edges c3_corners]. f_equal.
  - unfold edge_set_apply. rewrite map_map. rewrite <- (map_id es) at 2. apply map_ext. intros e.
    exact (edge_apply_inverse e (mkMove fR Single)).
  - unfold corner_set_apply. rewrite map_map. rewrite <- (map_id cs) at 2. apply map_ext. intros e.
    exact (corner_apply_inverse e (mkMove fR Single)).
Qed.

Lemma parity_two k a b c : In k orbits -> deep a -> deep b -> cube_well_formed Size7 c ->
  odd_inv (places k (cubies (turned Size7 c [a; b])))
  = xorb (odd_depth k (w_depth b) && odd_move (w_move b)) (xorb (odd_depth k (w_depth a) && odd_move (w_move a)) (odd_inv (places k (cubies c)))).
Proof.
  intros K A B W. rewrite cubies_turned. change (run [a; b]) with (fun q => act (act q a) b).
  rewrite <- (map_map (fun q => act q a) (fun q => act q b)), <- cubies_apply.
  rewrite parity_act; [|assumption|assumption|apply places_perm; [assumption|exact (cube_well_formed_wide Size7 c a W)]].
  rewrite cubies_apply, parity_act; [reflexivity|assumption|assumption|apply places_perm; assumption].
Qed.

Lemma slice_deep d : (d <= 2)%N -> Forall deep (slice d).
Proof. intros H. repeat constructor; unfold deep; cbn [w_depth]; lia. Qed.

Definition core (c : Cube7) : Cube3 := mkCube3 (c7_edges c) (c7_corners c).

(** One slice turn changes the parity of one ring of wings and leaves corners and edges. *)
Lemma slice_1 c : laws7b c ->
  odd_inv (places 2 (cubies (turned Size7 c (slice 1)))) = negb (odd_inv (places 2 (cubies c))) /\
  odd_inv (places 3 (cubies (turned Size7 c (slice 1)))) = odd_inv (places 3 (cubies c)).
Proof.
  intros L. assert (W : cube_well_formed Size7 c) by apply L. unfold slice.
  rewrite !parity_two by (try exact W; unfold deep; cbn [w_depth]; cbn; tauto || lia). cbn [odd_depth w_depth w_move odd_move mv_amount].
  generalize (odd_inv (places 2 (cubies c))) as x, (odd_inv (places 3 (cubies c))) as y. intros [] []; split; reflexivity.
Qed.
Lemma slice_2 c : laws7b c ->
  odd_inv (places 2 (cubies (turned Size7 c (slice 2)))) = odd_inv (places 2 (cubies c)) /\
  odd_inv (places 3 (cubies (turned Size7 c (slice 2)))) = negb (odd_inv (places 3 (cubies c))).
Proof.
  intros L. assert (W : cube_well_formed Size7 c) by apply L. unfold slice.
  rewrite !parity_two by (try exact W; unfold deep; cbn [w_depth]; cbn; tauto || lia). cbn [odd_depth w_depth w_move odd_move mv_amount].
  generalize (odd_inv (places 2 (cubies c))) as x, (odd_inv (places 3 (cubies c))) as y. intros [] []; split; reflexivity.
Qed.

Lemma fix_wings_1 c : laws7b c -> exists bl, Forall deep bl /\ length bl <= 2 /\
  core (turned Size7 c bl) = core c /\ odd_inv (places 2 (cubies (turned Size7 c bl))) = false.
Proof.
  intros L. destruct (odd_inv (places 2 (cubies c))) eqn:O.
  - exists (slice 1). split; [apply slice_deep; lia|]. split; [cbn; lia|]. split; [apply slice_core|].
    rewrite (proj1 (slice_1 c L)), O. reflexivity.
  - exists []. split; [constructor|]. split; [cbn; lia|]. split; [reflexivity|exact O].
Qed.
Lemma fix_wings_2 c : laws7b c -> odd_inv (places 2 (cubies c)) = false -> exists bl, Forall deep bl /\ length bl <= 2 /\
  core (turned Size7 c bl) = core c /\ odd_inv (places 2 (cubies (turned Size7 c bl))) = false /\
  odd_inv (places 3 (cubies (turned Size7 c bl))) = false.
Proof.
  intros L E. destruct (odd_inv (places 3 (cubies c))) eqn:O.
  - exists (slice 2). split; [apply slice_deep; lia|]. split; [cbn; lia|]. split; [apply slice_core|].
    destruct (slice_2 c L) as [A B]. rewrite A, B, O, E. split; reflexivity.
  - exists []. split; [constructor|]. split; [cbn; lia|]. split; [reflexivity|split; [exact E|exact O]].
Qed.
Lemma fix_core c : laws7b c -> exists al, Forall deep al /\ length al <= 139 /\ core (turned Size7 c al) = cube3_solved.
Proof.
  intros (W & I & _). destruct (wf7_valid c W) as (VE & VC & _).
  destruct (solvable (mkCube3 (c7_edges c) (c7_corners c)) (conj VE VC) I) as (al & La & E).
  exists (map (mkWide 0) al). split; [|split].
  - rewrite Forall_map. apply Forall_forall. intros m _. unfold deep. cbn [w_depth]. lia.
  - rewrite map_length. exact La.
  - unfold core. rewrite turned_core, map_map. cbn [w_move]. rewrite map_id. exact E.
Qed.

Lemma map_kind_const {B} (g : B -> Cubie) l k : (forall b, kind (g b) = k) -> map kind (map g l) = repeat k (length l).
Proof. intros H. induction l as [|b l IH]; [reflexivity|]. cbn [map length repeat]. rewrite H, IH. reflexivity. Qed.
Lemma map_kind_cw l : map kind (map QCW l) = map (fun b : bool => if b then 7 else 6) (map right_handed l).
Proof. rewrite !map_map. reflexivity. Qed.
Lemma kinds_wf c : cube_well_formed Size7 c -> hands_kept (c7_center_wings c) -> map kind (cubies c) = map kind (cubies cube7_solved).
Proof.
  intros W H. cbn in W. destruct W as (C & E & W1 & W2 & C1 & C2 & _ & E1 & E2).
  unfold cubies. rewrite !map_app, !map_kind_cw, H.
  rewrite !(map_kind_const QCorner _ 0), !(map_kind_const QEdge _ 1), !(map_kind_const QWing1 _ 2), !(map_kind_const QWing2 _ 3),
    !(map_kind_const QCC1 _ 4), !(map_kind_const QCC2 _ 5), !(map_kind_const QCE1 _ 8), !(map_kind_const QCE2 _ 9) by reflexivity.
  rewrite (proj1 C), (proj1 E), (proj1 W1), (proj1 W2), (proj1 C1), (proj1 C2), (proj1 E1), (proj1 E2). reflexivity.
Qed.

Lemma orbit_solved k : In k orbits -> of_kind k (cubies cube7_solved) = orbit k.
Proof.
  intros [<-|[<-|[<-|[<-|[<-|[<-|[]]]]]]].
  - apply kinds_2. - apply kinds_3. - apply kinds_4. - apply kinds_5. - exact (kinds_cw false cube7_solved). - exact (kinds_cw true cube7_solved).
Qed.

(** Corners, edges and the wings' parities done: the rest are three-cycles. *)
Lemma fix_orbits c : laws7b c -> core c = cube3_solved -> odd_inv (places 2 (cubies c)) = false -> odd_inv (places 3 (cubies c)) = false ->
  exists dl, Forall deep dl /\ length dl <= 880 * 6 /\ turned Size7 c dl = cube7_solved.
Proof.
  intros (W & _ & P4 & P5 & HK & CW & F1 & F2) Ec O2 O3. unfold core in Ec.
  assert (Ee : c7_edges c = edge_solved) by (apply (f_equal c3_edges) in Ec; exact Ec).
  assert (Eo : c7_corners c = corner_solved) by (apply (f_equal c3_corners) in Ec; exact Ec).
  assert (OC : odd_corners c = false) by (unfold odd_corners; rewrite Eo; vm_compute; reflexivity).
  rewrite OC in *. rewrite O2, O3 in CW. cbn [xorb] in CW.
  destruct (wf7_valid c W) as (_ & _ & N1 & N2). rewrite Ee in F1, F2.
  apply follows_solved in F1; [|exact N1]. apply follows_solved in F2; [|exact N2].
  assert (ND : NoDup orbits) by (unfold orbits; repeat constructor; cbn; lia).
  destruct (sort_orbits orbits ND (fun k H => H) (cubies c)) as (dl & Dd & Ld & So & Un).
  { intros k Hk. split; [apply places_perm; assumption|]. destruct Hk as [<-|[<-|[<-|[<-|[<-|[<-|[]]]]]]];
      [exact O2|exact O3|exact P4|exact P5|exact (CW false)|exact (CW true)]. }
  exists dl. split; [exact Dd|]. split; [exact Ld|].
  apply cubies_inj. rewrite cubies_turned. apply kinds_eq.
  - rewrite map_map. rewrite <- (kinds_wf c W HK). apply map_ext. intros q. apply kind_run.
  - intros k Hk.
    assert (Same : ~ In k orbits -> of_kind k (map (run dl) (cubies c)) = of_kind k (cubies c)).
    { intros H. rewrite of_kind_run. rewrite <- (map_id (of_kind k (cubies c))) at 2. apply map_ext_in. intros q Hq.
      apply of_kind_in in Hq. apply Un. rewrite Hq. exact H. }
    destruct (in_dec Nat.eq_dec k orbits) as [K|K].
    + rewrite (So k K). symmetry. apply orbit_solved, K.
    + rewrite (Same K). assert (k = 0 \/ k = 1 \/ k = 8 \/ k = 9) as [->|[->|[->| ->]]].
      { cbn in K. lia. }
      * rewrite !kinds_0, Eo. reflexivity.
      * rewrite !kinds_1, Ee. reflexivity.
      * rewrite !kinds_8, F1. reflexivity.
      * rewrite !kinds_9, F2. reflexivity.
Qed.

Lemma solve_laws7b c : laws7b c -> exists al, Forall deep al /\ length al <= 139 + 4 + 880 * 6 /\ turned Size7 c al = cube7_solved.
Proof.
  intros L0. destruct (fix_core c L0) as (al & Da & La & Ea).
  pose proof (laws7b_turned al Da c L0) as L1. revert L1 Ea. set (c1 := turned Size7 c al). intros L1 E1.
  destruct (fix_wings_1 c1 L1) as (bl & Db & Lb & Eb & Ob).
  pose proof (laws7b_turned bl Db c1 L1) as L2. revert L2 Eb Ob. set (c2 := turned Size7 c1 bl). intros L2 E2 O2.
  destruct (fix_wings_2 c2 L2 O2) as (el & De & Le & Ee & O2' & O3).
  pose proof (laws7b_turned el De c2 L2) as L3. revert L3 Ee O2' O3. set (c3 := turned Size7 c2 el). intros L3 E3 O2' O3.
  assert (EC : core c3 = cube3_solved) by (rewrite E3, E2, E1; reflexivity).
  destruct (fix_orbits c3 L3 EC O2' O3) as (dl & Dd & Ld & Ed).
  exists (al ++ bl ++ el ++ dl). split; [|split].
  - apply Forall_app; split; [exact Da|]. apply Forall_app; split; [exact Db|]. apply Forall_app; split; assumption.
  - rewrite !app_length. lia.
  - rewrite !turned_app. exact Ed.
Qed.

(** C06-C10: the solvability invariants, random cubes, cycle counting. *)

From Coq Require Import List Bool Arith ZArith Lia Permutation.
From Verif Require Import Model_Base Model_Space Model_Moves Model_Pieces Model_PieceSet Model_Cubes
  Model_Invariants Spec_Sets Spec_Invariants Proof_Moves Proof_Sets Proof_Parity Proof_Solve Proof_Invariants
  Proof_Random Prop_Moves.
Import ListNotations.
Open Scope nat_scope.

(* ------------------------------------------------------------------ *)
(** * C06: reachable states satisfy the three invariants *)

Theorem C06_reachable_invariants : forall al : list AxisMove,
  let c := fold_left cube3_apply al cube3_solved in
  cube_well_formed Size3 c /\ equal_parities c /\ even_flips (c3_edges c) /\ twists_divisible (c3_corners c).
Proof.
  intros al c. destruct (invariants_run al cube3_solved (conj solved_valid_e solved_valid_c)) as [V I].
  split; [apply cube3_sets_valid_spec, V|]. apply I, invariants_solved.
Qed.

(** Each invariant is also kept one move at a time from any valid state, in both
    directions: a state that breaks it can never be repaired by moves. *)
Theorem C06_invariants_never_change : forall (c : Cube3) (al : list AxisMove),
  cube_well_formed Size3 c ->
  (equal_parities (fold_left cube3_apply al c) <-> equal_parities c) /\
  (even_flips (c3_edges (fold_left cube3_apply al c)) <-> even_flips (c3_edges c)) /\
  (twists_divisible (c3_corners (fold_left cube3_apply al c)) <-> twists_divisible (c3_corners c)).
Proof.
  intros c al W. apply cube3_sets_valid_spec in W. revert c W.
  induction al as [|m al IH]; intros c W; [tauto|]. cbn [fold_left].
  destruct (IH (cube3_apply c m) (cube3_sets_valid_move c m W)) as (I1 & I2 & I3). rewrite I1, I2, I3.
  destruct W as [VE VC]. split; [|split].
  - rewrite !equal_parities_odd. cbn [cube3_apply c3_edges c3_corners].
    rewrite (edge_parity_move _ m VE), (corner_parity_move _ m VC).
    destruct (odd_inv (edge_permutation _)), (odd_inv (corner_permutation _)), (odd_move m); cbn; split; congruence.
  - apply even_flips_move, VE.
  - unfold twists_divisible. cbn [cube3_apply c3_corners]. rewrite (twists_move _ m VC). reflexivity.
Qed.

(** The three invariants are independent: each can be broken alone. *)
Example C06_invariants_independent :
  let bad1 := mkCube3 (match edge_solved with a :: b :: r => b :: a :: r | l => l end) corner_solved in
  let bad2 := mkCube3 (match edge_solved with a :: r => edge_flip a :: r | l => l end) corner_solved in
  let bad3 := mkCube3 edge_solved (match corner_solved with a :: r => corner_twist a :: r | l => l end) in
  (~ equal_parities bad1 /\ even_flips (c3_edges bad1) /\ twists_divisible (c3_corners bad1)) /\
  (equal_parities bad2 /\ ~ even_flips (c3_edges bad2) /\ twists_divisible (c3_corners bad2)) /\
  (equal_parities bad3 /\ even_flips (c3_edges bad3) /\ ~ twists_divisible (c3_corners bad3)).
Proof. repeat split; try reflexivity; intros H; vm_compute in H; discriminate. Qed.

Print Assumptions C06_reachable_invariants.
Print Assumptions C06_invariants_never_change.

(* ------------------------------------------------------------------ *)
(** * C07: every state that satisfies the invariants is solvable *)

Theorem C07_invariants_solvable : forall c : Cube3,
  cube_well_formed Size3 c -> equal_parities c -> even_flips (c3_edges c) -> twists_divisible (c3_corners c) ->
  exists al : list AxisMove, length al <= 139 /\ fold_left cube3_apply al c = cube3_solved.
Proof.
  intros c W I1 I2 I3. apply solvable; [apply cube3_sets_valid_spec, W|repeat split; assumption].
Qed.

Theorem C07_solvable_within_200 : forall c : Cube3,
  cube_well_formed Size3 c -> equal_parities c -> even_flips (c3_edges c) -> twists_divisible (c3_corners c) ->
  exists al : list AxisMove, length al <= 200 /\ fold_left cube3_apply al c = cube3_solved.
Proof. intros c W I1 I2 I3. destruct (C07_invariants_solvable c W I1 I2 I3) as (al & L & E). exists al. split; [lia|exact E]. Qed.

(** Solvable, reachable and invariant-respecting are the same. *)
Theorem C07_solvable_exactly : forall c : Cube3,
  (exists al, fold_left cube3_apply al c = cube3_solved) <->
  (cube_well_formed Size3 c /\ equal_parities c /\ even_flips (c3_edges c) /\ twists_divisible (c3_corners c)).
Proof.
  intros c. split.
  - intros (al & E). pose proof (C01_reversed_axis Size3 c al) as R. 
    change (fold_left cube3_apply (alg_reversed move_inverse al) (fold_left cube3_apply al c) = c) in R.
    rewrite E in R. rewrite <- R. apply C06_reachable_invariants.
  - intros (W & I1 & I2 & I3). destruct (C07_invariants_solvable c W I1 I2 I3) as (al & _ & E). eauto.
Qed.
Theorem C07_reachable_exactly : forall c : Cube3,
  (exists al, fold_left cube3_apply al cube3_solved = c) <->
  (cube_well_formed Size3 c /\ equal_parities c /\ even_flips (c3_edges c) /\ twists_divisible (c3_corners c)).
Proof.
  intros c. rewrite <- C07_solvable_exactly. split; intros (al & E);
    exists (alg_reversed move_inverse al).
  - rewrite <- E. apply (C01_reversed_axis Size3 cube3_solved al).
  - rewrite <- E. apply (C01_reversed_axis Size3 c al).
Qed.

(** A state far from solved that satisfies the hypotheses: all edges flipped. *)
Example C07_superflip :
  let c := mkCube3 (map edge_flip edge_solved) corner_solved in
  cube_well_formed Size3 c /\ equal_parities c /\ even_flips (c3_edges c) /\ twists_divisible (c3_corners c).
Proof.
  intros c. split; [|repeat split; reflexivity]. apply cube3_sets_valid_spec. split; [|exact solved_valid_c].
  apply (valid_same_positions edge_desc edge_solved); [reflexivity|exact solved_valid_e].
Qed.

Print Assumptions C07_invariants_solvable.
Print Assumptions C07_solvable_within_200.
Print Assumptions C07_solvable_exactly.
Print Assumptions C07_reachable_exactly.

(* ------------------------------------------------------------------ *)
(** * C08: random 3x3x3 cubes *)

Theorem C08_random_solvable : forall rng : Rng3, exists c : Cube3,
  cube3_sample rng = Done c /\ cube_well_formed Size3 c /\
  equal_parities c /\ even_flips (c3_edges c) /\ twists_divisible (c3_corners c) /\
  exists al : list AxisMove, length al <= 200 /\ fold_left cube3_apply al c = cube3_solved.
Proof.
  intros rng. destruct (sample3_spec rng) as (c & E & V & I1 & I2 & I3).
  apply cube3_sets_valid_spec in V. exists c. repeat (split; [assumption|]).
  apply C07_solvable_within_200; assumption.
Qed.

(** Every solvable cube is a possible outcome. *)
Theorem C08_every_solvable_possible : forall (c : Cube3) (al : list AxisMove),
  fold_left cube3_apply al c = cube3_solved -> exists rng : Rng3, cube3_sample rng = Done c.
Proof.
  intros c al E. assert (H : exists al, fold_left cube3_apply al c = cube3_solved) by eauto.
  apply C07_solvable_exactly in H as (W & I). apply sample3_surjective; [apply cube3_sets_valid_spec, W|exact I].
Qed.

(** An RNG for which all three repairs are needed. *)
Example C08_all_repairs_needed :
  let rng := mkRng3 (fun i => if i =? 3 then 2 else i) (fun i => i) (fun i => i =? 0)
                    (fun i => if i =? 4 then AX else AY) in
  let es := map_rng set_oriented (rng_flips rng) 0 (shuffle (rng_edges rng) edge_solved) in
  let cs := map_rng set_axis (rng_axes rng) 0 (shuffle (rng_corners rng) corner_solved) in
  ~ equal_parities (mkCube3 es cs) /\ ~ even_flips es /\ ~ twists_divisible cs /\
  exists c, cube3_sample rng = Done c /\ c <> mkCube3 es cs.
Proof.
  split; [|split; [|split]]; try (intros H; vm_compute in H; discriminate).
  eexists. split; [vm_compute; reflexivity|]. intros H. vm_compute in H. discriminate.
Qed.

Print Assumptions C08_random_solvable.
Print Assumptions C08_every_solvable_possible.

(* ------------------------------------------------------------------ *)
(** * C09: random 2x2x2 cubes *)

Lemma cube2_run al : forall cs, fold_left cube2_apply al (mkCube2 cs) = mkCube2 (fold_left corner_set_apply al cs).
Proof. induction al as [|m al IH]; intros cs; [reflexivity|]. cbn. apply IH. Qed.

Theorem C09_random_solvable : forall rng : nat -> nat, exists c : Cube2,
  cube2_sample rng = Done c /\ cube_well_formed Size2 c /\
  exists al : list AxisMove, length al <= 125 /\ fold_left cube2_apply al c = cube2_solved.
Proof.
  intros rng. destruct (sample2_spec rng) as (cs & E & V & O & _). exists (mkCube2 cs).
  split; [exact E|]. split; [apply (set_valid_spec _ corner_desc_ok), V|].
  destruct (corners_solvable cs V) as (al & L & S).
  { unfold twists_divisible. rewrite oriented_twists by exact O. reflexivity. }
  exists al. split; [exact L|]. rewrite cube2_run, S. reflexivity.
Qed.

(** Not every solvable state is a possible outcome: a single R turn never is. *)
Theorem C09_every_state_refuted :
  ~ (forall (c : Cube2) (al : list AxisMove), fold_left cube2_apply al c = cube2_solved ->
       exists rng, cube2_sample rng = Done c).
Proof.
  intros H. destruct (H (cube2_apply cube2_solved (mkMove fR Single)) [mkMove fR Inverse]) as (rng & E).
  - vm_compute. reflexivity.
  - destruct (sample2_spec rng) as (cs & E' & _ & O & _). rewrite E in E'. injection E' as E'.
    apply (f_equal (map c_axis)) in E'.
    assert (A : map c_axis cs = repeat AY (length cs)).
    { clear E E'. induction cs as [|c cs IH]; [reflexivity|]. cbn. rewrite (O c (or_introl eq_refl)).
      f_equal. apply IH. intros; apply O; right; auto. }
    rewrite A in E'. assert (I : In AZ (repeat AY (length cs))); [|apply repeat_spec in I; discriminate].
    rewrite <- E'. vm_compute. tauto.
Qed.

(** What the outcomes are: exactly the states in which no corner is twisted.  What is
    missing from the full claim: the states with twisted corners. *)
Theorem C09_outcomes_partial : forall c : Cube2,
  (exists rng, cube2_sample rng = Done c) <->
  (cube_well_formed Size2 c /\ forall p, In p (c2_corners c) -> twists p = 0).
Proof.
  intros [cs]. split.
  - intros (rng & E). destruct (sample2_spec rng) as (cs' & E' & V & O & _). rewrite E in E'.
    injection E' as ->. split; [apply (set_valid_spec _ corner_desc_ok), V|].
    intros p Hp. unfold twists. rewrite (O p Hp). reflexivity.
  - intros [W O]. apply (set_valid_spec _ corner_desc_ok) in W. cbn [c2_corners] in *.
    assert (A : map (fun c => corner_oriented (c_pos c)) cs = cs).
    { rewrite <- (map_id cs) at 2. apply map_ext_in. intros p Hp. specialize (O p Hp).
      destruct p as [[[] [] []] []]; (reflexivity || discriminate O). }
    destruct (shuffle_surjective corner_solved cs) as (rng & R).
    { pose proof (set_valid_perm _ corner_desc_ok cs W) as Pm. apply Permutation_sym in Pm.
      apply (Permutation_map corner_oriented) in Pm. rewrite map_map in Pm.
      change (fun x => corner_oriented (pd_position corner_desc x)) with (fun c => corner_oriented (c_pos c)) in Pm.
      rewrite A in Pm. exact Pm. }
    exists rng. destruct (sample2_spec rng) as (cs' & E & _ & _ & E'). rewrite E, E', R. reflexivity.
Qed.

(** Which 2x2x2 states are solvable: valid, twists divisible by three. *)
Theorem C09_solvable_exactly : forall c : Cube2,
  (exists al, fold_left cube2_apply al c = cube2_solved) <->
  (cube_well_formed Size2 c /\ twists_divisible (c2_corners c)).
Proof.
  intros [cs]. split.
  - intros (al & E). pose proof (C01_reversed_axis Size2 (mkCube2 cs) al) as R. 
    change (fold_left cube2_apply (alg_reversed move_inverse al) (fold_left cube2_apply al (mkCube2 cs)) = (mkCube2 cs)) in R.
    rewrite E in R. rewrite <- R. unfold cube2_solved. rewrite cube2_run.
    cbn [cube_well_formed c2_corners]. rewrite <- (set_valid_spec _ corner_desc_ok).
    assert (G : forall al cs, set_valid corner_desc cs -> twists_divisible cs ->
              set_valid corner_desc (fold_left corner_set_apply al cs) /\
              twists_divisible (fold_left corner_set_apply al cs)).
    { clear. induction al as [|m al IH]; intros cs V T; [auto|]. cbn [fold_left]. apply IH.
      - apply corner_set_valid, V.
      - unfold twists_divisible. rewrite twists_move by exact V. exact T. }
    apply G; [exact solved_valid_c|reflexivity].
  - intros [W T]. apply (set_valid_spec _ corner_desc_ok) in W. destruct (corners_solvable cs W T) as (al & _ & S).
    exists al. rewrite cube2_run. cbn [c2_corners] in S. rewrite S. reflexivity.
Qed.

Example C09_scrambles : exists c, cube2_sample (fun i => i - 1) = Done c /\ c <> cube2_solved.
Proof. eexists. split; [vm_compute; reflexivity|]. discriminate. Qed.

Print Assumptions C09_random_solvable.
Print Assumptions C09_every_state_refuted.
Print Assumptions C09_outcomes_partial.
Print Assumptions C09_solvable_exactly.

(* ------------------------------------------------------------------ *)
(** * C10: counting cycles *)

Lemma loop_more_fuel values k : forall fuel st r,
  swap_cycles_loop fuel values st = Some r -> swap_cycles_loop (fuel + k) values st = Some r.
Proof.
  induction fuel as [|fuel IH]; intros st r; [discriminate|]. cbn [swap_cycles_loop plus].
  destruct (swap_cycles_body values st) as [[st'|r']|]; auto.
Qed.

(** The loop ends after at most one more iteration than there are pieces, whatever the
    array, if the values index the array (as position indices of the pieces do). *)
Theorem C10_terminates : forall values : list nat,
  values <> [] -> (forall v, In v values -> v < length values) ->
  exists r, forall fuel, length values < fuel -> swap_cycles_run fuel values = Some (Done r).
Proof.
  intros values H R. unfold swap_cycles_run.
  destruct (swap_cycles_terminates values (S (length values)) (repeat false (length values)) 0 0) as (r & E).
  - apply repeat_length.
  - destruct values; [contradiction|cbn; lia].
  - exact R.
  - rewrite unvisited_repeat. lia.
  - exists r. intros fuel F. replace fuel with (S (length values) + (fuel - S (length values))) by lia.
    apply loop_more_fuel, E.
Qed.

(** In particular for all sets of 8 corners and of 12 edges, valid or not. *)
Theorem C10_terminates_for_pieces :
  (forall cs : list Corner, length cs = 8 ->
     exists r, forall fuel, 8 < fuel -> swap_cycles_run fuel (map corner_position_index cs) = Some (Done r)) /\
  (forall es : list Edge, length es = 12 ->
     exists r, forall fuel, 12 < fuel -> swap_cycles_run fuel (map edge_position_index es) = Some (Done r)).
Proof.
  split; intros s L.
  - destruct (C10_terminates (map corner_position_index s)) as (r & E).
    + destruct s; discriminate.
    + intros v Hv. apply in_map_iff in Hv as (c & <- & _). rewrite map_length, L.
      destruct c as [[[] [] []] a]; cbn; lia.
    + exists r. intros fuel F. apply E. rewrite map_length, L. exact F.
  - destruct (C10_terminates (map edge_position_index s)) as (r & E).
    + destruct s; discriminate.
    + intros v Hv. apply in_map_iff in Hv as (c & <- & _). rewrite map_length, L.
      destruct c as [[] [[] []] o]; cbn; lia.
    + exists r. intros fuel F. apply E. rewrite map_length, L. exact F.
Qed.

(** For a permutation the result is the number of cycles minus one. *)
Theorem C10_counts_cycles : forall (n : nat) (values : list nat),
  0 < n -> Permutation values (seq 0 n) ->
  exists representatives, one_per_cycle values representatives /\
    swap_cycles_run (S n) values = Some (Done (length representatives - 1)).
Proof.
  intros n values H P. destruct (swap_cycles_spec values n P H) as (ls & O & L & E).
  exists ls. split; [exact O|]. rewrite E, L. do 2 f_equal. lia.
Qed.

(** ... and its parity gives the sign of the permutation. *)
Theorem C10_sign : forall (n r : nat) (values : list nat),
  0 < n -> Permutation values (seq 0 n) -> swap_cycles_run (S n) values = Some (Done r) ->
  even_permutation values = Nat.even (n + S r).
Proof.
  intros n r values H P R. destruct (swap_cycles_spec values n P H) as (ls & O & L & E).
  rewrite R in E. injection E as ->. rewrite even_permutation_odd, (sign_of_cycles n values ls P O), L.
  rewrite Nat.even_add, <- !Nat.negb_odd.
  destruct (Nat.odd n), (Nat.odd (S (swap_cycles values))); reflexivity.
Qed.

(** One swap of two edges is enough to make the parities equal, and is done exactly
    when they differ. *)
Theorem C10_fix_swap_parity : forall c : Cube3, cube_well_formed Size3 c ->
  exists c', fix_swap_parity_o c = Done c' /\ cube_well_formed Size3 c' /\ equal_parities c' /\
    c3_corners c' = c3_corners c /\
    (equal_parities c -> c' = c) /\
    (~ equal_parities c -> exists a b r, c3_edges c = a :: b :: r /\ c3_edges c' = b :: a :: r).
Proof.
  intros c W. apply cube3_sets_valid_spec in W. destruct (fix_swap_spec c W) as (c' & E & V & R).
  exists c'. split; [exact E|]. split; [apply cube3_sets_valid_spec, V|exact R].
Qed.

Example C10_example :
  swap_cycles_run 6 [1; 2; 0; 4; 3] = Some (Done 1) /\ even_permutation [1; 2; 0; 4; 3] = false /\
  one_per_cycle [0; 2; 1] [0; 1].
Proof.
  repeat split; try reflexivity.
  - repeat constructor; cbn; intuition lia.
  - destruct H as [<-|[<-|[]]]; cbn; lia.
  - intros k. destruct H as [<-|[<-|[]]]; [lia|].
    assert (G : iterate k (fun_of [0; 2; 1]) 1 = 1 \/ iterate k (fun_of [0; 2; 1]) 1 = 2).
    { induction k as [|k [IH|IH]]; [left; reflexivity| |]; cbn [iterate]; rewrite IH; auto. }
    lia.
  - intros [H M]. cbn in H. destruct i as [|[|[|i]]]; cbn; auto; [|lia]. specialize (M 1). cbn in M. lia.
Qed.

Print Assumptions C10_terminates.
Print Assumptions C10_terminates_for_pieces.
Print Assumptions C10_counts_cycles.
Print Assumptions C10_sign.
Print Assumptions C10_fix_swap_parity.

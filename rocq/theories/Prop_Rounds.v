(** C87: after how many rounds an alg of wide moves comes back. *)

From Coq Require Import List Bool Arith NArith ZArith Lia.
From Verif Require Import Model_Base Model_Space Model_Moves Model_Pieces Model_PieceSet Model_Cubes
  Spec_Moves Spec_Sets Spec_BigLaws Spec_Words Proof_Sets Proof_Words Proof_Orders Proof_Rounds.
Import ListNotations.
Open Scope nat_scope.

Lemma exact_wide_rounds n al o : (0 < o)%N -> (forall k, kinds_back n al k <-> (o | k)%N) ->
  forall c, cube_well_formed n c -> wide_rounds_needed n al c o.
Proof.
  intros O K c W. split; [exact O|]. split; [apply kinds_back_cube, K, N.divide_refl|].
  intros j J H. apply (cube_kinds_back n al j c W), K in H. apply N.divide_pos_le in H; lia.
Qed.
(** Every alg needs one of these numbers of rounds, the same one for every cube, even if some
    of its moves are deeper than the cube. *)
Theorem C87_wide_rounds : forall n (al : list WideAxisMove), exists k, possible_wide_rounds n k /\
  forall c, cube_well_formed n c -> wide_rounds_needed n al c k.
Proof.
  intros n al. destruct (wide_alg_order n al) as (o & O & K). destruct (rounds_bound n al) as (m & M & B). exists o.
  split; [exists m; split; [exact M|apply K, B]|]. apply exact_wide_rounds; assumption.
Qed.
(** Each of them is needed by some alg whose moves fit the cube. *)
Theorem C87_all_occur : forall n k, possible_wide_rounds n k -> exists al : list WideAxisMove, Forall (fits n) al /\
  forall c, cube_well_formed n c -> wide_rounds_needed n al c k.
Proof.
  intros n k (m & M & D). destruct (divisors_occur n m k M D) as (al & F & K). exists al. split; [exact F|].
  apply exact_wide_rounds; [|exact K]. apply longest_positive in M. destruct D as (r & ->). destruct k; lia.
Qed.
(** The largest of them, for every cube whatsoever. *)
Theorem C87_most_rounds : forall n (al : list WideAxisMove) (c : CubeOf n), exists k,
  (0 < k <= most_wide_rounds n)%N /\ N.iter k (after_wide n al) c = c.
Proof.
  intros n al c. destruct (rounds_bound n al) as (m & M & B). exists m. split; [|apply kinds_back_cube, B].
  split; [apply (longest_positive n), M|apply longest_most, M].
Qed.
Theorem C87_most_needed : forall n, exists al : list WideAxisMove, Forall (fits n) al /\
  forall c, cube_well_formed n c -> wide_rounds_needed n al c (most_wide_rounds n).
Proof. intros n. apply C87_all_occur. exists (most_wide_rounds n). split; [apply most_in|apply N.divide_refl]. Qed.
(** The rounds after which a cube is back are the multiples of the number needed. *)
Theorem C87_multiples : forall n (al : list WideAxisMove) c k, cube_well_formed n c -> wide_rounds_needed n al c k ->
  forall j, N.iter j (after_wide n al) c = c <-> (k | j)%N.
Proof.
  intros n al c k W (K & B & M) j. destruct (wide_alg_order n al) as (o & O & S).
  assert (X : forall j, N.iter j (after_wide n al) c = c <-> (o | j)%N).
  { intros i. rewrite <- S. split; [apply (cube_kinds_back n al i c W)|apply kinds_back_cube]. }
  assert (E : o = k).
  { apply X in B. pose proof (N.divide_pos_le _ _ K B) as L. destruct (N.eq_dec o k) as [E|E]; [exact E|exfalso].
    apply (M o); [lia|]. apply X, N.divide_refl. }
  subst o. apply X.
Qed.
(** On the 2x2x2 and 3x3x3 wide moves are plain moves, and these are the numbers of C83. *)
Theorem C87_small_sizes : forall n k, n = Size2 \/ n = Size3 -> possible_wide_rounds n k <-> In k (possible_rounds n).
Proof.
  assert (B : forall n m k, In m (longest_wide_rounds n) -> (k | m)%N -> In k (map N.of_nat (seq 1 (N.to_nat (most_wide_rounds n))))).
  { intros n m k M (r & E). pose proof (longest_positive n m M). pose proof (longest_most n m M).
    apply in_map_iff. exists (N.to_nat k). split; [apply N2Nat.id|]. apply in_seq. assert (k <> 0 /\ r <> 0)%N by lia. nia. }
  assert (T : forall n, n = Size2 \/ n = Size3 -> forallb (fun k => Bool.eqb (existsb (fun m => (m mod k =? 0)%N) (longest_wide_rounds n))
    (existsb (N.eqb k) (possible_rounds n))) (map N.of_nat (seq 1 (N.to_nat (most_wide_rounds n)))) = true).
  { intros n [->| ->]; vm_compute; reflexivity. }
  intros n k N. specialize (T n N). rewrite forallb_forall in T.
  assert (X : In k (map N.of_nat (seq 1 (N.to_nat (most_wide_rounds n)))) -> possible_wide_rounds n k <-> In k (possible_rounds n)).
  { intros I. assert (K : k <> 0%N) by (apply in_map_iff in I as (x & <- & I); apply in_seq in I; lia).
    specialize (T k I). apply eqb_prop in T. unfold possible_wide_rounds. split.
    - intros (m & M & D). assert (Y : existsb (fun m => (m mod k =? 0)%N) (longest_wide_rounds n) = true).
      { apply existsb_exists. exists m. split; [exact M|]. apply N.eqb_eq, N.mod_divide; assumption. }
      rewrite Y in T. symmetry in T. apply existsb_exists in T as (x & X & E). apply N.eqb_eq in E. subst x. exact X.
    - intros P. assert (Y : existsb (N.eqb k) (possible_rounds n) = true).
      { apply existsb_exists. exists k. split; [exact P|apply N.eqb_refl]. }
      rewrite Y in T. apply existsb_exists in T as (m & M & E). exists m. split; [exact M|]. apply N.mod_divide; [exact K|]. apply N.eqb_eq, E. }
  split.
  - intros (m & M & D). apply X; [apply (B n m k M D)|]. exists m. auto.
  - intros P. apply X; [|exact P]. apply in_map_iff. exists (N.to_nat k). split; [apply N2Nat.id|]. apply in_seq.
    pose proof (possible_positive n k P). pose proof (possible_most n k P). destruct N as [->| ->]; cbn [most_wide_rounds most_rounds] in *; lia.
Qed.

(** Uw2 Dw B2 Bw on a 4x4x4; 3Dw' D F2 Bw 3Fw2 3Lw' on a 7x7x7. *)
Example C87_example4 : forall c, cube_well_formed Size4 c ->
  wide_rounds_needed Size4 [mkWide 1 (mkMove fU Double); mkWide 1 (mkMove fD Single); mkWide 0 (mkMove fB Double); mkWide 1 (mkMove fB Single)] c 765765.
Proof. apply exact_wide_rounds; [lia|]. apply alg_rounds_spec. vm_compute. reflexivity. Qed.
Example C87_example7 : forall c, cube_well_formed Size7 c ->
  wide_rounds_needed Size7 [mkWide 2 (mkMove fD Inverse); mkWide 0 (mkMove fD Single); mkWide 0 (mkMove fF Double);
    mkWide 1 (mkMove fB Single); mkWide 2 (mkMove fF Double); mkWide 2 (mkMove fL Inverse)] c 5354228880.
Proof. apply exact_wide_rounds; [lia|]. apply alg_rounds_spec. vm_compute. reflexivity. Qed.
Print Assumptions C87_wide_rounds.
Print Assumptions C87_all_occur.
Print Assumptions C87_most_rounds.
Print Assumptions C87_most_needed.
Print Assumptions C87_multiples.
Print Assumptions C87_small_sizes.

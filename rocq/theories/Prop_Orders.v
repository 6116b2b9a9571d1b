(** C83: after how many rounds an alg comes back. *)

From Coq Require Import List Bool Arith NArith ZArith Lia.
From Verif Require Import Model_Base Model_Space Model_Moves Model_Pieces Model_PieceSet Model_Cubes
  Spec_Moves Spec_Sets Spec_BigLaws Spec_Words Proof_Words Proof_Orders.
Import ListNotations.
Open Scope nat_scope.

Lemma exact_rounds n al o :
  (0 < o)%N -> (forall k c, (o | k)%N -> N.iter k (after n al) c = c) ->
  (forall k c, cube_well_formed n c -> N.iter k (after n al) c = c -> (o | k)%N) ->
  forall c, cube_well_formed n c -> rounds_needed n al c o.
Proof.
  intros O K1 K2 c W. split; [exact O|]. split; [apply K1, N.divide_refl|].
  intros j J H. apply K2 in H; [|exact W]. apply N.divide_pos_le in H; lia.
Qed.
(** Every alg needs one of these numbers of rounds, the same one for every cube. *)
Theorem C83_rounds : forall n (al : list AxisMove), exists k, In k (possible_rounds n) /\
  forall c, cube_well_formed n c -> rounds_needed n al c k.
Proof.
  intros n al. destruct (alg_order n al) as (o & I & K1 & K2). exists o. split; [exact I|].
  apply exact_rounds; [apply (possible_positive n), I|exact K1|exact K2].
Qed.
(** Each of them is needed by some alg. *)
Theorem C83_all_occur : forall n k, In k (possible_rounds n) -> exists al : list AxisMove,
  forall c, cube_well_formed n c -> rounds_needed n al c k.
Proof.
  intros n k I. destruct (all_occur n k I) as (al & K1 & K2). exists al.
  apply exact_rounds; [apply (possible_positive n), I|exact K1|exact K2].
Qed.
(** So no alg has to be repeated more than 1260 times (45 times on the even sizes), whatever
    the cube it is applied to, and some alg has to be repeated that often. *)
Theorem C83_most_rounds : forall n (al : list AxisMove) (c : CubeOf n), exists k,
  (0 < k <= most_rounds n)%N /\ N.iter k (after n al) c = c.
Proof.
  intros n al c. destruct (alg_order n al) as (o & I & K1 & K2). exists o. split; [|apply K1, N.divide_refl].
  split; [apply (possible_positive n), I|apply (possible_most n), I].
Qed.
Theorem C83_most_needed : forall n, exists al : list AxisMove,
  forall c, cube_well_formed n c -> rounds_needed n al c (most_rounds n).
Proof. intros n. apply C83_all_occur. destruct n; vm_compute; tauto. Qed.
(** The rounds after which a cube is back are the multiples of the number needed. *)
Theorem C83_multiples : forall n (al : list AxisMove) c k, cube_well_formed n c -> rounds_needed n al c k ->
  forall j, N.iter j (after n al) c = c <-> (k | j)%N.
Proof.
  intros n al c k W (K & B & M) j. destruct (alg_order n al) as (o & I & K1 & K2). apply possible_positive in I.
  assert (E : o = k).
  { pose proof (K2 k c W B) as D. apply N.divide_pos_le in D; [|exact K]. destruct (N.eq_dec o k) as [E|E]; [exact E|exfalso].
    apply (M o); [lia|apply K1, N.divide_refl]. }
  subst o. split; [apply K2, W|apply K1].
Qed.

(** B' U D2 L' U on a 7x7x7. *)
Example C83_example : forall c, cube_well_formed Size7 c ->
  rounds_needed Size7 [mkMove fB Inverse; mkMove fU Single; mkMove fD Double; mkMove fL Inverse; mkMove fU Single] c 1260.
Proof.
  intros c W. assert (K : forall k, core_back Size7 [mB'; mU; mD2; mL'; mU] k <-> (1260 | N.of_nat k)%N) by (apply word_rounds_spec; vm_compute; reflexivity).
  apply exact_rounds; [lia| | |exact W].
  - intros k c' D. apply core_all_cubes, K. rewrite N2Nat.id. exact D.
  - intros k c' W' H. apply cube_core_back in H; [|exact W']. apply K in H. rewrite N2Nat.id in H. exact H.
Qed.
Print Assumptions C83_rounds.
Print Assumptions C83_all_occur.
Print Assumptions C83_most_rounds.
Print Assumptions C83_most_needed.
Print Assumptions C83_multiples.

(** Arithmetic of the indices of partial cubes: mixed radix numbers and rankings of
    dispositions, for arbitrary sizes. *)

From Coq Require Import List Bool Arith NArith ZArith Lia ZifyBool ZifyN ZifyNat.
From Verif Require Import Model_Base Model_Space Model_Moves Model_Pieces Model_PieceSet Model_Cubes Model_Invariants Model_Mus
  Spec_Invariants Spec_Mus Proof_Sets Proof_Random.
Import ListNotations.
Local Open Scope nat_scope.

(* ------------------------------------------------------------------ *)
(** * Multipliers *)

(** (it+1) (it+2) ... (it+k). *)
Fixpoint rising (it : N) (k : nat) : N :=
  match k with 0 => 1 | S k => (rising it k * (it + N.of_nat (S k)))%N end.
Lemma rising_front it k : rising it (S k) = ((it + 1) * rising (it + 1) k)%N.
Proof.
  induction k as [|k IH]; [cbn [rising]; lia|]. change (rising it (S (S k))) with (rising it (S k) * (it + N.of_nat (S (S k))))%N.
  rewrite IH. cbn [rising]. nia.
Qed.
Lemma rising_pos it k : (0 < rising it k)%N.
Proof. induction k; cbn [rising]; nia. Qed.

(** The multipliers for choosing [n] things one after the other, the last from [it + 1]. *)
Fixpoint mults (it : N) (n : nat) : list N :=
  match n with 0 => [] | S n => rising it n :: mults it n end.
Lemma mults_rev it n : mults it n = map (rising it) (rev (seq 0 n)).
Proof.
  induction n as [|n IH]; [reflexivity|]. rewrite seq_S, rev_app_distr. cbn [rev app map mults plus]. rewrite IH. reflexivity.
Qed.
Lemma multipliers_loop_spec n : forall it m out,
  multipliers_loop n it m out = map (fun k => (m * rising it k)%N) (rev (seq 0 n)) ++ out.
Proof.
  induction n as [|n IH]; intros it m out; [reflexivity|]. cbn [multipliers_loop]. rewrite IH.
  cbn [seq rev]. rewrite map_app. cbn [map rising]. rewrite N.mul_1_r, <- app_assoc. cbn [app]. f_equal.
  rewrite <- seq_shift, <- map_rev, map_map. apply map_ext. intros k. rewrite rising_front. lia.
Qed.
Lemma disposition_multipliers_spec n t : n <= t -> disposition_multipliers n t = mults (N.of_nat (t - n)) n.
Proof.
  intros H. unfold disposition_multipliers. rewrite multipliers_loop_spec, app_nil_r, mults_rev.
  replace (N.of_nat t - N.of_nat n)%N with (N.of_nat (t - n)) by lia. apply map_ext. intros k. lia.
Qed.

(* ------------------------------------------------------------------ *)
(** * Mixed radix *)

(** The value of a list of choices. *)
Fixpoint enc (it : N) (cs : list nat) : N :=
  match cs with [] => 0 | c :: cs => (N.of_nat c * rising it (length cs) + enc it cs)%N end.
(** Each choice is smaller than the number of remaining things. *)
Fixpoint choices_ok (it : N) (cs : list nat) : Prop :=
  match cs with [] => True | c :: cs => (N.of_nat c < it + N.of_nat (S (length cs)))%N /\ choices_ok it cs end.

Lemma fold_add_N l : forall a, fold_left N.add l a = (a + fold_left N.add l 0)%N.
Proof. induction l as [|x l IH]; intros a; cbn [fold_left]; [lia|]. rewrite IH, (IH (0 + x)%N). lia. Qed.
Lemma enc_fold it cs : fold_left N.add (map (fun x => (N.of_nat (fst x) * snd x)%N) (combine cs (mults it (length cs)))) 0%N = enc it cs.
Proof.
  induction cs as [|c cs IH]; [reflexivity|]. cbn [length mults combine map fold_left fst snd]. rewrite fold_add_N, IH. cbn [enc]. lia.
Qed.
Lemma enc_bound it cs : choices_ok it cs -> (enc it cs < rising it (length cs))%N.
Proof.
  induction cs as [|c cs IH]; [cbn; lia|]. intros [H K]. specialize (IH K). cbn [enc length rising]. nia.
Qed.
Lemma decode_enc it cs : choices_ok it cs -> deindex_choices_loop (mults it (length cs)) (enc it cs) = cs.
Proof.
  induction cs as [|c cs IH]; [reflexivity|]. intros [H K]. cbn [length mults deindex_choices_loop enc].
  pose proof (enc_bound it cs K) as B. pose proof (rising_pos it (length cs)) as P.
  rewrite N.div_add_l by lia. rewrite N.div_small by exact B. rewrite N.add_0_r, Nat2N.id.
  rewrite (N.add_comm (_ * _)), N.mod_add by lia. rewrite N.mod_small by exact B. rewrite IH by exact K. reflexivity.
Qed.
Lemma decode_ok it n : forall i, (i < rising it n)%N ->
  let cs := deindex_choices_loop (mults it n) i in length cs = n /\ choices_ok it cs /\ enc it cs = i.
Proof.
  induction n as [|n IH]; intros i H; cbn zeta.
  - cbn [rising] in H. cbn. repeat split; lia.
  - cbn [mults deindex_choices_loop]. pose proof (rising_pos it n) as P.
    destruct (IH (i mod rising it n)%N) as (L & C & E); [apply N.mod_lt; lia|].
    cbn [length choices_ok enc]. rewrite L, E. split; [reflexivity|]. split; [split; [|exact C]|].
    + rewrite N2Nat.id. cbn [rising] in H. apply N.div_lt_upper_bound; lia.
    + rewrite N2Nat.id. rewrite (N.div_mod i (rising it n)) at 3 by lia. lia.
Qed.

(* ------------------------------------------------------------------ *)
(** * Choices and places *)

Definition free (used : list bool) (i : nat) : list (nat * bool) :=
  filter (fun x => negb (snd x)) (combine (seq i (length used)) used).
Lemma free_cons b used i : free (b :: used) i = if b then free used (S i) else (i, false) :: free used (S i).
Proof. unfold free. cbn [length seq combine filter snd]. destruct b; reflexivity. Qed.
Lemma count_firstn l : forall e, count_true (firstn e l) <= e.
Proof.
  unfold count_true. induction l as [|b l IH]; intros [|e]; cbn; try lia.
  specialize (IH e). destruct b; cbn; lia.
Qed.
Lemma count_cons b l : count_true (b :: l) = (if b then 1 else 0) + count_true l.
Proof. unfold count_true. cbn. destruct b; reflexivity. Qed.

Lemma free_at used : forall e i, nth_error used e = Some false ->
  nth_error (free used i) (e - count_true (firstn e used)) = Some (i + e, false).
Proof.
  induction used as [|b used IH]; intros [|e] i H; try discriminate H.
  - injection H as ->. rewrite free_cons. cbn. rewrite Nat.add_0_r. reflexivity.
  - cbn [nth_error] in H. rewrite free_cons. cbn [firstn]. rewrite count_cons. pose proof (count_firstn used e).
    specialize (IH e (S i) H). replace (i + S e) with (S i + e) by lia. destruct b.
    + exact IH.
    + replace (S e - (0 + count_true (firstn e used))) with (S (e - count_true (firstn e used))) by lia. exact IH.
Qed.
Lemma free_inv used : forall k i x, nth_error (free used i) k = Some x ->
  exists e, x = (i + e, false) /\ nth_error used e = Some false /\ e - count_true (firstn e used) = k.
Proof.
  induction used as [|b used IH]; intros k i x H; [destruct k; discriminate H|].
  rewrite free_cons in H. destruct b.
  - destruct (IH _ _ _ H) as (e & -> & E & K). exists (S e). cbn [nth_error firstn]. rewrite count_cons.
    split; [f_equal; lia|]. split; [exact E|]. lia.
  - destruct k as [|k]; cbn [nth_error] in H.
    + injection H as <-. exists 0. cbn. rewrite Nat.add_0_r. auto.
    + destruct (IH _ _ _ H) as (e & -> & E & K). exists (S e). cbn [nth_error firstn]. rewrite count_cons.
      pose proof (count_firstn used e). split; [f_equal; lia|]. split; [exact E|]. lia.
Qed.
Lemma free_length used i : length (free used i) + count_true used = length used.
Proof.
  revert i. induction used as [|b used IH]; intros i; [reflexivity|]. rewrite free_cons, count_cons. specialize (IH (S i)).
  destruct b; cbn [length]; lia.
Qed.

Lemma nth_unused_at used e : nth_error used e = Some false ->
  nth_unused used (e - count_true (firstn e used)) = Some e.
Proof. intros H. unfold nth_unused. fold (free used 0). rewrite (free_at used e 0 H). reflexivity. Qed.
Lemma nth_unused_some used k : k + count_true used < length used ->
  exists e, nth_unused used k = Some e /\ nth_error used e = Some false /\ e - count_true (firstn e used) = k.
Proof.
  intros H. pose proof (free_length used 0) as L. unfold nth_unused. fold (free used 0).
  destruct (nth_error (free used 0) k) as [x|] eqn:E.
  - destruct (free_inv used k 0 x E) as (e & -> & F & K). exists e. auto.
  - apply nth_error_None in E. lia.
Qed.
Lemma nth_unused_none used k : length used <= k + count_true used -> nth_unused used k = None.
Proof.
  intros H. pose proof (free_length used 0) as L. unfold nth_unused. fold (free used 0).
  replace (nth_error (free used 0) k) with (@None (nat * bool)); [reflexivity|]. symmetry. apply nth_error_None. lia.
Qed.

Lemma set_nth_length {A} (l : list A) : forall i x, length (set_nth l i x) = length l.
Proof. induction l as [|a l IH]; intros [|i] x; cbn; auto. Qed.
Lemma set_nth_other {A} (l : list A) : forall i j x, i <> j -> nth_error (set_nth l i x) j = nth_error l j.
Proof. induction l as [|a l IH]; intros [|i] [|j] x H; cbn; auto; try congruence. Qed.
Lemma set_nth_same {A} (l : list A) : forall i x, i < length l -> nth_error (set_nth l i x) i = Some x.
Proof. induction l as [|a l IH]; intros [|i] x H; cbn in *; try lia; auto. apply IH. lia. Qed.
Lemma count_set used : forall e, nth_error used e = Some false -> count_true (set_nth used e true) = S (count_true used).
Proof.
  induction used as [|b used IH]; intros [|e] H; try discriminate H; cbn [set_nth]; rewrite !count_cons.
  - injection H as ->. reflexivity.
  - rewrite IH by exact H. lia.
Qed.
Lemma nth_error_lt {A} (l : list A) i x : nth_error l i = Some x -> i < length l.
Proof. intros H. apply nth_error_Some. rewrite H. discriminate. Qed.

(** Different unused places give admissible choices, from which the places are recovered. *)
Lemma choices_of_places input : forall used it, NoDup input -> (forall e, In e input -> nth_error used e = Some false) ->
  N.of_nat (length used) = (it + N.of_nat (length input + count_true used))%N ->
  exists cs, choices_loop used input = Done cs /\ length cs = length input /\ choices_ok it cs /\
    permutations_loop used cs = Done input.
Proof.
  induction input as [|e input IH]; intros used it ND F L.
  - exists []. cbn. auto.
  - inversion ND as [|? ? NI ND']; subst. pose proof (F e (or_introl eq_refl)) as Fe.
    destruct (IH (set_nth used e true) it ND') as (cs & E & LC & C & P).
    + intros e' H'. rewrite set_nth_other; [apply F; right; exact H'|]. intros ->. apply NI, H'.
    + rewrite set_nth_length, count_set by exact Fe. cbn [length] in L. lia.
    + exists ((e - count_true (firstn e used)) :: cs). cbn [choices_loop].
      pose proof (nth_error_lt _ _ _ Fe) as B. replace (e <? length used) with true by lia.
      rewrite E. cbn [map_o]. split; [reflexivity|]. cbn [length choices_ok permutations_loop]. rewrite LC. split; [reflexivity|].
      rewrite nth_unused_at by exact Fe. rewrite P. cbn [map_o]. split; [split; [|exact C]|reflexivity].
      pose proof (free_at used e 0 Fe) as G. apply nth_error_lt in G. pose proof (free_length used 0). cbn [length] in L. lia.
Qed.
(** Admissible choices give different unused places, from which the choices are recovered. *)
Lemma places_of_choices cs : forall used it, choices_ok it cs ->
  N.of_nat (length used) = (it + N.of_nat (length cs + count_true used))%N ->
  exists input, permutations_loop used cs = Done input /\ length input = length cs /\ NoDup input /\
    (forall e, In e input -> nth_error used e = Some false) /\ choices_loop used input = Done cs.
Proof.
  induction cs as [|c cs IH]; intros used it C L.
  - exists []. cbn. repeat split; [constructor|intros e []].
  - destruct C as [C C']. cbn [length] in L.
    destruct (nth_unused_some used c) as (e & U & Fe & K); [lia|].
    destruct (IH (set_nth used e true) it C') as (input & P & LI & ND & F & E).
    + rewrite set_nth_length, count_set by exact Fe. lia.
    + exists (e :: input). cbn [permutations_loop choices_loop]. rewrite U, P. cbn [map_o]. split; [reflexivity|].
      cbn [length]. rewrite LI. split; [reflexivity|]. pose proof (nth_error_lt _ _ _ Fe) as B.
      assert (NI : ~ In e input). { intros H. apply F in H. rewrite set_nth_same in H by exact B. discriminate H. }
      split; [constructor; assumption|]. split.
      * intros e' [<-|H']; [exact Fe|]. pose proof (F e' H') as G. rewrite set_nth_other in G; [exact G|]. intros ->. apply NI, H'.
      * replace (e <? length used) with true by lia. rewrite E, K. reflexivity.
Qed.

(** Lists of [n] different places below [t]. *)
Definition disposition (n t : nat) (l : list nat) : Prop := length l = n /\ NoDup l /\ forall e, In e l -> e < t.

Lemma nth_repeat_false t e : e < t -> nth_error (repeat false t) e = Some false.
Proof. revert e. induction t as [|t IH]; intros [|e] H; cbn; try lia; auto. apply IH. lia. Qed.
Lemma count_repeat_false t : count_true (repeat false t) = 0.
Proof. unfold count_true. induction t; cbn; auto. Qed.
Lemma nth_repeat_lt {A} (x y : A) t e : nth_error (repeat x t) e = Some y -> e < t.
Proof. intros H. apply nth_error_lt in H. rewrite repeat_length in H. exact H. Qed.

Theorem position_index_ok n t l : n <= t -> disposition n t l ->
  exists i, position_disposition_index t l = Done i /\ (i < rising (N.of_nat (t - n)) n)%N /\ deindex_positions n t i = Done l.
Proof.
  intros Hn (L & ND & B).
  destruct (choices_of_places l (repeat false t) (N.of_nat (t - n)) ND) as (cs & E & LC & C & P).
  - intros e H. apply nth_repeat_false, B, H.
  - rewrite repeat_length, count_repeat_false. lia.
  - exists (enc (N.of_nat (t - n)) cs).
    unfold position_disposition_index, disposition_choices, deindex_positions, deindex_choices, choices_to_permutations.
    rewrite E. cbn [map_o]. rewrite disposition_multipliers_spec by lia. rewrite disposition_multipliers_spec by lia.
    rewrite <- LC. replace (t - length cs) with (t - n) by lia. rewrite enc_fold. split; [reflexivity|].
    assert (Ln : length cs = n) by lia. pose proof (enc_bound _ _ C) as EB. pose proof (decode_enc _ _ C) as DE.
    rewrite Ln in EB, DE. split; [exact EB|]. rewrite DE. exact P.
Qed.
Theorem position_deindex_ok n t i : n <= t -> (i < rising (N.of_nat (t - n)) n)%N ->
  exists l, deindex_positions n t i = Done l /\ disposition n t l /\ position_disposition_index t l = Done i.
Proof.
  intros Hn Hi. destruct (decode_ok (N.of_nat (t - n)) n i Hi) as (L & C & E). cbn zeta in *.
  destruct (places_of_choices (deindex_choices_loop (mults (N.of_nat (t - n)) n) i) (repeat false t) (N.of_nat (t - n)) C)
    as (l & P & LL & ND & F & CH).
  - rewrite repeat_length, count_repeat_false. lia.
  - exists l. unfold position_disposition_index, disposition_choices, deindex_positions, deindex_choices, choices_to_permutations.
    rewrite disposition_multipliers_spec by lia. split; [exact P|].
    split. { split; [lia|]. split; [exact ND|]. intros e H. apply F, nth_repeat_lt in H. exact H. }
    rewrite CH. cbn [map_o]. rewrite disposition_multipliers_spec by lia. rewrite LL.
    replace (t - length (deindex_choices_loop (mults (N.of_nat (t - n)) n) i)) with (t - n) by lia.
    rewrite enc_fold, E. reflexivity.
Qed.

(* ------------------------------------------------------------------ *)
(** * Orientations *)

(** Value of a list of digits, the first one is the most significant. *)
Fixpoint digits (base : N) (l : list nat) (acc : N) : N :=
  match l with [] => acc | o :: l => digits base l (acc * base + N.of_nat o)%N end.
Fixpoint value (base : N) (l : list nat) : N :=
  match l with [] => 0 | o :: l => (N.of_nat o * base ^ N.of_nat (length l) + value base l)%N end.

Lemma orientation_loop_app base l : forall x out m,
  orientation_loop base (l ++ [x]) out m = (orientation_loop base l out m + N.of_nat x * (m * base ^ N.of_nat (length l)))%N.
Proof.
  induction l as [|o l IH]; intros x out m; cbn [app orientation_loop length]; [rewrite N.pow_0_r; lia|].
  rewrite IH. rewrite Nat2N.inj_succ, N.pow_succ_r'. lia.
Qed.
Lemma orientation_index_value base l : orientation_permutation_index base l = value base l.
Proof.
  unfold orientation_permutation_index. induction l as [|o l IH]; [reflexivity|]. cbn [rev value].
  rewrite orientation_loop_app, IH, rev_length. lia.
Qed.
Lemma value_bound base l : (0 < base)%N -> (forall o, In o l -> (N.of_nat o < base)%N) -> (value base l < base ^ N.of_nat (length l))%N.
Proof.
  intros B. induction l as [|o l IH]; intros H; [cbn; lia|]. cbn [value length]. rewrite Nat2N.inj_succ, N.pow_succ_r'.
  specialize (IH (fun o' Ho => H o' (or_intror Ho))). pose proof (H o (or_introl eq_refl)). nia.
Qed.
Lemma deindex_value base l : forall rest acc, (0 < base)%N -> (forall o, In o l -> (N.of_nat o < base)%N) ->
  deindex_orientations_loop base (length l) (rest * base ^ N.of_nat (length l) + value base l)%N acc = l ++ acc.
Proof.
  intros rest acc B. revert rest acc. induction l as [|o l IH] using rev_ind; intros rest acc H; [reflexivity|].
  rewrite app_length, Nat.add_comm. cbn [length plus deindex_orientations_loop].
  assert (V : forall l, value base (l ++ [o]) = (value base l * base + N.of_nat o)%N).
  { clear. induction l as [|a l IH]; [cbn; lia|]. cbn [app value]. rewrite IH, app_length. cbn [length].
    rewrite Nat.add_comm. cbn [plus]. rewrite Nat2N.inj_succ, N.pow_succ_r'. lia. }
  rewrite V, Nat2N.inj_succ, N.pow_succ_r'.
  assert (Ho : (N.of_nat o < base)%N) by (apply H, in_or_app; right; left; reflexivity).
  replace (rest * (base * base ^ N.of_nat (length l)) + (value base l * base + N.of_nat o))%N
    with ((rest * base ^ N.of_nat (length l) + value base l) * base + N.of_nat o)%N by lia.
  rewrite N.div_add_l by lia. rewrite N.div_small by exact Ho. rewrite N.add_comm with (m := N.of_nat o), N.mod_add by lia.
  rewrite N.mod_small by exact Ho. rewrite N.add_0_r, Nat2N.id, IH.
  - rewrite <- app_assoc. reflexivity.
  - intros o' Ho'. apply H, in_or_app. left. exact Ho'.
Qed.
Lemma deindex_index base l : (0 < base)%N -> (forall o, In o l -> (N.of_nat o < base)%N) ->
  deindex_orientations base (length l) (orientation_permutation_index base l) = l.
Proof.
  intros B H. unfold deindex_orientations. rewrite orientation_index_value.
  rewrite <- (app_nil_r l) at 3. rewrite <- (deindex_value base l 0 [] B H). f_equal.
Qed.
Lemma deindex_digits base n : (0 < base)%N -> forall i acc,
  exists l, deindex_orientations_loop base n i acc = l ++ acc /\ length l = n /\
    (forall o, In o l -> (N.of_nat o < base)%N) /\ value base l = (i mod base ^ N.of_nat n)%N.
Proof.
  intros B. induction n as [|n IH]; intros i acc.
  - exists []. cbn. rewrite N.mod_1_r. repeat split; intros o [].
  - cbn [deindex_orientations_loop]. destruct (IH (i / base)%N (N.to_nat (i mod base) :: acc)) as (l & E & L & D & V).
    exists (l ++ [N.to_nat (i mod base)]). rewrite E, <- app_assoc. split; [reflexivity|].
    rewrite app_length. cbn [length]. split; [lia|]. split.
    + intros o H. apply in_app_or in H. destruct H as [H|[<-|[]]]; [apply D, H|]. rewrite N2Nat.id. apply N.mod_lt. lia.
    + assert (W : forall l, value base (l ++ [N.to_nat (i mod base)]) = (value base l * base + i mod base)%N).
      { clear. induction l as [|a l IH]; [cbn; lia|]. cbn [app value]. rewrite IH, app_length. cbn [length].
        rewrite Nat.add_comm. cbn [plus]. rewrite Nat2N.inj_succ, N.pow_succ_r'. lia. }
      rewrite W, V, Nat2N.inj_succ, N.pow_succ_r'. rewrite N.mod_mul_r by (try apply N.pow_nonzero; lia). lia.
Qed.
Lemma deindex_ok base n i : (0 < base)%N -> (i < base ^ N.of_nat n)%N ->
  let l := deindex_orientations base n i in
  length l = n /\ (forall o, In o l -> (N.of_nat o < base)%N) /\ orientation_permutation_index base l = i.
Proof.
  intros B H. cbn zeta. unfold deindex_orientations. destruct (deindex_digits base n B i []) as (l & -> & L & D & V).
  rewrite app_nil_r, orientation_index_value, V, N.mod_small by exact H. auto.
Qed.

Lemma deindex_out_of_range n t i : 0 < n <= t -> (rising (N.of_nat (t - n)) n <= i)%N -> deindex_positions n t i = Panic.
Proof.
  intros Hn Hi. destruct n as [|n]; [lia|]. unfold deindex_positions, deindex_choices, choices_to_permutations.
  rewrite disposition_multipliers_spec by lia. cbn [mults deindex_choices_loop permutations_loop].
  rewrite nth_unused_none; [reflexivity|]. rewrite repeat_length, count_repeat_false.
  pose proof (rising_pos (N.of_nat (t - S n)) n) as P. cbn [rising] in Hi.
  assert (N.of_nat t <= i / rising (N.of_nat (t - S n)) n)%N; [|lia].
  apply N.div_le_lower_bound; [lia|]. replace (N.of_nat t) with (N.of_nat (t - S n) + N.of_nat (S n))%N by lia. exact Hi.
Qed.

(* ------------------------------------------------------------------ *)
(** * Pieces *)

Lemma get_all_map {A} (l : list A) (f : nat -> A) is : (forall i, In i is -> nth_error l i = Some (f i)) ->
  get_all l is = Done (map f is).
Proof.
  induction is as [|i is IH]; intros H; [reflexivity|]. cbn [get_all map]. rewrite (H i (or_introl eq_refl)).
  rewrite IH; [reflexivity|]. intros j Hj. apply H. right. exact Hj.
Qed.
Lemma zip_mut_map {A B C} (f : A -> B -> A) (g : C -> A) (h : C -> B) l :
  zip_mut f (map g l) (map h l) = map (fun c => f (g c) (h c)) l.
Proof. induction l as [|c l IH]; [reflexivity|]. cbn. rewrite IH. reflexivity. Qed.
Lemma zip_mut_app {A B} (f : A -> B -> A) l : forall l2 r, length l = length r -> zip_mut f (l ++ l2) r = zip_mut f l r ++ l2.
Proof.
  induction l as [|a l IH]; intros l2 [|b r] H; try discriminate H; [destruct l2; reflexivity|].
  cbn [app zip_mut]. rewrite IH by (cbn in H; lia). reflexivity.
Qed.
Lemma zip_mut_combine {A B} (f : A -> B -> A) l : forall r, length l = length r ->
  zip_mut f l r = map (fun x => f (fst x) (snd x)) (combine l r).
Proof. induction l as [|a l IH]; intros [|b r] H; try discriminate H; [reflexivity|]. cbn. rewrite IH by (cbn in H; lia). reflexivity. Qed.
Lemma map_fst_combine {A B} (l : list A) : forall r : list B, length l = length r -> map fst (combine l r) = l.
Proof. induction l as [|a l IH]; intros [|b r] H; try discriminate H; [reflexivity|]. cbn. rewrite IH by (cbn in H; lia). reflexivity. Qed.
Lemma map_snd_combine {A B} (l : list A) : forall r : list B, length l = length r -> map snd (combine l r) = r.
Proof. induction l as [|a l IH]; intros [|b r] H; try discriminate H; [reflexivity|]. cbn. rewrite IH by (cbn in H; lia). reflexivity. Qed.
Lemma in_combine_both {A B} (l : list A) (r : list B) x : In x (combine l r) -> In (fst x) l /\ In (snd x) r.
Proof. destruct x as [a b]. intros H. split; [eapply in_combine_l|eapply in_combine_r]; exact H. Qed.

(** ** Edges *)

Definition solved_edge (i : nat) : Edge := nth i edge_solved (edge_oriented (AX, mkVec2 Positive Positive)).
Lemma solved_edge_at i : i < 12 -> nth_error edge_solved i = Some (solved_edge i).
Proof. intros H. do 12 (destruct i as [|i]; [reflexivity|]). lia. Qed.
Lemma edge_index_bound e : edge_position_index e < 12.
Proof. destruct e as [[] [[] []] o]; cbv; lia. Qed.
Lemma edge_orientation_bound e : (N.of_nat (edge_orientation_index e) < 2)%N.
Proof. destruct e as [a s []]; reflexivity. Qed.
Lemma edge_rebuild e : flip_if (solved_edge (edge_position_index e)) (edge_orientation_index e) = e.
Proof. destruct e as [[] [[] []] []]; reflexivity. Qed.
Lemma edge_built_position i o : i < 12 -> edge_position_index (flip_if (solved_edge i) o) = i.
Proof. intros H. unfold flip_if. do 12 (destruct i as [|i]; [destruct o; reflexivity|]). lia. Qed.
Lemma edge_built_orientation i o : i < 12 -> (N.of_nat o < 2)%N -> edge_orientation_index (flip_if (solved_edge i) o) = o.
Proof.
  intros H K. destruct o as [|[|o]]; [| |lia]; do 12 (destruct i as [|i]; [reflexivity|]); lia.
Qed.
Lemma edge_index_inj e e' : edge_position_index e = edge_position_index e' -> edge_position e = edge_position e'.
Proof. destruct e as [[] [[] []] o], e' as [[] [[] []] o']; first [reflexivity|discriminate]. Qed.
Lemma nodup_map_iff {A B C} (f : A -> B) (g : A -> C) l : (forall a b, f a = f b <-> g a = g b) ->
  NoDup (map f l) <-> NoDup (map g l).
Proof.
  intros H. induction l as [|a l IH]; [split; constructor|]. cbn [map]. rewrite !NoDup_cons_iff, IH, !in_map_iff.
  split; intros [N D]; (split; [|exact D]); intros (b & E & Hb); apply N; exists b; (split; [|exact Hb]); apply H; exact E.
Qed.
Lemma edge_index_position es : NoDup (map edge_position_index es) <-> NoDup (map edge_position es).
Proof.
  apply nodup_map_iff. intros a b. split; [apply edge_index_inj|].
  unfold edge_position_index, edge_position_index_o. intros ->. reflexivity.
Qed.
Lemma edge_disposition es : half_edge_state es -> disposition 6 12 (map edge_position_index es).
Proof.
  intros [L D]. split; [rewrite map_length; exact L|]. split; [apply edge_index_position, D|].
  intros i H. apply in_map_iff in H. destruct H as (e & <- & _). apply edge_index_bound.
Qed.
Lemma edge_orientations es : forall o, In o (map edge_orientation_index es) -> (N.of_nat o < 2)%N.
Proof. intros o H. apply in_map_iff in H. destruct H as (e & <- & _). apply edge_orientation_bound. Qed.

Lemma edges_numbering : numbering half_edge_state half_edge_states edges_index edges_from_index.
Proof.
  split.
  - intros es S. pose proof (edge_disposition es S) as D. destruct S as [L _].
    destruct (position_index_ok 6 12 _ ltac:(lia) D) as (p & Ep & Bp & Dp).
    change (rising (N.of_nat (12 - 6)) 6) with 665280%N in Bp.
    unfold edges_index. rewrite Ep. cbn [map_o].
    set (o := orientation_permutation_index 2 (map edge_orientation_index es)).
    assert (Bo : (o < 64)%N).
    { subst o. rewrite orientation_index_value. pose proof (value_bound 2 _ ltac:(lia) (edge_orientations es)) as V.
      rewrite map_length, L in V. exact V. }
    unfold half_edge_states, edges_orientation_set_size. exists (p * 64 + o)%N. split; [reflexivity|]. split; [lia|].
    unfold edges_from_index, edges_orientation_set_size. cbv zeta.
    replace ((p * 64 + o) / 64)%N with p by (rewrite N.div_add_l by lia; rewrite N.div_small by exact Bo; lia).
    replace ((p * 64 + o) mod 64)%N with o by (rewrite N.add_comm, N.mod_add by lia; rewrite N.mod_small by exact Bo; reflexivity).
    rewrite Dp. cbn [bind_o]. rewrite (get_all_map _ solved_edge).
    2:{ intros i H. apply solved_edge_at. apply D, H. }
    cbn [bind_o]. pose proof (deindex_index 2 _ ltac:(lia) (edge_orientations es)) as DO. rewrite map_length, L in DO.
    fold o in DO. rewrite DO, map_map, zip_mut_map. f_equal. rewrite <- (map_id es) at 2. apply map_ext. apply edge_rebuild.
  - intros i Hi. unfold half_edge_states in Hi.
    destruct (position_deindex_ok 6 12 (i / 64)%N ltac:(lia)) as (l & Dl & D & Ep).
    { change (rising (N.of_nat (12 - 6)) 6) with 665280%N. apply N.div_lt_upper_bound; lia. }
    destruct (deindex_ok 2 6 (i mod 64) ltac:(lia)) as (LO & BO & EO); [apply N.mod_lt; lia|]. cbn zeta in *.
    unfold edges_from_index, edges_orientation_set_size. cbv zeta. rewrite Dl. cbn [bind_o].
    rewrite (get_all_map _ solved_edge). 2:{ intros j H. apply solved_edge_at. apply D, H. }
    cbn [bind_o]. set (os := deindex_orientations 2 6 (i mod 64)) in *. destruct D as (LL & ND & B).
    assert (Z : zip_mut flip_if (map solved_edge l) os = map (fun x => flip_if (solved_edge (fst x)) (snd x)) (combine l os)).
    { assert (E : length l = length os) by lia. clearbody os. clear - E. revert os E.
      induction l as [|a l IH]; intros [|b os] E; try discriminate E; [reflexivity|]. cbn. rewrite IH by (cbn in E; lia). reflexivity. }
    rewrite Z. eexists. split; [reflexivity|].
    assert (P : map edge_position_index (map (fun x => flip_if (solved_edge (fst x)) (snd x)) (combine l os)) = l).
    { rewrite map_map. transitivity (map fst (combine l os)); [|apply map_fst_combine; lia].
      apply map_ext_in. intros x Hx. apply in_combine_both in Hx. apply edge_built_position, B, Hx. }
    assert (Q : map edge_orientation_index (map (fun x => flip_if (solved_edge (fst x)) (snd x)) (combine l os)) = os).
    { rewrite map_map. transitivity (map snd (combine l os)); [|apply map_snd_combine; lia].
      apply map_ext_in. intros x Hx. apply in_combine_both in Hx. apply edge_built_orientation; [apply B, Hx|apply BO, Hx]. }
    split.
    + split; [rewrite map_length, combine_length; lia|]. apply edge_index_position. rewrite P. exact ND.
    + unfold edges_index. rewrite P, Q, Ep. cbn [map_o]. rewrite EO. f_equal.
      unfold edges_orientation_set_size. rewrite (N.div_mod i 64) at 3 by lia. lia.
Qed.

(** ** Corners *)

Definition solved_corner (i : nat) : Corner := nth i corner_solved (corner_oriented (mkVec3 Positive Positive Positive)).
Lemma solved_corner_at i : i < 8 -> nth_error corner_solved i = Some (solved_corner i).
Proof. intros H. do 8 (destruct i as [|i]; [reflexivity|]). lia. Qed.
Lemma corner_index_bound c : corner_position_index c < 8.
Proof. destruct c as [[[] [] []] a]; cbv; lia. Qed.
Lemma corner_orientation_bound c : (N.of_nat (corner_orientation_index c) < 3)%N.
Proof. destruct c as [[[] [] []] []]; reflexivity. Qed.
Lemma corner_rebuild c : twist_times (solved_corner (corner_position_index c)) (corner_orientation_index c) = c.
Proof. destruct c as [[[] [] []] []]; reflexivity. Qed.
Lemma corner_rebuild_pos c : c_pos (solved_corner (corner_position_index c)) = c_pos c.
Proof. destruct c as [[[] [] []] []]; reflexivity. Qed.
Lemma twist_times_pos n : forall c, c_pos (twist_times c n) = c_pos c.
Proof. induction n; intros c; cbn; auto. rewrite IHn. reflexivity. Qed.
Lemma corner_index_pos_only c c' : c_pos c = c_pos c' -> corner_position_index c = corner_position_index c'.
Proof. unfold corner_position_index, corner_position_index_o. intros ->. reflexivity. Qed.
Lemma solved_corner_index i : i < 8 -> corner_position_index (solved_corner i) = i.
Proof. intros H. do 8 (destruct i as [|i]; [reflexivity|]). lia. Qed.
Lemma corner_built_position i o : i < 8 -> corner_position_index (twist_times (solved_corner i) o) = i.
Proof. intros H. rewrite <- (solved_corner_index i H) at 2. apply corner_index_pos_only, twist_times_pos. Qed.
Lemma corner_built_orientation i o : i < 8 -> (N.of_nat o < 3)%N -> corner_orientation_index (twist_times (solved_corner i) o) = o.
Proof.
  intros H K. destruct o as [|[|[|o]]]; [| | |lia]; do 8 (destruct i as [|i]; [reflexivity|]); lia.
Qed.
Lemma corner_index_position cs : NoDup (map corner_position_index cs) <-> NoDup (map c_pos cs).
Proof.
  apply nodup_map_iff. intros a b. split; [|apply corner_index_pos_only].
  destruct a as [[[] [] []] x], b as [[[] [] []] y]; first [reflexivity|discriminate].
Qed.
Lemma corner_eq c c' : c_pos c = c_pos c' -> twists c mod 3 = twists c' mod 3 -> c = c'.
Proof. destruct c as [p a], c' as [p' a']. cbn [c_pos]. intros <-. destruct p as [[] [] []], a, a'; first [reflexivity|discriminate]. Qed.
Lemma mod3_cancel s a b : (s + a) mod 3 = 0 -> (s + b) mod 3 = 0 -> a mod 3 = b mod 3.
Proof.
  intros A B. rewrite Nat.add_mod in A, B by lia. pose proof (Nat.mod_upper_bound s 3 ltac:(lia)).
  pose proof (Nat.mod_upper_bound a 3 ltac:(lia)). pose proof (Nat.mod_upper_bound b 3 ltac:(lia)).
  destruct (s mod 3) as [|[|[|?]]]; [| | |lia]; destruct (a mod 3) as [|[|[|?]]]; try lia; destruct (b mod 3) as [|[|[|?]]]; try lia;
    cbn in A, B; lia.
Qed.
Lemma last_corner_unique l x y : c_pos x = c_pos y -> twists_divisible (l ++ [x]) -> twists_divisible (l ++ [y]) -> x = y.
Proof.
  intros P X Y. unfold twists_divisible in *. rewrite map_app in X, Y. cbn [map] in X, Y. rewrite list_sum_snoc in X, Y.
  apply corner_eq; [exact P|]. exact (mod3_cancel _ _ _ X Y).
Qed.
Lemma fix_corners_last l x : exists x', fix_corner_multiplicity_o (l ++ [x]) = Done (l ++ [x']) /\ c_pos x' = c_pos x /\ twists_divisible (l ++ [x']).
Proof.
  destruct (fix_corners_spec (l ++ [x])) as (cs' & E & P & D & _); [destruct l; discriminate|].
  assert (S : exists k, cs' = l ++ [twist_n k x]).
  { unfold fix_corner_multiplicity_o in E. cbv zeta in E. rewrite times_twist in E. cbn [bind_o] in E.
    destruct (Nat.eqb _ _); [|discriminate E]. injection E as <-. eexists. reflexivity. }
  destruct S as [k ->]. exists (twist_n k x). split; [exact E|]. split; [apply twist_n_pos|exact D].
Qed.
Lemma set_new_corners cs : NoDup (map c_pos cs) -> set_new corner_desc cs = Ok cs.
Proof. intros H. unfold set_new. rewrite (proj2 (validate_none corner_desc corner_desc_ok cs) H). reflexivity. Qed.

Lemma corner_disposition cs : length cs = 8 -> NoDup (map c_pos cs) -> disposition 8 8 (map corner_position_index cs).
Proof.
  intros L D. split; [rewrite map_length; exact L|]. split; [apply corner_index_position, D|].
  intros i H. apply in_map_iff in H. destruct H as (c & <- & _). apply corner_index_bound.
Qed.
Lemma corner_orientations cs : forall o, In o (map corner_orientation_index cs) -> (N.of_nat o < 3)%N.
Proof. intros o H. apply in_map_iff in H. destruct H as (c & <- & _). apply corner_orientation_bound. Qed.

(** For eight corners at different places the index is in range, whatever the twists. *)
Lemma corners_index_value cs : length cs = 8 -> NoDup (map c_pos cs) -> exists p o,
  corners_index cs = Done (p * 2187 + o)%N /\ (p < 40320)%N /\ (o < 2187)%N /\
  deindex_positions 8 8 p = Done (map corner_position_index cs) /\
  deindex_orientations 3 7 o = map corner_orientation_index (firstn 7 cs).
Proof.
  intros L ND. pose proof (corner_disposition cs L ND) as D.
  destruct (position_index_ok 8 8 _ ltac:(lia) D) as (p & Ep & Bp & Dp).
  exists p, (orientation_permutation_index 3 (map corner_orientation_index (firstn 7 cs))).
  unfold corners_index. rewrite Ep. cbn [map_o]. unfold corners_orientation_set_size.
  assert (LF : length (map corner_orientation_index (firstn 7 cs)) = 7) by (rewrite map_length, firstn_length, L; reflexivity).
  split; [reflexivity|]. split; [exact Bp|]. split; [|split; [exact Dp|]].
  - rewrite orientation_index_value. pose proof (value_bound 3 _ ltac:(lia) (corner_orientations (firstn 7 cs))) as V.
    rewrite LF in V. exact V.
  - pose proof (deindex_index 3 _ ltac:(lia) (corner_orientations (firstn 7 cs))) as DO. rewrite LF in DO. exact DO.
Qed.

Lemma corners_numbering : numbering corner_state corner_states corners_index corners_from_index.
Proof.
  split.
  - intros cs (L & ND & T).
    destruct (corners_index_value cs L ND) as (p & o & E & Bp & Bo & Dp & Do).
    exists (p * 2187 + o)%N. split; [exact E|]. split; [unfold corner_states; lia|].
    unfold corners_from_index, corners_orientation_set_size. cbv zeta.
    replace ((p * 2187 + o) / 2187)%N with p by (rewrite N.div_add_l by lia; rewrite N.div_small by exact Bo; lia).
    replace ((p * 2187 + o) mod 2187)%N with o by (rewrite N.add_comm, N.mod_add by lia; rewrite N.mod_small by exact Bo; reflexivity).
    rewrite Dp, Do. cbn [bind_o]. rewrite (get_all_map _ solved_corner).
    2:{ intros i H. apply solved_corner_at. apply (corner_disposition cs L ND), H. }
    cbn [bind_o]. destruct (nonempty_last cs) as (l & x & ->); [intros ->; discriminate L|].
    rewrite app_length in L. cbn [length] in L. assert (L7 : length l = 7) by lia.
    rewrite firstn_app, L7, Nat.sub_diag, firstn_O, app_nil_r, firstn_all2 by lia.
    rewrite !map_app. cbn [map]. rewrite zip_mut_app by (rewrite !map_length; reflexivity).
    rewrite map_map, zip_mut_map.
    assert (R : map (fun c => twist_times (solved_corner (corner_position_index c)) (corner_orientation_index c)) l = l).
    { rewrite <- (map_id l) at 2. apply map_ext. apply corner_rebuild. }
    rewrite R. rewrite set_new_corners.
    2:{ rewrite map_app in *. cbn [map] in *. rewrite corner_rebuild_pos. exact ND. }
    destruct (fix_corners_last l (solved_corner (corner_position_index x))) as (x' & F & P & D). rewrite F. do 3 f_equal.
    apply (last_corner_unique l); [|exact D|exact T]. rewrite P. apply corner_rebuild_pos.
  - intros i Hi. unfold corner_states in Hi.
    destruct (position_deindex_ok 8 8 (i / 2187)%N ltac:(lia)) as (ps & Dl & D & Ep).
    { change (rising (N.of_nat (8 - 8)) 8) with 40320%N. apply N.div_lt_upper_bound; lia. }
    destruct (deindex_ok 3 7 (i mod 2187) ltac:(lia)) as (LO & BO & EO); [apply N.mod_lt; lia|]. cbn zeta in *.
    unfold corners_from_index, corners_orientation_set_size. cbv zeta. rewrite Dl. cbn [bind_o].
    rewrite (get_all_map _ solved_corner). 2:{ intros j H. apply solved_corner_at. apply D, H. }
    cbn [bind_o]. set (os := deindex_orientations 3 7 (i mod 2187)) in *. destruct D as (LL & ND & B).
    destruct (nonempty_last ps) as (l & a & ->); [intros ->; discriminate LL|].
    rewrite app_length in LL. cbn [length] in LL. assert (L7 : length l = 7) by lia.
    rewrite map_app. cbn [map]. rewrite zip_mut_app by (rewrite map_length; lia).
    assert (Z : zip_mut twist_times (map solved_corner l) os = map (fun x => twist_times (solved_corner (fst x)) (snd x)) (combine l os)).
    { assert (E : length l = length os) by lia. clearbody os. clear - E. revert os E.
      induction l as [|a l IH]; intros [|b os] E; try discriminate E; [reflexivity|]. cbn. rewrite IH by (cbn in E; lia). reflexivity. }
    rewrite Z. set (cs := map (fun x => twist_times (solved_corner (fst x)) (snd x)) (combine l os)).
    assert (P : map corner_position_index cs = l).
    { subst cs. rewrite map_map. transitivity (map fst (combine l os)); [|apply map_fst_combine; lia].
      apply map_ext_in. intros x Hx. apply in_combine_both in Hx. apply corner_built_position, B, in_or_app. left. apply Hx. }
    assert (Q : map corner_orientation_index cs = os).
    { subst cs. rewrite map_map. transitivity (map snd (combine l os)); [|apply map_snd_combine; lia].
      apply map_ext_in. intros x Hx. apply in_combine_both in Hx.
      apply corner_built_orientation; [apply B, in_or_app; left; apply Hx|apply BO, Hx]. }
    assert (LC : length cs = 7) by (subst cs; rewrite map_length, combine_length; lia).
    assert (Ba : a < 8) by (apply B, in_or_app; right; left; reflexivity).
    assert (NP : NoDup (map c_pos (cs ++ [solved_corner a]))).
    { apply corner_index_position. rewrite map_app, P. cbn [map]. rewrite solved_corner_index by exact Ba. exact ND. }
    clearbody cs. rewrite set_new_corners by exact NP.
    destruct (fix_corners_last cs (solved_corner a)) as (x' & F & Px & D). rewrite F.
    eexists. split; [reflexivity|]. split.
    + split; [rewrite app_length; cbn; lia|]. split; [|exact D]. rewrite map_app in *. cbn [map] in *. rewrite Px. exact NP.
    + unfold corners_index. rewrite map_app, P. cbn [map]. rewrite (corner_index_pos_only _ _ Px), solved_corner_index by exact Ba.
      rewrite Ep. cbn [map_o]. rewrite firstn_app, LC, Nat.sub_diag, firstn_O, app_nil_r, firstn_all2 by lia.
      rewrite Q, EO. f_equal. unfold corners_orientation_set_size. rewrite (N.div_mod i 2187) at 3 by lia. lia.
Qed.

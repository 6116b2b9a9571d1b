(** Sorting an even permutation of 24 places with three-cycles of the places 0, 1 and c. *)

From Coq Require Import List Bool Arith Lia Permutation.
From Verif Require Import Model_Base Spec_Invariants Proof_Parity.
Import ListNotations.
Open Scope nat_scope.

(** 0 to 1, 1 to [c], [c] to 0; and back. *)
Definition three (c x : nat) : nat := if x =? 0 then 1 else if x =? 1 then c else if x =? c then 0 else x.
Definition three_back (c x : nat) : nat := if x =? 0 then c else if x =? 1 then 0 else if x =? c then 1 else x.

(** A list of such steps; the flag says which way. *)
Definition step (o : nat * bool) (x : nat) : nat := if snd o then three (fst o) x else three_back (fst o) x.
Definition steps (os : list (nat * bool)) (x : nat) : nat := fold_left (fun x o => step o x) os x.

Definition step_ok (o : nat * bool) : Prop := 2 <= fst o < 24.

Ltac nat_cases := repeat match goal with |- context [?a =? ?b] => destruct (Nat.eqb_spec a b) end.

Lemma step_inj o x y : step_ok o -> step o x = step o y -> x = y.
Proof. unfold step_ok, step, three, three_back. destruct o as [c []]; cbn [fst snd]; intros H; nat_cases; lia. Qed.
Lemma step_range o x : step_ok o -> x < 24 -> step o x < 24.
Proof. unfold step_ok, step, three, three_back. destruct o as [c []]; cbn [fst snd]; intros H; nat_cases; lia. Qed.
Lemma step_above o x : step_ok o -> fst o < x -> step o x = x.
Proof. unfold step_ok, step, three, three_back. destruct o as [c []]; cbn [fst snd]; intros H; nat_cases; lia. Qed.

Lemma steps_app a b x : steps (a ++ b) x = steps b (steps a x).
Proof. apply fold_left_app. Qed.

(** A step is an even permutation. *)
Lemma step_perm o l : step_ok o -> Permutation l (seq 0 24) -> Permutation (map (step o) l) (seq 0 24).
Proof.
  intros K P. apply NoDup_Permutation_bis.
  - pose proof (cyc_nodup _ _ P) as N. clear P. induction l as [|x l IH]; [constructor|]. inversion N; subst. cbn. constructor; auto.
    rewrite in_map_iff. intros (y & E & Hy). apply step_inj in E; auto. subst. contradiction.
  - rewrite map_length, (Permutation_length P), seq_length. lia.
  - intros x Hx. apply in_map_iff in Hx as (y & <- & Hy). apply (Permutation_in _ P) in Hy. apply in_seq in Hy. apply in_seq.
    pose proof (step_range o y K). lia.
Qed.
Lemma step_even_table : forallb (fun c => negb (odd_inv (map (step (c, true)) (seq 0 24))) && negb (odd_inv (map (step (c, false)) (seq 0 24)))) (seq 2 22) = true.
Proof. vm_compute. reflexivity. Qed.
Lemma step_even o l : step_ok o -> Permutation l (seq 0 24) -> odd_inv (map (step o) l) = odd_inv l.
Proof.
  intros K P. assert (E := odd_inv_map (step o) _ _ P).
  assert (Z : odd_inv (map (step o) (seq 0 24)) = false).
  { pose proof step_even_table as T. rewrite forallb_forall in T. specialize (T (fst o)). rewrite in_seq in T. unfold step_ok in K.
    specialize (T ltac:(lia)). apply andb_true_iff in T as [T1 T2]. destruct o as [c []]; cbn [fst snd] in *.
    - apply negb_true_iff, T1. - apply negb_true_iff, T2. }
  rewrite Z in E. change (odd_inv (seq 0 24)) with false in E.
  specialize (E (cyc_nodup _ _ P) (cyc_nodup _ _ (step_perm o l K P))).
  destruct (odd_inv (map (step o) l)), (odd_inv l); cbn in E; congruence.
Qed.

Lemma nth_map_step o l j : j < length l -> nth j (map (step o) l) 0 = step o (nth j l 0).
Proof. intros H. rewrite (nth_indep _ 0 (step o 0)) by (rewrite map_length; exact H). apply map_nth. Qed.

Definition sorted_from (i : nat) (l : list nat) : Prop := forall j, i <= j < 24 -> nth j l 0 = j.

Lemma nth_inj (l : list nat) i j : NoDup l -> i < length l -> j < length l -> nth i l 0 = nth j l 0 -> i = j.
Proof. intros N Hi Hj. apply NoDup_nth; assumption. Qed.

Lemma sort_from : forall i l, i <= 24 -> Permutation l (seq 0 24) -> odd_inv l = false -> sorted_from i l ->
  exists os, Forall step_ok os /\ length os <= 2 * (i - 2) /\ map (steps os) l = seq 0 24.
Proof.
  induction i as [|k IH]; intros l Hi P Ev S.
  { exists []. split; [constructor|]. split; [cbn; lia|].
    pose proof (Permutation_length P) as L. rewrite seq_length in L.
    unfold steps. cbn [fold_left]. rewrite map_id. apply (nth_ext _ _ 0 0); [rewrite seq_length; exact L|].
    intros n Hn. rewrite seq_nth by lia. apply S. lia. }
  pose proof (Permutation_length P) as L. rewrite seq_length in L. pose proof (cyc_nodup _ _ P) as N.
  set (p := nth k l 0).
  assert (Hp : p <= k).
  { assert (R : p < 24). { assert (In p l) by (apply nth_In; lia). apply (Permutation_in _ P) in H. apply in_seq in H. lia. }
    destruct (Nat.le_gt_cases p k) as [H|H]; [exact H|]. exfalso.
    assert (E : nth p l 0 = nth k l 0) by (rewrite S by lia; reflexivity). apply nth_inj in E; try lia; auto. }
  assert (Go : forall os0, Forall (fun o => step_ok o /\ fst o <= k) os0 -> length os0 <= 2 -> steps os0 p = k ->
            2 <= k -> exists os, Forall step_ok os /\ length os <= 2 * (1 + k - 2) /\ map (steps os) l = seq 0 24).
  { intros os0 F L0 T K.
    assert (A : forall os0 l, Forall (fun o => step_ok o /\ fst o <= k) os0 -> Permutation l (seq 0 24) -> odd_inv l = false ->
      Permutation (map (steps os0) l) (seq 0 24) /\ odd_inv (map (steps os0) l) = false).
    { clear. induction os0 as [|o os IHo]; intros l F P Ev; [unfold steps; cbn [fold_left]; rewrite map_id; auto|].
      inversion F as [|? ? [H _] F']; subst. specialize (IHo (map (step o) l) F' (step_perm _ _ H P)).
      rewrite step_even in IHo by assumption. specialize (IHo Ev). rewrite map_map in IHo. exact IHo. }
    destruct (A os0 l F P Ev) as [P' Ev']. clear A.
    assert (NM : forall j, j < 24 -> nth j (map (steps os0) l) 0 = steps os0 (nth j l 0)).
    { intros j Hj. rewrite (nth_indep _ 0 (steps os0 0)) by (rewrite map_length; lia). apply map_nth. }
    assert (Hab : forall j, k < j -> steps os0 j = j).
    { clear - F. intros j Hj. induction F as [|o os [K B] F IHo]; [reflexivity|]. unfold steps. cbn [fold_left].
      rewrite step_above by (auto; lia). exact IHo. }
    destruct (IH (map (steps os0) l) ltac:(lia) P' Ev') as (os & Fo & Lo & E).
    { intros j Hj. rewrite NM by lia. destruct (Nat.eq_dec j k) as [->|D]; [exact T|]. rewrite S by lia. apply Hab. lia. }
    exists (os0 ++ os). split; [apply Forall_app; split; [|exact Fo]|split].
    - eapply Forall_impl; [|exact F]. intros o H. apply H.
    - rewrite app_length. lia.
    - rewrite <- E, map_map. apply map_ext. intros x. apply steps_app. }
  destruct (Nat.le_gt_cases 2 k) as [K|K].
  - assert (KK : step_ok (k, true) /\ fst (k, true) <= k) by (unfold step_ok; cbn; lia).
    assert (KB : step_ok (k, false) /\ fst (k, false) <= k) by (unfold step_ok; cbn; lia).
    destruct (Nat.eq_dec p k) as [E|D]; [apply (Go []); auto; cbn; lia|].
    destruct (Nat.eq_dec p 0) as [E0|D0]; [apply (Go [(k, false)]); auto; [rewrite E0; reflexivity]|].
    destruct (Nat.eq_dec p 1) as [E1|D1]; [apply (Go [(k, true)]); auto; [rewrite E1; reflexivity]|].
    apply (Go [(p, true); (k, false)]); auto.
    + constructor; [|constructor; [exact KB|constructor]]. unfold step_ok. cbn. lia.
    + unfold steps. cbn [fold_left]. assert (E : step (p, true) p = 0).
      { unfold step, three. cbn [fst snd]. nat_cases; lia. }
      rewrite E. reflexivity.
  - (* only the places 0 and 1 are left *)
    exists []. split; [constructor|]. split; [cbn; lia|]. unfold steps. cbn [fold_left]. rewrite map_id.
    assert (E : exists a b, l = a :: b :: seq 2 22 /\ ((a = 0 /\ b = 1) \/ (a = 1 /\ b = 0))).
    { destruct l as [|a [|b r]]; try (cbn in L; lia). exists a, b.
      assert (Er : r = seq 2 22).
      { apply (nth_ext _ _ 0 0); [rewrite seq_length; cbn in L; lia|]. intros n Hn. cbn in L. rewrite seq_nth by lia.
        specialize (S (2 + n) ltac:(lia)). exact S. }
      split; [rewrite Er; reflexivity|]. subst r. inversion N as [|? ? N1 N2]; subst. inversion N2 as [|? ? N3 _]; subst.
      assert (Ha : a < 24) by (assert (H : In a (seq 0 24)) by (apply (Permutation_in _ P); left; reflexivity); apply in_seq in H; lia).
      assert (Hb : b < 24) by (assert (H : In b (seq 0 24)) by (apply (Permutation_in _ P); right; left; reflexivity); apply in_seq in H; lia).
      assert (a < 2) by (destruct (Nat.le_gt_cases 2 a); [exfalso; apply N1; right; apply (in_seq 22 2); lia|lia]).
      assert (b < 2) by (destruct (Nat.le_gt_cases 2 b); [exfalso; apply N3; apply (in_seq 22 2); lia|lia]).
      assert (a <> b) by (intros ->; apply N1; left; reflexivity). lia. }
    destruct E as (a & b & -> & [[-> ->]|[-> ->]]); [reflexivity|]. vm_compute in Ev. discriminate Ev.
Qed.

Lemma sort_even l : Permutation l (seq 0 24) -> odd_inv l = false ->
  exists os, Forall step_ok os /\ length os <= 44 /\ map (steps os) l = seq 0 24.
Proof. intros P E. destruct (sort_from 24 l) as (os & F & L & M); auto. { intros j H. lia. } exists os. auto. Qed.

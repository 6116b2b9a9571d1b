(** Inversion parity of permutations, and the cycle-counting loop. *)

From Coq Require Import List Bool Arith ZArith Lia Permutation.
From Verif Require Import Model_Base Model_Space Model_Moves Model_Pieces Model_PieceSet Model_Cubes
  Model_Invariants Spec_Sets Spec_Invariants Proof_Sets.
Import ListNotations.
Open Scope nat_scope.

(* ------------------------------------------------------------------ *)
(** * Inversion parity *)

Definition odd_inv (l : list nat) : bool := Nat.odd (inversions l).

Lemma even_permutation_odd l : even_permutation l = negb (odd_inv l).
Proof. unfold even_permutation, odd_inv. rewrite <- Nat.negb_odd. reflexivity. Qed.

Definition xor_all {A} (f : A -> bool) (l : list A) : bool := fold_right (fun x b => xorb (f x) b) false l.

Lemma xor_all_cons {A} (f : A -> bool) a l : xor_all f (a :: l) = xorb (f a) (xor_all f l).
Proof. reflexivity. Qed.

Fixpoint pairs_xor {A} (g : A -> A -> bool) (l : list A) : bool :=
  match l with
  | [] => false
  | x :: r => xorb (xor_all (g x) r) (pairs_xor g r)
  end.

Lemma odd_filter {A} (f : A -> bool) l : Nat.odd (length (filter f l)) = xor_all f l.
Proof.
  induction l as [|a l IH]; [reflexivity|]. cbn [filter xor_all fold_right]. destruct (f a); cbn [length].
  - rewrite Nat.odd_succ, <- Nat.negb_odd, IH. reflexivity.
  - rewrite IH. destruct (fold_right _ _ l) eqn:E; unfold xor_all; rewrite E; reflexivity.
Qed.

Lemma odd_inv_pairs l : odd_inv l = pairs_xor (fun x y => y <? x) l.
Proof.
  unfold odd_inv. induction l as [|a l IH]; [reflexivity|].
  cbn [inversions pairs_xor]. rewrite Nat.odd_add, odd_filter, IH. reflexivity.
Qed.

Lemma xor_all_perm {A} (f : A -> bool) l1 l2 : Permutation l1 l2 -> xor_all f l1 = xor_all f l2.
Proof.
  intros P. induction P; cbn.
  - reflexivity.
  - f_equal. exact IHP.
  - destruct (f x), (f y); cbn; try reflexivity; fold (xor_all f l); destruct (xor_all f l); reflexivity.
  - etransitivity; eauto.
Qed.

Lemma pairs_xor_perm {A} (g : A -> A -> bool) (S : forall x y, g x y = g y x) l1 l2 :
  Permutation l1 l2 -> pairs_xor g l1 = pairs_xor g l2.
Proof.
  intros P. induction P; cbn [pairs_xor].
  - reflexivity.
  - rewrite IHP, (xor_all_perm _ _ _ P). reflexivity.
  - rewrite !xor_all_cons, (S y x). destruct (g x y), (xor_all (g y) l), (xor_all (g x) l), (pairs_xor g l); reflexivity.
  - etransitivity; eauto.
Qed.

Lemma xor_all_ext {A} (f g : A -> bool) l : (forall x, In x l -> f x = g x) -> xor_all f l = xor_all g l.
Proof.
  induction l as [|a l IH]; intros H; [reflexivity|]. cbn. rewrite H by (left; reflexivity).
  f_equal. apply IH. intros x Hx. apply H. right. exact Hx.
Qed.

Lemma xor_all_xor {A} (f g : A -> bool) l : xor_all (fun x => xorb (f x) (g x)) l = xorb (xor_all f l) (xor_all g l).
Proof.
  induction l as [|a l IH]; [reflexivity|]. cbn. fold (xor_all f l) (xor_all g l) (xor_all (fun x => xorb (f x) (g x)) l).
  rewrite IH. destruct (f a), (g a), (xor_all f l), (xor_all g l); reflexivity.
Qed.

Lemma xor_all_map {A B} (f : B -> bool) (h : A -> B) l : xor_all f (map h l) = xor_all (fun x => f (h x)) l.
Proof. induction l as [|a l IH]; [reflexivity|]. cbn. f_equal. exact IH. Qed.

Lemma pairs_xor_map {A B} (g : B -> B -> bool) (h : A -> B) l :
  pairs_xor g (map h l) = pairs_xor (fun x y => g (h x) (h y)) l.
Proof. induction l as [|a l IH]; [reflexivity|]. cbn. rewrite xor_all_map, IH. reflexivity. Qed.

Lemma pairs_xor_xor {A} (f g : A -> A -> bool) l :
  pairs_xor (fun x y => xorb (f x y) (g x y)) l = xorb (pairs_xor f l) (pairs_xor g l).
Proof.
  induction l as [|a l IH]; [reflexivity|]. cbn. rewrite xor_all_xor, IH.
  destruct (xor_all (f a) l), (xor_all (g a) l), (pairs_xor f l), (pairs_xor g l); reflexivity.
Qed.

Lemma pairs_xor_ext {A} (f g : A -> A -> bool) l : NoDup l ->
  (forall x y, In x l -> In y l -> x <> y -> f x y = g x y) -> pairs_xor f l = pairs_xor g l.
Proof.
  induction l as [|a l IH]; intros N H; [reflexivity|]. inversion N; subst. cbn. f_equal.
  - apply xor_all_ext. intros x Hx. apply H; [left; reflexivity|right; exact Hx|]. intros ->. contradiction.
  - apply IH; auto. intros x y Hx Hy. apply H; right; auto.
Qed.

(** Renaming the values of a permutation by an injective function changes the parity by
    an amount that depends only on the set of values. *)
Lemma odd_inv_map (h : nat -> nat) l1 l2 : Permutation l1 l2 -> NoDup l1 -> NoDup (map h l1) ->
  xorb (odd_inv (map h l1)) (odd_inv l1) = xorb (odd_inv (map h l2)) (odd_inv l2).
Proof.
  intros P N Nh.
  set (g := fun x y : nat => (Z.mul (Z.of_nat (h x) - Z.of_nat (h y)) (Z.of_nat x - Z.of_nat y) <? 0)%Z).
  assert (E : forall l, Permutation l1 l -> xorb (odd_inv (map h l)) (odd_inv l) = pairs_xor g l).
  { intros l Pl. rewrite !odd_inv_pairs, pairs_xor_map, <- pairs_xor_xor. apply pairs_xor_ext.
    { apply (Permutation_NoDup Pl N). }
    intros x y Hx Hy D. subst g. cbn beta.
    assert (Dh : h x <> h y).
    { intros Eh. apply D. assert (Nl : NoDup (map h l)) by (apply (Permutation_NoDup (Permutation_map h Pl) Nh)).
      clear - Nl Hx Hy Eh. induction l as [|a l IH]; [contradiction|]. cbn in Nl. inversion Nl; subst.
      destruct Hx as [->|Hx], Hy as [->|Hy]; auto.
      - exfalso. apply H1. rewrite Eh. apply in_map. exact Hy.
      - exfalso. apply H1. rewrite <- Eh. apply in_map. exact Hx. }
    destruct (Nat.ltb_spec (h y) (h x)), (Nat.ltb_spec y x); cbn [xorb]; symmetry;
      first [apply Z.ltb_lt; nia | apply Z.ltb_ge; nia]. }
  rewrite !E by auto. apply pairs_xor_perm; auto.
  intros x y. subst g. cbn beta. f_equal. ring.
Qed.

Lemma xor_all_app {A} (f : A -> bool) l1 l2 : xor_all f (l1 ++ l2) = xorb (xor_all f l1) (xor_all f l2).
Proof.
  induction l1 as [|a l1 IH]; [cbn [app]; change (xor_all f []) with false; destruct (xor_all f l2); reflexivity|].
  cbn [app]. rewrite !xor_all_cons, IH. destruct (f a), (xor_all f l1), (xor_all f l2); reflexivity.
Qed.

Lemma odd_inv_app_last l n : (forall x, In x l -> x < n) -> odd_inv (l ++ [n]) = odd_inv l.
Proof.
  rewrite !odd_inv_pairs. induction l as [|a l IH]; intros H; [reflexivity|].
  cbn [app pairs_xor]. rewrite IH by (intros; apply H; right; auto). f_equal.
  rewrite xor_all_app, xor_all_cons.
  replace (n <? a) with false; [destruct (xor_all (fun y => y <? a) l); reflexivity|]. symmetry. apply Nat.ltb_ge. specialize (H a (or_introl eq_refl)). lia.
Qed.

Lemma pairs_xor_app {A} (g : A -> A -> bool) l1 l2 :
  pairs_xor g (l1 ++ l2) = xorb (pairs_xor g l1) (xorb (xor_all (fun x => xor_all (g x) l2) l1) (pairs_xor g l2)).
Proof.
  induction l1 as [|a l1 IH]; cbn [app pairs_xor].
  - cbn. destruct (pairs_xor g l2); reflexivity.
  - rewrite IH, xor_all_app. change (xor_all (fun x => xor_all (g x) l2) (a :: l1))
      with (xorb (xor_all (g a) l2) (xor_all (fun x => xor_all (g x) l2) l1)).
    destruct (xor_all (g a) l1), (xor_all (g a) l2), (pairs_xor g l1), (pairs_xor g l2),
      (xor_all (fun x => xor_all (g x) l2) l1); reflexivity.
Qed.

(** Exchanging two different entries changes the parity. *)
Lemma odd_inv_swap A n B v : n <> v -> ~ In n B -> ~ In v B ->
  odd_inv (A ++ n :: B ++ [v]) = negb (odd_inv (A ++ v :: B ++ [n])).
Proof.
  intros D Hn Hv. rewrite !odd_inv_pairs.
  rewrite (pairs_xor_app _ A), (pairs_xor_app _ A).
  rewrite (xor_all_ext (fun x => xor_all (fun y => y <? x) (n :: B ++ [v]))
                       (fun x => xor_all (fun y => y <? x) (v :: B ++ [n]))).
  2:{ intros x _. apply xor_all_perm. rewrite <- (Permutation_cons_append B v), <- (Permutation_cons_append B n).
      constructor. }
  cbn [pairs_xor]. rewrite !pairs_xor_app, !xor_all_app. cbn [pairs_xor]. rewrite !xor_all_cons.
  change (fun x : nat => xor_all (fun y : nat => y <? x) [v]) with (fun x : nat => xorb (v <? x) false).
  change (fun x : nat => xor_all (fun y : nat => y <? x) [n]) with (fun x : nat => xorb (n <? x) false).
  rewrite (xor_all_ext (fun x => xorb (v <? x) false) (fun x => negb (x <? v))).
  2:{ intros x Hx. destruct (Nat.ltb_spec v x), (Nat.ltb_spec x v); try reflexivity; try lia.
      assert (x = v) by lia. subst. contradiction. }
  rewrite (xor_all_ext (fun x => xorb (n <? x) false) (fun x => negb (x <? n))).
  2:{ intros x Hx. destruct (Nat.ltb_spec n x), (Nat.ltb_spec x n); try reflexivity; try lia.
      assert (x = n) by lia. subst. contradiction. }
  assert (Neg : forall f : nat -> bool, xor_all (fun x => negb (f x)) B = xorb (Nat.odd (length B)) (xor_all f B)).
  { intros f. clear. induction B as [|b B IH]; [reflexivity|]. cbn [xor_all fold_right length].
    fold (xor_all f B) (xor_all (fun x => negb (f x)) B). rewrite IH, Nat.odd_succ, <- Nat.negb_odd.
    destruct (f b), (Nat.odd (length B)), (xor_all f B); reflexivity. }
  rewrite !Neg.
  assert (Dn : (v <? n) = negb (n <? v)) by (destruct (Nat.ltb_spec v n), (Nat.ltb_spec n v); try reflexivity; lia).
  rewrite Dn.
  change (xor_all (fun y : nat => y <? n) []) with false.
  change (xor_all (fun y : nat => y <? v) []) with false.
  change (xor_all (fun y : nat => y <? v) (@nil nat)) with false.
  generalize (xor_all (fun y => y <? n) B) (xor_all (fun y => y <? v) B) (pairs_xor (fun x y => y <? x) A)
    (pairs_xor (fun x y => y <? x) B) (n <? v) (Nat.odd (length B))
    (xor_all (fun x => xor_all (fun y => y <? x) (v :: B ++ [n])) A).
  intros [] [] [] [] [] [] []; reflexivity.
Qed.

Lemma odd_inv_swap01 a b r : a <> b -> odd_inv (a :: b :: r) = negb (odd_inv (b :: a :: r)).
Proof.
  intros D. rewrite !odd_inv_pairs. cbn [pairs_xor]. rewrite !xor_all_cons.
  assert (E : (b <? a) = negb (a <? b)) by (destruct (Nat.ltb_spec b a), (Nat.ltb_spec a b); try reflexivity; lia).
  rewrite E.
  destruct (a <? b), (xor_all (fun y => y <? a) r), (xor_all (fun y => y <? b) r), (pairs_xor (fun x y => y <? x) r); reflexivity.
Qed.

(* ------------------------------------------------------------------ *)
(** * The cycle-counting loop *)

Lemma nth_error_repeat_false n i : nth_error (repeat false n) i = if i <? n then Some false else None.
Proof. revert i; induction n as [|n IH]; intros [|i]; cbn; auto. rewrite IH. reflexivity. Qed.

Definition unvisited (v : list bool) : nat := length (filter negb v).

Lemma unvisited_set v i : nth_error v i = Some false -> S (unvisited (set_nth v i true)) = unvisited v.
Proof.
  unfold unvisited. revert i; induction v as [|b v IH]; intros [|i]; cbn; try discriminate.
  - intros [= ->]. reflexivity.
  - intros H. apply IH in H. destruct b; cbn; lia.
Qed.

(** Termination, for every array of indices in range. *)
Lemma swap_cycles_terminates values : forall fuel visited current cycles,
  length visited = length values -> current < length values ->
  (forall x, In x values -> x < length values) -> unvisited visited < fuel ->
  exists r, swap_cycles_loop fuel values (visited, current, cycles) = Some (Done r).
Proof.
  induction fuel as [|fuel IH]; intros visited current cycles L C R F; [lia|].
  cbn [swap_cycles_loop]. unfold swap_cycles_body.
  destruct (nth_error visited current) as [v|] eqn:Ev; [|apply nth_error_None in Ev; lia].
  assert (Go : forall cur cyc, nth_error visited cur = Some false ->
    exists r, match match nth_error values cur with
                    | Some next => Done (Continue (set_nth visited cur true, next, cyc))
                    | None => Panic
                    end with
              | Done (Continue st) => swap_cycles_loop fuel values st
              | Done (Return r) => Some (Done r)
              | Panic => Some Panic
              end = Some (Done r)).
  { intros cur cyc E. assert (cur < length values) by (rewrite <- L; apply nth_error_Some; congruence).
    destruct (nth_error values cur) as [nx|] eqn:En; [|apply nth_error_None in En; lia].
    apply IH.
    - rewrite set_nth_length. exact L.
    - apply R. eapply nth_error_In; eauto.
    - exact R.
    - pose proof (unvisited_set _ _ E). lia. }
  destruct v.
  - destruct (find_index negb visited) as [u|] eqn:Eu; [|eauto].
    apply Go. apply find_index_Some in Eu as (b & Hb & Nb & _). destruct b; [discriminate|exact Hb].
  - apply Go. exact Ev.
Qed.

Lemma unvisited_repeat n : unvisited (repeat false n) = n.
Proof. unfold unvisited. induction n; cbn; auto. Qed.

Section Cycles.
  Context (l : list nat) (n : nat) (P : Permutation l (seq 0 n)).
  Let f := fun_of l.

  Lemma cyc_length : length l = n.
  Proof. rewrite (Permutation_length P), seq_length. reflexivity. Qed.
  Lemma cyc_nodup : NoDup l.
  Proof. apply (Permutation_NoDup (Permutation_sym P)), seq_NoDup. Qed.
  Lemma cyc_range x : In x l <-> x < n.
  Proof.
    split; intros H.
    - apply (Permutation_in _ P), in_seq in H. lia.
    - apply (Permutation_in _ (Permutation_sym P)), in_seq. lia.
  Qed.
  Lemma cyc_lt i : i < n -> f i < n.
  Proof. intros H. apply cyc_range. apply nth_In. rewrite cyc_length. exact H. Qed.
  Lemma cyc_inj i j : i < n -> j < n -> f i = f j -> i = j.
  Proof.
    intros Hi Hj E. pose proof cyc_nodup as N. rewrite NoDup_nth in N. apply (N i j); rewrite ?cyc_length; eauto.
  Qed.
  Lemma cyc_nth i x : nth_error l i = Some x -> f i = x.
  Proof. intros H. apply nth_error_nth. exact H. Qed.
  Lemma iter_lt k i : i < n -> iterate k f i < n.
  Proof. intros H. induction k; cbn; auto using cyc_lt. Qed.

  (** The complement of a set closed under an injective function is closed too. *)
  Lemma complement_closed (V : nat -> bool) :
    (forall x, x < n -> V x = true -> V (f x) = true) ->
    forall x, x < n -> V (f x) = true -> V x = true.
  Proof.
    intros C x Hx Hf. set (L := filter V (seq 0 n)).
    assert (NL : NoDup L) by (apply NoDup_filter, seq_NoDup).
    assert (IL : forall y, In y L <-> y < n /\ V y = true).
    { intros y. subst L. rewrite filter_In, in_seq. intuition lia. }
    assert (NM : NoDup (map f L)).
    { clear Hf. assert (B : forall y, In y L -> y < n) by (intros y Hy; apply IL in Hy; tauto).
      clear IL. induction L as [|a L' IH]; cbn; [constructor|]. inversion NL; subst. constructor.
      - rewrite in_map_iff. intros (y & E & Hy). apply cyc_inj in E; [subst; contradiction|apply B; right; auto|apply B; left; auto].
      - apply IH; auto. intros y Hy. apply B. right. exact Hy. }
    assert (I : incl L (map f L)).
    { apply NoDup_length_incl; auto; [rewrite map_length; lia|]. intros y Hy. apply in_map_iff in Hy as (z & <- & Hz).
      apply IL in Hz as [Hz Vz]. apply IL. split; [apply cyc_lt; exact Hz|apply C; auto]. }
    assert (J : In (f x) L) by (apply IL; split; [apply cyc_lt; exact Hx|exact Hf]).
    apply I, in_map_iff in J as (y & E & Hy). apply IL in Hy as [Hy Vy].
    apply cyc_inj in E; auto. subst. exact Vy.
  Qed.

  Definition vis (visited : list bool) (x : nat) : bool := nth x visited false.

  Lemma vis_set visited i x : i < length visited ->
    vis (set_nth visited i true) x = (i =? x) || vis visited x.
  Proof.
    intros H. unfold vis. rewrite <- !nth_default_eq. unfold nth_default. rewrite nth_error_set_nth.
    destruct (Nat.eqb_spec i x) as [->|D].
    - apply Nat.ltb_lt in H. rewrite H. reflexivity.
    - reflexivity.
  Qed.

  Record cycle_inv (visited : list bool) (current cycles : nat) (ls : list nat) : Prop := {
    ci_len : length visited = n;
    ci_cur : current < n;
    ci_closed : forall x, x < n -> vis visited x = true -> vis visited (f x) = true \/ f x = current;
    ci_nodup : NoDup ls;
    ci_small : forall i, In i ls -> smallest_in_cycle l i;
    ci_count : length ls = S cycles;
    ci_cover : forall x, vis visited x = true \/ x = current -> exists b k, In b ls /\ x = iterate k f b;
    ci_seen : forall b, In b ls -> vis visited b = true \/ b = current
  }.

  Lemma cycle_step visited current cycles ls :
    cycle_inv visited current cycles ls -> vis visited current = false ->
    cycle_inv (set_nth visited current true) (f current) cycles ls.
  Proof.
    intros [H1 H2 H3 H4 H5 H6 H7 H8] U. split; auto.
    - rewrite set_nth_length. exact H1.
    - apply cyc_lt. exact H2.
    - intros x Hx. rewrite !vis_set by lia. rewrite !orb_true_iff, !Nat.eqb_eq. intros [->|V]; [right; reflexivity|].
      destruct (H3 x Hx V) as [?|?]; auto.
    - intros x. rewrite vis_set by lia. rewrite orb_true_iff, Nat.eqb_eq. intros [[->|V]| ->].
      + apply H7. auto.
      + apply H7. auto.
      + destruct (H7 current (or_intror eq_refl)) as (b & k & Hb & E). exists b, (S k). split; auto. cbn. rewrite <- E. reflexivity.
    - intros b Hb. rewrite vis_set by lia. rewrite orb_true_iff, Nat.eqb_eq. destruct (H8 b Hb); auto.
  Qed.

  Lemma vis_nth visited x : nth_error visited x = Some (vis visited x) \/ (length visited <= x /\ vis visited x = false).
  Proof.
    unfold vis. destruct (nth_error visited x) eqn:E.
    - left. f_equal. symmetry. apply nth_error_nth. exact E.
    - right. apply nth_error_None in E. split; auto. apply nth_overflow. exact E.
  Qed.

  (** Every cycle has exactly one smallest element: two smallest ones in one cycle agree. *)
  Lemma iterate_add {A} (g : A -> A) a b x : iterate (a + b) g x = iterate a g (iterate b g x).
  Proof. induction a; cbn; [reflexivity|]. rewrite IHa. reflexivity. Qed.

  Lemma iterate_shift {A} (g : A -> A) k x : iterate k g (g x) = g (iterate k g x).
  Proof. induction k; cbn; [reflexivity|]. rewrite IHk. reflexivity. Qed.

  Lemma iter_inj k i j : i < n -> j < n -> iterate k f i = iterate k f j -> i = j.
  Proof.
    intros Hi Hj. induction k; cbn; auto. intros E. apply IHk. apply cyc_inj; auto using iter_lt.
  Qed.

  Lemma iter_period b : b < n -> exists p, 0 < p /\ iterate p f b = b.
  Proof.
    intros Hb. set (L := map (fun k => iterate k f b) (seq 0 (S n))).
    assert (D : ~ NoDup L).
    { intros N. assert (length L <= length (seq 0 n)).
      { apply NoDup_incl_length; auto. intros x Hx. subst L. apply in_map_iff in Hx as (k & <- & _).
        apply in_seq. split; [lia|]. apply iter_lt. exact Hb. }
      subst L. rewrite map_length, !seq_length in H. lia. }
    assert (E : exists i j, i < j /\ iterate i f b = iterate j f b).
    { destruct (find_duplicates Nat.eqb L) as [x|] eqn:F.
      - apply (find_dup_some _ Nat.eqb_eq) in F. destruct F as (i & j & Dij & Hi & Hj).
        subst L. rewrite nth_error_map in Hi, Hj.
        destruct (nth_error (seq 0 (S n)) i) as [a|] eqn:Ea; [|discriminate].
        destruct (nth_error (seq 0 (S n)) j) as [c|] eqn:Ec; [|discriminate]. cbn [option_map] in Hi, Hj.
        assert (a = i /\ c = j) as [-> ->].
        { assert (i < S n) by (rewrite <- (seq_length (S n) 0); apply nth_error_Some; congruence).
          assert (j < S n) by (rewrite <- (seq_length (S n) 0); apply nth_error_Some; congruence).
          apply nth_error_nth with (d := 0) in Ea, Ec. rewrite seq_nth in Ea, Ec by lia. lia. }
        destruct (Nat.lt_total i j) as [?|[?|?]]; [exists i, j|lia|exists j, i]; split; auto; congruence.
      - apply (find_dup_none _ Nat.eqb_eq) in F. contradiction. }
    destruct E as (i & j & Hij & E). exists (j - i). split; [lia|].
    apply (iter_inj i); auto using iter_lt. rewrite <- iterate_add. replace (i + (j - i)) with j by lia. auto.
  Qed.

  Lemma iter_back b k : b < n -> exists j, iterate j f (iterate k f b) = b.
  Proof.
    intros Hb. destruct (iter_period b Hb) as (p & Hp & E).
    assert (M : forall m, iterate (m * p) f b = b).
    { induction m; cbn [Nat.mul]; [reflexivity|]. rewrite iterate_add, IHm. exact E. }
    exists (k * p - k). rewrite <- iterate_add. replace (k * p - k + k) with (k * p) by nia. apply M.
  Qed.

  Lemma swap_cycles_correct : forall fuel visited current cycles ls r,
    cycle_inv visited current cycles ls ->
    swap_cycles_loop fuel l (visited, current, cycles) = Some (Done r) ->
    exists ls', one_per_cycle l ls' /\ length ls' = S r.
  Proof.
    induction fuel as [|fuel IH]; intros visited current cycles ls r I; [discriminate|].
    cbn [swap_cycles_loop]. unfold swap_cycles_body.
    pose proof (ci_len _ _ _ _ I) as L. pose proof (ci_cur _ _ _ _ I) as C.
    destruct (vis_nth visited current) as [Ev|[? _]]; [|lia]. rewrite Ev.
    assert (Go : forall cur cyc ls0, cycle_inv visited cur cyc ls0 -> vis visited cur = false ->
      match match nth_error l cur with
            | Some next => Done (Continue (set_nth visited cur true, next, cyc))
            | None => Panic
            end with
      | Done (Continue st) => swap_cycles_loop fuel l st
      | Done (Return r) => Some (Done r)
      | Panic => Some Panic
      end = Some (Done r) -> exists ls', one_per_cycle l ls' /\ length ls' = S r).
    { intros cur cyc ls0 I0 U. destruct (nth_error l cur) as [nx|] eqn:En; [|discriminate].
      apply cyc_nth in En. rewrite <- En. apply IH with (ls := ls0). apply cycle_step; auto. }
    destruct (vis visited current) eqn:V; [|apply (Go _ _ ls); auto].
    assert (Cl : forall x, x < n -> vis visited x = true -> vis visited (f x) = true).
    { intros x Hx Vx. destruct (ci_closed _ _ _ _ I x Hx Vx) as [?| ->]; auto. }
    assert (Cov : forall x, vis visited x = true -> exists b k, In b ls /\ x = iterate k f b).
    { intros x Hx. apply (ci_cover _ _ _ _ I). auto. }
    destruct (find_index negb visited) as [u|] eqn:Eu.
    - apply find_index_Some in Eu as (b & Hb & Nb & Min). destruct b; [discriminate|].
      assert (Hu : u < n) by (rewrite <- L; apply nth_error_Some; congruence).
      assert (Vu : vis visited u = false) by (unfold vis; apply nth_error_nth; exact Hb).
      assert (Below : forall x, x < u -> vis visited x = true).
      { intros x Hx. destruct (vis_nth visited x) as [E|[? _]]; [|lia].
        specialize (Min x _ Hx E). destruct (vis visited x); [reflexivity|discriminate]. }
      assert (Out : forall k, vis visited (iterate k f u) = false).
      { induction k; cbn; auto. apply not_true_is_false. intros Ht.
        apply complement_closed in Ht; auto using iter_lt. congruence. }
      apply (Go u (S cycles) (ls ++ [u])); auto. split; auto.
      + apply NoDup_snoc; [apply (ci_nodup _ _ _ _ I)|]. intros Hin.
        destruct (ci_seen _ _ _ _ I u Hin) as [?| ->]; congruence.
      + intros i. rewrite in_app_iff. intros [Hi|[<-|[]]]; [apply (ci_small _ _ _ _ I); exact Hi|].
        split; [rewrite cyc_length; exact Hu|]. intros k.
        destruct (Nat.le_gt_cases u (iterate k (fun_of l) u)) as [?|G]; auto.
        apply Below in G. specialize (Out k). unfold f in Out. congruence.
      + rewrite app_length, (ci_count _ _ _ _ I). cbn. lia.
      + intros x [Vx| ->].
        * destruct (Cov x Vx) as (b & k & Hb' & E). exists b, k. rewrite in_app_iff. auto.
        * exists u, 0. rewrite in_app_iff. cbn. auto.
      + intros b0. rewrite in_app_iff. intros [Hb0|[<-|[]]]; auto.
        destruct (ci_seen _ _ _ _ I b0 Hb0) as [?| ->]; auto.
    - intros [= <-]. exists ls. split; [|apply (ci_count _ _ _ _ I)]. split; [apply (ci_nodup _ _ _ _ I)|].
      intros i. split; [apply (ci_small _ _ _ _ I)|]. intros [Hi Si]. rewrite cyc_length in Hi.
      destruct (vis_nth visited i) as [E|[? _]]; [|lia].
      assert (Vi : vis visited i = true).
      { apply nth_error_In in E. rewrite find_index_None in Eu. specialize (Eu _ E). destruct (vis visited i); auto. }
      destruct (Cov i Vi) as (b & k & Hb & Eb).
      destruct (ci_small _ _ _ _ I b Hb) as [Bl Bs]. rewrite cyc_length in Bl.
      destruct (iter_back b k Bl) as (j & Ej). rewrite <- Eb in Ej.
      specialize (Bs k). specialize (Si j). fold f in Bs, Si. rewrite <- Eb in Bs. rewrite Ej in Si.
      assert (H : i = b) by lia. rewrite H. exact Hb.
  Qed.

  Lemma cycle_init : 0 < n -> cycle_inv (repeat false n) 0 0 [0].
  Proof.
    intros H. assert (Vf : forall x, vis (repeat false n) x = false).
    { intros x. unfold vis. clear. revert x. induction n; intros [|x]; cbn; auto. }
    split; auto.
    - apply repeat_length.
    - intros x _ V. rewrite Vf in V. discriminate.
    - repeat constructor. intros [].
    - intros i [<-|[]]. split; [rewrite cyc_length; exact H|intros; lia].
    - intros x [V| ->]; [rewrite Vf in V; discriminate|]. exists 0, 0. cbn. auto.
    - intros b [<-|[]]. auto.
  Qed.

  Lemma swap_cycles_spec : 0 < n ->
    exists ls, one_per_cycle l ls /\ length ls = S (swap_cycles l) /\
      swap_cycles_run (S n) l = Some (Done (swap_cycles l)).
  Proof.
    intros H.
    destruct (swap_cycles_terminates l (S n) (repeat false n) 0 0) as (r & E).
    - rewrite repeat_length, cyc_length. reflexivity.
    - rewrite cyc_length. exact H.
    - intros x. rewrite cyc_range, cyc_length. auto.
    - rewrite unvisited_repeat. lia.
    - pose proof (swap_cycles_correct _ _ _ _ _ _ (cycle_init H) E) as (ls & O & Ln).
      unfold swap_cycles, swap_cycles_run. rewrite cyc_length, E. exists ls. auto.
  Qed.
End Cycles.

(* ------------------------------------------------------------------ *)
(** * Cycles and sign *)

Lemma perm_split_last n v A B : v <> n -> Permutation (A ++ n :: B ++ [v]) (seq 0 (S n)) ->
  Permutation (A ++ v :: B) (seq 0 n).
Proof.
  intros D P. rewrite seq_S in P. cbn in P. apply (Permutation_cons_inv (a := n)).
  rewrite <- (Permutation_cons_append (seq 0 n) n) in P. rewrite <- P.
  rewrite <- (Permutation_middle A (B ++ [v]) n). constructor.
  apply Permutation_app_head. apply Permutation_cons_append.
Qed.

Lemma fun_of_swap A n B v x : x <= length A + length B -> x <> length A ->
  fun_of (A ++ n :: B ++ [v]) x = fun_of (A ++ v :: B) x.
Proof.
  intros Hx D. unfold fun_of. destruct (Nat.lt_ge_cases x (length A)).
  - rewrite !app_nth1 by lia. reflexivity.
  - rewrite !app_nth2 by lia. destruct (x - length A) as [|k] eqn:E; [lia|]. cbn.
    rewrite app_nth1 by lia. reflexivity.
Qed.

Lemma sign_of_cycles : forall n l ls, Permutation l (seq 0 n) -> one_per_cycle l ls ->
  odd_inv l = xorb (Nat.odd n) (Nat.odd (length ls)).
Proof.
  induction n as [|n IH]; intros l ls P [N O].
  - cbn in P. apply Permutation_sym, Permutation_nil in P. subst l.
    destruct ls as [|i ls]; [reflexivity|]. destruct (proj1 (O i) (or_introl eq_refl)) as [H _]. cbn in H. lia.
  - assert (Ln : length l = S n) by apply (cyc_length l (S n) P).
    destruct (exists_last (l := l)) as (l0 & v & ->); [intros ->; discriminate|].
    rewrite app_length in Ln. cbn in Ln.
    assert (Fn : fun_of (l0 ++ [v]) n = v).
    { unfold fun_of. rewrite app_nth2 by lia. replace (n - length l0) with 0 by lia. reflexivity. }
    destruct (Nat.eq_dec v n) as [->|D].
    + assert (P0 : Permutation l0 (seq 0 n)).
      { rewrite seq_S in P. cbn in P. apply (Permutation_cons_inv (a := n)).
        rewrite (Permutation_cons_append l0 n), (Permutation_cons_append (seq 0 n) n). exact P. }
      assert (F0 : forall x, x < n -> fun_of (l0 ++ [n]) x = fun_of l0 x).
      { intros x Hx. unfold fun_of. apply app_nth1. lia. }
      assert (I0 : forall k x, x < n -> iterate k (fun_of (l0 ++ [n])) x = iterate k (fun_of l0) x).
      { intros k x Hx. induction k; cbn; auto. rewrite IHk. apply F0. apply (iter_lt _ _ P0). exact Hx. }
      assert (Hn : In n ls).
      { apply O. split; [rewrite app_length; cbn; lia|]. intros k. induction k; cbn; auto.
        assert (E : iterate k (fun_of (l0 ++ [n])) n = n); [|rewrite E; lia].
        clear - Fn. induction k; cbn; auto. congruence. }
      apply in_split in Hn as (a & b & ->).
      rewrite odd_inv_app_last by (intros x Hx; apply (cyc_range _ _ P0); exact Hx).
      rewrite (IH l0 (a ++ b) P0).
      * rewrite !app_length. cbn [length]. rewrite Nat.add_succ_r, !Nat.odd_succ, <- !Nat.negb_odd.
        destruct (Nat.odd n), (Nat.odd (length a + length b)); reflexivity.
      * split; [apply NoDup_remove_1 in N; exact N|]. intros i. split.
        -- intros Hi. assert (Si : smallest_in_cycle (l0 ++ [n]) i).
           { apply O. apply in_app_iff in Hi. apply in_app_iff. cbn. tauto. }
           assert (i <> n) by (intros ->; apply NoDup_remove_2 in N; contradiction).
           destruct Si as [Hl Si]. rewrite app_length in Hl. cbn in Hl. split; [lia|].
           intros k. rewrite <- I0 by lia. apply Si.
        -- intros [Hl Si]. assert (In i (a ++ n :: b)).
           { apply O. split; [rewrite app_length; cbn; lia|]. intros k. rewrite I0 by lia. apply Si. }
           apply in_app_iff in H. cbn in H. apply in_app_iff. destruct H as [?|[?|?]]; auto. lia.
    + assert (Hn : In n l0).
      { assert (In n (l0 ++ [v])) by (apply (cyc_range _ _ P); lia). apply in_app_iff in H. cbn in H.
        destruct H as [?|[?|[]]]; auto. contradiction. }
      apply in_split in Hn as (A & B & ->). rewrite <- app_assoc in *. cbn [app] in *.
      pose proof (perm_split_last n v A B D P) as P'.
      pose proof (cyc_nodup _ _ P) as Nl. apply NoDup_remove_2 in Nl as NA. rewrite !in_app_iff in NA.
      rewrite odd_inv_swap; auto.
      2:{ intros Hv. assert (Nv : NoDup (B ++ [v])).
          { clear - Nl. induction A; cbn in Nl; inversion Nl; auto. }
          apply NoDup_remove_2 in Nv. rewrite app_nil_r in Nv. contradiction. }
      replace (A ++ v :: B ++ [n]) with ((A ++ v :: B) ++ [n]) by (rewrite <- app_assoc; reflexivity).
      rewrite odd_inv_app_last by (intros x Hx; apply (cyc_range _ _ P'); exact Hx).
      rewrite (IH _ ls P').
      { rewrite Nat.odd_succ, <- Nat.negb_odd. destruct (Nat.odd n), (Nat.odd (length ls)); reflexivity. }
      split; auto. intros i. rewrite O.
      rewrite !app_length in Ln. cbn in Ln.
      set (f := fun_of (A ++ n :: B ++ [v])) in *. set (g := fun_of (A ++ v :: B)).
      assert (Lt : forall x, x < n -> g x < n) by (intros; apply (cyc_lt _ _ P'); auto).
      assert (Hf : forall x, x < n -> (f x = n /\ g x = f n) \/ f x = g x).
      { intros x Hx. destruct (Nat.eq_dec x (length A)) as [->|Dx].
        - left. rewrite Fn. subst f g. unfold fun_of. rewrite !app_nth2 by lia. rewrite Nat.sub_diag. auto.
        - right. apply fun_of_swap; lia. }
      assert (Gl : forall k, i < n -> iterate k g i < n) by (intros k Hi; apply (iter_lt _ _ P'); auto).
      unfold smallest_in_cycle. rewrite !app_length. cbn [length]. rewrite app_length. cbn [length].
      fold f g. split.
      * intros [Hi Si]. assert (i < n).
        { destruct (Nat.eq_dec i n) as [->|?]; [|lia]. specialize (Si 1). cbn in Si. rewrite Fn in Si.
          assert (v < n) by (apply (cyc_range _ _ P'), in_elt). lia. }
        split; [lia|]. intros k.
        assert (Ek : exists k', iterate k g i = iterate k' f i).
        { induction k; [exists 0; reflexivity|]. destruct IHk as (k' & E). cbn.
          destruct (Hf (iterate k g i) (Gl k H)) as [[F1 F2]|F].
          - exists (S (S k')). cbn. rewrite <- E, F1. exact F2.
          - exists (S k'). cbn. rewrite <- E. symmetry. exact F. }
        destruct Ek as (k' & ->). apply Si.
      * intros [Hi Si]. assert (i < n) by lia. split; [lia|]. intros k.
        assert (Ek : (exists k', iterate k f i = iterate k' g i) \/
                     (iterate k f i = n /\ exists k', f n = iterate k' g i)).
        { induction k; [left; exists 0; reflexivity|]. cbn. destruct IHk as [(k' & E)|(E & k' & E')].
          - rewrite E. destruct (Hf (iterate k' g i) (Gl k' H)) as [[F1 F2]|F].
            + right. split; auto. exists (S k'). cbn. auto.
            + left. exists (S k'). exact F.
          - left. rewrite E. exists k'. exact E'. }
        destruct Ek as [(k' & ->)|(-> & _)]; [apply Si|lia].
Qed.

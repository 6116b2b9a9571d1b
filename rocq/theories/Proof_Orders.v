(** After how many rounds an alg comes back: the cycles of the corners and the edges. *)

From Coq Require Import List Bool Arith NArith ZArith Lia Permutation.
From Coq Require Import ZifyBool ZifyN ZifyNat.
From Verif Require Import Model_Base Model_Space Model_Moves Model_Pieces Model_PieceSet Model_Cubes
  Spec_Moves Spec_Sets Spec_Invariants Spec_BigLaws Spec_Words
  Proof_Moves Proof_Sets Proof_Parity Proof_Solve Proof_Invariants Proof_Random Proof_Stickers Proof_BigSolve Proof_BigLaws Proof_Words.
Import ListNotations.
Open Scope nat_scope.

(* ------------------------------------------------------------------ *)
(** * The cycles of a permutation *)

Lemma least_true (Q : nat -> bool) p : Q p = true -> exists k, Q k = true /\ forall j, j < k -> Q j = false.
Proof.
  induction p as [p IH] using lt_wf_ind. intros H.
  destruct (existsb Q (seq 0 p)) eqn:E.
  - apply existsb_exists in E as (j & J & E). apply in_seq in J. apply (IH j); [lia|exact E].
  - exists p. split; [exact H|]. intros j J. destruct (Q j) eqn:X; [|reflexivity].
    assert (existsb Q (seq 0 p) = true); [|congruence]. apply existsb_exists. exists j. split; [apply in_seq; lia|exact X].
Qed.

Section Orbits.
  Context (n : nat) (l : list nat) (P : Permutation l (seq 0 n)).
  Let f := fun_of l.

  Definition is_period (i k : nat) : Prop := 1 <= k /\ iterate k f i = i /\ forall j, 1 <= j < k -> iterate j f i <> i.
  Lemma period_exists i : i < n -> exists k, is_period i k.
  Proof.
    intros H. destruct (iter_period l n P i H) as (p & Hp & E).
    destruct (least_true (fun k => (1 <=? k) && (iterate k f i =? i)) p) as (k & K & M).
    { rewrite andb_true_iff, Nat.leb_le, Nat.eqb_eq. split; [lia|exact E]. }
    rewrite andb_true_iff, Nat.leb_le, Nat.eqb_eq in K. exists k. split; [tauto|]. split; [tauto|].
    intros j J F. specialize (M j ltac:(lia)). rewrite andb_false_iff, Nat.leb_gt, Nat.eqb_neq in M. destruct M; [lia|contradiction].
  Qed.
  Lemma iter_period_mul i k q : iterate k f i = i -> iterate (q * k) f i = i.
  Proof. intros E. induction q as [|q IH]; [reflexivity|]. cbn [Nat.mul]. rewrite iterate_add, IH. exact E. Qed.
  Lemma period_divides i k j : is_period i k -> (iterate j f i = i <-> exists q, j = q * k).
  Proof.
    intros (K & E & M). split.
    - intros H. exists (j / k). pose proof (Nat.div_mod j k ltac:(lia)) as D. pose proof (Nat.mod_upper_bound j k ltac:(lia)) as B.
      destruct (Nat.eq_dec (j mod k) 0) as [Z|Z]; [lia|exfalso]. apply (M (j mod k)); [lia|].
      rewrite <- H at 2. rewrite D at 2. rewrite Nat.add_comm, iterate_add, Nat.mul_comm, iter_period_mul; [reflexivity|exact E].
    - intros (q & ->). apply iter_period_mul, E.
  Qed.
  Definition orbit (x : nat * nat) : list nat := map (fun j => iterate j f (fst x)) (seq 0 (snd x)).
  Lemma orbit_in i k y : is_period i k -> (In y (orbit (i, k)) <-> exists j, y = iterate j f i).
  Proof.
    intros Q. unfold orbit. cbn [fst snd]. rewrite in_map_iff. split.
    - intros (j & <- & _). exists j. reflexivity.
    - intros (j & ->). exists (j mod k). destruct Q as (K & E & _). split.
      + rewrite (Nat.div_mod j k) at 2 by lia. rewrite Nat.add_comm, iterate_add, Nat.mul_comm, iter_period_mul; [reflexivity|exact E].
      + apply in_seq. pose proof (Nat.mod_upper_bound j k). lia.
  Qed.
  Lemma orbit_nodup i k : i < n -> is_period i k -> NoDup (orbit (i, k)).
  Proof.
    intros H (K & E & M). unfold orbit. cbn [fst snd].
    assert (X : forall a b, a < b < k -> iterate a f i <> iterate b f i).
    { intros a b AB F. replace b with (a + (b - a)) in F by lia. rewrite iterate_add in F.
      apply (iter_inj l n P) in F; [|exact H|apply (iter_lt l n P), H]. apply (M (b - a)); [lia|symmetry; exact F]. }
    assert (Y : forall s, s <= k -> NoDup (map (fun j => iterate j f i) (seq 0 s))).
    { induction s as [|s IH]; intros S; [constructor|]. rewrite seq_S, map_app. cbn [map Nat.add].
      apply (Permutation_NoDup (Permutation_cons_append _ _)). constructor; [|apply IH; lia].
      rewrite in_map_iff. intros (j & F & J). apply in_seq in J. apply (X j s); [lia|exact F]. }
    apply Y. lia.
  Qed.

  Context (ls : list nat) (O : one_per_cycle l ls).
  Lemma rep_lt i : In i ls -> i < n.
  Proof. intros I. apply O in I. destruct I as [I _]. rewrite (cyc_length l n P) in I. exact I. Qed.
  Lemma rep_periods : exists ks, map fst ks = ls /\ Forall (fun x => is_period (fst x) (snd x)) ks.
  Proof.
    assert (X : forall s, incl s ls -> exists ks, map fst ks = s /\ Forall (fun x => is_period (fst x) (snd x)) ks).
    { induction s as [|i s IH]; intros S; [exists []; split; [reflexivity|constructor]|].
      destruct IH as (ks & M & F); [intros y Y; apply S; right; exact Y|].
      destruct (period_exists i) as (k & K); [apply rep_lt, S; left; reflexivity|].
      exists ((i, k) :: ks). split; [cbn; f_equal; exact M|constructor; [exact K|exact F]]. }
    apply X, incl_refl.
  Qed.
  Lemma same_rep i j a b : In i ls -> In j ls -> iterate a f i = iterate b f j -> i = j.
  Proof.
    intros I J E. pose proof (rep_lt i I) as Li. pose proof (rep_lt j J) as Lj.
    apply O in I. apply O in J. destruct I as [_ I], J as [_ J].
    destruct (iter_back l n P i a Li) as (x & X). destruct (iter_back l n P j b Lj) as (y & Y).
    apply Nat.le_antisymm.
    - rewrite <- Y. fold f. rewrite <- E, <- iterate_add. apply I.
    - rewrite <- X. fold f. rewrite E, <- iterate_add. apply J.
  Qed.
  Lemma some_rep y : y < n -> exists i j, In i ls /\ y = iterate j f i.
  Proof.
    intros H. destruct (least_true (fun v => existsb (fun j => iterate j f y =? v) (seq 0 (S (n * n)))) y) as (v & V & M).
    { apply existsb_exists. exists 0. split; [apply in_seq; lia|apply Nat.eqb_refl]. }
    apply existsb_exists in V as (a & A & V). apply in_seq in A. apply Nat.eqb_eq in V.
    destruct (period_exists y H) as (k & K).
    assert (Kn : k <= n).
    { pose proof (orbit_nodup y k H K) as N. apply (NoDup_incl_length (l' := seq 0 n)) in N.
      - unfold orbit in N. rewrite map_length, !seq_length in N. exact N.
      - intros z Z. apply (orbit_in y k z K) in Z as (j & ->). apply in_seq. pose proof (iter_lt l n P j y H) as L. fold f in L. lia. }
    destruct (iter_back l n P y a H) as (b & B). exists v, b. split.
    - apply O. split; [rewrite (cyc_length l n P), <- V; apply (iter_lt l n P), H|].
      intros c. fold f. destruct (Nat.le_gt_cases v (iterate c f v)) as [?|G]; [assumption|exfalso].
      assert (I : In (iterate c f v) (orbit (y, k))) by (apply (orbit_in y k _ K); exists (c + a); rewrite iterate_add, V; reflexivity).
      unfold orbit in I. cbn [fst snd] in I. apply in_map_iff in I as (j & J & I). apply in_seq in I.
      specialize (M _ G). assert (existsb (fun j => iterate j f y =? iterate c f v) (seq 0 (S (n * n))) = true); [|congruence].
      apply existsb_exists. exists j. split; [apply in_seq; nia|apply Nat.eqb_eq, J].
    - rewrite <- V. symmetry. exact B.
  Qed.
  Lemma orbits_perm ks : map fst ks = ls -> Forall (fun x => is_period (fst x) (snd x)) ks ->
    Permutation (flat_map orbit ks) (seq 0 n).
  Proof.
    intros E F. apply NoDup_Permutation; [|apply seq_NoDup|].
    - assert (X : forall s, incl s ks -> NoDup (map fst s) -> NoDup (flat_map orbit s)).
      { induction s as [|[i k] s IH]; intros S N; [constructor|]. cbn [map fst] in N. apply NoDup_cons_iff in N as [N1 N2].
        cbn [flat_map]. assert (Ii : In i ls) by (rewrite <- E; apply in_map_iff; exists (i, k); split; [reflexivity|apply S; left; reflexivity]).
        rewrite Forall_forall in F. pose proof (F (i, k) (S (i, k) (or_introl eq_refl))) as Q. cbn [fst snd] in Q.
        apply NoDup_app_intro; [apply orbit_nodup; [apply rep_lt, Ii|exact Q]|apply IH; [intros z Z; apply S; right; exact Z|exact N2]|].
        intros y Y1 Y2. apply (orbit_in i k y Q) in Y1 as (a & ->). apply in_flat_map in Y2 as ([j k'] & J & Y2).
        pose proof (F (j, k') (S (j, k') (or_intror J))) as Q'. cbn [fst snd] in Q'.
        apply (orbit_in j k' _ Q') in Y2 as (b & Y2). apply N1. apply in_map_iff. exists (j, k'). split; [|exact J]. cbn [fst].
        symmetry. apply (same_rep i j a b); [exact Ii| |exact Y2]. rewrite <- E. apply in_map_iff. exists (j, k'). split; [reflexivity|apply S; right; exact J]. }
      apply X; [apply incl_refl|]. rewrite E. apply O.
    - intros y. rewrite in_flat_map, in_seq. rewrite Forall_forall in F. split.
      + intros ([i k] & I & Y). apply (orbit_in i k y (F _ I)) in Y as (j & ->).
        pose proof (iter_lt l n P j i) as L. fold f in L. split; [lia|]. apply L, rep_lt. rewrite <- E. apply in_map_iff. exists (i, k). auto.
      + intros [_ H]. destruct (some_rep y H) as (i & j & I & ->). rewrite <- E in I. apply in_map_iff in I as ([i' k] & <- & I).
        exists (i', k). split; [exact I|]. apply (orbit_in i' k _ (F _ I)). exists j. reflexivity.
  Qed.
End Orbits.

(* ------------------------------------------------------------------ *)
(** * Pieces that come back turned *)

Lemma list_sum_flat_map {A} (g : A -> list nat) s : list_sum (flat_map g s) = list_sum (map (fun x => list_sum (g x)) s).
Proof. induction s as [|a s IH]; [reflexivity|]. cbn [flat_map map list_sum fold_right]. rewrite list_sum_app, IH. reflexivity. Qed.
Lemma map_flat_map {A B C} (g : A -> list B) (h : B -> C) s : map h (flat_map g s) = flat_map (fun x => map h (g x)) s.
Proof. induction s as [|a s IH]; [reflexivity|]. cbn [flat_map]. rewrite map_app, IH. reflexivity. Qed.
Lemma nth_list_self (d : list nat) : map (fun_of d) (seq 0 (length d)) = d.
Proof.
  apply (nth_ext _ _ 0 0); [rewrite map_length, seq_length; reflexivity|]. intros i I. rewrite map_length, seq_length in I.
  rewrite (nth_indep _ 0 (fun_of d 0)) by (rewrite map_length, seq_length; exact I). rewrite map_nth, seq_nth by exact I. reflexivity.
Qed.

Section Oriented.
  Context (n m : nat) (l d : list nat) (P : Permutation l (seq 0 n)) (M : m = 1 \/ m = 2 \/ m = 3).
  Let f := fun_of l.
  (** One round: the piece at [fst x], turned [snd x] times. *)
  Definition round (x : nat * nat) : nat * nat := (fun_of l (fst x), (snd x + fun_of d (fst x)) mod m).
  Definition turned (k i : nat) : nat := list_sum (map (fun j => fun_of d (iterate j f i)) (seq 0 k)).

  Lemma turned_S k i : turned (S k) i = turned k i + fun_of d (iterate k f i).
  Proof. unfold turned. rewrite seq_S, map_app, list_sum_app. cbn. lia. Qed.
  Lemma turned_add a b i : turned (a + b) i = turned b i + turned a (iterate b f i).
  Proof.
    induction a as [|a IH]; [cbn [Nat.add]; unfold turned at 3; cbn; lia|].
    cbn [Nat.add]. rewrite !turned_S, IH, iterate_add. lia.
  Qed.
  Lemma round_iter k i t : t < m -> Nat.iter k round (i, t) = (iterate k f i, (t + turned k i) mod m).
  Proof.
    intros T. induction k as [|k IH].
    - cbn. unfold turned. cbn. rewrite Nat.add_0_r, Nat.mod_small by exact T. reflexivity.
    - rewrite niter_S, IH, turned_S. unfold round. cbn [fst snd iterate]. f_equal.
      rewrite Nat.add_mod_idemp_l by lia. f_equal. lia.
  Qed.
  Definition all_back (k : nat) : Prop := forall i t, i < n -> t < m -> Nat.iter k round (i, t) = (i, t).

  Lemma turned_mul i k q : iterate k f i = i -> turned (q * k) i = q * turned k i.
  Proof.
    intros E. induction q as [|q IH]; [reflexivity|]. cbn [Nat.mul]. pose proof (iter_period_mul l i k q E) as X. fold f in X. rewrite turned_add, IH, X. lia.
  Qed.
  Lemma mod_sum_same t x : t < m -> ((t + x) mod m = t <-> x mod m = 0).
  Proof.
    intros T. destruct M as [E|[E|E]]; subst m.
    - rewrite !Nat.mod_1_r. lia.
    - pose proof (Nat.div_mod (t + x) 2). pose proof (Nat.div_mod x 2).
      pose proof (Nat.mod_upper_bound (t + x) 2). pose proof (Nat.mod_upper_bound x 2). lia.
    - pose proof (Nat.div_mod (t + x) 3). pose proof (Nat.div_mod x 3).
      pose proof (Nat.mod_upper_bound (t + x) 3). pose proof (Nat.mod_upper_bound x 3). lia.
  Qed.
  Definition factor (t : nat) : nat := if t =? 0 then 1 else m.
  Lemma factor_spec q t : (q * t) mod m = 0 <-> exists r, q = r * factor (t mod m).
  Proof.
    unfold factor. rewrite Nat.mul_mod by lia.
    assert (X : (exists r, q = r * m) <-> q mod m = 0).
    { rewrite Nat.mod_divide by lia. reflexivity. }
    destruct (Nat.eqb_spec (t mod m) 0) as [E|E].
    - rewrite E, Nat.mul_0_r, Nat.mod_0_l by lia. split; [intros _; exists q; lia|reflexivity].
    - rewrite X. pose proof (Nat.mod_upper_bound t m). pose proof (Nat.mod_upper_bound q m).
      destruct M as [Z|[Z|Z]]; subst m.
      + rewrite Nat.mod_1_r in E. contradiction.
      + assert (t mod 2 = 1) by lia. assert (C : q mod 2 = 0 \/ q mod 2 = 1) by lia. rewrite H1. destruct C as [-> | ->]; cbn; lia.
      + assert (D : t mod 3 = 1 \/ t mod 3 = 2) by lia. assert (C : q mod 3 = 0 \/ q mod 3 = 1 \/ q mod 3 = 2) by lia.
        destruct D as [-> | ->], C as [-> |[-> | ->]]; cbn; lia.
  Qed.

  Context (ls : list nat) (O : one_per_cycle l ls).
  Context (ks : list (nat * nat)) (E : map fst ks = ls) (F : Forall (fun x => is_period l (fst x) (snd x)) ks).
  Definition cycle_turn (x : nat * nat) : nat := list_sum (map (fun_of d) (orbit l x)).
  Lemma cycle_turn_turned i k : cycle_turn (i, k) = turned k i.
  Proof. unfold cycle_turn, orbit, turned. cbn [fst snd]. rewrite map_map. reflexivity. Qed.
  Lemma all_back_iff k : all_back k <-> forall x, In x ks -> Nat.divide (snd x * factor (cycle_turn x mod m)) k.
  Proof.
    rewrite Forall_forall in F. split.
    - intros B [i c] I. pose proof (F _ I) as Q. cbn [fst snd] in *. rewrite cycle_turn_turned.
      assert (Li : i < n) by (apply (rep_lt n l P ls O); rewrite <- E; apply in_map_iff; exists (i, c); auto).
      specialize (B i 0 Li ltac:(lia)). rewrite round_iter in B by lia. injection B as B1 B2.
      apply (period_divides l i c k Q) in B1 as (q & ->). change (turned (q * c) i mod m = 0) in B2.
      rewrite turned_mul in B2 by apply Q. apply factor_spec in B2 as (r & ->). exists r. lia.
    - intros B y t Y T. rewrite round_iter by exact T.
      destruct (some_rep n l P ls O y Y) as (i & j & I & ->). rewrite <- E in I. apply in_map_iff in I as ([i' c] & X & I). cbn in X. subst i'.
      pose proof (F _ I) as Q. cbn [fst snd] in *. specialize (B _ I). cbn [snd] in B. rewrite cycle_turn_turned in B. destruct B as (r & ->).
      set (q := r * factor (turned c i mod m)). replace (r * (c * factor (turned c i mod m))) with (q * c) by (subst q; lia).
      assert (B1 : iterate (q * c) f i = i) by (apply iter_period_mul, Q).
      assert (B2 : turned (q * c) i mod m = 0).
      { rewrite turned_mul by apply Q. apply factor_spec. exists r. reflexivity. }
      f_equal.
      + fold f. rewrite <- iterate_add, Nat.add_comm, iterate_add, B1. reflexivity.
      + apply mod_sum_same; [exact T|]. fold f.
        pose proof (turned_add (q * c) j i) as H1. pose proof (turned_add j (q * c) i) as H2. rewrite B1 in H2.
        rewrite Nat.add_comm in H2. replace (turned (q * c) (iterate j f i)) with (turned (q * c) i) by lia. exact B2.
  Qed.
  Lemma cycles_sum : list_sum (map snd ks) = n.
  Proof.
    pose proof (Permutation_length (orbits_perm n l P ls O ks E F)) as L. rewrite seq_length in L. rewrite <- L.
    clear. induction ks as [|[i c] s IH]; [reflexivity|]. cbn [map flat_map list_sum fold_right snd]. rewrite app_length.
    unfold orbit at 1. rewrite map_length, seq_length. cbn [snd]. f_equal. exact IH.
  Qed.
  Lemma turns_sum : length d = n -> list_sum (map cycle_turn ks) = list_sum d.
  Proof.
    intros L. rewrite <- (nth_list_self d), L.
    rewrite <- (list_sum_perm _ _ (Permutation_map (fun_of d) (orbits_perm n l P ls O ks E F))).
    rewrite map_flat_map, list_sum_flat_map. reflexivity.
  Qed.
End Oriented.

(* ------------------------------------------------------------------ *)
(** * All cycle types *)

(** Least common multiple of the lengths, parity of the permutation, sum of the turns. *)
Definition Profile : Type := N * bool * nat.
Definition profile_eqb (a b : Profile) : bool :=
  let '(o, p, s) := a in let '(o', p', s') := b in N.eqb o o' && Bool.eqb p p' && Nat.eqb s s'.
Lemma profile_eqb_eq a b : profile_eqb a b = true <-> a = b.
Proof.
  destruct a as [[o p] s], b as [[o' p'] s']. cbn. rewrite !andb_true_iff, N.eqb_eq, Bool.eqb_true_iff, Nat.eqb_eq.
  split; [intros [[-> ->] ->]; reflexivity|]. intros H. injection H as -> -> ->. auto.
Qed.
Fixpoint dedup {A} (eqb : A -> A -> bool) (s : list A) : list A :=
  match s with [] => [] | x :: r => let r' := dedup eqb r in if existsb (eqb x) r' then r' else x :: r' end.
Lemma dedup_in {A} (eqb : A -> A -> bool) (H : forall a b, eqb a b = true <-> a = b) s x : In x (dedup eqb s) <-> In x s.
Proof.
  induction s as [|y s IH]; [reflexivity|]. cbn [dedup In]. rewrite <- IH. destruct (existsb (eqb y) (dedup eqb s)) eqn:E; [|reflexivity].
  split; [auto|]. intros [<-|I]; [|exact I]. apply existsb_exists in E as (z & Z & E). apply H in E. subst. exact Z.
Qed.
(** A cycle of length [fst c], after which its pieces are turned [snd c] times, added. *)
Definition extend (m : nat) (c : nat * nat) (p : Profile) : Profile :=
  let '(o, b, s) := p in
  (N.lcm (N.of_nat (fst c * factor m (snd c))) o, xorb b (Nat.odd (S (fst c))), (s + snd c) mod m).
Definition profile (m : nat) (cs : list (nat * nat)) : Profile := fold_right (extend m) (1%N, false, 0) cs.
(** [tables m k]: the profiles on k, k - 1, ..., 0 places. *)
Fixpoint tables (m k : nat) : list (list Profile) :=
  match k with
  | 0 => [[(1%N, false, 0)]]
  | S j =>
      let ts := tables m j in
      dedup profile_eqb (flat_map (fun x : nat * list Profile =>
        flat_map (fun t => map (extend m (fst x, t)) (snd x)) (seq 0 m)) (combine (seq 1 (S j)) ts)) :: ts
  end.
Definition profiles (m k : nat) : list Profile := hd [] (tables m k).
Lemma tables_length m k : length (tables m k) = S k.
Proof. induction k as [|k IH]; [reflexivity|]. cbn [tables length]. rewrite IH. reflexivity. Qed.
Lemma tables_nth m : forall k j, j <= k -> nth j (tables m k) [] = profiles m (k - j).
Proof.
  induction k as [|k IH]; intros j J.
  - replace j with 0 by lia. reflexivity.
  - destruct j as [|j]; [reflexivity|]. cbn [tables nth]. rewrite IH by lia. reflexivity.
Qed.
Lemma profiles_extend m k c t p : 1 <= c -> c <= k -> t < m -> In p (profiles m (k - c)) -> In (extend m (c, t) p) (profiles m k).
Proof.
  intros C K T I. destruct k as [|k]; [lia|]. unfold profiles. cbn [tables hd]. apply (dedup_in _ profile_eqb_eq).
  apply in_flat_map. exists (c, profiles m (S k - c)). split.
  - destruct c as [|c]; [lia|]. assert (E : (S c, profiles m (S k - S c)) = nth c (combine (seq 1 (S k)) (tables m k)) (0, [])).
    { rewrite combine_nth by (rewrite seq_length, tables_length; reflexivity). rewrite seq_nth, tables_nth by lia. reflexivity. }
    rewrite E. apply nth_In. rewrite combine_length, seq_length, tables_length. lia.
  - apply in_flat_map. exists t. split; [apply in_seq; lia|]. cbn [fst snd]. apply in_map, I.
Qed.
Lemma profile_in m cs : Forall (fun c => 1 <= fst c /\ snd c < m) cs -> In (profile m cs) (profiles m (list_sum (map fst cs))).
Proof.
  induction cs as [|[c t] cs IH]; intros F; [left; reflexivity|]. apply Forall_cons_iff in F as [[C T] F]. cbn [fst snd] in *.
  cbn [map fst list_sum fold_right]. change (profile m ((c, t) :: cs)) with (extend m (c, t) (profile m cs)).
  apply profiles_extend; [exact C|lia|exact T|]. replace (c + fold_right plus 0 (map fst cs) - c) with (list_sum (map fst cs)) by (unfold list_sum; lia).
  apply IH, F.
Qed.
Lemma profile_lcm m cs k : (fst (fst (profile m cs)) | k)%N <-> forall c, In c cs -> (N.of_nat (fst c * factor m (snd c)) | k)%N.
Proof.
  induction cs as [|c cs IH].
  - cbn. split; [intros _ c []|intros _; apply N.divide_1_l].
  - change (profile m (c :: cs)) with (extend m c (profile m cs)). destruct (profile m cs) as [[o b] s]. cbn [extend fst snd] in *.
    split.
    + intros H x [<-|I].
      * apply N.divide_trans with (2 := H). apply N.divide_lcm_l.
      * apply IH; [|exact I]. apply N.divide_trans with (2 := H). apply N.divide_lcm_r.
    + intros H. apply N.lcm_least; [apply H; left; reflexivity|]. apply IH. intros x I. apply H. right. exact I.
Qed.
Lemma profile_parity m cs : snd (fst (profile m cs)) = xorb (Nat.odd (list_sum (map fst cs))) (Nat.odd (length cs)).
Proof.
  induction cs as [|c cs IH]; [reflexivity|].
  change (profile m (c :: cs)) with (extend m c (profile m cs)). destruct (profile m cs) as [[o b] s]. cbn [extend fst snd] in *. rewrite IH.
  cbn [map list_sum fold_right length]. rewrite Nat.odd_add, !Nat.odd_succ, <- !Nat.negb_odd. fold (list_sum (map fst cs)).
  destruct (Nat.odd (list_sum (map fst cs))), (Nat.odd (length cs)), (Nat.odd (fst c)); reflexivity.
Qed.
Lemma profile_turns m cs : m <> 0 -> snd (profile m cs) = list_sum (map snd cs) mod m.
Proof.
  intros Z. induction cs as [|c cs IH]; [cbn; symmetry; apply Nat.mod_0_l, Z|].
  change (profile m (c :: cs)) with (extend m c (profile m cs)). destruct (profile m cs) as [[o b] s]. cbn [extend fst snd] in *. rewrite IH.
  cbn [map list_sum fold_right]. rewrite Nat.add_mod_idemp_l by exact Z. f_equal. unfold list_sum. lia.
Qed.

Lemma reps_exist n l : Permutation l (seq 0 n) -> exists ls, one_per_cycle l ls.
Proof.
  intros P. destruct n as [|n].
  - cbn in P. apply Permutation_sym, Permutation_nil in P. subst. exists []. split; [constructor|]. intros i. split; [intros []|].
    intros [I _]. cbn in I. lia.
  - destruct (swap_cycles_spec l (S n) P) as (ls & O & _); [lia|]. exists ls. exact O.
Qed.
Lemma sum_mod {A} (g : A -> nat) m s : m <> 0 -> list_sum (map (fun x => g x mod m) s) mod m = list_sum (map g s) mod m.
Proof.
  intros Z. induction s as [|x s IH]; [reflexivity|]. cbn [map list_sum fold_right].
  fold (list_sum (map (fun x => g x mod m) s)). fold (list_sum (map g s)).
  rewrite Nat.add_mod, IH, Nat.mod_mod, <- Nat.add_mod by exact Z. reflexivity.
Qed.
(** The number of rounds after which all pieces are back, from the cycles. *)
Lemma round_order n m l d : Permutation l (seq 0 n) -> (m = 1 \/ m = 2 \/ m = 3) -> length d = n ->
  exists o, In (o, odd_inv l, list_sum d mod m) (profiles m n) /\
    forall k, all_back n m l d k <-> (o | N.of_nat k)%N.
Proof.
  intros P M L. destruct (reps_exist n l P) as (ls & O). destruct (rep_periods n l P ls O) as (ks & E & F).
  set (cs := map (fun x => (snd x, cycle_turn l d x mod m)) ks).
  pose proof (profile_in m cs) as I. pose proof (fun k => profile_lcm m cs k) as K.
  pose proof (profile_parity m cs) as B. pose proof (profile_turns m cs ltac:(lia)) as S.
  assert (S1 : map fst cs = map snd ks) by (subst cs; rewrite map_map; reflexivity).
  rewrite S1, (cycles_sum n l P ls O ks E F) in I, B.
  destruct (profile m cs) as [[o b] s]. cbn [fst snd] in *. exists o. split.
  - assert (Eb : b = odd_inv l).
    { rewrite B, (sign_of_cycles n l ls P O). f_equal. f_equal. subst cs. rewrite map_length, <- E, map_length. reflexivity. }
    assert (Es : s = list_sum d mod m).
    { rewrite S. subst cs. rewrite map_map. cbn [snd]. rewrite sum_mod by lia. f_equal. apply (turns_sum n l d P ls O ks E F L). }
    rewrite <- Eb, <- Es. apply I. subst cs. apply Forall_forall. intros c C. apply in_map_iff in C as (x & <- & X). cbn [fst snd].
    rewrite Forall_forall in F. specialize (F x X). split; [apply F|apply Nat.mod_upper_bound; lia].
  - intros k. rewrite K, (all_back_iff n m l d P M ls O ks E F k). subst cs. split; intros H.
    + intros c C. apply in_map_iff in C as (x & <- & X). cbn [fst snd]. specialize (H x X). destruct H as (r & ->).
      exists (N.of_nat r). lia.
    + intros x X. specialize (H (snd x, cycle_turn l d x mod m)). cbn [fst snd] in H. destruct H as (r & H).
      * apply in_map_iff. exists x. auto.
      * exists (N.to_nat r). lia.
Qed.

(* ------------------------------------------------------------------ *)
(** * Corners and edges as turned numbers *)

Lemma iter_fold {A} (f : A -> A) k x : N.iter k f x = Nat.iter (N.to_nat k) f x.
Proof. apply N2Nat.inj_iter. Qed.

Definition crun (al : list AxisMove) (p : Corner) : Corner := fold_left corner_apply al p.
Definition erun (al : list AxisMove) (e : Edge) : Edge := fold_left edge_apply al e.
Lemma run_corner w : forall p, run w (QCorner p) = QCorner (crun (map w_move w) p).
Proof. induction w as [|a w IH]; intros p; [reflexivity|]. rewrite run_cons. cbn [act map]. rewrite IH. reflexivity. Qed.
Lemma run_edge w : forall e, run w (QEdge e) = QEdge (erun (map w_move w) e).
Proof. induction w as [|a w IH]; intros p; [reflexivity|]. rewrite run_cons. cbn [act map]. rewrite IH. reflexivity. Qed.
Lemma iter_corner w k p : Nat.iter k (run w) (QCorner p) = QCorner (Nat.iter k (crun (map w_move w)) p).
Proof. induction k as [|k IH]; [reflexivity|]. rewrite !niter_S, IH. apply run_corner. Qed.
Lemma iter_edge w k p : Nat.iter k (run w) (QEdge p) = QEdge (Nat.iter k (erun (map w_move w)) p).
Proof. induction k as [|k IH]; [reflexivity|]. rewrite !niter_S, IH. apply run_edge. Qed.

Definition ctwist (p : Corner) : Corner :=
  mkCorner (c_pos p) (if corner_handed (c_pos p) then axis_next (c_axis p) else axis_next (axis_next (c_axis p))).
Definition eflip (e : Edge) : Edge := mkEdge (e_normal e) (e_slice e) (negb (e_oriented e)).
Lemma crun_twist al p : crun al (ctwist p) = ctwist (crun al p).
Proof.
  pose proof (twist_run (map (mkWide 0) al) (QCorner p)) as H. cbn [twist] in H. fold (ctwist p) in H.
  rewrite !run_corner in H. cbn [twist] in H. rewrite map_map, map_id in H. fold (ctwist (crun al p)) in H. injection H as H. symmetry. exact H.
Qed.
Lemma erun_flip al e : erun al (eflip e) = eflip (erun al e).
Proof.
  pose proof (twist_run (map (mkWide 0) al) (QEdge e)) as H. cbn [twist] in H. fold (eflip e) in H.
  rewrite !run_edge in H. cbn [twist] in H. rewrite map_map, map_id in H. fold (eflip (erun al e)) in H. injection H as H. symmetry. exact H.
Qed.

Definition corner_num (p : Corner) : nat * nat := (place vec3_eqb corner_reference (c_pos p), twists p).
Definition edge_num (e : Edge) : nat * nat := (place edgepos_eqb edge_reference (edge_position e), if e_oriented e then 0 else 1).
Lemma corner_num_inj a b : corner_num a = corner_num b -> a = b.
Proof. destruct a as [[[] [] []] []], b as [[[] [] []] []]; intros H; try reflexivity; vm_compute in H; discriminate H. Qed.
Lemma edge_num_inj a b : edge_num a = edge_num b -> a = b.
Proof. destruct a as [[] [[] []] []], b as [[] [[] []] []]; intros H; try reflexivity; vm_compute in H; discriminate H. Qed.
Lemma corner_num_bound p : fst (corner_num p) < 8 /\ snd (corner_num p) < 3.
Proof. destruct p as [[[] [] []] []]; vm_compute; split; lia. Qed.
Lemma edge_num_bound e : fst (edge_num e) < 12 /\ snd (edge_num e) < 2.
Proof. destruct e as [[] [[] []] []]; vm_compute; split; lia. Qed.
Definition corner_step : nat := snd (corner_num (ctwist (nth 0 corner_solved (mkCorner (mkVec3 Positive Positive Positive) AY)))).
Lemma corner_num_twist p : corner_num (ctwist p) = (fst (corner_num p), (snd (corner_num p) + corner_step) mod 3).
Proof. destruct p as [[[] [] []] []]; vm_compute; reflexivity. Qed.
Lemma edge_num_flip e : edge_num (eflip e) = (fst (edge_num e), (snd (edge_num e) + 1) mod 2).
Proof. destruct e as [[] [[] []] []]; vm_compute; reflexivity. Qed.
Lemma corner_from_solved p : exists s, nth_error corner_solved (fst (corner_num p)) = Some s /\ corner_num s = (fst (corner_num p), 0) /\
  (p = s \/ p = ctwist s \/ p = ctwist (ctwist s)).
Proof.
  destruct p as [[[] [] []] []]; (eexists; split; [vm_compute; reflexivity|]); (split; [vm_compute; reflexivity|]);
    ((left; vm_compute; reflexivity) || (right; left; vm_compute; reflexivity) || (right; right; vm_compute; reflexivity)).
Qed.
Lemma edge_from_solved e : exists s, nth_error edge_solved (fst (edge_num e)) = Some s /\ edge_num s = (fst (edge_num e), 0) /\
  (e = s \/ e = eflip s).
Proof.
  destruct e as [[] [[] []] []]; (eexists; split; [vm_compute; reflexivity|]); (split; [vm_compute; reflexivity|]);
    ((left; vm_compute; reflexivity) || (right; vm_compute; reflexivity)).
Qed.
Lemma corner_num_onto i t : i < 8 -> t < 3 -> exists p, corner_num p = (i, t).
Proof.
  intros I T. assert (X : In (i, t) (map corner_num (flat_map (fun s => [s; ctwist s; ctwist (ctwist s)]) corner_solved))).
  { do 8 (destruct i as [|i]; [do 3 (destruct t as [|t]; [vm_compute; tauto|]); lia|]). lia. }
  apply in_map_iff in X as (p & E & _). exists p. exact E.
Qed.
Lemma edge_num_onto i t : i < 12 -> t < 2 -> exists p, edge_num p = (i, t).
Proof.
  intros I T. assert (X : In (i, t) (map edge_num (flat_map (fun s => [s; eflip s]) edge_solved))).
  { do 12 (destruct i as [|i]; [do 2 (destruct t as [|t]; [vm_compute; tauto|]); lia|]). lia. }
  apply in_map_iff in X as (p & E & _). exists p. exact E.
Qed.

(** The solved pieces after the alg: where each is, and how it is turned. *)
Definition corner_perm (al : list AxisMove) : list nat := corner_permutation (map (crun al) corner_solved).
Definition corner_turns (al : list AxisMove) : list nat := map twists (map (crun al) corner_solved).
Definition edge_perm (al : list AxisMove) : list nat := edge_permutation (map (erun al) edge_solved).
Definition edge_turns (al : list AxisMove) : list nat := map (fun e => snd (edge_num e)) (map (erun al) edge_solved).

Lemma corner_round al p : corner_num (crun al p) = round 3 (corner_perm al) (corner_turns al) (corner_num p).
Proof.
  destruct (corner_from_solved p) as (s & N & S & H).
  assert (B : corner_num (crun al s) = round 3 (corner_perm al) (corner_turns al) (corner_num s)).
  { rewrite S. unfold round. cbn [fst snd Nat.add]. unfold corner_perm, corner_permutation, corner_turns, fun_of. rewrite !map_map.
    rewrite (nth_error_nth _ _ 0 (map_nth_error (fun x => place vec3_eqb corner_reference (c_pos (crun al x))) _ _ N)).
    rewrite (nth_error_nth _ _ 0 (map_nth_error (fun x => twists (crun al x)) _ _ N)).
    rewrite Nat.mod_small by apply (corner_num_bound (crun al s)). reflexivity. }
  assert (T : forall q, corner_num (crun al q) = round 3 (corner_perm al) (corner_turns al) (corner_num q) ->
    corner_num (crun al (ctwist q)) = round 3 (corner_perm al) (corner_turns al) (corner_num (ctwist q))).
  { intros q Q. rewrite crun_twist, !corner_num_twist, Q. unfold round. cbn [fst snd]. f_equal.
    rewrite !Nat.add_mod_idemp_l by lia. f_equal. lia. }
  destruct H as [->|[->| ->]]; auto.
Qed.
Lemma edge_round al p : edge_num (erun al p) = round 2 (edge_perm al) (edge_turns al) (edge_num p).
Proof.
  destruct (edge_from_solved p) as (s & N & S & H).
  assert (B : edge_num (erun al s) = round 2 (edge_perm al) (edge_turns al) (edge_num s)).
  { rewrite S. unfold round. cbn [fst snd Nat.add]. unfold edge_perm, edge_permutation, edge_turns, fun_of. rewrite !map_map.
    rewrite (nth_error_nth _ _ 0 (map_nth_error (fun x => place edgepos_eqb edge_reference (edge_position (erun al x))) _ _ N)).
    rewrite (nth_error_nth _ _ 0 (map_nth_error (fun x => snd (edge_num (erun al x))) _ _ N)).
    rewrite Nat.mod_small by apply (edge_num_bound (erun al s)). reflexivity. }
  assert (T : forall q, edge_num (erun al q) = round 2 (edge_perm al) (edge_turns al) (edge_num q) ->
    edge_num (erun al (eflip q)) = round 2 (edge_perm al) (edge_turns al) (edge_num (eflip q))).
  { intros q Q. rewrite erun_flip, !edge_num_flip, Q. unfold round. cbn [fst snd]. f_equal.
    rewrite !Nat.add_mod_idemp_l by lia. f_equal. lia. }
  destruct H as [->| ->]; auto.
Qed.
Lemma corners_back al k : (forall p, Nat.iter k (crun al) p = p) <-> all_back 8 3 (corner_perm al) (corner_turns al) k.
Proof.
  assert (X : forall p, corner_num (Nat.iter k (crun al) p) = Nat.iter k (round 3 (corner_perm al) (corner_turns al)) (corner_num p)).
  { intros p. induction k as [|k IH]; [reflexivity|]. rewrite !niter_S, corner_round, IH. reflexivity. }
  split.
  - intros H i t I T. destruct (corner_num_onto i t I T) as (p & <-). rewrite <- X, H. reflexivity.
  - intros H p. apply corner_num_inj. rewrite X. destruct (corner_num_bound p) as [I T]. destruct (corner_num p) as [i t]. apply H; assumption.
Qed.
Lemma edges_back al k : (forall p, Nat.iter k (erun al) p = p) <-> all_back 12 2 (edge_perm al) (edge_turns al) k.
Proof.
  assert (X : forall p, edge_num (Nat.iter k (erun al) p) = Nat.iter k (round 2 (edge_perm al) (edge_turns al)) (edge_num p)).
  { intros p. induction k as [|k IH]; [reflexivity|]. rewrite !niter_S, edge_round, IH. reflexivity. }
  split.
  - intros H i t I T. destruct (edge_num_onto i t I T) as (p & <-). rewrite <- X, H. reflexivity.
  - intros H p. apply edge_num_inj. rewrite X. destruct (edge_num_bound p) as [I T]. destruct (edge_num p) as [i t]. apply H; assumption.
Qed.

(** The laws of the 3x3x3 for these lists. *)
Lemma solved_after al : forall cs es, fold_left cube3_apply al (mkCube3 es cs) = mkCube3 (map (erun al) es) (map (crun al) cs).
Proof.
  induction al as [|m al IH]; intros cs es.
  - cbn [fold_left]. rewrite (map_ext (erun []) (fun x => x)), map_id by reflexivity. rewrite (map_ext (crun []) (fun x => x)), map_id by reflexivity. reflexivity.
  - cbn [fold_left]. change (cube3_apply (mkCube3 es cs) m) with (mkCube3 (edge_set_apply es m) (corner_set_apply cs m)).
    rewrite IH. unfold edge_set_apply, corner_set_apply. rewrite !map_map. reflexivity.
Qed.
Lemma laws_after al :
  Permutation (corner_perm al) (seq 0 8) /\ Permutation (edge_perm al) (seq 0 12) /\
  odd_inv (edge_perm al) = odd_inv (corner_perm al) /\ list_sum (corner_turns al) mod 3 = 0 /\ list_sum (edge_turns al) mod 2 = 0.
Proof.
  destruct (invariants_run al cube3_solved (conj solved_valid_e solved_valid_c)) as [V I]. pose proof (proj2 I invariants_solved) as J. clear I.
  unfold run3, cube3_solved in V, J. rewrite solved_after in V, J. destruct J as (I1 & I2 & I3). destruct V as [VE VC]. cbn [c3_edges c3_corners] in *.
  split; [apply corner_permutation_perm, VC|]. split; [apply edge_permutation_perm, VE|]. split; [|split].
  - unfold equal_parities in I1. cbn [c3_edges c3_corners] in I1. rewrite !even_permutation_odd in I1. fold (edge_perm al) (corner_perm al) in I1.
    destruct (odd_inv (edge_perm al)), (odd_inv (corner_perm al)); cbn in I1; congruence.
  - exact I3.
  - unfold even_flips in I2. unfold edge_turns. revert I2. generalize (map (erun al) edge_solved). clear. intros s H.
    assert (E : list_sum (map (fun e => snd (edge_num e)) s) = length (filter (fun e => negb (e_oriented e)) s)).
    { clear. induction s as [|e s IH]; [reflexivity|]. cbn [map list_sum fold_right filter]. unfold list_sum in IH. rewrite IH. cbn [edge_num snd].
      destruct (e_oriented e); reflexivity. }
    rewrite E. apply Nat.even_spec in H. destruct H as (r & ->). rewrite Nat.mul_comm. apply Nat.mod_mul. lia.
Qed.

(* ------------------------------------------------------------------ *)
(** * The numbers of rounds *)

Definition inbN (k : N) (s : list N) : bool := existsb (N.eqb k) s.
Lemma inbN_spec k s : inbN k s = true -> In k s.
Proof. intros H. apply existsb_exists in H as (x & I & E). apply N.eqb_eq in E. subst. exact I. Qed.
Lemma orders_even_table : forallb (fun p : Profile => if snd p =? 0 then inbN (fst (fst p)) (possible_rounds Size2) else true) (profiles 3 8) = true.
Proof. vm_compute. reflexivity. Qed.
Lemma orders_odd_table : forallb (fun p : Profile => if snd p =? 0 then
    forallb (fun q : Profile => if snd q =? 0 then
      if Bool.eqb (snd (fst p)) (snd (fst q)) then inbN (N.lcm (fst (fst p)) (fst (fst q))) (possible_rounds Size3) else true
      else true) (profiles 2 12)
    else true) (profiles 3 8) = true.
Proof. vm_compute. reflexivity. Qed.

(** Everything of kinds [kinds_of (core n)] is back after [k] rounds. *)
Definition core_back (n : CubeSize) (al : list AxisMove) (k : nat) : Prop :=
  match core n with
  | Size2 => forall p, Nat.iter k (crun al) p = p
  | _ => (forall p, Nat.iter k (crun al) p = p) /\ (forall e, Nat.iter k (erun al) e = e)
  end.
Lemma core_order n al : exists o, In o (possible_rounds n) /\ forall k, core_back n al k <-> (o | N.of_nat k)%N.
Proof.
  destruct (laws_after al) as (PC & PE & B & SC & SE).
  destruct (round_order 8 3 _ (corner_turns al) PC ltac:(tauto) eq_refl) as (oc & Ic & Kc).
  destruct (round_order 12 2 _ (edge_turns al) PE ltac:(tauto) eq_refl) as (oe & Ie & Ke).
  assert (T2 : In oc (possible_rounds Size2)).
  { pose proof orders_even_table as T. rewrite forallb_forall in T. specialize (T _ Ic). cbn [fst snd] in T. rewrite SC in T. apply inbN_spec, T. }
  assert (T3 : In (N.lcm oc oe) (possible_rounds Size3)).
  { pose proof orders_odd_table as T. rewrite forallb_forall in T. specialize (T _ Ic). cbn [fst snd] in T. rewrite SC in T. cbn [Nat.eqb] in T.
    rewrite forallb_forall in T. specialize (T _ Ie). cbn [fst snd] in T. rewrite SE, B, Bool.eqb_reflx in T. apply inbN_spec, T. }
  assert (K3 : forall k, ((forall p, Nat.iter k (crun al) p = p) /\ (forall e, Nat.iter k (erun al) e = e)) <-> (N.lcm oc oe | N.of_nat k)%N).
  { intros k. rewrite corners_back, edges_back, Kc, Ke. split.
    - intros [H1 H2]. apply N.lcm_least; assumption.
    - intros H. split; apply N.divide_trans with (2 := H); [apply N.divide_lcm_l|apply N.divide_lcm_r]. }
  assert (K2 : forall k, (forall p, Nat.iter k (crun al) p = p) <-> (oc | N.of_nat k)%N) by (intros k; rewrite corners_back; apply Kc).
  destruct n; cbn [core_back core small_size possible_rounds];
    first [exists oc; split; [exact T2|exact K2] | exists (N.lcm oc oe); split; [exact T3|exact K3]].
Qed.

Lemma corner_iter_word n al k p : N.iter k (run (face_word n al)) (QCorner p) = QCorner (Nat.iter (N.to_nat k) (crun al) p).
Proof. rewrite iter_fold, iter_corner, face_moves. reflexivity. Qed.
Lemma edge_iter_word n al k p : N.iter k (run (face_word n al)) (QEdge p) = QEdge (Nat.iter (N.to_nat k) (erun al) p).
Proof. rewrite iter_fold, iter_edge, face_moves. reflexivity. Qed.
Lemma core_back_kinds n al k : core_back n al (N.to_nat k) <-> forall q, In (kind q) (kinds_of (core n)) -> N.iter k (run (face_word n al)) q = q.
Proof.
  assert (C : (forall p, Nat.iter (N.to_nat k) (crun al) p = p) <-> forall q, kind q = 0 -> N.iter k (run (face_word n al)) q = q).
  { split; intros H.
    - intros q Q. destruct (small_cases q Q) as (p & ->). rewrite corner_iter_word, H. reflexivity.
    - intros p. specialize (H (QCorner p) eq_refl). rewrite corner_iter_word in H. injection H as H. exact H. }
  assert (E : (forall p, Nat.iter (N.to_nat k) (erun al) p = p) <-> forall q, kind q = 1 -> N.iter k (run (face_word n al)) q = q).
  { split; intros H.
    - intros q Q. destruct (edge_cases q Q) as (p & ->). rewrite edge_iter_word, H. reflexivity.
    - intros p. specialize (H (QEdge p) eq_refl). rewrite edge_iter_word in H. injection H as H. exact H. }
  unfold core_back.
  destruct n; cbn [core small_size kinds_of]; rewrite C; rewrite ?E; split; intros H;
    try (intros q [Q|[]]; symmetry in Q; apply H, Q);
    try (intros q Q; apply H; left; symmetry; exact Q);
    try (destruct H as [H1 H2]; intros q [Q|[Q|[]]]; symmetry in Q; [apply H1, Q|apply H2, Q]);
    try (split; intros q Q; apply H; [left|right; left]; symmetry; exact Q).
Qed.

(** If all of the core is back then every cube is. *)
Lemma core_all_cubes n al k c : core_back n al (N.to_nat k) -> N.iter k (after n al) c = c.
Proof.
  rewrite core_back_kinds. intros H. rewrite (iter_ext _ (after_wide n (face_word n al))) by apply after_face. apply iter_same. intros q Q. apply pieces_kind in Q.
  destruct (leader_iter n al k q Q) as [L K]. apply leader_inj; [exact K|]. rewrite L. apply H, core_leader, Q.
Qed.
(** A valid cube has a corner and an edge everywhere. *)
Lemma corner_in_cube n c pos : cube_well_formed n c -> exists p, In (QCorner p) (pieces_of n c) /\ c_pos p = pos.
Proof.
  intros W. destruct (corner_at n c pos W) as (i & p & I & E). exists p. split; [|exact E]. apply nth_error_In in I.
  unfold corners_of in I. unfold pieces_of, cubies. apply in_app_iff. left. apply in_map, I.
Qed.
Lemma edge_in_cube n c pos : core n = Size3 -> cube_well_formed n c -> exists p, In (QEdge p) (pieces_of n c) /\ edge_position p = pos.
Proof.
  intros S W.
  assert (V : set_valid edge_desc (c7_edges (as7 n c))).
  { apply (set_valid_spec _ edge_desc_ok). destruct n; try discriminate S; cbn [cube_well_formed] in W; cbn [as7 c7_edges]; apply W. }
  pose proof (set_valid_perm _ edge_desc_ok _ V) as P. cbn [pd_position edge_desc pd_reference] in P.
  assert (I : In pos (map edge_position (c7_edges (as7 n c)))).
  { apply (Permutation_in _ (Permutation_sym P)). destruct pos as [[] [[] []]]; vm_compute; tauto. }
  apply in_map_iff in I as (p & E & I). exists p. split; [|exact E]. unfold pieces_of, cubies. rewrite !in_app_iff. right. left. apply in_map, I.
Qed.
Lemma corner_same_place a b : c_pos a = c_pos b -> b = a \/ b = ctwist a \/ b = ctwist (ctwist a).
Proof. destruct a as [[[] [] []] []], b as [[[] [] []] []]; cbn; intros H; try discriminate H; tauto. Qed.
Lemma edge_same_place a b : edge_position a = edge_position b -> b = a \/ b = eflip a.
Proof. destruct a as [[] [[] []] []], b as [[] [[] []] []]; cbn; intros H; try discriminate H; tauto. Qed.
Lemma crun_twist_iter al k p : Nat.iter k (crun al) (ctwist p) = ctwist (Nat.iter k (crun al) p).
Proof. induction k as [|k IH]; [reflexivity|]. rewrite !niter_S, IH. apply crun_twist. Qed.
Lemma erun_flip_iter al k p : Nat.iter k (erun al) (eflip p) = eflip (Nat.iter k (erun al) p).
Proof. induction k as [|k IH]; [reflexivity|]. rewrite !niter_S, IH. apply erun_flip. Qed.
Lemma cube_core_back n al k c : cube_well_formed n c -> N.iter k (after n al) c = c -> core_back n al (N.to_nat k).
Proof.
  intros W H. rewrite (iter_ext _ (after_wide n (face_word n al))) in H by apply after_face. rewrite iter_same in H.
  assert (C : forall p, Nat.iter (N.to_nat k) (crun al) p = p).
  { intros p. destruct (corner_in_cube n c (c_pos p) W) as (s & S & E). specialize (H _ S). rewrite corner_iter_word in H. injection H as H.
    destruct (corner_same_place s p E) as [->|[->| ->]]; rewrite ?crun_twist_iter, H; reflexivity. }
  assert (E : core n = Size3 -> forall p, Nat.iter (N.to_nat k) (erun al) p = p).
  { intros Z p. destruct (edge_in_cube n c (edge_position p) Z W) as (s & S & E). specialize (H _ S). rewrite edge_iter_word in H. injection H as H.
    destruct (edge_same_place s p E) as [->| ->]; rewrite ?erun_flip_iter, H; reflexivity. }
  unfold core_back. destruct n; cbn [core small_size] in *; auto.
Qed.

Lemma possible_positive n o : In o (possible_rounds n) -> (0 < o)%N.
Proof.
  intros H. assert (X : forallb (fun o => (0 <? o)%N) (possible_rounds n) = true) by (destruct n; vm_compute; reflexivity).
  rewrite forallb_forall in X. apply N.ltb_lt, X, H.
Qed.
Lemma possible_most n o : In o (possible_rounds n) -> (o <= most_rounds n)%N.
Proof.
  intros H. assert (X : forallb (fun o => (o <=? most_rounds n)%N) (possible_rounds n) = true) by (destruct n; vm_compute; reflexivity).
  rewrite forallb_forall in X. apply N.leb_le, X, H.
Qed.
(** Every alg has a number of rounds, the same for all valid cubes. *)
Lemma alg_order n al : exists o, In o (possible_rounds n) /\
  (forall k c, (o | k)%N -> N.iter k (after n al) c = c) /\
  (forall k c, cube_well_formed n c -> N.iter k (after n al) c = c -> (o | k)%N).
Proof.
  destruct (core_order n al) as (o & I & K). exists o. split; [exact I|]. split.
  - intros k c D. apply core_all_cubes, K. rewrite N2Nat.id. exact D.
  - intros k c W H. apply cube_core_back in H; [|exact W]. apply K in H. rewrite N2Nat.id in H. exact H.
Qed.

(* ------------------------------------------------------------------ *)
(** * All these numbers occur *)

Section Search.
  Context {A : Type} (eqb : A -> A -> bool) (eqb_eq : forall a b, eqb a b = true <-> a = b) (f : A -> A).
  (** [y] is [x] after [r] rounds. *)
  Fixpoint first_back (fuel : nat) (x y : A) (r : nat) : nat :=
    match fuel with 0 => 0 | S fuel => if eqb y x then r else first_back fuel x (f y) (S r) end.
  Lemma first_back_spec fuel : forall x y r, y = Nat.iter r f x -> 1 <= r -> (forall j, 1 <= j < r -> Nat.iter j f x <> x) ->
    first_back fuel x y r <> 0 ->
    Nat.iter (first_back fuel x y r) f x = x /\ 1 <= first_back fuel x y r /\
    forall j, 1 <= j < first_back fuel x y r -> Nat.iter j f x <> x.
  Proof.
    induction fuel as [|fuel IH]; intros x y r Y R B H; cbn [first_back] in *; [contradiction|].
    destruct (eqb y x) eqn:E.
    - apply eqb_eq in E. split; [congruence|]. split; [exact R|exact B].
    - apply IH; [rewrite Y; reflexivity|lia| |exact H]. intros j J. destruct (Nat.eq_dec j r) as [->|D]; [|apply B; lia].
      rewrite <- Y. intros C. apply eqb_eq in C. congruence.
  Qed.
  Definition rounds_of (x : A) : nat := first_back 40 x (f x) 1.
  Lemma rounds_of_spec x k : rounds_of x <> 0 -> (Nat.iter k f x = x <-> (N.of_nat (rounds_of x) | N.of_nat k)%N).
  Proof.
    intros H. destruct (first_back_spec 40 x (f x) 1 eq_refl ltac:(lia) ltac:(lia) H) as (E & R & B). fold (rounds_of x) in *.
    assert (Z' : forall q, Nat.iter (q * rounds_of x) f x = x).
    { clear - E. induction q as [|q IH]; [reflexivity|]. cbn [Nat.mul]. rewrite niter_add, IH. exact E. }
    split.
    - intros K. destruct (Nat.eq_dec (k mod rounds_of x) 0) as [Z|Z].
      + apply Nat.mod_divide in Z as (q & ->); [|exact H]. exists (N.of_nat q). lia.
      + exfalso. apply (B (k mod rounds_of x)); [pose proof (Nat.mod_upper_bound k (rounds_of x)); lia|].
        rewrite (Nat.div_mod k (rounds_of x) H) in K. rewrite Nat.add_comm, niter_add, Nat.mul_comm, Z' in K. exact K.
    - intros (q & Q). assert (X : k = N.to_nat q * rounds_of x) by lia. rewrite X. apply Z'.
  Qed.
  Definition all_rounds (s : list A) : option N :=
    fold_right (fun x o => match o with Some o => if rounds_of x =? 0 then None else Some (N.lcm (N.of_nat (rounds_of x)) o) | None => None end) (Some 1%N) s.
  Lemma all_rounds_spec s : forall o, all_rounds s = Some o -> forall k, (forall x, In x s -> Nat.iter k f x = x) <-> (o | N.of_nat k)%N.
  Proof.
    induction s as [|x s IH]; intros o H k; cbn [all_rounds fold_right] in H.
    - injection H as <-. split; [intros _; apply N.divide_1_l|intros _ x []].
    - fold (all_rounds s) in H. destruct (all_rounds s) as [o'|]; [|discriminate H]. destruct (Nat.eqb_spec (rounds_of x) 0) as [Z|Z]; [discriminate H|].
      injection H as <-. specialize (IH o' eq_refl k). pose proof (rounds_of_spec x k Z) as X. split.
      + intros F. apply N.lcm_least; [apply X, F; left; reflexivity|]. apply IH. intros y Y. apply F. right. exact Y.
      + intros D y [<-|Y].
        * apply X. apply N.divide_trans with (2 := D). apply N.divide_lcm_l.
        * apply IH; [|exact Y]. apply N.divide_trans with (2 := D). apply N.divide_lcm_r.
  Qed.
End Search.

Definition word_rounds (n : CubeSize) (al : list AxisMove) : option N :=
  match all_rounds corner_eqb (crun al) corner_solved with
  | None => None
  | Some c =>
      match core n with
      | Size2 => Some c
      | _ => match all_rounds edge_eqb (erun al) edge_solved with None => None | Some e => Some (N.lcm c e) end
      end
  end.
Lemma word_rounds_spec n al o : word_rounds n al = Some o -> forall k, core_back n al k <-> (o | N.of_nat k)%N.
Proof.
  unfold word_rounds. destruct (all_rounds corner_eqb (crun al) corner_solved) as [c|] eqn:C; [|discriminate].
  intros H k. pose proof (all_rounds_spec _ corner_eqb_eq (crun al) _ _ C k) as KC.
  assert (XC : (forall p, Nat.iter k (crun al) p = p) <-> (c | N.of_nat k)%N).
  { rewrite <- KC. split; [intros F p _; apply F|]. intros F p. destruct (corner_from_solved p) as (s & S & _ & E). apply nth_error_In in S.
    destruct E as [->|[->| ->]]; rewrite ?crun_twist_iter, (F s S); reflexivity. }
  assert (X2 : core n = Size2 -> core_back n al k <-> (o | N.of_nat k)%N).
  { intros Z. rewrite Z in H. injection H as <-. unfold core_back. rewrite Z. exact XC. }
  destruct (core n) eqn:Z; [apply X2; reflexivity| |destruct n; discriminate Z|destruct n; discriminate Z|destruct n; discriminate Z|destruct n; discriminate Z].
  destruct (all_rounds edge_eqb (erun al) edge_solved) as [e|] eqn:E; [|discriminate H]. injection H as <-.
  pose proof (all_rounds_spec _ edge_eqb_eq (erun al) _ _ E k) as KE.
  assert (XE : (forall p, Nat.iter k (erun al) p = p) <-> (e | N.of_nat k)%N).
  { rewrite <- KE. split; [intros F p _; apply F|]. intros F p. destruct (edge_from_solved p) as (s & S & _ & Q). apply nth_error_In in S.
    destruct Q as [->| ->]; rewrite ?erun_flip_iter, (F s S); reflexivity. }
  unfold core_back. rewrite Z, XC, XE. split.
  - intros [H1 H2]. apply N.lcm_least; assumption.
  - intros H. split; apply N.divide_trans with (2 := H); [apply N.divide_lcm_l|apply N.divide_lcm_r].
Qed.

(** Algs of which every possible number of rounds is that of a power. *)
Definition mR := mkMove fR Single.   Definition mR2 := mkMove fR Double.   Definition mR' := mkMove fR Inverse.
Definition mL := mkMove fL Single.   Definition mL2 := mkMove fL Double.   Definition mL' := mkMove fL Inverse.
Definition mU := mkMove fU Single.   Definition mU2 := mkMove fU Double.   Definition mU' := mkMove fU Inverse.
Definition mD := mkMove fD Single.   Definition mD2 := mkMove fD Double.   Definition mD' := mkMove fD Inverse.
Definition mF := mkMove fF Single.   Definition mF2 := mkMove fF Double.   Definition mF' := mkMove fF Inverse.
Definition mB := mkMove fB Single.   Definition mB2 := mkMove fB Double.   Definition mB' := mkMove fB Inverse.
Definition long_words (n : CubeSize) : list (list AxisMove) :=
  match core n with
  | Size2 => [[mR; mL2; mU2]; [mR; mL2; mU]; [mR; mU; mF']; [mR; mL'; mU]; [mR; mL2; mU']]
  | _ => [[mR; mL2; mU2; mB']; [mF2; mD; mB2; mU'; mF'; mR; mL; mB']; [mL2; mF'; mR'; mD'; mU]; [mR; mU2; mB; mD'];
          [mL; mB; mU2; mR'; mB2; mD']; [mR; mL2; mU'; mF']; [mR'; mB; mR2; mU'; mL2; mU'; mD2]; [mB'; mU; mD2; mL'; mU]]
  end.
Lemma long_words_table : forallb (fun n => forallb (fun k => existsb (fun al =>
  match word_rounds n al with Some o => (o mod k =? 0)%N | None => false end) (long_words n)) (possible_rounds n)) all_sizes = true.
Proof. vm_compute. reflexivity. Qed.
Lemma after_repeat n al j : forall c, after n (concat (repeat al j)) c = Nat.iter j (after n al) c.
Proof.
  induction j as [|j IH]; intros c; [reflexivity|]. cbn [repeat concat]. unfold after at 1. rewrite fold_left_app. fold (after n al c).
  fold (after n (concat (repeat al j)) (after n al c)). rewrite IH. clear. rewrite niter_S. induction j as [|j IH]; [reflexivity|].
  rewrite !niter_S, IH. reflexivity.
Qed.
Lemma niter_ext {A} (f g : A -> A) k x : (forall x, f x = g x) -> Nat.iter k f x = Nat.iter k g x.
Proof. intros H. induction k as [|k IH]; [reflexivity|]. rewrite !niter_S, IH. apply H. Qed.
Lemma all_occur n k : In k (possible_rounds n) -> exists al,
  (forall j c, (k | j)%N -> N.iter j (after n al) c = c) /\
  (forall j c, cube_well_formed n c -> N.iter j (after n al) c = c -> (k | j)%N).
Proof.
  intros I. pose proof (possible_positive n k I) as K0. pose proof long_words_table as T. rewrite forallb_forall in T. specialize (T n (all_sizes_complete n)).
  rewrite forallb_forall in T. specialize (T k I). apply existsb_exists in T as (w & _ & T).
  destruct (word_rounds n w) as [o|] eqn:W; [|discriminate T]. apply N.eqb_eq, N.mod_divide in T as (r & ->); [|lia].
  pose proof (word_rounds_spec n w _ W) as K.
  assert (R0 : r <> 0%N).
  { intros ->. pose proof (core_order n w) as (o & Io & Ko). apply possible_positive in Io.
    specialize (K (N.to_nat o)). rewrite N2Nat.id in K. specialize (Ko (N.to_nat o)). rewrite N2Nat.id in Ko.
    assert (D : (0 * k | o)%N) by (apply K, Ko, N.divide_refl). cbn [N.mul] in D. apply N.divide_0_l in D. lia. }
  assert (X : forall j c, N.iter j (after n (concat (repeat w (N.to_nat r)))) c = N.iter (j * r) (after n w) c).
  { intros j c. rewrite !iter_fold, N2Nat.inj_mul, <- niter_mul. apply niter_ext. intros x. apply after_repeat. }
  exists (concat (repeat w (N.to_nat r))). split.
  - intros j c (q & ->). rewrite X. apply core_all_cubes, K. rewrite N2Nat.id. exists q. lia.
  - intros j c V H. rewrite X in H. apply cube_core_back in H; [|exact V]. apply K in H. rewrite N2Nat.id in H. destruct H as (q & H).
    exists q. apply (N.mul_cancel_r _ _ r R0). lia.
Qed.

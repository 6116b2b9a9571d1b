(** Which of the shortest solutions the searcher finds (for C100). *)

From Coq Require Import List Bool Arith ZArith Lia.
From Verif Require Import Model_Base Model_Search Model_Timed Spec_Search Spec_First Proof_Search Proof_Timed.
Import ListNotations.

Section First.
  Context {C M : Type} (u : Z) (U : (0 < u)%Z) (pr : Problem Z C M) (app : C -> M -> C).
  Context (Eq : equality_ok pr) (Pos : non_negative pr) (Sound : successors_sound pr app)
    (Comp : successors_complete pr app) (Ad : admissible u pr app).
  Let ops := exact_costs u.
  Open Scope Z_scope.

  (** [D] moves are not undercut by any alg from [c]. *)
  Definition needs (D : nat) (c : C) : Prop := forall al, reaches_target pr app c al -> (D <= length al)%nat.

  Lemma try_split rec path (b : Z) :
    (forall s mn mn', b < mn -> rec (s :: path) mn = IdaNone mn' -> b < mn') ->
    forall succs mn sol p, b < mn -> ida_try pr rec path succs mn = IdaFound sol p ->
    exists l1 s m l2 mn' sol', succs = l1 ++ (s, m) :: l2 /\ rec (s :: path) mn' = IdaFound sol' p /\ b < mn' /\ sol = sol' ++ [m] /\
      forall s' m', In (s', m') l1 -> existsb (pr_eqb pr s') path = true \/
        exists mn1 mn2, b < mn1 /\ rec (s' :: path) mn1 = IdaNone mn2.
  Proof.
    intros H. induction succs as [|[s m] succs IH]; intros mn sol p B; cbn [ida_try]; [discriminate|].
    destruct (existsb (pr_eqb pr s) path) eqn:X.
    - intros F. destruct (IH mn sol p B F) as (l1 & s0 & m0 & l2 & mn' & sol' & -> & R & B' & -> & N).
      exists ((s, m) :: l1), s0, m0, l2, mn', sol'. repeat split; auto. intros s' m' [[= <- <-]|I]; eauto.
    - destruct (rec (s :: path) mn) as [sol' p'|mn1| |] eqn:R; try discriminate.
      + intros [= <- <-]. exists [], s, m, succs, mn, sol'. repeat split; auto; intros s' m' [].
      + intros F. destruct (IH mn1 sol p (H _ _ _ B R) F) as (l1 & s0 & m0 & l2 & mn' & sol' & -> & R' & B' & -> & N).
        exists ((s, m) :: l1), s0, m0, l2, mn', sol'. repeat split; auto. intros s' m' [[= <- <-]|I]; eauto.
  Qed.

  Lemma needs_succ D c m : needs (S D) c -> needs D (app c m).
  Proof. intros H al R. specialize (H (m :: al) R). cbn [length] in H. lia. Qed.

  (** Nothing is found below a successor of which no solution of the right length exists, and
      the other way round. *)
  Lemma none_needs fuel s path cur mn1 mn2 D :
    (forall x, In x path -> needs (S D) x) ->
    cur + u * Z.of_nat D < mn1 ->
    search_impl ops pr fuel (s :: path) cur (cur + u * Z.of_nat D) mn1 = IdaNone mn2 ->
    forall bl, reaches_target pr app s bl -> (D < length bl)%nat.
  Proof.
    intros P B R bl T. destruct (le_lt_dec (length bl) D) as [L|L]; [exfalso|lia].
    destruct (remove_loops app (pr_eqb pr) Eq bl s) as (bl' & L' & F' & N').
    assert (T' : reaches_target pr app s bl') by (unfold reaches_target in *; rewrite F'; exact T).
    pose proof (impl_none_gt u pr fuel s path cur _ mn1 mn2 B R) as G.
    assert (mn2 <= cur + u * Z.of_nat D); [|lia].
    refine (impl_none_min u pr app Eq Comp _ bl' fuel s path cur _ mn1 mn2 R T' N' _ _).
    - intros x I J. apply visited_suffix in I as (a & b & -> & E). specialize (P x J b).
      assert (reaches_target pr app x b). { unfold reaches_target in *. rewrite fold_left_app, E in T'. exact T'. }
      specialize (P H). rewrite app_length in L'. lia.
    - intros i Hi. pose proof (path_costs u U pr app Ad s bl' T' i Hi). nia.
  Qed.

  Lemma found_first : forall D fuel c rest cur mn sol p,
    needs D c -> (forall x, In x rest -> needs (S D) x) -> cur + u * Z.of_nat D < mn ->
    search_impl ops pr fuel (c :: rest) cur (cur + u * Z.of_nat D) mn = IdaFound sol p ->
    forall bl, reaches_target pr app c bl -> length bl = D ->
    not_after (fun pre => map snd (pr_successors pr (fold_left app pre c))) (rev sol) bl.
  Proof.
    induction D as [|D IH]; intros fuel c rest cur mn sol p Nc Nr B R bl T L.
    - apply length_zero_iff_nil in L as ->. intros [|? ?] ? ? ? ? _ H; discriminate H.
    - destruct fuel as [|fuel]; [discriminate R|]. cbn [search_impl] in R.
      destruct (k_ltb ops _ _); [discriminate R|]. destruct (pr_is_target pr c) eqn:Tc.
      { pose proof (Nc [] Tc) as Z0. cbn in Z0. lia. }
      destruct (try_split _ (c :: rest) (cur + u * Z.of_nat (S D))
        (fun s mn1 mn2 B1 R1 => impl_none_gt u pr fuel s (c :: rest) (cur + u) _ mn1 mn2 B1 R1) _ _ _ _ B R)
        as (l1 & s & m & l2 & mn' & sol' & Es & R' & B' & -> & N).
      cbn [ops exact_costs k_add k_one] in R', N.
      assert (Bd : cur + u * Z.of_nat (S D) = (cur + u) + u * Z.of_nat D) by lia.
      rewrite Bd in R', B', N.
      assert (Is : In (s, m) (pr_successors pr c)) by (rewrite Es; apply in_elt).
      pose proof (Sound _ _ _ Is) as Em.
      assert (Np : forall x, In x (c :: rest) -> needs (S D) x).
      { intros x [<-|I]; [exact Nc|]. intros al X. specialize (Nr x I al X). lia. }
      rewrite rev_app_distr. cbn [rev]. intros common m1 m2 r1 r2 E1 E2 Ne. destruct common as [|m0 common].
      + cbn [List.app] in E1, E2. injection E1 as <- <-. subst bl.
        pose proof (Comp c m2) as I2. rewrite Es in I2. apply in_app_or in I2 as [I2|[I2|I2]].
        * exfalso. destruct (N _ _ I2) as [X|(mn1 & mn2 & B1 & R1)].
          -- apply existsb_exists in X as (x & Ix & X). apply Eq in X. subst x. specialize (Np _ Ix r2 T). cbn [length] in L. lia.
          -- pose proof (none_needs fuel (app c m2) (c :: rest) (cur + u) mn1 mn2 D Np B1 R1 r2 T). cbn [length] in L. lia.
        * exfalso. congruence.
        * apply in_split in I2 as (a & b & ->). exists (map snd l1), (map snd a), (map snd b).
          cbn [fold_left]. rewrite Es, map_app. cbn [map snd]. rewrite map_app. reflexivity.
      + cbn [List.app] in E1, E2. injection E1 as <- E1. subst bl. cbn [fold_left].
        rewrite <- Em. refine (IH fuel s (c :: rest) (cur + u) mn' sol' p _ _ B' R' (common ++ m2 :: r2) _ _ common m1 m2 r1 r2 E1 eq_refl Ne).
        * rewrite Em. apply needs_succ, Nc.
        * exact Np.
        * rewrite Em. exact T.
        * cbn [length] in L. lia.
  Qed.

  (** The iterations: the successful one has the cost of the shortest solution as its bound. *)
  Lemma iter_first fuel c bl : reaches_target pr app c bl -> (forall al, reaches_target pr app c al -> (length bl <= length al)%nat) ->
    forall n bound r c', bound <= u * Z.of_nat (length bl) ->
    search_iter ops pr fuel c n bound = SearchDone (Some (r, c')) ->
    not_after (fun pre => map snd (pr_successors pr (fold_left app pre c))) r bl.
  Proof.
    intros T O. induction n as [|n IH]; intros bound r c' Bb; cbn [search_iter]; [discriminate|].
    destruct (search_impl ops pr fuel [c] (k_zero ops) bound (k_add ops bound (k_one ops))) as [sol p|mn| |] eqn:E; try discriminate.
    - cbn [ops exact_costs k_zero k_add k_one] in E.
      pose proof (impl_found_cost u pr Pos fuel c [] 0 bound (bound + u) sol p E) as Ct.
      destruct (impl_found (exact_costs u) pr app Sound fuel c [] 0 bound (bound + u) sol p E) as (x & p' & -> & Fx & Tx).
      intros [= <- <-].
      assert (Ls : (length bl <= length sol)%nat).
      { rewrite <- (rev_length sol). apply O. unfold reaches_target. rewrite Fx. exact Tx. }
      assert (bound = 0 + u * Z.of_nat (length bl)) as -> by nia.
      refine (found_first (length bl) fuel c [] 0 _ sol (x :: p') O _ _ E bl T eq_refl); [intros y []|lia].
    - intros R. refine (IH mn r c' _ R). cbn [ops exact_costs k_zero k_add k_one] in E.
      destruct (remove_loops app (pr_eqb pr) Eq bl c) as (bl' & L' & F' & N').
      assert (T' : reaches_target pr app c bl') by (unfold reaches_target in *; rewrite F'; exact T).
      refine (impl_none_min u pr app Eq Comp _ bl' fuel c [] 0 bound (bound + u) mn E T' N' _ _).
      + intros y _ [].
      + intros i Hi. pose proof (path_costs u U pr app Ad c bl' T' i Hi). nia.
  Qed.
End First.

(** The same for a heuristic whose answers change from call to call. *)
Section TimedFirst.
  Context {C M : Type} (u : Z) (U : (0 < u)%Z) (eqb : C -> C -> bool) (successors : C -> list (C * M))
    (is_target : C -> bool) (h : nat -> C -> outcome Z) (app : C -> M -> C) (P : C -> Prop).
  Open Scope Z_scope.
  Context (Eq : forall a b, eqb a b = true <-> a = b)
    (Sound : forall c s m, In (s, m) (successors c) -> s = app c m)
    (Complete : forall c m, In (app c m, m) (successors c))
    (Stays : forall c m, P c -> P (app c m))
    (Answers : forall k c, P c -> exists z, h k c = Done z /\ 0 <= z)
    (Admissible : forall k c al z, is_target (fold_left app al c) = true -> h k c = Done z -> z <= u * Z.of_nat (length al)).
  Let ops := exact_costs u.
  Notation run := (timed_impl ops eqb successors is_target h).

  Definition needs_t (D : nat) (c : C) : Prop := forall al, is_target (fold_left app al c) = true -> (D <= length al)%nat.

  Lemma timed_try_split (rec : list C -> Z -> nat -> timed_result Z C M) path (b : Z) (succs : list (C * M)) :
    (forall s m mn k mn' k', In (s, m) succs -> b < mn -> rec (s :: path) mn k = TNone mn' k' -> b < mn') ->
    forall mn k sol p, b < mn -> timed_try eqb rec path succs mn k = TFound sol p ->
    exists l1 s m l2 mn' k' sol', succs = l1 ++ (s, m) :: l2 /\ rec (s :: path) mn' k' = TFound sol' p /\ b < mn' /\ sol = sol' ++ [m] /\
      forall s' m', In (s', m') l1 -> existsb (eqb s') path = true \/
        exists mn1 k1 mn2 k2, b < mn1 /\ rec (s' :: path) mn1 k1 = TNone mn2 k2.
  Proof.
    induction succs as [|[s m] succs IH]; intros H mn k sol p B; cbn [timed_try]; [discriminate|].
    assert (H' : forall s m mn k mn' k', In (s, m) succs -> b < mn -> rec (s :: path) mn k = TNone mn' k' -> b < mn').
    { intros s0 m0 mn0 k0 mn1 k1 I. apply (H s0 m0). right. exact I. }
    destruct (existsb (eqb s) path) eqn:X.
    - intros F. destruct (IH H' mn k sol p B F) as (l1 & s0 & m0 & l2 & mn' & k' & sol' & -> & R & B' & -> & N).
      exists ((s, m) :: l1), s0, m0, l2, mn', k', sol'. repeat split; auto. intros s' m' [[= <- <-]|I]; eauto.
    - destruct (rec (s :: path) mn k) as [sol' p'|mn1 k1| |] eqn:R; try discriminate.
      + intros [= <- <-]. exists [], s, m, succs, mn, k, sol'. repeat split; auto; intros s' m' [].
      + intros F. destruct (IH H' mn1 k1 sol p (H s m _ _ _ _ (or_introl eq_refl) B R) F) as (l1 & s0 & m0 & l2 & mn' & k' & sol' & -> & R' & B' & -> & N).
        exists ((s, m) :: l1), s0, m0, l2, mn', k', sol'. repeat split; auto. intros s' m' [[= <- <-]|I]; eauto 8.
  Qed.

  Lemma timed_none_gt fuel c rest cur bound mn k mn' k' : P c -> bound < cur + u * Z.of_nat fuel ->
    bound < mn -> run (S fuel) (c :: rest) cur bound mn k = TNone mn' k' -> bound < mn'.
  Proof.
    intros Pc F B R. pose proof (timed_impl_good u eqb successors is_target h app P Eq Sound Complete Stays Answers fuel c rest cur bound mn k Pc F) as G.
    unfold ops in R. rewrite R in G. apply G, B.
  Qed.
  Lemma timed_none_needs fuel s path cur mn1 k1 mn2 k2 D : P s -> (D < fuel)%nat ->
    (forall x, In x path -> needs_t (S D) x) -> cur + u * Z.of_nat D < mn1 ->
    run (S fuel) (s :: path) cur (cur + u * Z.of_nat D) mn1 k1 = TNone mn2 k2 ->
    forall bl, is_target (fold_left app bl s) = true -> (D < length bl)%nat.
  Proof.
    intros Ps Fu Np B R bl T. destruct (le_lt_dec (length bl) D) as [L|L]; [exfalso|lia].
    destruct (remove_loops app eqb Eq bl s) as (bl' & L' & F' & N').
    assert (T' : is_target (fold_left app bl' s) = true) by (rewrite F'; exact T).
    pose proof (timed_impl_good u eqb successors is_target h app P Eq Sound Complete Stays Answers fuel s path cur
      (cur + u * Z.of_nat D) mn1 k1 Ps ltac:(nia)) as G.
    unfold ops in R. rewrite R in G. destruct G as (_ & G2 & G3). specialize (G2 B).
    assert (mn2 <= cur + u * Z.of_nat D); [|lia]. apply (G3 _ bl'). split; [exact T'|]. split; [exact N'|]. split.
    - intros x I J. apply visited_suffix in I as (a & b & -> & E). specialize (Np x J b).
      rewrite fold_left_app, E in T'. specialize (Np T'). rewrite app_length in L'. lia.
    - intros i k z Hi Hz. assert (T2 : is_target (fold_left app (skipn i bl') (fold_left app (firstn i bl') s)) = true).
      { rewrite <- fold_left_app, firstn_skipn. exact T'. }
      pose proof (Admissible k _ _ z T2 Hz) as A. rewrite skipn_length in A. nia.
  Qed.

  Lemma timed_found_first : forall D fuel c rest cur mn k sol p, P c -> (D < fuel)%nat ->
    needs_t D c -> (forall x, In x rest -> needs_t (S D) x) -> cur + u * Z.of_nat D < mn ->
    run (S fuel) (c :: rest) cur (cur + u * Z.of_nat D) mn k = TFound sol p ->
    forall bl, is_target (fold_left app bl c) = true -> length bl = D ->
    not_after (fun pre => map snd (successors (fold_left app pre c))) (rev sol) bl.
  Proof.
    induction D as [|D IH]; intros fuel c rest cur mn k sol p Pc Fu Nc Nr B R bl T L.
    - apply length_zero_iff_nil in L as ->. intros [|? ?] ? ? ? ? _ H; discriminate H.
    - destruct fuel as [|fuel]; [lia|]. remember (S fuel) as f eqn:Ef. cbn [timed_impl] in R.
      destruct (h k c) as [z|]; [|discriminate R]. cbv zeta in R.
      destruct (k_ltb ops _ _); [discriminate R|]. destruct (is_target c) eqn:Tc.
      { pose proof (Nc [] Tc) as Z0. cbn in Z0. lia. }
      cbn [ops exact_costs k_add k_one] in R. change (mkCostOps Z Z.add Z.ltb 0 u) with ops in R.
      assert (Bd : cur + u * Z.of_nat (S D) = (cur + u) + u * Z.of_nat D) by lia.
      apply timed_try_split with (b := cur + u * Z.of_nat (S D)) in R; [|intros s m mn1 k1 mn2 k2 I B1 R1|exact B].
      2:{ subst f. apply (timed_none_gt fuel s (c :: rest) (cur + u) _ mn1 k1 mn2 k2); [rewrite (Sound _ _ _ I); apply Stays, Pc|nia|exact B1|exact R1]. }
      destruct R as (l1 & s & m & l2 & mn' & k' & sol' & Es & R' & B' & -> & N).
      rewrite Bd in R', B', N. subst f.
      assert (Is : In (s, m) (successors c)) by (rewrite Es; apply in_elt).
      pose proof (Sound _ _ _ Is) as Em.
      assert (Np : forall x, In x (c :: rest) -> needs_t (S D) x).
      { intros x [<-|I]; [exact Nc|]. intros al X. specialize (Nr x I al X). lia. }
      rewrite rev_app_distr. cbn [rev]. intros common m1 m2 r1 r2 E1 E2 Ne. destruct common as [|m0 common].
      + cbn [List.app] in E1, E2. injection E1 as <- <-. subst bl.
        pose proof (Complete c m2) as I2. rewrite Es in I2. apply in_app_or in I2 as [I2|[I2|I2]].
        * exfalso. destruct (N _ _ I2) as [X|(mn1 & k1 & mn2 & k2 & B1 & R1)].
          -- apply existsb_exists in X as (x & Ix & X). apply Eq in X. subst x. specialize (Np _ Ix r2 T). cbn [length] in L. lia.
          -- pose proof (timed_none_needs fuel (app c m2) (c :: rest) (cur + u) mn1 k1 mn2 k2 D (Stays c m2 Pc) ltac:(lia) Np B1 R1 r2 T). cbn [length] in L. lia.
        * exfalso. congruence.
        * apply in_split in I2 as (a & b & ->). exists (map snd l1), (map snd a), (map snd b).
          cbn [fold_left]. rewrite Es, map_app. cbn [map snd]. rewrite map_app. reflexivity.
      + cbn [List.app] in E1, E2. injection E1 as <- E1. subst bl. cbn [fold_left].
        rewrite <- Em. refine (IH fuel s (c :: rest) (cur + u) mn' k' sol' p _ _ _ _ B' R' (common ++ m2 :: r2) _ _ common m1 m2 r1 r2 E1 eq_refl Ne).
        * rewrite Em. apply Stays, Pc.
        * lia.
        * rewrite Em. intros al X. specialize (Nc (m :: al) X). cbn [length] in Nc. lia.
        * exact Np.
        * rewrite Em. exact T.
        * cbn [length] in L. lia.
  Qed.

  Lemma timed_iter_first fuel c bl : P c -> is_target (fold_left app bl c) = true ->
    (forall al, is_target (fold_left app al c) = true -> (length bl <= length al)%nat) -> (length bl < fuel)%nat ->
    forall n bound k r c', bound <= u * Z.of_nat (length bl) ->
    timed_iter ops eqb successors is_target h (S fuel) c n bound k = SearchDone (Some (r, c')) ->
    not_after (fun pre => map snd (successors (fold_left app pre c))) r bl.
  Proof.
    intros Pc T O Fu. remember (S fuel) as f eqn:Ef. induction n as [|n IH]; intros bound k r c' Bb; cbn [timed_iter]; [discriminate|].
    cbn [ops exact_costs k_zero k_add k_one]. change (mkCostOps Z Z.add Z.ltb 0 u) with ops.
    pose proof (timed_impl_good u eqb successors is_target h app P Eq Sound Complete Stays Answers fuel c [] 0 bound (bound + u) k Pc ltac:(nia)) as G.
    rewrite <- Ef in G. change (exact_costs u) with ops in G.
    destruct (run f [c] 0 bound (bound + u) k) as [sol p|mn k'| |] eqn:E; try discriminate.
    - destruct G as ((x & p' & ->) & Ct).
      destruct (timed_impl_found ops eqb successors is_target h app Sound f c [] 0 bound (bound + u) k sol _ E) as (x' & p'' & [= <- <-] & Fx & Tx).
      intros [= <- <-].
      assert (Ls : (length bl <= length sol)%nat) by (rewrite <- (rev_length sol); apply O; rewrite Fx; exact Tx).
      assert (bound = 0 + u * Z.of_nat (length bl)) as -> by nia. subst f.
      refine (timed_found_first (length bl) fuel c [] 0 _ k sol (x :: p') Pc Fu O _ _ E bl T eq_refl); [intros y []|lia].
    - intros R. refine (IH mn k' r c' _ R). destruct G as (_ & _ & G3).
      destruct (remove_loops app eqb Eq bl c) as (bl' & L' & F' & N').
      assert (T' : is_target (fold_left app bl' c) = true) by (rewrite F'; exact T).
      pose proof (G3 _ _ (promising_start u U is_target h app Admissible c bl' T' N')). nia.
  Qed.
End TimedFirst.

(** Two algs that both come first are the same if no move is listed twice. *)
Lemma both_first {M} (dec : forall a b : M, {a = b} + {a <> b}) (listed : list M -> list M) al : forall bl,
  length al = length bl -> (forall pre, NoDup (listed pre)) -> not_after listed al bl -> not_after listed bl al -> al = bl.
Proof.
  intros bl. revert listed al. induction bl as [|b bl IH]; intros listed al L N A B.
  - apply length_zero_iff_nil, L.
  - destruct al as [|a al]; [discriminate L|]. destruct (dec a b) as [<-|Ne].
    + f_equal. apply (IH (fun pre => listed (a :: pre))); [cbn in L; lia| | |].
      * intros pre. apply N.
      * intros pre m m' r r' -> -> Ne. exact (A (a :: pre) m m' r r' eq_refl eq_refl Ne).
      * intros pre m m' r r' -> -> Ne. exact (B (a :: pre) m m' r r' eq_refl eq_refl Ne).
    + exfalso. specialize (N []).
      destruct (A [] a b al bl eq_refl eq_refl Ne) as (x1 & x2 & x3 & E1).
      destruct (B [] b a bl al eq_refl eq_refl (not_eq_sym Ne)) as (y1 & y2 & y3 & E2).
      rewrite E1 in N, E2. clear E1.
      assert (P : x1 ++ [a] = (y1 ++ b :: y2) ++ [a] -> False).
      { intros H. apply app_inj_tail in H as [-> _]. rewrite <- app_assoc in N. cbn in N.
        apply NoDup_app_r in N. inversion N as [|? ? Nb _]. apply Nb. apply in_or_app. right. right. apply in_or_app. right. left. reflexivity. }
      assert (Q : forall l1 l2 k1 k2 : list M, NoDup (l1 ++ a :: l2) -> l1 ++ a :: l2 = k1 ++ a :: k2 -> l1 = k1).
      { induction l1 as [|z l1 IHl]; intros l2 [|w k1] k2 ND; cbn; intros H; try reflexivity.
        - injection H as <- H. inversion ND as [|? ? Na _]. exfalso. apply Na. rewrite H. apply in_elt.
        - injection H as -> H. inversion ND as [|? ? Na _]. exfalso. apply Na. cbn. apply in_elt.
        - injection H as -> H. f_equal. cbn in ND. inversion ND. exact (IHl _ _ _ H3 H). }
      apply P. f_equal. apply (Q x1 (x2 ++ b :: x3) (y1 ++ b :: y2) y3 N). rewrite <- app_assoc. exact E2.
Qed.

(** Proofs about the searcher with a changing heuristic. *)

From Coq Require Import List Bool Arith ZArith SpecFloat Lia.
From Verif Require Import Model_Base Model_Search Model_Float Model_Timed Spec_Search Proof_Search Proof_Float Proof_FloatSearch.
Import ListNotations.

(** ** Soundness, for every cost type and every heuristic *)
Section Generic.
  Context {K C M : Type} (ops : CostOps K) (eqb : C -> C -> bool) (successors : C -> list (C * M))
    (is_target : C -> bool) (heuristic : nat -> C -> outcome K).
  Context (app : C -> M -> C) (Sound : forall c s m, In (s, m) (successors c) -> s = app c m).

  Lemma timed_try_found (rec : list C -> K -> nat -> timed_result K C M) path : forall succs mn k sol p,
    timed_try eqb rec path succs mn k = TFound sol p ->
    exists s m mn' k' sol', In (s, m) succs /\ rec (s :: path) mn' k' = TFound sol' p /\ sol = sol' ++ [m].
  Proof.
    induction succs as [|[s m] succs IH]; intros mn k sol p; cbn [timed_try]; [discriminate|].
    destruct (existsb (eqb s) path) eqn:Ec.
    - intros H. destruct (IH _ _ _ _ H) as (s' & m' & mn' & k' & sol' & I & R). exists s', m', mn', k', sol'. split; [right; exact I|exact R].
    - destruct (rec (s :: path) mn k) as [sol' p'|mn' k'| |] eqn:E; try discriminate.
      + intros H. inversion H; subst. exists s, m, mn, k, sol'. repeat split; auto. left. reflexivity.
      + intros H. destruct (IH _ _ _ _ H) as (s' & m' & mn'' & k'' & sol' & I & R). exists s', m', mn'', k'', sol'. split; [right; exact I|exact R].
  Qed.

  Lemma timed_impl_found : forall fuel c rest cur bound mn k sol p,
    timed_impl ops eqb successors is_target heuristic fuel (c :: rest) cur bound mn k = TFound sol p ->
    exists c' p', p = c' :: p' /\ fold_left app (rev sol) c = c' /\ is_target c' = true.
  Proof.
    induction fuel as [|fuel IH]; intros c rest cur bound mn k sol p; cbn [timed_impl]; [discriminate|].
    destruct (heuristic k c) as [e|]; [|discriminate]. cbv zeta. destruct (k_ltb ops bound _); [discriminate|].
    destruct (is_target c) eqn:T.
    - intros H. inversion H; subst. exists c, rest. auto.
    - intros H. apply timed_try_found in H as (s & m & mn' & k' & sol' & I & R & ->).
      apply IH in R as (c' & p' & E1 & E2 & E3). exists c', p'. repeat split; auto.
      rewrite rev_app_distr. cbn. rewrite <- (Sound _ _ _ I). exact E2.
  Qed.

  Lemma timed_iter_found fuel c : forall n bound k al c',
    timed_iter ops eqb successors is_target heuristic fuel c n bound k = SearchDone (Some (al, c')) ->
    fold_left app al c = c' /\ is_target c' = true.
  Proof.
    induction n as [|n IH]; intros bound k al c'; cbn [timed_iter]; [discriminate|].
    destruct (timed_impl _ _ _ _ _ fuel [c] _ bound _ _) as [sol p|mn k'| |] eqn:E; try discriminate.
    - apply timed_impl_found in E as (x & p' & -> & E2 & E3). intros H. inversion H; subst. auto.
    - apply IH.
  Qed.
End Generic.

(** ** More fuel does not change the result *)
Section Fuel.
  Context {K C M : Type} (ops : CostOps K) (eqb : C -> C -> bool) (successors : C -> list (C * M))
    (is_target : C -> bool) (heuristic : nat -> C -> outcome K).

  Lemma timed_try_fuel (rec rec' : list C -> K -> nat -> timed_result K C M) path :
    (forall p mn k, rec p mn k <> TFuel -> rec' p mn k = rec p mn k) ->
    forall succs mn k, timed_try eqb rec path succs mn k <> TFuel ->
    timed_try eqb rec' path succs mn k = timed_try eqb rec path succs mn k.
  Proof.
    intros H. induction succs as [|[s m] succs IH]; intros mn k; cbn [timed_try]; [auto|].
    destruct (existsb (eqb s) path); [apply IH|].
    destruct (rec (s :: path) mn k) as [sol p|mn' k'| |] eqn:E; intros N.
    - rewrite H, E by congruence. reflexivity.
    - rewrite H, E by congruence. apply IH, N.
    - rewrite H, E by congruence. reflexivity.
    - contradiction.
  Qed.
  Lemma timed_impl_fuel j : forall fuel path cur bound mn k,
    timed_impl ops eqb successors is_target heuristic fuel path cur bound mn k <> TFuel ->
    timed_impl ops eqb successors is_target heuristic (fuel + j) path cur bound mn k
    = timed_impl ops eqb successors is_target heuristic fuel path cur bound mn k.
  Proof.
    induction fuel as [|fuel IH]; intros path cur bound mn k; cbn [timed_impl plus]; [contradiction|].
    destruct path as [|c rest]; [auto|]. destruct (heuristic k c); [|auto]. cbv zeta. destruct (k_ltb ops bound _); [auto|].
    destruct (is_target c); [auto|]. apply timed_try_fuel. intros p mn' k'. apply IH.
  Qed.
  Lemma timed_iter_fuel j fuel c : forall n bound k,
    timed_iter ops eqb successors is_target heuristic fuel c n bound k <> SearchFuel ->
    timed_iter ops eqb successors is_target heuristic (fuel + j) c n bound k
    = timed_iter ops eqb successors is_target heuristic fuel c n bound k.
  Proof.
    induction n as [|n IH]; intros bound k; cbn [timed_iter]; [auto|].
    destruct (timed_impl _ _ _ _ _ fuel [c] _ bound _ k) as [sol p|mn k'| |] eqn:E; intros N;
      try contradiction; rewrite timed_impl_fuel, E by congruence; auto.
  Qed.
End Fuel.

(** ** A heuristic that does not change *)
Section Constant.
  Context {K C M : Type} (ops : CostOps K) (pr : Problem K C M).
  Let h (_ : nat) (c : C) : outcome K := Done (pr_heuristic pr c).

  Definition forget (r : timed_result K C M) : ida_result K C M :=
    match r with TFound s p => IdaFound s p | TNone m _ => IdaNone m | TPanic => IdaPanic | TFuel => IdaFuel end.

  Lemma timed_try_constant rec rec' path : (forall p mn k, forget (rec' p mn k) = rec p mn) ->
    forall succs mn k, forget (timed_try (pr_eqb pr) rec' path succs mn k) = ida_try pr rec path succs mn.
  Proof.
    intros H. induction succs as [|[s m] succs IH]; intros mn k; cbn [timed_try ida_try]; [reflexivity|].
    destruct (existsb (pr_eqb pr s) path); [apply IH|]. rewrite <- (H (s :: path) mn k).
    destruct (rec' (s :: path) mn k); cbn [forget]; auto.
  Qed.
  Lemma timed_impl_constant : forall fuel path cur bound mn k,
    forget (timed_impl ops (pr_eqb pr) (pr_successors pr) (pr_is_target pr) h fuel path cur bound mn k)
    = search_impl ops pr fuel path cur bound mn.
  Proof.
    induction fuel as [|fuel IH]; intros path cur bound mn k; cbn [timed_impl search_impl]; [reflexivity|].
    destruct path as [|c rest]; [reflexivity|]. cbn [h]. cbv zeta. destruct (k_ltb ops bound _); [reflexivity|].
    destruct (pr_is_target pr c); [reflexivity|]. apply timed_try_constant. intros p mn' k'. apply IH.
  Qed.
  Lemma timed_iter_constant fuel c : forall n bound k,
    timed_iter ops (pr_eqb pr) (pr_successors pr) (pr_is_target pr) h fuel c n bound k = search_iter ops pr fuel c n bound.
  Proof.
    induction n as [|n IH]; intros bound k; cbn [timed_iter search_iter]; [reflexivity|].
    rewrite <- (timed_impl_constant fuel [c] _ _ _ k).
    destruct (timed_impl _ _ _ _ _ fuel [c] _ bound _ k); cbn [forget]; auto.
  Qed.
End Constant.

Local Open Scope Z_scope.

(** ** Exact costs *)
Section Exact.
  Context {C M : Type} (u : Z) (U : 0 < u) (eqb : C -> C -> bool) (successors : C -> list (C * M))
    (is_target : C -> bool) (h : nat -> C -> outcome Z) (app : C -> M -> C) (P : C -> Prop).
  Context (Eq : forall a b, eqb a b = true <-> a = b)
    (Sound : forall c s m, In (s, m) (successors c) -> s = app c m)
    (Complete : forall c m, In (app c m, m) (successors c))
    (Stays : forall c m, P c -> P (app c m))
    (Answers : forall k c, P c -> exists z, h k c = Done z /\ 0 <= z).
  Let ops := exact_costs u.

  (** The alg [al] reaches a target from [c] without visiting a state twice or one of [rest],
      and [h] never says more than [X] along it. *)
  Definition promising (X cur : Z) (rest : list C) (c : C) (al : list M) : Prop :=
    is_target (fold_left app al c) = true /\ NoDup (visited app c al) /\
    (forall x, In x (visited app c al) -> ~ In x rest) /\
    (forall i k z, (i <= length al)%nat -> h k (fold_left app (firstn i al) c) = Done z -> cur + u * Z.of_nat i + z <= X).

  Definition good (c : C) (rest : list C) (cur bound mn : Z) (r : timed_result Z C M) : Prop :=
    match r with
    | TPanic => False
    | TFuel => False
    | TFound sol p => (exists c' p', p = c' :: p') /\ cur + u * Z.of_nat (length sol) <= bound
    | TNone mn' _ => mn' <= mn /\ (bound < mn -> bound < mn') /\
        (forall X al, promising X cur rest c al -> mn' <= X)
    end.

  Lemma timed_try_good (rec : list C -> Z -> nat -> timed_result Z C M) path cur bound : forall succs,
    (forall s m mn k, In (s, m) succs -> good s path (cur + u) bound mn (rec (s :: path) mn k)) ->
    forall mn k, match timed_try eqb rec path succs mn k with
    | TPanic => False
    | TFuel => False
    | TFound sol p => (exists c' p', p = c' :: p') /\ cur + u * Z.of_nat (length sol) <= bound
    | TNone mn' _ => mn' <= mn /\ (bound < mn -> bound < mn') /\
        (forall X s m al, In (s, m) succs -> ~ In s path -> promising X (cur + u) path s al -> mn' <= X)
    end.
  Proof.
    induction succs as [|[s m] succs IH]; intros R mn k; cbn [timed_try].
    - split; [lia|]. split; [auto|]. intros X s m al [].
    - assert (R' : forall s m mn k, In (s, m) succs -> good s path (cur + u) bound mn (rec (s :: path) mn k)).
      { intros s' m' mn' k' I. apply (R s' m'). right. exact I. }
      specialize (IH R'). destruct (existsb (eqb s) path) eqn:Ex.
      + specialize (IH mn k). destruct (timed_try _ _ _ succs mn k) as [sol p|mn' k'| |]; auto.
        destruct IH as (I1 & I2 & I3). split; [exact I1|]. split; [exact I2|]. intros X s' m' al [[= <- <-]|I] N Pr.
        * exfalso. apply existsb_exists in Ex as (y & Iy & Ey). apply Eq in Ey. subst y. exact (N Iy).
        * exact (I3 X s' m' al I N Pr).
      + pose proof (R s m mn k (or_introl eq_refl)) as G. destruct (rec (s :: path) mn k) as [sol p|mn1 k1| |]; cbn [good] in G; auto.
        * destruct G as (G1 & G2). split; [exact G1|]. rewrite app_length. cbn [length]. lia.
        * destruct G as (G1 & G2 & G3). specialize (IH mn1 k1). destruct (timed_try _ _ _ succs mn1 k1) as [sol p|mn' k'| |]; auto.
          destruct IH as (I1 & I2 & I3). split; [lia|]. split; [auto|]. intros X s' m' al [[= <- <-]|I] N Pr.
          -- apply G3 in Pr. lia.
          -- exact (I3 X s' m' al I N Pr).
  Qed.

  Lemma timed_impl_good : forall fuel c rest cur bound mn k, P c -> bound < cur + u * Z.of_nat fuel ->
    good c rest cur bound mn (timed_impl ops eqb successors is_target h (S fuel) (c :: rest) cur bound mn k).
  Proof.
    induction fuel as [|fuel IH]; intros c rest cur bound mn k Pc B.
    - cbn [timed_impl]. destruct (Answers k c Pc) as (z & Hz & Pz). rewrite Hz. cbn [ops exact_costs k_ltb k_add]. cbv zeta.
      replace (bound <? cur + z) with true by (symmetry; apply Z.ltb_lt; lia). cbn [good].
      split; [destruct (Z.ltb_spec (cur + z) mn); lia|]. split; [destruct (Z.ltb_spec (cur + z) mn); lia|].
      intros X al (_ & _ & _ & Hx). specialize (Hx 0%nat k z ltac:(lia)). cbn [firstn fold_left] in Hx. specialize (Hx Hz).
      destruct (Z.ltb_spec (cur + z) mn); lia.
    - remember (S fuel) as f eqn:Ef. cbn [timed_impl]. destruct (Answers k c Pc) as (z & Hz & Pz). rewrite Hz.
      cbn [ops exact_costs k_ltb k_add k_one]. cbv zeta. destruct (Z.ltb_spec bound (cur + z)) as [L|L].
      + cbn [good]. split; [destruct (Z.ltb_spec (cur + z) mn); lia|]. split; [destruct (Z.ltb_spec (cur + z) mn); lia|].
        intros X al (_ & _ & _ & Hx). specialize (Hx 0%nat k z ltac:(lia)). cbn [firstn fold_left] in Hx. specialize (Hx Hz).
        destruct (Z.ltb_spec (cur + z) mn); lia.
      + destruct (is_target c) eqn:T.
        * cbn [good length]. split; [eauto|]. lia.
        * assert (G := timed_try_good (fun path mn calls => timed_impl ops eqb successors is_target h f path (cur + u) bound mn calls)
            (c :: rest) cur bound (successors c)).
          assert (R : forall s m mn k, In (s, m) (successors c) ->
            good s (c :: rest) (cur + u) bound mn (timed_impl ops eqb successors is_target h f (s :: c :: rest) (cur + u) bound mn k)).
          { intros s m mn' k' I. subst f. apply IH; [|lia]. rewrite (Sound _ _ _ I). apply Stays, Pc. }
          specialize (G R mn (S k)).
          destruct (timed_try _ _ _ (successors c) mn (S k)) as [sol p|mn' k'| |]; cbn [good]; auto.
          destruct G as (G1 & G2 & G3). split; [exact G1|]. split; [exact G2|].
          intros X [|m al] (Ht & N & Dj & Hx); [cbn in Ht; congruence|]. cbn [visited fold_left] in *. inversion N as [|? ? Nc N']; subst.
          apply (G3 X (app c m) m al).
          -- apply Complete.
          -- assert (V0 : In (app c m) (visited app (app c m) al)) by (destruct al; left; reflexivity).
             intros [E|I].
             ++ apply Nc. rewrite <- E in V0 at 1. exact V0.
             ++ apply (Dj (app c m)); [right; exact V0|exact I].
          -- split; [exact Ht|]. split; [exact N'|]. split.
             ++ intros x I [E|I']; [subst x; exact (Nc I)|]. apply (Dj x); [right; exact I|exact I'].
             ++ intros i k0 z0 Li Hz0. specialize (Hx (S i) k0 z0). cbn [length firstn fold_left] in Hx.
                specialize (Hx ltac:(lia) Hz0). lia.
  Qed.

  (** Iterations: [X] is the cost of some alg that reaches the target. *)
  Context (Admissible : forall k c al z, is_target (fold_left app al c) = true -> h k c = Done z -> z <= u * Z.of_nat (length al)).

  Lemma promising_start c al : is_target (fold_left app al c) = true -> NoDup (visited app c al) ->
    promising (u * Z.of_nat (length al)) 0 [] c al.
  Proof.
    intros T N. split; [exact T|]. split; [exact N|]. split; [intros x _ []|]. intros i k z Li Hz.
    assert (T' : is_target (fold_left app (skipn i al) (fold_left app (firstn i al) c)) = true).
    { rewrite <- fold_left_app, firstn_skipn. exact T. }
    pose proof (Admissible k _ _ z T' Hz) as A. rewrite skipn_length in A. nia.
  Qed.

  Lemma timed_iter_optimal fuel c al : P c -> is_target (fold_left app al c) = true -> NoDup (visited app c al) ->
    forall n bound k, bound <= u * Z.of_nat (length al) -> u * Z.of_nat (length al) < u * Z.of_nat fuel ->
    u * Z.of_nat (length al) < bound + Z.of_nat n -> (0 < n)%nat ->
    exists r c', timed_iter ops eqb successors is_target h (S fuel) c n bound k = SearchDone (Some (r, c')) /\
      (length r <= length al)%nat.
  Proof.
    intros Pc T N. induction n as [|n IH]; intros bound k B F L Hn; [lia|].
    remember (S fuel) as f eqn:Ef. cbn [timed_iter].
    assert (G : good c [] 0 bound (bound + u) (timed_impl ops eqb successors is_target h f [c] 0 bound (bound + u) k)).
    { subst f. apply timed_impl_good; [exact Pc|lia]. }
    cbn [ops exact_costs k_zero k_add k_one] in *.
    change (mkCostOps Z Z.add Z.ltb 0 u) with ops in *.
    destruct (timed_impl ops eqb successors is_target h f [c] 0 bound (bound + u) k) as [sol p|mn k'| |]; cbn [good] in G; try contradiction.
    - destruct G as ((c' & p' & ->) & Lc). exists (rev sol), c'. split; [reflexivity|]. rewrite rev_length. nia.
    - destruct G as (_ & G2 & G3). pose proof (G3 _ _ (promising_start c al T N)) as G. specialize (G2 ltac:(lia)).
      apply IH; [exact G|exact F|lia|]. destruct n; [lia|lia].
  Qed.
End Exact.

(** ** Single precision *)
Section Transfer.
  Context {C M : Type} (k : Z) (Hk : 0 <= k <= 23) (eqb : C -> C -> bool) (successors : C -> list (C * M))
    (is_target : C -> bool) (h : nat -> C -> outcome Z) (P : C -> Prop).
  Context (H : Z) (Stays : forall c s m, P c -> In (s, m) (successors c) -> P s)
    (Answers : forall t c, P c -> exists z, h t c = Done z /\ 0 <= z <= H).
  Context (hf : nat -> C -> outcome f32) (Same : forall t c, P c -> hf t c = map_o (f32_scaled (- k)) (h t c)).
  Let u := 2 ^ k.
  Let sc := f32_scaled (- k).

  Definition timed_to_float (r : timed_result Z C M) : timed_result f32 C M :=
    match r with TFound s p => TFound s p | TNone z t => TNone (sc z) t | TPanic => TPanic | TFuel => TFuel end.

  Lemma timed_try_float rec rec' path b : forall succs,
    (forall s m mn t, In (s, m) succs -> 0 <= mn <= b -> rec' (s :: path) (sc mn) t = timed_to_float (rec (s :: path) mn t) /\
       (forall z t', rec (s :: path) mn t = TNone z t' -> 0 <= z <= b)) ->
    forall mn t, 0 <= mn <= b ->
    timed_try eqb rec' path succs (sc mn) t = timed_to_float (timed_try eqb rec path succs mn t) /\
    (forall z t', timed_try eqb rec path succs mn t = TNone z t' -> 0 <= z <= b).
  Proof.
    induction succs as [|[s m] succs IH]; intros R mn t Bm; cbn [timed_try].
    - split; [reflexivity|]. intros z t' X. injection X as <- _. exact Bm.
    - assert (IH' := IH (fun s m mn t I => R s m mn t (or_intror I))). destruct (existsb (eqb s) path); [apply IH', Bm|].
      destruct (R s m mn t (or_introl eq_refl) Bm) as (R1 & R2). rewrite R1. destruct (rec (s :: path) mn t) as [sol p|z t'| |]; cbn [timed_to_float].
      + split; [reflexivity|discriminate].
      + apply IH', (R2 z t' eq_refl).
      + split; [reflexivity|discriminate].
      + split; [reflexivity|discriminate].
  Qed.

  Lemma timed_impl_float bound (Bb : 0 <= bound) (Sm : bound + u + u + H < 2 ^ 24) : forall fuel c rest cur mn t, P c ->
    0 <= cur <= bound + u -> 0 <= mn <= bound + u ->
    timed_impl f32_costs eqb successors is_target hf fuel (c :: rest) (sc cur) (sc bound) (sc mn) t =
      timed_to_float (timed_impl (exact_costs u) eqb successors is_target h fuel (c :: rest) cur bound mn t) /\
    (forall z t', timed_impl (exact_costs u) eqb successors is_target h fuel (c :: rest) cur bound mn t = TNone z t' -> 0 <= z <= bound + u).
  Proof.
    assert (U : 0 < u) by (apply Z.pow_pos_nonneg; lia).
    induction fuel as [|fuel IH]; intros c rest cur mn t Pc Bc Bm; cbn [timed_impl].
    { split; [reflexivity|discriminate]. }
    destruct (Answers t c Pc) as (z & Hz & Bz). rewrite (Same t c Pc), Hz. cbn [map_o].
    cbn [exact_costs f32_costs k_add k_ltb k_one]. cbv zeta. fold sc.
    rewrite (sc_add k Hk), (sc_ltb k Hk) by lia. destruct (Z.ltb_spec bound (cur + z)) as [L|L].
    - rewrite (sc_ltb k Hk) by lia. destruct (Z.ltb_spec (cur + z) mn) as [L2|L2].
      + split; [reflexivity|]. intros z' t' X. injection X as <- _. lia.
      + split; [reflexivity|]. intros z' t' X. injection X as <- _. lia.
    - destruct (is_target c); [split; [reflexivity|discriminate]|].
      rewrite (sc_one k Hk), (sc_add k Hk) by (subst u; lia).
      apply (timed_try_float (fun path mn calls => timed_impl (exact_costs u) eqb successors is_target h fuel path (cur + u) bound mn calls)
        (fun path mn calls => timed_impl f32_costs eqb successors is_target hf fuel path (sc (cur + u)) (sc bound) mn calls)); [|exact Bm].
      intros s m mn' t' I Bm'. apply IH; [exact (Stays c s m Pc I)|lia|exact Bm'].
  Qed.

  Lemma timed_iter_float fuel c : P c -> forall n bound t, 0 <= bound -> bound + u * (Z.of_nat n + 1) + H < 2 ^ 24 ->
    timed_iter f32_costs eqb successors is_target hf fuel c n (sc bound) t
    = timed_iter (exact_costs u) eqb successors is_target h fuel c n bound t.
  Proof.
    intros Pc. assert (U : 0 < u) by (apply Z.pow_pos_nonneg; lia). destruct (Answers 0%nat c Pc) as (z0 & _ & Bz0).
    induction n as [|n IH]; intros bound t Bb Sm; cbn [timed_iter]; [reflexivity|].
    rewrite Nat2Z.inj_succ in Sm.
    cbn [exact_costs f32_costs k_add k_one k_zero]. change (f32_of_Z 0) with (sc 0).
    rewrite (sc_one k Hk). fold u sc. rewrite (sc_add k Hk) by (subst u; nia).
    destruct (timed_impl_float bound Bb ltac:(nia) fuel c [] 0 (bound + u) t Pc ltac:(lia) ltac:(lia)) as (R & Zb).
    fold u sc in R. change (mkCostOps Z Z.add Z.ltb 0 u) with (exact_costs u) in *.
    change (mkCostOps f32 f32_add f32_ltb (sc 0) (f32_of_Z 1)) with f32_costs in *. fold f32_costs in R.
    unfold sc in *. rewrite R.
    destruct (timed_impl (exact_costs u) eqb successors is_target h fuel [c] 0 bound (bound + u) t) as [sol p|z t'| |] eqn:E; cbn [timed_to_float]; try reflexivity.
    specialize (Zb z t' eq_refl). apply IH; [lia|nia].
  Qed.
End Transfer.

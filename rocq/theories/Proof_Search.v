(** Proofs about the searcher. *)

From Coq Require Import List Bool Arith ZArith Lia.
From Verif Require Import Model_Base Model_Moves Model_Search Spec_Search.
Import ListNotations.

Section Generic.
  Context {K C M : Type} (ops : CostOps K) (pr : Problem K C M).

  (** ** Soundness, for every cost type *)

  Lemma try_found rec path : forall succs mn sol p,
    ida_try pr rec path succs mn = IdaFound sol p ->
    exists s m mn' sol', In (s, m) succs /\ existsb (pr_eqb pr s) path = false /\
      rec (s :: path) mn' = IdaFound sol' p /\ sol = sol' ++ [m].
  Proof.
    induction succs as [|[s m] succs IH]; intros mn sol p; cbn [ida_try]; [discriminate|].
    destruct (existsb (pr_eqb pr s) path) eqn:Ec.
    - intros H. destruct (IH _ _ _ H) as (s' & m' & mn' & sol' & I & R). exists s', m', mn', sol'. split; [right; exact I|exact R].
    - destruct (rec (s :: path) mn) as [sol' p'|mn'| |] eqn:E; try discriminate.
      + intros H. inversion H; subst. exists s, m, mn, sol'. repeat split; auto. left. reflexivity.
      + intros H. destruct (IH _ _ _ H) as (s' & m' & mn'' & sol' & I & R). exists s', m', mn'', sol'. split; [right; exact I|exact R].
  Qed.

  Lemma impl_found (app : C -> M -> C) (S : successors_sound pr app) : forall fuel c rest cur bound mn sol p,
    search_impl ops pr fuel (c :: rest) cur bound mn = IdaFound sol p ->
    exists c' p', p = c' :: p' /\ fold_left app (rev sol) c = c' /\ pr_is_target pr c' = true.
  Proof.
    induction fuel as [|fuel IH]; intros c rest cur bound mn sol p; cbn [search_impl]; [discriminate|].
    destruct (k_ltb ops bound _); [discriminate|].
    destruct (pr_is_target pr c) eqn:T.
    - intros H. inversion H; subst. exists c, rest. auto.
    - intros H. apply try_found in H as (s & m & mn' & sol' & I & _ & R & ->).
      apply IH in R as (c' & p' & E1 & E2 & E3). exists c', p'. repeat split; auto.
      rewrite rev_app_distr. cbn. rewrite <- (S _ _ _ I). exact E2.
  Qed.

  Lemma impl_found_nonempty : forall fuel c rest cur bound mn sol,
    search_impl ops pr fuel (c :: rest) cur bound mn <> IdaFound sol [].
  Proof.
    induction fuel as [|fuel IH]; intros c rest cur bound mn sol; cbn [search_impl]; [discriminate|].
    destruct (k_ltb ops bound _); [discriminate|]. destruct (pr_is_target pr c); [discriminate|].
    intros H. apply try_found in H as (s & m & mn' & sol' & _ & _ & R & _). exact (IH _ _ _ _ _ _ R).
  Qed.

  Lemma iter_found (app : C -> M -> C) (S : successors_sound pr app) fuel c : forall n bound al c',
    search_iter ops pr fuel c n bound = SearchDone (Some (al, c')) ->
    fold_left app al c = c' /\ pr_is_target pr c' = true.
  Proof.
    induction n as [|n IH]; intros bound al c'; cbn [search_iter]; [discriminate|].
    destruct (search_impl ops pr fuel [c] _ bound _) as [sol p|mn| |] eqn:E; try discriminate.
    - apply (impl_found app S) in E as (x & p' & -> & E2 & E3). intros H. inversion H; subst. auto.
    - apply IH.
  Qed.

  (** The path returned is the list of states visited. *)
  Lemma visited_snoc (app : C -> M -> C) al : forall c m, visited app c (al ++ [m]) = visited app c al ++ [fold_left app (al ++ [m]) c].
  Proof. induction al as [|x al IH]; intros c m; cbn; [reflexivity|]. rewrite IH. reflexivity. Qed.

  (** ** More fuel does not change the result *)

  Lemma try_fuel rec rec' path : (forall p mn, rec p mn <> IdaFuel -> rec' p mn = rec p mn) ->
    forall succs mn, ida_try pr rec path succs mn <> IdaFuel ->
    ida_try pr rec' path succs mn = ida_try pr rec path succs mn.
  Proof.
    intros H. induction succs as [|[s m] succs IH]; intros mn; cbn [ida_try]; [auto|].
    destruct (existsb (pr_eqb pr s) path); [apply IH|].
    destruct (rec (s :: path) mn) as [sol p|mn'| |] eqn:E; intros N.
    - rewrite H, E by congruence. reflexivity.
    - rewrite H, E by congruence. apply IH, N.
    - rewrite H, E by congruence. reflexivity.
    - contradiction.
  Qed.

  Lemma impl_fuel k : forall fuel path cur bound mn,
    search_impl ops pr fuel path cur bound mn <> IdaFuel ->
    search_impl ops pr (fuel + k) path cur bound mn = search_impl ops pr fuel path cur bound mn.
  Proof.
    induction fuel as [|fuel IH]; intros path cur bound mn; cbn [search_impl plus]; [contradiction|].
    destruct path as [|c rest]; [auto|]. destruct (k_ltb ops bound _); [auto|].
    destruct (pr_is_target pr c); [auto|]. apply try_fuel. intros p mn'. apply IH.
  Qed.

  Lemma iter_fuel k fuel c : forall n bound,
    search_iter ops pr fuel c n bound <> SearchFuel ->
    search_iter ops pr (fuel + k) c n bound = search_iter ops pr fuel c n bound.
  Proof.
    induction n as [|n IH]; intros bound; cbn [search_iter]; [auto|].
    destruct (search_impl ops pr fuel [c] _ bound _) as [sol p|mn| |] eqn:E; intros N;
      try contradiction; rewrite impl_fuel, E by congruence; auto.
  Qed.

  (** ** No panic *)
  Lemma try_no_panic rec path : (forall s mn, rec (s :: path) mn <> IdaPanic) ->
    forall succs mn, ida_try pr rec path succs mn <> IdaPanic.
  Proof.
    intros H. induction succs as [|[s m] succs IH]; intros mn; cbn [ida_try]; [discriminate|].
    destruct (existsb (pr_eqb pr s) path); [apply IH|].
    destruct (rec (s :: path) mn) eqn:E; try discriminate; [apply IH|]. elim (H _ _ E).
  Qed.
  Lemma impl_no_panic : forall fuel c rest cur bound mn, search_impl ops pr fuel (c :: rest) cur bound mn <> IdaPanic.
  Proof.
    induction fuel as [|fuel IH]; intros c rest cur bound mn; cbn [search_impl]; [discriminate|].
    destruct (k_ltb ops bound _); [discriminate|]. destruct (pr_is_target pr c); [discriminate|].
    apply try_no_panic. intros; apply IH.
  Qed.
  Lemma iter_no_panic fuel c : forall n bound, search_iter ops pr fuel c n bound <> SearchPanic.
  Proof.
    induction n as [|n IH]; intros bound; cbn [search_iter]; [discriminate|].
    destruct (search_impl ops pr fuel [c] _ bound _) as [sol p|mn| |] eqn:E; try discriminate.
    - destruct p; discriminate.
    - apply IH.
    - elim (impl_no_panic _ _ _ _ _ _ E).
  Qed.
End Generic.

(** ** Removing loops from a solution *)

Section Loops.
  Context {C M : Type} (app : C -> M -> C) (eqb : C -> C -> bool) (E : forall a b, eqb a b = true <-> a = b).

  Lemma visited_suffix c al x : In x (visited app c al) ->
    exists a b, al = a ++ b /\ fold_left app a c = x.
  Proof.
    revert c; induction al as [|m al IH]; intros c; cbn.
    - intros [<-|[]]. exists [], []. auto.
    - intros [<-|H].
      + exists [], (m :: al). auto.
      + destruct (IH _ H) as (a & b & -> & F). exists (m :: a), b. auto.
  Qed.
  Lemma visited_app a : forall c b, exists pre, visited app c (a ++ b) = pre ++ visited app (fold_left app a c) b.
  Proof.
    induction a as [|m a IH]; intros c b; cbn; [exists []; reflexivity|].
    destruct (IH (app c m) b) as (pre & ->). exists (c :: pre). reflexivity.
  Qed.
  Lemma NoDup_app_r {A} (a b : list A) : NoDup (a ++ b) -> NoDup b.
  Proof. induction a as [|x a IH]; auto. cbn. intros H. inversion H; auto. Qed.

  Lemma remove_loops al : forall c, exists al', length al' <= length al /\
    fold_left app al' c = fold_left app al c /\ NoDup (visited app c al').
  Proof.
    induction al as [|m al IH]; intros c.
    - exists []. repeat split; auto. cbn. repeat constructor. intros [].
    - destruct (IH (app c m)) as (r & L & F & N).
      destruct (existsb (eqb c) (visited app (app c m) r)) eqn:X.
      + apply existsb_exists in X as (y & Hy & Ey). apply E in Ey. subst y.
        destruct (visited_suffix _ _ _ Hy) as (a & b & -> & Fa). exists b. split; [|split].
        * rewrite app_length in L. cbn. lia.
        * cbn. rewrite <- F, fold_left_app, Fa. reflexivity.
        * destruct (visited_app a (app c m) b) as (pre & Ev). rewrite Ev, Fa in N. apply NoDup_app_r in N. exact N.
      + exists (m :: r). split; [cbn; lia|]. split; [exact F|]. cbn. constructor; [|exact N].
        intros H. assert (existsb (eqb c) (visited app (app c m) r) = true); [|congruence].
        apply existsb_exists. exists c. split; [exact H|]. apply E. reflexivity.
  Qed.
End Loops.

(** ** Exact costs *)

Section Exact.
  Context {C M : Type} (u : Z) (U : (0 < u)%Z) (pr : Problem Z C M) (app : C -> M -> C).
  Context (Eq : equality_ok pr) (Pos : non_negative pr).
  Let ops := exact_costs u.
  Open Scope Z_scope.

  Lemma impl_terminates : forall fuel c rest cur bound mn,
    (bound < cur + u * Z.of_nat fuel)%Z ->
    search_impl ops pr (S fuel) (c :: rest) cur bound mn <> IdaFuel.
  Proof.
    induction fuel as [|fuel IH]; intros c rest cur bound mn B.
    - cbn [search_impl]. pose proof (Pos c). cbn [ops exact_costs k_ltb k_add].
      replace (bound <? cur + pr_heuristic pr c) with true by (symmetry; apply Z.ltb_lt; lia). discriminate.
    - remember (S fuel) as f eqn:Ef. cbn [search_impl]. destruct (k_ltb ops bound _); [discriminate|].
      destruct (pr_is_target pr c); [discriminate|].
      assert (G : forall succs mn, ida_try pr (fun path mn => search_impl ops pr f path (k_add ops cur (k_one ops)) bound mn)
                    (c :: rest) succs mn <> IdaFuel); [|apply G].
      induction succs as [|[s m] succs IHs]; intros mn'; cbn [ida_try]; [discriminate|].
      destruct (existsb (pr_eqb pr s) (c :: rest)); [apply IHs|].
      destruct (search_impl ops pr f (s :: c :: rest) (k_add ops cur (k_one ops)) bound mn') eqn:R; try discriminate; [apply IHs|].
      exfalso. revert R. subst f. apply IH. cbn [ops exact_costs k_add k_one]. lia.
  Qed.

  (** What happens to [min_exceeded]. *)
  Lemma try_none rec path : 
    (forall s mn mn', rec (s :: path) mn = IdaNone mn' -> mn' <= mn) ->
    forall succs mn mn', ida_try pr rec path succs mn = IdaNone mn' -> mn' <= mn.
  Proof.
    intros H. induction succs as [|[s m] succs IH]; intros mn mn'; cbn [ida_try].
    - intros X. inversion X. lia.
    - destruct (existsb (pr_eqb pr s) path); [apply IH|].
      destruct (rec (s :: path) mn) as [sol p|mn1| |] eqn:R; try discriminate.
      intros X. apply H in R. apply IH in X. lia.
  Qed.
  Lemma impl_none_le : forall fuel c rest cur bound mn mn',
    search_impl ops pr fuel (c :: rest) cur bound mn = IdaNone mn' -> mn' <= mn.
  Proof.
    induction fuel as [|fuel IH]; intros c rest cur bound mn mn'; cbn [search_impl]; [discriminate|].
    cbn [ops exact_costs k_ltb k_add]. destruct (bound <? _).
    - intros X. inversion X. destruct (Z.ltb_spec (cur + pr_heuristic pr c) mn); lia.
    - destruct (pr_is_target pr c); [discriminate|]. apply try_none. intros s m1 m2. apply IH.
  Qed.
  Lemma try_none_gt rec path b : 
    (forall s mn mn', b < mn -> rec (s :: path) mn = IdaNone mn' -> b < mn') ->
    forall succs mn mn', b < mn -> ida_try pr rec path succs mn = IdaNone mn' -> b < mn'.
  Proof.
    intros H. induction succs as [|[s m] succs IH]; intros mn mn' B; cbn [ida_try].
    - intros X. inversion X. lia.
    - destruct (existsb (pr_eqb pr s) path); [apply IH, B|].
      destruct (rec (s :: path) mn) as [sol p|mn1| |] eqn:R; try discriminate.
      intros X. apply H in R; [|exact B]. revert X. apply IH, R.
  Qed.
  Lemma impl_none_gt : forall fuel c rest cur bound mn mn', bound < mn ->
    search_impl ops pr fuel (c :: rest) cur bound mn = IdaNone mn' -> bound < mn'.
  Proof.
    induction fuel as [|fuel IH]; intros c rest cur bound mn mn' B; cbn [search_impl]; [discriminate|].
    cbn [ops exact_costs k_ltb k_add]. destruct (Z.ltb_spec bound (cur + pr_heuristic pr c)) as [L|L].
    - intros X. inversion X. destruct (Z.ltb_spec (cur + pr_heuristic pr c) mn); lia.
    - destruct (pr_is_target pr c); [discriminate|]. apply try_none_gt; [|exact B]. intros s m1 m2. apply IH.
  Qed.

  (** If nothing is found, the next bound is at most the highest cost on any loop-free
      path to a target. *)
  Lemma impl_none_min (Comp : successors_complete pr app) X : forall al fuel c rest cur bound mn mn',
    search_impl ops pr fuel (c :: rest) cur bound mn = IdaNone mn' ->
    reaches_target pr app c al -> NoDup (visited app c al) ->
    (forall x, In x (visited app c al) -> ~ In x rest) ->
    (forall i, (i <= length al)%nat -> cur + u * Z.of_nat i + pr_heuristic pr (fold_left app (firstn i al) c) <= X) ->
    mn' <= X.
  Proof.
    induction al as [|m al IH]; intros [|fuel] c rest cur bound mn mn'; cbn [search_impl]; try discriminate;
      cbn [ops exact_costs k_ltb k_add k_one]; intros H T N D B;
      pose proof (B 0%nat ltac:(lia)) as B0; cbn [firstn fold_left] in B0; rewrite Z.mul_0_r, Z.add_0_r in B0;
      destruct (Z.ltb_spec bound (cur + pr_heuristic pr c)) as [L|L];
      try (inversion H; destruct (Z.ltb_spec (cur + pr_heuristic pr c) mn); lia).
    - unfold reaches_target in T. cbn in T. rewrite T in H. discriminate.
    - destruct (pr_is_target pr c) eqn:Tc; [discriminate|].
      pose proof (Comp c m) as Hin. cbn [visited] in N, D. inversion N as [|? ? N1 N2]; subst.
      assert (Hs : In (app c m) (visited app (app c m) al)) by (destruct al; left; reflexivity).
      assert (Fresh : existsb (pr_eqb pr (app c m)) (c :: rest) = false).
      { destruct (existsb _ _) eqn:Ex; [|reflexivity]. apply existsb_exists in Ex as (y & Hy & Ey).
        apply Eq in Ey. subst y. destruct Hy as [Hy|Hy]; [elim N1; rewrite Hy at 1; exact Hs|]. elim (D (app c m)); [right; exact Hs|exact Hy]. }
      revert mn H Hin. generalize (pr_successors pr c). induction l as [|[s m'] l IHl]; intros mn H Hin; [destruct Hin|].
      cbn [ida_try] in H. destruct Hin as [Heq|Hin].
      + injection Heq as -> ->. rewrite Fresh in H.
        destruct (search_impl _ pr fuel (app c m :: c :: rest) (cur + u) bound mn) as [sol p|mn1| |] eqn:R; try discriminate.
        assert (mn1 <= X).
        { apply (IH _ _ _ _ _ _ _ R).
          - exact T.
          - exact N2.
          - intros x Hx [<-|Hr]; [contradiction|]. elim (D x); [right; exact Hx|exact Hr].
          - intros i Hi. pose proof (B (S i) ltac:(cbn; lia)) as Bi. cbn [firstn fold_left] in Bi.
            rewrite Nat2Z.inj_succ in Bi. lia. }
        apply try_none in H; [lia|]. intros s m1 m2. apply impl_none_le.
      + destruct (existsb (pr_eqb pr s) (c :: rest)); [exact (IHl _ H Hin)|].
        destruct (search_impl _ pr fuel (s :: c :: rest) (cur + u) bound mn) as [sol p|mn1| |] eqn:R; try discriminate.
        exact (IHl _ H Hin).
  Qed.

  (** The cost of what is found. *)
  Lemma impl_found_cost : forall fuel c rest cur bound mn sol p,
    search_impl ops pr fuel (c :: rest) cur bound mn = IdaFound sol p ->
    cur + u * Z.of_nat (length sol) <= bound.
  Proof.
    induction fuel as [|fuel IH]; intros c rest cur bound mn sol p; cbn [search_impl]; [discriminate|].
    cbn [ops exact_costs k_ltb k_add k_one]. destruct (Z.ltb_spec bound (cur + pr_heuristic pr c)) as [L|L]; [discriminate|].
    destruct (pr_is_target pr c).
    - intros H. inversion H; subst. pose proof (Pos c). cbn. lia.
    - intros H. apply try_found in H as (s & m & mn' & sol' & _ & _ & R & ->).
      apply IH in R. rewrite app_length. cbn [length]. lia.
  Qed.

  (** Iterations. *)
  Lemma iter_terminates fuel c : forall n bound,
    bound + u * Z.of_nat n < u * (Z.of_nat fuel + 1) ->
    search_iter ops pr (S fuel) c n bound <> SearchFuel.
  Proof.
    induction n as [|n IH]; intros bound B; cbn [search_iter]; [discriminate|].
    destruct (search_impl ops pr (S fuel) [c] _ bound _) as [sol p|mn| |] eqn:E; try discriminate.
    - destruct p; discriminate.
    - apply IH. apply impl_none_le in E. cbn [ops exact_costs k_add k_one] in E. lia.
    - exfalso. revert E. apply impl_terminates. cbn [ops exact_costs k_zero]. lia.
  Qed.

  Lemma iter_finds (Comp : successors_complete pr app) X fuel c al :
    reaches_target pr app c al -> NoDup (visited app c al) ->
    (forall i, (i <= length al)%nat -> u * Z.of_nat i + pr_heuristic pr (fold_left app (firstn i al) c) <= X) ->
    forall n bound, search_iter ops pr fuel c n bound <> SearchFuel ->
    X < bound + Z.of_nat n -> (0 < n)%nat ->
    exists r, search_iter ops pr fuel c n bound = SearchDone (Some r).
  Proof.
    intros T N B. induction n as [|n IH]; intros bound NF L Hn; [lia|]. cbn [search_iter] in *.
    destruct (search_impl ops pr fuel [c] (k_zero ops) bound (k_add ops bound (k_one ops))) as [sol p|mn| |] eqn:E.
    - destruct p as [|c' p]; [|eauto]. elim (impl_found_nonempty _ _ _ _ _ _ _ _ _ E).
    - assert (mn <= X).
      { apply (impl_none_min Comp X al _ _ _ _ _ _ _ E T N); [intros x _ []|].
        intros i Hi. cbn [ops exact_costs k_zero]. apply B in Hi. lia. }
      assert (bound < mn).
      { apply (impl_none_gt _ _ _ _ _ _ _) in E; [exact E|]. cbn [ops exact_costs k_add k_one]. lia. }
      apply IH; [exact NF|lia|]. destruct n; [lia|lia].
    - elim (impl_no_panic _ _ _ _ _ _ _ _ E).
    - contradiction.
  Qed.

  (** The solution found costs no more than the largest estimate along any other one. *)
  Lemma iter_found_bound (Comp : successors_complete pr app) X fuel c al :
    reaches_target pr app c al -> NoDup (visited app c al) ->
    (forall i, (i <= length al)%nat -> u * Z.of_nat i + pr_heuristic pr (fold_left app (firstn i al) c) <= X) ->
    forall n bound r c', bound <= X ->
    search_iter ops pr fuel c n bound = SearchDone (Some (r, c')) ->
    u * Z.of_nat (length r) <= X.
  Proof.
    intros T N B. induction n as [|n IH]; intros bound r c' Le; cbn [search_iter]; [discriminate|].
    destruct (search_impl ops pr fuel [c] (k_zero ops) bound (k_add ops bound (k_one ops))) as [sol p|mn| |] eqn:E; try discriminate.
    - destruct p as [|x p]; [discriminate|]. intros H. inversion H; subst. apply impl_found_cost in E.
      cbn [ops exact_costs k_zero] in E. rewrite rev_length. lia.
    - apply IH. apply (impl_none_min Comp X al _ _ _ _ _ _ _ E T N); [intros x _ []|].
      intros i Hi. cbn [ops exact_costs k_zero]. apply B in Hi. lia.
  Qed.

  (** With an admissible heuristic the bound never passes the cost of the cheapest
      solution. *)
  Lemma path_costs (Ad : admissible u pr app) c al : reaches_target pr app c al ->
    forall i, (i <= length al)%nat -> u * Z.of_nat i + pr_heuristic pr (fold_left app (firstn i al) c) <= u * Z.of_nat (length al).
  Proof.
    intros T i Hi. assert (R : reaches_target pr app (fold_left app (firstn i al) c) (skipn i al)).
    { unfold reaches_target in *. rewrite <- fold_left_app, firstn_skipn. exact T. }
    apply Ad in R. rewrite skipn_length in R. nia.
  Qed.

  Lemma iter_optimal (Comp : successors_complete pr app) (Ad : admissible u pr app) fuel c al :
    reaches_target pr app c al ->
    forall n bound r c', bound <= u * Z.of_nat (length al) ->
    search_iter ops pr fuel c n bound = SearchDone (Some (r, c')) ->
    (length r <= length al)%nat.
  Proof.
    intros T. destruct (remove_loops app (pr_eqb pr) Eq al c) as (al' & L' & F' & N').
    assert (T' : reaches_target pr app c al') by (unfold reaches_target in *; rewrite F'; exact T).
    induction n as [|n IH]; intros bound r c' B; cbn [search_iter]; [discriminate|].
    destruct (search_impl ops pr fuel [c] (k_zero ops) bound (k_add ops bound (k_one ops))) as [sol p|mn| |] eqn:E; try discriminate.
    - destruct p as [|x p]; [discriminate|]. intros H. inversion H; subst. apply impl_found_cost in E.
      cbn [ops exact_costs k_zero] in E. rewrite rev_length. nia.
    - intros H. apply (IH mn r c'); [|exact H].
      assert (mn <= u * Z.of_nat (length al')); [|nia].
      apply (impl_none_min Comp _ al' _ _ _ _ _ _ _ E T' N'); [intros x _ []|].
      intros i Hi. cbn [ops exact_costs k_zero]. pose proof (path_costs Ad c al' T' i Hi). lia.
  Qed.
End Exact.

(** Searching with [f32] costs is searching with exact costs, as long as the heuristic's
    values are multiples of a fixed power of two and not astronomically large.  Also:
    termination on finite state spaces, and the assertions that hold of every path. *)

From Coq Require Import List Bool Arith ZArith SpecFloat Lia.
From Verif Require Import Model_Search Model_Float Spec_Search Proof_Search Proof_Float.
Import ListNotations.

Section Finite.
  Context {K C M : Type} (ops : CostOps K) (pr : Problem K C M) (Eq : equality_ok pr).

  Lemma existsb_false x path : existsb (pr_eqb pr x) path = false -> ~ In x path.
  Proof.
    intros H I. assert (existsb (pr_eqb pr x) path = true); [|congruence].
    apply existsb_exists. exists x. split; [exact I|]. apply Eq. reflexivity.
  Qed.

  Lemma try_terminates rec path : forall succs mn,
    (forall s m mn, In (s, m) succs -> ~ In s path -> rec (s :: path) mn <> IdaFuel) ->
    ida_try pr rec path succs mn <> IdaFuel.
  Proof.
    induction succs as [|[s m] succs IH]; intros mn H; cbn [ida_try]; [discriminate|].
    assert (IH' : forall mn, ida_try pr rec path succs mn <> IdaFuel).
    { intros mn'. apply IH. intros s' m' mn0 I. exact (H s' m' mn0 (or_intror I)). }
    destruct (existsb (pr_eqb pr s) path) eqn:Ex; [apply IH'|].
    destruct (rec (s :: path) mn) eqn:E; try discriminate; [apply IH'|].
    elim (H s m mn (or_introl eq_refl) (existsb_false _ _ Ex) E).
  Qed.

  Lemma impl_finite all (Cl : closed_under_successors pr all) : forall fuel path cur bound mn,
    NoDup path -> incl path all -> length all < fuel + length path ->
    search_impl ops pr fuel path cur bound mn <> IdaFuel.
  Proof.
    induction fuel as [|fuel IH]; intros path cur bound mn N I L.
    - pose proof (NoDup_incl_length N I). lia.
    - cbn [search_impl]. destruct path as [|c rest]; [discriminate|].
      destruct (k_ltb ops bound _); [discriminate|]. destruct (pr_is_target pr c); [discriminate|].
      apply try_terminates. intros s m mn' Is Ns. apply IH.
      + constructor; assumption.
      + intros x [<-|X]; [|exact (I x X)]. exact (Cl c s m (I c (or_introl eq_refl)) Is).
      + cbn [length] in *. lia.
  Qed.

  Lemma iter_finite all (Cl : closed_under_successors pr all) fuel c : In c all -> length all <= fuel ->
    forall n bound, search_iter ops pr fuel c n bound <> SearchFuel.
  Proof.
    intros I L. induction n as [|n IH]; intros bound; cbn [search_iter]; [discriminate|].
    destruct (search_impl ops pr fuel [c] _ bound _) as [sol p|mn| |] eqn:E; try discriminate.
    - destruct p; discriminate.
    - apply IH.
    - exfalso. revert E. apply (impl_finite all Cl).
      + repeat constructor. intros [].
      + intros x [<-|[]]. exact I.
      + cbn [length]. lia.
  Qed.

  (** Assertions *)
  Lemma try_checked rec rec' path : forall succs,
    (forall s m mn, In (s, m) succs -> existsb (pr_eqb pr s) path = false -> rec' (s :: path) mn = rec (s :: path) mn) ->
    forall mn, ida_try pr rec' path succs mn = ida_try pr rec path succs mn.
  Proof.
    induction succs as [|[s m] succs IH]; intros H mn; cbn [ida_try]; [reflexivity|].
    assert (IH' : forall mn, ida_try pr rec' path succs mn = ida_try pr rec path succs mn).
    { apply IH. intros s' m' mn0 I. exact (H s' m' mn0 (or_intror I)). }
    destruct (existsb (pr_eqb pr s) path) eqn:Ex; [apply IH'|].
    rewrite (H s m mn (or_introl eq_refl) Ex). destruct (rec (s :: path) mn); auto.
  Qed.

  (** An assertion that holds initially and is kept by every step of the search holds of
      every path. *)
  Lemma impl_checked (check : list C -> K -> K -> bool) bound
    (Step : forall c rest cur s m, check (c :: rest) cur bound = true ->
       k_ltb ops bound (k_add ops cur (pr_heuristic pr c)) = false ->
       In (s, m) (pr_successors pr c) -> existsb (pr_eqb pr s) (c :: rest) = false ->
       check (s :: c :: rest) (k_add ops cur (k_one ops)) bound = true) :
    forall fuel path cur mn, check path cur bound = true ->
    checked_impl ops pr check fuel path cur bound mn = search_impl ops pr fuel path cur bound mn.
  Proof.
    induction fuel as [|fuel IH]; intros path cur mn Ck; cbn [checked_impl search_impl]; rewrite Ck; [reflexivity|].
    destruct path as [|c rest]; [reflexivity|]. destruct (k_ltb ops bound _) eqn:B; [reflexivity|].
    destruct (pr_is_target pr c); [reflexivity|]. apply try_checked. intros s m mn' I Ex. apply IH.
    exact (Step c rest cur s m Ck B I Ex).
  Qed.

  Lemma iter_checked (check : list C -> K -> K -> bool) c fuel (Init : forall bound, check [c] (k_zero ops) bound = true)
    (Step : forall bound c rest cur s m, check (c :: rest) cur bound = true ->
       k_ltb ops bound (k_add ops cur (pr_heuristic pr c)) = false ->
       In (s, m) (pr_successors pr c) -> existsb (pr_eqb pr s) (c :: rest) = false ->
       check (s :: c :: rest) (k_add ops cur (k_one ops)) bound = true) :
    forall n bound, checked_iter ops pr check fuel c n bound = search_iter ops pr fuel c n bound.
  Proof.
    induction n as [|n IH]; intros bound; cbn [checked_iter search_iter]; [reflexivity|].
    rewrite (impl_checked check bound (Step bound)) by apply Init.
    destruct (search_impl ops pr fuel [c] _ bound _); auto.
  Qed.
End Finite.

Local Open Scope Z_scope.

Lemma scaled_one k : 0 <= k <= 23 -> f32_of_Z 1 = f32_scaled (- k) (2 ^ k).
Proof.
  intros Hk. rewrite f32_of_Z_scaled. assert (P : 0 < 2 ^ k) by (apply Z.pow_pos_nonneg; lia).
  destruct (2 ^ k) as [|p|p] eqn:Ep; try lia.
  assert (D : dg p = k + 1).
  { apply dg_unique; [lia|]. rewrite <- Ep. replace (k + 1 - 1) with k by lia. rewrite Z.pow_add_r by lia. lia. }
  assert (L : Z.pos p < 2 ^ 24). { rewrite <- Ep. apply Z.pow_lt_mono_r; lia. }
  rewrite (scaled_pos (- k) p) by (auto; lia). rewrite (scaled_pos 0 1) by lia.
  assert (E1 : mant (Z.pos p) p = mant 1 1).
  { unfold mant. rewrite D, <- Ep, <- Z.pow_add_r by lia. change (dg 1) with 1. f_equal. rewrite Z.mul_1_l. f_equal. lia. }
  rewrite E1, D. change (dg 1) with 1. f_equal. lia.
Qed.

Section Transfer.
  Context {C M : Type} (k : Z) (Hk : 0 <= k <= 23) (pr : Problem Z C M).
  Context (H : Z) (Bh : forall c, 0 <= pr_heuristic pr c <= H).
  Let u := 2 ^ k.
  Let sc := f32_scaled (- k).

  Lemma sc_add a b : 0 <= a -> 0 <= b -> a + b < 2 ^ 24 -> f32_add (sc a) (sc b) = sc (a + b).
  Proof. intros. apply f32_add_scaled; auto; lia. Qed.
  Lemma sc_ltb a b : 0 <= a < 2 ^ 24 -> 0 <= b < 2 ^ 24 -> f32_ltb (sc a) (sc b) = (a <? b).
  Proof. intros. apply f32_ltb_scaled; auto; lia. Qed.
  Lemma sc_one : f32_of_Z 1 = sc u.
  Proof. exact (scaled_one k Hk). Qed.

  Definition to_float (r : ida_result Z C M) : ida_result f32 C M :=
    match r with
    | IdaFound s p => IdaFound s p | IdaNone z => IdaNone (sc z) | IdaPanic => IdaPanic | IdaFuel => IdaFuel
    end.

  Lemma try_float rec rec' path b : 
    (forall s mn, 0 <= mn <= b -> rec' (s :: path) (sc mn) = to_float (rec (s :: path) mn) /\
       (forall z, rec (s :: path) mn = IdaNone z -> 0 <= z <= b)) ->
    forall succs mn, 0 <= mn <= b ->
    ida_try (dyadic_problem k pr) rec' path succs (sc mn) = to_float (ida_try pr rec path succs mn) /\
    (forall z, ida_try pr rec path succs mn = IdaNone z -> 0 <= z <= b).
  Proof.
    intros R. induction succs as [|[s m] succs IH]; intros mn Bm; cbn [ida_try dyadic_problem pr_eqb].
    - split; [reflexivity|]. intros z X. injection X as <-. exact Bm.
    - destruct (existsb (pr_eqb pr s) path); [apply IH, Bm|].
      destruct (R s mn Bm) as (R1 & R2). rewrite R1. destruct (rec (s :: path) mn) as [sol p|z| |]; cbn [to_float].
      + split; [reflexivity|discriminate].
      + apply IH, R2. reflexivity.
      + split; [reflexivity|discriminate].
      + split; [reflexivity|discriminate].
  Qed.

  Lemma impl_float bound (Bb : 0 <= bound) (Sm : bound + u + u + H < 2 ^ 24) : forall fuel path cur mn,
    0 <= cur <= bound + u -> 0 <= mn <= bound + u ->
    search_impl f32_costs (dyadic_problem k pr) fuel path (sc cur) (sc bound) (sc mn) =
      to_float (search_impl (exact_costs u) pr fuel path cur bound mn) /\
    (forall z, search_impl (exact_costs u) pr fuel path cur bound mn = IdaNone z -> 0 <= z <= bound + u).
  Proof.
    assert (U : 0 < u) by (apply Z.pow_pos_nonneg; lia).
    induction fuel as [|fuel IH]; intros path cur mn Bc Bm; cbn [search_impl].
    { split; [reflexivity|discriminate]. }
    destruct path as [|c rest]; [split; [reflexivity|discriminate]|].
    cbn [dyadic_problem pr_heuristic pr_is_target pr_successors exact_costs f32_costs k_add k_ltb k_one].
    pose proof (Bh c) as Bc'. fold sc. rewrite sc_add, sc_ltb by lia. destruct (Z.ltb_spec bound (cur + pr_heuristic pr c)) as [L|L].
    - rewrite sc_ltb by lia. destruct (Z.ltb_spec (cur + pr_heuristic pr c) mn) as [L2|L2].
      + split; [reflexivity|]. intros z X. injection X as <-. lia.
      + split; [reflexivity|]. intros z X. injection X as <-. lia.
    - destruct (pr_is_target pr c); [split; [reflexivity|discriminate]|].
      rewrite sc_one, sc_add by lia.
      apply (try_float (fun path mn => search_impl (exact_costs u) pr fuel path (cur + u) bound mn)
        (fun path mn => search_impl f32_costs (dyadic_problem k pr) fuel path (sc (cur + u)) (sc bound) mn)); [|exact Bm].
      intros s mn' Bm'. apply IH; [lia|exact Bm'].
  Qed.

  Lemma iter_float fuel c : forall n bound, 0 <= bound -> bound + u * (Z.of_nat n + 1) + H < 2 ^ 24 ->
    search_iter f32_costs (dyadic_problem k pr) fuel c n (sc bound) = search_iter (exact_costs u) pr fuel c n bound.
  Proof.
    assert (U : 0 < u) by (apply Z.pow_pos_nonneg; lia). pose proof (Bh c) as Bc.
    induction n as [|n IH]; intros bound Bb Sm; cbn [search_iter]; [reflexivity|].
    rewrite Nat2Z.inj_succ in Sm.
    cbn [exact_costs f32_costs k_add k_one k_zero]. change (f32_of_Z 0) with (sc 0).
    rewrite sc_one, sc_add by nia.
    destruct (impl_float bound Bb ltac:(nia) fuel [c] 0 (bound + u) ltac:(lia) ltac:(lia)) as (R & Zb).
    rewrite R. change (mkCostOps Z Z.add Z.ltb 0 u) with (exact_costs u) in *.
    destruct (search_impl (exact_costs u) pr fuel [c] 0 bound (bound + u)) as [sol p|z| |] eqn:E; cbn [to_float]; try reflexivity.
    specialize (Zb z eq_refl). apply IH; [lia|nia].
  Qed.

  Lemma search_float fuel max_depth c : 2 * H + u * (Z.max 0 (max_depth + 1) + 1) < 2 ^ 24 ->
    search f32_costs (dyadic_problem k pr) fuel max_depth c = search (exact_costs u) pr fuel max_depth c.
  Proof.
    intros S. unfold search. cbn [dyadic_problem pr_heuristic]. pose proof (Bh c). fold sc. apply iter_float; [lia|].
    replace (Z.of_nat (Z.to_nat (max_depth + 1))) with (Z.max 0 (max_depth + 1)) by lia. lia.
  Qed.
End Transfer.

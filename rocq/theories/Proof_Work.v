(** Lemmas for C101: how much work a search does. *)

From Coq Require Import List Bool Arith NArith ZArith Lia ZifyBool ZifyN ZifyNat.
From Verif Require Import Model_Base Model_Moves Model_Cubes Model_Search Model_Float Spec_Search Spec_Work Proof_Search Proof_Float Proof_FloatSearch.
Import ListNotations.

(** ** Counting changes nothing *)
Section Same.
  Context {K C M : Type} (ops : CostOps K) (pr : Problem K C M).
  Lemma counted_try_same rec rec' path : (forall p mn, fst (rec' p mn) = rec p mn) ->
    forall succs mn, fst (counted_try pr rec' path succs mn) = ida_try pr rec path succs mn.
  Proof.
    intros H. induction succs as [|[s m] succs IH]; intros mn; cbn [counted_try ida_try]; [reflexivity|].
    destruct (existsb (pr_eqb pr s) path); [apply IH|]. rewrite <- H. destruct (rec' (s :: path) mn) as [[] k]; cbn [fst]; auto.
  Qed.
  Lemma counted_impl_same : forall fuel path cur bound mn,
    fst (counted_impl ops pr fuel path cur bound mn) = search_impl ops pr fuel path cur bound mn.
  Proof.
    induction fuel as [|fuel IH]; intros path cur bound mn; cbn [counted_impl search_impl]; [reflexivity|].
    destruct path as [|c rest]; [reflexivity|]. cbv zeta. destruct (k_ltb ops bound _); [reflexivity|].
    destruct (pr_is_target pr c); [reflexivity|]. cbn [fst]. apply counted_try_same. intros p mn'. apply IH.
  Qed.
  Lemma counted_iter_same fuel c : forall n bound,
    fst (counted_iter ops pr fuel c n bound) = search_iter ops pr fuel c n bound.
  Proof.
    induction n as [|n IH]; intros bound; cbn [counted_iter search_iter]; [reflexivity|].
    rewrite <- counted_impl_same. destruct (counted_impl ops pr fuel [c] _ bound _) as [[] k]; cbn [fst]; auto.
  Qed.
End Same.

(** ** Only the values of the heuristic matter *)
Section Values.
  Context {K C M : Type} (ops : CostOps K) (pr1 pr2 : Problem K C M).
  Context (E1 : pr_eqb pr1 = pr_eqb pr2) (E2 : pr_is_target pr1 = pr_is_target pr2) (E3 : pr_successors pr1 = pr_successors pr2)
    (E4 : forall c, pr_heuristic pr1 c = pr_heuristic pr2 c).
  Lemma counted_try_values rec1 rec2 path : (forall p mn, rec1 p mn = rec2 p mn) ->
    forall succs mn, counted_try pr1 rec1 path succs mn = counted_try pr2 rec2 path succs mn.
  Proof.
    intros H. induction succs as [|[s m] succs IH]; intros mn; cbn [counted_try]; [reflexivity|].
    rewrite E1, H. destruct (existsb (pr_eqb pr2 s) path); [apply IH|]. destruct (rec2 (s :: path) mn) as [[] k]; try reflexivity. rewrite IH. reflexivity.
  Qed.
  Lemma counted_impl_values : forall fuel path cur bound mn,
    counted_impl ops pr1 fuel path cur bound mn = counted_impl ops pr2 fuel path cur bound mn.
  Proof.
    induction fuel as [|fuel IH]; intros path cur bound mn; cbn [counted_impl]; [reflexivity|].
    destruct path as [|c rest]; [reflexivity|]. cbv zeta. rewrite E4, E2, E3.
    rewrite (counted_try_values _ (fun path mn => counted_impl ops pr2 fuel path (k_add ops cur (k_one ops)) bound mn)); [reflexivity|].
    intros p mn'. apply IH.
  Qed.
  Lemma counted_iter_values fuel c : forall n bound, counted_iter ops pr1 fuel c n bound = counted_iter ops pr2 fuel c n bound.
  Proof.
    induction n as [|n IH]; intros bound; cbn [counted_iter]; [reflexivity|]. rewrite counted_impl_values.
    destruct (counted_impl ops pr2 fuel [c] _ bound _) as [[] k]; try reflexivity. rewrite IH. reflexivity.
  Qed.
End Values.

Local Open Scope Z_scope.

(** ** Single precision *)
Section Transfer.
  Context {C M : Type} (pr : Problem Z C M) (H : Z) (Bh : forall c, 0 <= pr_heuristic pr c <= H).
  Let sc := f32_scaled (- 0).
  Let K0 : 0 <= 0 <= 23. Proof. lia. Qed.

  Definition to_float2 (r : ida_result Z C M * N) : ida_result f32 C M * N := (to_float 0 (fst r), snd r).

  Lemma counted_try_float rec rec' path b :
    (forall s mn, 0 <= mn <= b -> rec' (s :: path) (sc mn) = to_float2 (rec (s :: path) mn) /\
       (forall z, fst (rec (s :: path) mn) = IdaNone z -> 0 <= z <= b)) ->
    forall succs mn, 0 <= mn <= b ->
    counted_try (dyadic_problem 0 pr) rec' path succs (sc mn) = to_float2 (counted_try pr rec path succs mn) /\
    (forall z, fst (counted_try pr rec path succs mn) = IdaNone z -> 0 <= z <= b).
  Proof.
    intros R. induction succs as [|[s m] succs IH]; intros mn Bm; cbn [counted_try dyadic_problem pr_eqb].
    - split; [reflexivity|]. intros z X. injection X as <-. exact Bm.
    - destruct (existsb (pr_eqb pr s) path); [apply IH, Bm|].
      destruct (R s mn Bm) as (R1 & R2). rewrite R1. destruct (rec (s :: path) mn) as [[sol p|z| |] k]; unfold to_float2; cbn [to_float fst snd] in *.
      + split; [reflexivity|discriminate].
      + destruct (IH z (R2 z eq_refl)) as (I1 & I2). fold sc. rewrite I1. split; [reflexivity|exact I2].
      + split; [reflexivity|discriminate].
      + split; [reflexivity|discriminate].
  Qed.
  Lemma counted_impl_float bound (Bb : 0 <= bound) (Sm : bound + 1 + 1 + H < 2 ^ 24) : forall fuel path cur mn,
    0 <= cur <= bound + 1 -> 0 <= mn <= bound + 1 ->
    counted_impl f32_costs (dyadic_problem 0 pr) fuel path (sc cur) (sc bound) (sc mn) =
      to_float2 (counted_impl (exact_costs 1) pr fuel path cur bound mn) /\
    (forall z, fst (counted_impl (exact_costs 1) pr fuel path cur bound mn) = IdaNone z -> 0 <= z <= bound + 1).
  Proof.
    induction fuel as [|fuel IH]; intros path cur mn Bc Bm; cbn [counted_impl].
    { split; [reflexivity|discriminate]. }
    destruct path as [|c rest]; [split; [reflexivity|discriminate]|].
    cbn [dyadic_problem pr_heuristic pr_is_target pr_successors exact_costs f32_costs k_add k_ltb k_one].
    pose proof (Bh c) as Bc'. fold sc. rewrite (sc_add 0 K0), (sc_ltb 0 K0) by lia. cbv zeta.
    destruct (Z.ltb_spec bound (cur + pr_heuristic pr c)) as [L|L].
    - rewrite (sc_ltb 0 K0) by lia. destruct (Z.ltb_spec (cur + pr_heuristic pr c) mn) as [L2|L2].
      + split; [reflexivity|]. cbn [fst]. intros z X. injection X as <-. lia.
      + split; [reflexivity|]. cbn [fst]. intros z X. injection X as <-. lia.
    - destruct (pr_is_target pr c); [split; [reflexivity|discriminate]|].
      change (f32_of_Z 1) with (sc 1). rewrite (sc_add 0 K0) by lia.
      destruct (counted_try_float (fun path mn => counted_impl (exact_costs 1) pr fuel path (cur + 1) bound mn)
        (fun path mn => counted_impl f32_costs (dyadic_problem 0 pr) fuel path (sc (cur + 1)) (sc bound) mn) (c :: rest) (bound + 1)) with (succs := pr_successors pr c) (mn := mn) as (T1 & T2); [|exact Bm|].
      { intros s mn' Bm'. apply IH; [lia|exact Bm']. }
      split; [|exact T2]. match goal with |- (fst ?t, _) = _ => change t with (counted_try (dyadic_problem 0 pr)
        (fun path mn => counted_impl f32_costs (dyadic_problem 0 pr) fuel path (sc (cur + 1)) (sc bound) mn) (c :: rest) (pr_successors pr c) (sc mn)) end.
      rewrite T1. reflexivity.
  Qed.
  Lemma counted_iter_float fuel c : forall n bound, 0 <= bound -> bound + (Z.of_nat n + 1) + H < 2 ^ 24 ->
    counted_iter f32_costs (dyadic_problem 0 pr) fuel c n (sc bound) =
    let r := counted_iter (exact_costs 1) pr fuel c n bound in (fst r, map (fun x => (sc (fst x), snd x)) (snd r)).
  Proof.
    pose proof (Bh c) as Bc. cbv zeta.
    induction n as [|n IH]; intros bound Bb Sm; cbn [counted_iter]; [reflexivity|].
    rewrite Nat2Z.inj_succ in Sm.
    cbn [exact_costs f32_costs k_add k_one k_zero]. change (f32_of_Z 0) with (sc 0).
    change (f32_of_Z 1) with (sc 1). rewrite (sc_add 0 K0) by nia.
    destruct (counted_impl_float bound Bb ltac:(nia) fuel [c] 0 (bound + 1) ltac:(lia) ltac:(lia)) as (R & Zb).
    change (f32_scaled (- 0)) with sc. rewrite R. change (mkCostOps Z Z.add Z.ltb 0 1) with (exact_costs 1) in *.
    destruct (counted_impl (exact_costs 1) pr fuel [c] 0 bound (bound + 1)) as [[sol p|z| |] k] eqn:E; unfold to_float2; cbn [to_float fst snd]; try reflexivity.
    specialize (Zb z eq_refl). change (f32_scaled (- 0)) with sc. rewrite IH by lia. reflexivity.
  Qed.
End Transfer.

(** ** Exact costs *)
Section Exact.
  Context {C M : Type} (pr : Problem Z C M) (app : C -> M -> C).
  Context (Eq : equality_ok pr) (Pos : non_negative pr) (Sound : successors_sound pr app)
    (Comp : successors_complete pr app) (Ad : admissible 1 pr app).
  Let ops := exact_costs 1.

  (** All rounds, with sufficient fuel: the bounds are the estimate of the start and all whole
      numbers from there to the length of the shortest solution. *)
  Lemma rounds_exact fuel c L al : reaches_target pr app c al -> length al = L ->
    (forall bl, reaches_target pr app c bl -> (L <= length bl)%nat) -> (S (S L) <= fuel)%nat ->
    forall d n, (d <= L)%nat -> (d < n)%nat ->
    exists r c', counted_iter ops pr fuel c n (Z.of_nat L - Z.of_nat d) =
      (SearchDone (Some (r, c')), map (fun i => (Z.of_nat L - Z.of_nat d + Z.of_nat i,
        snd (counted_impl ops pr fuel [c] 0 (Z.of_nat L - Z.of_nat d + Z.of_nat i) (Z.of_nat L - Z.of_nat d + Z.of_nat i + 1)))) (seq 0 (S d))).
  Proof.
    intros T La O Fu. induction d as [|d IH]; intros n Ld Ln; (destruct n as [|n]; [lia|]).
    - cbn [counted_iter ops exact_costs k_zero k_add k_one seq map]. change (mkCostOps Z Z.add Z.ltb 0 1) with ops.
      replace (Z.of_nat L - Z.of_nat 0) with (Z.of_nat L) by lia. rewrite Z.add_0_r.
      pose proof (counted_impl_same ops pr fuel [c] 0 (Z.of_nat L) (Z.of_nat L + 1)) as Sm.
      destruct (counted_impl ops pr fuel [c] 0 (Z.of_nat L) (Z.of_nat L + 1)) as [res k]. cbn [fst snd] in *.
      destruct res as [sol p|mn| |].
      + symmetry in Sm. destruct (impl_found ops pr app Sound _ _ _ _ _ _ _ _ Sm) as (x & p' & -> & _ & _). exists (rev sol), x. reflexivity.
      + exfalso. symmetry in Sm. destruct (remove_loops app (pr_eqb pr) Eq al c) as (al' & L' & F' & N').
        assert (T' : reaches_target pr app c al') by (unfold reaches_target in *; rewrite F'; exact T).
        pose proof (impl_none_gt 1 pr fuel c [] 0 (Z.of_nat L) (Z.of_nat L + 1) mn ltac:(lia) Sm) as G.
        assert (mn <= Z.of_nat L); [|lia].
        refine (impl_none_min 1 pr app Eq Comp _ al' fuel c [] 0 _ _ mn Sm T' N' _ _); [intros y _ []|].
        intros i Hi. pose proof (path_costs 1 ltac:(lia) pr app Ad c al' T' i Hi). lia.
      + exfalso. symmetry in Sm. exact (impl_no_panic _ _ _ _ _ _ _ _ Sm).
      + exfalso. symmetry in Sm. destruct fuel as [|fuel]; [lia|]. revert Sm. apply (impl_terminates 1 pr Pos). lia.
    - cbn [counted_iter]. cbn [ops exact_costs k_zero k_add k_one]. change (mkCostOps Z Z.add Z.ltb 0 1) with ops.
      set (b := Z.of_nat L - Z.of_nat (S d)).
      pose proof (counted_impl_same ops pr fuel [c] 0 b (b + 1)) as Sm.
      change (seq 0 (S (S d))) with (0%nat :: seq 1 (S d)). rewrite map_cons. fold b. change (Z.of_nat 0) with 0. rewrite Z.add_0_r.
      destruct (counted_impl ops pr fuel [c] 0 b (b + 1)) as [res k] eqn:Ec. cbn [fst snd] in *.
      destruct res as [sol p|mn| |].
      + exfalso. symmetry in Sm. pose proof (impl_found_cost 1 pr Pos fuel c [] 0 b _ sol p Sm) as Ct.
        destruct (impl_found ops pr app Sound _ _ _ _ _ _ _ _ Sm) as (x & p' & -> & Fx & Tx).
        assert (L <= length (rev sol))%nat by (apply O; unfold reaches_target; rewrite Fx; exact Tx). rewrite rev_length in *. lia.
      + symmetry in Sm. pose proof (impl_none_gt 1 pr fuel c [] 0 b (b + 1) mn ltac:(lia) Sm) as G.
        pose proof (impl_none_le 1 pr fuel c [] 0 _ _ mn Sm) as G'.
        assert (mn = Z.of_nat L - Z.of_nat d) as -> by lia.
        destruct (IH n ltac:(lia) ltac:(lia)) as (r & c' & E). exists r, c'. cbv zeta. rewrite E. cbn [fst snd]. f_equal. f_equal.
        rewrite <- (seq_shift (S d) 0), map_map. apply map_ext. intros i.
        replace (b + Z.of_nat (S i)) with (Z.of_nat L - Z.of_nat d + Z.of_nat i) by lia. reflexivity.
      + exfalso. symmetry in Sm. exact (impl_no_panic _ _ _ _ _ _ _ _ Sm).
      + exfalso. symmetry in Sm. destruct fuel as [|fuel]; [lia|]. revert Sm. apply (impl_terminates 1 pr Pos). lia.
  Qed.

  (** Nothing to be found: one round after another, each with a bound one higher. *)
  Lemma rounds_none fuel c : (forall al, ~ reaches_target pr app c al) -> forall n bound, 0 <= bound -> bound + Z.of_nat n < Z.of_nat fuel ->
    counted_iter ops pr fuel c n bound = (SearchDone None, map (fun i => (bound + Z.of_nat i,
        snd (counted_impl ops pr fuel [c] 0 (bound + Z.of_nat i) (bound + Z.of_nat i + 1)))) (seq 0 n)).
  Proof.
    intros No. induction n as [|n IH]; intros b B0 Fu; cbn [counted_iter]; [reflexivity|].
    cbn [ops exact_costs k_zero k_add k_one]. change (mkCostOps Z Z.add Z.ltb 0 1) with ops.
    pose proof (counted_impl_same ops pr fuel [c] 0 b (b + 1)) as Sm.
    change (seq 0 (S n)) with (0%nat :: seq 1 n). rewrite map_cons. change (Z.of_nat 0) with 0. rewrite Z.add_0_r.
    destruct (counted_impl ops pr fuel [c] 0 b (b + 1)) as [res k] eqn:Ec. cbn [fst snd] in *.
    destruct res as [sol p|mn| |].
    + exfalso. symmetry in Sm. destruct (impl_found ops pr app Sound _ _ _ _ _ _ _ _ Sm) as (x & p' & -> & Fx & Tx).
      apply (No (rev sol)). unfold reaches_target. rewrite Fx. exact Tx.
    + symmetry in Sm. pose proof (impl_none_gt 1 pr fuel c [] 0 b (b + 1) mn ltac:(lia) Sm) as G.
      pose proof (impl_none_le 1 pr fuel c [] 0 _ _ mn Sm) as G'.
      assert (mn = b + 1) as -> by lia. rewrite IH by lia. cbn [fst snd]. f_equal. f_equal.
      rewrite <- (seq_shift n 0), map_map. apply map_ext. intros i.
      replace (b + Z.of_nat (S i)) with (b + 1 + Z.of_nat i) by lia. reflexivity.
    + exfalso. symmetry in Sm. exact (impl_no_panic _ _ _ _ _ _ _ _ Sm).
    + exfalso. symmetry in Sm. destruct fuel as [|fuel]; [lia|]. revert Sm. apply (impl_terminates 1 pr Pos). lia.
  Qed.

  Lemma counted_at_least fuel c rest cur bound mn : (1 <= fuel)%nat -> (1 <= snd (counted_impl ops pr fuel (c :: rest) cur bound mn))%N.
  Proof.
    intros F. destruct fuel as [|fuel]; [lia|]. cbn [counted_impl]. cbv zeta. destruct (k_ltb ops bound _); [cbn; lia|].
    destruct (pr_is_target pr c); cbn [snd]; lia.
  Qed.

  (** A bound for the number of states of a round. *)
  Lemma counted_try_most rec path B : forall succs, (forall s m, In (s, m) succs -> forall mn, (snd (rec (s :: path) mn) <= B)%N) -> forall mn,
    (snd (counted_try pr rec path succs mn) <= N.of_nat (length (filter (fun x => negb (existsb (pr_eqb pr (fst x)) path)) succs)) * B)%N.
  Proof.
    induction succs as [|[s m] succs IH]; intros H mn; cbn [counted_try filter fst]; [cbn; lia|].
    specialize (IH (fun s m I => H s m (or_intror I))).
    destruct (existsb (pr_eqb pr s) path); cbn [negb]; [apply IH|]. cbn [length].
    specialize (H s m (or_introl eq_refl) mn). destruct (rec (s :: path) mn) as [[sol p|z| |] k]; cbn [snd] in *; try nia.
    specialize (IH z). nia.
  Qed.
  Lemma filter_lt {A} (f : A -> bool) x l : In x l -> f x = false -> (length (filter f l) < length l)%nat.
  Proof.
    induction l as [|y l IH]; intros [].
    - subst y. intros F. cbn. rewrite F. clear. induction l as [|z l IH]; cbn; [lia|]. destruct (f z); cbn; lia.
    - intros F. specialize (IH H F). cbn. destruct (f y); cbn; lia.
  Qed.
  Context (inv : M -> M) (Undo : forall c m, app (app c m) (inv m) = c) (Eighteen : forall c, length (pr_successors pr c) = 18%nat).

  Lemma counted_most : forall b fuel p m rest cur bound mn, bound < cur + Z.of_nat b ->
    (snd (counted_impl ops pr fuel (app p m :: p :: rest) cur bound mn) <= seventeens b)%N.
  Proof.
    induction b as [|b IH]; intros fuel p m rest cur bound mn Hb; (destruct fuel as [|fuel]; [cbn [counted_impl snd]; lia|]); cbn [counted_impl]; cbv zeta; cbn [ops exact_costs k_add k_ltb k_one];
      pose proof (Pos (app p m)).
    - replace (bound <? cur + pr_heuristic pr (app p m)) with true by lia. cbn. lia.
    - destruct (bound <? cur + pr_heuristic pr (app p m)); [cbn [seventeens snd]; lia|].
      destruct (pr_is_target pr (app p m)); [cbn [seventeens snd]; lia|]. change (mkCostOps Z Z.add Z.ltb 0 1) with ops.
      cbn [snd seventeens]. apply N.add_le_mono_l.
      set (c := app p m) in *.
      etransitivity; [apply (counted_try_most _ (c :: p :: rest) (seventeens b))|].
      + intros s m' I mn'. rewrite (Sound _ _ _ I). apply IH. lia.
      + apply N.mul_le_mono_r.
        assert (length (filter (fun x => negb (existsb (pr_eqb pr (fst x)) (c :: p :: rest))) (pr_successors pr c)) < 18)%nat; [|lia].
        rewrite <- (Eighteen c). apply (filter_lt _ (app c (inv m), inv m)); [apply Comp|].
        cbn [fst]. unfold c at 1. rewrite Undo. cbn [existsb].
        replace (pr_eqb pr p p) with true by (symmetry; apply Eq; reflexivity). rewrite orb_true_r. reflexivity.
  Qed.
  Lemma counted_most_start b fuel c (bound mn : Z) : bound < Z.of_nat b + 1 ->
    (snd (counted_impl ops pr fuel [c] 0%Z bound mn) <= most_states b)%N.
  Proof.
    intros Hb. unfold most_states. destruct fuel as [|fuel]; [cbn [counted_impl snd]; lia|]. cbn [counted_impl]. cbv zeta. cbn [ops exact_costs k_add k_ltb k_one].
    destruct (bound <? 0 + pr_heuristic pr c); [cbn [snd]; lia|]. destruct (pr_is_target pr c); [cbn [snd]; lia|]. change (mkCostOps Z Z.add Z.ltb 0 1) with ops.
    cbn [snd]. apply N.add_le_mono_l. etransitivity; [apply (counted_try_most _ [c] (seventeens b))|].
    - intros s m' I mn'. rewrite (Sound _ _ _ I). apply counted_most. lia.
    - apply N.mul_le_mono_r.
      enough (forall l : list (C * M), length (filter (fun x => negb (existsb (pr_eqb pr (fst x)) [c])) l) <= length l)%nat by (specialize (H (pr_successors pr c)); rewrite Eighteen in H; lia).
      induction l as [|x l IH]; cbn [filter length]; [lia|]. destruct (negb _); cbn [length]; lia.
  Qed.
End Exact.

(** ** Two heuristics *)
Section Compare.
  Context {C M : Type} (pr1 pr2 : Problem Z C M) (app : C -> M -> C).
  Context (E1 : pr_eqb pr1 = pr_eqb pr2) (E2 : pr_is_target pr1 = pr_is_target pr2) (E3 : pr_successors pr1 = pr_successors pr2).
  Context (Sound : successors_sound pr1 app) (Pos : non_negative pr1) (Ad : admissible 1 pr2 app)
    (Le : forall c, pr_heuristic pr1 c <= pr_heuristic pr2 c).
  Let ops := exact_costs 1.

  Definition agree (r1 r2 : ida_result Z C M) : Prop :=
    match r1, r2 with
    | IdaFound s p, IdaFound s' p' => s = s' /\ p = p'
    | IdaNone _, IdaNone _ => True
    | _, _ => False
    end.
  Lemma compare_try rec1 rec2 path : forall succs,
    (forall s mn1 mn2, fst (rec1 (s :: path) mn1) <> IdaFuel ->
      agree (fst (rec1 (s :: path) mn1)) (fst (rec2 (s :: path) mn2)) /\ (snd (rec2 (s :: path) mn2) <= snd (rec1 (s :: path) mn1))%N) ->
    forall mn1 mn2, fst (counted_try pr1 rec1 path succs mn1) <> IdaFuel ->
      agree (fst (counted_try pr1 rec1 path succs mn1)) (fst (counted_try pr2 rec2 path succs mn2)) /\
      (snd (counted_try pr2 rec2 path succs mn2) <= snd (counted_try pr1 rec1 path succs mn1))%N.
  Proof.
    intros succs R. induction succs as [|[s m] succs IH]; intros mn1 mn2 F; cbn [counted_try] in *; [cbn; split; [auto|lia]|].
    rewrite <- E1. destruct (existsb (pr_eqb pr1 s) path) eqn:X; [apply IH, F|].
    specialize (R s mn1 mn2). destruct (rec1 (s :: path) mn1) as [[s1 p1|z1| |] k1]; cbn [fst snd] in *.
    - destruct R as [A L]; [discriminate|]. destruct (rec2 (s :: path) mn2) as [[s2 p2|z2| |] k2]; cbn [agree fst snd] in *; try easy. destruct A as [-> ->]. auto.
    - destruct R as [A L]; [discriminate|]. destruct (rec2 (s :: path) mn2) as [[s2 p2|z2| |] k2]; cbn [agree fst snd] in *; try easy.
      destruct (IH z1 z2 F) as [A' L']. split; [exact A'|lia].
    - destruct R as [A L]; [discriminate|]. destruct A.
    - destruct F. reflexivity.
  Qed.
  Lemma compare_impl : forall fuel c rest cur bound mn1 mn2,
    fst (counted_impl ops pr1 fuel (c :: rest) cur bound mn1) <> IdaFuel ->
    agree (fst (counted_impl ops pr1 fuel (c :: rest) cur bound mn1)) (fst (counted_impl ops pr2 fuel (c :: rest) cur bound mn2)) /\
    (snd (counted_impl ops pr2 fuel (c :: rest) cur bound mn2) <= snd (counted_impl ops pr1 fuel (c :: rest) cur bound mn1))%N.
  Proof.
    induction fuel as [|fuel IH]; intros c rest cur bound mn1 mn2 F; [destruct F; reflexivity|].
    destruct (Z.ltb_spec bound (cur + pr_heuristic pr2 c)) as [P2|P2].
    - assert (X2 : counted_impl ops pr2 (S fuel) (c :: rest) cur bound mn2 = (IdaNone (if cur + pr_heuristic pr2 c <? mn2 then cur + pr_heuristic pr2 c else mn2), 1%N)).
      { cbn [counted_impl]. cbv zeta. cbn [ops exact_costs k_add k_ltb]. replace (bound <? cur + pr_heuristic pr2 c) with true by lia. reflexivity. }
      rewrite X2. cbn [fst snd]. split; [|apply counted_at_least; lia].
      rewrite counted_impl_same in *. destruct (search_impl ops pr1 (S fuel) (c :: rest) cur bound mn1) as [sol p|z| |] eqn:E; cbn [agree]; auto.
      + pose proof (impl_found_cost 1 pr1 Pos _ _ _ _ _ _ _ _ E). destruct (impl_found ops pr1 app Sound _ _ _ _ _ _ _ _ E) as (x & p' & -> & Fx & Tx).
        assert (T : reaches_target pr2 app c (rev sol)) by (unfold reaches_target; rewrite Fx, <- E2; exact Tx).
        apply Ad in T. rewrite rev_length in T. lia.
      + exact (impl_no_panic _ _ _ _ _ _ _ _ E).
    - pose proof (Le c). revert F. cbn [counted_impl]. cbv zeta. cbn [ops exact_costs k_add k_ltb k_one].
      replace (bound <? cur + pr_heuristic pr2 c) with false by lia. replace (bound <? cur + pr_heuristic pr1 c) with false by lia.
      rewrite <- E2, <- E3. destruct (pr_is_target pr1 c); [cbn; split; [auto|lia]|]. change (mkCostOps Z Z.add Z.ltb 0 1) with ops. cbn [fst snd]. intros F.
      destruct (compare_try (fun path mn => counted_impl ops pr1 fuel path (cur + 1) bound mn) (fun path mn => counted_impl ops pr2 fuel path (cur + 1) bound mn)
        (c :: rest) (pr_successors pr1 c)) with (mn1 := mn1) (mn2 := mn2) as [A L]; [|exact F|].
      + intros s m1 m2. apply IH.
      + split; [exact A|lia].
  Qed.
End Compare.

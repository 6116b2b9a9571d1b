(** The table builder is exact, for any numbered type with invertible moves whose states
    can all be solved in at most 253 moves. *)

From Coq Require Import List Bool Arith NArith ZArith Lia ZifyBool ZifyN ZifyNat.
From Verif Require Import Model_Base Model_Space Model_Moves Model_Pieces Model_PieceSet Model_Cubes Model_Mus Model_Cache
  Spec_Mus Spec_Cache.
Import ListNotations.
Local Open Scope nat_scope.

Section Build.
  Context {T : Type} (k : Indexed T) (S : T -> Prop) (goal : T).
  Let moved := ix_moved k.
  Let total := N.to_nat (ix_total k).
  Hypothesis Num : numbering S (ix_total k) (ix_index k) (ix_from_index k).
  Hypothesis Closed : forall t m, S t -> S (moved t m).
  Hypothesis Inv : forall t m, S t -> moved (moved t m) (move_inverse m) = t.
  Hypothesis Goal_ok : S goal.
  Hypothesis Goal_zero : ix_index k goal = Done 0%N.
  Variable bound : nat.
  Hypothesis Bound : bound <= 253.
  Hypothesis Connected : forall t, S t -> exists al, length al <= bound /\ fold_left moved al t = goal.

  Definition reach (d : nat) (t : T) : Prop := exists al, length al = d /\ fold_left moved al goal = t.

  Lemma closed_fold al : forall t, S t -> S (fold_left moved al t).
  Proof. induction al as [|m al IH]; intros t H; [exact H|]. cbn. apply IH, Closed, H. Qed.
  Lemma reach_S d t : reach d t -> S t.
  Proof. intros (al & _ & <-). apply closed_fold, Goal_ok. Qed.
  Lemma undo al : forall t, S t -> fold_left moved (rev (map move_inverse al)) (fold_left moved al t) = t.
  Proof.
    induction al as [|m al IH]; intros t H; [reflexivity|]. cbn [map rev fold_left]. rewrite fold_left_app, IH by (apply Closed, H).
    cbn [fold_left]. apply Inv, H.
  Qed.
  Lemma reach_solve d t : S t -> (reach d t <-> exists al, length al = d /\ fold_left moved al t = goal).
  Proof.
    intros H. split; intros (al & L & E); exists (rev (map move_inverse al)); (split; [rewrite rev_length, map_length; exact L|]).
    - rewrite <- E. apply undo, Goal_ok.
    - rewrite <- E. apply undo, H.
  Qed.
  Lemma reach_step d t m : reach d t -> reach (Datatypes.S d) (moved t m).
  Proof. intros (al & L & E). exists (al ++ [m]). rewrite app_length, fold_left_app, E. cbn. split; [lia|reflexivity]. Qed.
  Lemma reach_back d t : reach (Datatypes.S d) t -> exists u m, reach d u /\ moved u m = t.
  Proof.
    intros (al & L & E). destruct (@exists_last _ al) as (al' & m & ->); [intros ->; discriminate L|].
    rewrite fold_left_app in E. cbn in E. rewrite app_length in L. cbn in L.
    exists (fold_left moved al' goal), m. split; [|exact E]. exists al'. split; [lia|reflexivity].
  Qed.
  Definition least (d : nat) (t : T) : Prop := reach d t /\ forall j, j < d -> ~ reach j t.

  (** [i] is the number of [t]. *)
  Definition at_index (i : nat) (t : T) : Prop := i < total /\ ix_from_index k (N.of_nat i) = Done t.
  Lemma at_index_of t : S t -> exists i, at_index (N.to_nat i) t /\ ix_index k t = Done i.
  Proof.
    intros H. destruct (proj1 Num t H) as (i & E & B & F). exists i. split; [|exact E]. split; [unfold total in *; lia|].
    rewrite N2Nat.id. exact F.
  Qed.
  Lemma at_index_S i t : at_index i t -> S t /\ ix_index k t = Done (N.of_nat i).
  Proof.
    intros [B F]. destruct (proj2 Num (N.of_nat i)) as (a & E & H & I); [unfold total in *; lia|].
    rewrite F in E. injection E as <-. auto.
  Qed.
  Lemma at_index_fun i t u : at_index i t -> at_index i u -> t = u.
  Proof. intros [_ A] [_ B]. rewrite A in B. injection B as <-. reflexivity. Qed.
  Lemma at_index_inj i j t : at_index i t -> at_index j t -> i = j.
  Proof.
    intros A B. destruct (at_index_S _ _ A) as [_ X]. destruct (at_index_S _ _ B) as [_ Y]. rewrite X in Y. injection Y. lia.
  Qed.
  Lemma at_index_ex i : i < total -> exists t, at_index i t.
  Proof.
    intros B. destruct (proj2 Num (N.of_nat i)) as (a & E & _ & _); [unfold total in *; lia|]. exists a. split; assumption.
  Qed.

  (** ** The state of the table *)

  (** Depths up to [d] are recorded; [d + 1] is recorded for those for which [P] holds. *)
  Definition layer (d : nat) (done : T -> Prop) (cache : list N) : Prop :=
    length cache = total /\
    forall i t, at_index i t -> exists e, nth_error cache i = Some e /\
      ((exists j, e = N.of_nat j /\ j <= d /\ least j t) \/
       (e = N.of_nat (Datatypes.S d) /\ least (Datatypes.S d) t) \/
       (e = 255%N /\ (forall j, j <= d -> ~ reach j t) /\ ~ done t)).

  Lemma layer_weaken d (P Q : T -> Prop) cache : (forall t, S t -> Q t -> P t) -> layer d P cache -> layer d Q cache.
  Proof.
    intros H [L A]. split; [exact L|]. intros i t X. destruct (A i t X) as (e & E & C). exists e. split; [exact E|].
    destruct C as [C|[C|(E1 & E2 & E3)]]; [auto|auto|]. right. right. repeat split; auto.
    intros q. apply E3, H; [apply (at_index_S _ _ X)|exact q].
  Qed.

  Lemma set_nth_spec {A} (l : list A) i x j : nth_error (set_nth l i x) j =
    if (i =? j) && (i <? length l) then Some x else nth_error l j.
  Proof. revert i j. induction l as [|a l IH]; intros i j.
    - cbn [set_nth length]. rewrite andb_false_r. reflexivity.
    - destruct i as [|i], j as [|j]; try reflexivity. cbn [set_nth nth_error length]. rewrite IH. reflexivity.
  Qed.

  Lemma successors_step d u moves : forall cache (P : T -> Prop), d <= 252 -> least d u -> layer d P cache ->
    exists cache', cache_successors k u (N.of_nat (Datatypes.S d)) moves cache = Done cache' /\
      layer d (fun t => P t \/ exists m, In m moves /\ moved u m = t) cache'.
  Proof.
    induction moves as [|m moves IH]; intros cache P Hd Lu LA.
    - exists cache. split; [reflexivity|]. apply (layer_weaken d P); [|exact LA]. intros t _ [H|(m & [] & _)]. exact H.
    - cbn [cache_successors]. fold moved. pose proof (reach_S _ _ (proj1 Lu)) as Su.
      destruct (at_index_of (moved u m) (Closed u m Su)) as (i & X & E). rewrite E. cbn [bind_o].
      destruct LA as [LL LA]. destruct (LA _ _ X) as (e & N & C). rewrite N.
      set (cache1 := match entry_get e with None => set_nth cache (N.to_nat i) (N.of_nat (Datatypes.S d)) | Some _ => cache end).
      destruct (IH cache1 (fun t => P t \/ moved u m = t)) as (cache' & R & F).
      + exact Hd.
      + exact Lu.
      + subst cache1. unfold entry_get. destruct (N.eqb_spec e 255) as [E255|NE].
        * split; [rewrite set_nth_length; exact LL|]. intros i' t' X'. rewrite set_nth_spec.
          destruct (Nat.eqb_spec (N.to_nat i) i') as [EQ|NQ].
          -- replace (N.to_nat i <? length cache) with true by (destruct X; rewrite LL; lia). cbn [andb].
             eexists. split; [reflexivity|]. right. left. split; [reflexivity|].
             rewrite <- EQ in X'. rewrite <- (at_index_fun _ _ _ X X').
             split; [apply reach_step, Lu|]. intros j Hj. destruct C as [(j' & E' & B & _)|[(E' & _)|(_ & NR & _)]]; [lia|lia|].
             apply NR. lia.
          -- cbn [andb]. destruct (LA _ _ X') as (e' & N' & C'). exists e'. split; [exact N'|].
             destruct C' as [C'|[C'|(A1 & A2 & A3)]]; [auto|auto|]. right. right. repeat split; auto.
             intros [q|q]; [exact (A3 q)|]. apply NQ. rewrite <- q in X'. exact (at_index_inj _ _ _ X X').
        * split; [exact LL|]. intros i' t' X'. destruct (LA _ _ X') as (e' & N' & C'). exists e'. split; [exact N'|].
          destruct C' as [C'|[C'|(A1 & A2 & A3)]]; [auto|auto|]. right. right. repeat split; auto.
          intros [q|q]; [exact (A3 q)|]. rewrite <- q in X'. rewrite (at_index_inj _ _ _ X' X) in N'. rewrite N in N'.
          injection N' as <-. exact (NE A1).
      + exists cache'. split; [exact R|]. apply (layer_weaken d (fun t => (P t \/ moved u m = t) \/ (exists m, In m moves /\ moved u m = t)));
          [|exact F]. intros t _ [H|(m' & [<-|H] & EQ)]; [left; left; exact H|left; right; exact EQ|]. right. exists m'. auto.
  Qed.

  Definition from_before (d n : nat) (t : T) : Prop :=
    exists i u m, i < n /\ at_index i u /\ least d u /\ moved u m = t.

  Lemma neighbours_step d len : forall n cache, d <= 252 -> n + len = total -> layer d (from_before d n) cache ->
    exists cache', cache_neighbours k (seq n len) (N.of_nat (Datatypes.S d)) cache = Done cache' /\
      layer d (from_before d total) cache'.
  Proof.
    induction len as [|len IH]; intros n cache Hd Hn LA.
    - exists cache. split; [reflexivity|]. replace total with n by lia. exact LA.
    - cbn [seq cache_neighbours]. destruct (at_index_ex n) as (u & X); [lia|].
      pose proof LA as [LL LA']. destruct (LA' n u X) as (e & N & C). rewrite N.
      destruct (match entry_get e with Some given => N.eqb given (N.of_nat (Datatypes.S d) - 1) | None => false end) eqn:G.
      + assert (Lu : least d u).
        { unfold entry_get in G. destruct (N.eqb_spec e 255) as [?|NE]; [discriminate G|]. apply N.eqb_eq in G.
          destruct C as [(j & E & B & L)|[(E & _)|(E & _)]]; [|lia|lia]. replace d with j by lia. exact L. }
        rewrite (proj2 X). cbn [bind_o].
        destruct (successors_step d u all_moves cache _ Hd Lu LA) as (cache1 & R & L1). rewrite R. cbn [bind_o].
        apply IH; [exact Hd|lia|]. apply (layer_weaken d (fun t => from_before d n t \/ (exists m, In m all_moves /\ moved u m = t))); [|exact L1].
        intros t _ (i & v & m & B & Y & Lv & E). destruct (Nat.eq_dec i n) as [->|NE].
        * right. rewrite (at_index_fun _ _ _ Y X) in E. exists m. split; [apply all_moves_complete|exact E].
        * left. exists i, v, m. repeat split; try assumption; try apply Y; try apply Lv. lia.
      + apply IH; [exact Hd|lia|]. apply (layer_weaken d (from_before d n)); [|exact LA].
        intros t _ (i & v & m & B & Y & Lv & E). destruct (Nat.eq_dec i n) as [->|NE].
        * exfalso. rewrite (at_index_fun _ _ _ Y X) in Lv. unfold entry_get in G.
          destruct C as [(j & Ej & B' & L)|[(E' & L)|(E' & NR & _)]].
          -- destruct (N.eqb_spec e 255) as [?|_]; [lia|]. apply N.eqb_neq in G.
             assert (j = d); [|lia]. destruct (Nat.lt_trichotomy j d) as [H|[H|H]]; [|exact H|].
             ++ destruct (proj2 Lv j H (proj1 L)).
             ++ destruct (proj2 L d H (proj1 Lv)).
          -- apply (proj2 L d); [lia|apply Lv].
          -- apply (NR d); [lia|apply Lv].
        * exists i, v, m. repeat split; try assumption; try apply Y; try apply Lv. lia.
  Qed.

  Lemma pass d cache : d <= 252 -> layer d (fun _ => False) cache ->
    exists cache', cache_neighbours_at_depth k cache (N.of_nat (Datatypes.S d)) = Done cache' /\ layer (Datatypes.S d) (fun _ => False) cache'.
  Proof.
    intros Hd LA. unfold cache_neighbours_at_depth. fold total.
    destruct (neighbours_step d total 0 cache Hd) as (cache' & R & LL & L'); [lia| |].
    { apply (layer_weaken d (fun _ => False)); [|exact LA]. intros t _ (i & u & m & B & _). lia. }
    exists cache'. split; [exact R|]. split; [exact LL|]. intros i t X. destruct (L' i t X) as (e & N & C). exists e. split; [exact N|].
    destruct C as [(j & E & B & L)|[(E & L)|(E & NR & ND)]].
    - left. exists j. split; [exact E|]. split; [lia|exact L].
    - left. exists (Datatypes.S d). split; [exact E|]. split; [lia|exact L].
    - right. right. split; [exact E|]. split; [|intros []]. intros j Hj R'. destruct (Nat.eq_dec j (Datatypes.S d)) as [->|NE].
      + apply reach_back in R'. destruct R' as (u & m & Ru & EQ). apply ND.
        destruct (at_index_of u (reach_S _ _ Ru)) as (iu & Xu & _). exists (N.to_nat iu), u, m. split; [apply Xu|]. split; [exact Xu|].
        split; [|exact EQ]. split; [exact Ru|]. intros j' Hj' R'. apply (NR (Datatypes.S j')); [lia|]. rewrite <- EQ. apply reach_step, R'.
      + apply (NR j); [lia|exact R'].
  Qed.

  Lemma filter_le {A} (f : A -> bool) l : length (filter f l) <= length l.
  Proof. induction l as [|a l IH]; cbn; [lia|]. destruct (f a); cbn; lia. Qed.
  Lemma filter_all {A} (f : A -> bool) l : length (filter f l) = length l -> forall x, In x l -> f x = true.
  Proof.
    induction l as [|a l IH]; intros H x; [intros []|]. cbn in H. destruct (f a) eqn:E.
    - intros [<-|I]; [exact E|]. apply IH; [cbn in H; lia|exact I].
    - pose proof (filter_le f l). lia.
  Qed.
  Lemma not_all {A} (f : A -> bool) l : length (filter f l) <> length l -> exists i x, nth_error l i = Some x /\ f x = false.
  Proof.
    induction l as [|a l IH]; intros H; [destruct (H eq_refl)|]. cbn in H. destruct (f a) eqn:E.
    - destruct IH as (i & x & N & F); [cbn in H; lia|]. exists (Datatypes.S i), x. auto.
    - exists 0, a. auto.
  Qed.

  Lemma loop_exact fuel : forall d cache, layer d (fun _ => False) cache -> d <= bound -> bound - d < fuel ->
    exists table, build_loop k fuel (N.of_nat (Datatypes.S d)) cache = Done table /\
      exact_table (ix_total k) (ix_from_index k) moved goal table.
  Proof.
    induction fuel as [|fuel IH]; intros d cache LA Hd Hf; [lia|]. cbn [build_loop]. pose proof LA as [LL L].
    destruct (N.eqb_spec (amount_cached cache) (ix_total k)) as [E|NE].
    - exists cache. split; [reflexivity|]. split; [exact LL|]. intros i Hi.
      destruct (at_index_ex (N.to_nat i)) as (t & X); [unfold total in *; lia|].
      destruct (L _ _ X) as (e & N & C). exists t, e.
      pose proof (proj2 X) as F. rewrite N2Nat.id in F. split; [exact F|]. split; [exact N|].
      assert (LE : least (N.to_nat e) t).
      { destruct C as [(j & -> & _ & Y)|[(-> & Y)|(-> & _)]]; [rewrite Nat2N.id; exact Y|rewrite Nat2N.id; exact Y|]. exfalso.
        unfold amount_cached in E. assert (A : length (filter (fun e => match entry_get e with Some _ => true | None => false end) cache) = length cache)
          by (rewrite LL; unfold total in *; lia).
        pose proof (filter_all _ _ A 255%N (nth_error_In _ _ N)) as Q. discriminate Q. }
      destruct LE as [R M]. destruct (at_index_S _ _ X) as [St _]. split; [apply (reach_solve _ _ St), R|].
      intros al Ea. destruct (le_lt_dec (N.to_nat e) (length al)) as [Q|Q]; [exact Q|]. exfalso.
      apply (M _ Q). apply (reach_solve _ _ St). exists al. auto.
    - destruct (not_all (fun e => match entry_get e with Some _ => true | None => false end) cache) as (i & x & N & F).
      { unfold amount_cached in NE. rewrite LL. unfold total in *. lia. }
      assert (Hi : i < total). { rewrite <- LL. apply nth_error_Some. rewrite N. discriminate. }
      destruct (at_index_ex i Hi) as (t & X). destruct (L i t X) as (e & N' & C). rewrite N in N'. injection N' as <-.
      assert (D : d < bound).
      { destruct (at_index_S _ _ X) as [St _]. destruct (Connected t St) as (al & La & Ea).
        assert (R : reach (length al) t) by (apply (reach_solve _ _ St); eauto).
        destruct C as [(j & -> & B & _)|[(-> & Y)|(-> & NR & _)]].
        - exfalso. unfold entry_get in F. destruct (N.eqb_spec (N.of_nat j) 255); [lia|discriminate F].
        - destruct (le_lt_dec (length al) d) as [Q|Q]; [|lia]. exfalso. apply (proj2 Y (length al)); [lia|exact R].
        - destruct (le_lt_dec (length al) d) as [Q|Q]; [|lia]. exfalso. exact (NR _ Q R). }
      destruct (pass d cache) as (cache' & R & L'); [lia|exact LA|]. rewrite R. cbn [bind_o].
      replace (N.of_nat (Datatypes.S d) + 1)%N with (N.of_nat (Datatypes.S (Datatypes.S d))) by lia.
      apply IH; [exact L'|lia|lia].
  Qed.

  Lemma build_exact : exists table, build_table k = Done table /\ exact_table (ix_total k) (ix_from_index k) moved goal table.
  Proof.
    unfold build_table. cbv zeta. destruct (at_index_of goal Goal_ok) as (i & X & E).
    rewrite Goal_zero in E. injection E as <-. cbn [N.to_nat] in X.
    destruct (N.eqb_spec (ix_total k) 0) as [Z0|NZ]; [destruct X; unfold total in *; lia|].
    apply (loop_exact 254 0); [|lia|lia]. split; [rewrite set_nth_length, repeat_length; reflexivity|].
    intros i t Y. rewrite set_nth_spec, repeat_length. fold total. destruct (Nat.eqb_spec 0 i) as [<-|NE].
    - replace (0 <? total) with true by (destruct X; lia). cbn [andb]. exists 0%N. split; [reflexivity|]. left. exists 0.
      split; [reflexivity|]. split; [lia|]. rewrite (at_index_fun _ _ _ Y X). split; [|lia]. exists []. auto.
    - cbn [andb]. exists 255%N. split.
      + destruct Y as [B _]. rewrite (nth_error_nth' _ 255%N) by (rewrite repeat_length; exact B). f_equal. apply nth_repeat.
      + right. right. split; [reflexivity|]. split; [|intros []]. intros j Hj (al & La & Ea). destruct al; [|cbn in La; lia].
        cbn in Ea. subst t. apply NE. symmetry. exact (at_index_inj _ _ _ Y X).
  Qed.
End Build.

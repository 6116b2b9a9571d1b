(** Counting: products, bijections, halves, rearrangements. *)

From Coq Require Import List Bool Arith NArith ZArith Lia Permutation.
From Verif Require Import Model_Base Model_Space Model_Moves Model_Pieces Model_PieceSet Model_Cubes Model_Invariants
  Spec_Sets Spec_Mus Spec_Random Spec_Count Proof_Parity Proof_Sets Proof_Random Prop_Random.
Import ListNotations.
Open Scope nat_scope.

Lemma number_of_iff {A} (P Q : A -> Prop) n : (forall a, P a <-> Q a) -> number_of P n -> number_of Q n.
Proof. intros H (l & N & I & L). exists l. split; [exact N|]. split; [|exact L]. intros a. rewrite I. apply H. Qed.

Lemma nodup_map_on {A B} (f : A -> B) l : (forall a b, In a l -> In b l -> f a = f b -> a = b) -> NoDup l -> NoDup (map f l).
Proof.
  induction l as [|a l IH]; intros H N; [constructor|]. inversion N as [|? ? N1 N2]; subst. cbn [map]. constructor.
  - intros I. apply in_map_iff in I as (b & E & I). apply H in E; [subst; contradiction|right; exact I|left; reflexivity].
  - apply IH; [|exact N2]. intros x y X Y. apply H; right; assumption.
Qed.

(** One-to-one correspondence. *)
Lemma number_of_bij {A B} (P : A -> Prop) (Q : B -> Prop) (f : A -> B) (g : B -> A) n :
  (forall a, P a -> Q (f a) /\ g (f a) = a) -> (forall b, Q b -> P (g b) /\ f (g b) = b) -> number_of P n -> number_of Q n.
Proof.
  intros F G (l & N & I & L). exists (map f l). split; [|split].
  - apply nodup_map_on; [|exact N]. intros a b A1 B1 E. apply I, F in A1 as [_ A1]. apply I, F in B1 as [_ B1]. congruence.
  - intros b. rewrite in_map_iff. split.
    + intros (a & <- & Ia). apply F, I, Ia.
    + intros H. apply G in H as [H E]. exists (g b). split; [exact E|]. apply I, H.
  - rewrite map_length. exact L.
Qed.

(** Choosing one thing and then another. *)
Lemma number_of_pairs {A B} (P : A -> Prop) (Q : A -> B -> Prop) n m :
  number_of P n -> (forall a, P a -> number_of (Q a) m) -> number_of (fun x => P (fst x) /\ Q (fst x) (snd x)) (n * m).
Proof.
  intros (l & N & I & L) H.
  assert (G : forall k, NoDup k -> (forall a, In a k -> number_of (Q a) m) ->
    exists ll, NoDup ll /\ (forall x, In x ll <-> In (fst x) k /\ Q (fst x) (snd x)) /\ N.of_nat (length ll) = (N.of_nat (length k) * m)%N).
  { clear. induction k as [|a k IH]; intros N H.
    - exists []. split; [constructor|]. split; [intros x; cbn; tauto|reflexivity].
    - inversion N as [|? ? N1 N2]; subst. destruct IH as (ll & LN & LI & LL); [exact N2|intros b Hb; apply H; right; exact Hb|].
      destruct (H a (or_introl eq_refl)) as (bs & BN & BI & BL). exists (map (pair a) bs ++ ll). split; [|split].
      + assert (X : forall bs, NoDup bs -> NoDup (map (pair a) bs ++ ll)).
        { clear bs BN BI BL. induction bs as [|b bs IHb]; intros NB; [exact LN|]. inversion NB as [|? ? B1 B2]; subst. cbn [map app]. constructor; [|apply IHb, B2].
          rewrite in_app_iff. intros [I|I].
          - apply in_map_iff in I as (c & E & I). congruence.
          - apply LI in I as [I _]. contradiction. }
        apply X, BN.
      + intros [x y]. rewrite in_app_iff, in_map_iff, LI. cbn [fst snd In]. split.
        * intros [(b & E & I)|[I J]]; [inversion E; subst; split; [left; reflexivity|apply BI, I]|tauto].
        * intros [[->|I] J]; [left; exists y; split; [reflexivity|apply BI, J]|tauto].
      + rewrite app_length, map_length, Nat2N.inj_add, LL, BL. cbn [length]. rewrite Nat2N.inj_succ. lia. }
  destruct (G l N) as (ll & LN & LI & LL). { intros a Ha. apply H, I, Ha. }
  exists ll. split; [exact LN|]. split; [|rewrite LL, L; reflexivity]. intros x. rewrite LI, I. reflexivity.
Qed.

(** A change that turns a yes into a no and back: as many of one as of the other. *)
Lemma number_of_half {A} (P : A -> Prop) (q : A -> bool) (f : A -> A) n :
  (forall a, P a -> P (f a) /\ q (f a) = negb (q a) /\ f (f a) = a) -> number_of P n ->
  forall b, number_of (fun a => P a /\ q a = b) (n / 2).
Proof.
  intros F (l & N & I & L).
  assert (Pm : Permutation (map f (filter q l)) (filter (fun a => negb (q a)) l)).
  { apply NoDup_Permutation.
    - apply nodup_map_on; [|apply NoDup_filter, N]. intros a b A1 B1 E. apply filter_In in A1 as [A1 _], B1 as [B1 _].
      apply I, F in A1 as (_ & _ & A1). apply I, F in B1 as (_ & _ & B1). congruence.
    - apply NoDup_filter, N.
    - intros x. rewrite in_map_iff, filter_In. split.
      + intros (y & <- & Iy). apply filter_In in Iy as [Iy Q]. apply I, F in Iy as (Iy & R & _). rewrite R, Q. split; [apply I, Iy|reflexivity].
      + intros [Ix Q]. apply I, F in Ix as (Ix & R & E). exists (f x). split; [exact E|]. apply filter_In. split; [apply I, Ix|]. rewrite R. exact Q. }
  apply Permutation_length in Pm. rewrite map_length in Pm.
  assert (S : length (filter q l) + length (filter (fun a => negb (q a)) l) = length l).
  { clear. induction l as [|a l IH]; [reflexivity|]. cbn [filter]. destruct (q a); cbn [negb length]; lia. }
  assert (Hf : forall b, N.of_nat (length (filter (fun a => eqb (q a) b) l)) = (n / 2)%N).
  { intros b. assert (E : length (filter (fun a => eqb (q a) b) l) = length (filter q l)).
    { destruct b.
      - f_equal. apply filter_ext. intros a. destruct (q a); reflexivity.
      - rewrite Pm. reflexivity. }
    rewrite E. assert (n = 2 * N.of_nat (length (filter q l)))%N as -> by lia.
    rewrite N.mul_comm, N.div_mul; [reflexivity|discriminate]. }
  intros b. exists (filter (fun a => eqb (q a) b) l). split; [apply NoDup_filter, N|]. split; [|apply Hf].
  intros a. rewrite filter_In, I, eqb_true_iff. reflexivity.
Qed.

Lemma number_of_numbering {A} (S : A -> Prop) n f g : numbering S n f g -> number_of S n.
Proof.
  intros [F G]. set (k := N.to_nat n).
  assert (X : forall k, (N.of_nat k <= n)%N -> exists l, NoDup l /\ (forall a, In a l <-> S a /\ exists i, f a = Done i /\ (i < N.of_nat k)%N) /\ length l = k).
  { clear k. induction k as [|k IH]; intros Hk.
    - exists []. split; [constructor|]. split; [|reflexivity]. intros a. split; [intros []|]. intros (_ & i & _ & L). cbn in L. lia.
    - destruct IH as (l & N & I & L); [lia|]. destruct (G (N.of_nat k)) as (a & Ga & Sa & Fa); [lia|].
      exists (a :: l). split; [|split; [|cbn; congruence]].
      + constructor; [|exact N]. rewrite I. intros (_ & i & E & Li). rewrite Fa in E. injection E as <-. lia.
      + intros b. cbn [In]. rewrite I. split.
        * intros [<-|(Sb & i & E & Li)]; [split; [exact Sa|]; exists (N.of_nat k); split; [exact Fa|lia]|split; [exact Sb|]; exists i; split; [exact E|lia]].
        * intros (Sb & i & E & Li). destruct (N.eq_dec i (N.of_nat k)) as [->|D]; [|right; split; [exact Sb|]; exists i; split; [exact E|lia]].
          left. destruct (F b Sb) as (j & E' & _ & Gj). rewrite E in E'. injection E' as <-. congruence. }
  destruct (X k) as (l & N & I & L); [unfold k; lia|]. exists l. split; [exact N|]. split; [|unfold k in L; lia].
  intros a. rewrite I. split; [tauto|]. intros Sa. split; [exact Sa|]. destruct (F a Sa) as (i & E & Li & _). exists i. split; [exact E|unfold k; lia].
Qed.

(** ** Rearrangements *)

Lemma all_shuffles_product n : N.of_nat (length (all_shuffles n)) = product n.
Proof.
  induction n as [|n IH]; [reflexivity|]. rewrite all_shuffles_length, Nat2N.inj_mul, IH. cbn [product]. lia.
Qed.

Lemma number_of_perms {T} (l : list T) : NoDup l -> number_of (fun l' => Permutation l' l) (product (length l)).
Proof.
  intros N. destruct l as [|t l].
  - exists [[]]. split; [repeat constructor; intros []|]. split; [|reflexivity].
    intros a. cbn. split; [intros [<-|[]]; constructor|]. intros P. left. symmetry. apply Permutation_nil, Permutation_sym, P.
  - set (k := t :: l) in *. assert (NE : k <> []) by discriminate. clearbody k. clear t l.
    exists (map (fun js => shuffle (fun i => nth i js 0) k) (all_shuffles (length k))). split; [|split].
    + apply nodup_map_on; [|apply all_shuffles_nodup]. intros a b A B. apply all_shuffles_in in A, B. apply shuffle_inj; assumption.
    + intros l'. rewrite in_map_iff. split.
      * intros (js & <- & _). apply Permutation_sym. apply shuffle_perm.
      * intros P. destruct (shuffle_choice k l' NE (Permutation_sym P)) as (js & J & E). exists js. split; [exact E|]. apply all_shuffles_in, J.
    + rewrite map_length. apply all_shuffles_product.
Qed.

(** The even ones and the odd ones, by the places in a list. *)
Definition swap2 {T} (l : list T) : list T := match l with a :: b :: r => b :: a :: r | _ => l end.
Lemma swap2_swap2 {T} (l : list T) : swap2 (swap2 l) = l.
Proof. destruct l as [|a [|b r]]; reflexivity. Qed.
Lemma swap2_perm {T} (l : list T) : Permutation (swap2 l) l.
Proof. destruct l as [|a [|b r]]; cbn; try apply Permutation_refl. apply perm_swap. Qed.

Lemma number_of_parity {T} (h : T -> nat) (l : list T) : NoDup l -> 2 <= length l ->
  (forall x y, In x l -> In y l -> h x = h y -> x = y) ->
  forall b, number_of (fun l' => Permutation l' l /\ odd_inv (map h l') = b) (product (length l) / 2).
Proof.
  intros N L H. apply (number_of_half _ (fun l' => odd_inv (map h l')) swap2); [|apply number_of_perms, N].
  intros a P. split; [eapply perm_trans; [apply swap2_perm|exact P]|]. split; [|apply swap2_swap2].
  destruct a as [|x [|y r]]; [apply Permutation_length in P; cbn in P; lia|apply Permutation_length in P; cbn in P; lia|].
  cbn [swap2 map]. rewrite odd_inv_swap01; [reflexivity|]. intros E. apply H in E.
  - subst y. pose proof (Permutation_NoDup (Permutation_sym P) N) as N'. inversion N' as [|? ? N1 _]. apply N1. left. reflexivity.
  - apply (Permutation_in _ P). right. left. reflexivity.
  - apply (Permutation_in _ P). left. reflexivity.
Qed.

(** ** Two kinds mixed in a given pattern *)

Fixpoint mix {A} (bs : list bool) (x y : list A) : list A :=
  match bs with
  | [] => []
  | true :: bs => match x with a :: x => a :: mix bs x y | [] => [] end
  | false :: bs => match y with b :: y => b :: mix bs x y | [] => [] end
  end.
Lemma mix_filter {A} (f : A -> bool) s : mix (map f s) (filter f s) (filter (fun a => negb (f a)) s) = s.
Proof. induction s as [|a s IH]; [reflexivity|]. cbn [map filter]. destruct (f a) eqn:E; cbn [mix negb]; rewrite IH; reflexivity. Qed.
Lemma mix_spec {A} (f : A -> bool) bs : forall x y, (forall a, In a x -> f a = true) -> (forall a, In a y -> f a = false) ->
  length x = length (filter (fun b => b) bs) -> length y = length (filter negb bs) ->
  map f (mix bs x y) = bs /\ filter f (mix bs x y) = x /\ filter (fun a => negb (f a)) (mix bs x y) = y /\ Permutation (mix bs x y) (x ++ y).
Proof.
  induction bs as [|b bs IH]; intros x y X Y Lx Ly.
  - destruct x; [|discriminate Lx]. destruct y; [|discriminate Ly]. cbn. auto.
  - destruct b; cbn [filter negb length] in *.
    + destruct x as [|a x]; [discriminate Lx|]. destruct (IH x y) as (I1 & I2 & I3 & I4); [intros; apply X; right; assumption|exact Y|cbn in Lx; lia|exact Ly|].
      assert (E : f a = true) by (apply X; left; reflexivity).
      cbn [mix map filter app]. rewrite E. cbn [negb]. rewrite I1, I2, I3. split; [reflexivity|]. split; [reflexivity|]. split; [reflexivity|]. constructor. exact I4.
    + destruct y as [|a y]; [discriminate Ly|]. destruct (IH x y) as (I1 & I2 & I3 & I4); [exact X|intros; apply Y; right; assumption|exact Lx|cbn in Ly; lia|].
      assert (E : f a = false) by (apply Y; left; reflexivity).
      cbn [mix map filter app]. rewrite E. cbn [negb]. rewrite I1, I2, I3. split; [reflexivity|]. split; [reflexivity|]. split; [reflexivity|].
      eapply perm_trans; [constructor; exact I4|]. apply Permutation_middle.
Qed.

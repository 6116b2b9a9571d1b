(** The cell that [transform_coord] computes with [f32] arithmetic, away from the borders
    between the cells. *)

From Coq Require Import List Bool Arith NArith ZArith Lia SpecFloat ZifyBool.
From Verif Require Import Model_Base Model_Space Model_Visual Model_Print Model_Float Model_PrintFloat Proof_Float Proof_Round.
Import ListNotations.
Local Open Scope Z_scope.

Lemma pw0 : pw 0 = 2 * pw (-1).
Proof. reflexivity. Qed.
Lemma int_repr j : -100 <= j <= 100 -> reprs (j * pw 0).
Proof.
  intros H. exists (Z.abs j), 0. split; [lia|]. split; [lia|]. rewrite Z.abs_mul. reflexivity.
Qed.

(** [f32::round]. *)
Lemma round_quot m e : -149 <= e -> e < 0 ->
  let k := ((2 * Z.pos m + 2 ^ (- e)) / 2 ^ (1 - e)) in
  0 <= k /\ k * pw 0 <= Z.pos m * pw e + pw (-1) < (k + 1) * pw 0.
Proof.
  intros E N. cbn zeta. replace (2 ^ (1 - e)) with (2 * 2 ^ (- e)) by (rewrite <- Z.pow_succ_r by lia; f_equal; lia).
  set (k := (2 * Z.pos m + 2 ^ (- e)) / (2 * 2 ^ (- e))).
  assert (P : 0 < 2 ^ (- e)) by (apply Z.pow_pos_nonneg; lia).
  assert (K : k * (2 * 2 ^ (- e)) <= 2 * Z.pos m + 2 ^ (- e) < (k + 1) * (2 * 2 ^ (- e))).
  { pose proof (Z.div_mod (2 * Z.pos m + 2 ^ (- e)) (2 * 2 ^ (- e)) ltac:(lia)).
    pose proof (Z.mod_pos_bound (2 * Z.pos m + 2 ^ (- e)) (2 * 2 ^ (- e)) ltac:(lia)). unfold k. lia. }
  assert (K0 : 0 <= k) by (unfold k; apply Z.div_pos; lia). split; [exact K0|]. clearbody k.
  pose proof (pw_pos e ltac:(lia)) as Pe.
  assert (A : pw 0 = 2 ^ (- e) * pw e) by (rewrite <- pw_add by lia; f_equal; lia). pose proof pw0 as B. nia.
Qed.
Lemma round_int m e : 0 <= e -> exists z, Z.pos m * pw e = z * pw 0.
Proof. intros E. exists (Z.pos m * 2 ^ e). change e with (0 + e) at 1. rewrite pw_add by lia. lia. Qed.
Lemma f32_round_ge x b j : -100 <= j <= 100 -> f_ge x b -> (2 * j - 1) * pw (-1) < b -> f_ge (f32_round x) (j * pw 0).
Proof.
  intros J H B. pose proof (pw_pos (-1) ltac:(lia)) as P. pose proof pw0 as P0. pose proof (pw_pos 0 ltac:(lia)) as P1.
  destruct x as [s|s| |s m e]; cbn [f_ge f32_round] in *; [assert (j <= 0) by nia; nia|exact H|exact H|].
  destruct H as [E H]. destruct (Z.leb_spec 0 e) as [L|L].
  - cbn [f_ge]. split; [exact E|]. destruct (round_int m e L) as (z & V). rewrite V in *. rewrite P0 in *.
    destruct s; cbn [cond_Zopp] in *; [assert (2 * j - 1 < - (2 * z)) by nia|assert (2 * j - 1 < 2 * z) by nia]; nia.
  - destruct (round_quot m e E L) as (K0 & K1). set (k := (2 * Z.pos m + 2 ^ (- e)) / 2 ^ (1 - e)) in *. clearbody k.
    apply normalize_ge; [lia|apply int_repr; lia|]. rewrite P0 in *. set (p := pw (-1)) in *. set (v := Z.pos m * pw e) in *. clearbody p v.
    destruct s; cbn [cond_Zopp] in H; [assert (2 * j - 1 < 1 - 2 * k) by nia|assert (2 * j - 1 < 2 * k + 1) by nia]; nia.
Qed.
Lemma f32_round_le x b j : -100 <= j <= 100 -> f_le x b -> b < (2 * j + 1) * pw (-1) -> f_le (f32_round x) (j * pw 0).
Proof.
  intros J H B. pose proof (pw_pos (-1) ltac:(lia)) as P. pose proof pw0 as P0. pose proof (pw_pos 0 ltac:(lia)) as P1.
  destruct x as [s|s| |s m e]; cbn [f_le f32_round] in *; [assert (0 <= j) by nia; nia|exact H|exact H|].
  destruct H as [E H]. destruct (Z.leb_spec 0 e) as [L|L].
  - cbn [f_le]. split; [exact E|]. destruct (round_int m e L) as (z & V). rewrite V in *. rewrite P0 in *.
    destruct s; cbn [cond_Zopp] in *; [assert (- (2 * z) < 2 * j + 1) by nia|assert (2 * z < 2 * j + 1) by nia]; nia.
  - destruct (round_quot m e E L) as (K0 & K1). set (k := (2 * Z.pos m + 2 ^ (- e)) / 2 ^ (1 - e)) in *. clearbody k.
    apply normalize_le; [lia|apply int_repr; lia|]. rewrite P0 in *. set (p := pw (-1)) in *. set (v := Z.pos m * pw e) in *. clearbody p v.
    destruct s; cbn [cond_Zopp] in H; [assert (- (2 * k + 1) < 2 * j + 1) by nia|assert (2 * k - 1 < 2 * j + 1) by nia]; nia.
Qed.

(** [as usize] and the comparison with zero. *)
Lemma quot_val m e : -149 <= e -> let z := if (0 <=? e)%Z then Z.pos m * 2 ^ e else Z.pos m / 2 ^ (- e) in
  0 <= z /\ z * pw 0 <= Z.pos m * pw e < (z + 1) * pw 0.
Proof.
  intros E z. pose proof (pw_pos 0 ltac:(lia)) as P1. pose proof (pw_pos e ltac:(lia)) as Pe. destruct (Z.leb_spec 0 e) as [L|L].
  - assert (V : Z.pos m * pw e = z * pw 0) by (unfold z; change e with (0 + e) at 1; rewrite pw_add by lia; lia).
    assert (0 <= z) by (unfold z; pose proof (Z.pow_pos_nonneg 2 e); nia). nia.
  - assert (P : 0 < 2 ^ (- e)) by (apply Z.pow_pos_nonneg; lia).
    assert (K : z * 2 ^ (- e) <= Z.pos m < (z + 1) * 2 ^ (- e)).
    { pose proof (Z.div_mod (Z.pos m) (2 ^ (- e)) ltac:(lia)). pose proof (Z.mod_pos_bound (Z.pos m) (2 ^ (- e)) P). unfold z. lia. }
    assert (0 <= z) by (unfold z; apply Z.div_pos; lia). clearbody z.
    assert (A : pw 0 = 2 ^ (- e) * pw e) by (rewrite <- pw_add by lia; f_equal; lia). rewrite A. nia.
Qed.
Lemma unsigned_ge max x j : 0 <= j <= max -> f_ge x (j * pw 0) -> j <= f32_to_unsigned max x.
Proof.
  intros J H. pose proof (pw_pos 0 ltac:(lia)) as P1. destruct x as [s|s| |s m e]; cbn [f_ge f32_to_unsigned] in *.
  - nia.
  - subst s. lia.
  - destruct H.
  - destruct H as [E H]. pose proof (pw_pos e ltac:(lia)). destruct s; cbn [cond_Zopp] in H; [nia|].
    pose proof (quot_val m e E) as Q. cbn zeta in Q. set (z := if (0 <=? e)%Z then Z.pos m * 2 ^ e else Z.pos m / 2 ^ (- e)) in *. clearbody z. nia.
Qed.
Lemma unsigned_le max x j : 0 <= j <= max -> f_le x (j * pw 0) -> f32_to_unsigned max x <= j.
Proof.
  intros J H. pose proof (pw_pos 0 ltac:(lia)) as P1. destruct x as [s|s| |s m e]; cbn [f_le f32_to_unsigned] in *.
  - nia.
  - subst s. lia.
  - destruct H.
  - destruct H as [E H]. pose proof (pw_pos e ltac:(lia)). destruct s; cbn [cond_Zopp] in H; [nia|].
    pose proof (quot_val m e E) as Q. cbn zeta in Q. set (z := if (0 <=? e)%Z then Z.pos m * 2 ^ e else Z.pos m / 2 ^ (- e)) in *. clearbody z. nia.
Qed.
Lemma ltb_ge x : f_ge x (0 * pw 0) -> f32_ltb x (f32_of_Z 0) = false.
Proof.
  change (f32_of_Z 0) with (S754_zero false). unfold f32_ltb, SFltb. destruct x as [s|s| |s m e]; cbn [f_ge SFcompare]; intros H; try reflexivity.
  - subst s. reflexivity.
  - destruct H as [E H]. pose proof (pw_pos e ltac:(lia)). destruct s; cbn [cond_Zopp] in H; [nia|reflexivity].
Qed.
Lemma ltb_le x : f_le x (-1 * pw 0) -> f32_ltb x (f32_of_Z 0) = true.
Proof.
  change (f32_of_Z 0) with (S754_zero false). pose proof (pw_pos 0 ltac:(lia)) as P1.
  unfold f32_ltb, SFltb. destruct x as [s|s| |s m e]; cbn [f_le SFcompare]; intros H.
  - nia.
  - subst s. reflexivity.
  - destruct H.
  - destruct H as [E H]. pose proof (pw_pos e ltac:(lia)). destruct s; cbn [cond_Zopp] in H; [reflexivity|nia].
Qed.

(** One border: the sum, the product and the quotient stay on one side of representable numbers. *)
Definition units (q z : Z) : Z := z * pw q.
Definition in_range (z : Z) : bool := Z.abs z <? 2 ^ 24.
Lemma units_repr q z : -149 <= q <= 104 -> in_range z = true -> reprs (units q z).
Proof.
  unfold in_range. intros Q H. apply Z.ltb_lt in H. exists (Z.abs z), q. split; [lia|]. split; [lia|]. unfold units. rewrite Z.abs_mul. f_equal.
  apply Z.abs_eq, Z.lt_le_incl, pw_pos. lia.
Qed.
Definition stage (n : nat) (x : f32) : f32 :=
  f32_round (f32_div (f32_mul (f32_add x (f32_of_Z 1)) (f32_of_Z (Z.of_nat n))) (f32_of_Z 3)).
Lemma small_size n : (1 <= n <= 7)%nat -> small (Z.of_nat n) (f32_of_Z (Z.of_nat n)).
Proof.
  intros H. assert (C : (n = 1 \/ n = 2 \/ n = 3 \/ n = 4 \/ n = 5 \/ n = 6 \/ n = 7)%nat) by lia.
  unfold small. destruct C as [->|[->|[->|[->|[->|[->| ->]]]]]]; do 2 eexists; (split; [reflexivity|]); vm_compute; repeat split; discriminate.
Qed.
(* The border of cell [j] for [x + 1] is 3 (2 j - 1) / (2 n); numbers for it in units of 2^-21
   (sum), 2^-19 (product) and 2^-21 (quotient), 2^-18 above or below the border. *)
Definition sum_ge (n j : Z) : Z := (3 * (2 * j - 1) * 2 ^ 21 + 16 * n) / (2 * n).
Definition prod_ge (n j : Z) : Z := (n * sum_ge n j) / 4.
Definition quot_ge (n j : Z) : Z := (4 * prod_ge n j) / 3.
Definition sum_le (n j : Z) : Z := - ((- (3 * (2 * j - 1) * 2 ^ 21 - 16 * n)) / (2 * n)).
Definition prod_le (n j : Z) : Z := - ((- (n * sum_le n j)) / 4).
Definition quot_le (n j : Z) : Z := - ((- (4 * prod_le n j)) / 3).
Definition border_ok (n j : Z) : bool :=
  in_range (sum_ge n j) && in_range (prod_ge n j) && in_range (quot_ge n j) && ((2 * j - 1) * 2 ^ 20 <? quot_ge n j) &&
  in_range (sum_le n j) && in_range (prod_le n j) && in_range (quot_le n j) && (quot_le n j <? (2 * j - 1) * 2 ^ 20).
Lemma borders_ok n j : (1 <= n <= 7)%nat -> 0 <= j <= Z.of_nat n -> border_ok (Z.of_nat n) j = true.
Proof.
  assert (H : forallb (fun n => forallb (fun j => border_ok (Z.of_nat n) (Z.of_nat j)) (seq 0 (S n))) (seq 1 7) = true) by (vm_compute; reflexivity).
  intros N J. rewrite forallb_forall in H. specialize (H n ltac:(apply in_seq; lia)). rewrite forallb_forall in H.
  specialize (H (Z.to_nat j) ltac:(apply in_seq; lia)). rewrite Z2Nat.id in H by lia. exact H.
Qed.
Lemma floor_le a b : 0 < b -> b * (a / b) <= a.
Proof. intros H. apply Z.mul_div_le, H. Qed.
Lemma pw_half : pw (-1) = 2 ^ 20 * pw (-21).
Proof. reflexivity. Qed.
Lemma units_fine a b : a = 4 * b -> units (-21) a = units (-19) b.
Proof. intros ->. unfold units. assert (E : pw (-19) = 4 * pw (-21)) by reflexivity. rewrite E. lia. Qed.
Lemma units_mono q a b : -149 <= q -> a <= b -> units q a <= units q b.
Proof. intros Q L. unfold units. pose proof (pw_pos q ltac:(lia)). nia. Qed.
Lemma units_scale q k a : k * units q a = units q (k * a).
Proof. unfold units. lia. Qed.
Lemma stage_ge n x j : (1 <= n <= 7)%nat -> 0 <= j <= Z.of_nat n -> f_ge x (units (-21) (sum_ge (Z.of_nat n) j) - pw 0) -> f_ge (stage n x) (j * pw 0).
Proof.
  intros N J H. pose proof (borders_ok n j N J) as B. unfold border_ok in B. rewrite !andb_true_iff in B.
  destruct B as [[[[[[[B1 B2] B3] B4] _] _] _] _]. pose proof (small_size n N) as S. unfold stage. set (z := Z.of_nat n) in *.
  assert (A : f_ge (f32_add x (f32_of_Z 1)) (units (-21) (sum_ge z j))).
  { replace (units (-21) (sum_ge z j)) with (units (-21) (sum_ge z j) - pw 0 + pw 0) by lia. apply add_one_ge; [exact H|].
    rewrite Z.sub_add. apply units_repr; [lia|exact B1]. }
  assert (M : f_ge (f32_mul (f32_add x (f32_of_Z 1)) (f32_of_Z z)) (units (-19) (prod_ge z j))).
  { apply (mul_ge _ z _ (units (-21) (sum_ge z j))); [lia|exact S|exact A| |apply units_repr; [lia|exact B2]].
    rewrite units_scale, <- (units_fine (4 * prod_ge z j) (prod_ge z j) eq_refl). apply units_mono; [lia|]. apply floor_le. lia. }
  assert (D : f_ge (f32_div (f32_mul (f32_add x (f32_of_Z 1)) (f32_of_Z z)) (f32_of_Z 3)) (units (-21) (quot_ge z j))).
  { apply div_three_ge; [|apply units_repr; [lia|exact B3]]. eapply f_ge_weaken; [|exact M].
    rewrite units_scale, <- (units_fine (4 * prod_ge z j) (prod_ge z j) eq_refl). apply units_mono; [lia|]. apply floor_le. lia. }
  apply (f32_round_ge _ _ j ltac:(lia) D). rewrite pw_half. apply Z.ltb_lt in B4. unfold units. pose proof (pw_pos (-21) ltac:(lia)). nia.
Qed.
Lemma ceil_ge a b : 0 < b -> a <= b * - (- a / b).
Proof. intros H. pose proof (floor_le (- a) b H). lia. Qed.
Lemma stage_le n x j : (1 <= n <= 7)%nat -> 0 <= j <= Z.of_nat n -> f_le x (units (-21) (sum_le (Z.of_nat n) j) - pw 0) -> f_le (stage n x) ((j - 1) * pw 0).
Proof.
  intros N J H. pose proof (borders_ok n j N J) as B. unfold border_ok in B. rewrite !andb_true_iff in B.
  destruct B as [[[[_ B1] B2] B3] B4]. pose proof (small_size n N) as S. unfold stage. set (z := Z.of_nat n) in *.
  assert (A : f_le (f32_add x (f32_of_Z 1)) (units (-21) (sum_le z j))).
  { replace (units (-21) (sum_le z j)) with (units (-21) (sum_le z j) - pw 0 + pw 0) by lia. apply add_one_le; [exact H|].
    rewrite Z.sub_add. apply units_repr; [lia|exact B1]. }
  assert (M : f_le (f32_mul (f32_add x (f32_of_Z 1)) (f32_of_Z z)) (units (-19) (prod_le z j))).
  { apply (mul_le _ z _ (units (-21) (sum_le z j))); [lia|exact S|exact A| |apply units_repr; [lia|exact B2]].
    rewrite units_scale, <- (units_fine (4 * prod_le z j) (prod_le z j) eq_refl). apply units_mono; [lia|]. apply ceil_ge. lia. }
  assert (D : f_le (f32_div (f32_mul (f32_add x (f32_of_Z 1)) (f32_of_Z z)) (f32_of_Z 3)) (units (-21) (quot_le z j))).
  { apply div_three_le; [|apply units_repr; [lia|exact B3]]. eapply f_le_weaken; [|exact M].
    rewrite units_scale, <- (units_fine (4 * prod_le z j) (prod_le z j) eq_refl). apply units_mono; [lia|]. apply ceil_ge. lia. }
  apply (f32_round_le _ _ (j - 1) ltac:(lia) D). rewrite pw_half. apply Z.ltb_lt in B4. unfold units. pose proof (pw_pos (-21) ltac:(lia)). nia.
Qed.

(** The outcome. *)
Lemma cell_below n x : (1 <= n <= 7)%nat -> f_le (stage n x) (-1 * pw 0) -> transform_coord_f n x = None.
Proof. intros N H. unfold transform_coord_f. fold (stage n x). rewrite (ltb_le _ H). reflexivity. Qed.
Lemma cell_above n x : (1 <= n <= 7)%nat -> f_ge (stage n x) (Z.of_nat n * pw 0) -> transform_coord_f n x = None.
Proof.
  intros N H. unfold transform_coord_f. fold (stage n x).
  pose proof (unsigned_ge usize_max _ (Z.of_nat n) ltac:(unfold usize_max; lia) H).
  replace (Z.of_nat n <=? f32_to_unsigned usize_max (stage n x)) with true by lia. rewrite orb_true_r. reflexivity.
Qed.
Lemma cell_inside n x j : (1 <= n <= 7)%nat -> 0 <= j < Z.of_nat n -> f_ge (stage n x) (j * pw 0) -> f_le (stage n x) (j * pw 0) ->
  transform_coord_f n x = Some (Z.to_nat j).
Proof.
  intros N J G L. unfold transform_coord_f. fold (stage n x).
  pose proof (unsigned_ge usize_max _ j ltac:(unfold usize_max; lia) G). pose proof (unsigned_le usize_max _ j ltac:(unfold usize_max; lia) L).
  rewrite ltb_ge by (eapply f_ge_weaken; [|exact G]; pose proof (pw_pos 0 ltac:(lia)); nia).
  replace (f32_to_unsigned usize_max (stage n x)) with j by lia. replace (Z.of_nat n <=? j) with false by lia. reflexivity.
Qed.

(** Single precision is exact on integers below 2^24 and their multiples by a fixed
    power of two: addition and comparison are those of the integers. *)

From Coq Require Import ZArith SpecFloat Lia Bool Nat.
From Verif Require Import Model_Search Model_Float.
Local Open Scope Z_scope.

Definition dg (p : positive) : Z := Z.pos (digits2_pos p).

Lemma dg_pos p : 0 < dg p. Proof. reflexivity. Qed.

Lemma dg_bounds p : 2 ^ (dg p - 1) <= Z.pos p < 2 ^ dg p.
Proof.
  unfold dg. induction p as [p IH|p IH|]; cbn [digits2_pos]; [| |cbn; lia];
    rewrite Pos2Z.inj_succ; replace (Z.succ (Z.pos (digits2_pos p)) - 1) with (Z.succ (Z.pos (digits2_pos p) - 1)) by lia;
    rewrite !Z.pow_succ_r by lia; lia.
Qed.

Lemma dg_unique p k : 0 < k -> 2 ^ (k - 1) <= Z.pos p < 2 ^ k -> dg p = k.
Proof.
  intros K H. pose proof (dg_bounds p) as B. pose proof (dg_pos p).
  destruct (Z.lt_trichotomy (dg p) k) as [L|[E|L]]; [|exact E|].
  - pose proof (Z.pow_le_mono_r 2 (dg p) (k - 1)). lia.
  - pose proof (Z.pow_le_mono_r 2 k (dg p - 1)). lia.
Qed.

Lemma dg_shift p p' j : 0 <= j -> Z.pos p' = Z.pos p * 2 ^ j -> dg p' = dg p + j.
Proof.
  intros J E. pose proof (dg_bounds p) as B. pose proof (dg_pos p). apply dg_unique; [lia|]. rewrite E.
  replace (dg p + j - 1) with ((dg p - 1) + j) by lia. rewrite !Z.pow_add_r by lia.
  pose proof (Z.pow_pos_nonneg 2 j). nia.
Qed.

Lemma dg_le p k : 0 <= k -> Z.pos p < 2 ^ k -> dg p <= k.
Proof.
  intros K H. pose proof (dg_bounds p) as B. destruct (Z.le_gt_cases (dg p) k) as [L|L]; [exact L|].
  pose proof (Z.pow_le_mono_r 2 k (dg p - 1)). lia.
Qed.

Lemma iter_pos_nat {A} (f : A -> A) n : forall x, iter_pos f n x = Nat.iter (Pos.to_nat n) f x.
Proof.
  assert (C : forall k x, Nat.iter k f (f x) = f (Nat.iter k f x)).
  { unfold Nat.iter. induction k as [|k IHk]; intros; cbn; [|rewrite IHk]; reflexivity. }
  assert (P : forall a b x, Nat.iter (a + b) f x = Nat.iter a f (Nat.iter b f x)).
  { unfold Nat.iter. induction a as [|a IHa]; intros; cbn; [|rewrite IHa]; reflexivity. }
  induction n as [n IH|n IH|]; intros x; cbn [iter_pos].
  - rewrite !IH. replace (Pos.to_nat n~1) with (S (Pos.to_nat n + Pos.to_nat n)) by lia. change (Nat.iter (S (Pos.to_nat n + Pos.to_nat n)) f x) with (f (Nat.iter (Pos.to_nat n + Pos.to_nat n) f x)). rewrite P, !C. reflexivity.
  - rewrite !IH. replace (Pos.to_nat n~0) with (Pos.to_nat n + Pos.to_nat n)%nat by lia. rewrite P. reflexivity.
  - reflexivity.
Qed.

Lemma shr_exact k : forall m, Nat.iter k shr_1 {| shr_m := Z.pos m * 2 ^ Z.of_nat k; shr_r := false; shr_s := false |}
  = {| shr_m := Z.pos m; shr_r := false; shr_s := false |}.
Proof.
  induction k as [|k IH]; intros m.
  - cbn [Nat.iter nat_rect]. rewrite Z.mul_1_r. reflexivity.
  - assert (C : forall k x, Nat.iter k shr_1 (shr_1 x) = shr_1 (Nat.iter k shr_1 x)).
    { clear. unfold Nat.iter. induction k as [|k IHk]; intros; cbn; [|rewrite IHk]; reflexivity. }
    change (Nat.iter (S k) shr_1) with (fun x => shr_1 (Nat.iter k shr_1 x)). cbv beta. rewrite <- C.
    rewrite Nat2Z.inj_succ, Z.pow_succ_r by lia. replace (Z.pos m * (2 * 2 ^ Z.of_nat k)) with (2 * (Z.pos m * 2 ^ Z.of_nat k)) by lia.
    specialize (IH m). destruct (Z.pos m * 2 ^ Z.of_nat k) as [|z|z] eqn:E.
    + pose proof (Z.pow_pos_nonneg 2 (Z.of_nat k)). lia.
    + cbn [Z.mul shr_1 orb]. exact IH.
    + pose proof (Z.pow_pos_nonneg 2 (Z.of_nat k)). lia.
Qed.

Lemma shift_pos_val d m : Z.pos (shift_pos d m) = Z.pos m * 2 ^ Z.pos d.
Proof. rewrite shift_pos_correct. rewrite Zpower_pos_nat, Zpower_nat_Z, positive_nat_Z. lia. Qed.

Definition mant (a : Z) (p : positive) : positive := Z.to_pos (a * 2 ^ (24 - dg p)).

(** Rounding an integer below 2^24, shifted left by [j] bits. *)
Lemma round_exact a p q j e : 0 <= j -> Z.pos p < 2 ^ 24 -> Z.pos a = Z.pos p * 2 ^ j -> e = q - j -> -100 <= q <= 70 ->
  binary_round 24 128 false a e = S754_finite false (mant (Z.pos p) p) (q - (24 - dg p)).
Proof.
  intros J P A -> Q. pose proof (dg_le p 24 ltac:(lia) P) as D. pose proof (dg_pos p) as D0.
  pose proof (dg_shift p a j J A) as Da.
  assert (Fx : fexp 24 128 (dg p + q) = q - (24 - dg p)).
  { unfold fexp, emin. lia. }
  assert (Mp : Z.pos (mant (Z.pos p) p) = Z.pos p * 2 ^ (24 - dg p)).
  { unfold mant. rewrite Z2Pos.id; [reflexivity|]. pose proof (Z.pow_pos_nonneg 2 (24 - dg p)). nia. }
  assert (Dm : dg (mant (Z.pos p) p) = 24).
  { rewrite (dg_shift p _ (24 - dg p)) by (exact Mp || lia). lia. }
  assert (Last : forall m, m = Z.pos (mant (Z.pos p) p) ->
    (let '(mrs'', e'') := shr_fexp 24 128 m (q - (24 - dg p)) loc_Exact in
     match shr_m mrs'' with
     | 0 => S754_zero false
     | Z.pos m => if Zle_bool e'' (128 - 24) then S754_finite false m e'' else S754_infinity false
     | _ => S754_nan
     end) = S754_finite false (mant (Z.pos p) p) (q - (24 - dg p))).
  { intros m ->. unfold shr_fexp. cbn [shr_record_of_loc Zdigits2]. fold (dg (mant (Z.pos p) p)). rewrite Dm.
    replace (24 + (q - (24 - dg p))) with (dg p + q) by lia. rewrite Fx, Z.sub_diag. cbn [shr shr_m].
    replace (Zle_bool (q - (24 - dg p)) (128 - 24)) with true; [reflexivity|]. symmetry. apply Zle_imp_le_bool. lia. }
  unfold binary_round. fold (dg a). rewrite Da. replace (dg p + j + (q - j)) with (dg p + q) by lia. rewrite Fx.
  unfold shl_align. destruct (q - (24 - dg p) - (q - j)) as [|n|n] eqn:N.
  - (* already aligned *)
    unfold binary_round_aux, shr_fexp at 1. cbn [shr_record_of_loc Zdigits2]. fold (dg a). rewrite Da.
    replace (dg p + j + (q - j)) with (dg p + q) by lia. rewrite Fx, N. cbn [shr shr_m loc_of_shr_record round_nearest_even].
    replace (q - j) with (q - (24 - dg p)) by lia. apply Last. rewrite Mp, A. f_equal. f_equal. lia.
  - (* too many digits *)
    unfold binary_round_aux, shr_fexp at 1. cbn [shr_record_of_loc Zdigits2]. fold (dg a). rewrite Da.
    replace (dg p + j + (q - j)) with (dg p + q) by lia. rewrite Fx, N. cbn [shr]. rewrite iter_pos_nat.
    assert (A' : Z.pos a = Z.pos (mant (Z.pos p) p) * 2 ^ Z.of_nat (Pos.to_nat n)).
    { rewrite Mp, A, <- Z.mul_assoc, <- Z.pow_add_r by lia. f_equal. f_equal. lia. }
    rewrite A', shr_exact. cbn [shr_m loc_of_shr_record round_nearest_even].
    replace (q - j + Z.pos n) with (q - (24 - dg p)) by lia. apply Last. reflexivity.
  - (* too few digits *)
    assert (Sh : Z.pos (shift_pos n a) = Z.pos (mant (Z.pos p) p)).
    { rewrite shift_pos_val, Mp, A, <- Z.mul_assoc, <- Z.pow_add_r by lia. f_equal. f_equal. lia. }
    rewrite Sh. unfold binary_round_aux, shr_fexp at 1. cbn [shr_record_of_loc Zdigits2]. fold (dg (mant (Z.pos p) p)). rewrite Dm.
    replace (24 + (q - (24 - dg p))) with (dg p + q) by lia. rewrite Fx, Z.sub_diag. cbn [shr shr_m loc_of_shr_record round_nearest_even].
    apply Last. reflexivity.
Qed.

Lemma scaled_pos q p : Z.pos p < 2 ^ 24 -> -100 <= q <= 70 ->
  f32_scaled q (Z.pos p) = S754_finite false (mant (Z.pos p) p) (q - (24 - dg p)).
Proof. intros P Q. unfold f32_scaled. cbn [binary_normalize]. apply (round_exact p p q 0); auto; lia. Qed.

Lemma mant_val p : Z.pos p < 2 ^ 24 -> Z.pos (mant (Z.pos p) p) = Z.pos p * 2 ^ (24 - dg p).
Proof.
  intros P. pose proof (dg_le p 24 ltac:(lia) P). unfold mant. rewrite Z2Pos.id; [reflexivity|].
  pose proof (Z.pow_pos_nonneg 2 (24 - dg p)). nia.
Qed.

Lemma shl_align_fst m e e' : e' <= e -> Z.pos (fst (shl_align m e e')) = Z.pos m * 2 ^ (e - e').
Proof.
  intros L. unfold shl_align. destruct (e' - e) as [|n|n] eqn:N.
  - replace (e - e') with 0 by lia. cbn [fst]. lia.
  - lia.
  - cbn [fst]. rewrite shift_pos_val. f_equal. f_equal. lia.
Qed.

(** Addition. *)
Lemma f32_add_scaled q a b : 0 <= a -> 0 <= b -> a + b < 2 ^ 24 -> -100 <= q <= 70 ->
  f32_add (f32_scaled q a) (f32_scaled q b) = f32_scaled q (a + b).
Proof.
  intros A B L Q. destruct a as [|a|a]; [|destruct b as [|b|b]|]; try lia.
  - destruct b as [|b|b]; try lia; [reflexivity|]. cbn [Z.add].
    rewrite (scaled_pos q b) by (auto; lia). reflexivity.
  - rewrite Z.add_0_r. rewrite (scaled_pos q a) by (auto; lia). reflexivity.
  - change (Z.pos a + Z.pos b) with (Z.pos (a + b)).
    rewrite (scaled_pos q a), (scaled_pos q b), (scaled_pos q (a + b)) by (auto; lia).
    unfold f32_add, SFadd. cbn [cond_Zopp].
    pose proof (dg_le a 24 ltac:(lia) ltac:(lia)) as Da. pose proof (dg_le b 24 ltac:(lia) ltac:(lia)) as Db.
    pose proof (dg_pos a). pose proof (dg_pos b).
    set (ez := Z.min _ _).
    assert (E : Z.pos (fst (shl_align (mant (Z.pos a) a) (q - (24 - dg a)) ez)) +
                Z.pos (fst (shl_align (mant (Z.pos b) b) (q - (24 - dg b)) ez)) = Z.pos (a + b) * 2 ^ (q - ez)).
    { rewrite !shl_align_fst, !mant_val by (subst ez; lia).
      rewrite <- !Z.mul_assoc, <- !Z.pow_add_r by (subst ez; lia).
      replace (24 - dg a + (q - (24 - dg a) - ez)) with (q - ez) by lia.
      replace (24 - dg b + (q - (24 - dg b) - ez)) with (q - ez) by lia. lia. }
    change (Z.pos (fst (shl_align (mant (Z.pos a) a) (q - (24 - dg a)) ez)) +
            Z.pos (fst (shl_align (mant (Z.pos b) b) (q - (24 - dg b)) ez)))
      with (Z.pos (fst (shl_align (mant (Z.pos a) a) (q - (24 - dg a)) ez) +
                   fst (shl_align (mant (Z.pos b) b) (q - (24 - dg b)) ez))) in *.
    cbn [binary_normalize]. apply (round_exact _ (a + b) q (q - ez)); [subst ez; lia|lia|exact E|lia|exact Q].
Qed.

(** Comparison. *)
Lemma f32_ltb_scaled q a b : 0 <= a < 2 ^ 24 -> 0 <= b < 2 ^ 24 -> -100 <= q <= 70 ->
  f32_ltb (f32_scaled q a) (f32_scaled q b) = (a <? b).
Proof.
  intros A B Q. destruct a as [|a|a]; [| |lia]; (destruct b as [|b|b]; [| |lia]).
  - reflexivity.
  - rewrite (scaled_pos q b) by (auto; lia). reflexivity.
  - rewrite (scaled_pos q a) by (auto; lia). reflexivity.
  - rewrite (scaled_pos q a), (scaled_pos q b) by (auto; lia). unfold f32_ltb, SFltb, SFcompare.
    pose proof (dg_bounds a) as Ba. pose proof (dg_bounds b) as Bb. pose proof (dg_pos a). pose proof (dg_pos b).
    pose proof (mant_val a ltac:(lia)) as Ma. pose proof (mant_val b ltac:(lia)) as Mb.
    destruct (Z.compare_spec (q - (24 - dg a)) (q - (24 - dg b))) as [E|E|E].
    + assert (Ed : dg a = dg b) by lia. rewrite Ed in Ma.
      pose proof (dg_le b 24 ltac:(lia) ltac:(lia)). pose proof (Z.pow_pos_nonneg 2 (24 - dg b) ltac:(lia) ltac:(lia)) as Pw.
      change (Pos.compare_cont Eq (mant (Z.pos a) a) (mant (Z.pos b) b)) with (Pos.compare (mant (Z.pos a) a) (mant (Z.pos b) b)).
      change (Pos.compare (mant (Z.pos a) a) (mant (Z.pos b) b)) with (Z.compare (Z.pos (mant (Z.pos a) a)) (Z.pos (mant (Z.pos b) b))). rewrite Ma, Mb. destruct (Z.compare_spec (Z.pos a * 2 ^ (24 - dg b)) (Z.pos b * 2 ^ (24 - dg b))).
      * symmetry. apply Z.ltb_ge. nia.
      * symmetry. apply Z.ltb_lt. nia.
      * symmetry. apply Z.ltb_ge. nia.
    + symmetry. apply Z.ltb_lt. pose proof (Z.pow_le_mono_r 2 (dg a) (dg b - 1)). lia.
    + symmetry. apply Z.ltb_ge. pose proof (Z.pow_le_mono_r 2 (dg b) (dg a - 1)). lia.
Qed.

(** [z as f32] for small integers, and division of one by a power of two. *)
Lemma f32_of_Z_scaled z : f32_of_Z z = f32_scaled 0 z. Proof. reflexivity. Qed.

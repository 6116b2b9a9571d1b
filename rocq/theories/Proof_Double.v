(** Bounds for the rounding of binary64: products and quotients of normal numbers far from
    overflow and underflow have a relative error of at most 2^-52. *)

From Coq Require Import ZArith QArith Qpower SpecFloat Lia Bool Nat Lqa.
From Verif Require Import Model_Stats Proof_Float.
Local Open Scope Z_scope.

Definition normal_mantissa (m : positive) : Prop := 2 ^ 52 <= Z.pos m < 2 ^ 53.

Lemma shr_1_m r : 0 <= shr_m r -> shr_m (shr_1 r) = shr_m r / 2.
Proof. destruct r as [m b c]. cbn [shr_m]. intros H. destruct m as [|p|p]; [reflexivity| |lia]. cbn [shr_1]. destruct p as [p|p|]; cbn [shr_m]; [| |reflexivity].
  - rewrite Pos2Z.inj_xI. symmetry. replace (2 * Z.pos p + 1) with (1 + Z.pos p * 2) by lia. rewrite Z.div_add by lia. reflexivity.
  - rewrite Pos2Z.inj_xO. symmetry. rewrite Z.mul_comm. apply Z.div_mul. lia.
Qed.
Lemma shr_m_div k : forall r, 0 <= shr_m r -> shr_m (Nat.iter k shr_1 r) = shr_m r / 2 ^ Z.of_nat k.
Proof.
  induction k as [|k IH]; intros r H.
  - cbn [Nat.iter nat_rect]. change (2 ^ Z.of_nat 0) with 1. rewrite Z.div_1_r. reflexivity.
  - change (Nat.iter (S k) shr_1 r) with (shr_1 (Nat.iter k shr_1 r)). rewrite shr_1_m.
    + rewrite IH by assumption. rewrite Z.div_div by (try apply Z.pow_pos_nonneg; lia). f_equal. rewrite Nat2Z.inj_succ, Z.pow_succ_r by lia. lia.
    + rewrite IH by assumption. apply Z.div_pos; [assumption|apply Z.pow_pos_nonneg; lia].
Qed.
Lemma shr_record_m m l : shr_m (shr_record_of_loc m l) = m.
Proof. destruct l as [|[]]; reflexivity. Qed.

(** The second half of rounding: no change, or 2^53 is normalised. *)
Lemma renormalize s m e : 2 ^ 52 <= m <= 2 ^ 53 -> -1000 <= e <= 950 ->
  exists m' j, 0 <= j <= 1 /\ normal_mantissa m' /\ Z.pos m' * 2 ^ j = m /\
    (let '(mrs'', e'') := shr_fexp 53 1024 m e loc_Exact in
     match shr_m mrs'' with
     | 0 => S754_zero s
     | Z.pos m => if Zle_bool e'' (1024 - 53) then S754_finite s m e'' else S754_infinity s
     | _ => S754_nan
     end) = S754_finite s m' (e + j).
Proof.
  intros M E. destruct (Z.eq_dec m (2 ^ 53)) as [->|N].
  - exists (2 ^ 52)%positive, 1. split; [lia|]. split; [split; [reflexivity|reflexivity]|]. split; [reflexivity|].
    unfold shr_fexp. change (Zdigits2 (2 ^ 53)) with 54. unfold fexp, emin. replace (Z.max (54 + e - 53) (3 - 1024 - 53) - e) with 1 by lia.
    cbn [shr shr_record_of_loc iter_pos]. replace (Zle_bool (e + 1) (1024 - 53)) with true by (symmetry; apply Zle_imp_le_bool; lia).
    reflexivity.
  - destruct m as [|m|m]; [lia| |lia]. exists m, 0. split; [lia|]. split; [split; lia|]. split; [lia|].
    unfold shr_fexp. cbn [Zdigits2]. fold (dg m). rewrite (dg_unique m 53) by lia. unfold fexp, emin.
    replace (Z.max (53 + e - 53) (3 - 1024 - 53) - e) with 0 by lia. cbn [shr shr_record_of_loc shr_m].
    replace (Zle_bool e (1024 - 53)) with true by (symmetry; apply Zle_imp_le_bool; lia). rewrite Z.add_0_r. reflexivity.
Qed.

Lemma round_normal s mz ez lz : 2 ^ 52 <= mz < 2 ^ 110 -> -900 <= ez <= 800 ->
  exists m j, 0 <= j <= 58 /\ normal_mantissa m /\ binary_round_aux 53 1024 s mz ez lz = S754_finite s m (ez + j) /\
    Z.pos m * 2 ^ j * 2 ^ 52 <= mz * (2 ^ 52 + 1) /\ (mz + 1) * 2 ^ 52 <= Z.pos m * 2 ^ j * 2 ^ 52 + mz.
Proof.
  intros M E. destruct mz as [|z|z]; [lia| |lia].
  pose proof (dg_bounds z) as B.
  assert (D1 : 53 <= dg z).
  { destruct (Z.le_gt_cases 53 (dg z)) as [L|L]; [exact L|]. pose proof (Z.pow_le_mono_r 2 (dg z) 52). lia. }
  assert (D2 : dg z <= 110) by (apply dg_le; lia).
  set (k := dg z - 53) in *.
  assert (P : 0 < 2 ^ k) by (apply Z.pow_pos_nonneg; lia).
  unfold binary_round_aux, shr_fexp at 1. cbn [Zdigits2]. fold (dg z).
  replace (fexp 53 1024 (dg z + ez) - ez) with k by (unfold fexp, emin, k; lia).
  assert (Sh : exists r, shr (shr_record_of_loc (Z.pos z) lz) ez k = (r, ez + k) /\ shr_m r = Z.pos z / 2 ^ k).
  { destruct k as [|p|p] eqn:K; cbn [shr].
    - exists (shr_record_of_loc (Z.pos z) lz). split; [f_equal; lia|]. rewrite shr_record_m. change (2 ^ 0) with 1. rewrite Z.div_1_r. reflexivity.
    - eexists. split; [reflexivity|]. rewrite iter_pos_nat, shr_m_div by (rewrite shr_record_m; lia). rewrite shr_record_m, positive_nat_Z. reflexivity.
    - lia. }
  destruct Sh as (r & -> & R).
  set (m0 := Z.pos z / 2 ^ k) in *.
  assert (Q1 : m0 * 2 ^ k <= Z.pos z < (m0 + 1) * 2 ^ k).
  { pose proof (Z.div_mod (Z.pos z) (2 ^ k) ltac:(lia)). pose proof (Z.mod_pos_bound (Z.pos z) (2 ^ k) P). unfold m0. lia. }
  assert (Q2 : 2 ^ 52 <= m0 < 2 ^ 53).
  { replace (dg z - 1) with (52 + k) in B by (unfold k; lia). replace (dg z) with (53 + k) in B by (unfold k; lia).
    rewrite !Z.pow_add_r in B by lia. split; [apply Z.div_le_lower_bound; lia|apply Z.div_lt_upper_bound; lia]. }
  rewrite R. set (m1 := round_nearest_even m0 (loc_of_shr_record r)).
  assert (Q3 : m1 = m0 \/ m1 = m0 + 1).
  { unfold m1, round_nearest_even. destruct (loc_of_shr_record r) as [|[]]; auto. destruct (Z.even m0); auto. }
  destruct (renormalize s m1 (ez + k)) as (m & j & J & Nm & V & ->); [lia|lia|].
  exists m, (k + j). split; [lia|]. split; [exact Nm|]. split; [rewrite Z.add_assoc; reflexivity|].
  rewrite (Z.add_comm k j), Z.pow_add_r by lia. rewrite Z.mul_assoc, V. clear V.
  split.
  - apply Z.le_trans with (m0 * 2 ^ k * (2 ^ 52 + 1)); [|apply Z.mul_le_mono_nonneg_r; lia].
    assert (2 ^ k * 2 ^ 52 <= m0 * 2 ^ k) by nia. destruct Q3 as [-> | ->]; nia.
  - assert (2 ^ k * 2 ^ 52 <= m0 * 2 ^ k) by nia. destruct Q3 as [-> | ->]; nia.
Qed.

(** ** Values *)

Definition val (m : positive) (e : Z) : Q := inject_Z (Z.pos m) * Qpower 2 e.

Lemma two_pow_pos e : (0 < Qpower 2 e)%Q.
Proof. apply Qpower_0_lt. reflexivity. Qed.
Lemma two_pow_add a b : (Qpower 2 (a + b) == Qpower 2 a * Qpower 2 b)%Q.
Proof. apply Qpower_plus. discriminate. Qed.
Lemma two_pow_Z n : 0 <= n -> (inject_Z (2 ^ n) == Qpower 2 n)%Q.
Proof. intros H. apply Zpower_Qpower. exact H. Qed.
Lemma val_pos m e : (0 < val m e)%Q.
Proof. unfold val. pose proof (two_pow_pos e). assert (0 < inject_Z (Z.pos m))%Q by reflexivity. apply Qmult_lt_0_compat; assumption. Qed.

(** ** Integers below 2^53 are exact *)

Lemma of_Z_exact p : Z.pos p < 2 ^ 53 -> exists m e, normal_mantissa m /\ -52 <= e <= 0 /\
  f64_of_Z (Z.pos p) = S754_finite false m e /\ f64_of_Z (Z.neg p) = S754_finite true m e /\ (val m e == inject_Z (Z.pos p))%Q.
Proof.
  intros L. pose proof (dg_le p 53 ltac:(lia) L) as D. pose proof (dg_pos p) as D0. pose proof (dg_bounds p) as B.
  assert (Sh : exists m, Z.pos m = Z.pos p * 2 ^ (53 - dg p) /\ shl_align p 0 (fexp 53 1024 (Z.pos (digits2_pos p) + 0)) = (m, dg p - 53)).
  { fold (dg p). unfold shl_align, fexp, emin. replace (Z.max (dg p + 0 - 53) (3 - 1024 - 53) - 0) with (dg p - 53) by lia.
    destruct (dg p - 53) as [|d|d] eqn:K; [|lia|].
    - exists p. replace (53 - dg p) with 0 by lia. split; [lia|f_equal; lia].
    - exists (shift_pos d p). replace (53 - dg p) with (Z.pos d) by lia. split; [apply shift_pos_val|f_equal; lia]. }
  destruct Sh as (m & M & Sh).
  assert (Nm : normal_mantissa m).
  { unfold normal_mantissa. rewrite M. replace (2 ^ 52) with (2 ^ (dg p - 1) * 2 ^ (53 - dg p)) by (rewrite <- Z.pow_add_r by lia; f_equal; lia).
    replace (2 ^ 53) with (2 ^ dg p * 2 ^ (53 - dg p)) by (rewrite <- Z.pow_add_r by lia; f_equal; lia).
    pose proof (Z.pow_pos_nonneg 2 (53 - dg p)). nia. }
  assert (R : forall s, binary_round_aux 53 1024 s (Z.pos m) (dg p - 53) loc_Exact = S754_finite s m (dg p - 53)).
  { intros s. unfold binary_round_aux, shr_fexp at 1. cbn [Zdigits2]. fold (dg m). rewrite (dg_unique m 53) by (unfold normal_mantissa in Nm; lia).
    unfold fexp at 1, emin. replace (Z.max (53 + (dg p - 53) - 53) (3 - 1024 - 53) - (dg p - 53)) with 0 by lia.
    cbn [shr shr_record_of_loc shr_m loc_of_shr_record round_nearest_even].
    destruct (renormalize s (Z.pos m) (dg p - 53)) as (m' & j & J & Nm' & V & ->); [unfold normal_mantissa in Nm; lia|lia|].
    assert (j = 0) as -> by (destruct (Z.eq_dec j 0); [assumption|]; assert (j = 1) as -> by lia; unfold normal_mantissa in *; lia).
    change (2 ^ 0) with 1 in V. rewrite Z.add_0_r. do 2 f_equal. lia. }
  exists m, (dg p - 53). split; [exact Nm|]. split; [lia|].
  unfold f64_of_Z. cbn [binary_normalize]. unfold binary_round. rewrite Sh. rewrite !R. split; [reflexivity|]. split; [reflexivity|].
  unfold val. rewrite M, inject_Z_mult, two_pow_Z by lia. rewrite <- Qmult_assoc, <- two_pow_add.
  replace (53 - dg p + (dg p - 53)) with 0 by lia. cbn. ring.
Qed.

(** ** Products and quotients *)

Definition u : Q := inject_Z (2 ^ 52).

Lemma mul_normal sx mx ex sy my ey : normal_mantissa mx -> normal_mantissa my -> -400 <= ex <= 300 -> -400 <= ey <= 300 ->
  exists m e, f64_mul (S754_finite sx mx ex) (S754_finite sy my ey) = S754_finite (xorb sx sy) m e /\ normal_mantissa m /\
    ex + ey <= e <= ex + ey + 58 /\ (val mx ex * val my ey * (u - 1) <= val m e * u)%Q /\ (val m e * u <= val mx ex * val my ey * (u + 1))%Q.
Proof.
  intros [X1 X2] [Y1 Y2] Ex Ey. unfold f64_mul. cbn [SFmul].
  destruct (round_normal (xorb sx sy) (Z.pos (mx * my)) (ex + ey) loc_Exact) as (m & j & J & Nm & -> & U & L).
  { rewrite Pos2Z.inj_mul. change (2 ^ 110) with (2 ^ 53 * 2 ^ 57). nia. }
  { lia. }
  exists m, (ex + ey + j). split; [reflexivity|]. split; [exact Nm|]. split; [lia|].
  assert (K : Z.pos mx * Z.pos my * (2 ^ 52 - 1) <= Z.pos m * 2 ^ j * 2 ^ 52) by (rewrite Pos2Z.inj_mul in L; lia).
  rewrite Pos2Z.inj_mul in U.
  rewrite Zle_Qle in K, U. unfold Zminus in K. rewrite !inject_Z_mult, inject_Z_plus in K, U. fold u in K, U.
  assert (J' : (inject_Z (2 ^ j) == 2 ^ j)%Q) by (apply two_pow_Z; lia). rewrite J' in K, U. change (inject_Z (-(1))) with (-1)%Q in K.
  change (inject_Z 1) with 1%Q in U.
  unfold val. rewrite two_pow_add. pose proof (two_pow_pos (ex + ey)) as P. rewrite two_pow_add in P |- *.
  set (a := (2 ^ ex)%Q) in *. set (b := (2 ^ ey)%Q) in *. set (c := (2 ^ j)%Q) in *.
  apply (Qmult_le_compat_r _ _ (a * b)) in K; [|apply Qlt_le_weak, P]. apply (Qmult_le_compat_r _ _ (a * b)) in U; [|apply Qlt_le_weak, P].
  setoid_replace (inject_Z (Z.pos mx) * a * (inject_Z (Z.pos my) * b) * (u + 1))%Q with (inject_Z (Z.pos mx) * inject_Z (Z.pos my) * (u + 1) * (a * b))%Q by ring.
  setoid_replace (inject_Z (Z.pos mx) * a * (inject_Z (Z.pos my) * b) * (u - 1))%Q with (inject_Z (Z.pos mx) * inject_Z (Z.pos my) * (u + -1) * (a * b))%Q by ring.
  setoid_replace (inject_Z (Z.pos m) * (a * b * c) * u)%Q with (inject_Z (Z.pos m) * c * u * (a * b))%Q by ring. split; [exact K|exact U].
Qed.

Lemma div_normal sx mx ex sy my ey : normal_mantissa mx -> normal_mantissa my -> -400 <= ex <= 300 -> -400 <= ey <= 300 ->
  exists m e, f64_div (S754_finite sx mx ex) (S754_finite sy my ey) = S754_finite (xorb sx sy) m e /\ normal_mantissa m /\
    ex - ey - 53 <= e <= ex - ey + 5 /\
    (val mx ex * (u - 1) <= val m e * val my ey * u)%Q /\ (val m e * val my ey * u <= val mx ex * (u + 1))%Q.
Proof.
  intros [X1 X2] [Y1 Y2] Ex Ey. unfold f64_div. cbn [SFdiv]. unfold SFdiv_core_binary. cbn [Zdigits2]. fold (dg mx) (dg my).
  rewrite (dg_unique mx 53), (dg_unique my 53) by lia. unfold fexp, emin.
  replace (Z.min (Z.max (53 + ex - (53 + ey) - 53) (3 - 1024 - 53)) (ex - ey)) with (ex - ey - 53) by lia.
  replace (ex - ey - (ex - ey - 53)) with 53 by lia. rewrite Z.shiftl_mul_pow2 by lia.
  pose proof (Z_div_mod (Z.pos mx * 2 ^ 53) (Z.pos my) ltac:(lia)) as DM.
  destruct (Z.div_eucl (Z.pos mx * 2 ^ 53) (Z.pos my)) as [q r]. destruct DM as [DM R].
  assert (Q1 : 2 ^ 52 <= q) by nia. assert (Q2 : q < 2 ^ 110) by (change (2 ^ 110) with (2 ^ 53 * 2 ^ 57); nia).
  destruct (round_normal (xorb sx sy) q (ex - ey - 53) (new_location (Z.pos my) r)) as (m & j & J & Nm & E & U & L); [lia|lia|].
  rewrite E. exists m, (ex - ey - 53 + j). split; [reflexivity|]. split; [exact Nm|]. split; [lia|].
  assert (K1 : Z.pos mx * 2 ^ 53 * (2 ^ 52 - 1) <= Z.pos m * 2 ^ j * Z.pos my * 2 ^ 52).
  { apply Z.le_trans with ((q + 1) * Z.pos my * (2 ^ 52 - 1)); [apply Z.mul_le_mono_nonneg_r; lia|].
    apply Z.le_trans with (Z.pos my * ((q + 1) * (2 ^ 52 - 1))); [lia|].
    apply Z.le_trans with (Z.pos my * (Z.pos m * 2 ^ j * 2 ^ 52)); [apply Z.mul_le_mono_nonneg_l; lia|lia]. }
  assert (K2 : Z.pos m * 2 ^ j * Z.pos my * 2 ^ 52 <= Z.pos mx * 2 ^ 53 * (2 ^ 52 + 1)).
  { apply Z.le_trans with (Z.pos my * (q * (2 ^ 52 + 1))).
    - apply Z.le_trans with (Z.pos my * (Z.pos m * 2 ^ j * 2 ^ 52)); [lia|apply Z.mul_le_mono_nonneg_l; lia].
    - rewrite Z.mul_assoc. apply Z.mul_le_mono_nonneg_r; lia. }
  rewrite Zle_Qle in K1, K2. unfold Zminus in K1. rewrite !inject_Z_mult, inject_Z_plus in K1.
  rewrite !inject_Z_mult, inject_Z_plus in K2. fold u in K1, K2. change (inject_Z (-(1))) with (-1)%Q in K1. change (inject_Z 1) with 1%Q in K2.
  assert (J' : (inject_Z (2 ^ j) == 2 ^ j)%Q) by (apply two_pow_Z; lia). rewrite ?J' in K1, K2.
  assert (F : (inject_Z (2 ^ 53) == 2 ^ 53)%Q) by (apply two_pow_Z; lia). rewrite ?F in K1, K2.
  unfold val. rewrite two_pow_add. pose proof (two_pow_pos (ex - 53)) as P.
  assert (V : (2 ^ (ex - ey - 53) * 2 ^ ey == 2 ^ (ex - 53))%Q) by (rewrite <- two_pow_add; replace (ex - ey - 53 + ey) with (ex - 53) by lia; reflexivity).
  assert (W : (2 ^ ex == 2 ^ 53 * 2 ^ (ex - 53))%Q) by (rewrite <- two_pow_add; replace (53 + (ex - 53)) with ex by lia; reflexivity).
  rewrite W.
  set (a := (2 ^ (ex - 53))%Q) in *. set (b := (2 ^ ey)%Q) in *. set (c := (2 ^ j)%Q) in *. set (d := (2 ^ 53)%Q) in *. set (f := (2 ^ (ex - ey - 53))%Q) in *.
  assert (T : (inject_Z (Z.pos m) * (f * c) * (inject_Z (Z.pos my) * b) * u == inject_Z (Z.pos m) * c * inject_Z (Z.pos my) * u * a)%Q)
    by (rewrite <- V; ring).
  rewrite T. split.
  - apply (Qmult_le_compat_r _ _ a) in K1; [|apply Qlt_le_weak, P].
    setoid_replace (inject_Z (Z.pos mx) * (d * a) * (u - 1))%Q with (inject_Z (Z.pos mx) * d * (u + -1) * a)%Q by ring. exact K1.
  - apply (Qmult_le_compat_r _ _ a) in K2; [|apply Qlt_le_weak, P].
    setoid_replace (inject_Z (Z.pos mx) * (d * a) * (u + 1))%Q with (inject_Z (Z.pos mx) * d * (u + 1) * a)%Q by ring. exact K2.
Qed.

(** C66: progress reports do not disturb the table builder. *)

From Coq Require Import List Bool Arith NArith ZArith QArith Qabs Qpower SpecFloat Lia Lqa ZifyBool ZifyN ZifyNat.
From Verif Require Import Model_Base Model_Moves Model_Mus Model_Cache Model_Stats Proof_Float Proof_Double Proof_Mus Proof_Cache Prop_Cache.
Import ListNotations.
Local Open Scope Z_scope.

(** The number of milliseconds in three years of 365 days. *)
Definition three_years : Z := 3 * 365 * 24 * 60 * 60 * 1000.
Definition limit : Z := 10 ^ 11.
Lemma three_years_limit : three_years <= limit. Proof. vm_compute. discriminate. Qed.

Lemma amount_le cache : (N.to_nat (amount_cached cache) <= length cache)%nat.
Proof. unfold amount_cached. rewrite Nat2N.id. induction cache as [|x r IH]; cbn; [lia|]. destruct (entry_get x); cbn; lia. Qed.

(** ** The figures of a report *)

(** The value of a double (0 for the ones that are not numbers). *)
Definition double_value (x : spec_float) : Q :=
  match x with
  | S754_finite s m e => (if s then -1 else 1) * (inject_Z (Z.pos m) * Qpower 2 e)
  | _ => 0
  end.

(** [r] is [q] up to a relative error of 2^-49. *)
Definition nearly (r q : Q) : Prop := (Qabs (r - q) <= q / inject_Z (2 ^ 49))%Q.

Lemma nearly_of k r q : (0 <= k <= 8)%Q -> (0 <= q)%Q -> (q * (u - k) <= r * u)%Q -> (r * u <= q * (u + k))%Q -> nearly r q.
Proof.
  intros K Q0 L U. unfold nearly. apply Qabs_Qle_condition.
  assert (Q8 : (q * k <= q * 8)%Q) by (rewrite !(Qmult_comm q); apply Qmult_le_compat_r; [apply K|exact Q0]).
  assert (D : (q / inject_Z (2 ^ 49) == q * 8 / u)%Q).
  { unfold Qdiv. rewrite <- Qmult_assoc. apply Qmult_comp; reflexivity. }
  assert (P : (0 < u)%Q) by reflexivity. rewrite D. split.
  - apply (Qmult_le_r _ _ u P). setoid_replace (- (q * 8 / u) * u)%Q with (- (q * 8))%Q by (field; discriminate). lra.
  - apply (Qmult_le_r _ _ u P). setoid_replace (q * 8 / u * u)%Q with (q * 8)%Q by (field; discriminate). lra.
Qed.

Lemma truncated s m e : exists n, (inject_Z n <= val m e)%Q /\ (val m e < inject_Z n + 1)%Q /\
  f64_to_i64 (S754_finite s m e) = if s then Z.max (- i64_max - 1) (- n) else Z.min i64_max n.
Proof.
  cbn [f64_to_i64]. set (a := if 0 <=? e then Z.pos m * 2 ^ e else Z.pos m / 2 ^ (- e)).
  assert (A : (inject_Z a <= val m e)%Q /\ (val m e < inject_Z a + 1)%Q).
  { unfold a, val. destruct (Z.leb_spec 0 e) as [L|L].
    - rewrite inject_Z_mult, two_pow_Z by assumption. split; [apply Qle_refl|]. lra.
    - assert (P : 0 < 2 ^ (- e)) by (apply Z.pow_pos_nonneg; lia).
      pose proof (Z.div_mod (Z.pos m) (2 ^ (- e)) ltac:(lia)) as D. pose proof (Z.mod_pos_bound (Z.pos m) (2 ^ (- e)) P) as R.
      assert (K1 : 2 ^ (- e) * (Z.pos m / 2 ^ (- e)) <= Z.pos m) by lia.
      assert (K2 : Z.pos m < 2 ^ (- e) * (Z.pos m / 2 ^ (- e) + 1)) by lia. clear D R.
      set (d := Z.pos m / 2 ^ (- e)) in *. clearbody d. rewrite Zle_Qle in K1. rewrite Zlt_Qlt in K2.
      rewrite inject_Z_mult, two_pow_Z in K1 by lia. rewrite inject_Z_mult, inject_Z_plus, two_pow_Z in K2 by lia.
      pose proof (two_pow_pos (- e)) as P2. pose proof (two_pow_pos e) as P3.
      assert (V : (2 ^ e * 2 ^ (- e) == 1)%Q) by (rewrite <- two_pow_add; replace (e + - e) with 0 by lia; reflexivity).
      change (inject_Z 1) with 1%Q in K2. set (c := (2 ^ (- e))%Q) in *. set (b := (2 ^ e)%Q) in *. split.
      + apply (Qmult_le_r _ _ c P2). rewrite <- Qmult_assoc, V. lra.
      + apply (Qmult_lt_r _ _ c P2). rewrite <- Qmult_assoc, V. lra. }
  exists a. split; [apply A|]. split; [apply A|reflexivity].
Qed.

Definition signed (s : bool) (p : positive) : Z := if s then Z.neg p else Z.pos p.
Lemma div_near (A B : positive) s : Z.pos A < 2 ^ 53 -> Z.pos B < 2 ^ 53 ->
  exists m e, f64_div (f64_of_Z (Z.pos A)) (f64_of_Z (signed s B)) = S754_finite s m e /\ normal_mantissa m /\ -105 <= e <= 57 /\
    (inject_Z (Z.pos A) * (u - 1) <= val m e * inject_Z (Z.pos B) * u)%Q /\ (val m e * inject_Z (Z.pos B) * u <= inject_Z (Z.pos A) * (u + 1))%Q.
Proof.
  intros HA HB. destruct (of_Z_exact A HA) as (ma & ea & Na & Ra & Fa & _ & Va). destruct (of_Z_exact B HB) as (mb & eb & Nb & Rb & Fb & Fn & Vb).
  assert (F : f64_of_Z (signed s B) = S754_finite s mb eb) by (destruct s; [exact Fn|exact Fb]). rewrite Fa, F.
  destruct (div_normal false ma ea s mb eb Na Nb ltac:(lia) ltac:(lia)) as (m & e & E & N & R & L & U).
  exists m, e. rewrite Va, Vb in L, U. split; [rewrite E, xorb_false_l; reflexivity|]. split; [exact N|]. split; [lia|]. split; assumption.
Qed.

Lemma quotient_near m e A B : (inject_Z (Z.pos A) * (u - 1) <= val m e * inject_Z (Z.pos B) * u)%Q -> (val m e * inject_Z (Z.pos B) * u <= inject_Z (Z.pos A) * (u + 1))%Q ->
  (inject_Z (Z.pos A) / inject_Z (Z.pos B) * (u - 1) <= val m e * u)%Q /\ (val m e * u <= inject_Z (Z.pos A) / inject_Z (Z.pos B) * (u + 1))%Q.
Proof.
  intros L U. assert (P : (0 < inject_Z (Z.pos B))%Q) by reflexivity. set (a := inject_Z (Z.pos A)) in *. set (b := inject_Z (Z.pos B)) in *.
  assert (N : ~ (b == 0)%Q) by (intros Z; rewrite Z in P; discriminate P).
  split; apply (Qmult_le_r _ _ b P).
  - setoid_replace (a / b * (u - 1) * b)%Q with (a * (u - 1))%Q by (field; exact N). setoid_replace (val m e * u * b)%Q with (val m e * b * u)%Q by ring. exact L.
  - setoid_replace (a / b * (u + 1) * b)%Q with (a * (u + 1))%Q by (field; exact N). setoid_replace (val m e * u * b)%Q with (val m e * b * u)%Q by ring. exact U.
Qed.

Lemma scaled_near (A E C : positive) s : Z.pos A < 2 ^ 53 -> Z.pos E < 2 ^ 53 -> Z.pos C < 2 ^ 53 ->
  let rate := (inject_Z (Z.pos C) * (inject_Z (Z.pos A) / inject_Z (Z.pos E)))%Q in
  exists m e, f64_mul (f64_div (f64_of_Z (Z.pos A)) (f64_of_Z (signed s E))) (f64_of_Z (Z.pos C)) = S754_finite s m e /\ normal_mantissa m /\ -157 <= e <= 115 /\
    (rate * (u - 3) <= val m e * u)%Q /\ (val m e * u <= rate * (u + 3))%Q.
Proof.
  intros HA HE HC rate. destruct (of_Z_exact C HC) as (mc & ec & Nc & Rc & Fc & _ & Vc). rewrite Fc.
  destruct (div_near A E s ltac:(lia) ltac:(lia)) as (m1 & e1 & -> & N1 & R1 & L1 & U1). destruct (quotient_near _ _ _ _ L1 U1) as [L2 U2].
  destruct (mul_normal s m1 e1 false mc ec N1 Nc ltac:(lia) ltac:(lia)) as (m2 & e2 & -> & N2 & R2 & L3 & U3).
  exists m2, e2. split; [rewrite xorb_false_r; reflexivity|]. split; [exact N2|]. split; [lia|]. rewrite Vc in L3, U3.
  assert (PC : (0 < inject_Z (Z.pos C))%Q) by reflexivity.
  assert (P : (0 < inject_Z (Z.pos A) / inject_Z (Z.pos E))%Q) by (apply Qlt_shift_div_l; [reflexivity|]; rewrite Qmult_0_l; reflexivity).
  unfold rate. clear rate. set (c := inject_Z (Z.pos C)) in *. set (q := (inject_Z (Z.pos A) / inject_Z (Z.pos E))%Q) in *. clearbody q.
  set (x := val m1 e1) in *. set (y := val m2 e2) in *. clearbody x y c. clear - L2 U2 L3 U3 P PC. assert (PCQ : (0 <= q * c)%Q) by (apply Qlt_le_weak, Qmult_lt_0_compat; assumption).
  assert (PU : (0 < u)%Q) by reflexivity. assert (U0 : (0 <= u - 1)%Q) by discriminate. assert (U9 : (0 <= u + 1)%Q) by discriminate.
  split; apply (Qmult_le_r _ _ u PU).
  - apply Qle_trans with (c * (q * (u - 1) * (u - 1)))%Q.
    + apply Qle_trans with (q * c * ((u - 3) * u))%Q; [apply Qle_lteq; right; ring|].
      apply Qle_trans with (q * c * ((u - 1) * (u - 1)))%Q; [|apply Qle_lteq; right; ring].
      rewrite !(Qmult_comm (q * c)). apply Qmult_le_compat_r; [discriminate|exact PCQ].
    + apply Qle_trans with (c * (x * u * (u - 1)))%Q.
      * rewrite !(Qmult_comm c). apply Qmult_le_compat_r; [|apply Qlt_le_weak, PC]. apply Qmult_le_compat_r; [exact L2|exact U0].
      * pose proof (Qmult_le_compat_r _ _ u L3 (Qlt_le_weak _ _ PU)) as K.
        setoid_replace (c * (x * u * (u - 1)))%Q with (x * c * (u - 1) * u)%Q by ring. exact K.
  - apply Qle_trans with (c * (q * (u + 1) * (u + 1)))%Q.
    + apply Qle_trans with (c * (x * u * (u + 1)))%Q.
      * pose proof (Qmult_le_compat_r _ _ u U3 (Qlt_le_weak _ _ PU)) as K.
        setoid_replace (c * (x * u * (u + 1)))%Q with (x * c * (u + 1) * u)%Q by ring. exact K.
      * rewrite !(Qmult_comm c). apply Qmult_le_compat_r; [|apply Qlt_le_weak, PC]. apply Qmult_le_compat_r; [exact U2|exact U9].
    + apply Qle_trans with (q * c * ((u + 1) * (u + 1)))%Q; [apply Qle_lteq; right; ring|].
      apply Qle_trans with (q * c * ((u + 3) * u))%Q; [|apply Qle_lteq; right; ring].
      rewrite !(Qmult_comm (q * c)). apply Qmult_le_compat_r; [discriminate|exact PCQ].
Qed.

Lemma rate_near (A E : positive) s : Z.pos A < 2 ^ 53 -> Z.pos E < 2 ^ 53 ->
  let rate := (inject_Z (Z.pos A) / (inject_Z (Z.pos E) / 1000))%Q in
  exists m e, f64_mul (f64_div (f64_of_Z (Z.pos A)) (f64_of_Z (signed s E))) (f64_of_Z 1000) = S754_finite s m e /\ normal_mantissa m /\ -157 <= e <= 115 /\
    (rate * (u - 3) <= val m e * u)%Q /\ (val m e * u <= rate * (u + 3))%Q.
Proof.
  intros HA HE rate. destruct (scaled_near A E 1000 s HA HE ltac:(lia)) as (m & e & D & N & R & L & U). exists m, e.
  assert (Q : (rate == inject_Z 1000 * (inject_Z (Z.pos A) / inject_Z (Z.pos E)))%Q) by (unfold rate; change (inject_Z 1000) with 1000%Q; field; discriminate).
  rewrite Q. repeat split; try assumption; try apply N; lia.
Qed.

Lemma left_near (A E L : positive) s : Z.pos A < 2 ^ 53 -> Z.pos E < 2 ^ 53 -> Z.pos L < 2 ^ 53 ->
  let rate := (inject_Z (Z.pos A) / (inject_Z (Z.pos E) / 1000))%Q in
  exists m e, f64_div (f64_of_Z (Z.pos L)) (f64_mul (f64_div (f64_of_Z (Z.pos A)) (f64_of_Z (signed s E))) (f64_of_Z 1000)) = S754_finite s m e /\
    (inject_Z (Z.pos L) / rate * (u - 5) <= val m e * u)%Q /\ (val m e * u <= inject_Z (Z.pos L) / rate * (u + 5))%Q.
Proof.
  intros HA HE HL rate. destruct (rate_near A E s HA HE) as (m2 & e2 & -> & N2 & R2 & L3 & U3). fold rate in L3, U3.
  assert (PR : (0 < rate)%Q) by (apply Qlt_shift_div_l; [apply Qlt_shift_div_l; reflexivity|rewrite Qmult_0_l; reflexivity]).
  destruct (of_Z_exact L ltac:(lia)) as (ml & el & Nl & Rl & -> & _ & Vl).
  destruct (div_normal false ml el s m2 e2 Nl N2 ltac:(lia) ltac:(lia)) as (m3 & e3 & -> & N3 & R3 & L4 & U4).
  exists m3, e3. split; [destruct s; reflexivity|]. rewrite Vl in L4, U4. pose proof (val_pos m2 e2) as P2. pose proof (val_pos m3 e3) as P3.
  assert (PL : (0 < inject_Z (Z.pos L))%Q) by reflexivity. clear - L3 U3 L4 U4 P2 P3 PL PR.
  set (y := val m2 e2) in *. set (z := val m3 e3) in *. set (l := inject_Z (Z.pos L)) in *. clearbody rate y z l. clear L.
  assert (PU : (0 < u)%Q) by reflexivity. assert (NR : ~ (rate == 0)%Q) by (intros K; rewrite K in PR; discriminate PR).
  split.
  - apply (Qmult_le_r _ _ rate PR). setoid_replace (l / rate * (u - 5) * rate)%Q with (l * (u - 5))%Q by (field; exact NR).
    apply (Qmult_le_r _ _ (u + 3)); [reflexivity|].
    apply Qle_trans with (l * (u - 1) * u)%Q.
    { apply Qle_trans with (l * ((u - 5) * (u + 3)))%Q; [apply Qle_lteq; right; ring|].
      apply Qle_trans with (l * ((u - 1) * u))%Q; [|apply Qle_lteq; right; ring].
      rewrite !(Qmult_comm l). apply Qmult_le_compat_r; [discriminate|apply Qlt_le_weak, PL]. }
    apply Qle_trans with (z * y * u * u)%Q; [apply Qmult_le_compat_r; [exact L4|apply Qlt_le_weak, PU]|].
    setoid_replace (z * y * u * u)%Q with (y * u * (z * u))%Q by ring.
    setoid_replace (z * u * rate * (u + 3))%Q with (rate * (u + 3) * (z * u))%Q by ring.
    apply Qmult_le_compat_r; [exact U3|]. apply Qlt_le_weak, Qmult_lt_0_compat; assumption.
  - apply (Qmult_le_r _ _ rate PR). setoid_replace (l / rate * (u + 5) * rate)%Q with (l * (u + 5))%Q by (field; exact NR).
    apply (Qmult_le_r _ _ (u - 3)); [reflexivity|].
    apply Qle_trans with (l * (u + 1) * u)%Q.
    2:{ apply Qle_trans with (l * ((u + 1) * u))%Q; [apply Qle_lteq; right; ring|].
      apply Qle_trans with (l * ((u + 5) * (u - 3)))%Q; [|apply Qle_lteq; right; ring].
      rewrite !(Qmult_comm l). apply Qmult_le_compat_r; [discriminate|apply Qlt_le_weak, PL]. }
    apply Qle_trans with (z * y * u * u)%Q; [|apply Qmult_le_compat_r; [exact U4|apply Qlt_le_weak, PU]].
    setoid_replace (z * y * u * u)%Q with (y * u * (z * u))%Q by ring.
    setoid_replace (z * u * rate * (u - 3))%Q with (rate * (u - 3) * (z * u))%Q by ring.
    apply Qmult_le_compat_r; [exact L3|]. apply Qlt_le_weak, Qmult_lt_0_compat; assumption.
Qed.

(** The share of the report that can fail: the number of seconds left is the number of states
    left times the time that has passed over the number of states done, and it is reported if
    and only if it is a [Duration]. *)
Lemma left_amount (L E A : positive) : (inject_Z (Z.pos L) / (inject_Z (Z.pos A) / (inject_Z (Z.pos E) / 1000)) == inject_Z (Z.pos L * Z.pos E) / inject_Z (1000 * Z.pos A))%Q.
Proof. rewrite !inject_Z_mult. change (inject_Z 1000) with 1000%Q. field. repeat split; discriminate. Qed.

Lemma below m e (L E A : positive) : (val m e * u <= inject_Z (Z.pos L * Z.pos E) / inject_Z (1000 * Z.pos A) * (u + 5))%Q ->
  Z.pos L * Z.pos E <= (2 ^ 63 - 20000) * Z.pos A -> (val m e < inject_Z (i64_max / 1000) + 1)%Q.
Proof.
  intros U B. assert (PU : (0 < u)%Q) by reflexivity. apply (Qmult_lt_r _ _ u PU). apply Qle_lt_trans with (1 := U).
  assert (P : (0 < inject_Z (1000 * Z.pos A))%Q) by reflexivity. apply (Qmult_lt_r _ _ _ P).
  setoid_replace (inject_Z (Z.pos L * Z.pos E) / inject_Z (1000 * Z.pos A) * (u + 5) * inject_Z (1000 * Z.pos A))%Q
    with (inject_Z (Z.pos L * Z.pos E) * (u + 5))%Q by (field; intros K; rewrite K in P; discriminate P).
  change (u + 5)%Q with (inject_Z (2 ^ 52 + 5)). change ((inject_Z (i64_max / 1000) + 1) * u)%Q with (inject_Z ((i64_max / 1000 + 1) * 2 ^ 52)).
  rewrite <- !inject_Z_mult, <- Zlt_Qlt. apply Z.le_lt_trans with ((2 ^ 63 - 20000) * Z.pos A * (2 ^ 52 + 5)); [apply Z.mul_le_mono_nonneg_r; lia|].
  change (i64_max / 1000 + 1) with 9223372036854776. lia.
Qed.
Lemma above m e (L E A : positive) : (inject_Z (Z.pos L * Z.pos E) / inject_Z (1000 * Z.pos A) * (u - 5) <= val m e * u)%Q ->
  (2 ^ 63 + 20000) * Z.pos A <= Z.pos L * Z.pos E -> (inject_Z (i64_max / 1000) + 1 <= val m e)%Q.
Proof.
  intros U B. assert (PU : (0 < u)%Q) by reflexivity. apply (Qmult_le_r _ _ u PU). apply Qle_trans with (2 := U).
  assert (P : (0 < inject_Z (1000 * Z.pos A))%Q) by reflexivity. apply (Qmult_le_r _ _ _ P).
  setoid_replace (inject_Z (Z.pos L * Z.pos E) / inject_Z (1000 * Z.pos A) * (u - 5) * inject_Z (1000 * Z.pos A))%Q
    with (inject_Z (Z.pos L * Z.pos E) * (u - 5))%Q by (field; intros K; rewrite K in P; discriminate P).
  change (u - 5)%Q with (inject_Z (2 ^ 52 - 5)). change ((inject_Z (i64_max / 1000) + 1) * u)%Q with (inject_Z ((i64_max / 1000 + 1) * 2 ^ 52)).
  rewrite <- !inject_Z_mult, <- Zle_Qle. apply Z.le_trans with ((2 ^ 63 + 20000) * Z.pos A * (2 ^ 52 - 5)); [|apply Z.mul_le_mono_nonneg_r; lia].
  change (i64_max / 1000 + 1) with 9223372036854776. lia.
Qed.

Lemma amount_filled cache : Z.of_N (amount_cached cache) = Z.of_nat (length (filter (fun e => negb (N.eqb e 255)) cache)).
Proof. unfold amount_cached. rewrite nat_N_Z. do 2 f_equal. apply filter_ext. intros y. unfold entry_get. destruct (N.eqb y 255); reflexivity. Qed.
Lemma some_filled cache : (exists e, In e cache /\ e <> 255%N) -> 1 <= Z.of_nat (length (filter (fun e => negb (N.eqb e 255)) cache)).
Proof.
  intros (x & IX & NX). apply N.eqb_neq in NX.
  assert (X : In x (filter (fun e => negb (N.eqb e 255)) cache)) by (apply filter_In; split; [exact IX|rewrite NX; reflexivity]).
  destruct (filter _ cache); [destruct X|cbn [length]; lia].
Qed.

(** Which reports stop the builder: the ones whose estimate does not fit in a duration, that is
    when the number of states left times the milliseconds that have passed is more than 2^63
    times the number of states done, up to the rounding of doubles. *)
Theorem C66_threshold_partial : forall (cache : list N) (elapsed : Z),
  Z.of_nat (length cache) < 2 ^ 53 -> Z.abs elapsed < 2 ^ 53 -> (exists e, In e cache /\ e <> 255%N) ->
  let filled := Z.of_nat (length (filter (fun e => negb (N.eqb e 255)) cache)) in
  let left := Z.of_nat (length cache) - filled in
  (left * Z.abs elapsed <= (2 ^ 63 - 20000) * filled -> exists st, stats_new cache elapsed = Done st) /\
  ((2 ^ 63 + 20000) * filled <= left * Z.abs elapsed -> stats_new cache elapsed = Panic).
Proof.
  intros cache E HL HE HX. cbv zeta. pose proof (some_filled cache HX) as A1. rewrite <- amount_filled in A1 |- *. pose proof (amount_le cache) as AL.
  unfold stats_new. set (A := Z.of_N (amount_cached cache)) in *. set (L := Z.of_nat (length cache) - A).
  set (t := f64_to_i64 _). set (P := percent_cached _ _). set (r := f64_mul _ _).
  assert (HL' : 0 <= L < 2 ^ 53) by (unfold L; lia).
  assert (K : exists n s, t = (if s : bool then Z.max (- i64_max - 1) (- n) else Z.min i64_max n) /\ 0 <= n /\
    (L * Z.abs E <= (2 ^ 63 - 20000) * A -> n <= i64_max / 1000) /\ ((2 ^ 63 + 20000) * A <= L * Z.abs E -> i64_max / 1000 < n)).
  { destruct A as [|pa|pa] eqn:QA; [lia| |lia].
    destruct (of_Z_exact pa ltac:(unfold L in *; lia)) as (ma & ea & Na & Ra & Fa & _ & _).
    assert (Z0 : L * Z.abs E = 0 -> t = 0 -> exists n s, t = (if s : bool then Z.max (- i64_max - 1) (- n) else Z.min i64_max n) /\ 0 <= n /\
      (L * Z.abs E <= (2 ^ 63 - 20000) * Z.pos pa -> n <= i64_max / 1000) /\ ((2 ^ 63 + 20000) * Z.pos pa <= L * Z.abs E -> i64_max / 1000 < n)).
    { intros -> ->. exists 0, false. split; [reflexivity|]. split; [lia|]. split; intros ?; [vm_compute; discriminate|lia]. }
    destruct (Z.eq_dec E 0) as [NE|NE].
    - apply Z0; [rewrite NE; cbn; lia|]. unfold t. assert (Q : r = S754_infinity false) by (unfold r; rewrite Fa, NE; reflexivity). fold r. rewrite Q.
      destruct L as [|pl|pl]; [reflexivity| |lia]. destruct (of_Z_exact pl ltac:(lia)) as (ml & el & _ & _ & Fl & _ & _). rewrite Fl. reflexivity.
    - assert (XE : exists s p, E = signed s p /\ Z.pos p = Z.abs E) by (destruct E as [|p|p]; [lia|exists false, p|exists true, p]; split; reflexivity).
      destruct XE as (s & pe & QE & QP). clear Z0. assert (Z0 := I).
      destruct (rate_near pa pe s ltac:(unfold L in *; lia) ltac:(lia)) as (m2 & e2 & D2 & _). rewrite <- QE in D2. fold r in D2.
      destruct L as [|pl|pl] eqn:QL; [| |lia].
      + exists 0, false. unfold t. fold r. rewrite D2. split; [reflexivity|]. split; [lia|]. split; intros ?; [vm_compute; discriminate|lia].
      + destruct (left_near pa pe pl s ltac:(lia) ltac:(lia) ltac:(lia)) as (m3 & e3 & D3 & L3 & U3). rewrite <- QE in D3. fold r in D3.
        rewrite left_amount in L3, U3. destruct (truncated s m3 e3) as (n & T1 & T2 & T3). exists n, s. unfold t. fold r. rewrite D3.
        split; [exact T3|]. pose proof (val_pos m3 e3) as PV.
        assert (N1 : 0 < n + 1) by (rewrite Zlt_Qlt, inject_Z_plus; apply Qlt_trans with (1 := PV); exact T2).
        split; [lia|]. rewrite <- QP. split; intros B.
        * apply below in U3; [|exact B]. enough (n < i64_max / 1000 + 1) by lia. rewrite Zlt_Qlt, inject_Z_plus. apply Qle_lt_trans with (1 := T1). exact U3.
        * apply above in L3; [|exact B]. enough (i64_max / 1000 + 1 < n + 1) by lia. rewrite Zlt_Qlt, !inject_Z_plus. apply Qle_lt_trans with (1 := L3). exact T2. }
  clearbody t. destruct K as (n & s & -> & N0 & K1 & K2). unfold duration_seconds. change (i64_max / 1000) with 9223372036854775 in *. change i64_max with 9223372036854775807. split; intros B.
  - specialize (K1 B). replace (_ && _) with true; [eexists; reflexivity|]. symmetry. apply andb_true_iff. split; apply Z.leb_le; destruct s; lia.
  - specialize (K2 B). replace (_ && _) with false; [reflexivity|]. symmetry. apply andb_false_iff. destruct s; [left|right]; apply Z.leb_gt; lia.
Qed.

(** Both sides: a table of 2001 entries of which one is filled in, after 140,000 years and after
    150,000 years. *)
Example C66_threshold_example : let cache := 0%N :: repeat 255%N 2000 in
  Z.of_nat (length cache) < 2 ^ 53 /\ (exists e, In e cache /\ e <> 255%N) /\
  2000 * (140000 * 365 * 24 * 3600000) <= (2 ^ 63 - 20000) * 1 /\ (2 ^ 63 + 20000) * 1 <= 2000 * (150000 * 365 * 24 * 3600000) /\ 150000 * 365 * 24 * 3600000 < 2 ^ 53 /\
  (exists st, stats_new cache (140000 * 365 * 24 * 3600000) = Done st) /\ stats_new cache (150000 * 365 * 24 * 3600000) = Panic.
Proof.
  cbv zeta. split; [vm_compute; reflexivity|]. split; [exists 0%N; split; [left; reflexivity|discriminate]|].
  split; [vm_compute; discriminate|]. split; [vm_compute; discriminate|]. split; [vm_compute; reflexivity|].
  split; [eexists; vm_compute; reflexivity|vm_compute; reflexivity].
Qed.

(** A report on a table of the size of the corner table or smaller, in which something is
    filled in, does not panic if the clock differs from the start by at most three years in
    either direction (also if it was set back), and it reports the number of entries. *)
Theorem C66_report_partial : forall (cache : list N) (elapsed : Z),
  Z.of_nat (length cache) <= 88179840 -> (exists e, In e cache /\ e <> 255%N) -> Z.abs elapsed <= three_years ->
  exists st, stats_new cache elapsed = Done st /\
    Z.of_N (s_amount_cached st) = Z.of_nat (length (filter (fun e => negb (N.eqb e 255)) cache)) /\ s_time_elapsed_ms st = elapsed.
Proof.
  intros cache E HL HX HE. pose proof three_years_limit as TL. unfold limit in TL. pose proof (some_filled cache HX) as A1.
  destruct (C66_threshold_partial cache E) as [T _]; [lia|lia|exact HX|]. pose proof (amount_le cache) as AL. rewrite <- amount_filled in A1, T |- *.
  destruct T as (st & R).
  { apply Z.le_trans with (88179839 * three_years); [apply Z.mul_le_mono_nonneg; lia|].
    apply Z.le_trans with ((2 ^ 63 - 20000) * 1); [vm_compute; discriminate|lia]. }
  exists st. split; [exact R|]. unfold stats_new in R. destruct (duration_seconds _) in R; [|discriminate R]. injection R as <-. split; reflexivity.
Qed.

(** The figures of such a report at least a millisecond after the start: the share of the
    table that is filled in, the number of states per second, and the number of seconds left at
    that rate, rounded down. All are as exact as the arithmetic of doubles. *)
Theorem C66_figures_partial : forall (cache : list N) (elapsed : Z),
  Z.of_nat (length cache) <= 88179840 -> (exists e, In e cache /\ e <> 255%N) -> 1 <= elapsed <= three_years ->
  let filled := inject_Z (Z.of_nat (length (filter (fun e => negb (N.eqb e 255)) cache))) in
  let all := inject_Z (Z.of_nat (length cache)) in
  let rate := (filled / (inject_Z elapsed / 1000))%Q in
  exists st, stats_new cache elapsed = Done st /\
    nearly (double_value (s_percent_cached st)) (filled / all) /\
    nearly (double_value (s_states_per_second st)) rate /\
    exists left, nearly left ((all - filled) / rate) /\ (inject_Z (s_eta_seconds st) <= left)%Q /\ (left < inject_Z (s_eta_seconds st) + 1)%Q.
Proof.
  intros cache E HL HX HE. cbv zeta. destruct (C66_report_partial cache E HL HX) as (st & R & A & _); [lia|].
  pose proof (amount_le cache) as AL. pose proof three_years_limit as TL. unfold limit in TL. pose proof (some_filled cache HX) as A1.
  exists st. split; [exact R|].
  assert (SA : s_amount_cached st = amount_cached cache).
  { unfold stats_new in R. destruct (duration_seconds _) in R; [|discriminate R]. injection R as <-. reflexivity. }
  rewrite SA in A. rewrite <- A in A1 |- *. unfold stats_new in R. clear HX A.
  set (a := Z.of_N (amount_cached cache)) in *. set (n := Z.of_nat (length cache)) in *.
  assert (AN : a <= n) by (unfold a, n; lia).
  assert (PC : percent_cached cache (amount_cached cache) = f64_div (f64_of_Z a) (f64_of_Z n)) by reflexivity. rewrite PC in R. clear PC.
  clearbody a n. clear AL SA. destruct a as [|a|a]; [lia| |lia]. destruct n as [|n|n]; [lia| |lia]. destruct E as [|E|E]; [lia| |lia].
  destruct (div_near a n false ltac:(lia) ltac:(lia)) as (m1 & e1 & D1 & _ & _ & L1 & U1). cbn [signed] in D1. rewrite D1 in R.
  destruct (quotient_near _ _ _ _ L1 U1) as [L2 U2].
  destruct (rate_near a E false ltac:(lia) ltac:(lia)) as (m2 & e2 & D2 & N2 & R2 & L3 & U3). cbn [signed] in D2. rewrite D2 in R.
  set (rate := (inject_Z (Z.pos a) / (inject_Z (Z.pos E) / 1000))%Q) in *.
  assert (PR : (0 < rate)%Q) by (apply Qlt_shift_div_l; [apply Qlt_shift_div_l; reflexivity|rewrite Qmult_0_l; reflexivity]).
  assert (PQ : (0 <= inject_Z (Z.pos a) / inject_Z (Z.pos n))%Q) by (apply Qle_shift_div_l; [reflexivity|rewrite Qmult_0_l; discriminate]).
  set (t := f64_to_i64 _) in R. unfold duration_seconds in R.
  destruct ((- (i64_max / 1000) <=? t) && (t <=? i64_max / 1000)) eqn:RG; [|discriminate R]. injection R as <-. cbn [s_percent_cached s_states_per_second s_eta_seconds].
  split; [|split].
  - unfold nearly, double_value. rewrite Qmult_1_l. apply (nearly_of 1); [split; discriminate|exact PQ|exact L2|exact U2].
  - unfold nearly, double_value. rewrite Qmult_1_l. apply (nearly_of 3); [split; discriminate|apply Qlt_le_weak, PR|exact L3|exact U3].
  - destruct (Z.pos n - Z.pos a) as [|l|l] eqn:QL; [| |lia].
    + assert (T0 : t = 0) by reflexivity. rewrite T0. exists 0%Q. split; [|split; reflexivity || discriminate].
      assert (Z0 : ((inject_Z (Z.pos n) - inject_Z (Z.pos a)) / rate == 0)%Q).
      { assert (n = a) as -> by lia. unfold Qminus. rewrite Qplus_opp_r. reflexivity. }
      unfold nearly. rewrite Z0. discriminate.
    + destruct (left_near a E l false ltac:(lia) ltac:(lia) ltac:(lia)) as (m3 & e3 & D3 & L4 & U4). cbn [signed] in D3. fold rate in L4, U4. rewrite D2 in D3.
      destruct (truncated false m3 e3) as (k & T1 & T2 & T3). assert (T : t = Z.min i64_max k) by (unfold t; rewrite D3; exact T3). clearbody t.
      assert (t = k) as -> by (unfold i64_max in *; change ((2 ^ 63 - 1) / 1000) with 9223372036854775 in RG; lia). exists (val m3 e3). split; [|split; assumption].
      assert (QD : ((inject_Z (Z.pos n) - inject_Z (Z.pos a)) / rate == inject_Z (Z.pos l) / rate)%Q).
      { rewrite <- QL. unfold Zminus. rewrite inject_Z_plus, inject_Z_opp. reflexivity. }
      unfold nearly. rewrite QD. apply (nearly_of 5); [split; discriminate| |exact L4|exact U4].
      apply Qle_shift_div_l; [exact PR|]. rewrite Qmult_0_l. discriminate.
Qed.

(** Such reports at the two ends of that range, early and late, and with the clock set back. *)
Example C66_report_example :
  Z.of_nat (length [0; 255; 255; 255]%N) <= 88179840 /\ (exists e, In e [0; 255; 255; 255]%N /\ e <> 255%N) /\
  match stats_new [0; 255; 255; 255]%N 2000 with Done st => s_eta_seconds st = 6 | Panic => False end /\
  match stats_new [0; 255; 1; 255]%N (- three_years) with Done st => s_eta_seconds st = - (three_years / 1000) | Panic => False end /\
  match stats_new [0; 1; 1; 1]%N 0 with Done st => s_eta_seconds st = 0 | Panic => False end.
Proof. vm_compute. repeat split; try discriminate. exists 0%N. split; [left; reflexivity|discriminate]. Qed.

Section Reports.
  Context {T : Type} (k : Indexed T).
  Local Open Scope nat_scope.

  Definition started (cache : list N) : Prop :=
    length cache = N.to_nat (ix_total k) /\ exists e, nth_error cache 0 = Some e /\ e <> 255%N.

  Lemma successors_started state d moves : forall cache cache', started cache ->
    cache_successors k state d moves cache = Done cache' -> started cache'.
  Proof.
    induction moves as [|m moves IH]; intros cache cache' H R; cbn [cache_successors] in R.
    - injection R as <-. exact H.
    - destruct (ix_index k (ix_moved k state m)) as [i|]; [|discriminate R]. cbn [bind_o] in R.
      destruct (nth_error cache (N.to_nat i)) as [e|] eqn:N; [|discriminate R]. refine (IH _ _ _ R).
      unfold entry_get. destruct (N.eqb_spec e 255) as [E|_]; [|exact H]. destruct H as [L (f & F & NF)].
      split; [rewrite set_nth_length; exact L|]. exists f. split; [|exact NF].
      rewrite set_nth_other; [exact F|]. intros Q. rewrite Q in N. rewrite N in F. injection F as <-. exact (NF E).
  Qed.
  Lemma neighbours_started d indices : forall cache cache', started cache ->
    cache_neighbours k indices d cache = Done cache' -> started cache'.
  Proof.
    induction indices as [|i indices IH]; intros cache cache' H R; cbn [cache_neighbours] in R.
    - injection R as <-. exact H.
    - destruct (nth_error cache i) as [e|]; [|discriminate R].
      destruct (match entry_get e with Some given => N.eqb given (d - 1) | None => false end).
      + destruct (ix_from_index k (N.of_nat i)) as [st|]; [|discriminate R]. cbn [bind_o] in R.
        destruct (cache_successors k st d all_moves cache) as [c1|] eqn:S1; [|discriminate R]. cbn [bind_o] in R.
        exact (IH _ _ (successors_started _ _ _ _ _ H S1) R).
      + exact (IH _ _ H R).
  Qed.

  Lemma reporting_loop_same clock fuel : forall i d cache, (Z.of_N (ix_total k) <= 88179840)%Z ->
    (forall i, Z.abs (clock i) <= three_years)%Z -> started cache ->
    reporting_loop k clock fuel i d cache = build_loop k fuel d cache.
  Proof.
    induction fuel as [|fuel IH]; intros i d cache B CL H; [reflexivity|]. cbn [reporting_loop build_loop].
    destruct (C66_report_partial cache (clock i)) as (st & R & A & _).
    { rewrite (proj1 H). lia. }
    { destruct H as [_ (e & E & NE)]. exists e. split; [exact (nth_error_In _ _ E)|exact NE]. }
    { apply CL. }
    assert (Q : s_amount_cached st = amount_cached cache).
    { unfold stats_new in R. destruct (duration_seconds _) in R; [|discriminate R]. cbn [bind_o] in R. injection R as <-. reflexivity. }
    rewrite R. cbn [bind_o]. rewrite Q. destruct (N.eqb (amount_cached cache) (ix_total k)); [reflexivity|].
    destruct (cache_neighbours_at_depth k cache d) as [c1|] eqn:S1; [|reflexivity]. cbn [bind_o].
    apply IH; [exact B|exact CL|]. exact (neighbours_started _ _ _ _ H S1).
  Qed.
End Reports.

(** Building a table with progress reports makes the same table as without them, and stops
    with a panic only if that does, whatever the clock says at each report, within three
    years either way. Missing: other clocks, see [C66_refuted]. *)
Theorem C66_same_table_partial : forall (T : Type) (k : Indexed T) (clock : nat -> Z),
  Z.of_N (ix_total k) <= 88179840 -> (forall i, Z.abs (clock i) <= three_years) ->
  reporting_build k clock = build_table k.
Proof.
  intros T k clock B CL. unfold reporting_build, build_table. cbv zeta. destruct (N.eqb_spec (ix_total k) 0) as [|NZ]; [reflexivity|].
  apply reporting_loop_same; [exact B|exact CL|]. split; [rewrite set_nth_length, repeat_length; reflexivity|].
  exists 0%N. split; [|discriminate]. apply set_nth_same. rewrite repeat_length. lia.
Qed.

(** Both tables of the 3x3x3 cube are in that range (the corner table exactly meets it), and so
    are clocks that run and are set back. *)
Example C66_same_table_example :
  Z.of_N (ix_total corners_mus) = 88179840 /\ Z.of_N (ix_total half_edges_mus) <= 88179840 /\
  (forall i, Z.abs (match i with 0%nat => 5 | 1%nat => - 3600000 | _ => 7200000 end) <= three_years).
Proof. split; [vm_compute; reflexivity|]. split; [vm_compute; discriminate|]. intros [|[|i]]; vm_compute; discriminate. Qed.

Lemma amount_start n : amount_cached (set_nth (repeat entry_none (S n)) 0 0%N) = 1%N.
Proof.
  cbn [repeat set_nth]. unfold amount_cached. cbn [filter]. change (entry_get 0) with (Some 0%N). cbv iota. cbn [length].
  replace (filter _ (repeat entry_none n)) with (@nil N); [reflexivity|]. induction n as [|n IH]; [reflexivity|exact IH].
Qed.

(** A clock that is put forward by four years before the first report of the corner table stops
    the builder: the estimate of the time left is not a duration. *)
Theorem C66_refuted : exists clock : nat -> Z, clock 0%nat = 4 * 365 * 24 * 60 * 60 * 1000 /\ (forall i, 0 <= clock i <= clock 0%nat) /\
  reporting_build corners_mus clock = Panic /\ exists table, build_table corners_mus = Done table.
Proof.
  exists (fun i => match i with 0%nat => 4 * 365 * 24 * 60 * 60 * 1000 | _ => 1 end). split; [reflexivity|].
  split; [intros [|i]; cbv beta iota; lia|]. split.
  - unfold reporting_build. cbv zeta. change (ix_total corners_mus) with 88179840%N. change (N.eqb 88179840 0) with false. cbv iota.
    assert (Q : N.to_nat 88179840 = S (N.to_nat 88179839)) by lia. rewrite Q.
    change 254%nat with (S 253). cbn [reporting_loop]. unfold stats_new. rewrite amount_start, set_nth_length, repeat_length, <- Q.
    rewrite N_nat_Z. set (r := duration_seconds _). assert (F : r = Panic) by (vm_compute; reflexivity). rewrite F. reflexivity.
  - destruct C35_corner_table as (table & E & _). exists table. exact E.
Qed.

Print Assumptions C66_threshold_partial.
Print Assumptions C66_report_partial.
Print Assumptions C66_figures_partial.
Print Assumptions C66_same_table_partial.
Print Assumptions C66_refuted.

(** Rounding of binary32 is monotone with respect to representable numbers: an exact result on
    one side of a representable number is rounded to a number on the same side. *)

From Coq Require Import ZArith SpecFloat Lia Bool Nat.
From Verif Require Import Model_Search Model_Float Proof_Float Proof_Double.
Local Open Scope Z_scope.

(** All numbers are compared as multiples of 2^-400. *)
Definition pw (e : Z) : Z := 2 ^ (e + 400).
Lemma pw_pos e : -400 <= e -> 0 < pw e.
Proof. intros H. apply Z.pow_pos_nonneg; lia. Qed.
Lemma pw_add e j : -400 <= e -> 0 <= j -> pw (e + j) = 2 ^ j * pw e.
Proof. intros E J. unfold pw. replace (e + j + 400) with (j + (e + 400)) by lia. apply Z.pow_add_r; lia. Qed.
(** The finite numbers that are representable, except the sign. *)
Definition repr (b : Z) : Prop := exists k q, 0 <= k < 2 ^ 24 /\ -149 <= q <= 104 /\ b = k * pw q.

(** [x >= b] and [x <= b]. *)
Definition f_ge (x : f32) (b : Z) : Prop :=
  match x with
  | S754_nan => False
  | S754_infinity s => s = false
  | S754_zero _ => b <= 0
  | S754_finite s m e => -149 <= e /\ b <= cond_Zopp s (Z.pos m * pw e)
  end.
Definition f_le (x : f32) (b : Z) : Prop :=
  match x with
  | S754_nan => False
  | S754_infinity s => s = true
  | S754_zero _ => 0 <= b
  | S754_finite s m e => -149 <= e /\ cond_Zopp s (Z.pos m * pw e) <= b
  end.
Lemma f_le_opp x b : f_le x b <-> f_ge (SFopp x) (- b).
Proof. destruct x as [s|s| |s m e]; cbn [f_le f_ge SFopp]; [lia|destruct s; cbn; split; congruence|tauto|destruct s; cbn [negb cond_Zopp]; lia]. Qed.

(** The sticky bits of a right shift tell whether something was lost. *)
Definition bits (r : shr_record) : bool := shr_r r || shr_s r.
Lemma shr_1_bits r : 0 <= shr_m r -> bits (shr_1 r) = negb (shr_m r mod 2 =? 0) || bits r.
Proof.
  destruct r as [m b c]. unfold bits. cbn [shr_m shr_r shr_s]. intros H. destruct m as [|p|p]; [|  |lia].
  - cbn. reflexivity.
  - cbn [shr_1]. destruct p as [p|p|]; cbn [shr_r shr_s].
    + rewrite Pos2Z.inj_xI, Z.add_comm, Z.mul_comm, Z.mod_add by lia. reflexivity.
    + rewrite Pos2Z.inj_xO, Z.mul_comm, Z.mod_mul by lia. reflexivity.
    + reflexivity.
Qed.
Lemma shr_bits k : forall r, 0 <= shr_m r -> bits (Nat.iter k shr_1 r) = negb (shr_m r mod 2 ^ Z.of_nat k =? 0) || bits r.
Proof.
  induction k as [|k IH]; intros r H.
  - change (2 ^ Z.of_nat 0) with 1. rewrite Z.mod_1_r. reflexivity.
  - change (Nat.iter (S k) shr_1 r) with (shr_1 (Nat.iter k shr_1 r)).
    assert (P : 0 < 2 ^ Z.of_nat k) by (apply Z.pow_pos_nonneg; lia).
    rewrite shr_1_bits by (rewrite shr_m_div by exact H; apply Z.div_pos; lia).
    rewrite IH by exact H. rewrite shr_m_div by exact H. rewrite Nat2Z.inj_succ, Z.pow_succ_r by lia.
    rewrite (Z.mul_comm 2), Z.rem_mul_r by lia.
    pose proof (Z.mod_pos_bound (shr_m r) (2 ^ Z.of_nat k) P). pose proof (Z.mod_pos_bound (shr_m r / 2 ^ Z.of_nat k) 2 ltac:(lia)).
    rewrite orb_assoc. f_equal.
    destruct (Z.eqb_spec (shr_m r mod 2 ^ Z.of_nat k) 0) as [E|E], (Z.eqb_spec ((shr_m r / 2 ^ Z.of_nat k) mod 2) 0) as [F|F]; cbn [negb orb].
    + rewrite E, F, Z.mul_0_r. reflexivity.
    + destruct (Z.eqb_spec (shr_m r mod 2 ^ Z.of_nat k + 2 ^ Z.of_nat k * ((shr_m r / 2 ^ Z.of_nat k) mod 2)) 0); [nia|reflexivity].
    + destruct (Z.eqb_spec (shr_m r mod 2 ^ Z.of_nat k + 2 ^ Z.of_nat k * ((shr_m r / 2 ^ Z.of_nat k) mod 2)) 0); [nia|reflexivity].
    + destruct (Z.eqb_spec (shr_m r mod 2 ^ Z.of_nat k + 2 ^ Z.of_nat k * ((shr_m r / 2 ^ Z.of_nat k) mod 2)) 0); [nia|reflexivity].
Qed.
Lemma bits_loc r : bits r = false <-> loc_of_shr_record r = loc_Exact.
Proof. destruct r as [m [] []]; unfold bits; cbn; split; congruence. Qed.
Lemma loc_bits m l : bits (shr_record_of_loc m l) = false <-> l = loc_Exact.
Proof. destruct l as [|[]]; cbn; split; congruence. Qed.

(** The second half of rounding keeps the value. *)
Definition rounded (s : bool) (v : Z) (x : f32) : Prop :=
  (x = S754_zero s /\ v = 0) \/
  (exists m e, x = S754_finite s m e /\ -149 <= e /\ Z.pos m * pw e = v) \/
  (x = S754_infinity s /\ 2 ^ 24 * pw 104 <= v).
Lemma renormal s m e : 0 <= m <= 2 ^ 24 -> -149 <= e -> (2 ^ 23 <= m \/ e = -149) ->
  rounded s (m * pw e) (let '(mrs'', e'') := shr_fexp 24 128 m e loc_Exact in
     match shr_m mrs'' with
     | 0 => S754_zero s
     | Z.pos m => if Zle_bool e'' (128 - 24) then S754_finite s m e'' else S754_infinity s
     | _ => S754_nan
     end).
Proof.
  intros M E C. unfold rounded.
  destruct (Z.eq_dec m (2 ^ 24)) as [->|N].
  - right. unfold shr_fexp. change (Zdigits2 (2 ^ 24)) with 25. unfold fexp, emin. replace (Z.max (25 + e - 24) (3 - 128 - 24) - e) with 1 by lia.
    cbn [shr shr_record_of_loc iter_pos]. change (shr_m (shr_1 {| shr_m := 2 ^ 24; shr_r := false; shr_s := false |})) with (Z.pos (2 ^ 23)).
    cbv iota. destruct (Zle_bool (e + 1) (128 - 24)) eqn:L.
    + left. exists (2 ^ 23)%positive, (e + 1). split; [reflexivity|]. split; [lia|]. rewrite pw_add by lia. lia.
    + right. split; [reflexivity|]. change Zle_bool with Z.leb in L. rewrite Z.leb_gt in L. apply Z.mul_le_mono_nonneg_l; [lia|]. apply Z.pow_le_mono_r; lia.
  - destruct m as [|m|m]; [| |lia].
    + left. split; [|reflexivity]. unfold shr_fexp. cbn [Zdigits2 shr_record_of_loc]. unfold fexp, emin.
      assert (K : Z.max (0 + e - 24) (3 - 128 - 24) - e <= 0) by lia.
      destruct (Z.max (0 + e - 24) (3 - 128 - 24) - e) as [|p|p]; [reflexivity|lia|reflexivity].
    + right. unfold shr_fexp. cbn [Zdigits2 shr_record_of_loc]. fold (dg m). unfold fexp, emin.
      pose proof (dg_le m 24 ltac:(lia) ltac:(lia)) as D.
      assert (K : Z.max (dg m + e - 24) (3 - 128 - 24) - e <= 0) by lia.
      assert (Sh : shr {| shr_m := Z.pos m; shr_r := false; shr_s := false |} e (Z.max (dg m + e - 24) (3 - 128 - 24) - e)
        = ({| shr_m := Z.pos m; shr_r := false; shr_s := false |}, e)).
      { destruct (Z.max (dg m + e - 24) (3 - 128 - 24) - e) as [|p|p]; [reflexivity|lia|reflexivity]. }
      rewrite Sh. cbn [shr_m]. destruct (Zle_bool e (128 - 24)) eqn:L.
      * left. exists m, e. split; [reflexivity|]. split; [lia|reflexivity].
      * right. split; [reflexivity|]. change Zle_bool with Z.leb in L. rewrite Z.leb_gt in L. destruct C as [C|C]; [|lia].
        apply Z.le_trans with (2 ^ 23 * pw 105); [change 105 with (104 + 1); rewrite pw_add by lia; lia|].
        apply Z.mul_le_mono_nonneg; [lia|exact C|apply Z.lt_le_incl, pw_pos; lia|]. apply Z.pow_le_mono_r; lia.
Qed.

(** Rounding: the value [v] of the result is on the right side of every representable number. *)
Lemma round_mag s mz ez lz : 0 <= mz -> -400 <= ez -> ez <= fexp 24 128 (Zdigits2 mz + ez) ->
  exists v, rounded s v (binary_round_aux 24 128 s mz ez lz) /\ 0 <= v /\
    (forall b, repr b -> b < (mz + 1) * pw ez -> b <= v) /\
    (forall b, repr b -> mz * pw ez <= b -> (lz <> loc_Exact -> mz * pw ez < b) -> v <= b).
Proof.
  intros Hm He N. set (e1 := fexp 24 128 (Zdigits2 mz + ez)) in *.
  assert (E1 : e1 = Z.max (Zdigits2 mz + ez - 24) (-149)) by reflexivity.
  set (k := e1 - ez) in *. assert (K : 0 <= k) by lia.
  assert (P : 0 < 2 ^ k) by (apply Z.pow_pos_nonneg; lia).
  unfold binary_round_aux, shr_fexp at 1. fold e1. fold k.
  assert (Sh : exists r, shr (shr_record_of_loc mz lz) ez k = (r, e1) /\ shr_m r = mz / 2 ^ k /\
    (bits r = false -> loc_of_shr_record r = loc_Exact) /\ (bits r = true -> mz mod 2 ^ k <> 0 \/ lz <> loc_Exact)).
  { assert (R0 : 0 <= shr_m (shr_record_of_loc mz lz)) by (rewrite shr_record_m; exact Hm).
    assert (Q : exists r, shr (shr_record_of_loc mz lz) ez k = (r, e1) /\ r = Nat.iter (Z.to_nat k) shr_1 (shr_record_of_loc mz lz)).
    { clear P. destruct k as [|p|p] eqn:EK; cbn [shr]; [| |lia].
      - eexists. split; [f_equal; lia|reflexivity].
      - eexists. split; [f_equal; lia|]. rewrite iter_pos_nat. reflexivity. }
    destruct Q as (r & -> & Q). exists r. split; [reflexivity|]. subst r.
    rewrite shr_m_div, shr_bits, shr_record_m, Z2Nat.id by assumption. split; [reflexivity|].
    split.
    - intros B. apply bits_loc. rewrite shr_bits, shr_record_m, Z2Nat.id by assumption. exact B.
    - rewrite orb_true_iff, negb_true_iff, Z.eqb_neq. intros [B|B]; [left; exact B|right].
      intros L. apply (loc_bits mz) in L. congruence. }
  destruct Sh as (r & -> & R & Rx & Ri).
  set (m1 := mz / 2 ^ k) in *.
  assert (Q1 : m1 * 2 ^ k <= mz < (m1 + 1) * 2 ^ k).
  { pose proof (Z.div_mod mz (2 ^ k) ltac:(lia)). pose proof (Z.mod_pos_bound mz (2 ^ k) P). unfold m1. lia. }
  assert (Mod : mz mod 2 ^ k = mz - m1 * 2 ^ k) by (unfold m1; rewrite Z.mod_eq by lia; lia).
  assert (M0 : 0 <= m1) by (apply Z.div_pos; lia).
  assert (Dg : mz < 2 ^ Zdigits2 mz /\ 0 <= Zdigits2 mz /\ (0 < mz -> 2 ^ (Zdigits2 mz - 1) <= mz /\ 1 <= Zdigits2 mz)).
  { destruct mz as [|p|p]; [cbn; lia| |lia]. cbn [Zdigits2]. fold (dg p). pose proof (dg_bounds p). pose proof (dg_pos p). lia. }
  destruct Dg as (Dg & D0 & D1).
  assert (Q2 : m1 < 2 ^ 24).
  { apply Z.div_lt_upper_bound; [lia|]. rewrite Z.mul_comm, <- Z.pow_add_r by lia. eapply Z.lt_le_trans; [exact Dg|]. apply Z.pow_le_mono_r; lia. }
  assert (Q3 : 2 ^ 23 <= m1 \/ e1 = -149).
  { destruct (Z.le_gt_cases (Zdigits2 mz + ez - 24) (-149)) as [L|L]; [right; lia|left].
    assert (Dk : Zdigits2 mz = 24 + k) by lia. apply Z.div_le_lower_bound; [lia|]. rewrite Z.mul_comm, <- Z.pow_add_r by lia.
    assert (Zp : 0 < mz) by (destruct (Z.eq_dec mz 0) as [M00|M00]; [assert (Zdigits2 mz = 0) by (rewrite M00; reflexivity); lia|lia]).
    destruct (D1 Zp) as [D2 _]. replace (23 + k) with (Zdigits2 mz - 1) by lia. exact D2. }
  rewrite R. set (m2 := round_nearest_even m1 (loc_of_shr_record r)).
  assert (Q4 : m2 = m1 \/ m2 = m1 + 1 /\ bits r = true).
  { unfold m2. destruct (bits r) eqn:B; [|rewrite (Rx eq_refl); auto].
    unfold round_nearest_even. destruct (loc_of_shr_record r) as [|[]]; auto. destruct (Z.even m1); auto. }
  exists (m2 * pw e1). pose proof (pw_pos e1 ltac:(lia)) as P1. pose proof (pw_pos ez He) as Pz.
  assert (Pk : pw e1 = 2 ^ k * pw ez) by (unfold k; rewrite <- pw_add by lia; f_equal; lia).
  split; [apply renormal; lia|]. split; [nia|].
  assert (Dich : forall b, repr b -> (exists c, b = c * pw e1) \/ (b < 2 ^ 23 * pw e1 /\ 2 ^ 23 <= m1)).
  { intros b (kb & q & Hk & Hq & ->). destruct (Z.le_gt_cases e1 q) as [L|L].
    - left. exists (kb * 2 ^ (q - e1)). replace q with (e1 + (q - e1)) at 1 by lia. rewrite pw_add by lia. lia.
    - right. split; [|lia]. assert (pw e1 = 2 ^ (e1 - q) * pw q) by (rewrite <- pw_add by lia; f_equal; lia).
      assert (2 ^ 1 <= 2 ^ (e1 - q)) by (apply Z.pow_le_mono_r; lia). pose proof (pw_pos q ltac:(lia)).
      change (2 ^ 1) with 2 in *. change (2 ^ 24) with (2 ^ 23 * 2) in Hk. nia. }
  split.
  - intros b Hb L. destruct (Dich b Hb) as [(c & ->)|[S1 S2]]; [|nia].
    apply Z.mul_le_mono_nonneg_r; [lia|]. rewrite Pk in L.
    assert (c * 2 ^ k < mz + 1) by nia. nia.
  - intros b Hb L Lx. destruct (Dich b Hb) as [(c & ->)|[S1 S2]].
    + apply Z.mul_le_mono_nonneg_r; [lia|]. rewrite Pk in L, Lx.
      assert (L1 : mz <= c * 2 ^ k) by nia.
      destruct Q4 as [->|[-> B]]; [nia|]. destruct (Ri B) as [I|I].
      * nia.
      * specialize (Lx I). assert (mz < c * 2 ^ k) by nia. nia.
    + exfalso. rewrite Pk in S1. nia.
Qed.

(** ** Signed numbers *)

Definition reprs (b : Z) : Prop := repr (Z.abs b).
Lemma repr_top b : repr b -> b < 2 ^ 24 * pw 104.
Proof.
  intros (k & q & K & Q & ->). assert (pw q <= pw 104) by (apply Z.pow_le_mono_r; lia). pose proof (pw_pos q ltac:(lia)). nia.
Qed.
Lemma round_ge (s : bool) mz ez lz b : 0 <= mz -> -400 <= ez -> ez <= fexp 24 128 (Zdigits2 mz + ez) -> reprs b ->
  (if s then mz * pw ez <= - b /\ (lz <> loc_Exact -> mz * pw ez < - b) else b < (mz + 1) * pw ez) ->
  f_ge (binary_round_aux 24 128 s mz ez lz) b.
Proof.
  intros M E N R H. destruct (round_mag s mz ez lz M E N) as (v & V & V0 & L & U).
  assert (C : if s then v <= - b /\ v < 2 ^ 24 * pw 104 else b <= v).
  { destruct s.
    - destruct H as [H1 H2]. unfold reprs in R. pose proof (pw_pos ez E). replace (Z.abs b) with (- b) in R by lia.
      assert (v <= - b) by (apply U; assumption). pose proof (repr_top _ R). lia.
    - destruct (Z.le_gt_cases b 0) as [B|B]; [lia|]. unfold reprs in R. replace (Z.abs b) with b in R by lia. apply L; assumption. }
  destruct V as [[-> V]|[(m & e & -> & Em & V)|[-> V]]]; cbn [f_ge].
  - destruct s; lia.
  - split; [exact Em|]. destruct s; cbn [cond_Zopp]; lia.
  - destruct s; [lia|reflexivity].
Qed.
Lemma round_opp s mz ez lz : binary_round_aux 24 128 (negb s) mz ez lz = SFopp (binary_round_aux 24 128 s mz ez lz).
Proof.
  unfold binary_round_aux. destruct (shr_fexp 24 128 mz ez lz) as [r e].
  destruct (shr_fexp 24 128 _ e loc_Exact) as [r' e']. destruct (shr_m r') as [|p|p]; try reflexivity. destruct (Zle_bool e' (128 - 24)); reflexivity.
Qed.
Lemma round_le (s : bool) mz ez lz b : 0 <= mz -> -400 <= ez -> ez <= fexp 24 128 (Zdigits2 mz + ez) -> reprs b ->
  (if s then - b < (mz + 1) * pw ez else mz * pw ez <= b /\ (lz <> loc_Exact -> mz * pw ez < b)) ->
  f_le (binary_round_aux 24 128 s mz ez lz) b.
Proof.
  intros M E N R H. apply f_le_opp. rewrite <- round_opp. apply round_ge; auto.
  - unfold reprs in *. rewrite Z.abs_opp. exact R.
  - destruct s; cbn [negb]; rewrite ?Z.opp_involutive; exact H.
Qed.
Lemma f_ge_weaken x a b : a <= b -> f_ge x b -> f_ge x a.
Proof. destruct x as [s|s| |s m e]; cbn [f_ge]; [lia|tauto|tauto|lia]. Qed.
Lemma f_le_weaken x a b : b <= a -> f_le x b -> f_le x a.
Proof. destruct x as [s|s| |s m e]; cbn [f_le]; [lia|tauto|tauto|lia]. Qed.

Lemma align_val m e f : -149 <= e -> -149 <= f ->
  exists m' e', shl_align m e f = (m', e') /\ -149 <= e' /\ Z.pos m' * pw e' = Z.pos m * pw e /\ dg m' + e' = dg m + e /\ (e' <= f) /\ (f <= e -> e' = f).
Proof.
  intros E F. unfold shl_align. destruct (f - e) as [|p|p] eqn:D.
  - exists m, e. repeat split; lia.
  - exists m, e. repeat split; lia.
  - exists (shift_pos p m), f. split; [reflexivity|]. split; [exact F|]. rewrite shift_pos_val. split.
    + replace e with (f + Z.pos p) by lia. rewrite pw_add by lia. lia.
    + split; [|lia]. rewrite (dg_shift m (shift_pos p m) (Z.pos p)) by (try apply shift_pos_val; lia). lia.
Qed.
Lemma binary_round_ge s m e b : -149 <= e -> reprs b -> b <= cond_Zopp s (Z.pos m * pw e) -> f_ge (binary_round 24 128 s m e) b.
Proof.
  intros E R H. unfold binary_round. fold (dg m).
  destruct (align_val m e (fexp 24 128 (dg m + e)) E ltac:(unfold fexp, emin; lia)) as (m' & e' & -> & E' & V & D & F & _).
  pose proof (pw_pos e' ltac:(lia)). apply round_ge; auto; try lia.
  - cbn [Zdigits2]. fold (dg m'). rewrite D. exact F.
  - rewrite <- V in H. destruct s; cbn [cond_Zopp] in H; [split; [lia|congruence]|nia].
Qed.
Lemma binary_round_le s m e b : -149 <= e -> reprs b -> cond_Zopp s (Z.pos m * pw e) <= b -> f_le (binary_round 24 128 s m e) b.
Proof.
  intros E R H. unfold binary_round. fold (dg m).
  destruct (align_val m e (fexp 24 128 (dg m + e)) E ltac:(unfold fexp, emin; lia)) as (m' & e' & -> & E' & V & D & F & _).
  pose proof (pw_pos e' ltac:(lia)). apply round_le; auto; try lia.
  - cbn [Zdigits2]. fold (dg m'). rewrite D. exact F.
  - rewrite <- V in H. destruct s; cbn [cond_Zopp] in H; [nia|split; [lia|congruence]].
Qed.
Lemma normalize_ge z e b s : -149 <= e -> reprs b -> b <= z * pw e -> f_ge (binary_normalize 24 128 z e s) b.
Proof.
  intros E R H. destruct z as [|p|p]; cbn [binary_normalize].
  - cbn [f_ge]. lia.
  - apply binary_round_ge; auto.
  - apply binary_round_ge; auto. cbn [cond_Zopp]. lia.
Qed.
Lemma normalize_le z e b s : -149 <= e -> reprs b -> z * pw e <= b -> f_le (binary_normalize 24 128 z e s) b.
Proof.
  intros E R H. destruct z as [|p|p]; cbn [binary_normalize].
  - cbn [f_le]. lia.
  - apply binary_round_le; auto.
  - apply binary_round_le; auto. cbn [cond_Zopp]. lia.
Qed.

(** ** Adding one *)

Lemma one_f32 : f32_of_Z 1 = S754_finite false 8388608 (-23).
Proof. reflexivity. Qed.
Lemma three_f32 : f32_of_Z 3 = S754_finite false 12582912 (-22).
Proof. reflexivity. Qed.
Lemma add_sum s m e : -149 <= e ->
  let ez := Z.min e (-23) in
  -149 <= ez /\
  (cond_Zopp s (Z.pos (fst (shl_align m e ez))) + cond_Zopp false (Z.pos (fst (shl_align 8388608 (-23) ez)))) * pw ez
  = cond_Zopp s (Z.pos m * pw e) + pw 0.
Proof.
  intros E ez. split; [lia|].
  destruct (align_val m e ez E ltac:(lia)) as (m1 & e1 & -> & _ & V1 & _ & _ & F1).
  destruct (align_val 8388608 (-23) ez ltac:(lia) ltac:(lia)) as (m2 & e2 & -> & _ & V2 & _ & _ & F2).
  rewrite F1 in V1 by lia. rewrite F2 in V2 by lia. cbn [fst cond_Zopp].
  assert (P : 8388608 * pw (-23) = pw 0) by (change 0 with (-23 + 23) at 1; rewrite pw_add by lia; reflexivity).
  rewrite Z.mul_add_distr_r, V2, P. destruct s; cbn [cond_Zopp]; lia.
Qed.
Lemma add_one_ge x b : f_ge x b -> reprs (b + pw 0) -> f_ge (f32_add x (f32_of_Z 1)) (b + pw 0).
Proof.
  rewrite one_f32. unfold f32_add. intros H R. destruct x as [s|s| |s m e]; cbn [SFadd]; cbn [f_ge] in H.
  - assert (P : 8388608 * pw (-23) = pw 0) by reflexivity. cbn [f_ge cond_Zopp]. lia.
  - exact H.
  - destruct H.
  - destruct H as [E H]. destruct (add_sum s m e E) as [Z1 Z2]. apply normalize_ge; [exact Z1|exact R|]. rewrite Z2. lia.
Qed.
Lemma add_one_le x b : f_le x b -> reprs (b + pw 0) -> f_le (f32_add x (f32_of_Z 1)) (b + pw 0).
Proof.
  rewrite one_f32. unfold f32_add. intros H R. destruct x as [s|s| |s m e]; cbn [SFadd]; cbn [f_le] in H.
  - assert (P : 8388608 * pw (-23) = pw 0) by reflexivity. cbn [f_le cond_Zopp]. lia.
  - exact H.
  - destruct H.
  - destruct H as [E H]. destruct (add_sum s m e E) as [Z1 Z2]. apply normalize_le; [exact Z1|exact R|]. rewrite Z2. lia.
Qed.

(** ** Multiplying by a small number *)

Definition small (n : Z) (c : f32) : Prop :=
  exists mc ec, c = S754_finite false mc ec /\ -23 <= ec <= 0 /\ Z.pos mc * 2 ^ (ec + 23) = n * 2 ^ 23 /\ 2 ^ 23 <= Z.pos mc.
Lemma mul_val m e mc ec n : -149 <= e -> -23 <= ec <= 0 -> Z.pos mc * 2 ^ (ec + 23) = n * 2 ^ 23 -> 2 ^ 23 <= Z.pos mc ->
  Z.pos (m * mc) * pw (e + ec) = n * (Z.pos m * pw e) /\ e + ec <= fexp 24 128 (Zdigits2 (Z.pos (m * mc)) + (e + ec)).
Proof.
  intros E C V M. split.
  - assert (P1 : pw (e + ec + 23) = 2 ^ 23 * pw (e + ec)) by (apply pw_add; lia).
    assert (P2 : pw (e + ec + 23) = 2 ^ (ec + 23) * pw e) by (rewrite <- pw_add by lia; f_equal; lia).
    rewrite Pos2Z.inj_mul. assert (2 ^ 23 * (Z.pos mc * pw (e + ec)) = 2 ^ 23 * (n * pw e)); [|nia].
    replace (2 ^ 23 * (Z.pos mc * pw (e + ec))) with (Z.pos mc * (2 ^ 23 * pw (e + ec))) by lia. rewrite <- P1, P2, Z.mul_assoc, V. lia.
  - cbn [Zdigits2]. fold (dg (m * mc)). pose proof (dg_bounds (m * mc)) as B. rewrite Pos2Z.inj_mul in B.
    assert (24 <= dg (m * mc)); [|unfold fexp, emin; lia].
    destruct (Z.le_gt_cases 24 (dg (m * mc))) as [L|L]; [exact L|]. pose proof (Z.pow_le_mono_r 2 (dg (m * mc)) 23). nia.
Qed.
Lemma mul_ge x n c b d : 0 < n -> small n c -> f_ge x b -> d <= n * b -> reprs d -> f_ge (f32_mul x c) d.
Proof.
  intros N (mc & ec & -> & C & V & M) H D R. unfold f32_mul. destruct x as [s|s| |s m e]; cbn [SFmul]; cbn [f_ge] in H.
  - cbn [f_ge]. nia.
  - subst s. reflexivity.
  - destruct H.
  - destruct H as [E H]. rewrite xorb_false_r. destruct (mul_val m e mc ec n E C V M) as [Z1 Z2].
    pose proof (pw_pos (e + ec) ltac:(lia)). apply round_ge; auto; try lia.
    rewrite Z.mul_add_distr_r, Z1. destruct s; cbn [cond_Zopp] in H; [split; [nia|congruence]|nia].
Qed.
Lemma mul_opp x n c : small n c -> f32_mul (SFopp x) c = SFopp (f32_mul x c).
Proof.
  intros (mc & ec & -> & _). unfold f32_mul. destruct x as [[]|[]| |s m e]; cbn [SFmul SFopp]; try reflexivity.
  rewrite !xorb_false_r. apply round_opp.
Qed.
Lemma mul_le x n c b d : 0 < n -> small n c -> f_le x b -> n * b <= d -> reprs d -> f_le (f32_mul x c) d.
Proof.
  intros N S H D R. apply f_le_opp. rewrite <- (mul_opp x n c S). apply f_le_opp in H.
  apply (mul_ge _ n _ (- b)); auto; [lia|]. unfold reprs in *. rewrite Z.abs_opp. exact R.
Qed.

(** ** Dividing by three *)

Lemma div_three_core m e : -149 <= e ->
  exists q e' l, SFdiv_core_binary 24 128 (Z.pos m) e 12582912 (-22) = (q, e', l) /\ 0 <= q /\ -149 <= e' /\
    e' <= fexp 24 128 (Zdigits2 q + e') /\
    3 * (q * pw e') <= Z.pos m * pw e < 3 * ((q + 1) * pw e') /\ (l <> loc_Exact -> 3 * (q * pw e') < Z.pos m * pw e).
Proof.
  intros E. unfold SFdiv_core_binary. cbn [Zdigits2]. fold (dg m). change (Z.pos (digits2_pos 12582912)) with 24.
  set (f := fexp 24 128 (dg m + e - (24 + -22))).
  assert (F : f = Z.max (dg m + e - 2 - 24) (-149)) by (unfold f, fexp, emin; lia). clearbody f.
  set (e' := Z.min f (e - -22)). set (sh := e - -22 - e').
  assert (S0 : 0 <= sh) by lia.
  assert (M' : match sh with 0 => Z.pos m | Z.pos _ => Z.shiftl (Z.pos m) sh | Z.neg _ => 0 end = Z.pos m * 2 ^ sh).
  { destruct sh as [|p|p] eqn:Es; [lia| |lia]. apply Z.shiftl_mul_pow2. lia. }
  rewrite M'. clear M'. set (m' := Z.pos m * 2 ^ sh).
  destruct (Z.div_eucl m' 12582912) as [q r] eqn:DE.
  assert (Pm : 0 < m') by (unfold m'; pose proof (Z.pow_pos_nonneg 2 sh); lia).
  pose proof (Z_div_mod m' 12582912 ltac:(lia)) as DM. rewrite DE in DM. destruct DM as [DM DR].
  exists q, e', (new_location 12582912 r). split; [reflexivity|].
  assert (Q0 : 0 <= q) by lia. split; [exact Q0|]. assert (E' : -149 <= e') by lia. split; [exact E'|].
  assert (Pw : m' * pw e' = 2 ^ 22 * (Z.pos m * pw e)).
  { unfold m'. rewrite <- Z.mul_assoc, <- pw_add by lia. replace (e' + sh) with (e + 22) by (unfold sh; lia). rewrite pw_add by lia. lia. }
  pose proof (pw_pos e' ltac:(lia)) as Pe.
  split.
  - assert (DQ : dg m + sh - 24 <= Zdigits2 q).
    { pose proof (dg_bounds m) as B. assert (Bm : 2 ^ (dg m - 1 + sh) <= m') by (unfold m'; rewrite Z.pow_add_r by (pose proof (dg_pos m); lia); pose proof (Z.pow_pos_nonneg 2 sh); nia).
      assert (Zq : 0 <= Zdigits2 q) by (destruct q; cbn; lia).
      destruct (Z.le_gt_cases (dg m + sh - 24) 0) as [L|L]; [lia|].
      replace (dg m - 1 + sh) with ((dg m + sh - 25) + 24) in Bm by lia. rewrite Z.pow_add_r in Bm by lia.
      assert (Lq : 2 ^ (dg m + sh - 25) <= q) by (change (2 ^ 24) with 16777216 in Bm; nia).
      destruct q as [|q|q]; [pose proof (Z.pow_pos_nonneg 2 (dg m + sh - 25)); lia| |lia]. cbn [Zdigits2]. fold (dg q).
      pose proof (dg_bounds q) as Bq. destruct (Z.le_gt_cases (dg m + sh - 24) (dg q)) as [K|K]; [exact K|].
      pose proof (Z.pow_le_mono_r 2 (dg q) (dg m + sh - 25)). lia. }
    unfold fexp, emin. lia.
  - change (2 ^ 22) with 4194304 in Pw. split; [nia|]. intros L. assert (R : r <> 0).
    { intros ->. apply L. reflexivity. } nia.
Qed.
Lemma div_three_ge x b : f_ge x (3 * b) -> reprs b -> f_ge (f32_div x (f32_of_Z 3)) b.
Proof.
  rewrite three_f32. unfold f32_div. intros H R. destruct x as [s|s| |s m e]; cbn [SFdiv]; cbn [f_ge] in H.
  - cbn [f_ge]. lia.
  - subst s. reflexivity.
  - destruct H.
  - destruct H as [E H]. destruct (div_three_core m e E) as (q & e' & l & -> & Q & E' & N & V & L). rewrite xorb_false_r.
    apply round_ge; auto; try lia.
    destruct s; cbn [cond_Zopp] in H; [split; [lia|intros I; specialize (L I); lia]|lia].
Qed.
Lemma div_opp x : f32_div (SFopp x) (f32_of_Z 3) = SFopp (f32_div x (f32_of_Z 3)).
Proof.
  rewrite three_f32. unfold f32_div. destruct x as [[]|[]| |s m e]; cbn [SFdiv SFopp]; try reflexivity.
  destruct (SFdiv_core_binary 24 128 (Z.pos m) e 12582912 (-22)) as [[q e'] l]. rewrite !xorb_false_r. apply round_opp.
Qed.
Lemma div_three_le x b : f_le x (3 * b) -> reprs b -> f_le (f32_div x (f32_of_Z 3)) b.
Proof.
  intros H R. apply f_le_opp. rewrite <- div_opp. apply f_le_opp in H. apply div_three_ge.
  - replace (3 * - b) with (- (3 * b)) by lia. exact H.
  - unfold reprs in *. rewrite Z.abs_opp. exact R.
Qed.

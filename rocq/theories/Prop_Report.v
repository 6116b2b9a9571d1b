(** C91: the progress reports say what they seem to say. *)

From Coq Require Import String List Bool Arith NArith ZArith QArith Qabs Qpower SpecFloat Lia Lqa ZifyBool ZifyN ZifyNat.
From Verif Require Import Model_Base Model_Moves Model_Pieces Model_PieceSet Model_Cubes Model_Parser Model_Mus Model_Cache Model_Stats Model_Report
  Spec_Mus Spec_Cache Proof_Float Proof_Double Proof_Mus Proof_Cache Prop_Cache Prop_Stats.
Import ListNotations.
Local Open Scope list_scope.
Local Open Scope Z_scope.

(** ** Reading numbers *)

(** The number written in decimal digits ['0'] to ['9']. *)
Fixpoint digits_from (acc : N) (t : text) : option N :=
  match t with
  | [] => Some acc
  | c :: r => if (48 <=? c)%N && (c <=? 57)%N then digits_from (10 * acc + (c - 48)) r else None
  end.
Definition reads (t : text) (n : N) : Prop := t <> [] /\ digits_from 0 t = Some n.
(** The same with a point and two decimals. *)
Definition reads_2 (t : text) (q : Q) : Prop :=
  exists whole d1 d2 n, t = whole ++ [46; d1; d2]%N /\ whole <> [] /\ digits_from 0 (whole ++ [d1; d2]) = Some n /\ (q == inject_Z (Z.of_N n) / 100)%Q.
(** [r] is [q] to two decimals, up to a relative error of 2^-49. *)
Definition to_2_decimals (r q : Q) : Prop := (Qabs (r - q) <= 1 / 200 + q / inject_Z (2 ^ 49))%Q.

Lemma digits_reads fuel : forall n acc, (n < 10 ^ N.of_nat fuel)%N -> (0 < fuel)%nat ->
  digits_from 0 (decimal_digits fuel n acc) = digits_from n acc.
Proof.
  induction fuel as [|fuel IH]; intros n acc B F; [lia|]. cbn [decimal_digits]. destruct (N.ltb_spec n 10) as [L|L].
  - cbn [digits_from]. rewrite N.mod_small by exact L. replace ((48 <=? 48 + n) && (48 + n <=? 57))%N with true by lia. f_equal. lia.
  - rewrite Nat2N.inj_succ, N.pow_succ_r' in B. pose proof (N.div_lt_upper_bound n 10 (10 ^ N.of_nat fuel) ltac:(lia) B) as B'.
    rewrite IH; [|exact B'|destruct fuel; [cbn in B; lia|lia]]. cbn [digits_from].
    pose proof (N.mod_upper_bound n 10 ltac:(lia)) as M. pose proof (N.div_mod n 10 ltac:(lia)) as D.
    replace ((48 <=? 48 + n mod 10) && (48 + n mod 10 <=? 57))%N with true by lia. f_equal. lia.
Qed.
Lemma digits_not_nil fuel : forall n acc, (0 < fuel)%nat -> decimal_digits fuel n acc <> [].
Proof.
  assert (H : forall fuel n acc, acc <> [] -> decimal_digits fuel n acc <> []).
  { induction fuel0 as [|f IH]; intros n acc A; [exact A|]. cbn. destruct (N.ltb n 10); [discriminate|]. apply IH. discriminate. }
  intros n acc F. destruct fuel as [|f]; [lia|]. cbn. destruct (N.ltb n 10); [discriminate|]. apply H. discriminate.
Qed.
Lemma size_enough n : (n < 10 ^ N.of_nat (S (N.size_nat n)))%N.
Proof.
  assert (S : (n < 2 ^ N.of_nat (N.size_nat n))%N).
  { destruct n as [|p]; [reflexivity|]. cbn [N.size_nat]. induction p as [p IH|p IH|]; [| |reflexivity]; cbn [Pos.size_nat];
      rewrite Nat2N.inj_succ, N.pow_succ_r'; lia. }
  apply N.lt_le_trans with (1 := S). rewrite Nat2N.inj_succ, N.pow_succ_r'.
  apply N.le_trans with (10 ^ N.of_nat (N.size_nat n))%N; [apply N.pow_le_mono_l; lia|].
  pose proof (N.pow_nonzero 10 (N.of_nat (N.size_nat n)) ltac:(lia)). lia.
Qed.

Lemma usize_reads n : reads (display_usize n) n.
Proof. split; [apply digits_not_nil; lia|]. unfold display_usize. rewrite digits_reads by (try apply size_enough; lia). reflexivity. Qed.
Lemma i64_reads z : 0 <= z -> reads (display_i64 z) (Z.to_N z).
Proof. intros H. destruct z as [|p|p]; [apply usize_reads|apply usize_reads|lia]. Qed.
Lemma digits_app a : forall acc b, digits_from acc (a ++ b) = match digits_from acc a with Some n => digits_from n b | None => None end.
Proof. induction a as [|c a IH]; intros acc b; [reflexivity|]. cbn [app digits_from]. destruct (_ && _); [apply IH|reflexivity]. Qed.
Lemma hundredths_read h : reads_2 (display_hundredths h) (inject_Z (Z.of_N h) / 100).
Proof.
  unfold display_hundredths. exists (display_usize (h / 100)), (48 + h / 10 mod 10)%N, (48 + h mod 10)%N, h.
  split; [reflexivity|]. destruct (usize_reads (h / 100)) as [NN R]. split; [exact NN|]. split; [|reflexivity].
  rewrite digits_app, R. cbn [digits_from]. pose proof (N.mod_upper_bound (h / 10) 10 ltac:(lia)) as M1. pose proof (N.mod_upper_bound h 10 ltac:(lia)) as M2.
  replace ((48 <=? 48 + h / 10 mod 10) && (48 + h / 10 mod 10 <=? 57))%N with true by lia.
  replace ((48 <=? 48 + h mod 10) && (48 + h mod 10 <=? 57))%N with true by lia. f_equal.
  pose proof (N.div_mod h 10 ltac:(lia)). pose proof (N.div_mod (h / 10) 10 ltac:(lia)) as D. rewrite N.div_div in D by lia. change (10 * 10)%N with 100%N in D. lia.
Qed.

(** ** Rounding to hundredths *)

Lemma hundredths_near m e : (Qabs (inject_Z (Z.of_N (hundredths m e)) / 100 - val m e) <= 1 / 200)%Q.
Proof.
  assert (K : (Qabs (2 * inject_Z (Z.of_N (hundredths m e)) - 200 * val m e) <= 1)%Q).
  { unfold val, hundredths. destruct e as [|k|k].
    - change (Z.to_N 0) with 0%N. replace (Z.of_N (100 * N.pos m * 2 ^ 0)) with (100 * Z.pos m) by lia. rewrite inject_Z_mult. change (inject_Z 100) with 100%Q.
      setoid_replace (2 * (100 * inject_Z (Z.pos m)) - 200 * (inject_Z (Z.pos m) * 2 ^ 0))%Q with 0%Q by (cbn; ring). discriminate.
    - replace (Z.of_N (100 * N.pos m * 2 ^ Z.to_N (Z.pos k))) with (100 * Z.pos m * 2 ^ Z.pos k) by (rewrite !N2Z.inj_mul, N2Z.inj_pow; reflexivity).
      rewrite !inject_Z_mult, two_pow_Z by lia. change (inject_Z 100) with 100%Q.
      setoid_replace (2 * (100 * inject_Z (Z.pos m) * 2 ^ Z.pos k) - 200 * (inject_Z (Z.pos m) * 2 ^ Z.pos k))%Q with 0%Q by ring. discriminate.
    - set (num := (100 * N.pos m)%N). set (den := (2 ^ N.pos k)%N). cbv zeta.
      assert (D0 : (den <> 0)%N) by (apply N.pow_nonzero; lia).
      pose proof (N.div_mod num den D0) as D. pose proof (N.mod_upper_bound num den D0) as M. set (q := (num / den)%N) in *. set (r := (num mod den)%N) in *.
      set (h := if (2 * r <? den)%N then q else if (den <? 2 * r)%N then (q + 1)%N else if N.even q then q else (q + 1)%N).
      assert (H : (2 * num <= 2 * h * den + den /\ 2 * h * den <= 2 * num + den)%N).
      { unfold h. destruct (N.ltb_spec (2 * r) den); [nia|]. destruct (N.ltb_spec den (2 * r)); [nia|]. destruct (N.even q); nia. }
      assert (HZ : 200 * Z.pos m <= 2 * Z.of_N h * 2 ^ Z.pos k + 2 ^ Z.pos k /\ 2 * Z.of_N h * 2 ^ Z.pos k <= 200 * Z.pos m + 2 ^ Z.pos k).
      { assert (Q : Z.of_N den = 2 ^ Z.pos k) by (unfold den; rewrite N2Z.inj_pow; reflexivity). rewrite <- Q. unfold num in H. clear - H. lia. }
      clearbody h. clear - HZ. destruct HZ as [H1 H2]. rewrite Zle_Qle in H1, H2.
      rewrite !inject_Z_plus, !inject_Z_mult, two_pow_Z in H1, H2 by lia. change (inject_Z 200) with 200%Q in *. change (inject_Z 2) with 2%Q in *.
      pose proof (two_pow_pos (Z.pos k)) as P.
      assert (V : (2 ^ Z.neg k * 2 ^ Z.pos k == 1)%Q) by (rewrite <- two_pow_add; replace (Z.neg k + Z.pos k) with 0 by lia; reflexivity).
      set (c := (2 ^ Z.pos k)%Q) in *. set (b := (2 ^ Z.neg k)%Q) in *. set (x := inject_Z (Z.pos m)) in *. set (y := inject_Z (Z.of_N h)) in *. clearbody c b x y.
      apply Qabs_Qle_condition. split; apply (Qmult_le_r _ _ c P).
      + setoid_replace ((2 * y - 200 * (x * b)) * c)%Q with (2 * y * c - 200 * x * (b * c))%Q by ring. rewrite V. lra.
      + setoid_replace ((2 * y - 200 * (x * b)) * c)%Q with (2 * y * c - 200 * x * (b * c))%Q by ring. rewrite V. lra. }
  apply Qabs_Qle_condition in K. apply Qabs_Qle_condition. unfold Qdiv. change (/ 100)%Q with (1 # 100)%Q. change (1 * / 200)%Q with (1 # 200)%Q. lra.
Qed.

Lemma shown_near m e k q : (0 <= k <= 8)%Q -> (0 <= q)%Q -> (q * (u - k) <= val m e * u)%Q -> (val m e * u <= q * (u + k))%Q ->
  exists r, reads_2 (fixed_2 (S754_finite false m e)) r /\ to_2_decimals r q.
Proof.
  intros K Q0 L U. eexists. split; [apply hundredths_read|]. unfold to_2_decimals.
  pose proof (nearly_of k (val m e) q K Q0 L U) as N. unfold nearly in N. pose proof (hundredths_near m e) as H.
  setoid_replace (inject_Z (Z.of_N (hundredths m e)) / 100 - q)%Q with ((inject_Z (Z.of_N (hundredths m e)) / 100 - val m e) + (val m e - q))%Q by ring.
  apply Qle_trans with (1 := Qabs_triangle _ _). apply Qplus_le_compat; assumption.
Qed.

Lemma pad_shape w t : exists spaces, pad_left w t = spaces ++ t /\ Forall (eq 32%N) spaces /\ length (spaces ++ t) = Nat.max w (length t).
Proof.
  exists (repeat 32%N (w - length t)). split; [reflexivity|]. split; [|rewrite app_length, repeat_length; lia].
  apply Forall_forall. intros x I. symmetry. exact (repeat_spec _ _ _ I).
Qed.

Lemma text_of cache elapsed st : Z.of_nat (length cache) <= 88179840 -> (exists e, In e cache /\ e <> 255%N) -> 1 <= elapsed <= three_years ->
  stats_new cache elapsed = Done st ->
  exists a n m1 e1 m2 e2, Z.of_N (s_amount_cached st) = Z.pos a /\
    Z.of_nat (length (filter (fun e => negb (N.eqb e 255)) cache)) = Z.pos a /\ Z.of_nat (length cache) = Z.pos n /\ Z.pos a <= Z.pos n /\ s_time_elapsed_ms st = elapsed /\
    f64_mul (s_percent_cached st) (f64_of_Z 100) = S754_finite false m1 e1 /\
    (100 * (inject_Z (Z.pos a) / inject_Z (Z.pos n)) * (u - 3) <= val m1 e1 * u)%Q /\ (val m1 e1 * u <= 100 * (inject_Z (Z.pos a) / inject_Z (Z.pos n)) * (u + 3))%Q /\
    s_states_per_second st = S754_finite false m2 e2 /\
    (inject_Z (Z.pos a) / (inject_Z elapsed / 1000) * (u - 3) <= val m2 e2 * u)%Q /\ (val m2 e2 * u <= inject_Z (Z.pos a) / (inject_Z elapsed / 1000) * (u + 3))%Q.
Proof.
  intros HL HX HE R. pose proof (some_filled cache HX) as A1. pose proof (amount_filled cache) as AF. pose proof (amount_le cache) as AL.
  pose proof three_years_limit as TL. unfold limit in TL.
  rewrite <- AF in A1 |- *. assert (AN : Z.of_N (amount_cached cache) <= Z.of_nat (length cache)) by lia.
  assert (SA : s_amount_cached st = amount_cached cache /\ s_time_elapsed_ms st = elapsed /\
    s_percent_cached st = f64_div (f64_of_Z (Z.of_N (amount_cached cache))) (f64_of_Z (Z.of_nat (length cache))) /\
    s_states_per_second st = f64_mul (f64_div (f64_of_Z (Z.of_N (amount_cached cache))) (f64_of_Z elapsed)) (f64_of_Z 1000)).
  { unfold stats_new in R. destruct (duration_seconds _) in R; [|discriminate R]. injection R as <-. repeat split. }
  clear R. destruct SA as (-> & -> & -> & ->). set (a := Z.of_N (amount_cached cache)) in *. set (n := Z.of_nat (length cache)) in *. clearbody a n.
  destruct a as [|a|a]; [lia| |lia]. destruct n as [|n|n]; [lia| |lia]. destruct elapsed as [|E|E]; [lia| |lia].
  destruct (scaled_near a n 100 false ltac:(lia) ltac:(lia) ltac:(lia)) as (m1 & e1 & D1 & _ & _ & L1 & U1). cbn [signed] in D1. change (inject_Z 100) with 100%Q in L1, U1.
  destruct (rate_near a E false ltac:(lia) ltac:(lia)) as (m2 & e2 & D2 & _ & _ & L2 & U2). cbn [signed] in D2.
  exists a, n, m1, e1, m2, e2. repeat split; assumption.
Qed.

(** The parts of the line. *)
Lemma text_parts cache elapsed st :
  Z.of_nat (length cache) <= 88179840 -> (exists e, In e cache /\ e <> 255%N) -> 1 <= elapsed <= three_years ->
  stats_new cache elapsed = Done st ->
  let filled := length (filter (fun e => negb (N.eqb e 255)) cache) in
  let done := inject_Z (Z.of_nat filled) in
  let all := inject_Z (Z.of_nat (length cache)) in
  let rate := (done / (inject_Z elapsed / 1000))%Q in
  exists spaces percent m2 e2 m left,
    pad_left 8 (display_usize (s_amount_cached st)) = spaces ++ display_usize (s_amount_cached st) /\
    fixed_2 (f64_mul (s_percent_cached st) (f64_of_Z 100)) = percent /\ s_time_elapsed_ms st = elapsed /\
    s_states_per_second st = S754_finite false m2 e2 /\ 0 <= s_eta_seconds st /\ num_minutes (s_eta_seconds st) = Z.of_N m /\
    Forall (eq 32%N) spaces /\ length (spaces ++ display_usize (s_amount_cached st)) = Nat.max 8 (length (display_usize (s_amount_cached st))) /\
    reads (display_usize (s_amount_cached st)) (N.of_nat filled) /\
    (exists q, reads_2 percent q /\ to_2_decimals q (100 * (done / all))) /\
    (exists q, reads_2 (display_hundredths (hundredths m2 e2)) q /\ to_2_decimals q rate) /\
    nearly left ((all - done) / rate) /\ (60 * inject_Z (Z.of_N m) <= left)%Q /\ (left < 60 * (inject_Z (Z.of_N m) + 1))%Q.
Proof.
  intros HL HX HE R. cbv zeta.
  destruct (text_of cache elapsed st HL HX HE R) as (a & n & m1 & e1 & m2 & e2 & SA & F & LN & AN & ST & D1 & L1 & U1 & D2 & L2 & U2).
  destruct (C66_figures_partial cache elapsed HL HX HE) as (st' & R' & _ & _ & left & NL & T1 & T2). rewrite R in R'. injection R' as <-.
  destruct (pad_shape 8 (display_usize (s_amount_cached st))) as (spaces & PS & SP & LP).
  exists spaces, (fixed_2 (S754_finite false m1 e1)), m2, e2, (Z.to_N (num_minutes (s_eta_seconds st))), left.
  split; [exact PS|]. rewrite D1. split; [reflexivity|]. split; [exact ST|]. split; [exact D2|].
  assert (RC : reads (display_usize (s_amount_cached st)) (N.of_nat (length (filter (fun e => negb (N.eqb e 255)) cache)))).
  { assert (Q : s_amount_cached st = N.of_nat (length (filter (fun e => negb (N.eqb e 255)) cache))) by lia. rewrite <- Q. apply usize_reads. }
  rewrite F, LN in *.
  assert (PE : (0 < inject_Z elapsed)%Q) by (change 0%Q with (inject_Z 0); rewrite <- Zlt_Qlt; lia).
  assert (P1 : (0 <= 100 * (inject_Z (Z.pos a) / inject_Z (Z.pos n)))%Q).
  { apply Qmult_le_0_compat; [discriminate|]. apply Qle_shift_div_l; [reflexivity|rewrite Qmult_0_l; discriminate]. }
  assert (P2 : (0 < inject_Z (Z.pos a) / (inject_Z elapsed / 1000))%Q).
  { apply Qlt_shift_div_l; [|rewrite Qmult_0_l; reflexivity]. apply Qlt_shift_div_l; [reflexivity|rewrite Qmult_0_l; exact PE]. }
  assert (LP0 : (0 <= left)%Q).
  { assert (P3 : (0 <= (inject_Z (Z.pos n) - inject_Z (Z.pos a)) / (inject_Z (Z.pos a) / (inject_Z elapsed / 1000)))%Q).
    { apply Qle_shift_div_l; [exact P2|]. rewrite Qmult_0_l. rewrite Zle_Qle in AN. lra. }
    unfold nearly in NL. apply Qabs_Qle_condition in NL. destruct NL as [NL _]. set (q := ((inject_Z (Z.pos n) - inject_Z (Z.pos a)) / (inject_Z (Z.pos a) / (inject_Z elapsed / 1000)))%Q) in *. clearbody q.
    assert (Q : (q / inject_Z (2 ^ 49) <= q)%Q).
    { apply Qle_shift_div_r; [reflexivity|]. setoid_replace q with (q * 1)%Q at 1 by ring. rewrite !(Qmult_comm q). apply Qmult_le_compat_r; [discriminate|exact P3]. }
    lra. }
  assert (E0 : 0 <= s_eta_seconds st).
  { enough (0 < s_eta_seconds st + 1) by lia. rewrite Zlt_Qlt, inject_Z_plus. apply Qle_lt_trans with (1 := LP0). exact T2. }
  unfold num_minutes. rewrite Z.quot_div_nonneg by lia.
  pose proof (Z.div_mod (s_eta_seconds st) 60 ltac:(lia)) as DM. pose proof (Z.mod_pos_bound (s_eta_seconds st) 60 ltac:(lia)) as MB.
  assert (M0 : 0 <= s_eta_seconds st / 60) by (apply Z.div_pos; lia).
  rewrite Z2N.id by exact M0. split; [exact E0|]. split; [reflexivity|]. split; [exact SP|]. split; [exact LP|]. split; [exact RC|].
  split; [apply (shown_near _ _ 3); [split; discriminate|exact P1|exact L1|exact U1]|].
  split; [apply (shown_near _ _ 3); [split; discriminate|apply Qlt_le_weak, P2|exact L2|exact U2]|].
  split; [exact NL|].
  set (m := s_eta_seconds st / 60) in *.
  assert (B1 : 60 * m <= s_eta_seconds st) by lia. assert (B2 : s_eta_seconds st + 1 <= 60 * (m + 1)) by lia.
  rewrite Zle_Qle in B1, B2. rewrite inject_Z_mult in B1. rewrite inject_Z_mult, !inject_Z_plus in B2. change (inject_Z 60) with 60%Q in *. change (inject_Z 1) with 1%Q in *.
  split; [apply Qle_trans with (1 := B1); exact T1|apply Qlt_le_trans with (1 := T2); exact B2].
Qed.

(** The line of a report has the number of states filled in, right-justified, their percentage
    of the table to two decimals, the whole seconds that have passed, the states per second to
    two decimals, and the whole minutes left at that rate. *)
Theorem C91_text : forall (cache : list N) (elapsed : Z) (st : Stats),
  Z.of_nat (length cache) <= 88179840 -> (exists e, In e cache /\ e <> 255%N) -> 1 <= elapsed <= three_years ->
  stats_new cache elapsed = Done st ->
  let filled := length (filter (fun e => negb (N.eqb e 255)) cache) in
  let done := inject_Z (Z.of_nat filled) in
  let all := inject_Z (Z.of_nat (length cache)) in
  let rate := (done / (inject_Z elapsed / 1000))%Q in
  exists spaces count percent seconds speed minutes,
    stats_text st = spaces ++ count ++ lit " states cached (" ++ percent ++ lit "%) in " ++ seconds ++ lit "s at " ++ speed ++
      lit " states/s (ETA: " ++ minutes ++ lit "m)" /\
    Forall (eq 32%N) spaces /\ length (spaces ++ count) = Nat.max 8 (length count) /\ reads count (N.of_nat filled) /\
    (exists q, reads_2 percent q /\ to_2_decimals q (100 * (done / all))) /\
    reads seconds (Z.to_N (elapsed / 1000)) /\
    (exists q, reads_2 speed q /\ to_2_decimals q rate) /\
    (exists m left, reads minutes m /\ nearly left ((all - done) / rate) /\
      (60 * inject_Z (Z.of_N m) <= left)%Q /\ (left < 60 * (inject_Z (Z.of_N m) + 1))%Q).
Proof.
  intros cache elapsed st HL HX HE R. cbv zeta.
  destruct (text_parts cache elapsed st HL HX HE R) as (spaces & percent & m2 & e2 & m & left & PS & P1 & ST & D2 & E0 & M & SP & LP & RC & RP & RR & NL & B1 & B2).
  exists spaces, (display_usize (s_amount_cached st)), percent, (display_i64 (num_seconds elapsed)), (display_hundredths (hundredths m2 e2)), (display_i64 (Z.of_N m)).
  split. { unfold stats_text. rewrite PS, P1, D2, ST, M, <- app_assoc. reflexivity. }
  split; [exact SP|]. split; [exact LP|]. split; [exact RC|]. split; [exact RP|].
  split. { unfold num_seconds. rewrite <- Z.quot_div_nonneg by lia. apply i64_reads. apply Z.quot_pos; lia. }
  split; [exact RR|]. exists m, left. split; [|split; [exact NL|split; assumption]].
  pose proof (i64_reads (Z.of_N m) ltac:(lia)) as RM. rewrite N2Z.id in RM. exact RM.
Qed.

(** ** A clock that was set back *)

Lemma round_aux_sign mx ex lx : binary_round_aux 53 1024 true mx ex lx = SFopp (binary_round_aux 53 1024 false mx ex lx).
Proof.
  unfold binary_round_aux. destruct (shr_fexp _ _ mx ex lx) as [mrs e1]. destruct (shr_fexp _ _ _ e1 loc_Exact) as [mrs' e2].
  destruct (shr_m mrs'); [reflexivity| |reflexivity]. destruct (e2 <=? 1024 - 53); reflexivity.
Qed.
Lemma div_sign_r m1 e1 m2 e2 : f64_div (S754_finite false m1 e1) (S754_finite true m2 e2) = SFopp (f64_div (S754_finite false m1 e1) (S754_finite false m2 e2)).
Proof. unfold f64_div, SFdiv. destruct (SFdiv_core_binary _ _ _ _ _ _) as [[mz ez] lz]. apply round_aux_sign. Qed.
Lemma mul_sign_l m1 e1 m2 e2 : f64_mul (S754_finite true m1 e1) (S754_finite false m2 e2) = SFopp (f64_mul (S754_finite false m1 e1) (S754_finite false m2 e2)).
Proof. apply round_aux_sign. Qed.

(** Setting the clock back to as long before the start as it was after it negates the rate and
    the time left. *)
Lemma set_back cache elapsed st st' :
  Z.of_nat (length cache) <= 88179840 -> (exists e, In e cache /\ e <> 255%N) -> 1 <= elapsed <= three_years ->
  stats_new cache elapsed = Done st -> stats_new cache (- elapsed) = Done st' ->
  s_amount_cached st' = s_amount_cached st /\ s_percent_cached st' = s_percent_cached st /\ s_time_elapsed_ms st' = - elapsed /\
  s_states_per_second st' = SFopp (s_states_per_second st) /\ s_eta_seconds st' = - s_eta_seconds st.
Proof.
  intros HL HX HE R R'. pose proof (some_filled cache HX) as A1. pose proof (amount_filled cache) as AF. pose proof (amount_le cache) as AL.
  pose proof three_years_limit as TL. unfold limit in TL.
  unfold stats_new in R, R'. set (P := percent_cached _ _) in *. clearbody P. rewrite <- AF in A1. set (a := Z.of_N (amount_cached cache)) in *.
  assert (AN : a <= Z.of_nat (length cache)) by (unfold a; lia). set (n := Z.of_nat (length cache)) in *.
  clearbody a n. destruct a as [|a|a]; [lia| |lia]. destruct elapsed as [|E|E]; [lia| |lia]. cbn [Z.opp] in R'.
  destruct (rate_near a E false ltac:(lia) ltac:(lia)) as (m2 & e2 & D2 & _). cbn [signed] in D2.
  assert (D2' : f64_mul (f64_div (f64_of_Z (Z.pos a)) (f64_of_Z (Z.neg E))) (f64_of_Z 1000) = S754_finite true m2 e2).
  { destruct (of_Z_exact a ltac:(lia)) as (ma & ea & _ & _ & FA & _ & _). destruct (of_Z_exact E ltac:(lia)) as (me & ee & _ & _ & FE & FE' & _).
    destruct (of_Z_exact 1000 ltac:(lia)) as (mc & ec & _ & _ & FC & _ & _).
    destruct (div_near a E false ltac:(lia) ltac:(lia)) as (m1 & e1 & D1 & _). cbn [signed] in D1.
    rewrite D1 in D2. rewrite FA, FE in D1. rewrite FA, FE', div_sign_r, D1. cbn [SFopp negb]. rewrite FC in *. rewrite mul_sign_l, D2. reflexivity. }
  rewrite D2 in R. rewrite D2' in R'.
  destruct (n - Z.pos a) as [|l|l] eqn:QL; [| |lia].
  - cbn in R, R'. injection R as <-. injection R' as <-. repeat split.
  - destruct (left_near a E l false ltac:(lia) ltac:(lia) ltac:(lia)) as (m3 & e3 & D3 & _). cbn [signed] in D3. rewrite D2 in D3.
    destruct (of_Z_exact l ltac:(lia)) as (ml & el & _ & _ & FL & _ & _). rewrite FL in *. rewrite D3 in R. rewrite div_sign_r, D3 in R'. cbn [SFopp negb] in R'.
    unfold duration_seconds, f64_to_i64 in R, R'. set (k := if 0 <=? e3 then _ else _) in *.
    assert (K : 0 <= k). { unfold k. destruct (Z.leb_spec 0 e3); [apply Z.mul_nonneg_nonneg; [lia|apply Z.pow_nonneg; lia]|apply Z.div_pos; [lia|apply Z.pow_pos_nonneg; lia]]. }
    clearbody k. change (i64_max / 1000) with 9223372036854775 in *. change i64_max with 9223372036854775807 in *.
    destruct (_ && _) eqn:G in R; [|discriminate R]. destruct (_ && _) eqn:G' in R'; [|discriminate R'].
    cbn [bind_o] in R, R'. injection R as <-. injection R' as <-. cbn [s_amount_cached s_percent_cached s_time_elapsed_ms s_states_per_second s_eta_seconds SFopp negb].
    repeat split. lia.
Qed.

(** A minus sign, unless the number is zero. *)
Definition minus (n : N) (t : text) : text := if N.eqb n 0 then t else lit "-" ++ t.
Lemma minus_display n : display_i64 (- Z.of_N n) = minus n (display_usize n).
Proof. destruct n; reflexivity. Qed.

(** If the clock was set back, to a time before the start, the report is the one for as long after the
    start with minus signs at the time, the rate and the time left. *)
Theorem C91_clock_set_back : forall (cache : list N) (elapsed : Z) (st : Stats),
  Z.of_nat (length cache) <= 88179840 -> (exists e, In e cache /\ e <> 255%N) -> 1 <= elapsed <= three_years ->
  stats_new cache (- elapsed) = Done st ->
  let filled := length (filter (fun e => negb (N.eqb e 255)) cache) in
  let done := inject_Z (Z.of_nat filled) in
  let all := inject_Z (Z.of_nat (length cache)) in
  let rate := (done / (inject_Z elapsed / 1000))%Q in
  exists spaces count percent seconds speed minutes s m,
    stats_text st = spaces ++ count ++ lit " states cached (" ++ percent ++ lit "%) in " ++ minus s seconds ++ lit "s at -" ++ speed ++
      lit " states/s (ETA: " ++ minus m minutes ++ lit "m)" /\
    Forall (eq 32%N) spaces /\ length (spaces ++ count) = Nat.max 8 (length count) /\ reads count (N.of_nat filled) /\
    (exists q, reads_2 percent q /\ to_2_decimals q (100 * (done / all))) /\
    reads seconds s /\ s = Z.to_N (elapsed / 1000) /\
    (exists q, reads_2 speed q /\ to_2_decimals q rate) /\
    reads minutes m /\ exists left, nearly left ((all - done) / rate) /\
      (60 * inject_Z (Z.of_N m) <= left)%Q /\ (left < 60 * (inject_Z (Z.of_N m) + 1))%Q.
Proof.
  intros cache elapsed st' HL HX HE R'. cbv zeta.
  destruct (C66_report_partial cache elapsed HL HX ltac:(lia)) as (st & R & _).
  destruct (set_back cache elapsed st st' HL HX HE R R') as (S1 & S2 & S3 & S4 & S5).
  destruct (text_parts cache elapsed st HL HX HE R) as (spaces & percent & m2 & e2 & m & left & PS & P1 & ST & D2 & E0 & M & SP & LP & RC & RP & RR & NL & B1 & B2).
  exists spaces, (display_usize (s_amount_cached st)), percent, (display_usize (Z.to_N (elapsed / 1000))), (display_hundredths (hundredths m2 e2)), (display_usize m),
    (Z.to_N (elapsed / 1000)), m.
  split.
  { unfold stats_text. rewrite S1, S2, S3, S4, S5, PS, P1, D2, <- app_assoc.
    assert (Q1 : num_seconds (- elapsed) = - Z.of_N (Z.to_N (elapsed / 1000))).
    { unfold num_seconds. rewrite Z.quot_opp_l by lia. rewrite Z2N.id by (apply Z.div_pos; lia). rewrite Z.quot_div_nonneg by lia. reflexivity. }
    assert (Q2 : num_minutes (- s_eta_seconds st) = - Z.of_N m) by (unfold num_minutes in *; rewrite Z.quot_opp_l by lia; rewrite M; reflexivity).
    rewrite Q1, Q2, !minus_display. reflexivity. }
  split; [exact SP|]. split; [exact LP|]. split; [exact RC|]. split; [exact RP|]. split; [apply usize_reads|]. split; [reflexivity|].
  split; [exact RR|]. split; [apply usize_reads|]. exists left. split; [exact NL|split; assumption].
Qed.

(** A report within the first millisecond, as the first one usually is, divides by zero: it says
    that the rate is infinite and that no time is left. *)
Theorem C91_at_once : forall (cache : list N) (st : Stats),
  Z.of_nat (length cache) <= 88179840 -> (exists e, In e cache /\ e <> 255%N) -> stats_new cache 0 = Done st ->
  let filled := length (filter (fun e => negb (N.eqb e 255)) cache) in
  exists spaces count percent,
    stats_text st = spaces ++ count ++ lit " states cached (" ++ percent ++ lit "%) in 0s at inf states/s (ETA: 0m)" /\
    Forall (eq 32%N) spaces /\ length (spaces ++ count) = Nat.max 8 (length count) /\ reads count (N.of_nat filled) /\
    exists q, reads_2 percent q /\ to_2_decimals q (100 * (inject_Z (Z.of_nat filled) / inject_Z (Z.of_nat (length cache)))).
Proof.
  intros cache st HL HX R. cbv zeta.
  destruct (C66_report_partial cache 1 HL HX ltac:(vm_compute; discriminate)) as (st1 & R1 & _).
  destruct (text_of cache 1 st1 HL HX ltac:(split; [lia|vm_compute; discriminate]) R1) as (a & n & m1 & e1 & m2 & e2 & SA & F & LN & AN & _ & D1 & L1 & U1 & _).
  pose proof (amount_filled cache) as AF.
  assert (PC : s_percent_cached st = s_percent_cached st1 /\ s_amount_cached st = amount_cached cache /\ s_time_elapsed_ms st = 0 /\
               s_states_per_second st = S754_infinity false /\ s_eta_seconds st = 0).
  { unfold stats_new in R1. destruct (duration_seconds _) in R1; [|discriminate R1]. injection R1 as <-. cbn [s_percent_cached].
    unfold stats_new in R. rewrite AF, F, LN in R.
    assert (INF : f64_mul (f64_div (f64_of_Z (Z.pos a)) (f64_of_Z 0)) (f64_of_Z 1000) = S754_infinity false).
    { destruct (of_Z_exact a ltac:(lia)) as (m & e & _ & _ & -> & _). reflexivity. }
    rewrite INF in R.
    assert (LEFT : f64_to_i64 (f64_div (f64_of_Z (Z.pos n - Z.pos a)) (S754_infinity false)) = 0).
    { destruct (Z.pos n - Z.pos a) as [|q|q] eqn:Q; [reflexivity| |lia].
      destruct (of_Z_exact q ltac:(lia)) as (m & e & _ & _ & -> & _). reflexivity. }
    rewrite LEFT in R. cbn [bind_o duration_seconds] in R. injection R as <-. repeat split. }
  destruct PC as (P1 & P2 & P3 & P4 & P5).
  destruct (pad_shape 8 (display_usize (s_amount_cached st))) as (spaces & PS & SP & LP).
  exists spaces, (display_usize (s_amount_cached st)), (fixed_2 (S754_finite false m1 e1)).
  split. { unfold stats_text. rewrite PS, P1, D1, P3, P4, P5, <- app_assoc. reflexivity. }
  split; [exact SP|]. split; [exact LP|]. split.
  { assert (Q : s_amount_cached st = N.of_nat (length (filter (fun e => negb (N.eqb e 255)) cache))) by lia. rewrite <- Q. apply usize_reads. }
  rewrite F, LN in *. apply (shown_near _ _ 3); [split; discriminate| |exact L1|exact U1].
  apply Qmult_le_0_compat; [discriminate|]. apply Qle_shift_div_l; [reflexivity|rewrite Qmult_0_l; discriminate].
Qed.

(** The last report says 100.00% and no time left. *)
Theorem C91_finished : forall (cache : list N) (elapsed : Z) (st : Stats),
  Z.of_nat (length cache) <= 88179840 -> cache <> [] -> Forall (fun e => e <> 255%N) cache -> 1 <= elapsed <= three_years ->
  stats_new cache elapsed = Done st ->
  exists spaces speed, stats_text st = spaces ++ display_usize (N.of_nat (length cache)) ++ lit " states cached (100.00%) in " ++
    display_usize (Z.to_N (elapsed / 1000)) ++ lit "s at " ++ speed ++ lit " states/s (ETA: 0m)".
Proof.
  intros cache elapsed st HL NN HA HE R.
  assert (HX : exists e, In e cache /\ e <> 255%N).
  { destruct cache as [|x r]; [destruct (NN eq_refl)|]. exists x. split; [left; reflexivity|]. inversion HA; assumption. }
  assert (FA : filter (fun e => negb (N.eqb e 255)) cache = cache).
  { clear - HA. induction HA as [|x r H _ IH]; [reflexivity|]. cbn [filter]. apply N.eqb_neq in H. rewrite H. cbn. f_equal. exact IH. }
  destruct (text_of cache elapsed st HL HX HE R) as (a & n & m1 & e1 & m2 & e2 & SA & F & LN & AN & ST & D1 & L1 & U1 & D2 & L2 & U2).
  rewrite FA, LN in F. injection F as <-.
  assert (AM : s_amount_cached st = N.of_nat (length cache)) by lia.
  assert (E0 : s_eta_seconds st = 0).
  { unfold stats_new in R. assert (Q : Z.of_nat (length cache) - Z.of_N (amount_cached cache) = 0) by (rewrite amount_filled, FA; lia). rewrite Q in R.
    destruct (duration_seconds _) as [t|] eqn:DS in R; [|discriminate R]. cbn [bind_o] in R.
    assert (K : s_states_per_second st = f64_mul (f64_div (f64_of_Z (Z.of_N (amount_cached cache))) (f64_of_Z elapsed)) (f64_of_Z 1000) /\ s_eta_seconds st = t)
      by (injection R as <-; split; reflexivity).
    destruct K as [K ->]. rewrite K in D2. rewrite D2 in DS. revert DS. clear. unfold duration_seconds. cbn. intros [= <-]. reflexivity. }
  destruct (pad_shape 8 (display_usize (s_amount_cached st))) as (spaces & PS & _ & _).
  exists spaces, (fixed_2 (S754_finite false m2 e2)). unfold stats_text. rewrite PS, D1, D2, ST, E0, AM, <- !app_assoc. do 2 f_equal.
  assert (H : hundredths m1 e1 = 10000%N).
  { pose proof (hundredths_near m1 e1) as H. apply Qabs_Qle_condition in H. set (h := hundredths m1 e1) in *. set (v := val m1 e1) in *.
    assert (Q : (100 * (inject_Z (Z.pos n) / inject_Z (Z.pos n)) == 100)%Q) by (field; discriminate). rewrite Q in L1, U1. unfold u in L1, U1.
    change (inject_Z (2 ^ 52)) with 4503599627370496%Q in L1, U1. unfold Qdiv in H. change (1 * / 200)%Q with (1 # 200)%Q in H. change (/ 100)%Q with (1 # 100)%Q in H.
    assert (H1 : (inject_Z (Z.of_N h) < inject_Z 10001)%Q) by (change (inject_Z 10001) with 10001%Q; lra).
    assert (H2 : (inject_Z 9999 < inject_Z (Z.of_N h))%Q) by (change (inject_Z 9999) with 9999%Q; lra).
    rewrite <- Zlt_Qlt in H1, H2. lia. }
  cbn [fixed_2]. rewrite H. unfold num_seconds. rewrite Z.quot_div_nonneg by lia.
  assert (S : display_i64 (elapsed / 1000) = display_usize (Z.to_N (elapsed / 1000))).
  { assert (0 <= elapsed / 1000) by (apply Z.div_pos; lia). destruct (elapsed / 1000); [reflexivity|reflexivity|lia]. }
  rewrite S. reflexivity.
Qed.

(** ** The sequence of reports *)

(** What is known of a table after [d] rounds: the entries up to [d]. *)
Definition up_to (d : nat) (table : list N) : list N := map (fun e => if (e <=? N.of_nat d)%N then e else 255%N) table.
Definition caching_line (st : nat -> Stats) (d : nat) : text :=
  lit "Caching at depth " ++ display_usize (N.of_nat (S d)) ++ lit "; " ++ stats_text (st d).

Lemma kept_le {A} (f : A -> bool) l : (length (filter f l) <= length l)%nat.
Proof. induction l as [|a l IH]; cbn; [lia|]. destruct (f a); cbn; lia. Qed.
Lemma all_kept {A} (f : A -> bool) l : length (filter f l) = length l -> forall x, In x l -> f x = true.
Proof.
  induction l as [|a l IH]; intros H x; [intros []|]. cbn in H. destruct (f a) eqn:E.
  - intros [<-|I]; [exact E|]. apply IH; [cbn in H; lia|exact I].
  - pose proof (kept_le f l). lia.
Qed.
Lemma not_kept {A} (f : A -> bool) l : length (filter f l) <> length l -> exists i x, nth_error l i = Some x /\ f x = false.
Proof.
  induction l as [|a l IH]; intros H; [destruct (H eq_refl)|]. cbn in H. destruct (f a) eqn:E.
  - destruct IH as (i & x & N & F); [cbn in H; lia|]. exists (S i), x. auto.
  - exists 0%nat, a. auto.
Qed.

Section Reports.
  Context {T : Type} (k : Indexed T) (ok : T -> Prop) (goal : T)
    (Num : numbering ok (ix_total k) (ix_index k) (ix_from_index k))
    (Closed : forall t m, ok t -> ok (ix_moved k t m))
    (Inv : forall t m, ok t -> ix_moved k (ix_moved k t m) (move_inverse m) = t)
    (Goal_ok : ok goal) (Goal_zero : ix_index k goal = Done 0%N)
    (bound : nat) (Bound : (bound <= 253)%nat)
    (Connected : forall t, ok t -> exists al, (length al <= bound)%nat /\ fold_left (ix_moved k) al t = goal)
    (Small : Z.of_N (ix_total k) <= 88179840)
    (clock : nat -> Z) (Clock : forall i, Z.abs (clock i) <= three_years).

  Lemma successors_write state d moves : forall cache cache', cache_successors k state d moves cache = Done cache' ->
    forall e, In e cache' -> In e cache \/ e = d.
  Proof.
    induction moves as [|m moves IH]; intros cache cache' R e I; cbn [cache_successors] in R.
    - injection R as <-. left. exact I.
    - destruct (ix_index k (ix_moved k state m)) as [i|]; [|discriminate R]. cbn [bind_o] in R.
      destruct (nth_error cache (N.to_nat i)) as [x|] eqn:N; [|discriminate R]. destruct (IH _ _ R e I) as [I'|]; [|right; assumption].
      destruct (entry_get x); [left; exact I'|]. clear - I'. revert I'. generalize (N.to_nat i). induction cache as [|a c IHc]; intros n I'; [destruct n; destruct I'|].
      destruct n as [|n]; cbn in I'; destruct I' as [->|I']; [right; reflexivity|left; right; exact I'|left; left; reflexivity|].
      destruct (IHc n I'); [left; right; assumption|right; assumption].
  Qed.
  Lemma neighbours_write d indices : forall cache cache', cache_neighbours k indices d cache = Done cache' ->
    forall e, In e cache' -> In e cache \/ e = d.
  Proof.
    induction indices as [|i indices IH]; intros cache cache' R e I; cbn [cache_neighbours] in R.
    - injection R as <-. left. exact I.
    - destruct (nth_error cache i) as [x|]; [|discriminate R].
      destruct (match entry_get x with Some given => N.eqb given (d - 1) | None => false end); [|exact (IH _ _ R e I)].
      destruct (ix_from_index k (N.of_nat i)) as [st|]; [|discriminate R]. cbn [bind_o] in R.
      destruct (cache_successors k st d all_moves cache) as [c1|] eqn:S1; [|discriminate R]. cbn [bind_o] in R.
      destruct (IH _ _ R e I) as [I'|]; [|right; assumption]. exact (successors_write _ _ _ _ _ S1 e I').
  Qed.

  Definition only (d : nat) (cache : list N) : Prop := forall e, In e cache -> (e <= N.of_nat d)%N \/ e = 255%N.

  Lemma layer_up_to d cache table : (d <= 253)%nat -> layer k goal d (fun _ => False) cache -> only d cache ->
    exact_table (ix_total k) (ix_from_index k) (ix_moved k) goal table -> cache = up_to d table.
  Proof.
    intros Hd [LC LA] ON [LT X]. unfold up_to. apply nth_ext with (d := 255%N) (d' := 255%N); [rewrite map_length; lia|]. intros i Hi.
    destruct (X (N.of_nat i)) as (t & e & F & N & (al & La & Ea) & M); [lia|]. rewrite Nat2N.id in N.
    assert (AT : at_index k i t) by (split; [lia|exact F]).
    pose proof (proj1 (at_index_S k ok goal Num Closed Inv bound Bound Connected i t AT)) as Ot.
    assert (RE : reach k goal (N.to_nat e) t) by (apply (reach_solve k ok goal Closed Inv Goal_ok _ _ Ot); exists al; split; assumption).
    assert (MI : forall j, reach k goal j t -> (N.to_nat e <= j)%nat).
    { intros j R. apply (reach_solve k ok goal Closed Inv Goal_ok _ _ Ot) in R. destruct R as (al' & <- & E'). exact (M al' E'). }
    destruct (LA i t AT) as (x & Nx & C). rewrite (nth_error_nth _ _ _ Nx).
    rewrite nth_error_nth with (x := if (e <=? N.of_nat d)%N then e else 255%N) by (apply (map_nth_error (fun e => if (e <=? N.of_nat d)%N then e else 255%N)), N).
    destruct C as [(j & -> & B & R & L)|[(-> & _)|(-> & NR & _)]].
    - assert (j = N.to_nat e) as ->. { specialize (MI j R). destruct (Nat.eq_dec j (N.to_nat e)) as [|NE]; [assumption|]. exfalso. apply (L (N.to_nat e)); [lia|exact RE]. }
      rewrite N2Nat.id. destruct (N.leb_spec e (N.of_nat d)); [reflexivity|lia].
    - destruct (ON _ (nth_error_In _ _ Nx)) as [K|K]; lia.
    - destruct (N.leb_spec e (N.of_nat d)) as [K|K]; [|reflexivity]. exfalso. apply (NR (N.to_nat e)); [lia|exact RE].
  Qed.

  Lemma talking fuel : forall d cache, layer k goal d (fun _ => False) cache -> only d cache -> started k cache -> (d <= bound)%nat -> (bound - d < fuel)%nat ->
    exists table last st, build_loop k fuel (N.of_nat (S d)) cache = Done table /\
      exact_table (ix_total k) (ix_from_index k) (ix_moved k) goal table /\
      talking_loop k clock fuel d (N.of_nat (S d)) cache = (map (caching_line st) (seq d (last - d)) ++ [lit "Finished caching! " ++ stats_text (st last)], Done table) /\
      (d <= last)%nat /\ (forall e, In e table -> (e <= N.of_nat last)%N) /\ (last = d \/ In (N.of_nat last) table) /\
      forall j, (d <= j <= last)%nat -> stats_new (up_to j table) (clock j) = Done (st j).
  Proof.
    induction fuel as [|fuel IH]; intros d cache LA ON ST Hd Hf; [lia|].
    destruct (loop_exact k ok goal Num Closed Inv Goal_ok bound Bound Connected (S fuel) d cache LA Hd Hf) as (table & BL & EX).
    pose proof (layer_up_to d cache table ltac:(lia) LA ON EX) as UP.
    destruct (C66_report_partial cache (clock d)) as (st & R & A & _).
    { rewrite (proj1 ST). lia. }
    { destruct ST as [_ (e & E & NE)]. exists e. split; [exact (nth_error_In _ _ E)|exact NE]. }
    { apply Clock. }
    assert (SA : s_amount_cached st = amount_cached cache).
    { unfold stats_new in R. destruct (duration_seconds _) in R; [|discriminate R]. injection R as <-. reflexivity. }
    cbn [build_loop] in BL. cbn [talking_loop]. rewrite R, SA. destruct (N.eqb_spec (amount_cached cache) (ix_total k)) as [E|NE].
    - injection BL as ->. exists table, d, (fun _ => st). split; [cbn [build_loop]; rewrite (proj2 (N.eqb_eq _ _) E); reflexivity|]. split; [exact EX|].
      rewrite Nat.sub_diag. split; [reflexivity|]. split; [lia|]. split.
      + intros e I. destruct (ON e I) as [|K]; [assumption|]. exfalso. subst e.
        assert (FA : length (filter (fun e => match entry_get e with Some _ => true | None => false end) table) = length table).
        { unfold amount_cached in E. rewrite (proj1 ST). lia. }
        pose proof (all_kept _ _ FA 255%N I) as Q. discriminate Q.
      + split; [left; reflexivity|]. intros j Hj. replace j with d by lia. rewrite <- UP. exact R.
    - assert (Dd : (d < bound)%nat).
      { destruct (Nat.eq_dec d bound) as [->|]; [|lia]. exfalso. destruct EX as [LT X].
        assert (FA : forall e, In e cache -> entry_get e <> None).
        { rewrite UP. unfold up_to. intros e I. apply in_map_iff in I. destruct I as (x & Q & I). apply In_nth_error in I. destruct I as (i & Ni).
          assert (Hi : (i < length table)%nat) by (apply nth_error_Some; rewrite Ni; discriminate).
          destruct (X (N.of_nat i)) as (t & y & F & N & _ & M); [lia|]. rewrite Nat2N.id, Ni in N. injection N as <-.
          assert (AT : at_index k i t) by (split; [lia|exact F]).
          destruct (Connected t (proj1 (at_index_S k ok goal Num Closed Inv bound Bound Connected i t AT))) as (al & La & Ea). specialize (M al Ea).
          destruct (N.leb_spec x (N.of_nat bound)) as [|K]; [|lia]. subst e. unfold entry_get. destruct (N.eqb_spec x 255); [lia|discriminate]. }
        apply NE. unfold amount_cached.
        assert (Q : filter (fun e => match entry_get e with Some _ => true | None => false end) cache = cache).
        { clear - FA. induction cache as [|a c IHc]; [reflexivity|]. cbn [filter]. pose proof (FA a (or_introl eq_refl)) as H. destruct (entry_get a); [|destruct (H eq_refl)].
          f_equal. apply IHc. intros e I. apply FA. right. exact I. }
        rewrite Q, (proj1 ST). lia. }
      destruct (pass k ok goal Num Closed Inv Goal_ok bound Bound Connected d cache ltac:(lia) LA) as (cache' & P & LA'). rewrite P in BL |- *. cbn [bind_o] in BL.
      assert (ON' : only (S d) cache').
      { intros e I. destruct (neighbours_write _ _ _ _ P e I) as [I'|]; [|left; lia]. destruct (ON e I'); [left; lia|right; assumption]. }
      pose proof (neighbours_started k _ _ _ _ ST P) as ST'.
      destruct (IH (S d) cache' LA' ON' ST' ltac:(lia) ltac:(lia)) as (table' & last & st' & BL' & _ & TL & Hl & MX & IL & RS).
      replace (N.of_nat (S d) + 1)%N with (N.of_nat (S (S d))) in * by lia. rewrite BL in BL'. injection BL' as <-. rewrite TL. cbn [fst snd].
      exists table, last, (fun j => if (j =? d)%nat then st else st' j). split; [cbn [build_loop]; rewrite (proj2 (N.eqb_neq _ _) NE), P; cbn [bind_o]; replace (N.of_nat (S d) + 1)%N with (N.of_nat (S (S d))) by lia; exact BL|].
      split; [exact EX|]. split.
      + replace (last - d)%nat with (S (last - S d)) by lia. cbn [seq map app]. replace (last =? d)%nat with false by lia.
        unfold caching_line at 2. rewrite Nat.eqb_refl.
        rewrite (map_ext_in (caching_line st') (caching_line (fun j => if (j =? d)%nat then st else st' j)) (seq (S d) (last - S d))); [reflexivity|].
        intros j I. apply in_seq in I. unfold caching_line. replace (j =? d)%nat with false by lia. reflexivity.
      + split; [lia|]. split; [exact MX|]. split.
        * right. destruct IL as [->|I]; [|exact I].
          (* some entry of the last round was missing before *)
          destruct (not_kept (fun e => match entry_get e with Some _ => true | None => false end) cache) as (i & x & N & F).
          { unfold amount_cached in NE. rewrite (proj1 ST). lia. }
          rewrite UP in N. unfold up_to in N. rewrite nth_error_map in N. destruct (nth_error table i) as [e|] eqn:Ne; [|discriminate N]. injection N as <-.
          pose proof (nth_error_In _ _ Ne) as I. pose proof (MX e I) as B. destruct (N.leb_spec e (N.of_nat d)) as [K|K].
          -- unfold entry_get in F. destruct (N.eqb_spec e 255); [lia|discriminate F].
          -- replace (N.of_nat (S d)) with e by lia. exact I.
        * intros j Hj. destruct (Nat.eqb_spec j d) as [->|]; [rewrite <- UP; exact R|apply RS; lia].
  Qed.
End Reports.

(** The whole run of building one table. *)
Lemma talking_whole {T} (k : Indexed T) ok goal : numbering ok (ix_total k) (ix_index k) (ix_from_index k) ->
  (forall t m, ok t -> ok (ix_moved k t m)) -> (forall t m, ok t -> ix_moved k (ix_moved k t m) (move_inverse m) = t) ->
  ok goal -> ix_index k goal = Done 0%N -> forall bound, (bound <= 253)%nat ->
  (forall t, ok t -> exists al, (length al <= bound)%nat /\ fold_left (ix_moved k) al t = goal) ->
  Z.of_N (ix_total k) <= 88179840 -> forall clock, (forall i, Z.abs (clock i) <= three_years) -> forall path,
  exists table last st, build_table k = Done table /\
    exact_table (ix_total k) (ix_from_index k) (ix_moved k) goal table /\
    talking_build k clock path = ([lit "Building partial cache for " ++ path ++ lit "."] ++ map (caching_line st) (seq 0 last) ++
      [lit "Finished caching! " ++ stats_text (st last); lit "Caching done! Attempting to save to disk."], Done table) /\
    (forall e, In e table -> (e <= N.of_nat last)%N) /\ In (N.of_nat last) table /\
    forall j, (j <= last)%nat -> stats_new (up_to j table) (clock j) = Done (st j).
Proof.
  intros Num Cl Inv Gok Gz bound Hb Con Sm clock Clk path.
  destruct (proj1 Num goal Gok) as (i & Ei & Bi & Fi). rewrite Gz in Ei. injection Ei as <-.
  set (c0 := set_nth (repeat entry_none (N.to_nat (ix_total k))) 0 0%N).
  assert (N0 : nth_error c0 0 = Some 0%N) by (apply set_nth_same; rewrite repeat_length; lia).
  assert (ST : started k c0).
  { split; [unfold c0; rewrite set_nth_length, repeat_length; reflexivity|]. exists 0%N. split; [exact N0|discriminate]. }
  assert (NI : forall i, (0 < i < N.to_nat (ix_total k))%nat -> nth_error c0 i = Some 255%N).
  { intros i Hi. unfold c0. rewrite set_nth_other by lia. rewrite (nth_error_nth' _ 255%N) by (rewrite repeat_length; lia). f_equal. apply nth_repeat. }
  assert (LA : layer k goal 0 (fun _ => False) c0).
  { split; [apply ST|]. intros i t [B F]. destruct i as [|i].
    - exists 0%N. split; [exact N0|]. left. exists 0%nat. split; [reflexivity|]. split; [lia|]. cbn [N.of_nat] in F. rewrite Fi in F. injection F as <-. split; [|lia]. exists []. auto.
    - exists 255%N. split; [apply NI; lia|]. right. right. split; [reflexivity|]. split; [|intros []]. intros j Hj (al & La & Ea). destruct al; [|cbn in La; lia].
      cbn in Ea. subst t. destruct (proj2 Num (N.of_nat (S i))) as (a & E1 & _ & E2); [lia|]. rewrite F in E1. injection E1 as <-. rewrite Gz in E2. injection E2. lia. }
  assert (ON : only 0 c0).
  { intros e I. apply In_nth_error in I. destruct I as (i & Ni). destruct i as [|i]; [left; rewrite N0 in Ni; injection Ni as <-; lia|]. right.
    assert (Hi : (S i < length c0)%nat) by (apply nth_error_Some; rewrite Ni; discriminate). rewrite (proj1 ST) in Hi. rewrite NI in Ni by lia. injection Ni as <-. reflexivity. }
  destruct (talking k ok goal Num Cl Inv Gok bound Hb Con Sm clock Clk 254 0 c0 LA ON ST ltac:(lia) ltac:(lia)) as (table & last & st & BL & EX & TL & _ & MX & IL & RS).
  change (N.of_nat 1) with 1%N in *. exists table, last, st.
  assert (NZ : (ix_total k =? 0)%N = false) by (apply N.eqb_neq; lia).
  split. { unfold build_table. cbv zeta. rewrite NZ. exact BL. }
  split; [exact EX|]. split.
  { unfold talking_build. cbv zeta. rewrite NZ. fold c0. rewrite TL. cbn [fst snd]. rewrite Nat.sub_0_r, <- app_assoc. reflexivity. }
  split; [exact MX|]. split.
  - destruct IL as [->|I]; [|exact I]. destruct (proj2 EX 0%N Bi) as (t & e & F & N & _ & M). rewrite Fi in F. injection F as <-.
    specialize (M [] eq_refl). cbn in M. assert (e = 0%N) as -> by lia. exact (nth_error_In _ _ N).
  - intros j Hj. apply RS. lia.
Qed.

(** What building the corner table prints, whatever the clock shows within three years: one
    report per round until the greatest number of moves in the table is reached, each about the
    states within that many moves ([C91_text] says what it says), then the last report. *)
Theorem C91_corner_reports : forall (clock : nat -> Z) (path : text), (forall i, Z.abs (clock i) <= three_years) ->
  exists table last st, build_table corners_mus = Done table /\
    exact_table corner_states corners_from_index corner_set_apply corner_solved table /\
    (forall e, In e table -> (e <= N.of_nat last)%N) /\ In (N.of_nat last) table /\
    talking_build corners_mus clock path =
      ([lit "Building partial cache for " ++ path ++ lit "."] ++
       map (fun d => lit "Caching at depth " ++ display_usize (N.of_nat (S d)) ++ lit "; " ++ stats_text (st d)) (seq 0 last) ++
       [lit "Finished caching! " ++ stats_text (st last); lit "Caching done! Attempting to save to disk."], Done table) /\
    forall d, (d <= last)%nat -> stats_new (map (fun e => if (e <=? N.of_nat d)%N then e else 255%N) table) (clock d) = Done (st d).
Proof.
  intros clock path H.
  destruct (talking_whole corners_mus corner_state corner_solved corners_numbering (fun t m => corner_state_move t m) (fun t m _ => corner_move_undo t m) corner_solved_state eq_refl
    125 ltac:(lia) corner_connected ltac:(vm_compute; discriminate) clock H path) as (table & last & st & B & X & E & M & I & R).
  exists table, last, st. repeat (split; [assumption|]). exact R.
Qed.

(** The same for the table of half the edges. *)
Theorem C91_half_edge_reports : forall (clock : nat -> Z) (path : text), (forall i, Z.abs (clock i) <= three_years) ->
  exists table last st, build_table half_edges_mus = Done table /\
    exact_table half_edge_states edges_from_index edge_set_apply (firstn 6 edge_solved) table /\
    (forall e, In e table -> (e <= N.of_nat last)%N) /\ In (N.of_nat last) table /\
    talking_build half_edges_mus clock path =
      ([lit "Building partial cache for " ++ path ++ lit "."] ++
       map (fun d => lit "Caching at depth " ++ display_usize (N.of_nat (S d)) ++ lit "; " ++ stats_text (st d)) (seq 0 last) ++
       [lit "Finished caching! " ++ stats_text (st last); lit "Caching done! Attempting to save to disk."], Done table) /\
    forall d, (d <= last)%nat -> stats_new (map (fun e => if (e <=? N.of_nat d)%N then e else 255%N) table) (clock d) = Done (st d).
Proof.
  intros clock path H.
  destruct (talking_whole half_edges_mus half_edge_state (firstn 6 edge_solved) edges_numbering (fun t m => half_edge_move t m) (fun t m _ => edge_move_undo t m) half_solved_state eq_refl
    139 ltac:(lia) half_connected ltac:(vm_compute; discriminate) clock H path) as (table & last & st & B & X & E & M & I & R).
  exists table, last, st. repeat (split; [assumption|]). exact R.
Qed.

(** In a table of 30001 entries of which one is missing, the report says 100.00% although it is
    not the last one; and the reports of a small table early and at the end. *)
Example C91_example :
  (exists st, stats_new (0 :: repeat 1 (N.to_nat 29999) ++ [255])%N 2345 = Done st /\
     stats_text st = lit "   30000 states cached (100.00%) in 2s at 12793.18 states/s (ETA: 0m)") /\
  (exists st, stats_new [0; 1; 1; 255; 255; 255; 255]%N 125999 = Done st /\
     stats_text st = lit "       3 states cached (42.86%) in 125s at 0.02 states/s (ETA: 2m)") /\
  (exists st, stats_new [0; 1; 1; 255; 255; 255; 255]%N (-125000) = Done st /\
     stats_text st = lit "       3 states cached (42.86%) in -125s at -0.02 states/s (ETA: -2m)") /\
  (exists st, stats_new [0; 255; 255]%N 0 = Done st /\
     stats_text st = lit "       1 states cached (33.33%) in 0s at inf states/s (ETA: 0m)") /\
  (exists st, stats_new [0; 1; 1; 2; 2]%N 1 = Done st /\
     stats_text st = lit "       5 states cached (100.00%) in 0s at 5000.00 states/s (ETA: 0m)") /\
  report_line (lit "12:00:00.000") (lit "Caching done! Attempting to save to disk.") (lit "mus-cache/edges.barbarosa") =
    lit "12:00:00.000: Caching done! Attempting to save to disk. (mus-cache/edges.barbarosa)".
Proof.
  split; [eexists; split; vm_compute; reflexivity|]. split; [eexists; split; vm_compute; reflexivity|]. split; [eexists; split; vm_compute; reflexivity|]. split; [eexists; split; vm_compute; reflexivity|].
  split; [eexists; split; vm_compute; reflexivity|reflexivity].
Qed.
Print Assumptions C91_text.
Print Assumptions C91_clock_set_back.
Print Assumptions C91_at_once.
Print Assumptions C91_finished.
Print Assumptions C91_corner_reports.
Print Assumptions C91_half_edge_reports.

(** C12, C56 and C57 for the [f32] arithmetic of the code. *)

From Coq Require Import List Bool Arith NArith ZArith Lia SpecFloat ZifyBool.
From Verif Require Import Model_Base Model_Space Model_Moves Model_Pieces Model_PieceSet Model_Cubes Model_Visual Model_Print Model_Float Model_PrintFloat
  Spec_Moves Spec_Geometry Spec_Stickers Spec_Unfolded Spec_Sets Spec_Print Prop_Print Proof_Float Proof_Round Proof_Cell.
Import ListNotations.
Local Open Scope nat_scope.

(** Coordinates -1, 0 and 1. *)
Definition unit_coord (z : Z) : Prop := (z = -1 \/ z = 0 \/ z = 1)%Z.
Definition unit_point (p : Coord) : Prop := let '(a, b, c) := p in unit_coord a /\ unit_coord b /\ unit_coord c.

Lemma transform_agrees : forall n z, n <= 7 -> unit_coord z ->
  transform_coord_f n (f32_of_Z z) = transform_coord n z /\ transform_coord_f n (S754_zero true) = transform_coord n 0.
Proof.
  assert (H : forallb (fun n => forallb (fun x => match transform_coord_f n (fst x), transform_coord n (snd x) with
      | Some a, Some b => a =? b | None, None => true | _, _ => false end)
      [(f32_of_Z (-1), (-1)%Z); (f32_of_Z 0, 0%Z); (f32_of_Z 1, 1%Z); (S754_zero true, 0%Z)]) (seq 0 8) = true) by (vm_compute; reflexivity).
  intros n z L U. rewrite forallb_forall in H. specialize (H n ltac:(apply in_seq; lia)). rewrite forallb_forall in H.
  assert (K : forall x, In x [(f32_of_Z (-1), (-1)%Z); (f32_of_Z 0, 0%Z); (f32_of_Z 1, 1%Z); (S754_zero true, 0%Z)] ->
    transform_coord_f n (fst x) = transform_coord n (snd x)).
  { intros x I. specialize (H x I). destruct (transform_coord_f n (fst x)), (transform_coord n (snd x)); try discriminate; [|reflexivity].
    apply Nat.eqb_eq in H. congruence. }
  split; [|exact (K (S754_zero true, 0%Z) ltac:(cbn; tauto))].
  destruct U as [->|[->| ->]]; [apply (K (f32_of_Z (-1), (-1)%Z))|apply (K (f32_of_Z 0, 0%Z))|apply (K (f32_of_Z 1, 1%Z))]; cbn; tauto.
Qed.
Lemma dot_agrees p f : unit_point p -> dot_f (coord_f p) (coord_f (face_coords f)) = f32_of_Z (coord_dot p (face_coords f)) \/
  (dot_f (coord_f p) (coord_f (face_coords f)) = S754_zero true /\ coord_dot p (face_coords f) = 0%Z).
Proof.
  destruct p as [[a b] c]. intros (A & B & C). destruct f as [[] []], A as [->|[->| ->]], B as [->|[->| ->]], C as [->|[->| ->]];
    first [left; vm_compute; reflexivity|right; split; vm_compute; reflexivity].
Qed.
Lemma dot_unit p f : unit_point p -> unit_coord (coord_dot p (face_coords f)).
Proof.
  destruct p as [[a b] c]. unfold unit_coord. intros (A & B & C). destruct f as [[] []], A as [->|[->| ->]], B as [->|[->| ->]], C as [->|[->| ->]];
    cbn; tauto.
Qed.

(** The cell that the code computes with [f32] for a piece (coordinates -1, 0, 1) is the one
    computed with exact arithmetic, for every size of the crate. *)
Theorem C57_float_pieces : forall n p f, n <= 7 -> unit_point p -> square_indices_f n (coord_f p) f = square_indices n p f.
Proof.
  intros n p f L U. unfold square_indices_f, square_indices. destruct (square_basis f) as [bx by_].
  assert (T : forall g, transform_coord_f n (dot_f (coord_f p) (coord_f (face_coords g))) = transform_coord n (coord_dot p (face_coords g))).
  { intros g. destruct (transform_agrees n (coord_dot p (face_coords g)) L (dot_unit p g U)) as [E Z].
    destruct (dot_agrees p g U) as [->|[-> ->]]; [exact E|exact Z]. }
  rewrite !T. reflexivity.
Qed.

Lemma corner_unit v : unit_point (corner_coordinates v).
Proof. destruct v as [[] [] []]; unfold unit_point, unit_coord; cbn; tauto. Qed.
Lemma edge_unit p : unit_point (edge_coordinates p).
Proof. destruct p as [[] [[] []]]; unfold unit_point, unit_coord; cbn; tauto. Qed.
Lemma populate_agrees {P Pos} (d : PieceDesc P Pos) colors coords : (forall p, unit_point (coords p)) ->
  forall s u, populate_with_f 3 d colors coords u s = populate_with 3 d colors coords u s.
Proof.
  intros U s. unfold populate_with_f, populate_with. induction (iter_with_pos d s) as [|x l IH]; intros u; [reflexivity|]. cbn [fold_left].
  rewrite IH. f_equal. clear IH. revert u. induction (colors (snd x) (fst x)) as [|fc fcs IH]; intros u; [reflexivity|]. cbn [fold_left].
  rewrite IH. f_equal. unfold write_color_f, write_color. destruct u as [u|]; [|reflexivity]. cbn [bind_o].
  rewrite C57_float_pieces by (auto; lia). reflexivity.
Qed.

(** Drawing with [f32] gives the drawing that C12 describes. *)
Theorem C12_float : forall c : Cube3, unfold_cube3_f c = unfold_cube3 c.
Proof.
  intros c. unfold unfold_cube3_f, unfold_cube3. rewrite (populate_agrees corner_desc) by apply corner_unit.
  rewrite (populate_agrees edge_desc) by apply edge_unit. reflexivity.
Qed.

(** The bytes of a colour. *)
Lemma component_agrees x : (x <= 1000)%N -> component_f (literal_f x) = component x.
Proof.
  assert (H : forallb (fun k => N.eqb (component_f (literal_f (N.of_nat k))) (component (N.of_nat k))) (seq 0 1001) = true) by (vm_compute; reflexivity).
  intros L. rewrite forallb_forall in H. specialize (H (N.to_nat x) ltac:(apply in_seq; lia)). rewrite N2Nat.id in H. apply N.eqb_eq, H.
Qed.
Definition proper (s : Srgb) : Prop := (s_red s <= 1000 /\ s_green s <= 1000 /\ s_blue s <= 1000)%N.
Lemma color_write_agrees cs c : (forall s, In s cs -> proper s) -> color_write_f cs c = color_write cs c.
Proof.
  intros H. unfold color_write_f, color_write. assert (P : proper (scheme_get cs c)).
  { unfold scheme_get. destruct (nth_in_or_default (face_index c) cs (mkSrgb 0 0 0)) as [I| ->]; [apply H, I|]. unfold proper. cbn. lia. }
  destruct P as (A & B & C). rewrite !component_agrees by assumption. reflexivity.
Qed.
Lemma flat_map_same {A B} (f g : A -> list B) l : (forall x, f x = g x) -> flat_map f l = flat_map g l.
Proof. intros H. induction l as [|x l IH]; [reflexivity|]. cbn [flat_map]. rewrite H, IH. reflexivity. Qed.

(** Printing with [f32] gives the picture that C56 describes, for every scheme with components
    from 0 to 1 in thousandths, in particular for the default one. *)
Theorem C56_float : forall cs c, (forall s, In s cs -> proper s) -> cube3_write_f cs c = cube3_write cs c.
Proof.
  intros cs c H. unfold cube3_write_f, cube3_write. rewrite C12_float. destruct (unfold_cube3 c) as [u|]; [|reflexivity]. cbn [bind_o]. f_equal.
  unfold unfolded_write_f, unfolded_write.
  assert (S : forall k sq, square_write_f cs k sq = square_write cs k sq).
  { intros k sq. unfold square_write_f, square_write. apply flat_map_same. intros row. rewrite (flat_map_same (color_write_f cs) (color_write cs)); [reflexivity|].
    intros x. apply color_write_agrees, H. }
  assert (M : forall l f r, middle_write_f cs l f r = middle_write cs l f r).
  { intros l f r. unfold middle_write_f, middle_write. apply flat_map_same. intros [[x y] z].
    rewrite !(flat_map_same (color_write_f cs) (color_write cs)); [reflexivity|..]; intros; apply color_write_agrees, H. }
  rewrite !S, M. reflexivity.
Qed.
Theorem C56_float_display : forall c, cube3_display_f c = cube3_display c.
Proof. intros c. apply C56_float. cbn. intros s H. repeat destruct H as [<-|H]; try (unfold proper; cbn; lia). Qed.

(** Where the coordinate is NaN the first cell is returned. *)
Theorem C57_float_nan : forall n, 1 <= n -> transform_coord_f n S754_nan = Some 0.
Proof.
  intros n L. unfold transform_coord_f.
  assert (E : f32_div (f32_mul (f32_add S754_nan (f32_of_Z 1)) (f32_of_Z (Z.of_nat n))) (f32_of_Z 3) = S754_nan).
  { cbn [f32_add]. unfold f32_add, f32_mul, f32_div. cbn [SFadd SFmul SFdiv]. destruct (f32_of_Z (Z.of_nat n)); reflexivity. }
  rewrite E. cbn [f32_round f32_to_unsigned]. destruct (Z.leb_spec (Z.of_nat n) 0); [lia|]. reflexivity.
Qed.

(** For a general point just below the border between two cells the [f32] sum is rounded onto the
    border, and the cell is not the closest one although exact arithmetic gives that one: the
    number is 1/2 - 2^-25. *)
Theorem C57_float_refuted : exists num den i j,
  (0 < den)%Z /\ f32_div (f32_of_Z num) (f32_of_Z den) = f32_scaled (-25) (2 ^ 24 - 1) /\ num = (2 ^ 24 - 1)%Z /\ den = (2 ^ 25)%Z /\
  transform_coord_f 3 (f32_scaled (-25) (2 ^ 24 - 1)) = Some i /\ ~ closest 3 num den i /\
  transform_coord_q 3 num den = Some j /\ closest 3 num den j.
Proof.
  exists (2 ^ 24 - 1)%Z, (2 ^ 25)%Z, 2, 1. split; [lia|]. split; [vm_compute; reflexivity|]. split; [reflexivity|]. split; [reflexivity|].
  split; [vm_compute; reflexivity|]. split; [|split; [vm_compute; reflexivity|]].
  - intros H. assert (K := C57_three_partial (2 ^ 24 - 1) (2 ^ 25) 1 ltac:(lia) ltac:(vm_compute; reflexivity)).
    unfold closest in *. destruct H as [_ H]. specialize (H 1 ltac:(lia)). revert H. vm_compute. intros H. apply H. reflexivity.
  - apply C57_three_partial; [lia|vm_compute; reflexivity].
Qed.

(** ** Coordinates away from the borders between the cells *)

(** The number [x] is [num / den]. *)
Definition f32_is (x : f32) (num den : Z) : Prop :=
  match x with
  | S754_zero _ => num = 0%Z
  | S754_finite s m e =>
      let z := if s then Z.neg m else Z.pos m in
      if (0 <=? e)%Z then (z * 2 ^ e * den = num)%Z else (z * den = num * 2 ^ (- e))%Z
  | _ => False
  end.
(** The coordinate [num / den] is at a distance of at least 2^-18 from the border
    [3 (2 j - 1) / (2 n) - 1] below cell [j]. *)
Definition far (n : nat) (num den : Z) (j : Z) : Prop :=
  (2 * Z.of_nat n * den <= 2 ^ 18 * Z.abs (2 * Z.of_nat n * (num + den) - 3 * (2 * j - 1) * den))%Z.

Lemma round_q_ge a d j : (0 < d -> (2 * j - 1) * d < 2 * a -> j <= round_q a d)%Z.
Proof.
  intros D H. unfold round_q. destruct (Z.ltb_spec a 0).
  - pose proof (Z.div_lt_upper_bound (2 * - a + d) (2 * d) (1 - j) ltac:(lia) ltac:(lia)). lia.
  - apply Z.div_le_lower_bound; lia.
Qed.
Lemma round_q_le a d j : (0 < d -> 2 * a < (2 * j - 1) * d -> round_q a d <= j - 1)%Z.
Proof.
  intros D H. unfold round_q. destruct (Z.ltb_spec a 0).
  - pose proof (Z.div_le_lower_bound (2 * - a + d) (2 * d) (1 - j) ltac:(lia) ltac:(lia)). lia.
  - pose proof (Z.div_lt_upper_bound (2 * a + d) (2 * d) j ltac:(lia) ltac:(lia)). lia.
Qed.
Lemma is_value x num den : (0 < den)%Z -> valid_binary 24 128 x = true -> f32_is x num den ->
  exists v, (v * den = num * pw 0)%Z /\ (forall b, (b <= v)%Z -> f_ge x b) /\ (forall b, (v <= b)%Z -> f_le x b).
Proof.
  intros D V H. destruct x as [s|s| |s m e]; cbn [f32_is] in H; try contradiction.
  - subst num. exists 0%Z. split; [lia|]. split; intros b B; exact B.
  - cbn [valid_binary] in V. unfold bounded, canonical_mantissa in V. apply andb_true_iff in V. destruct V as [V _].
    apply Zeq_bool_eq in V. assert (E : (-149 <= e)%Z) by (unfold fexp, emin in V; lia). clear V.
    exists (cond_Zopp s (Z.pos m * pw e)). split; [|split; intros b B; cbn [f_ge f_le]; auto].
    assert (Z1 : cond_Zopp s (Z.pos m * pw e) = ((if s then Z.neg m else Z.pos m) * pw e)%Z) by (destruct s; cbn [cond_Zopp]; lia).
    rewrite Z1. clear Z1. cbn zeta in H. set (z := if s then Z.neg m else Z.pos m) in *. clearbody z. destruct (Z.leb_spec 0 e) as [L|L].
    + replace (pw e) with (2 ^ e * pw 0)%Z by (rewrite <- pw_add by lia; reflexivity). rewrite <- H. lia.
    + replace (pw 0) with (2 ^ (- e) * pw e)%Z by (rewrite <- pw_add by lia; f_equal; lia).
      replace (z * pw e * den)%Z with (z * den * pw e)%Z by lia. rewrite H. lia.
Qed.

Lemma cells_of_value n x num den v : 1 <= n <= 7 -> (0 < den)%Z -> (v * den = num * pw 0)%Z ->
  (forall b, (b <= v)%Z -> f_ge x b) -> (forall b, (v <= b)%Z -> f_le x b) ->
  (forall j, (0 <= j <= Z.of_nat n)%Z -> far n num den j) ->
  transform_coord_f n x = transform_coord_q n num den.
Proof.
  intros N D Hv G L F.
  set (y := round_q ((num + den) * Z.of_nat n) (3 * den)).
  assert (P21 : pw 0 = (2 ^ 21 * pw (-21))%Z) by reflexivity. pose proof (pw_pos (-21) ltac:(lia)) as PU.
  assert (P : forall j, (0 <= j <= Z.of_nat n)%Z ->
    (j <= y /\ f_ge (stage n x) (j * pw 0))%Z \/ (y <= j - 1 /\ f_le (stage n x) ((j - 1) * pw 0))%Z).
  { intros j J. specialize (F j J). unfold far in F. set (z := Z.of_nat n) in *. assert (Zn : (1 <= z)%Z) by lia.
    set (d := (2 * z * (num + den) - 3 * (2 * j - 1) * den)%Z) in *. assert (Dz : (0 < 2 * z * den)%Z) by nia.
    destruct (Z.le_gt_cases 0 d) as [S|S].
    - left. replace (Z.abs d) with d in F by lia. split.
      + apply round_q_ge; [lia|]. unfold d in *. lia.
      + apply stage_ge; [exact N|exact J|]. apply G.
        assert (Q := floor_le (3 * (2 * j - 1) * 2 ^ 21 + 16 * z) (2 * z) ltac:(lia)). fold (sum_ge z j) in Q. fold z. unfold units. rewrite P21.
        apply (Zmult_le_reg_r _ _ (2 * z * den)); [lia|]. replace (v * (2 * z * den))%Z with (2 * z * (v * den))%Z by lia. rewrite Hv, P21.
        replace ((sum_ge z j * pw (-21) - 2 ^ 21 * pw (-21)) * (2 * z * den))%Z with ((2 * z * sum_ge z j * den - 2 * z * den * 2 ^ 21) * pw (-21))%Z by lia.
        replace (2 * z * (num * (2 ^ 21 * pw (-21))))%Z with ((2 * z * num * 2 ^ 21) * pw (-21))%Z by lia.
        apply Z.mul_le_mono_nonneg_r; [lia|]. assert (2 * z * sum_ge z j * den <= (3 * (2 * j - 1) * 2 ^ 21 + 16 * z) * den)%Z by nia.
        unfold d in F. lia.
    - right. replace (Z.abs d) with (- d)%Z in F by lia. split.
      + apply round_q_le; [lia|]. unfold d in *. lia.
      + apply stage_le; [exact N|exact J|]. apply L.
        assert (Q := ceil_ge (3 * (2 * j - 1) * 2 ^ 21 - 16 * z) (2 * z) ltac:(lia)). fold (sum_le z j) in Q. fold z. unfold units. rewrite P21.
        apply (Zmult_le_reg_r _ _ (2 * z * den)); [lia|]. replace (v * (2 * z * den))%Z with (2 * z * (v * den))%Z by lia. rewrite Hv, P21.
        replace ((sum_le z j * pw (-21) - 2 ^ 21 * pw (-21)) * (2 * z * den))%Z with ((2 * z * sum_le z j * den - 2 * z * den * 2 ^ 21) * pw (-21))%Z by lia.
        replace (2 * z * (num * (2 ^ 21 * pw (-21))))%Z with ((2 * z * num * 2 ^ 21) * pw (-21))%Z by lia.
        apply Z.mul_le_mono_nonneg_r; [lia|]. assert ((3 * (2 * j - 1) * 2 ^ 21 - 16 * z) * den <= 2 * z * sum_le z j * den)%Z by nia.
        unfold d in F. lia. }
  unfold transform_coord_q. fold y.
  destruct (P 0%Z ltac:(lia)) as [[Y0 _]|[Y0 T0]].
  2:{ replace (y <? 0)%Z with true by lia. apply cell_below; assumption. }
  destruct (P (Z.of_nat n) ltac:(lia)) as [[Yn Tn]|[Yn _]].
  { replace (Z.of_nat n <=? y)%Z with true by lia. rewrite orb_true_r. apply cell_above; assumption. }
  replace (y <? 0)%Z with false by lia. replace (Z.of_nat n <=? y)%Z with false by lia. cbn [orb].
  apply cell_inside; [exact N|lia| |].
  - destruct (P y ltac:(lia)) as [[_ T]|[Ty _]]; [exact T|lia].
  - destruct (P (y + 1)%Z ltac:(lia)) as [[Ty _]|[_ T]]; [lia|]. replace (y + 1 - 1)%Z with y in T by lia. exact T.
Qed.
(** There the code's [f32] arithmetic gives the cell that exact arithmetic gives, for every [f32]
    and every size of the crate. *)
Theorem C57_float_cells : forall n x num den, 1 <= n <= 7 -> (0 < den)%Z -> valid_binary 24 128 x = true -> f32_is x num den ->
  (forall j, (0 <= j <= Z.of_nat n)%Z -> far n num den j) ->
  transform_coord_f n x = transform_coord_q n num den.
Proof.
  intros n x num den N D V X F. destruct (is_value x num den D V X) as (v & Hv & G & L). exact (cells_of_value n x num den v N D Hv G L F).
Qed.
(** For example 0.7, -1.4999 and 3000000000 as [f32]s on the 3x3x3. *)
Example C57_float_cells_example :
  let x := f32_div (f32_of_Z 7) (f32_of_Z 10) in
  let y := f32_div (f32_of_Z (-14999)) (f32_of_Z 10000) in
  let w := f32_of_Z 3000000000 in
  (f32_is x 11744051 (2 ^ 24) /\ valid_binary 24 128 x = true /\ Forall (far 3 11744051 (2 ^ 24)) [0; 1; 2; 3]%Z /\ transform_coord_f 3 x = Some 2) /\
  (f32_is y (-12582073) (2 ^ 23) /\ valid_binary 24 128 y = true /\ Forall (far 3 (-12582073) (2 ^ 23)) [0; 1; 2; 3]%Z /\ transform_coord_f 3 y = Some 0) /\
  (f32_is w 3000000000 1 /\ valid_binary 24 128 w = true /\ Forall (far 3 3000000000 1) [0; 1; 2; 3]%Z /\ transform_coord_f 3 w = None).
Proof.
  cbn zeta. repeat match goal with |- _ /\ _ => split end; 
    lazymatch goal with
    | |- Forall _ _ => repeat apply Forall_cons; try apply Forall_nil; unfold far; vm_compute; discriminate
    | |- _ => vm_compute; reflexivity
    end.
Qed.

(** An infinite coordinate is in no cell, whatever the size. *)
Theorem C57_float_infinite : forall n s, (1 <= Z.of_nat n < 2 ^ 64)%Z -> transform_coord_f n (S754_infinity s) = None.
Proof.
  intros n s N. unfold transform_coord_f.
  assert (P : f_ge (f32_of_Z (Z.of_nat n)) (1 * pw 0)).
  { unfold f32_of_Z. apply normalize_ge; [lia|apply int_repr; lia|]. pose proof (pw_pos 0 ltac:(lia)). nia. }
  assert (E : f32_div (f32_mul (f32_add (S754_infinity s) (f32_of_Z 1)) (f32_of_Z (Z.of_nat n))) (f32_of_Z 3) = S754_infinity s).
  { rewrite one_f32, three_f32. unfold f32_add, f32_mul, f32_div. cbn [SFadd]. pose proof (pw_pos 0 ltac:(lia)).
    destruct (f32_of_Z (Z.of_nat n)) as [s'|s'| |s' m e]; cbn [f_ge] in P; cbn [SFmul].
    - lia.
    - subst s'. rewrite xorb_false_r. cbn [SFdiv]. rewrite xorb_false_r. reflexivity.
    - destruct P.
    - destruct P as [Ee P]. pose proof (pw_pos e ltac:(lia)). destruct s'; cbn [cond_Zopp] in P; [nia|].
      rewrite xorb_false_r. cbn [SFdiv]. rewrite xorb_false_r. reflexivity. }
  rewrite E. cbn [f32_round]. destruct s; [reflexivity|]. cbn [f32_to_unsigned].
  replace (Z.of_nat n <=? usize_max)%Z with true by (unfold usize_max; lia). rewrite orb_true_r. reflexivity.
Qed.

(** ** Whole points *)

(** The point [p] has the coordinates [q] divided by [den]. *)
Definition point_is (p : CoordF) (q : Coord) (den : Z) : Prop :=
  let '(a, b, c) := p in let '(qa, qb, qc) := q in
  (valid_binary 24 128 a = true /\ f32_is a qa den) /\ (valid_binary 24 128 b = true /\ f32_is b qb den) /\
  (valid_binary 24 128 c = true /\ f32_is c qc den).

Definition finite (x : f32) : Prop := match x with S754_zero _ | S754_finite _ _ _ => True | _ => False end.
Definition has_value (x : f32) (v : Z) : Prop := f_ge x v /\ f_le x v.
Lemma value_repr x num den : (0 < den)%Z -> valid_binary 24 128 x = true -> f32_is x num den ->
  exists v, (v * den = num * pw 0)%Z /\ has_value x v /\ reprs v /\ finite x.
Proof.
  intros D V H. destruct (is_value x num den D V H) as (v & Hv & G & L). exists v. split; [exact Hv|]. split; [split; [apply G|apply L]; lia|].
  destruct x as [s|s| |s m e]; cbn [f32_is] in H; try contradiction; (split; [|exact I]).
  - specialize (G v ltac:(lia)). specialize (L v ltac:(lia)). cbn [f_ge f_le] in G, L. replace v with 0%Z by lia. exists 0%Z, 0%Z. cbn. lia.
  - specialize (G v ltac:(lia)). specialize (L v ltac:(lia)). cbn [f_ge f_le] in G, L.
    cbn [valid_binary] in V. unfold bounded, canonical_mantissa in V. apply andb_true_iff in V. destruct V as [V V'].
    apply Zeq_bool_eq in V. fold (dg m) in V. assert (Dm : (dg m <= 24)%Z) by (unfold fexp, emin in V; lia).
    unfold reprs. exists (Z.pos m), e. pose proof (dg_bounds m) as B. pose proof (Z.pow_le_mono_r 2 (dg m) 24 ltac:(lia) Dm).
    split; [lia|]. split; [lia|]. pose proof (pw_pos e ltac:(lia)). destruct s; cbn [cond_Zopp] in *; lia.
Qed.
Lemma small_one : small 1 (f32_of_Z 1).
Proof. exists 8388608%positive, (-23)%Z. rewrite one_f32. repeat split; try lia. Qed.
Lemma mul_one x v : has_value x v -> reprs v -> has_value (f32_mul x (f32_of_Z 1)) v.
Proof.
  intros [G L] R. split; [apply (mul_ge x 1 _ v)|apply (mul_le x 1 _ v)]; auto using small_one; lia.
Qed.
Lemma mul_minus x : f32_mul x (f32_of_Z (-1)) = SFopp (f32_mul x (f32_of_Z 1)).
Proof.
  change (f32_of_Z (-1)) with (S754_finite true 8388608 (-23)). rewrite one_f32. unfold f32_mul. destruct x as [[]|[]| |s m e]; cbn [SFmul SFopp]; try reflexivity.
  rewrite xorb_true_r, xorb_false_r. apply round_opp.
Qed.
Lemma opp_value x v : has_value x v -> has_value (SFopp x) (- v).
Proof.
  intros [G L]. split; [apply f_le_opp, L|]. apply f_le_opp. rewrite Z.opp_involutive.
  destruct x as [s|s| |s m e]; cbn [SFopp]; rewrite ?negb_involutive; exact G.
Qed.
Lemma mul_zero x : finite x -> exists s, f32_mul x (f32_of_Z 0) = S754_zero s.
Proof. intros F. destruct x as [s|s| |s m e]; try destruct F; eexists; reflexivity. Qed.
Lemma value_finite x v : has_value x v -> finite x.
Proof. intros [G L]. destruct x as [s|s| |s m e]; cbn in *; try exact I; [congruence|exact G]. Qed.
Lemma zero_value s v : has_value (S754_zero s) v -> v = 0%Z.
Proof. intros [G L]. cbn in G, L. lia. Qed.
Lemma value_zero s : has_value (S754_zero s) 0.
Proof. split; cbn; lia. Qed.
Lemma add_zero_r x s v : has_value x v -> has_value (f32_add x (S754_zero s)) v.
Proof.
  intros H. pose proof (value_finite x v H) as F. destruct x as [s'|s'| |s' m e]; try destruct F; unfold f32_add; cbn [SFadd].
  - rewrite (zero_value _ _ H). destruct (Bool.eqb s' s); apply value_zero.
  - exact H.
Qed.
Lemma add_zero_l x s v : has_value x v -> has_value (f32_add (S754_zero s) x) v.
Proof.
  intros H. pose proof (value_finite x v H) as F. destruct x as [s'|s'| |s' m e]; try destruct F; unfold f32_add; cbn [SFadd].
  - rewrite (zero_value _ _ H). destruct (Bool.eqb s s'); apply value_zero.
  - exact H.
Qed.
Lemma mul_sign x v d : has_value x v -> reprs v -> has_value (f32_mul x (f32_of_Z (scalar d))) (v * scalar d).
Proof.
  intros H R. destruct d; cbn [scalar].
  - replace (v * 1)%Z with v by lia. apply mul_one; assumption.
  - rewrite mul_minus. replace (v * -1)%Z with (- v)%Z by lia. apply opp_value, mul_one; assumption.
Qed.
Lemma dot_value p q den g : (0 < den)%Z -> point_is p q den ->
  exists v, (v * den = coord_dot q (face_coords g) * pw 0)%Z /\ has_value (dot_f p (coord_f (face_coords g))) v.
Proof.
  destruct p as [[a b] c], q as [[qa qb] qc]. intros D ((Va & Ia) & (Vb & Ib) & (Vc & Ic)).
  destruct (value_repr a qa den D Va Ia) as (va & Ha & Xa & Ra & Fa). destruct (value_repr b qb den D Vb Ib) as (vb & Hb & Xb & Rb & Fb).
  destruct (value_repr c qc den D Vc Ic) as (vc & Hc & Xc & Rc & Fc).
  destruct (mul_zero a Fa) as (sa & Za). destruct (mul_zero b Fb) as (sb & Zb). destruct (mul_zero c Fc) as (sc & Zc).
  destruct g as [[] d]; unfold face_coords; cbn [face_axis face_dir coord_f coord_dot dot_f].
  - exists (va * scalar d)%Z. split; [rewrite Z.mul_shuffle0, Ha; ring|]. rewrite Zb, Zc. apply add_zero_r, add_zero_r, mul_sign; assumption.
  - exists (vb * scalar d)%Z. split; [rewrite Z.mul_shuffle0, Hb; ring|]. rewrite Za, Zc. apply add_zero_r, add_zero_l, mul_sign; assumption.
  - exists (vc * scalar d)%Z. split; [rewrite Z.mul_shuffle0, Hc; ring|]. rewrite Za, Zb.
    assert (S : exists s, f32_add (S754_zero sa) (S754_zero sb) = S754_zero s) by (unfold f32_add; cbn [SFadd]; destruct (Bool.eqb sa sb); eexists; reflexivity).
    destruct S as (s & ->). apply add_zero_l, mul_sign; assumption.
Qed.
(** [Square::at] for every point with finite coordinates, away from the borders: the cell of the
    point's projection along the two sides of the square, by exact arithmetic; how far the point
    is from the face does not matter. *)
Theorem C57_float_points : forall n p q den f down right, 1 <= n <= 7 -> (0 < den)%Z -> point_is p q den ->
  square_basis f = (down, right) ->
  (forall j, (0 <= j <= Z.of_nat n)%Z -> far n (coord_dot q (face_coords down)) den j /\ far n (coord_dot q (face_coords right)) den j) ->
  square_indices_f n p f =
    match transform_coord_q n (coord_dot q (face_coords down)) den, transform_coord_q n (coord_dot q (face_coords right)) den with
    | Some x, Some y => Some (x, y)
    | _, _ => None
    end.
Proof.
  intros n p q den f bx by_ N D P B F. unfold square_indices_f. rewrite B.
  assert (T : forall g, (forall j, (0 <= j <= Z.of_nat n)%Z -> far n (coord_dot q (face_coords g)) den j) ->
    transform_coord_f n (dot_f p (coord_f (face_coords g))) = transform_coord_q n (coord_dot q (face_coords g)) den).
  { intros g Fg. destruct (dot_value p q den g D P) as (v & Hv & G & L).
    apply (cells_of_value n _ _ den v N D Hv); [|intros b' H; exact (f_le_weaken _ _ _ H L)|exact Fg]. intros b' H. exact (f_ge_weaken _ _ _ H G). }
  rewrite (T bx) by (intros j J; apply (F j J)). destruct (transform_coord_q n (coord_dot q (face_coords bx)) den); [|reflexivity].
  rewrite (T by_) by (intros j J; apply (F j J)). reflexivity.
Qed.
(** But when the point is infinitely far in front of the face, the products with 0 are NaN and the
    colour of the first cell is returned. *)
Theorem C57_float_points_refuted : forall n s f, 1 <= n ->
  let far_away := S754_infinity s in let zero := f32_of_Z 0 in
  square_indices_f n (match face_axis f with AX => (far_away, zero, zero) | AY => (zero, far_away, zero) | AZ => (zero, zero, far_away) end) f = Some (0, 0).
Proof.
  intros n s f N far_away zero. unfold square_indices_f. destruct (square_basis f) as [bx by_] eqn:B.
  set (p := match face_axis f with AX => _ | AY => _ | AZ => _ end).
  assert (Q : forall g, g = bx \/ g = by_ -> dot_f p (coord_f (face_coords g)) = S754_nan).
  { intros g G. subst p far_away zero. destruct f as [[] []]; injection B as <- <-; destruct G as [->| ->], s; vm_compute; reflexivity. }
  rewrite (Q bx), (Q by_) by auto. rewrite (C57_float_nan n N). reflexivity.
Qed.
(** For example the point (0.7, -0.25, 1000) on the faces F and R of the 3x3x3. *)
Example C57_float_points_example :
  let p := (f32_div (f32_of_Z 7) (f32_of_Z 10), f32_scaled (-2) (-1), f32_of_Z 1000) in
  let q := (11744051, - 2 ^ 22, 1000 * 2 ^ 24)%Z in
  point_is p q (2 ^ 24) /\
  Forall (fun j => far 3 (coord_dot q (face_coords fD)) (2 ^ 24) j /\ far 3 (coord_dot q (face_coords fR)) (2 ^ 24) j) [0; 1; 2; 3]%Z /\
  square_indices_f 3 p fF = Some (1, 2) /\ square_indices_f 3 p fR = None.
Proof.
  cbn zeta. split; [repeat split; vm_compute; reflexivity|]. split; [|split; vm_compute; reflexivity].
  repeat apply Forall_cons; try apply Forall_nil; split; unfold far; vm_compute; discriminate.
Qed.

Example C57_float_example : transform_coord_f 3 (f32_scaled (-2) 3) = Some 2 /\ transform_coord_f 3 (f32_scaled (-2) 7) = None /\
  transform_coord_f 3 (f32_scaled (-2) (-5)) = Some 0.
Proof. vm_compute. repeat split; reflexivity. Qed.
Print Assumptions C57_float_pieces.
Print Assumptions C12_float.
Print Assumptions C56_float.
Print Assumptions C56_float_display.
Print Assumptions C57_float_points.
Print Assumptions C57_float_points_refuted.
Print Assumptions C57_float_nan.
Print Assumptions C57_float_refuted.
Print Assumptions C57_float_cells.
Print Assumptions C57_float_infinite.

(** C56: the printed net; C57: the cell closest to a point. *)

From Coq Require Import List Bool Arith NArith ZArith Lia.
From Verif Require Import Model_Base Model_Space Model_Moves Model_Pieces Model_PieceSet Model_Cubes Model_Visual Model_Print
  Spec_Moves Spec_Geometry Spec_Stickers Spec_Unfolded Spec_Sets Spec_Print Proof_Sets Proof_Stickers Prop_Sets Prop_Geometry.
Import ListNotations.

Lemma shape_writes : forall l u u', shape3 u -> fold_left write_st l (Done u) = Done u' -> shape3 u'.
Proof.
  induction l as [|w l IH]; intros u u' H E; [injection E as <-; exact H|]. cbn [fold_left] in E.
  unfold write_st at 2 in E. unfold write_color in E. cbn [bind_o] in E.
  destruct (square_indices 3 (fst w) (fst (snd w))) as [[x y]|].
  - apply IH in E; [exact E|]. apply shape3_set, H.
  - exfalso. clear -E. induction l; [discriminate|]. apply IHl, E.
Qed.
Lemma unfold_shape c u : unfold_cube3 c = Done u -> shape3 u.
Proof. rewrite unfold_writes. apply shape_writes, shape3_default. Qed.

Lemma three {T} (l : list T) : length l = 3 -> exists a b c, l = [a; b; c].
Proof. destruct l as [|a [|b [|c [|]]]]; intros H; try discriminate. eauto. Qed.
Lemma six {T} (l : list T) : length l = 6 -> exists a b c d e f, l = [a; b; c; d; e; f].
Proof. destruct l as [|a [|b [|c [|d [|e [|f [|]]]]]]]; intros H; try discriminate. do 6 eexists. reflexivity. Qed.

Definition paint (cs : Colorscheme) (c : Color) : Ink :=
  Paint (mkRgb (component (s_red (scheme_get cs c))) (component (s_green (scheme_get cs c))) (component (s_blue (scheme_get cs c)))).

Lemma screen_square cs u f x y : shape3 u -> x < 3 -> y < 3 ->
  exists col, unfolded_at u f x y = Some col /\ screen (unfolded_write 3 cs u) (top f + x) (left_column f + y) = Some (paint cs col).
Proof.
  intros [L H] Hx Hy. apply six in L as (a & b & c & d & e & g & ->).
  assert (S : forall sq, In sq [a; b; c; d; e; g] -> exists r1 r2 r3 r4 r5 r6 r7 r8 r9, sq = [[r1; r2; r3]; [r4; r5; r6]; [r7; r8; r9]]).
  { intros sq I. destruct (H sq I) as [L R]. apply three in L as (w1 & w2 & w3 & ->).
    destruct (three w1 (R _ (or_introl eq_refl))) as (? & ? & ? & ->).
    destruct (three w2 (R _ (or_intror (or_introl eq_refl)))) as (? & ? & ? & ->).
    destruct (three w3 (R _ (or_intror (or_intror (or_introl eq_refl))))) as (? & ? & ? & ->).
    do 9 eexists. reflexivity. }
  destruct (S a ltac:(cbn; tauto)) as (?&?&?&?&?&?&?&?&?&->). destruct (S b ltac:(cbn; tauto)) as (?&?&?&?&?&?&?&?&?&->).
  destruct (S c ltac:(cbn; tauto)) as (?&?&?&?&?&?&?&?&?&->). destruct (S d ltac:(cbn; tauto)) as (?&?&?&?&?&?&?&?&?&->).
  destruct (S e ltac:(cbn; tauto)) as (?&?&?&?&?&?&?&?&?&->). destruct (S g ltac:(cbn; tauto)) as (?&?&?&?&?&?&?&?&?&->).
  clear S H. destruct f as [[] []]; destruct x as [|[|[|x]]]; try lia; destruct y as [|[|[|y]]]; try lia; eexists; (split; [reflexivity|]); reflexivity.
Qed.
Lemma screen_only cs u : shape3 u ->
  length (lines (unfolded_write 3 cs u)) = 16 /\
  forall i j rgb, screen (unfolded_write 3 cs u) i j = Some (Paint rgb) ->
    exists f x y, x < 3 /\ y < 3 /\ i = top f + x /\ j = left_column f + y.
Proof.
  intros [L H]. apply six in L as (a & b & c & d & e & g & ->).
  assert (S : forall sq, In sq [a; b; c; d; e; g] -> exists r1 r2 r3 r4 r5 r6 r7 r8 r9, sq = [[r1; r2; r3]; [r4; r5; r6]; [r7; r8; r9]]).
  { intros sq I. destruct (H sq I) as [L R]. apply three in L as (w1 & w2 & w3 & ->).
    destruct (three w1 (R _ (or_introl eq_refl))) as (? & ? & ? & ->).
    destruct (three w2 (R _ (or_intror (or_introl eq_refl)))) as (? & ? & ? & ->).
    destruct (three w3 (R _ (or_intror (or_intror (or_introl eq_refl))))) as (? & ? & ? & ->).
    do 9 eexists. reflexivity. }
  destruct (S a ltac:(cbn; tauto)) as (?&?&?&?&?&?&?&?&?&->). destruct (S b ltac:(cbn; tauto)) as (?&?&?&?&?&?&?&?&?&->).
  destruct (S c ltac:(cbn; tauto)) as (?&?&?&?&?&?&?&?&?&->). destruct (S d ltac:(cbn; tauto)) as (?&?&?&?&?&?&?&?&?&->).
  destruct (S e ltac:(cbn; tauto)) as (?&?&?&?&?&?&?&?&?&->). destruct (S g ltac:(cbn; tauto)) as (?&?&?&?&?&?&?&?&?&->).
  clear S H. split; [reflexivity|]. intros i j rgb E.
  assert (B : i < 16 /\ j < 11 /\ existsb (fun f => existsb (fun x => existsb (fun y => (i =? top f + x) && (j =? left_column f + y)) [0; 1; 2]) [0; 1; 2]) face_iter = true).
  { do 16 (destruct i as [|i]; [split; [lia|]; do 11 (destruct j as [|j]; [first [discriminate E|split; [lia|reflexivity]]|]); destruct j; discriminate E|]).
    destruct i; discriminate E. }
  destruct B as (_ & _ & B). apply existsb_exists in B as (ff & _ & B). apply existsb_exists in B as (xx & X & B). apply existsb_exists in B as (yy & Y & B).
  apply andb_true_iff in B as [B1 B2]. apply Nat.eqb_eq in B1, B2. exists ff, xx, yy.
  split; [cbn in X; lia|]. split; [cbn in Y; lia|]. split; assumption.
Qed.

Lemma order_index f i : nth_error scheme_order i = Some f <-> i = face_index f.
Proof.
  split.
  - do 6 (destruct i as [|i]; [intros E; injection E as <-; reflexivity|]). destruct i; discriminate.
  - intros ->. destruct f as [[] []]; reflexivity.
Qed.
Lemma component_spec x y : y = component x <-> (1000 * y <= 255 * x < 1000 * (y + 1))%N.
Proof.
  unfold component. pose proof (N.div_mod (x * 255) 1000 ltac:(discriminate)). pose proof (N.mod_lt (x * 255) 1000 ltac:(discriminate)).
  set (q := (x * 255 / 1000)%N) in *. set (r := (x * 255 mod 1000)%N) in *. clearbody q r. split; [intros ->; lia|intros; lia].
Qed.
Lemma painted_spec cs f rgb : length cs = 6 -> painted cs f rgb <-> paint cs f = Paint rgb.
Proof.
  intros L. unfold painted, paint, scheme_get. split.
  - intros (i & s & I & S & C). apply order_index in I. subst i. rewrite (nth_error_nth cs _ _ S).
    f_equal. destruct rgb as [r g b]. cbn [rgb_r rgb_g rgb_b] in C. f_equal; symmetry; apply component_spec, C; cbn; tauto.
  - intros E. injection E as <-. exists (face_index f). destruct (nth_error cs (face_index f)) as [s|] eqn:S.
    + exists s. split; [apply order_index; reflexivity|]. split; [reflexivity|]. rewrite (nth_error_nth cs _ _ S). cbn [rgb_r rgb_g rgb_b].
      intros x y [X|[X|[X|[]]]]; injection X as <- <-; apply component_spec; reflexivity.
    + apply nth_error_None in S. pose proof (face_index_lt f). lia.
Qed.

(** * C56: the printed net *)

(** Printing a valid cube never fails; the output has sixteen lines; each sticker appears in
    its place in the colour that the scheme gives to it, and nothing else is coloured. *)
Theorem C56_picture : forall (cs : Colorscheme) (c : Cube3), length cs = 6 -> cube_well_formed Size3 c ->
  exists out, cube3_write cs c = Done out /\ length (lines out) = 16 /\
    (forall f x y, x < 3 -> y < 3 -> exists col rgb,
       color_at c (cell_cubie f x y) (normal f) = Some col /\ painted cs col rgb /\
       screen out (top f + x) (left_column f + y) = Some (Paint rgb)) /\
    (forall i j rgb, screen out i j = Some (Paint rgb) ->
       exists f x y, x < 3 /\ y < 3 /\ i = top f + x /\ j = left_column f + y).
Proof.
  intros cs c L W. destruct (C12_drawing_faithful c W) as (u & E & F). unfold cube3_write. rewrite E. cbn [bind_o].
  pose proof (unfold_shape c u E) as S. eexists. split; [reflexivity|]. destruct (screen_only cs u S) as [A B]. split; [exact A|]. split; [|exact B].
  intros f x y Hx Hy. destruct (F f x y Hx Hy) as (_ & col & C1 & C2). destruct (screen_square cs u f x y S Hx Hy) as (col' & C3 & C4).
  rewrite C1 in C3. injection C3 as <-. exists col. unfold paint in C4. eexists. split; [exact C2|]. split; [|exact C4]. apply painted_spec; [exact L|reflexivity].
Qed.

(** With six different colours, and in particular with the default scheme, different valid
    cubes look different. *)
Theorem C56_injective : forall (cs : Colorscheme) (c1 c2 : Cube3), distinguishable cs ->
  cube_well_formed Size3 c1 -> cube_well_formed Size3 c2 -> cube3_write cs c1 = cube3_write cs c2 -> c1 = c2.
Proof.
  intros cs c1 c2 [L D] W1 W2 E. destruct (C56_picture cs c1 L W1) as (o1 & E1 & _ & P1 & _). destruct (C56_picture cs c2 L W2) as (o2 & E2 & _ & P2 & _).
  rewrite E, E2 in E1. injection E1 as <-. apply cube3_valid_spec in W1. apply cube3_valid_spec in W2.
  apply same_colors_same_cube; [exact W1|exact W2|]. intros p f Hf. destruct (C12_net_complete p f Hf) as (x & y & Hx & Hy & <-).
  destruct (P1 f x y Hx Hy) as (k1 & r1 & -> & Q1 & S1). destruct (P2 f x y Hx Hy) as (k2 & r2 & -> & Q2 & S2).
  rewrite S1 in S2. injection S2 as <-. f_equal. exact (D _ _ _ Q1 Q2).
Qed.
Theorem C56_default_scheme : distinguishable default_scheme /\ forall c, cube3_display c = cube3_write default_scheme c.
Proof.
  split; [|reflexivity]. split; [reflexivity|]. intros f g rgb A B. apply painted_spec in A, B; [|reflexivity|reflexivity].
  rewrite <- B in A. destruct f as [[] []], g as [[] []]; first [reflexivity|vm_compute in A; discriminate A].
Qed.

Theorem C56_usual_colours : forall c : Cube3, cube_well_formed Size3 c ->
  exists out, cube3_display c = Done out /\
    forall f x y, x < 3 -> y < 3 -> exists col rgb,
      color_at c (cell_cubie f x y) (normal f) = Some col /\
      screen out (top f + x) (left_column f + y) = Some (Paint rgb) /\ usual_colour col rgb.
Proof.
  intros c W. destruct (C56_picture default_scheme c eq_refl W) as (out & E & _ & P & _).
  exists out. split; [exact E|]. intros f x y X Y. destruct (P f x y X Y) as (col & rgb & C & Q & S).
  exists col, rgb. split; [exact C|]. split; [exact S|]. apply painted_spec in Q; [|reflexivity].
  injection Q as <-. destruct col as [[] []]; vm_compute; repeat split; try reflexivity; try discriminate.
Qed.

Example C56_example :
  match cube3_display (cube3_apply cube3_solved (mkMove fR Single)) with
  | Done out => screen out 0 6 = Some (Paint (mkRgb 52 149 57)) /\ screen out 0 5 = Some (Paint (mkRgb 255 255 255)) /\
                screen out 0 3 = Some Blank /\ length out = 112
  | Panic => False
  end.
Proof. vm_compute. repeat split; reflexivity. Qed.

(** * C57: the cell closest to a point *)

(** On the 3x3 squares that are used, [Square::at] finds the closest cell of every point that
    is not too far outside ... *)
Theorem C57_three_partial : forall (num den : Z) (i : nat), (0 < den)%Z ->
  transform_coord_q 3 num den = Some i -> closest 3 num den i.
Proof.
  intros num den i D E. unfold transform_coord_q, round_q in E.
  set (m := ((num + den) * Z.of_nat 3)%Z) in E. assert (M : m = (3 * (num + den))%Z) by (unfold m; lia). clearbody m.
  assert (Y : exists y, (y = Z.of_nat i /\ 0 <= y < 3 /\ 2 * (num + den) - den <= 2 * y * den <= 2 * (num + den) + den)%Z).
  { destruct (Z.ltb_spec m 0).
    - pose proof (Z.div_mod (2 * - m + 3 * den) (2 * (3 * den)) ltac:(lia)) as DM.
      pose proof (Z.mod_pos_bound (2 * - m + 3 * den) (2 * (3 * den)) ltac:(lia)) as MB.
      set (q := ((2 * - m + 3 * den) / (2 * (3 * den)))%Z) in *. clearbody q.
      destruct ((- q <? 0) || (Z.of_nat 3 <=? - q))%Z eqn:B; [discriminate|]. apply orb_false_iff in B as [B1 B2].
      apply Z.ltb_ge in B1. apply Z.leb_gt in B2. injection E as <-. exists (- q)%Z. split; [lia|]. split; [lia|]. nia.
    - pose proof (Z.div_mod (2 * m + 3 * den) (2 * (3 * den)) ltac:(lia)) as DM.
      pose proof (Z.mod_pos_bound (2 * m + 3 * den) (2 * (3 * den)) ltac:(lia)) as MB.
      set (q := ((2 * m + 3 * den) / (2 * (3 * den)))%Z) in *. clearbody q.
      destruct ((q <? 0) || (Z.of_nat 3 <=? q))%Z eqn:B; [discriminate|]. apply orb_false_iff in B as [B1 B2].
      apply Z.ltb_ge in B1. apply Z.leb_gt in B2. injection E as <-. exists q. split; [lia|]. split; [lia|]. nia. }
  destruct Y as (y & -> & B & C). split; [lia|]. intros j J. unfold cell_distance. change (Z.of_nat 3 - 1)%Z with 2%Z.
  assert (Ij : i = 0 \/ i = 1 \/ i = 2) by lia. assert (Jj : j = 0 \/ j = 1 \/ j = 2) by lia.
  destruct Ij as [->|[->| ->]], Jj as [->|[->| ->]]; cbn [Z.of_nat Pos.of_succ_nat Pos.succ] in *; lia.
Qed.
(** ... namely at most half a cell outside. *)
Theorem C57_three_defined_partial : forall (num den : Z), (0 < den)%Z ->
  (exists i, transform_coord_q 3 num den = Some i) <-> (-3 * den < 2 * num < 3 * den)%Z.
Proof.
  intros num den D. unfold transform_coord_q, round_q.
  set (m := ((num + den) * Z.of_nat 3)%Z). assert (M : m = (3 * (num + den))%Z) by (unfold m; lia). clearbody m.
  destruct (Z.ltb_spec m 0).
  - pose proof (Z.div_mod (2 * - m + 3 * den) (2 * (3 * den)) ltac:(lia)) as DM.
    pose proof (Z.mod_pos_bound (2 * - m + 3 * den) (2 * (3 * den)) ltac:(lia)) as MB.
    set (q := ((2 * - m + 3 * den) / (2 * (3 * den)))%Z) in *. clearbody q.
    destruct ((- q <? 0) || (Z.of_nat 3 <=? - q))%Z eqn:B; split.
    + intros [i E]; discriminate.
    + intros R. exfalso. apply orb_true_iff in B as [B|B]; [apply Z.ltb_lt in B|apply Z.leb_le in B]; nia.
    + intros _. apply orb_false_iff in B as [B1 B2]. apply Z.ltb_ge in B1. apply Z.leb_gt in B2. nia.
    + eauto.
  - pose proof (Z.div_mod (2 * m + 3 * den) (2 * (3 * den)) ltac:(lia)) as DM.
    pose proof (Z.mod_pos_bound (2 * m + 3 * den) (2 * (3 * den)) ltac:(lia)) as MB.
    set (q := ((2 * m + 3 * den) / (2 * (3 * den)))%Z) in *. clearbody q.
    destruct ((q <? 0) || (Z.of_nat 3 <=? q))%Z eqn:B; split.
    + intros [i E]; discriminate.
    + intros R. exfalso. apply orb_true_iff in B as [B|B]; [apply Z.ltb_lt in B|apply Z.leb_le in B]; nia.
    + intros _. apply orb_false_iff in B as [B1 B2]. apply Z.ltb_ge in B1. apply Z.leb_gt in B2. nia.
    + eauto.
Qed.

(** Where the pieces are (coordinates -1, 0, 1) this is the function used for drawing. *)
Theorem C57_pieces_partial : forall (n : nat) (x : Z), (-1 <= x <= 1)%Z -> transform_coord n x = transform_coord_q n x 1.
Proof.
  intros n x H. unfold transform_coord, transform_coord_q, round_q.
  assert (E : ((x + 1) * Z.of_nat n <? 0)%Z = false) by (apply Z.ltb_ge; nia). rewrite E.
  replace (2 * ((x + 1) * Z.of_nat n) + 3 * 1)%Z with (2 * ((x + 1) * Z.of_nat n) + 3)%Z by lia. reflexivity.
Qed.

(** On every larger square from 5x5 on, the outermost stickers (coordinate 1) are drawn in the
    wrong row or column, and on a 2x2 square a point just left of the middle is taken for the
    right cell. *)
Theorem C57_refuted :
  (forall n, 5 <= n -> exists i, transform_coord_q n 1 1 = Some i /\ ~ closest n 1 1 i) /\
  (exists i, transform_coord_q 2 (-1) 5 = Some i /\ ~ closest 2 (-1) 5 i).
Proof.
  split.
  - intros n H. unfold transform_coord_q, round_q.
    destruct (Z.ltb_spec ((1 + 1) * Z.of_nat n) 0); [lia|].
    pose proof (Z.div_mod (2 * ((1 + 1) * Z.of_nat n) + 3 * 1) (2 * (3 * 1)) ltac:(lia)) as DM.
    pose proof (Z.mod_pos_bound (2 * ((1 + 1) * Z.of_nat n) + 3 * 1) (2 * (3 * 1)) ltac:(lia)) as MB.
    set (q := ((2 * ((1 + 1) * Z.of_nat n) + 3 * 1) / (2 * (3 * 1)))%Z) in *. clearbody q.
    destruct ((q <? 0) || (Z.of_nat n <=? q))%Z eqn:B.
    + exfalso. apply orb_true_iff in B as [B|B]; [apply Z.ltb_lt in B|apply Z.leb_le in B]; lia.
    + exists (Z.to_nat q). split; [reflexivity|]. intros [_ C]. specialize (C (n - 1) ltac:(lia)). unfold cell_distance in C. lia.
  - exists 1. split; [reflexivity|]. intros [_ C]. specialize (C 0 ltac:(lia)). vm_compute in C. apply C. reflexivity.
Qed.

(** The corners of the other small squares are right: with [n] from 2 to 4 the coordinates -1
    and 1 are in the first and last row or column. *)
Theorem C57_corners_partial : forall n, 2 <= n <= 4 ->
  transform_coord_q n (-1) 1 = Some 0 /\ transform_coord_q n 1 1 = Some (n - 1) /\ closest n (-1) 1 0 /\ closest n 1 1 (n - 1).
Proof.
  intros n H. assert (C : n = 2 \/ n = 3 \/ n = 4) by lia. split; [|split; [|split]].
  - destruct C as [->|[->| ->]]; reflexivity.
  - destruct C as [->|[->| ->]]; reflexivity.
  - split; [lia|]. intros j J. unfold cell_distance. lia.
  - split; [lia|]. intros j J. unfold cell_distance. lia.
Qed.

Example C57_example : transform_coord_q 3 (-3) 10 = Some 1 /\ transform_coord_q 3 7 10 = Some 2 /\ transform_coord_q 3 (-14) 10 = Some 0 /\
  transform_coord_q 3 3 2 = None.
Proof. repeat split; reflexivity. Qed.
Print Assumptions C56_picture.
Print Assumptions C56_injective.
Print Assumptions C56_default_scheme.
Print Assumptions C56_usual_colours.
Print Assumptions C57_three_partial.
Print Assumptions C57_three_defined_partial.
Print Assumptions C57_pieces_partial.
Print Assumptions C57_refuted.
Print Assumptions C57_corners_partial.

(** C55: which algs [Alg::random] produces. *)

From Coq Require Import List Bool Arith Lia.
From Verif Require Import Model_Base Model_Space Model_Moves Model_NonRedundant Model_Cubes Spec_Moves
  Proof_NonRedundant Prop_Moves.
Import ListNotations.

(** ** Reading the conditions from the front *)

Lemma segment_cons {T} (x m : T) l' l : segment (x :: l') (m :: l) <-> segment (x :: l') l \/ (x = m /\ exists after, l = l' ++ after).
Proof.
  split.
  - intros (b & a & E). destruct b as [|y b]; cbn in E; injection E as -> ->; [right; eauto|left; exists b, a; reflexivity].
  - intros [(b & a & ->)|(-> & a & ->)]; [exists (m :: b), a; reflexivity|exists [], a; reflexivity].
Qed.
Lemma segment_nil {T} (x : T) l' : ~ segment (x :: l') [].
Proof. intros (b & a & E). destruct b; discriminate. Qed.

Definition axis_of_move (m : AxisMove) : Axis := face_axis (mv_face m).
Definition good (m : AxisMove) (l : list AxisMove) : Prop :=
  match l with
  | [] => True
  | m2 :: r => mv_face m <> mv_face m2 /\
      match r with [] => True | m3 :: _ => ~ (axis_of_move m = axis_of_move m2 /\ axis_of_move m2 = axis_of_move m3) end
  end.
Lemma irredundant_cons m l : irredundant (m :: l) <-> irredundant l /\ good m l.
Proof.
  unfold irredundant, no_repeated_face, no_three_on_axis. split.
  - intros [A B]. split; [split|].
    + intros m1 m2 S. apply A, segment_cons. left. exact S.
    + intros m1 m2 m3 S. apply B, segment_cons. left. exact S.
    + destruct l as [|m2 [|m3 r]]; [exact I|split; [|exact I]|split].
      * apply A, segment_cons. right. split; [reflexivity|exists []; reflexivity].
      * apply A, segment_cons. right. split; [reflexivity|exists (m3 :: r); reflexivity].
      * apply B, segment_cons. right. split; [reflexivity|exists r; reflexivity].
  - intros [[A B] G]. split.
    + intros m1 m2 S. apply segment_cons in S as [S|(-> & r & ->)]; [exact (A _ _ S)|apply G].
    + intros m1 m2 m3 S. apply segment_cons in S as [S|(-> & r & ->)]; [exact (B _ _ _ S)|apply G].
Qed.
Definition ordered (m : AxisMove) (l : list AxisMove) : Prop :=
  match l with [] => True | m2 :: _ => axis_of_move m = axis_of_move m2 -> face_dir (mv_face m) = Positive end.
Lemma positive_cons m l : positive_first (m :: l) <-> positive_first l /\ ordered m l.
Proof.
  unfold positive_first. split.
  - intros A. split.
    + intros m1 m2 S. apply A, segment_cons. left. exact S.
    + destruct l as [|m2 r]; [exact I|]. refine (A m m2 _). apply segment_cons. right. split; [reflexivity|exists r; reflexivity].
  - intros [A G] m1 m2 S. apply segment_cons in S as [S|(-> & r & ->)]; [exact (A _ _ S)|apply G].
Qed.

(** ** Every outcome is in order *)

Fixpoint pf_rev (l : list AxisMove) : Prop :=
  match l with
  | m2 :: ((m1 :: _) as r) => (axis_of_move m1 = axis_of_move m2 -> face_dir (mv_face m1) = Positive) /\ pf_rev r
  | _ => True
  end.
Lemma pf_rev_ok l : pf_rev l -> positive_first (rev l).
Proof.
  intros H m1 m2 (b & a & E). assert (E' : l = rev a ++ m2 :: m1 :: rev b).
  { rewrite <- (rev_involutive l), E, !rev_app_distr. cbn. rewrite <- !app_assoc. reflexivity. }
  subst l. clear E. induction (rev a) as [|x r IH]; [exact (proj1 H)|]. apply IH. cbn in H. destruct r; apply H.
Qed.
Lemma pf_push len nr moves : length moves < len -> pf_rev moves ->
  match moves with [] => True | m :: _ => nr_axis nr <> axis_of_move m end -> pf_rev (push_until len (nr_moves nr) moves).
Proof.
  intros L H Ne. assert (P : forall m, nr_axis nr = axis_of_move m -> pf_rev (m :: moves)).
  { intros m E. destruct moves as [|x r]; [exact I|]. split; [|exact H]. intros Q. exfalso. apply Ne. congruence. }
  destruct nr as [m|a p n]; cbn [nr_moves push_until].
  - destruct (Nat.eqb _ _); apply P; reflexivity.
  - destruct (Nat.eqb (length (mkMove (mkFace a Positive) p :: moves)) len); [apply P; reflexivity|].
    assert (pf_rev (mkMove (mkFace a Negative) n :: mkMove (mkFace a Positive) p :: moves)).
    { split; [reflexivity|]. apply P. reflexivity. }
    destruct (Nat.eqb _ _); assumption.
Qed.
Lemma loop_pf len rng : forall fuel k moves al,
  random_loop fuel len rng k moves = Some (Done al) -> length moves <= len -> pf_rev moves -> positive_first al.
Proof.
  induction fuel as [|fuel IH]; intros k moves al E L H; [discriminate|]. cbn [random_loop] in E.
  destruct (Nat.ltb_spec (length moves) len) as [Lt|Ge]; [|injection E as <-; apply pf_rev_ok, H].
  set (pool := match moves with [] => nr_all | m :: _ => given_last_axis (face_axis (mv_face m)) end) in E.
  destruct (choose (rng k) pool) as [nr|] eqn:C; [|discriminate]. apply choose_in in C. apply IH in E; [exact E| |].
  - clear -Lt. destruct nr as [m|a p n]; cbn [nr_moves push_until];
      destruct (Nat.eqb_spec (length moves) 0); repeat (destruct (Nat.eqb_spec (length (_ :: moves)) len)); cbn [length] in *;
      repeat match goal with |- context [Nat.eqb ?x ?y] => destruct (Nat.eqb_spec x y) end; cbn [length] in *; lia.
  - apply pf_push; [exact Lt|exact H|]. destruct moves as [|m r]; [exact I|]. exact (given_last_ne _ _ C).
Qed.

(** ** Every alg in order is an outcome *)

Lemma loop_ext len rng rng' : forall fuel k moves, (forall j, k <= j -> rng j = rng' j) ->
  random_loop fuel len rng k moves = random_loop fuel len rng' k moves.
Proof.
  induction fuel as [|fuel IH]; intros k moves E; [reflexivity|]. cbn [random_loop]. rewrite (E k (le_n k)).
  destruct (Nat.ltb _ _); [|reflexivity]. destruct (choose _ _); [|reflexivity]. apply IH. intros j J. apply E. lia.
Qed.
Lemma choose_index {T} (l : list T) x : In x l -> exists i, choose i l = Some x.
Proof.
  intros H. apply In_nth_error in H as [i E]. exists i. unfold choose. rewrite Nat.mod_small; [exact E|].
  apply nth_error_Some. congruence.
Qed.
Lemma of_axis_complete nr : In nr (nr_of_axis (nr_axis nr)).
Proof. destruct nr as [[[[] []] []]|[] [] []]; cbn; tauto. Qed.
Lemma pool_complete nr (moves : list AxisMove) :
  match moves with [] => True | m :: _ => nr_axis nr <> axis_of_move m end ->
  In nr (match moves with [] => nr_all | m :: _ => given_last_axis (face_axis (mv_face m)) end).
Proof.
  pose proof (of_axis_complete nr) as C. destruct moves as [|m r].
  - intros _. unfold nr_all. apply in_flat_map. exists (nr_axis nr). split; [destruct (nr_axis nr); cbn; tauto|exact C].
  - unfold axis_of_move, given_last_axis. intros N. destruct (basis (face_axis (mv_face m))) as [b1 b2] eqn:B.
    apply in_flat_map. exists (nr_axis nr). split; [|exact C].
    destruct (face_axis (mv_face m)), (nr_axis nr); cbn in B; injection B as <- <-; cbn; tauto.
Qed.

Lemma loop_build len : forall n rest fuel k moves, length rest <= n -> length moves + length rest = len -> length rest < fuel ->
  irredundant rest -> positive_first rest ->
  match moves, rest with m :: _, m2 :: _ => axis_of_move m2 <> axis_of_move m | _, _ => True end ->
  exists rng, random_loop fuel len rng k moves = Some (Done (rev moves ++ rest)).
Proof.
  induction n as [|n IH]; intros rest fuel k moves L T F I P H.
  - destruct rest; [|cbn in L; lia]. destruct fuel as [|fuel]; [lia|]. exists (fun _ => 0). cbn [random_loop length] in *.
    rewrite Nat.add_0_r in T. rewrite T, Nat.ltb_irrefl, app_nil_r. reflexivity.
  - destruct rest as [|m rest].
    { destruct fuel as [|fuel]; [lia|]. exists (fun _ => 0). cbn [random_loop length] in *.
      rewrite Nat.add_0_r in T. rewrite T, Nat.ltb_irrefl, app_nil_r. reflexivity. }
    destruct fuel as [|fuel]; [lia|]. cbn [length] in L, T, F.
    assert (Lt : (length moves <? len) = true) by (apply Nat.ltb_lt; lia).
    assert (G : forall nr rest', nr_axis nr = axis_of_move m -> push_until len (nr_moves nr) moves = rev (nr_moves nr) ++ moves ->
      nr_moves nr ++ rest' = m :: rest -> length rest' <= length rest -> irredundant rest' -> positive_first rest' ->
      match rest' with [] => True | m2 :: _ => axis_of_move m2 <> axis_of_move m end ->
      exists rng, random_loop (S fuel) len rng k moves = Some (Done (rev moves ++ m :: rest))).
    { intros nr rest' A U E L' I' P' H'. destruct (choose_index _ nr (pool_complete nr moves ltac:(destruct moves; [exact Logic.I|congruence]))) as [i C].
      pose proof (f_equal (@length _) E) as EL. rewrite app_length in EL. cbn [length] in EL.
      destruct (IH rest' fuel (S k) (rev (nr_moves nr) ++ moves)) as [rng R]; try assumption; try lia.
      - rewrite app_length, rev_length. lia.
      - assert (X : exists y ys, rev (nr_moves nr) ++ moves = y :: ys /\ axis_of_move y = nr_axis nr) by (destruct nr; cbn; eauto).
        destruct X as (y & ys & -> & Y). rewrite Y, A. destruct rest'; [exact Logic.I|exact H'].
      - exists (fun j => if Nat.eqb j k then i else rng j). cbn [random_loop]. rewrite Lt, Nat.eqb_refl, C, U, <- E.
        rewrite (loop_ext _ _ rng); [|intros j J; destruct (Nat.eqb_spec j k); [lia|reflexivity]].
        rewrite R, rev_app_distr, rev_involutive, <- app_assoc. reflexivity. }
    apply irredundant_cons in I as [I1 I2]. apply positive_cons in P as [P1 P2].
    destruct rest as [|m2 rest]; [|destruct (axis_eqb (axis_of_move m) (axis_of_move m2)) eqn:Q].
    + apply (G (NRSingle m) []); try reflexivity; try assumption; try exact Logic.I.
      cbn [nr_moves push_until rev app]. destruct (Nat.eqb _ _); reflexivity.
    + apply axis_eqb_eq in Q. destruct I2 as [N1 N2]. specialize (P2 Q). apply irredundant_cons in I1 as [I3 _]. apply positive_cons in P1 as [P3 _].
      destruct m as [[a d] am], m2 as [[a2 d2] am2]. unfold axis_of_move in *. cbn [mv_face face_axis face_dir] in *. subst a2 d.
      destruct d2; [congruence|].
      apply (G (NRDouble a am am2) rest); try reflexivity; try assumption; [|cbn [length]; lia|].
      * cbn [nr_moves push_until rev app length]. destruct (Nat.eqb_spec (S (length moves)) len) as [E|E]; [cbn [length] in *; lia|].
        destruct (Nat.eqb _ _); reflexivity.
      * destruct rest as [|m3 r]; [exact Logic.I|]. intros E. apply N2. split; [reflexivity|exact (eq_sym E)].
    + apply (G (NRSingle m) (m2 :: rest)); try reflexivity; try assumption.
      * cbn [nr_moves push_until rev app]. destruct (Nat.eqb _ _); reflexivity.
      * intros E. rewrite E in Q. destruct (axis_of_move m); discriminate.
Qed.

(** * C55: the outcomes of [Alg::random] *)

(** The outcomes are exactly the algs of the given length without redundancy in which, of two
    neighbours on one axis, the positive face comes first. *)
Theorem C55_outcomes : forall (len : nat) (al : list AxisMove),
  (exists rng, random_alg len rng = Some (Done al)) <-> length al = len /\ irredundant al /\ positive_first al.
Proof.
  intros len al. split.
  - intros [rng E]. destruct (random_alg_props len rng) as (al' & E' & L & I). rewrite E in E'. injection E' as <-.
    split; [exact L|]. split; [exact I|]. apply (loop_pf _ _ _ _ _ _ E); [cbn; lia|exact Logic.I].
  - intros (L & I & P). apply (loop_build len len al (S len) 0 []); cbn [length]; try lia; try assumption.
Qed.

(** ** Every effect is possible *)

Fixpoint in_order (al : list AxisMove) : list AxisMove :=
  match al with
  | m :: ((m2 :: r) as rest) =>
      if axis_eqb (axis_of_move m) (axis_of_move m2) && dir_eqb (face_dir (mv_face m)) Negative then m2 :: m :: in_order r
      else m :: in_order rest
  | _ => al
  end.
Lemma in_order_eq m m2 r : in_order (m :: m2 :: r) =
  if axis_eqb (axis_of_move m) (axis_of_move m2) && dir_eqb (face_dir (mv_face m)) Negative then m2 :: m :: in_order r
  else m :: in_order (m2 :: r).
Proof. reflexivity. Qed.
Lemma in_order_props : forall n al, length al <= n -> irredundant al ->
  length (in_order al) = length al /\ irredundant (in_order al) /\ positive_first (in_order al) /\
  (forall a, match al with [] => True | m :: _ => axis_of_move m <> a end -> match in_order al with [] => True | m :: _ => axis_of_move m <> a end) /\
  (match al with m :: m2 :: _ => axis_of_move m <> axis_of_move m2 -> match in_order al with x :: _ => x = m | [] => True end | _ => in_order al = al end) /\
  forall s, same_effect (cube_apply s) (cube_apply s) al (in_order al).
Proof.
  assert (Z : positive_first []) by (intros m1 m2 S; exfalso; exact (segment_nil _ _ S)).
  induction n as [|n IH]; intros al L I.
  - destruct al; [|cbn in L; lia]. cbn. repeat split; auto; apply I.
  - destruct al as [|m [|m2 r]]; [cbn; repeat split; auto; apply I| |].
    { cbn. split; [reflexivity|]. split; [exact I|]. split; [apply positive_cons; split; [exact Z|exact Logic.I]|]. repeat split; auto. }
    rewrite in_order_eq. cbn [length] in L. pose proof I as I0. apply irredundant_cons in I as [I1 [N1 N2]].
    destruct (axis_eqb (axis_of_move m) (axis_of_move m2)) eqn:Q; [apply axis_eqb_eq in Q|].
    + pose proof I1 as I2. apply irredundant_cons in I2 as [I2 _].
      destruct (IH r ltac:(lia) I2) as (L1 & A & B & C & _ & D).
      assert (X : match in_order r with [] => True | x :: _ => axis_of_move x <> axis_of_move m end).
      { apply C. destruct r as [|m3 r]; [exact Logic.I|]. intros E. apply N2. split; [exact Q|congruence]. }
      destruct (dir_eqb (face_dir (mv_face m)) Negative) eqn:V; cbn [andb].
      * split; [cbn [length]; lia|]. split; [|split; [|split; [|split]]].
        -- apply irredundant_cons. split; [apply irredundant_cons; split; [exact A|]|split; [congruence|]].
           ++ destruct (in_order r) as [|x xs]; [exact Logic.I|]. split; [unfold axis_of_move in X; congruence|].
              destruct xs; [exact Logic.I|]. intros [E _]. congruence.
           ++ destruct (in_order r) as [|x xs]; [exact Logic.I|]. intros [_ E]. congruence.
        -- apply positive_cons. split; [apply positive_cons; split; [exact B|]|].
           ++ destruct (in_order r) as [|x xs]; [exact Logic.I|]. intros E. congruence.
           ++ intros _. destruct m as [[a []] am], m2 as [[a2 []] am2]; cbn in *; congruence.
        -- intros a H. congruence.
        -- intros H. congruence.
        -- intros s c. cbn [fold_left]. rewrite (C02_same_axis_commute s c m m2 Q). apply D.
      * assert (E2 : in_order (m2 :: r) = m2 :: in_order r).
        { destruct r as [|m3 r]; [reflexivity|]. rewrite in_order_eq. destruct (axis_eqb (axis_of_move m2) (axis_of_move m3)) eqn:W; [|reflexivity].
          apply axis_eqb_eq in W. tauto. }
        rewrite E2. split; [cbn [length]; lia|]. split; [|split; [|split; [|split]]].
        -- apply irredundant_cons. split; [apply irredundant_cons; split; [exact A|]|split; [congruence|]].
           ++ destruct (in_order r) as [|x xs]; [exact Logic.I|]. split; [unfold axis_of_move in *; congruence|].
              destruct xs; [exact Logic.I|]. intros [E _]. congruence.
           ++ destruct (in_order r) as [|x xs]; [exact Logic.I|]. intros [_ E]. congruence.
        -- apply positive_cons. split; [apply positive_cons; split; [exact B|]|].
           ++ destruct (in_order r) as [|x xs]; [exact Logic.I|]. intros E. congruence.
           ++ intros _. destruct m as [[a []] am]; cbn in *; congruence.
        -- intros a H. exact H.
        -- reflexivity.
        -- intros s c. cbn [fold_left]. apply D.
    + cbn [andb]. destruct (IH (m2 :: r) ltac:(cbn; lia) I1) as (L1 & A & B & C & D & E).
      assert (X : match in_order (m2 :: r) with [] => True | x :: _ => axis_of_move x <> axis_of_move m end).
      { apply C. intros W. rewrite W in Q. destruct (axis_of_move m); discriminate. }
      split; [cbn [length] in *; lia|]. split; [|split; [|split; [|split]]].
      * apply irredundant_cons. split; [exact A|]. destruct (in_order (m2 :: r)) as [|x xs]; [exact Logic.I|].
        split; [unfold axis_of_move in X; congruence|]. destruct xs; [exact Logic.I|]. intros [W _]. congruence.
      * apply positive_cons. split; [exact B|]. destruct (in_order (m2 :: r)) as [|x xs]; [exact Logic.I|]. intros W. congruence.
      * intros a H. exact H.
      * reflexivity.
      * intros s c. cbn [fold_left]. apply E.
Qed.

(** Every alg without redundancy has the same effect, on cubes of every size, as an outcome of
    the same length: no scramble is missed. *)
Theorem C55_every_effect : forall al : list AxisMove, irredundant al ->
  exists rng al', random_alg (length al) rng = Some (Done al') /\
    forall n : CubeSize, same_effect (cube_apply n) (cube_apply n) al al'.
Proof.
  intros al I. destruct (in_order_props (length al) al (le_n _) I) as (L & A & B & _ & _ & E).
  destruct (proj2 (C55_outcomes (length al) (in_order al)) (conj L (conj A B))) as [rng R].
  exists rng, (in_order al). split; [exact R|exact E].
Qed.

Example C55_example :
  let al := [mkMove fL Single; mkMove fR Double; mkMove fU Inverse] in
  irredundant al /\ ~ positive_first al /\
  (exists rng, random_alg 3 rng = Some (Done [mkMove fR Double; mkMove fL Single; mkMove fU Inverse])).
Proof.
  cbv zeta. split; [|split].
  - assert (Z : irredundant []) by (split; [intros m1 m2 S|intros m1 m2 m3 S]; exfalso; exact (segment_nil _ _ S)).
    apply irredundant_cons. split; [apply irredundant_cons; split; [apply irredundant_cons; split; [exact Z|exact I]|]|];
      cbn; (split; [discriminate|]); (exact I || intros [? ?]; discriminate).
  - intros P. specialize (P (mkMove fL Single) (mkMove fR Double)). cbn in P.
    assert (Negative = Positive); [|discriminate]. apply P; [exists [], [mkMove fU Inverse]; reflexivity|reflexivity].
  - exists (fun k => match k with 0 => 8 | _ => 11 end). vm_compute. reflexivity.
Qed.
Print Assumptions C55_outcomes.
Print Assumptions C55_every_effect.

(** C99: what the errors of the parsers say. *)

From Coq Require Import List Bool Arith NArith ZArith Lia String.
From Verif Require Import Model_Base Model_Space Model_Moves Model_Orientable Model_Parser Model_Playground
  Model_Errors Spec_Notation Spec_Errors Proof_Parser Prop_Parser Prop_Playground Prop_Report.
Import ListNotations.
Local Open Scope list_scope.

Section Wide.
  Context (isn : N -> bool) (Hn : number_class isn).

  Lemma odd_first s : odd_depth isn s -> exists c r, s = c :: r /\ (128 <= c)%N.
  Proof.
    assert (K : forall c, isn c = true -> ~ (48 <= c <= 57)%N -> (128 <= c)%N).
    { intros c I O. destruct (N.lt_ge_cases c 128) as [L|L]; [|exact L]. apply Hn in I; [contradiction|exact L]. }
    intros [c f a I O|c f a I O]; exists c; eexists; (split; [reflexivity|exact (K c I O)]).
  Qed.
  Lemma wide_first s w : wide_notation s w -> exists c r, s = c :: r /\ (c < 128)%N.
  Proof.
    intros [f a|f a|f a|d f a D|d f a D];
      [| | |exists (48 + d)%N; eexists; split; [reflexivity|lia]..];
      destruct f as [[] []]; eexists; eexists; (split; [reflexivity|vm_compute; reflexivity]).
  Qed.
  Lemma odd_not_wide s w : odd_depth isn s -> ~ wide_notation s w.
  Proof.
    intros O W. destruct (odd_first s O) as (c & r & -> & C). destruct (wide_first _ w W) as (c' & r' & [= <- <-] & C'). lia.
  Qed.
  Lemma extended_first s m : extended_notation s m -> exists c r, s = c :: r /\ (c < 128)%N.
  Proof.
    intros [[f a]|s' w W D|[x a]|x a|x a]; [|exact (wide_first _ _ W)|..].
    - destruct f as [[] []]; eexists; eexists; (split; [reflexivity|vm_compute; reflexivity]).
    - destruct x; eexists; eexists; (split; [reflexivity|vm_compute; reflexivity]).
    - destruct x; eexists; eexists; (split; [reflexivity|vm_compute; reflexivity]).
    - destruct x; eexists; eexists; (split; [reflexivity|vm_compute; reflexivity]).
  Qed.
  Lemma odd_not_extended s m : odd_depth isn s -> ~ extended_notation s m.
  Proof.
    intros O W. destruct (odd_first s O) as (c & r & -> & C). destruct (extended_first _ m W) as (c' & r' & [= <- <-] & C'). lia.
  Qed.

  (** An odd depth is an invalid digit. *)
  Lemma odd_parse n s : odd_depth isn s -> parse_wide isn n s = Done (Err (NumParseError InvalidDigit)).
  Proof.
    intros O. rewrite parse_wide_eq.
    destruct O as [c f a I O|c f a I O]; rewrite ?lit_app.
    - unfold wide_head. rewrite I. fold (face_text f) (amount_text a). rewrite wide_face_w.
      rewrite (proj2 (take_amount_spec _ a) eq_refl).
      change ([mkPair r_depth [c] []] ++ ?l) with (mkPair r_depth [c] [] :: l).
      rewrite (wide_tree_depth isn n [c] _ f a) by (destruct f as [[] []]; reflexivity).
      rewrite (depth_other isn c O I). reflexivity.
    - unfold wide_head. rewrite I. fold (small_face_text f) (amount_text a). rewrite wide_face_small.
      rewrite (proj2 (take_amount_spec _ a) eq_refl).
      rewrite (wide_tree_depth isn n [c] _ f a) by (destruct f as [[] []]; reflexivity).
      rewrite (depth_other isn c O I). reflexivity.
  Qed.
  (** A depth that is too large is reported with the limit. *)
  Lemma deep_parse n s w : wide_notation s w -> (n < w_depth w)%N ->
    parse_wide isn n s = Done (Err (Uknown (ExcededDepth (w_depth w) n))).
  Proof.
    intros W L. rewrite parse_wide_eq.
    destruct W as [f a|f a|f a|d f a D|d f a D]; cbn [w_depth] in *; rewrite ?lit_app in *; [lia|..];
      fold (face_text f) (amount_text a); fold (small_face_text f).
    - unfold wide_head. destruct (face_text_cons f) as (c & E & F). pose proof (wide_face_w f (amount_text a)) as X.
      rewrite E in *. cbn [app] in *. rewrite (isn_face isn Hn c f F), X, (proj2 (take_amount_spec _ a) eq_refl).
      rewrite (wide_tree_depth isn n [] _ f a) by (rewrite <- E; destruct f as [[] []]; reflexivity).
      cbn [depth_from_pest pair_str bind_p ret]. change (N.max 0 1) with 1%N. rewrite (proj2 (N.ltb_lt n 1) L). reflexivity.
    - unfold wide_head. destruct (small_text_cons f) as (c & E & F). pose proof (wide_face_small f (amount_text a)) as X.
      rewrite E in *. cbn [app] in *. rewrite (isn_small isn Hn c f F), X, (proj2 (take_amount_spec _ a) eq_refl).
      rewrite (wide_tree_depth isn n [] _ f a) by (rewrite <- E; destruct f as [[] []]; reflexivity).
      cbn [depth_from_pest pair_str bind_p ret]. change (N.max 0 1) with 1%N. rewrite (proj2 (N.ltb_lt n 1) L). reflexivity.
    - unfold wide_head, digit. cbn [app]. rewrite (isn_digit isn Hn d D), wide_face_w, (proj2 (take_amount_spec _ a) eq_refl).
      rewrite (wide_tree_depth isn n [(48 + d)%N] _ f a) by (destruct f as [[] []]; reflexivity).
      rewrite (depth_digit d D). cbn [bind_p ret]. rewrite N.max_comm, (proj2 (N.ltb_lt _ _) L). reflexivity.
    - unfold wide_head, digit. cbn [app]. rewrite (isn_digit isn Hn d D), wide_face_small, (proj2 (take_amount_spec _ a) eq_refl).
      rewrite (wide_tree_depth isn n [(48 + d)%N] _ f a) by (destruct f as [[] []]; reflexivity).
      rewrite (depth_digit d D). cbn [bind_p ret]. rewrite N.max_comm, (proj2 (N.ltb_lt _ _) L). reflexivity.
  Qed.

  (** What the beginning of a wide move looks like. *)
  Lemma head_shape s p c r : wide_head isn s = Some (p, c, r) ->
    s = c ++ r /\
    ((exists d q f, p = [mkPair r_depth d []; q] /\ parse_face_wide isn q = ret f /\
        (d = [] \/ exists x, d = [x] /\ isn x = true) /\
        (c = d ++ face_text f ++ lit "w" \/ c = d ++ small_face_text f)) \/
     (exists f, p = [mkPair r_face (face_text f) []])).
  Proof.
    unfold wide_head. intros H.
    assert (W : forall d s', (d = [] \/ exists x, d = [x] /\ isn x = true) ->
        match wide_face_result s' with
        | PegOk p c rest => Some (mkPair r_depth d [] :: p, d ++ c, rest)
        | _ => None end = Some (p, c, r) ->
        d ++ s' = c ++ r /\
        exists d q f, p = [mkPair r_depth d []; q] /\ parse_face_wide isn q = ret f /\
        (d = [] \/ exists x, d = [x] /\ isn x = true) /\
        (c = d ++ face_text f ++ lit "w" \/ c = d ++ small_face_text f)).
    { intros d s' D K. destruct (wide_face_result s') as [p' c' rest| |] eqn:F; try discriminate.
      destruct (wide_face_inv isn _ _ _ _ F) as (f & q & -> & -> & Q & C). injection K as <- <- <-.
      split; [apply app_assoc|]. exists d, q, f. split; [reflexivity|]. split; [exact Q|]. split; [exact D|].
      destruct C as [->| ->]; [left|right]; reflexivity. }
    assert (P : forall x y, match face_of x with
                    | Some f => Some ([mkPair r_face (face_text f) []], face_text f, y)
                    | None => None end = Some (p, c, r) ->
        x :: y = c ++ r /\ exists f, p = [mkPair r_face (face_text f) []]).
    { intros x y K. destruct (face_of x) as [f|] eqn:F; [|discriminate]. injection K as <- <- <-.
      apply face_of_spec in F. fold (face_text f) in F. split; [rewrite F; reflexivity|]. exists f. reflexivity. }
    destruct s as [|x y]; [discriminate|]. destruct (isn x) eqn:X.
    - specialize (W [x] y (or_intror (ex_intro _ x (conj eq_refl X)))).
      destruct (wide_face_result y); [destruct (W H); auto|destruct (P _ _ H); auto|destruct (P _ _ H); auto].
    - specialize (W [] (x :: y) (or_introl eq_refl)).
      destruct (wide_face_result (x :: y)); [destruct (W H); auto|destruct (P _ _ H); auto|destruct (P _ _ H); auto].
  Qed.

  Lemma error_kinds n s e : parse_wide isn n s = Done (Err e) -> e = PestError \/ wide_error isn n s e.
  Proof.
    rewrite parse_wide_eq. destruct (wide_head isn s) as [[[p c] r]|] eqn:H; [|intros [= <-]; left; reflexivity].
    destruct (take_amount r) as [a [|y rest]] eqn:T; [|intros [= <-]; left; reflexivity].
    apply take_amount_spec in T. destruct (head_shape _ _ _ _ H) as [-> [(d & q & f & -> & Q & D & C)|(f & ->)]].
    2: { rewrite wide_tree_face. discriminate. }
    subst r. rewrite (wide_tree_depth isn n d q f a _ Q).
    destruct D as [->|(x & -> & X)].
    - cbn [depth_from_pest pair_str bind_p ret]. change (N.max 0 1) with 1%N. destruct (N.ltb_spec n 1) as [L|L]; [|discriminate].
      intros [= <-]. right. destruct C as [->| ->]; cbn [app]; unfold face_text, small_face_text, amount_text; rewrite <- !lit_app.
      + rewrite <- append_assoc_lemma. exact (TooDeep isn n _ _ (WideW f a) L).
      + exact (TooDeep isn n _ _ (WideSmall f a) L).
    - destruct ((48 <=? x) && (x <=? 57))%N eqn:R.
      + apply andb_true_iff in R. rewrite !N.leb_le in R. assert (E : x = (48 + (x - 48))%N) by lia. revert E.
        generalize (x - 48)%N as v. intros v ->. assert (V : (v <= 9)%N) by lia. rewrite (depth_digit v V). cbn [bind_p ret].
        rewrite N.max_comm. destruct (N.ltb_spec n (N.max 1 v)) as [L|L]; [|discriminate].
        intros [= <-]. right. destruct C as [->| ->]; rewrite <- !app_assoc; unfold face_text, small_face_text, amount_text; rewrite <- !lit_app.
        * exact (TooDeep isn n _ _ (WideDigitW v f a V) L).
        * exact (TooDeep isn n _ _ (WideDigitSmall v f a V) L).
      + assert (O : ~ (48 <= x <= 57)%N). { intros Z. apply andb_false_iff in R. rewrite !N.leb_gt in R. lia. }
        rewrite (depth_other isn x O X). intros [= <-]. right. apply OddDepth.
        destruct C as [->| ->]; rewrite <- !app_assoc; unfold face_text, small_face_text, amount_text; rewrite <- !lit_app.
        * exact (OddW isn x f a X O).
        * exact (OddSmall isn x f a X O).
  Qed.

  Lemma wide_errors n s e : parse_wide isn n s = Done (Err e) <-> wide_error isn n s e.
  Proof.
    split.
    - intros E. destruct (error_kinds n s e E) as [->|K]; [|exact K]. apply NoWide.
      + intros w W. destruct (N.lt_ge_cases n (w_depth w)) as [L|L].
        * rewrite (deep_parse n s w W L) in E. discriminate.
        * rewrite (proj2 (wide_language isn Hn n s w) (conj W L)) in E. discriminate.
      + intros O. rewrite (odd_parse n s O) in E. discriminate.
    - intros [w W L|O|W O]; [exact (deep_parse n s w W L)|exact (odd_parse n s O)|].
      pose proof (parse_wide_no_panic isn n s) as NP.
      destruct (parse_wide isn n s) as [[w|e']|] eqn:E; [| |congruence].
      + exfalso. apply (W w), (wide_language isn Hn n s w), E.
      + destruct (error_kinds n s e' E) as [->|[w W' L|O'|_ _]]; [reflexivity|destruct (W w W')|contradiction|reflexivity].
  Qed.

  Lemma extended_errors s e : parse_extended isn s = Done (Err e) <-> extended_error isn s e.
  Proof.
    assert (O : odd_depth isn s -> parse_extended isn s = Done (Err (NumParseError InvalidDigit))).
    { intros O. rewrite parse_extended_eq. pose proof (odd_parse u32_max s O) as P.
      destruct (wide_head isn s) as [t|] eqn:H; [rewrite P; reflexivity|]. rewrite parse_wide_eq, H in P. discriminate. }
    assert (K : forall e, parse_extended isn s = Done (Err e) -> e = PestError \/ odd_depth isn s).
    { intros e'. rewrite parse_extended_eq. destruct (wide_head isn s) as [t|].
      - destruct (parse_wide isn u32_max s) as [[w|x]|] eqn:P; cbn [bind_p]; [discriminate| |discriminate].
        intros [= <-]. apply wide_errors in P. destruct P as [w W L|P|W P]; [|right; exact P|left; reflexivity].
        pose proof (wide_digit_bound s w W). lia.
      - destruct s as [|c r]; [intros [= <-]; left; reflexivity|].
        destruct (axis_of c); [destruct (take_amount r) as [am [|y rest]]; intros [= <-]; left; reflexivity|].
        destruct (slice_of c); [destruct (take_amount r) as [am [|y rest]]; intros [= <-]; left; reflexivity|].
        destruct (small_slice_of c); [destruct (take_amount r) as [am [|y rest]]; intros [= <-]; left; reflexivity|].
        intros [= <-]. left. reflexivity. }
    split.
    - intros E. destruct (K e E) as [->|P]; [|rewrite (O P) in E; injection E as <-; apply OddWide, P].
      apply NoMove.
      + intros m M. apply (extended_language isn Hn) in M. congruence.
      + intros P. rewrite (O P) in E. discriminate.
    - intros [P|M P]; [exact (O P)|]. pose proof (parse_extended_no_panic isn s) as NP.
      destruct (parse_extended isn s) as [[m|e']|] eqn:E; [| |congruence].
      + exfalso. apply (M m), (extended_language isn Hn), E.
      + destruct (K e' eq_refl) as [->|P']; [reflexivity|contradiction].
  Qed.
End Wide.

(** The error of [WideAxisMove::<n>::parse], for every text: the depth and the limit if the
    text is a wide move that is too deep, an invalid digit if its depth is written with a
    character that is a number but no digit, and otherwise that of the grammar. *)
Theorem C99_wide_errors : forall isn, number_class isn -> forall n s e,
  parse_wide isn n s = Done (Err e) <-> wide_error isn n s e.
Proof. exact wide_errors. Qed.

(** The error of [ExtendedAxisMove::parse], for every text. *)
Theorem C99_extended_errors : forall isn, number_class isn -> forall s e,
  parse_extended isn s = Done (Err e) <-> extended_error isn s e.
Proof. exact extended_errors. Qed.

(** Face moves and rotations are refused by the grammar only. *)
Theorem C99_plain_errors : forall isn s e,
  (parse_move isn s = Done (Err e) <-> e = PestError /\ forall m, s <> move_notation m) /\
  (parse_rotation isn s = Done (Err e) <-> e = PestError /\ forall r, s <> rotation_notation r).
Proof.
  intros isn s e. destruct (C25_no_panic isn 0%N s) as ([rm M] & [rr R] & _). split; split.
  - intros E. split.
    + revert E. rewrite parse_move_eq. destruct s as [|c r]; [unfold fail; congruence|]. destruct (face_of c); [|unfold fail; congruence].
      destruct (take_amount r) as [am [|y rest]]; unfold ret, fail; congruence.
    + intros m X. apply (C25_move_language isn) in X. congruence.
  - intros [-> X]. rewrite M. destruct rm as [m|e].
    + apply C25_move_language in M. destruct (X m M).
    + revert M. rewrite parse_move_eq. destruct s as [|c r]; [unfold fail; congruence|]. destruct (face_of c); [|unfold fail; congruence].
      destruct (take_amount r) as [am [|y rest]]; unfold ret, fail; congruence.
  - intros E. split.
    + revert E. rewrite parse_rotation_eq. destruct s as [|c r]; [unfold fail; congruence|]. destruct (axis_of c); [|unfold fail; congruence].
      destruct (take_amount r) as [am [|y rest]]; unfold ret, fail; congruence.
    + intros m X. apply (C25_rotation_language isn) in X. congruence.
  - intros [-> X]. rewrite R. destruct rr as [m|e].
    + apply C25_rotation_language in R. destruct (X m R).
    + revert R. rewrite parse_rotation_eq. destruct s as [|c r]; [unfold fail; congruence|]. destruct (axis_of c); [|unfold fail; congruence].
      destruct (take_amount r) as [am [|y rest]]; unfold ret, fail; congruence.
Qed.

(** The error of a sequence of moves is that of its first word that is refused. *)
Lemma parse_all_err {M} (p : text -> outcome (result M ParseError)) ws e :
  parse_all p ws = Done (Err e) <->
  exists before w after, ws = before ++ w :: after /\ Forall (fun w => exists m, p w = Done (Ok m)) before /\ p w = Done (Err e).
Proof.
  induction ws as [|w ws IH]; cbn [parse_all].
  - split; [discriminate|]. intros (before & w & after & E & _). destruct before; discriminate.
  - split.
    + destruct (p w) as [[m|e']|] eqn:P; cbn [bind_p]; [| |discriminate].
      * destruct (parse_all p ws) as [[ms|e']|]; cbn [bind_p]; [discriminate| |discriminate].
        intros [= <-]. destruct (proj1 IH eq_refl) as (before & x & after & -> & B & X).
        exists (w :: before), x, after. split; [reflexivity|]. split; [constructor; [exists m; exact P|exact B]|exact X].
      * intros [= <-]. exists [], w, ws. split; [reflexivity|]. split; [constructor|exact P].
    + intros (before & x & after & E & B & X). destruct before as [|b before]; injection E as -> ->.
      * rewrite X. reflexivity.
      * inversion B as [|b' before' [m Hm] B']; subst. rewrite Hm. cbn [bind_p].
        rewrite (proj2 IH) by (exists before, x, after; auto). reflexivity.
Qed.
Theorem C99_alg_errors : forall M (p : text -> outcome (result M ParseError)) t e,
  parse_alg p t = Done (Err e) <->
  first_bad (fun w => exists m, p w = Done (Ok m)) (fun w e => p w = Done (Err e)) t e.
Proof.
  intros M p t e. unfold parse_alg. rewrite parse_all_err. unfold first_bad. split.
  - intros (before & w & after & E & H). exists before, w, after. split; [apply words_iff, E|exact H].
  - intros (before & w & after & E & H). exists before, w, after. split; [apply words_iff, E|exact H].
Qed.
Lemma first_bad_iff {E} (g g' : text -> Prop) (b b' : text -> E -> Prop) t e :
  (forall w, g w <-> g' w) -> (forall w, b w e <-> b' w e) -> first_bad g b t e <-> first_bad g' b' t e.
Proof.
  intros G B. split; intros (before & w & after & W & F & X); exists before, w, after; (split; [exact W|]);
    (split; [eapply Forall_impl; [|exact F]; intros a; apply G|apply B, X]).
Qed.
Theorem C99_alg_errors_notation : forall isn, number_class isn -> forall n t e,
  (parse_alg (parse_extended isn) t = Done (Err e) <->
     first_bad (fun w => exists m, extended_notation w m) (extended_error isn) t e) /\
  (parse_alg (parse_wide isn n) t = Done (Err e) <->
     first_bad (fun w => exists m, wide_notation w m /\ (w_depth m <= n)%N) (wide_error isn n) t e) /\
  (parse_alg (parse_move isn) t = Done (Err e) <->
     first_bad (fun w => exists m, w = move_notation m) (fun w e => e = PestError /\ forall m, w <> move_notation m) t e).
Proof.
  intros isn H n t e. split; [|split]; rewrite C99_alg_errors; apply first_bad_iff; intros w.
  - split; intros [m M]; exists m; apply (C25_extended_language isn H), M.
  - apply C99_extended_errors, H.
  - split; intros [m M]; exists m; apply (C25_wide_language isn H n), M.
  - apply C99_wide_errors, H.
  - split; intros [m M]; exists m; apply (C25_move_language isn), M.
  - apply C99_plain_errors.
Qed.

(** The errors that are there for the programmer are never seen, and neither is a number that is
    empty or too large, whatever is parsed. *)
Inductive parse_gives (isn : N -> bool) : ParseError -> Prop :=
| GivesMove s e : parse_move isn s = Done (Err e) -> parse_gives isn e
| GivesRotation s e : parse_rotation isn s = Done (Err e) -> parse_gives isn e
| GivesWide n s e : parse_wide isn n s = Done (Err e) -> parse_gives isn e
| GivesExtended s e : parse_extended isn s = Done (Err e) -> parse_gives isn e
| GivesMoves s e : parse_alg (parse_move isn) s = Done (Err e) -> parse_gives isn e
| GivesWides n s e : parse_alg (parse_wide isn n) s = Done (Err e) -> parse_gives isn e
| GivesExtendeds s e : parse_alg (parse_extended isn) s = Done (Err e) -> parse_gives isn e.
Theorem C99_only_these : forall isn, number_class isn -> forall e, parse_gives isn e ->
  e = PestError \/ e = NumParseError InvalidDigit \/ exists d n, (n < d <= 9)%N /\ e = Uknown (ExcededDepth d n).
Proof.
  intros isn H.
  assert (W : forall n s e, parse_wide isn n s = Done (Err e) ->
    e = PestError \/ e = NumParseError InvalidDigit \/ exists d n, (n < d <= 9)%N /\ e = Uknown (ExcededDepth d n)).
  { intros n s e E. apply (C99_wide_errors isn H) in E. destruct E as [w W L|O|]; [|auto..]. right. right.
    exists (w_depth w), n. split; [|reflexivity]. split; [exact L|]. destruct W; cbn [w_depth]; lia. }
  assert (X : forall s e, parse_extended isn s = Done (Err e) ->
    e = PestError \/ e = NumParseError InvalidDigit \/ exists d n, (n < d <= 9)%N /\ e = Uknown (ExcededDepth d n)).
  { intros s e E. apply (C99_extended_errors isn H) in E. destruct E; auto. }
  intros e [s e' E|s e' E|n s e' E|s e' E|s e' E|n s e' E|s e' E].
  - left. apply (proj1 (C99_plain_errors isn s e')) in E. apply E.
  - left. apply (proj2 (C99_plain_errors isn s e')) in E. apply E.
  - exact (W n s e' E).
  - exact (X s e' E).
  - apply C99_alg_errors in E. destruct E as (_ & w & _ & _ & _ & E). left. apply (proj1 (C99_plain_errors isn w e')) in E. apply E.
  - apply C99_alg_errors in E. destruct E as (_ & w & _ & _ & _ & E). exact (W n w e' E).
  - apply C99_alg_errors in E. destruct E as (_ & w & _ & _ & _ & E). exact (X w e' E).
Qed.

(** What is displayed for a wide move that is too deep for its cube names the depth and the
    limit. *)
Lemma u32_reads n : (n < 2 ^ 32)%N -> reads (display_u32 n) n.
Proof.
  intros B. split; [apply digits_not_nil; lia|]. unfold display_u32. rewrite digits_reads; [reflexivity| |lia].
  apply N.lt_le_trans with (1 := B). vm_compute. discriminate.
Qed.
Theorem C99_deep_message : forall isn, number_class isn -> forall n s w pest,
  (n < 2 ^ 32)%N -> wide_notation s w -> (n < w_depth w)%N ->
  exists e given max, parse_wide isn n s = Done (Err e) /\
    display_parse_error pest e =
      lit "Statically uknown error: Exceded maximum depth (given: " ++ given ++ lit ", max: " ++ max ++ lit ")" /\
    reads given (w_depth w) /\ reads max n.
Proof.
  intros isn H n s w pest B W L. exists (Uknown (ExcededDepth (w_depth w) n)), (display_u32 (w_depth w)), (display_u32 n).
  split; [apply (C99_wide_errors isn H), TooDeep; assumption|]. split; [|split; apply u32_reads].
  - cbn [display_parse_error display_creation_error]. 
    change (lit "Statically uknown error: Exceded maximum depth (given: ") with
      (lit "Statically uknown error: " ++ lit "Exceded maximum depth (given: "). rewrite <- app_assoc. reflexivity.
  - pose proof (wide_digit_bound s w W). unfold u32_max in *. apply N.le_lt_trans with (1 := H0). vm_compute. reflexivity.
  - exact B.
Qed.

(** What the playground writes about a line that is not a sequence of moves: the reason why the
    first word that is not a move is refused. *)
Theorem C99_playground : forall isn, number_class isn -> forall o line io pest,
  (forall al, ~ line_notation line al) ->
  exists err,
    (forall rest, play isn o (ReadLine line :: rest) = (ErrorShown err :: fst (play isn o rest), snd (play isn o rest))) /\
    exists reason, first_bad (fun w => exists m, extended_notation w m) (extended_error isn) line reason /\
      (reason = NumParseError InvalidDigit ->
         error_line io pest err = lit "Error: Error while parsing number: invalid digit found in string") /\
      (reason = PestError -> error_line io pest err = lit "Error: " ++ pest).
Proof.
  intros isn H o line io pest L. destruct (C49_bad_line isn o line H L) as (e & E & P). exists (NotParsed e). split; [exact P|].
  exists e. split; [|split; intros ->; reflexivity].
  apply (C99_alg_errors_notation isn H 0%N line e). cbn [playground_loop] in E.
  destruct (parse_alg (parse_extended isn) line) as [[al|e']|]; cbn [bind_o] in E; [|injection E as ->; reflexivity|discriminate E].
  destruct (apply_extended o al); discriminate E.
Qed.

(** A superscript two counts as a number. *)
Definition with_superscript (c : N) : bool := ((48 <=? c) && (c <=? 57) || (c =? 178))%N.
Example C99_example :
  number_class with_superscript /\
  wide_error with_superscript 2 (lit "3Lw'") (Uknown (ExcededDepth 3 2)) /\
  odd_depth with_superscript (178%N :: lit "Rw") /\
  (forall al, ~ line_notation (lit "R Q") al) /\
  fst (playground_3x3 with_superscript [ReadLine (lit "R Q"); ReadLine (lit "U " ++ 178%N :: lit "Rw Q")]) =
    [Shown (Model_Cubes.cube_solved Model_Cubes.Size3); ErrorShown (NotParsed PestError); ErrorShown (NotParsed (NumParseError InvalidDigit))].
Proof.
  assert (N : number_class with_superscript).
  { intros c C. unfold with_superscript. rewrite orb_true_iff, andb_true_iff, !N.leb_le, N.eqb_eq. lia. }
  split; [exact N|]. split.
  { apply (TooDeep with_superscript 2 (lit "3Lw'") (mkWide 3 (mkMove fL Inverse))); [|reflexivity].
    apply (WideDigitW 3 fL Inverse). vm_compute. discriminate. }
  split; [apply (OddW with_superscript 178 fR Single); [reflexivity|lia]|]. split; [|vm_compute; reflexivity].
  intros al A. apply (parse_line with_superscript _ _ N) in A. vm_compute in A. discriminate A.
Qed.
Print Assumptions C99_wide_errors.
Print Assumptions C99_extended_errors.
Print Assumptions C99_plain_errors.
Print Assumptions C99_alg_errors.
Print Assumptions C99_alg_errors_notation.
Print Assumptions C99_only_these.
Print Assumptions C99_deep_message.
Print Assumptions C99_playground.

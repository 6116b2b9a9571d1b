(** C24, C25, C26: reading and writing moves as text. *)

From Coq Require Import List Bool Arith NArith Lia String Ascii FinFun.
From Verif Require Import Model_Base Model_Space Model_Moves Model_NonRedundant Model_Orientable Model_Parser
  Spec_Notation Proof_Parser.
Import ListNotations.
Local Open Scope list_scope.
Local Arguments N.eqb : simpl never.
Local Arguments N.ltb : simpl never.
Local Arguments N.leb : simpl never.

(* ------------------------------------------------------------------ *)
(** * Letters *)

Ltac letter_cases c :=
  repeat match goal with
  | |- context [N.eqb ?x c] =>
      let E := fresh in destruct (N.eqb x c) eqn:E; [apply N.eqb_eq in E; subst c|]
  end.

Lemma face_of_spec c f : face_of c = Some f <-> face_text f = [c].
Proof.
  split.
  - unfold face_of. letter_cases c; intros [= <-]; reflexivity.
  - destruct f as [[] []]; intros [= <-]; reflexivity.
Qed.
Lemma small_face_of_spec c f : small_face_of c = Some f <-> small_face_text f = [c].
Proof.
  split.
  - unfold small_face_of. letter_cases c; intros [= <-]; reflexivity.
  - destruct f as [[] []]; intros [= <-]; reflexivity.
Qed.
Lemma axis_of_spec c a : axis_of c = Some a <-> lit (rotation_name a) = [c].
Proof.
  split.
  - unfold axis_of. letter_cases c; intros [= <-]; reflexivity.
  - destruct a; intros [= <-]; reflexivity.
Qed.
Lemma slice_of_spec c a : slice_of c = Some a <-> lit (slice_name a) = [c].
Proof.
  split.
  - unfold slice_of. letter_cases c; intros [= <-]; reflexivity.
  - destruct a; intros [= <-]; reflexivity.
Qed.
Lemma small_slice_of_spec c a : small_slice_of c = Some a <-> lit (small_slice_name a) = [c].
Proof.
  split.
  - unfold small_slice_of. letter_cases c; intros [= <-]; reflexivity.
  - destruct a; intros [= <-]; reflexivity.
Qed.
Lemma take_amount_spec r a : take_amount r = (a, []) <-> r = amount_text a.
Proof.
  split.
  - unfold take_amount. destruct r as [|c r]; [intros [= <-]; reflexivity|].
    letter_cases c; try (intros [= <- ->]; reflexivity).
  - intros ->. destruct a; reflexivity.
Qed.

Lemma face_pest f : face_from_pest (mkPair r_face (face_text f) []) = ret f.
Proof. destruct f as [[] []]; reflexivity. Qed.
Lemma amount_pest a : amount_from_pest (mkPair r_amount (amount_text a) []) = ret a.
Proof. destruct a; reflexivity. Qed.
Lemma axis_pest a : axis_from_pest (mkPair r_axis (lit (rotation_name a)) []) = ret a.
Proof. destruct a; reflexivity. Qed.

Lemma notation_split f a : lit (face_name f ++ amount_suffix a) = face_text f ++ amount_text a.
Proof. apply lit_app. Qed.

(* ------------------------------------------------------------------ *)
(** * C25: the language of plain moves and rotations *)

Section Language.
  Context (isn : N -> bool).

  Lemma parse_move_eq s : parse_move isn s =
    match s with
    | [] => fail PestError
    | c :: r => match face_of c with
                | Some f => let (a, rest) := take_amount r in
                            match rest with [] => ret (mkMove f a) | _ :: _ => fail PestError end
                | None => fail PestError
                end
    end.
  Proof.
    unfold parse_move, parse_rule. change 24 with (9 + 15). rewrite run_axis_move.
    destruct s as [|c r]; [reflexivity|]. destruct (face_of c) as [f|]; [|reflexivity].
    destruct (take_amount r) as [a [|x rest]]; [|reflexivity].
    unfold move_from_pest. cbn [pair_inner next_pair]. rewrite face_pest. cbn [bind_p ret].
    rewrite amount_pest. reflexivity.
  Qed.

  Lemma parse_rotation_eq s : parse_rotation isn s =
    match s with
    | [] => fail PestError
    | c :: r => match axis_of c with
                | Some f => let (a, rest) := take_amount r in
                            match rest with [] => ret (mkRot f a) | _ :: _ => fail PestError end
                | None => fail PestError
                end
    end.
  Proof.
    unfold parse_rotation, parse_rule. change 24 with (6 + 18). rewrite run_rotation.
    destruct s as [|c r]; [reflexivity|]. destruct (axis_of c) as [f|]; [|reflexivity].
    destruct (take_amount r) as [a [|x rest]]; [|reflexivity].
    unfold rotation_from_pest. cbn [pair_inner next_pair]. rewrite axis_pest. cbn [bind_p ret].
    rewrite amount_pest. reflexivity.
  Qed.
End Language.

(** [AxisMove::parse(s)] is [Ok(m)] exactly if [s] is the notation of [m]. *)
Theorem C25_move_language : forall isn (s : text) (m : AxisMove),
  parse_move isn s = Done (Ok m) <-> s = move_notation m.
Proof.
  intros isn s [f a]. unfold move_notation. cbn [mv_face mv_amount]. rewrite notation_split, parse_move_eq.
  split.
  - destruct s as [|c r]; [discriminate|]. destruct (face_of c) as [f'|] eqn:F; [|discriminate].
    destruct (take_amount r) as [a' [|x rest]] eqn:T; [|discriminate].
    intros [= -> ->]. apply face_of_spec in F. apply take_amount_spec in T. rewrite F, T. reflexivity.
  - intros ->. destruct (face_text f) as [|c [|c' l]] eqn:F; [destruct f as [[] []]; discriminate| |
      destruct f as [[] []]; discriminate].
    cbn [app]. rewrite (proj2 (face_of_spec c f) F), (proj2 (take_amount_spec _ a) eq_refl). reflexivity.
Qed.

Theorem C25_rotation_language : forall isn (s : text) (r : AxisRotation),
  parse_rotation isn s = Done (Ok r) <-> s = rotation_notation r.
Proof.
  intros isn s [x a]. unfold rotation_notation. cbn [rot_axis rot_amount]. rewrite lit_app.
  fold (amount_text a). rewrite parse_rotation_eq. split.
  - destruct s as [|c r]; [discriminate|]. destruct (axis_of c) as [f'|] eqn:F; [|discriminate].
    destruct (take_amount r) as [a' [|y rest]] eqn:T; [|discriminate].
    intros [= -> ->]. apply axis_of_spec in F. apply take_amount_spec in T. rewrite F, T. reflexivity.
  - intros ->. destruct (lit (rotation_name x)) as [|c [|c' l]] eqn:F; [destruct x; discriminate| |
      destruct x; discriminate].
    cbn [app]. rewrite (proj2 (axis_of_spec c x) F), (proj2 (take_amount_spec _ a) eq_refl). reflexivity.
Qed.

(** [Face::parse], [Axis::parse] and [Amount::parse] read the letter of a face, the small letter
    of an axis and the suffix of an amount (none for a quarter turn), and refuse every other text
    as a syntax error. *)
Theorem C25_parts_language : forall isn (s : text),
  (forall f, parse_face isn s = Done (Ok f) <-> s = lit (face_name f)) /\
  (forall x, parse_axis isn s = Done (Ok x) <-> s = lit (rotation_name x)) /\
  (forall a, parse_amount isn s = Done (Ok a) <-> s = lit (amount_suffix a)) /\
  ((forall f, s <> lit (face_name f)) -> parse_face isn s = Done (Err PestError)) /\
  ((forall x, s <> lit (rotation_name x)) -> parse_axis isn s = Done (Err PestError)) /\
  ((forall a, s <> lit (amount_suffix a)) -> parse_amount isn s = Done (Err PestError)).
Proof.
  intros isn s.
  assert (F : parse_face isn s = match s with [c] => match face_of c with Some f => ret f | None => fail PestError end | _ => fail PestError end).
  { unfold parse_face, parse_rule. change 24 with (7 + 17). rewrite run_face. unfold letter_result.
    destruct s as [|c [|c' r]]; [reflexivity| |]; (destruct (face_of c) as [f|]; [|reflexivity]); [apply face_pest|reflexivity]. }
  assert (X : parse_axis isn s = match s with [c] => match axis_of c with Some f => ret f | None => fail PestError end | _ => fail PestError end).
  { unfold parse_axis, parse_rule. change 24 with (4 + 20). rewrite run_axis. unfold letter_result.
    destruct s as [|c [|c' r]]; [reflexivity| |]; (destruct (axis_of c) as [f|]; [|reflexivity]); [apply axis_pest|reflexivity]. }
  assert (A : parse_amount isn s = let (a, rest) := take_amount s in match rest with [] => ret a | _ :: _ => fail PestError end).
  { unfold parse_amount, parse_rule. change 24 with (4 + 20). rewrite run_amount.
    destruct (take_amount s) as [a [|c r]]; [apply amount_pest|reflexivity]. }
  rewrite F, X, A. clear F X A.
  assert (F : forall f, (match s with [c] => match face_of c with Some f => ret f | None => fail PestError end | _ => fail PestError end) = Done (Ok f) <-> s = face_text f).
  { intros f. split.
    - destruct s as [|c [|c' r]]; try discriminate. destruct (face_of c) as [f'|] eqn:E; [|discriminate]. intros [= ->]. apply face_of_spec in E. rewrite E. reflexivity.
    - intros ->. destruct (face_text f) as [|c [|c' l]] eqn:E; [destruct f as [[] []]; discriminate| |destruct f as [[] []]; discriminate].
      apply face_of_spec in E. rewrite E. reflexivity. }
  assert (X : forall f, (match s with [c] => match axis_of c with Some f => ret f | None => fail PestError end | _ => fail PestError end) = Done (Ok f) <-> s = lit (rotation_name f)).
  { intros f. split.
    - destruct s as [|c [|c' r]]; try discriminate. destruct (axis_of c) as [f'|] eqn:E; [|discriminate]. intros [= ->]. apply axis_of_spec in E. rewrite E. reflexivity.
    - intros ->. destruct (lit (rotation_name f)) as [|c [|c' l]] eqn:E; [destruct f; discriminate| |destruct f; discriminate].
      apply axis_of_spec in E. rewrite E. reflexivity. }
  assert (A : forall a, (let (a, rest) := take_amount s in match rest with [] => ret a | _ :: _ => fail PestError end) = Done (Ok a) <-> s = lit (amount_suffix a)).
  { intros a. rewrite <- (take_amount_spec s a). destruct (take_amount s) as [a' [|c r]]; split; congruence || discriminate || (intros [= ->]; reflexivity). }
  split; [exact F|]. split; [exact X|]. split; [exact A|]. split; [|split].
  - intros N. destruct s as [|c [|c' r]]; try reflexivity. destruct (face_of c) as [f|] eqn:E; [|reflexivity]. elim (N f). apply F. reflexivity.
  - intros N. destruct s as [|c [|c' r]]; try reflexivity. destruct (axis_of c) as [f|] eqn:E; [|reflexivity]. elim (N f). apply X. reflexivity.
  - intros N. destruct (take_amount s) as [a [|c r]] eqn:E; [|reflexivity]. elim (N a). apply A. reflexivity.
Qed.

(** There are exactly 18 and 9 accepted texts, all different. *)
Theorem C25_move_count : forall isn,
  List.length (map move_notation all_moves) = 18 /\ NoDup (map move_notation all_moves) /\
  forall s, (exists m, parse_move isn s = Done (Ok m)) <-> In s (map move_notation all_moves).
Proof.
  intros isn. split; [reflexivity|split].
  - apply Injective_map_NoDup.
    + intros a b E. pose proof (proj2 (C25_move_language isn (move_notation a) a) eq_refl) as A.
      pose proof (proj2 (C25_move_language isn (move_notation a) b) E) as B. congruence.
    + assert (D : forall l : list AxisMove,
        (fix nd l := match l with [] => true | x :: r => negb (existsb (move_eqb x) r) && nd r end) l = true ->
        NoDup l).
      { induction l as [|x l IH]; [constructor|]. intros H. apply andb_true_iff in H. destruct H as [H1 H2].
        constructor; [|apply IH, H2]. intros I. apply negb_true_iff in H1.
        assert (existsb (move_eqb x) l = true) by (apply existsb_exists; exists x; split; [exact I|apply move_eqb_eq; reflexivity]).
        congruence. }
      apply D. reflexivity.
  - intros s. rewrite in_map_iff. split.
    + intros (m & H). apply C25_move_language in H. exists m. split; [auto|apply all_moves_complete].
    + intros (m & H & _). exists m. apply C25_move_language. auto.
Qed.

(* ------------------------------------------------------------------ *)
(** * C25: wide and extended moves *)

Lemma append_assoc_lemma a b c : (a ++ (b ++ c) = (a ++ b) ++ c)%string.
Proof. induction a; cbn; congruence. Qed.

Section Wide.
  Context (isn : N -> bool) (Hn : number_class isn).

  Lemma isn_digit d : (d <= 9)%N -> isn (48 + d) = true.
  Proof. intros. apply Hn; lia. Qed.

  Lemma isn_letter c : (58 <= c < 128)%N -> isn c = false.
  Proof. intros H. destruct (isn c) eqn:E; [|reflexivity]. apply Hn in E; lia. Qed.

  Lemma isn_face c f : face_of c = Some f -> isn c = false.
  Proof.
    intros H. apply face_of_spec in H. apply isn_letter.
    destruct f as [[] []]; injection H as <-; split; vm_compute; first [discriminate|reflexivity].
  Qed.
  Lemma isn_small c f : small_face_of c = Some f -> isn c = false.
  Proof.
    intros H. apply small_face_of_spec in H. apply isn_letter.
    destruct f as [[] []]; injection H as <-; split; vm_compute; first [discriminate|reflexivity].
  Qed.

  (** What [wide_face] accepts. *)
  Lemma wide_face_inv s p c rest : wide_face_result s = PegOk p c rest ->
    exists f q, p = [q] /\ s = c ++ rest /\ parse_face_wide isn q = ret f /\
      (c = face_text f ++ lit "w" \/ c = small_face_text f).
  Proof.
    unfold wide_face_result. destruct s as [|x r]; [discriminate|].
    destruct (face_of x) as [f|] eqn:F.
    - destruct r as [|y r]; [discriminate|]. destruct (N.eqb 119 y) eqn:Y; [|discriminate].
      apply N.eqb_eq in Y. subst y. intros [= <- <- <-]. exists f. eexists. split; [reflexivity|].
      apply face_of_spec in F. split; [rewrite F; reflexivity|].
      split; [destruct f as [[] []]; reflexivity|left; reflexivity].
    - destruct (small_face_of x) as [f|] eqn:G; [|discriminate]. intros [= <- <- <-]. exists f. eexists.
      split; [reflexivity|]. apply small_face_of_spec in G. split; [rewrite G; reflexivity|].
      split; [destruct f as [[] []]; reflexivity|right; reflexivity].
  Qed.

  Lemma wide_face_w f r : wide_face_result (face_text f ++ lit "w" ++ r) =
    PegOk [mkPair r_wide_face (face_text f ++ lit "w") [mkPair r_face (face_text f) []]]
          (face_text f ++ lit "w") r.
  Proof. destruct f as [[] []]; reflexivity. Qed.
  Lemma wide_face_small f r : wide_face_result (small_face_text f ++ r) =
    PegOk [mkPair r_wide_face (small_face_text f) [mkPair r_face_small (small_face_text f) []]]
          (small_face_text f) r.
  Proof. destruct f as [[] []]; reflexivity. Qed.
  Lemma wide_face_plain f a : wide_face_result (face_text f ++ amount_text a) = PegFail.
  Proof. destruct f as [[] []], a; reflexivity. Qed.

  Lemma face_text_cons f : exists c, face_text f = [c] /\ face_of c = Some f.
  Proof. destruct f as [[] []]; eexists; split; reflexivity. Qed.
  Lemma small_text_cons f : exists c, small_face_text f = [c] /\ small_face_of c = Some f.
  Proof. destruct f as [[] []]; eexists; split; reflexivity. Qed.

  (** [WideAxisMove::<n>::parse]. *)
  Lemma parse_wide_eq n s : parse_wide isn n s =
    match wide_head isn s with
    | Some (p, c, r) => let (a, rest) := take_amount r in
        match rest with
        | _ :: _ => fail PestError
        | [] => wide_from_pest isn n (mkPair r_wide_move (c ++ amount_text a) (p ++ [mkPair r_amount (amount_text a) []]))
        end
    | None => fail PestError
    end.
  Proof.
    unfold parse_wide, parse_rule. change 24 with (14 + 10). rewrite run_wide_move.
    destruct (wide_head isn s) as [[[p c] r]|]; [|reflexivity].
    destruct (take_amount r) as [a [|x rest]]; reflexivity.
  Qed.

  (** The value of the two kinds of tree. *)
  Lemma wide_tree_depth n d q f a c : parse_face_wide isn q = ret f ->
    wide_from_pest isn n (mkPair r_wide_move c ([mkPair r_depth d []; q] ++ [mkPair r_amount (amount_text a) []]))
    = bind_p (depth_from_pest (mkPair r_depth d [])) (fun depth =>
        if N.ltb n (N.max depth 1) then fail (Uknown (ExcededDepth (N.max depth 1) n))
        else ret (mkWide (N.max depth 1) (mkMove f a))).
  Proof.
    intros Q. unfold wide_from_pest. cbn [pair_inner app next_pair pair_rule]. rewrite Q. cbn [bind_p ret].
    destruct (depth_from_pest (mkPair r_depth d [])) as [[depth|e]|]; try reflexivity. cbn [bind_p ret].
    destruct (N.ltb n (N.max depth 1)) eqn:L; [reflexivity|]. cbn [next_pair]. rewrite amount_pest.
    cbn [bind_p ret]. unfold wide_new. rewrite L. reflexivity.
  Qed.
  Lemma wide_tree_face n f a c :
    wide_from_pest isn n (mkPair r_wide_move c ([mkPair r_face (face_text f) []] ++ [mkPair r_amount (amount_text a) []]))
    = ret (mkWide 0 (mkMove f a)).
  Proof.
    unfold wide_from_pest. cbn [pair_inner app next_pair pair_rule]. rewrite face_pest. cbn [bind_p ret].
    assert (L : N.ltb n 0 = false) by (apply N.ltb_ge; lia). rewrite L. cbn [next_pair]. rewrite amount_pest.
    cbn [bind_p ret]. unfold wide_new. rewrite L. reflexivity.
  Qed.
  Lemma depth_digit d : (d <= 9)%N -> depth_from_pest (mkPair r_depth [(48 + d)%N] []) = ret d.
  Proof.
    intros H. assert (I : In d [0;1;2;3;4;5;6;7;8;9]%N).
    { destruct d as [|p]; [left; reflexivity|]. 
      do 4 (destruct p as [p|p|]; cbn; auto 12; try lia). }
    cbn in I. repeat (destruct I as [<-|I]; [reflexivity|]). destruct I.
  Qed.
  Lemma depth_other c : ~ (48 <= c <= 57)%N -> isn c = true ->
    depth_from_pest (mkPair r_depth [c] []) = fail (NumParseError InvalidDigit).
  Proof.
    intros H I. unfold depth_from_pest, parse_u32. cbn [pair_str].
    destruct (N.eqb c 43) eqn:E; [reflexivity|]. cbn [digits_value].
    destruct (N.leb 48 c && N.leb c 57) eqn:D; [|reflexivity].
    apply andb_true_iff in D. rewrite !N.leb_le in D. lia.
  Qed.

  Lemma wide_language n s w :
    parse_wide isn n s = Done (Ok w) <-> wide_notation s w /\ (w_depth w <= n)%N.
  Proof.
    rewrite parse_wide_eq. split.
    - unfold wide_head. intros H.
      assert (W : forall d s', wide_face_result s' <> PegFuel ->
        (d = [] \/ exists c, d = [c] /\ isn c = true) ->
        match match wide_face_result s' with
              | PegOk p c rest => Some (mkPair r_depth d [] :: p, d ++ c, rest)
              | _ => None end with
        | Some (p, c, r) => let (a, rest) := take_amount r in
            match rest with
            | _ :: _ => fail PestError
            | [] => wide_from_pest isn n (mkPair r_wide_move (c ++ amount_text a) (p ++ [mkPair r_amount (amount_text a) []]))
            end
        | None => fail PestError
        end = Done (Ok w) -> wide_notation (d ++ s') w /\ (w_depth w <= n)%N).
      { intros d s' _ Hd K. destruct (wide_face_result s') as [p c rest| |] eqn:F; try discriminate.
        destruct (wide_face_inv _ _ _ _ F) as (f & q & -> & -> & Q & C).
        destruct (take_amount rest) as [a [|x rest']] eqn:T; [|discriminate].
        apply take_amount_spec in T. subst rest.
        change (mkPair r_depth d [] :: [q]) with ([mkPair r_depth d []; q]) in K.
        rewrite (wide_tree_depth n d q f a _ Q) in K.
        assert (D : (d = [] /\ depth_from_pest (mkPair r_depth d []) = ret 0%N) \/
                    (exists v, (v <= 9)%N /\ d = digit v /\ depth_from_pest (mkPair r_depth d []) = ret v) \/
                    depth_from_pest (mkPair r_depth d []) = fail (NumParseError InvalidDigit)).
        { destruct Hd as [->|(x & -> & X)]; [left; split; reflexivity|].
          destruct (N.leb 48 x && N.leb x 57) eqn:R.
          - apply andb_true_iff in R. rewrite !N.leb_le in R. right; left. exists (x - 48)%N.
            split; [lia|]. assert (E : x = (48 + (x - 48))%N) by lia. split; [unfold digit; congruence|].
            rewrite E at 1. apply depth_digit. lia.
          - right; right. apply depth_other; [|exact X]. intros Z. apply andb_false_iff in R.
            rewrite !N.leb_gt in R. lia. }
        destruct D as [[-> D]|[(v & V & -> & D)|D]]; rewrite D in K; cbn [bind_p ret fail] in K; try discriminate.
        - change (N.max 0 1) with 1%N in K. destruct (N.ltb n 1) eqn:L; [discriminate|].
          injection K as <-. apply N.ltb_ge in L. split; [|exact L]. cbn [app].
          destruct C as [->| ->].
          + unfold face_text, amount_text. rewrite <- !lit_app, <- append_assoc_lemma. apply WideW.
          + unfold small_face_text, amount_text. rewrite <- lit_app. apply WideSmall.
        - rewrite N.max_comm in K. destruct (N.ltb n (N.max 1 v)) eqn:L; [discriminate|].
          injection K as <-. apply N.ltb_ge in L. split; [|exact L].
          destruct C as [->| ->].
          + unfold face_text, amount_text. rewrite <- !lit_app, <- append_assoc_lemma. apply WideDigitW, V.
          + unfold small_face_text, amount_text. rewrite <- lit_app. apply WideDigitSmall, V. }
      assert (P : forall x r, match match face_of x with
                    | Some f => Some ([mkPair r_face (face_text f) []], face_text f, r)
                    | None => None end with
        | Some (p, c, r) => let (a, rest) := take_amount r in
            match rest with
            | _ :: _ => fail PestError
            | [] => wide_from_pest isn n (mkPair r_wide_move (c ++ amount_text a) (p ++ [mkPair r_amount (amount_text a) []]))
            end
        | None => fail PestError
        end = Done (Ok w) -> wide_notation (x :: r) w /\ (w_depth w <= n)%N).
      { intros x r K. destruct (face_of x) as [f|] eqn:F; [|discriminate].
        destruct (take_amount r) as [a [|y rest]] eqn:T; [|discriminate].
        rewrite wide_tree_face in K. injection K as <-. apply take_amount_spec in T. subst r.
        apply face_of_spec in F. change (x :: amount_text a) with ([x] ++ amount_text a). rewrite <- F.
        split; [|cbn; lia]. unfold face_text, amount_text. rewrite <- lit_app. apply WidePlain. }
      destruct s as [|c r]; [discriminate|]. destruct (isn c) eqn:I.
      + destruct (wide_face_result r) as [p cc rest| |] eqn:F.
        * specialize (W [c] r (wide_face_no_fuel r) (or_intror (ex_intro _ c (conj eq_refl I)))).
          rewrite F in W. exact (W H).
        * exact (P c r H).
        * exfalso. exact (wide_face_no_fuel r F).
      + destruct (wide_face_result (c :: r)) as [p cc rest| |] eqn:F.
        * specialize (W [] (c :: r) (wide_face_no_fuel _) (or_introl eq_refl)).
          rewrite F in W. exact (W H).
        * exact (P c r H).
        * exfalso. exact (wide_face_no_fuel _ F).
    - intros [H L]. 
      assert (W : forall d v c rest f a q, depth_from_pest (mkPair r_depth d []) = ret v ->
        wide_face_result (c ++ rest) = PegOk [q] c rest -> parse_face_wide isn q = ret f ->
        rest = amount_text a -> (N.max v 1 <= n)%N ->
        wide_head isn s = Some ([mkPair r_depth d []; q], d ++ c, rest) ->
        match wide_head isn s with
        | Some (p, c, r) => let (a, rest) := take_amount r in
            match rest with
            | _ :: _ => fail PestError
            | [] => wide_from_pest isn n (mkPair r_wide_move (c ++ amount_text a) (p ++ [mkPair r_amount (amount_text a) []]))
            end
        | None => fail PestError
        end = Done (Ok (mkWide (N.max v 1) (mkMove f a)))).
      { intros d v c rest f a q D F Q -> V E. rewrite E, (proj2 (take_amount_spec _ a) eq_refl).
        rewrite (wide_tree_depth n d q f a _ Q), D. cbn [bind_p ret].
        rewrite (proj2 (N.ltb_ge n _) V). reflexivity. }
      destruct H as [f a|f a|f a|d f a Hd|d f a Hd]; cbn [w_depth] in L; rewrite ?append_assoc_lemma, !lit_app in *;
        fold (face_text f) (amount_text a) in *; fold (small_face_text f) in *.
      + destruct (face_text_cons f) as (c & E & F). unfold wide_head. 
        assert (X : wide_face_result (c :: amount_text a) = PegFail).
        { change (c :: amount_text a) with ([c] ++ amount_text a). rewrite <- E. apply wide_face_plain. }
        rewrite E. cbn [app]. rewrite (isn_face c f F), X, F, (proj2 (take_amount_spec _ a) eq_refl).
        apply wide_tree_face.
      + apply (W [] 0%N (face_text f ++ lit "w") (amount_text a) f a
                 (mkPair r_wide_face (face_text f ++ lit "w") [mkPair r_face (face_text f) []]));
          [reflexivity|rewrite <- app_assoc; apply wide_face_w|destruct f as [[] []]; reflexivity|reflexivity|exact L|].
        unfold wide_head. destruct (face_text_cons f) as (c & E & F).
        pose proof (wide_face_w f (amount_text a)) as X. rewrite <- !app_assoc in *. rewrite E in *. cbn [app] in *.
        rewrite (isn_face c f F), X. reflexivity.
      + apply (W [] 0%N (small_face_text f) (amount_text a) f a
                 (mkPair r_wide_face (small_face_text f) [mkPair r_face_small (small_face_text f) []]));
          [reflexivity|apply wide_face_small|destruct f as [[] []]; reflexivity|reflexivity|exact L|].
        unfold wide_head. destruct (small_text_cons f) as (c & E & F).
        pose proof (wide_face_small f (amount_text a)) as X. rewrite E in *. cbn [app] in *.
        rewrite (isn_small c f F), X. reflexivity.
      + rewrite N.max_comm in *. apply (W (digit d) d (face_text f ++ lit "w") (amount_text a) f a
                 (mkPair r_wide_face (face_text f ++ lit "w") [mkPair r_face (face_text f) []]));
          [apply depth_digit, Hd|rewrite <- app_assoc; apply wide_face_w|destruct f as [[] []]; reflexivity|reflexivity|exact L|].
        unfold wide_head, digit. rewrite <- !app_assoc. cbn [app]. rewrite (isn_digit d Hd), wide_face_w. reflexivity.
      + rewrite N.max_comm in *. apply (W (digit d) d (small_face_text f) (amount_text a) f a
                 (mkPair r_wide_face (small_face_text f) [mkPair r_face_small (small_face_text f) []]));
          [apply depth_digit, Hd|apply wide_face_small|destruct f as [[] []]; reflexivity|reflexivity|exact L|].
        unfold wide_head, digit. cbn [app]. rewrite (isn_digit d Hd), wide_face_small. reflexivity.
  Qed.

  (** The shape of what [wide_head] accepts. *)
  Lemma wide_head_inv s p c r : wide_head isn s = Some (p, c, r) ->
    (exists d q f, p = [mkPair r_depth d []; q] /\ parse_face_wide isn q = ret f) \/
    (exists f, p = [mkPair r_face (face_text f) []]).
  Proof.
    unfold wide_head. intros H.
    assert (W : forall d s', match wide_face_result s' with
              | PegOk p c rest => Some (mkPair r_depth d [] :: p, d ++ c, rest)
              | _ => None end = Some (p, c, r) ->
        exists d q f, p = [mkPair r_depth d []; q] /\ parse_face_wide isn q = ret f).
    { intros d s' K. destruct (wide_face_result s') as [p' c' rest| |] eqn:F; try discriminate.
      destruct (wide_face_inv _ _ _ _ F) as (f & q & -> & -> & Q & C). injection K as <- <- <-.
      exists d, q, f. split; [reflexivity|exact Q]. }
    assert (P : forall x y, match face_of x with
                    | Some f => Some ([mkPair r_face (face_text f) []], face_text f, y)
                    | None => None end = Some (p, c, r) ->
        exists f, p = [mkPair r_face (face_text f) []]).
    { intros x y K. destruct (face_of x) as [f|]; [|discriminate]. injection K as <- _ _. exists f. reflexivity. }
    destruct s as [|x y]; [discriminate|]. destruct (isn x).
    - specialize (W [x] y). destruct (wide_face_result y); [left; auto|right; eauto|right; eauto].
    - specialize (W [] (x :: y)). destruct (wide_face_result (x :: y)); [left; auto|right; eauto|right; eauto].
  Qed.

  Lemma wide_head_none s : wide_head isn s = None ->
    match s with [] => True | c :: r => face_of c = None end.
  Proof.
    unfold wide_head. destruct s as [|c r]; [trivial|]. destruct (isn c).
    - destruct (wide_face_result r); try discriminate; destruct (face_of c); (reflexivity || discriminate).
    - destruct (wide_face_result (c :: r)); try discriminate; destruct (face_of c); (reflexivity || discriminate).
  Qed.

  Lemma depth_no_panic p : depth_from_pest p <> Panic.
  Proof.
    unfold depth_from_pest. destruct (pair_str p) as [|c s]; [discriminate|].
    destruct (parse_u32 (c :: s)); discriminate.
  Qed.

  Lemma parse_wide_no_panic n s : parse_wide isn n s <> Panic.
  Proof.
    rewrite parse_wide_eq. destruct (wide_head isn s) as [[[p c] r]|] eqn:H; [|discriminate].
    destruct (take_amount r) as [a [|x rest]]; [|discriminate].
    destruct (wide_head_inv _ _ _ _ H) as [(d & q & f & -> & Q)|(f & ->)].
    - rewrite (wide_tree_depth n d q f a _ Q). pose proof (depth_no_panic (mkPair r_depth d [])) as D.
      destruct (depth_from_pest (mkPair r_depth d [])) as [[v|e]|]; [|discriminate|congruence].
      cbn [bind_p ret]. destruct (N.ltb n (N.max v 1)); discriminate.
    - rewrite wide_tree_face. discriminate.
  Qed.

  (** [ExtendedAxisMove::parse]: the alternatives that are really taken. *)
  Lemma parse_extended_eq s : parse_extended isn s =
    match wide_head isn s with
    | Some _ => bind_p (parse_wide isn u32_max s) (fun w =>
                  ret (if N.eqb (w_depth w) 0 then XRegular (w_move w) else XWide w))
    | None =>
        match s with
        | [] => fail PestError
        | c :: r =>
            match axis_of c with
            | Some x => let (a, rest) := take_amount r in
                match rest with _ :: _ => fail PestError | [] => ret (XRotation (mkRot x a)) end
            | None =>
                match slice_of c with
                | Some x => let (a, rest) := take_amount r in
                    match rest with _ :: _ => fail PestError | [] => ret (XSlice (slice_rotation x a) false) end
                | None =>
                    match small_slice_of c with
                    | Some x => let (a, rest) := take_amount r in
                        match rest with _ :: _ => fail PestError | [] => ret (XSlice (slice_rotation x a) true) end
                    | None => fail PestError
                    end
                end
            end
        end
    end.
  Proof.
    rewrite parse_wide_eq. unfold parse_extended, parse_rule. change 24 with (18 + 6).
    rewrite run_extended, run_wide_move.
    destruct (wide_head isn s) as [[[p c] r]|] eqn:H.
    - destruct (take_amount r) as [a [|x rest]]; reflexivity.
    - rewrite run_axis_move, run_rotation, run_slice_move. apply wide_head_none in H.
      destruct s as [|c r]; [reflexivity|]. rewrite H.
      destruct (axis_of c) as [x|].
      { destruct (take_amount r) as [a [|y rest]]; [|reflexivity]. destruct x, a; reflexivity. }
      destruct (slice_of c) as [x|].
      { destruct (take_amount r) as [a [|y rest]]; [|reflexivity]. destruct x, a; reflexivity. }
      destruct (small_slice_of c) as [x|].
      { destruct (take_amount r) as [a [|y rest]]; [|reflexivity]. destruct x, a; reflexivity. }
      reflexivity.
  Qed.

  Lemma parse_extended_no_panic s : parse_extended isn s <> Panic.
  Proof.
    rewrite parse_extended_eq. destruct (wide_head isn s).
    - pose proof (parse_wide_no_panic u32_max s) as P. destruct (parse_wide isn u32_max s) as [[w|e]|]; [|discriminate|congruence].
      discriminate.
    - destruct s as [|c r]; [discriminate|]. destruct (take_amount r) as [a rest].
      destruct (axis_of c); [destruct rest; discriminate|].
      destruct (slice_of c); [destruct rest; discriminate|].
      destruct (small_slice_of c); [destruct rest; discriminate|discriminate].
  Qed.

  Lemma wide_digit_bound s w : wide_notation s w -> (w_depth w <= u32_max)%N.
  Proof. intros []; cbn [w_depth]; unfold u32_max; lia. Qed.

  Lemma no_head c r : isn c = false -> face_of c = None -> small_face_of c = None -> wide_head isn (c :: r) = None.
  Proof. intros I F G. unfold wide_head. rewrite I. cbn [wide_face_result]. rewrite F, G. reflexivity. Qed.

  Lemma extended_language s m : parse_extended isn s = Done (Ok m) <-> extended_notation s m.
  Proof.
    rewrite parse_extended_eq. split.
    - destruct (wide_head isn s) as [t|] eqn:H.
      + destruct (parse_wide isn u32_max s) as [[w|e]|] eqn:W; try discriminate. intros [= <-].
        apply wide_language in W. destruct W as [W _].
        destruct (N.eqb (w_depth w) 0) eqn:D.
        * apply N.eqb_eq in D. inversion W; subst; cbn [w_depth] in D; try lia.
          cbn [w_move]. exact (ExtFace (mkMove f a)).
        * apply N.eqb_neq in D. apply ExtWide; [exact W|lia].
      + destruct s as [|c r]; [discriminate|].
        destruct (axis_of c) as [x|] eqn:A.
        { destruct (take_amount r) as [a [|y rest]] eqn:T; [|discriminate]. intros [= <-].
          apply take_amount_spec in T. apply axis_of_spec in A. subst r.
          change (c :: amount_text a) with ([c] ++ amount_text a). rewrite <- A.
          unfold amount_text. rewrite <- lit_app. exact (ExtRotation (mkRot x a)). }
        destruct (slice_of c) as [x|] eqn:B.
        { destruct (take_amount r) as [a [|y rest]] eqn:T; [|discriminate]. intros [= <-].
          apply take_amount_spec in T. apply slice_of_spec in B. subst r.
          change (c :: amount_text a) with ([c] ++ amount_text a). rewrite <- B.
          unfold amount_text. rewrite <- lit_app. apply ExtSlice. }
        destruct (small_slice_of c) as [x|] eqn:C; [|discriminate].
        { destruct (take_amount r) as [a [|y rest]] eqn:T; [|discriminate]. intros [= <-].
          apply take_amount_spec in T. apply small_slice_of_spec in C. subst r.
          change (c :: amount_text a) with ([c] ++ amount_text a). rewrite <- C.
          unfold amount_text. rewrite <- lit_app. apply ExtSmallSlice. }
    - intros E.
      assert (V : forall w, wide_notation s w -> exists t, wide_head isn s = Some t /\ parse_wide isn u32_max s = Done (Ok w)).
      { intros w W. pose proof (proj2 (wide_language u32_max s w) (conj W (wide_digit_bound s w W))) as P.
        destruct (wide_head isn s) as [t|] eqn:H; [exists t; auto|]. rewrite parse_wide_eq, H in P. discriminate. }
      destruct E as [[f a]|s w W D|[x a]|x a|x a].
      + destruct (V _ (WidePlain f a)) as (t & H & P). unfold move_notation in *. cbn [mv_face mv_amount] in *.
        rewrite H, P. reflexivity.
      + destruct (V _ W) as (t & H & P). rewrite H, P. cbn [bind_p]. destruct (N.eqb (w_depth w) 0) eqn:Z; [|reflexivity].
        apply N.eqb_eq in Z. lia.
      + unfold rotation_notation. cbn [rot_axis rot_amount]. rewrite lit_app. fold (amount_text a).
        destruct (lit (rotation_name x)) as [|c [|c' l]] eqn:F; [destruct x; discriminate| |destruct x; discriminate].
        cbn [app]. rewrite no_head; [| |destruct x; injection F as <-; reflexivity|destruct x; injection F as <-; reflexivity].
        * rewrite (proj2 (axis_of_spec c x) F), (proj2 (take_amount_spec _ a) eq_refl). reflexivity.
        * apply isn_letter. destruct x; injection F as <-; split; vm_compute; first [discriminate|reflexivity].
      + rewrite lit_app. fold (amount_text a).
        destruct (lit (slice_name x)) as [|c [|c' l]] eqn:F; [destruct x; discriminate| |destruct x; discriminate].
        cbn [app]. rewrite no_head; [| |destruct x; injection F as <-; reflexivity|destruct x; injection F as <-; reflexivity].
        * assert (A : axis_of c = None) by (destruct x; injection F as <-; reflexivity).
          rewrite A, (proj2 (slice_of_spec c x) F), (proj2 (take_amount_spec _ a) eq_refl). reflexivity.
        * apply isn_letter. destruct x; injection F as <-; split; vm_compute; first [discriminate|reflexivity].
      + rewrite lit_app. fold (amount_text a).
        destruct (lit (small_slice_name x)) as [|c [|c' l]] eqn:F; [destruct x; discriminate| |destruct x; discriminate].
        cbn [app]. rewrite no_head; [| |destruct x; injection F as <-; reflexivity|destruct x; injection F as <-; reflexivity].
        * assert (A : axis_of c = None) by (destruct x; injection F as <-; reflexivity).
          assert (B : slice_of c = None) by (destruct x; injection F as <-; reflexivity).
          rewrite A, B, (proj2 (small_slice_of_spec c x) F), (proj2 (take_amount_spec _ a) eq_refl). reflexivity.
        * apply isn_letter. destruct x; injection F as <-; split; vm_compute; first [discriminate|reflexivity].
  Qed.
End Wide.

(** [WideAxisMove::<n>::parse] accepts exactly the wide notation whose depth is at most [n].
    The class [NUMBER] of the grammar is the Unicode one; only its ASCII part matters. *)
Theorem C25_wide_language : forall isn, number_class isn -> forall n s w,
  parse_wide isn n s = Done (Ok w) <-> wide_notation s w /\ (w_depth w <= n)%N.
Proof. exact wide_language. Qed.

(** [ExtendedAxisMove::parse] accepts exactly the extended notation. *)
Theorem C25_extended_language : forall isn, number_class isn -> forall s m,
  parse_extended isn s = Done (Ok m) <-> extended_notation s m.
Proof. exact extended_language. Qed.

Lemma parse_move_no_panic isn s : parse_move isn s <> Panic.
Proof.
  rewrite parse_move_eq. destruct s as [|c r]; [discriminate|]. destruct (face_of c); [|discriminate].
  destruct (take_amount r) as [a [|]]; discriminate.
Qed.

(** Whatever the text is, none of the parsers panics: what is not accepted is an [Err]. *)
Theorem C25_no_panic : forall isn n s,
  (exists r, parse_move isn s = Done r) /\ (exists r, parse_rotation isn s = Done r) /\
  (exists r, parse_wide isn n s = Done r) /\ (exists r, parse_extended isn s = Done r).
Proof.
  intros isn n s. repeat split.
  - pose proof (parse_move_no_panic isn s). destruct (parse_move isn s); [eauto|congruence].
  - assert (parse_rotation isn s <> Panic).
    { rewrite parse_rotation_eq. destruct s as [|c r]; [discriminate|]. destruct (axis_of c); [|discriminate].
      destruct (take_amount r) as [am [|]]; discriminate. }
    destruct (parse_rotation isn s); [eauto|congruence].
  - pose proof (parse_wide_no_panic isn n s). destruct (parse_wide isn n s); [eauto|congruence].
  - pose proof (parse_extended_no_panic isn s). destruct (parse_extended isn s); [eauto|congruence].
Qed.

(** No text has two readings. *)
Theorem C25_unambiguous : forall s,
  (forall w w', wide_notation s w -> wide_notation s w' -> w = w') /\
  (forall m m', extended_notation s m -> extended_notation s m' -> m = m').
Proof.
  intros s.
  assert (I : number_class (fun c => N.leb 48 c && N.leb c 57)).
  { intros c _. rewrite andb_true_iff, !N.leb_le. reflexivity. }
  split.
  - intros w w' A B.
    pose proof (proj2 (wide_language _ I u32_max s w) (conj A (wide_digit_bound s w A))).
    pose proof (proj2 (wide_language _ I u32_max s w') (conj B (wide_digit_bound s w' B))). congruence.
  - intros m m' A B. apply (extended_language _ I) in A, B. congruence.
Qed.

Example C25_examples :
  let isn := fun c => N.leb 48 c && N.leb c 57 in
  number_class isn /\
  parse_move isn (lit "R2") = Done (Ok (mkMove fR Double)) /\
  parse_wide isn 2 (lit "2Lw'") = Done (Ok (mkWide 2 (mkMove fL Inverse))) /\
  parse_wide isn 2 (lit "3Lw'") = Done (Err (Uknown (ExcededDepth 3 2))) /\
  parse_extended isn (lit "M'") = Done (Ok (XSlice (mkRot AX Single) false)) /\
  parse_extended isn (lit "R3") = Done (Err PestError) /\
  parse_extended isn (lit "") = Done (Err PestError).
Proof.
  cbv zeta. split; [|repeat split; reflexivity].
  intros c _. rewrite andb_true_iff, !N.leb_le. reflexivity.
Qed.

(* ------------------------------------------------------------------ *)
(** * C24: algs *)

Lemma white_spec c : is_whitespace c = true <-> In c white_space.
Proof.
  unfold is_whitespace. rewrite !orb_true_iff, !andb_true_iff, !N.leb_le, !N.eqb_eq.
  unfold white_space. cbn [In]. lia.
Qed.
Lemma dark_spec c : is_whitespace c = false <-> ~ In c white_space.
Proof. rewrite <- white_spec. destruct (is_whitespace c); split; intros; congruence. Qed.

Lemma split_white w s : white w -> split_words [] (w ++ s) = split_words [] s.
Proof.
  induction w as [|c w IH]; intros H; [reflexivity|]. cbn [app split_words].
  rewrite (proj2 (white_spec c) (H c (or_introl eq_refl))). apply IH. intros x X. apply H. right. exact X.
Qed.
Lemma split_dark x s : dark x -> forall v, split_words v (x ++ s) = split_words (v ++ x) s.
Proof.
  induction x as [|c x IH]; intros H v; [rewrite app_nil_r; reflexivity|]. cbn [app split_words].
  rewrite (proj2 (dark_spec c) (H c (or_introl eq_refl))), IH by (intros y Y; apply H; right; exact Y).
  rewrite <- app_assoc. reflexivity.
Qed.

Lemma words_split s l : words s l -> split_whitespace s = l.
Proof.
  unfold split_whitespace. induction 1 as [w W|w x W D N|w x c s l W D N C H IH].
  - rewrite <- (app_nil_r w), split_white by exact W. reflexivity.
  - rewrite split_white by exact W. rewrite <- (app_nil_r x) at 1. rewrite split_dark by exact D. cbn [app split_words].
    destruct x; [congruence|reflexivity].
  - rewrite split_white, split_dark by assumption. cbn [app split_words]. rewrite (proj2 (white_spec c) C).
    destruct x; [congruence|]. rewrite IH. reflexivity.
Qed.

Lemma words_white_cons c s l : In c white_space -> words s l -> words (c :: s) l.
Proof.
  intros C H. assert (K : forall w, white w -> white (c :: w)) by (intros w W x [<-|X]; auto).
  destruct H as [w W|w x W D N|w x c' s l W D N C' H].
  - apply WordsEnd, K, W.
  - exact (WordsLast (c :: w) x (K w W) D N).
  - exact (WordsCons (c :: w) x c' s l (K w W) D N C' H).
Qed.

Lemma split_is_words s : words s (split_whitespace s).
Proof.
  unfold split_whitespace. change s with ([] ++ s) at 1.
  assert (D : dark []) by (intros x []). revert D. generalize (@nil N) as w.
  induction s as [|c s IH]; intros w D.
  - rewrite app_nil_r. cbn [split_words]. destruct w as [|x w].
    + apply WordsEnd. intros x [].
    + apply (WordsLast [] (x :: w)); [intros y []|exact D|discriminate].
  - cbn [split_words]. destruct (is_whitespace c) eqn:C; [apply white_spec in C|apply dark_spec in C].
    + destruct w as [|x w].
      * cbn [app]. apply words_white_cons; [exact C|]. exact (IH [] D).
      * apply (WordsCons [] (x :: w) c s); [intros y []|exact D|discriminate|exact C|].
        apply (IH []). intros y [].
    + change (c :: s) with ([c] ++ s). rewrite app_assoc. apply IH.
      intros y Y. apply in_app_or in Y. destruct Y as [Y|[<-|[]]]; [apply D, Y|exact C].
Qed.

Lemma words_iff s l : words s l <-> split_whitespace s = l.
Proof. split; [apply words_split|intros <-; apply split_is_words]. Qed.

Lemma parse_all_iff {M} (p : text -> outcome (result M ParseError)) ws al :
  parse_all p ws = Done (Ok al) <-> Forall2 (fun w m => p w = Done (Ok m)) ws al.
Proof.
  revert al. induction ws as [|w ws IH]; intros al; cbn [parse_all].
  - split; [intros [= <-]; constructor|intros H; inversion H; reflexivity].
  - split.
    + destruct (p w) as [[m|e]|] eqn:P; try discriminate. cbn [bind_p].
      destruct (parse_all p ws) as [[ms|e]|]; try discriminate. intros [= <-].
      constructor; [exact P|]. apply IH. reflexivity.
    + intros H. inversion H as [|w' m ws' ms P R]; subst. rewrite P. cbn [bind_p].
      rewrite (proj2 (IH ms) R). reflexivity.
Qed.

(** For every notation: an alg parses to [al] exactly when its words, whatever white space
    separates them, are notations for the moves of [al]. *)
Theorem C24_alg_language : forall M (p : text -> outcome (result M ParseError)) t al,
  parse_alg p t = Done (Ok al) <->
  exists ws, words t ws /\ Forall2 (fun w m => p w = Done (Ok m)) ws al.
Proof.
  intros M p t al. unfold parse_alg. rewrite parse_all_iff. split.
  - intros H. eexists. split; [apply split_is_words|exact H].
  - intros (ws & W & H). apply words_iff in W. rewrite W. exact H.
Qed.

(** [Alg<AxisMove>] reads exactly the sequences of move notations. *)
Theorem C24_move_alg_language : forall isn t al,
  parse_alg (parse_move isn) t = Done (Ok al) <-> words t (map move_notation al).
Proof.
  intros isn t al. rewrite C24_alg_language.
  assert (E : forall ws al, Forall2 (fun w m => parse_move isn w = Done (Ok m)) ws al <-> ws = map move_notation al).
  { intros ws al'. split.
    - induction 1 as [|w m ws ms P R IH]; [reflexivity|]. cbn [map]. f_equal; [|exact IH].
      apply C25_move_language in P. exact P.
    - intros ->. induction al' as [|m ms IH]; constructor; [apply C25_move_language; reflexivity|exact IH]. }
  split.
  - intros (ws & W & H). apply E in H. subst ws. exact W.
  - intros W. eexists. split; [exact W|]. apply E. reflexivity.
Qed.

(** Displaying a move writes its notation, and parsing it gives the move back. *)
Theorem C24_move_roundtrip : forall isn m,
  display_move m = move_notation m /\ parse_move isn (display_move m) = Done (Ok m).
Proof.
  intros isn m. assert (E : display_move m = move_notation m) by (destruct m as [[[] []] []]; reflexivity).
  split; [exact E|]. rewrite E. apply C25_move_language. reflexivity.
Qed.

Lemma words_join l : (forall x, In x l -> dark x /\ x <> []) -> words (join (lit " ") l) l.
Proof.
  induction l as [|x l IH]; intros H.
  - apply WordsEnd. intros c [].
  - destruct (H x (or_introl eq_refl)) as [D N]. destruct l as [|y l].
    + apply (WordsLast [] x); [intros c []|exact D|exact N].
    + change (join (lit " ") (x :: y :: l)) with (x ++ (32%N :: join (lit " ") (y :: l))).
      apply (WordsCons [] x 32%N); [intros c []|exact D|exact N|apply white_spec; reflexivity|].
      apply IH. intros z Z. apply H. right. exact Z.
Qed.

Lemma notation_dark m : dark (move_notation m) /\ move_notation m <> [].
Proof.
  split; [|destruct m as [[[] []] []]; discriminate].
  assert (F : forallb (fun m => forallb (fun c => negb (is_whitespace c)) (move_notation m)) all_moves = true)
    by reflexivity.
  rewrite forallb_forall in F. specialize (F m (all_moves_complete m)). rewrite forallb_forall in F.
  intros c C. apply dark_spec, negb_true_iff, F, C.
Qed.

(** [Alg::parse] after [Alg::to_string] is the identity. *)
Theorem C24_alg_roundtrip : forall isn al,
  parse_alg (parse_move isn) (display_alg display_move al) = Done (Ok al).
Proof.
  intros isn al. apply C24_move_alg_language. unfold display_alg.
  rewrite (map_ext display_move move_notation) by (intros m; apply (C24_move_roundtrip isn m)).
  apply words_join. intros x X. apply in_map_iff in X. destruct X as (m & <- & _). apply notation_dark.
Qed.

(** Any other white space, and any number of it, reads the same: [sep] is what follows each
    move, [pre] what precedes the first. *)
Fixpoint interleave (l : list (AxisMove * text)) : text :=
  match l with
  | [] => []
  | (m, sep) :: r => display_move m ++ sep ++ interleave r
  end.
Theorem C24_any_separator : forall isn pre l,
  white pre -> (forall m sep, In (m, sep) l -> white sep /\ sep <> []) ->
  parse_alg (parse_move isn) (pre ++ interleave l) = Done (Ok (map fst l)).
Proof.
  intros isn pre l P H. apply C24_move_alg_language.
  assert (K : forall pre s ws, white pre -> words s ws -> words (pre ++ s) ws).
  { clear. induction pre as [|c pre IH]; intros s ws W S; [exact S|].
    apply words_white_cons; [apply W; left; reflexivity|]. apply IH; [|exact S].
    intros x X. apply W. right. exact X. }
  apply K; [exact P|]. clear P. induction l as [|[m sep] l IH]; cbn [interleave map fst].
  - apply WordsEnd. intros c [].
  - destruct (H m sep (or_introl eq_refl)) as [W N]. destruct sep as [|c sep]; [congruence|].
    rewrite (proj1 (C24_move_roundtrip isn m)). destruct (notation_dark m) as [D E].
    change (words ([] ++ (move_notation m ++ (c :: (sep ++ interleave l)))) (move_notation m :: map move_notation (map fst l))).
    apply WordsCons; [intros x []|exact D|exact E|apply W; left; reflexivity|].
    apply K; [intros x X; apply W; right; exact X|].
    apply IH. intros m' sep' I. apply (H m' sep'). right. exact I.
Qed.

(** Parsing an alg never panics. *)
Theorem C24_alg_no_panic : forall isn n t,
  (exists r, parse_alg (parse_move isn) t = Done r) /\
  (exists r, parse_alg (parse_wide isn n) t = Done r) /\
  (exists r, parse_alg (parse_extended isn) t = Done r).
Proof.
  assert (K : forall M (p : text -> outcome (result M ParseError)) ws,
    (forall s, p s <> Panic) -> exists r, parse_all p ws = Done r).
  { intros M p ws H. induction ws as [|w ws [r IH]]; [eexists; reflexivity|]. cbn [parse_all].
    specialize (H w). destruct (p w) as [[m|e]|]; [|eexists; reflexivity|congruence].
    cbn [bind_p]. rewrite IH. destruct r; eexists; reflexivity. }
  intros isn n t. repeat split; apply K; intros s;
    [apply parse_move_no_panic|apply parse_wide_no_panic|apply parse_extended_no_panic].
Qed.

(** The text of an alg of non-redundant moves reads as the plain moves it stands for. *)
Lemma nr_moves_nonempty m : nr_moves m <> [].
Proof. destruct m; discriminate. Qed.

Theorem C24_nr_roundtrip : forall isn al,
  parse_alg (parse_move isn) (display_alg display_nr al) = Done (Ok (flat_map nr_moves al)).
Proof.
  intros isn al. apply C24_move_alg_language. unfold display_alg.
  assert (S : forall m, words (display_nr m) (map move_notation (nr_moves m))).
  { intros m. unfold display_nr.
    rewrite (map_ext display_move move_notation) by (intros x; apply (C24_move_roundtrip isn x)).
    apply words_join. intros x X. apply in_map_iff in X. destruct X as (y & <- & _). apply notation_dark. }
  assert (A : forall s l c t l', words s l -> In c white_space -> words t l' -> words (s ++ c :: t) (l ++ l')).
  { clear. intros s l c t l' H C T. induction H as [w W|w x W D N|w x d s l W D N E H IH].
    - cbn [app]. induction w as [|y w IHw]; [apply words_white_cons; assumption|].
      apply words_white_cons; [apply W; left; reflexivity|]. apply IHw. intros z Z. apply W. right. exact Z.
    - rewrite <- app_assoc. apply WordsCons; assumption.
    - rewrite <- !app_assoc. cbn [app]. apply WordsCons; assumption. }
  induction al as [|m al IH]; [apply WordsEnd; intros c []|]. cbn [map flat_map].
  rewrite map_app. destruct al as [|m' al].
  - cbn [flat_map map join]. rewrite app_nil_r. apply S.
  - change (join (lit " ") (display_nr m :: map display_nr (m' :: al)))
      with (display_nr m ++ 32%N :: join (lit " ") (map display_nr (m' :: al))).
    apply A; [apply S|apply white_spec; reflexivity|exact IH].
Qed.

Example C24_example :
  let isn := fun c => N.leb 48 c && N.leb c 57 in
  let al := [mkMove fR Single; mkMove fU Double; mkMove fR Inverse] in
  display_alg display_move al = lit "R U2 R'" /\
  parse_alg (parse_move isn) (lit "R U2 R'") = Done (Ok al) /\
  parse_alg (parse_move isn) (lit "  R   U2
     R' ") = Done (Ok al) /\
  parse_alg (parse_move isn) (lit "R U2 Q") = Done (Err PestError) /\
  parse_alg (parse_move isn) (lit "") = Done (Ok []).
Proof. repeat split; reflexivity. Qed.

Example C24_nr_example :
  display_alg display_nr [NRDouble AX Single Double; NRSingle (mkMove fU Inverse)] = lit "R L2 U'".
Proof. reflexivity. Qed.

(* ------------------------------------------------------------------ *)
(** * C26: wide moves *)

Definition is_digit (c : N) : Prop := (48 <= c <= 57)%N.

Lemma digits_shape fuel : forall k acc, exists l,
  decimal_digits (S fuel) k acc = l ++ acc /\ l <> [] /\ Forall is_digit l.
Proof.
  assert (X : forall k, is_digit (48 + k mod 10)).
  { intros k. unfold is_digit. pose proof (N.mod_lt k 10 ltac:(discriminate)) as M. revert M. generalize (k mod 10)%N. intros; lia. }
  induction fuel as [|fuel IH]; intros k acc.
  - cbn [decimal_digits]. destruct (N.ltb k 10); exists [(48 + k mod 10)%N];
      (split; [reflexivity|split; [discriminate|constructor; [apply X|constructor]]]).
  - change (decimal_digits (S (S fuel)) k acc) with
      (if N.ltb k 10 then (48 + k mod 10)%N :: acc else decimal_digits (S fuel) (k / 10) ((48 + k mod 10)%N :: acc)).
    destruct (N.ltb k 10).
    + exists [(48 + k mod 10)%N]. split; [reflexivity|split; [discriminate|constructor; [apply X|constructor]]].
    + destruct (IH (k / 10)%N ((48 + k mod 10)%N :: acc)) as (l & E & N & F). exists (l ++ [(48 + k mod 10)%N]).
      rewrite E, <- app_assoc. split; [reflexivity|split; [destruct l; discriminate|]].
      apply Forall_app. split; [exact F|]. constructor; [apply X|constructor].
Qed.

Lemma digits_two k : (10 <= k)%N -> exists c1 c2 l, display_u32 k = c1 :: c2 :: l /\ is_digit c1 /\ is_digit c2.
Proof.
  intros H. unfold display_u32.
  change (decimal_digits 10 k []) with
    (if N.ltb k 10 then [(48 + k mod 10)%N] else decimal_digits 9 (k / 10) [(48 + k mod 10)%N]).
  assert (L : N.ltb k 10 = false) by (apply N.ltb_ge; exact H). rewrite L.
  destruct (digits_shape 8 (k / 10) [(48 + k mod 10)%N]) as (l & E & N & F). rewrite E.
  destruct l as [|c1 [|c2 l]]; [congruence| |].
  - exists c1, (48 + k mod 10)%N, []. split; [reflexivity|]. inversion F; subst. split; [assumption|].
    unfold is_digit. pose proof (N.mod_lt k 10 ltac:(discriminate)) as M. revert M. generalize (k mod 10)%N. intros; lia.
  - exists c1, c2, (l ++ [(48 + k mod 10)%N]). split; [reflexivity|].
    inversion F as [|? ? A B]; subst. inversion B; subst. auto.
Qed.

Lemma two_digits_not_wide c1 c2 l w : is_digit c1 -> is_digit c2 -> ~ wide_notation (c1 :: c2 :: l) w.
Proof.
  unfold is_digit. intros A B H. remember (c1 :: c2 :: l) as t eqn:E.
  destruct H as [f a|f a|f a|d f a D|d f a D];
    destruct f as [[] []], a; cbn [digit app lit face_name small_face_name amount_suffix String.append] in E;
    try discriminate E;
    repeat match type of E with context [N_of_ascii ?x] =>
      let v := eval vm_compute in (N_of_ascii x) in change (N_of_ascii x) with v in E end;
    apply (f_equal (fun l => (nth 0 l 0, nth 1 l 0)%N)) in E; cbn [nth] in E;
    let E1 := fresh in let E2 := fresh in injection E as E1 E2;
    first [rewrite <- E2 in B; lia | rewrite <- E1 in A; lia].
Qed.

(** The full statement of C26 (every wide move that the type allows round-trips) is false:
    depth 2 is written "3Rw" but "3Rw" is read as depth 3. *)
Definition C26_statement (isn : N -> bool) : Prop := forall n w, (n <= 4294967295)%N -> (w_depth w <= n)%N ->
  exists s, display_wide w = Done s /\ parse_wide isn n s = Done (Ok w).

Theorem C26_roundtrip_refuted : forall isn, number_class isn -> ~ C26_statement isn.
Proof.
  intros isn Hn H. destruct (H 2%N (mkWide 2 (mkMove fR Single))) as (s & D & P);
    [lia|cbn; lia|].
  injection D as <-. apply (wide_language isn Hn) in P. destruct P as [P _].
  assert (W : wide_notation (digit 3 ++ lit (face_name fR ++ "w" ++ amount_suffix Single)) (mkWide (N.max 1 3) (mkMove fR Single)))
    by (apply WideDigitW; lia).
  pose proof (proj1 (C25_unambiguous _) _ _ P W) as E. discriminate E.
Qed.

(** What really happens, for all depths. *)
Theorem C26_depth_0_1_partial : forall isn, number_class isn -> forall n w,
  (w_depth w <= n)%N -> (w_depth w <= 1)%N ->
  exists s, display_wide w = Done s /\ parse_wide isn n s = Done (Ok w).
Proof.
  intros isn Hn n [d [f a]] L D. cbn [w_depth] in *.
  assert (C : d = 0%N \/ d = 1%N) by lia. destruct C as [-> | ->].
  - eexists. split; [reflexivity|]. apply (wide_language isn Hn). split; [|exact L].
    cbn [w_move]. rewrite (proj1 (C24_move_roundtrip isn (mkMove f a))). apply WidePlain.
  - eexists. split; [reflexivity|]. apply (wide_language isn Hn). split; [|exact L].
    assert (E : display_face f ++ lit "w" ++ display_amount a = lit (face_name f ++ "w" ++ amount_suffix a)).
    { rewrite !lit_app. destruct f as [[] []], a; reflexivity. }
    cbn [w_move mv_face mv_amount]. rewrite E. apply WideW.
Qed.

Theorem C26_depth_2_8 : forall isn, number_class isn -> forall n w,
  (2 <= w_depth w <= 8)%N ->
  exists s, display_wide w = Done s /\
    forall w', parse_wide isn n s = Done (Ok w') <-> (w_depth w + 1 <= n)%N /\ w' = mkWide (w_depth w + 1) (w_move w).
Proof.
  intros isn Hn n [d [f a]] D. cbn [w_depth w_move] in *.
  exists (digit (d + 1) ++ lit (face_name f ++ "w" ++ amount_suffix a)). split.
  - assert (C : In d [2;3;4;5;6;7;8]%N).
    { destruct (N.eq_dec d 2), (N.eq_dec d 3), (N.eq_dec d 4), (N.eq_dec d 5), (N.eq_dec d 6), (N.eq_dec d 7), (N.eq_dec d 8);
        subst; cbn; auto 10. lia. }
    cbn in C. repeat (destruct C as [<-|C]; [destruct f as [[] []], a; reflexivity|]). destruct C.
  - assert (W : wide_notation (digit (d + 1) ++ lit (face_name f ++ "w" ++ amount_suffix a)) (mkWide (d + 1) (mkMove f a))).
    { replace (mkWide (d + 1)) with (mkWide (N.max 1 (d + 1))) by (f_equal; lia). apply WideDigitW. lia. }
    intros w'. rewrite (wide_language isn Hn). split.
    + intros [W' L]. pose proof (proj1 (C25_unambiguous _) _ _ W' W) as ->. split; [exact L|reflexivity].
    + intros [L ->]. split; [exact W|exact L].
Qed.

Theorem C26_depth_9 : forall isn, number_class isn -> forall n w,
  (9 <= w_depth w < 4294967295)%N ->
  exists s e, display_wide w = Done s /\ parse_wide isn n s = Done (Err e).
Proof.
  intros isn Hn n [d [f a]] D. cbn [w_depth] in *.
  destruct (digits_two (d + 1)) as (c1 & c2 & l & E & D1 & D2); [lia|].
  assert (S : display_wide (mkWide d (mkMove f a)) = Done ((c1 :: c2 :: l) ++ display_face f ++ lit "w" ++ display_amount a)).
  { unfold display_wide. cbn [w_depth w_move mv_face mv_amount].
    assert (X : N.eqb d u32_max = false) by (apply N.eqb_neq; unfold u32_max; lia).
    destruct d as [|p]; [lia|]. destruct p as [p|p|]; [rewrite X, E; reflexivity|rewrite X, E; reflexivity|lia]. }
  rewrite S. eexists. pose proof (parse_wide_no_panic isn n ((c1 :: c2 :: l) ++ display_face f ++ lit "w" ++ display_amount a)) as P.
  destruct (parse_wide isn n ((c1 :: c2 :: l) ++ display_face f ++ lit "w" ++ display_amount a)) as [[w'|e]|] eqn:R; [| |congruence].
  - exfalso. apply (wide_language isn Hn) in R. destruct R as [R _]. cbn [app] in R. exact (two_digits_not_wide _ _ _ _ D1 D2 R).
  - exists e. split; [reflexivity|exact R].
Qed.

(** At the greatest depth, displaying overflows [i + 1]. *)
Theorem C26_depth_max : forall m, display_wide (mkWide 4294967295 m) = Panic.
Proof. intros m. reflexivity. Qed.

Example C26_example :
  let isn := fun c => N.leb 48 c && N.leb c 57 in
  display_wide (mkWide 1 (mkMove fR Inverse)) = Done (lit "Rw'") /\
  parse_wide isn 3 (lit "Rw'") = Done (Ok (mkWide 1 (mkMove fR Inverse))) /\
  display_wide (mkWide 2 (mkMove fR Single)) = Done (lit "3Rw") /\
  parse_wide isn 3 (lit "3Rw") = Done (Ok (mkWide 3 (mkMove fR Single))) /\
  parse_wide isn 2 (lit "3Rw") = Done (Err (Uknown (ExcededDepth 3 2))) /\
  display_wide (mkWide 11 (mkMove fR Single)) = Done (lit "12Rw") /\
  parse_wide isn 20 (lit "12Rw") = Done (Err PestError).
Proof. repeat split; reflexivity. Qed.

(* ------------------------------------------------------------------ *)
(** * C27: the depth of wide moves *)

(** [obtainable isn n w]: the value [w] of type [WideAxisMove<n>] can be produced by a safe
    caller.  The field [axis_move] is public, the field [depth] is not. *)
Inductive obtainable (isn : N -> bool) : N -> WideAxisMove -> Prop :=
| ObNew n f a d w : wide_new n f a d = Ok w -> obtainable isn n w
| ObSetDepth n v d w : obtainable isn n v -> wide_set_depth n v d = Ok w -> obtainable isn n w
| ObSetMove n v m : obtainable isn n v -> obtainable isn n (mkWide (w_depth v) m)
| ObSetMaxDepth n n' v w : obtainable isn n v -> wide_set_max_depth n' v = Ok w -> obtainable isn n' w
| ObInverse n v : obtainable isn n v -> obtainable isn n (wide_inverse v)
| ObWiden n m d w : move_widen n m d = Ok w -> obtainable isn n w
| ObWidenAlg n al d ws w : alg_widen n al d = Ok ws -> In w ws -> obtainable isn n w
| ObParse n s w : parse_wide isn n s = Done (Ok w) -> obtainable isn n w
| ObParseAlg n s ws w : parse_alg (parse_wide isn n) s = Done (Ok ws) -> In w ws -> obtainable isn n w
| ObSample n f a d w : wide_sample n f a d = Done w -> obtainable isn n w.

Lemma wide_new_depth n f a d w : wide_new n f a d = Ok w -> w_depth w = d /\ (d <= n)%N.
Proof.
  unfold wide_new. destruct (N.ltb n d) eqn:L; [discriminate|]. intros [= <-]. apply N.ltb_ge in L. auto.
Qed.

Lemma parse_wide_depth isn n s w : parse_wide isn n s = Done (Ok w) -> (w_depth w <= n)%N.
Proof.
  rewrite parse_wide_eq. destruct (wide_head isn s) as [[[p c] r]|] eqn:H; [|discriminate].
  destruct (take_amount r) as [a [|x rest]]; [|discriminate].
  destruct (wide_head_inv _ _ _ _ _ H) as [(d & q & f & -> & Q)|(f & ->)].
  - rewrite (wide_tree_depth isn n d q f a _ Q).
    destruct (depth_from_pest (mkPair r_depth d [])) as [[v|e]|]; try discriminate.
    cbn [bind_p ret]. destruct (N.ltb n (N.max v 1)) eqn:L; [discriminate|]. intros [= <-]. apply N.ltb_ge in L. exact L.
  - rewrite wide_tree_face. intros [= <-]. cbn. lia.
Qed.

(** Whatever the history of calls, the depth is at most [n]. *)
Theorem C27_depth_bounded : forall isn n w, obtainable isn n w -> (w_depth w <= n)%N.
Proof.
  induction 1 as [n f a d w H|n v d w O IH H|n v m O IH|n n' v w O IH H|n v O IH|n m d w H|n al d ws w H I
                 |n s w H|n s ws w H I|n f a d w H].
  - apply wide_new_depth in H. destruct H. subst. assumption.
  - unfold wide_set_depth in H. destruct (N.ltb n d) eqn:L; [discriminate|]. injection H as <-. apply N.ltb_ge, L.
  - exact IH.
  - unfold wide_set_max_depth in H. destruct (N.ltb n' (w_depth v)) eqn:L; [discriminate|]. injection H as <-. apply N.ltb_ge, L.
  - exact IH.
  - apply wide_new_depth in H. destruct H. subst. assumption.
  - revert ws H I. induction al as [|m al IH]; intros ws H I; cbn [alg_widen] in H.
    + injection H as <-. destruct I.
    + unfold move_widen in H. destruct (wide_new n (mv_face m) (mv_amount m) d) as [v|e] eqn:V; [|discriminate].
      cbn [bind_r] in H. destruct (alg_widen n al d) as [vs|e]; [|discriminate]. injection H as <-.
      destruct I as [<-|I]; [|exact (IH vs eq_refl I)]. apply wide_new_depth in V. destruct V. subst. assumption.
  - exact (parse_wide_depth isn n s w H).
  - unfold parse_alg in H. apply parse_all_iff in H. induction H as [|x y xs ys P R IH]; [destruct I|].
    destruct I as [<-|I]; [exact (parse_wide_depth isn n x y P)|exact (IH I)].
  - unfold wide_sample in H. destruct (wide_new n f a d) as [v|e] eqn:V; [|discriminate]. injection H as <-.
    apply wide_new_depth in V. destruct V. subst. assumption.
Qed.

(** The constructors fail exactly on excessive depths, and otherwise build what was asked. *)
Theorem C27_constructors : forall n f a d v,
  (wide_new n f a d = Ok (mkWide d (mkMove f a)) <-> (d <= n)%N) /\
  (wide_new n f a d = Err (ExcededDepth d n) <-> (n < d)%N) /\
  (move_widen n (mkMove f a) d = Ok (mkWide d (mkMove f a)) <-> (d <= n)%N) /\
  (move_widen n (mkMove f a) d = Err (ExcededDepth d n) <-> (n < d)%N) /\
  (wide_set_depth n v d = Ok (mkWide d (w_move v)) <-> (d <= n)%N) /\
  (wide_set_depth n v d = Err (ExcededDepth d n) <-> (n < d)%N) /\
  (wide_set_max_depth n v = Ok v <-> (w_depth v <= n)%N) /\
  (wide_set_max_depth n v = Err (ExcededDepth (w_depth v) n) <-> (n < w_depth v)%N).
Proof.
  intros n f a d v. unfold move_widen, wide_new, wide_set_depth, wide_set_max_depth. cbn [mv_face mv_amount].
  destruct (N.ltb n d) eqn:L; [apply N.ltb_lt in L|apply N.ltb_ge in L];
  destruct (N.ltb n (w_depth v)) eqn:K; [apply N.ltb_lt in K|apply N.ltb_ge in K|apply N.ltb_lt in K|apply N.ltb_ge in K];
  repeat match goal with |- _ /\ _ => split end; (split; [first [discriminate|intros _; lia]|first [reflexivity|intros; lia]]).
Qed.

(** Sampling with a depth in [0..=n], as the generator supplies it, does not panic. *)
Theorem C27_sample : forall n f a d, (d <= n)%N -> wide_sample n f a d = Done (mkWide d (mkMove f a)).
Proof.
  intros n f a d H. unfold wide_sample, wide_new. rewrite (proj2 (N.ltb_ge n d) H). reflexivity.
Qed.

(** Widening an alg fails exactly when it is not empty and the depth is too great. *)
Theorem C27_alg_widen : forall n al d,
  alg_widen n al d = if match al with [] => true | _ => N.leb d n end
                     then Ok (map (mkWide d) al) else Err (ExcededDepth d n).
Proof.
  intros n al d. induction al as [|m al IH]; [reflexivity|]. cbn [alg_widen]. rewrite IH.
  unfold move_widen, wide_new. destruct (N.ltb n d) eqn:L.
  - apply N.ltb_lt in L. assert (X : N.leb d n = false) by (apply N.leb_gt; exact L). rewrite X. reflexivity.
  - apply N.ltb_ge in L. assert (X : N.leb d n = true) by (apply N.leb_le; exact L). rewrite X.
    cbn [bind_r]. destruct m as [f a]. destruct al; reflexivity.
Qed.

Example C27_example : forall isn, obtainable isn 1 (mkWide 1 (mkMove fU Inverse)).
Proof.
  intros isn. apply (ObSetMaxDepth isn 3 1 (mkWide 1 (mkMove fU Inverse))); [|reflexivity].
  apply (ObInverse isn 3 (mkWide 1 (mkMove fU Single))).
  apply (ObSetDepth isn 3 (mkWide 2 (mkMove fU Single)) 1); [|reflexivity].
  apply (ObNew isn 3 fU Single 2). reflexivity.
Qed.

Print Assumptions C25_move_language.
Print Assumptions C25_rotation_language.
Print Assumptions C25_parts_language.
Print Assumptions C25_move_count.
Print Assumptions C25_wide_language.
Print Assumptions C25_extended_language.
Print Assumptions C25_no_panic.
Print Assumptions C25_unambiguous.
Print Assumptions C24_alg_language.
Print Assumptions C24_move_alg_language.
Print Assumptions C24_move_roundtrip.
Print Assumptions C24_alg_roundtrip.
Print Assumptions C24_any_separator.
Print Assumptions C24_alg_no_panic.
Print Assumptions C24_nr_roundtrip.
Print Assumptions C26_roundtrip_refuted.
Print Assumptions C26_depth_0_1_partial.
Print Assumptions C26_depth_2_8.
Print Assumptions C26_depth_9.
Print Assumptions C26_depth_max.
Print Assumptions C27_depth_bounded.
Print Assumptions C27_constructors.
Print Assumptions C27_sample.
Print Assumptions C27_alg_widen.

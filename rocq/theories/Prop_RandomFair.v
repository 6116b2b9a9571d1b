(** C75: how likely the outcomes of [Alg::random] are. *)

From Coq Require Import List Bool Arith Lia FinFun.
From Verif Require Import Model_Base Model_Space Model_Moves Model_NonRedundant Model_Cubes Spec_Moves Spec_Random
  Proof_NonRedundant Prop_Moves Prop_RandomAlg.
Import ListNotations.
Open Scope nat_scope.

(** ** All choices *)

Fixpoint words (bounds : list nat) : list (list nat) :=
  match bounds with [] => [[]] | b :: r => flat_map (fun i => map (cons i) (words r)) (seq 0 b) end.
Lemma words_in : forall bounds js, In js (words bounds) <-> Forall2 (fun j b => j < b) js bounds.
Proof.
  induction bounds as [|b r IH]; intros js; cbn [words].
  - split; [intros [<-|[]]; constructor|intros H; inversion H; left; reflexivity].
  - rewrite in_flat_map. split.
    + intros (i & I & H). apply in_map_iff in H as (js' & <- & H). constructor; [apply in_seq in I; lia|apply IH, H].
    + intros H. inversion H as [|j ? js' ? L F]; subst. exists j. split; [apply in_seq; lia|]. apply in_map, IH, F.
Qed.
Lemma nodup_flat {A B} (f : A -> list B) : forall l, NoDup l -> (forall x, In x l -> NoDup (f x)) ->
  (forall x y b, In x l -> In y l -> In b (f x) -> In b (f y) -> x = y) -> NoDup (flat_map f l).
Proof.
  induction l as [|x l IH]; intros N F D; [constructor|]. inversion N as [|? ? N1 N2]; subst. cbn [flat_map].
  assert (G : NoDup (flat_map f l)).
  { apply IH; [exact N2|intros; apply F; right; assumption|]. intros y z b Y Z. apply D; right; assumption. }
  assert (Fx : NoDup (f x)) by (apply F; left; reflexivity).
  assert (Dx : forall b, In b (f x) -> ~ In b (flat_map f l)).
  { intros b B1 B2. apply in_flat_map in B2 as (y & Y & B2). assert (x = y) by (apply (D x y b); [left; reflexivity|right; exact Y|exact B1|exact B2]). subst. contradiction. }
  clear F D IH N N1 N2. induction (f x) as [|b bs IHb]; [exact G|]. inversion Fx; subst. cbn. constructor.
  - rewrite in_app_iff. intros [H|H]; [contradiction|]. apply (Dx b); [left; reflexivity|exact H].
  - apply IHb; [assumption|]. intros c C. apply Dx. right. exact C.
Qed.
Lemma words_nodup bounds : NoDup (words bounds).
Proof.
  induction bounds as [|b r IH]; cbn [words]; [repeat constructor; intros []|]. apply nodup_flat; [apply seq_NoDup| |].
  - intros i _. apply Injective_map_NoDup; [|exact IH]. intros x y [= ->]. reflexivity.
  - intros x y js _ _ X Y. apply in_map_iff in X as (? & <- & _). apply in_map_iff in Y as (? & [= -> _] & _). reflexivity.
Qed.
Lemma words_length bounds : length (words bounds) = fold_right Nat.mul 1 bounds.
Proof.
  induction bounds as [|b r IH]; [reflexivity|]. cbn [words fold_right]. rewrite <- IH.
  assert (G : forall l, length (flat_map (fun i => map (cons i) (words r)) l) = length l * length (words r)).
  { induction l as [|x l IHl]; [reflexivity|]. cbn [flat_map length]. rewrite app_length, map_length, IHl. lia. }
  rewrite G, seq_length. reflexivity.
Qed.
Lemma product_repeat m : fold_right Nat.mul 1 (repeat 30 m) = 30 ^ m.
Proof. induction m as [|m IH]; [reflexivity|]. cbn [repeat fold_right]. rewrite IH. cbn [Nat.pow]. lia. Qed.

Definition bounds (len : nat) : list nat := match len with 0 => [] | S m => 45 :: repeat 30 m end.
Lemma choices_in len js : In js (words (bounds len)) <-> alg_choices len js.
Proof.
  rewrite words_in. unfold alg_choices, bounds.
  assert (G : forall m js, Forall2 (fun j b => j < b) js (repeat 30 m) <-> length js = m /\ forall i j, nth_error js i = Some j -> j < 30).
  { clear. induction m as [|m IH]; intros js; cbn [repeat].
    - split; [intros H; inversion H; split; [reflexivity|intros [|i] j E; discriminate]|].
      intros [L _]. destruct js; [constructor|discriminate].
    - split.
      + intros H. inversion H as [|j ? js' ? L F]; subst. apply IH in F as [<- F]. split; [reflexivity|].
        intros [|i] j' E; [injection E as <-; exact L|exact (F i j' E)].
      + intros [L H]. destruct js as [|j js]; [discriminate|]. injection L as L. constructor; [exact (H 0 j eq_refl)|].
        apply IH. split; [exact L|]. intros i j' E. exact (H (S i) j' E). }
  destruct len as [|m].
  - split; [intros H; inversion H; split; [reflexivity|intros [|i] j E; discriminate]|].
    intros [L _]. destruct js; [constructor|discriminate].
  - split.
    + intros H. inversion H as [|j ? js' ? L F]; subst. apply G in F as [<- F]. split; [reflexivity|].
      intros [|i] j' E; [injection E as <-; exact L|exact (F i j' E)].
    + intros [L H]. destruct js as [|j js]; [discriminate|]. injection L as L. constructor; [exact (H 0 j eq_refl)|].
      apply G. split; [exact L|]. intros i j' E. exact (H (S i) j' E).
Qed.

(** ** The loop, reading its choices from a list *)

Definition pool_of (moves : list AxisMove) : list NRMove :=
  match moves with [] => nr_all | m :: _ => given_last_axis (face_axis (mv_face m)) end.
Fixpoint pick_loop (fuel len : nat) (js : list nat) (moves : list AxisMove) : option (outcome (list AxisMove)) :=
  match fuel with
  | 0 => None
  | S fuel =>
      if Nat.ltb (length moves) len then
        match choose (nth 0 js 0) (pool_of moves) with
        | None => Some Panic
        | Some nr => pick_loop fuel len (tl js) (push_until len (nr_moves nr) moves)
        end
      else Some (Done (rev moves))
  end.
Lemma pick_loop_ok len : forall fuel rng k moves js, (forall i, rng (k + i) = nth i js 0) ->
  random_loop fuel len rng k moves = pick_loop fuel len js moves.
Proof.
  induction fuel as [|fuel IH]; intros rng k moves js E; [reflexivity|]. cbn [random_loop pick_loop].
  rewrite <- (E 0), Nat.add_0_r. fold (pool_of moves). destruct (Nat.ltb _ _); [|reflexivity].
  destruct (choose _ _); [|reflexivity]. apply IH. intros i. specialize (E (S i)).
  replace (S k + i) with (k + S i) by lia. rewrite E. destruct js as [|j js]; [destruct i; reflexivity|reflexivity].
Qed.

Lemma push_prefix len nr moves : exists s, rev (push_until len (nr_moves nr) moves) = rev moves ++ s.
Proof.
  destruct nr as [m|a p n]; cbn [nr_moves push_until].
  - exists [m]. destruct (Nat.eqb _ _); reflexivity.
  - destruct (Nat.eqb _ _); [exists [mkMove (mkFace a Positive) p]; reflexivity|].
    exists [mkMove (mkFace a Positive) p; mkMove (mkFace a Negative) n].
    destruct (Nat.eqb _ _); cbn [rev]; rewrite <- ?app_assoc; reflexivity.
Qed.
Lemma pick_prefix len : forall fuel js moves al, pick_loop fuel len js moves = Some (Done al) -> exists s, al = rev moves ++ s.
Proof.
  induction fuel as [|fuel IH]; intros js moves al E; [discriminate|]. cbn [pick_loop] in E.
  destruct (Nat.ltb _ _); [|injection E as <-; exists []; rewrite app_nil_r; reflexivity].
  destruct (choose _ _) as [nr|]; [|discriminate]. apply IH in E as (s & ->).
  destruct (push_prefix len nr moves) as (s' & ->). exists (s' ++ s). rewrite app_assoc. reflexivity.
Qed.
(** The first move of a chosen non-redundant move. *)
Definition nr_first (nr : NRMove) : AxisMove := match nr with NRSingle m => m | NRDouble a p _ => mkMove (mkFace a Positive) p end.
Lemma first_axis nr : axis_of_move (nr_first nr) = nr_axis nr.
Proof. destruct nr; reflexivity. Qed.
Lemma push_first len nr moves : exists s, rev (push_until len (nr_moves nr) moves) = rev moves ++ nr_first nr :: s.
Proof.
  destruct nr as [m|a p n]; cbn [nr_moves push_until nr_first].
  - exists []. destruct (Nat.eqb _ _); reflexivity.
  - destruct (Nat.eqb _ _); [exists []; reflexivity|].
    exists [mkMove (mkFace a Negative) n].
    destruct (Nat.eqb _ _); cbn [rev]; rewrite <- ?app_assoc; reflexivity.
Qed.
Lemma pick_axis len fuel js m moves y r :
  pick_loop fuel len js (m :: moves) = Some (Done (rev (m :: moves) ++ y :: r)) -> axis_of_move y <> axis_of_move m.
Proof.
  destruct fuel as [|fuel]; [discriminate|]. cbn [pick_loop]. destruct (Nat.ltb _ _).
  - destruct (choose _ _) as [nr|] eqn:C; [|discriminate]. intros E. apply choose_in in C.
    apply pick_prefix in E as (s & E). destruct (push_first len nr (m :: moves)) as (s' & P). rewrite P in E.
    rewrite <- app_assoc in E. apply app_inv_head in E. injection E as -> _. rewrite first_axis. exact (given_last_ne _ _ C).
  - intros E. injection E as E. rewrite <- app_nil_r in E at 1. apply app_inv_head in E. discriminate.
Qed.

(** ** Counting *)

Definition alg_dec (a b : list AxisMove) : {a = b} + {a <> b}.
Proof. repeat decide equality. Defined.
Definition hit (al : list AxisMove) (r : option (outcome (list AxisMove))) : bool :=
  match r with Some (Done x) => if alg_dec x al then true else false | _ => false end.
Lemma hit_iff al r : hit al r = true <-> r = Some (Done al).
Proof.
  destruct r as [[x|]|]; cbn [hit]; [|split; intros H; discriminate|split; intros H; discriminate].
  destruct (alg_dec x al) as [->|N]; [split; reflexivity|]. split; [discriminate|]. intros [= ->]. contradiction.
Qed.
Definition count {A} (f : A -> bool) (l : list A) : nat := length (filter f l).
Lemma count_all {A} (f : A -> bool) l : (forall x, In x l -> f x = true) -> count f l = length l.
Proof. unfold count. induction l as [|x l IH]; intros H; [reflexivity|]. cbn [filter]. rewrite H by (left; reflexivity). cbn. rewrite IH; [reflexivity|]. intros; apply H; right; assumption. Qed.
Lemma count_none {A} (f : A -> bool) l : (forall x, In x l -> f x = false) -> count f l = 0.
Proof. unfold count. induction l as [|x l IH]; intros H; [reflexivity|]. cbn [filter]. rewrite H by (left; reflexivity). apply IH. intros; apply H; right; assumption. Qed.
Lemma count_ext {A} (f g : A -> bool) l : (forall x, In x l -> f x = g x) -> count f l = count g l.
Proof. unfold count. intros H. rewrite (filter_ext_in f g l H). reflexivity. Qed.
Lemma count_app {A} (f : A -> bool) l l' : count f (l ++ l') = count f l + count f l'.
Proof. unfold count. rewrite filter_app, app_length. reflexivity. Qed.
Lemma count_map {A B} (g : A -> B) (f : B -> bool) l : count f (map g l) = count (fun x => f (g x)) l.
Proof. unfold count. induction l as [|x l IH]; [reflexivity|]. cbn [map filter]. destruct (f (g x)); cbn [length]; rewrite IH; reflexivity. Qed.

(** One round: the choices split up by the non-redundant move that is chosen first. *)
Lemma count_round (pool : list NRMove) (f : list nat -> bool) (g : NRMove -> list nat -> bool) bs :
  (forall i nr js, nth_error pool i = Some nr -> f (i :: js) = g nr js) ->
  count f (words (length pool :: bs)) = list_sum (map (fun nr => count (g nr) (words bs)) pool).
Proof.
  intros H. cbn [words].
  assert (G : forall l off, (forall i nr js, nth_error l i = Some nr -> f ((off + i) :: js) = g nr js) ->
    count f (flat_map (fun i => map (cons i) (words bs)) (seq off (length l))) = list_sum (map (fun nr => count (g nr) (words bs)) l)).
  { clear H. induction l as [|nr l IH]; intros off H; [reflexivity|]. cbn [length seq flat_map map list_sum fold_right].
    rewrite count_app, count_map. f_equal.
    - apply count_ext. intros js _. specialize (H 0 nr js eq_refl). rewrite Nat.add_0_r in H. exact H.
    - apply IH. intros i nr' js E. specialize (H (S i) nr' js E). rewrite <- H. f_equal. f_equal. lia. }
  apply (G pool 0). exact H.
Qed.
Lemma sum_ok (pool : list NRMove) (ok : NRMove -> bool) (v : NRMove -> nat) w :
  (forall nr, In nr pool -> v nr = if ok nr then w else 0) -> list_sum (map v pool) = count ok pool * w.
Proof.
  unfold count. induction pool as [|nr l IH]; intros H; [reflexivity|]. cbn [map list_sum fold_right filter].
  change (fold_right Nat.add 0 (map v l)) with (list_sum (map v l)).
  rewrite (H nr (or_introl eq_refl)), IH; [|intros; apply H; right; assumption]. destruct (ok nr); cbn [length]; lia.
Qed.

Lemma pool_length m moves : length (pool_of (m :: moves)) = 30.
Proof. destruct m as [[[] d] a]; reflexivity. Qed.
Lemma hit_no al r : r <> Some (Done al) -> hit al r = false.
Proof. intros N. destruct (hit al r) eqn:E; [|reflexivity]. apply hit_iff in E. contradiction. Qed.

Lemma count_done len fuel moves bs : length moves = len -> 0 < fuel ->
  count (fun js => hit (rev moves ++ []) (pick_loop fuel len js moves)) (words bs) = length (words bs).
Proof.
  intros L F. apply count_all. intros js _. apply hit_iff. destruct fuel as [|fuel]; [lia|]. cbn [pick_loop].
  rewrite L, Nat.ltb_irrefl, app_nil_r. reflexivity.
Qed.

(** How many non-redundant moves of the pool give exactly these moves. *)
Definition move_dec (a b : AxisMove) : {a = b} + {a <> b}.
Proof. repeat decide equality. Defined.
Definition starts (x : AxisMove) (nr : NRMove) : bool := if move_dec (nr_first nr) x then true else false.
Definition gives (l : list AxisMove) (nr : NRMove) : bool := if alg_dec (nr_moves nr) l then true else false.
Lemma starts_count x moves : match moves with [] => True | m :: _ => axis_of_move x <> axis_of_move m end ->
  count (starts x) (pool_of moves) = match face_dir (mv_face x) with Positive => 4 | Negative => 1 end.
Proof.
  destruct moves as [|[[am dm] m] moves]; intros H; destruct x as [[a d] x]; cbn [axis_of_move mv_face face_axis face_dir] in *; unfold pool_of; cbn [mv_face face_axis].
  - destruct a, d, x; vm_compute; reflexivity.
  - destruct am, a; try (elim H; reflexivity); destruct d, x; vm_compute; reflexivity.
Qed.
Lemma gives_one_count x moves : match moves with [] => True | m :: _ => axis_of_move x <> axis_of_move m end ->
  count (gives [x]) (pool_of moves) = 1.
Proof.
  destruct moves as [|[[am dm] m] moves]; intros H; destruct x as [[a d] x]; cbn [axis_of_move mv_face face_axis face_dir] in *; unfold pool_of; cbn [mv_face face_axis].
  - destruct a, d, x; vm_compute; reflexivity.
  - destruct am, a; try (elim H; reflexivity); destruct d, x; vm_compute; reflexivity.
Qed.
Lemma gives_two_count x y moves : match moves with [] => True | m :: _ => axis_of_move x <> axis_of_move m end ->
  axis_of_move x = axis_of_move y -> face_dir (mv_face x) = Positive -> face_dir (mv_face y) = Negative ->
  count (gives [x; y]) (pool_of moves) = 1.
Proof.
  destruct x as [[a d] x], y as [[a' d'] y]. cbn [axis_of_move mv_face face_axis face_dir]. intros H <- -> ->.
  destruct moves as [|[[am dm] m] moves]; unfold pool_of; cbn [mv_face face_axis] in *.
  - destruct a, x, y; vm_compute; reflexivity.
  - destruct am, a; try (elim H; reflexivity); destruct x, y; vm_compute; reflexivity.
Qed.

Lemma tl_cons {A} (j : A) js : tl (j :: js) = js. Proof. reflexivity. Qed.
Lemma count_loop len : forall n x rest fuel moves m, length rest < n -> length moves + S (length rest) = len ->
  S (length rest) < fuel -> length rest <= m -> irredundant (x :: rest) -> positive_first (x :: rest) ->
  match moves with [] => True | y :: _ => axis_of_move x <> axis_of_move y end ->
  count (fun js => hit (rev moves ++ x :: rest) (pick_loop fuel len js moves)) (words (length (pool_of moves) :: repeat 30 m))
  = 30 ^ (m - length rest + neighbours_on_axis (x :: rest)) * (if ends_positive (x :: rest) then 4 else 1).
Proof.
  induction n as [|n IH]; intros x rest fuel moves m Ln T F Lm I P H; [lia|].
  destruct fuel as [|fuel]; [lia|].
  rewrite (count_round (pool_of moves) _
    (fun nr js => hit (rev moves ++ x :: rest) (pick_loop fuel len js (push_until len (nr_moves nr) moves)))).
  2:{ intros i nr js E. cbn [pick_loop nth tl]. assert (Lt : (length moves <? len) = true) by (apply Nat.ltb_lt; lia). rewrite Lt.
      unfold choose. rewrite Nat.mod_small by (apply nth_error_Some; congruence). rewrite E. reflexivity. }
  assert (Wrong : forall nr, nr_first nr <> x ->
    count (fun js => hit (rev moves ++ x :: rest) (pick_loop fuel len js (push_until len (nr_moves nr) moves))) (words (repeat 30 m)) = 0).
  { intros nr N. apply count_none. intros js _. apply hit_no. intros E. apply pick_prefix in E as (s & E).
    destruct (push_first len nr moves) as (s' & Q). rewrite Q, <- app_assoc in E. apply app_inv_head in E. injection E as E _. congruence. }
  apply irredundant_cons in I as [I1 I2]. apply positive_cons in P as [P1 P2].
  destruct rest as [|y rest].
  - (* the last move *)
    rewrite (sum_ok _ (starts x) _ (30 ^ m)).
    + rewrite (starts_count x moves H). cbn [length neighbours_on_axis ends_positive]. rewrite Nat.sub_0_r, Nat.add_0_r.
      destruct (face_dir (mv_face x)); lia.
    + intros nr _. unfold starts. destruct (move_dec (nr_first nr) x) as [E|N]; [|apply Wrong, N].
      assert (Q : push_until len (nr_moves nr) moves = x :: moves).
      { destruct nr as [z|a p q]; cbn [nr_moves push_until nr_first length] in *; rewrite E.
        - destruct (Nat.eqb _ _); reflexivity.
        - replace (S (length moves)) with len by lia. rewrite Nat.eqb_refl. reflexivity. }
      rewrite Q. replace (rev moves ++ [x]) with (rev (x :: moves) ++ []) by (rewrite app_nil_r; reflexivity).
      rewrite count_done; [|cbn [length] in *; lia|lia]. rewrite words_length. apply product_repeat.
  - cbn [length] in *. destruct m as [|m]; [lia|].
    assert (NF : (S (length moves) =? len) = false) by (apply Nat.eqb_neq; lia).
    destruct (axis_eqb (axis_of_move x) (axis_of_move y)) eqn:Q.
    + (* a pair on one axis *)
      apply axis_eqb_eq in Q. destruct I2 as [N1 N2]. specialize (P2 Q).
      assert (D2 : face_dir (mv_face y) = Negative).
      { destruct x as [[a d] x0], y as [[a' d'] y0]. unfold axis_of_move in Q. cbn [mv_face face_axis face_dir] in *. subst. destruct d'; [congruence|reflexivity]. }
      set (w := match rest with [] => 30 ^ S m | _ => 30 ^ (m - (length rest - 1) + neighbours_on_axis rest) * (if ends_positive rest then 4 else 1) end).
      rewrite (sum_ok _ (gives [x; y]) _ w).
      * rewrite (gives_two_count x y moves H Q P2 D2), Nat.mul_1_l. unfold w. cbn [neighbours_on_axis].
        unfold axis_of_move in Q. rewrite Q, (proj2 (axis_eqb_eq _ _) eq_refl).
        destruct rest as [|z r]; cbn [length ends_positive].
        -- rewrite D2. replace (S m - 1 + (1 + 0)) with (S m) by lia. lia.
        -- assert (Z : axis_eqb (face_axis (mv_face y)) (face_axis (mv_face z)) = false).
           { destruct (axis_eqb _ _) eqn:Z; [|reflexivity]. apply axis_eqb_eq in Z. elim N2. unfold axis_of_move. split; congruence. }
           rewrite Z. f_equal. f_equal. cbn [length] in *. lia.
      * intros nr _. unfold gives. destruct (alg_dec (nr_moves nr) [x; y]) as [E|N].
        -- assert (U : push_until len (nr_moves nr) moves = y :: x :: moves).
           { rewrite E. cbn [push_until length]. rewrite NF. destruct (Nat.eqb (S (S (length moves))) len); reflexivity. }
           rewrite U. apply irredundant_cons in I1 as [I3 _]. apply positive_cons in P1 as [P3 _].
           destruct rest as [|z r].
           ++ replace (rev moves ++ [x; y]) with (rev (y :: x :: moves) ++ []) by (rewrite app_nil_r; cbn [rev]; rewrite <- app_assoc; reflexivity).
              rewrite count_done; [|cbn [length] in *; lia|lia]. rewrite words_length. apply product_repeat.
           ++ replace (rev moves ++ x :: y :: z :: r) with (rev (y :: x :: moves) ++ z :: r) by (cbn [rev]; rewrite <- !app_assoc; reflexivity).
              cbn [repeat]. rewrite <- (pool_length y (x :: moves)) at 1. cbn [length] in *. rewrite IH; try assumption; try (cbn [length]; lia).
              ** unfold w. cbn [length]. rewrite Nat.sub_succ, Nat.sub_0_r. reflexivity.
              ** intros E'. apply N2. split; [exact Q|congruence].
        -- destruct (move_dec (nr_first nr) x) as [E|E]; [|apply Wrong, E].
           apply count_none. intros js _. apply hit_no. intros R. destruct nr as [z|a p q]; cbn [nr_first] in E.
           ++ subst z. cbn [nr_moves push_until length] in R. rewrite NF in R.
              replace (rev moves ++ x :: y :: rest) with (rev (x :: moves) ++ y :: rest) in R by (cbn [rev]; rewrite <- app_assoc; reflexivity).
              apply pick_axis in R. congruence.
           ++ cbn [nr_moves push_until length] in R, N. rewrite E, NF in R. rewrite E in N.
              assert (U : exists s, rev moves ++ x :: y :: rest = rev (mkMove (mkFace a Negative) q :: x :: moves) ++ s).
              { destruct (Nat.eqb (S (S (length moves))) len); exact (pick_prefix _ _ _ _ _ R). }
              destruct U as (s & U). cbn [rev] in U. rewrite <- !app_assoc in U. apply app_inv_head in U. cbn in U. injection U as U _. congruence.
    + (* the next move is on another axis *)
      assert (Ne : axis_of_move y <> axis_of_move x) by (intros E; rewrite E in Q; rewrite (proj2 (axis_eqb_eq _ _) eq_refl) in Q; discriminate).
      set (w := 30 ^ (m - length rest + neighbours_on_axis (y :: rest)) * (if ends_positive (y :: rest) then 4 else 1)).
      rewrite (sum_ok _ (gives [x]) _ w).
      * rewrite (gives_one_count x moves H), Nat.mul_1_l. unfold w. cbn [neighbours_on_axis ends_positive]. unfold axis_of_move in Q. rewrite Q.
        reflexivity.
      * intros nr _. unfold gives. destruct (alg_dec (nr_moves nr) [x]) as [E|N].
        -- assert (U : push_until len (nr_moves nr) moves = x :: moves).
           { rewrite E. cbn [push_until length]. rewrite NF. reflexivity. }
           rewrite U. replace (rev moves ++ x :: y :: rest) with (rev (x :: moves) ++ y :: rest) by (cbn [rev]; rewrite <- app_assoc; reflexivity).
           cbn [repeat]. rewrite <- (pool_length x moves) at 1. rewrite IH; try assumption; try (cbn [length]; lia).
        -- destruct (move_dec (nr_first nr) x) as [E|E]; [|apply Wrong, E].
           apply count_none. intros js _. apply hit_no. intros R. destruct nr as [z|a p q]; cbn [nr_first] in E.
           ++ subst z. elim N. reflexivity.
           ++ cbn [nr_moves push_until length] in R. rewrite E, NF in R.
              assert (U : exists s, rev moves ++ x :: y :: rest = rev (mkMove (mkFace a Negative) q :: x :: moves) ++ s).
              { destruct (Nat.eqb (S (S (length moves))) len); exact (pick_prefix _ _ _ _ _ R). }
              destruct U as (s & U). cbn [rev] in U. rewrite <- !app_assoc in U. apply app_inv_head in U. cbn in U. injection U as U _.
              apply Ne. subst x y. reflexivity.
Qed.

(** * C75: the outcomes of [Alg::random] are not equally likely *)

(** The claim: any two outcomes come from the same number of choices. *)
Definition same_number (len : nat) (al al' : list AxisMove) : Prop :=
  exists jss jss' : list (list nat), NoDup jss /\ NoDup jss' /\ length jss = length jss' /\
    (forall js, In js jss <-> alg_choices len js /\ random_alg len (fun i => nth i js 0) = Some (Done al)) /\
    (forall js, In js jss' <-> alg_choices len js /\ random_alg len (fun i => nth i js 0) = Some (Done al')).
Definition C75_claim (len : nat) : Prop := forall al al',
  (exists rng, random_alg len rng = Some (Done al)) -> (exists rng, random_alg len rng = Some (Done al')) -> same_number len al al'.

(** With a fair generator all lists of choices are equally likely; of the
    45 * 30^(len - 1) lists, an outcome comes from 30 for each pair of neighbours on one axis,
    times 4 if it ends with a turn of R, U or F. *)
Theorem C75_exact_partial : forall (len : nat) (al : list AxisMove), 0 < len ->
  length al = len -> irredundant al -> positive_first al ->
  exists jss : list (list nat), NoDup jss /\
    (forall js, In js jss <-> alg_choices len js /\ random_alg len (fun i => nth i js 0) = Some (Done al)) /\
    length jss = 30 ^ neighbours_on_axis al * (if ends_positive al then 4 else 1).
Proof.
  intros len al Pos L I P. destruct al as [|x rest]; [cbn in L; lia|]. destruct len as [|m]; [lia|].
  exists (filter (fun js => hit (x :: rest) (pick_loop (S (S m)) (S m) js [])) (words (bounds (S m)))).
  split; [apply NoDup_filter, words_nodup|]. split.
  - intros js. rewrite filter_In, choices_in, hit_iff. unfold random_alg.
    rewrite (pick_loop_ok (S m) (S (S m)) (fun i => nth i js 0) 0 [] js) by reflexivity. reflexivity.
  - pose proof (count_loop (S m) (S (length rest)) x rest (S (S m)) [] m) as C. cbn [length] in *. unfold count in C.
    change (length (pool_of [])) with 45 in C. change (45 :: repeat 30 m) with (bounds (S m)) in C. cbn [rev app] in C.
    rewrite C; try lia; try assumption. f_equal. f_equal. lia.
Qed.
Theorem C75_number_of_choices : forall len : nat, 0 < len -> exists jss : list (list nat),
  NoDup jss /\ (forall js, In js jss <-> alg_choices len js) /\ length jss = 45 * 30 ^ (len - 1).
Proof.
  intros len Pos. exists (words (bounds len)). split; [apply words_nodup|]. split; [intros js; apply choices_in|].
  destruct len as [|m]; [lia|]. rewrite words_length. cbn [bounds fold_right]. rewrite product_repeat, Nat.sub_succ, Nat.sub_0_r. reflexivity.
Qed.

(** Two outcomes are equally likely exactly when they agree in these two respects. *)
Lemma power_inj a b : 30 ^ a = 30 ^ b -> a = b.
Proof. intros H. apply (Nat.pow_inj_r 30); [lia|exact H]. Qed.
Lemma power_four a b : 30 ^ a * 4 <> 30 ^ b.
Proof.
  intros H. destruct (Nat.lt_trichotomy a b) as [L|[->|L]].
  - assert (E : exists d, b = S d + a) by (exists (b - a - 1); lia). destruct E as (d & ->). rewrite Nat.pow_add_r in H.
    assert (30 ^ a <> 0) by (apply Nat.pow_nonzero; lia). cbn [Nat.pow] in H. assert (30 ^ d <> 0) by (apply Nat.pow_nonzero; lia). nia.
  - assert (30 ^ b <> 0) by (apply Nat.pow_nonzero; lia). lia.
  - assert (30 ^ b < 30 ^ a) by (apply Nat.pow_lt_mono_r; lia). lia.
Qed.
Lemma nodup_same {A} (l l' : list A) : NoDup l -> NoDup l' -> (forall x, In x l <-> In x l') -> length l = length l'.
Proof. intros N N' H. apply Nat.le_antisymm; apply NoDup_incl_length; try assumption; intros x X; apply H; exact X. Qed.
Theorem C75_equally_likely_partial : forall (len : nat) (al al' : list AxisMove), 0 < len ->
  (exists rng, random_alg len rng = Some (Done al)) -> (exists rng, random_alg len rng = Some (Done al')) ->
  (same_number len al al' <-> neighbours_on_axis al = neighbours_on_axis al' /\ ends_positive al = ends_positive al').
Proof.
  intros len al al' Pos O O'. apply C55_outcomes in O as (L & I & P). apply C55_outcomes in O' as (L' & I' & P').
  destruct (C75_exact_partial len al Pos L I P) as (js & N & H & C). destruct (C75_exact_partial len al' Pos L' I' P') as (js' & N' & H' & C').
  split.
  - intros (k & k' & K1 & K2 & K & K3 & K4).
    assert (E : length js = length js').
    { rewrite (nodup_same js k), (nodup_same js' k'); try assumption; intros x; rewrite ?H, ?H', ?K3, ?K4; reflexivity. }
    rewrite C, C' in E. destruct (ends_positive al), (ends_positive al').
    + split; [apply power_inj; lia|reflexivity].
    + exfalso. rewrite Nat.mul_1_r in E. exact (power_four _ _ E).
    + exfalso. rewrite Nat.mul_1_r in E. exact (power_four _ _ (eq_sym E)).
    + split; [apply power_inj; lia|reflexivity].
  - intros [E1 E2]. exists js, js'. repeat (split; try assumption). rewrite C, C', E1, E2. reflexivity.
Qed.

(** So the claim is false for every length: an alg that ends with R is four times as likely as
    the one that ends with L instead. *)
Definition alternating (n : nat) : list AxisMove := map (fun i => mkMove (if Nat.even i then fU else fF) Single) (seq 0 n).
Lemma alternating_snoc n f : face_axis f = AX -> irredundant (alternating n ++ [mkMove f Single]) /\ positive_first (alternating n ++ [mkMove f Single]).
Proof.
  intros A. unfold alternating. generalize 0. induction n as [|n IH]; intros k; cbn [seq map app].
  - split.
    + apply irredundant_cons. split; [|exact Logic.I]. split; [intros m1 m2 S|intros m1 m2 m3 S]; exfalso; exact (segment_nil _ _ S).
    + apply positive_cons. split; [|exact Logic.I]. intros m1 m2 S. exfalso. exact (segment_nil _ _ S).
  - destruct (IH (S k)) as [I P]. split; [apply irredundant_cons; split; [exact I|]|apply positive_cons; split; [exact P|]].
    + destruct n as [|n]; cbn [seq map app good].
      * split; [|exact Logic.I]. cbn [mv_face]. destruct f as [fa fd]. cbn in A. subst. destruct (Nat.even k); discriminate.
      * rewrite Nat.even_succ, <- Nat.negb_even. split.
        -- cbn [mv_face]. destruct (Nat.even k); discriminate.
        -- destruct (map _ (seq (S (S k)) n) ++ _); [exact Logic.I|]. unfold axis_of_move. cbn [mv_face]. destruct (Nat.even k); intros [E _]; discriminate.
    + destruct n as [|n]; cbn [seq map app ordered].
      * unfold axis_of_move. cbn [mv_face]. rewrite A. destruct (Nat.even k); discriminate.
      * rewrite Nat.even_succ, <- Nat.negb_even. unfold axis_of_move. cbn [mv_face]. destruct (Nat.even k); discriminate.
Qed.
Lemma ends_snoc l m : ends_positive (l ++ [m]) = match face_dir (mv_face m) with Positive => true | Negative => false end.
Proof. induction l as [|x l IH]; [reflexivity|]. cbn [app ends_positive]. rewrite IH. destruct l; reflexivity. Qed.
Theorem C75_refuted : forall len : nat, 0 < len -> ~ C75_claim len.
Proof.
  intros len Pos C. destruct len as [|n]; [lia|].
  assert (O : forall f, face_axis f = AX -> exists rng, random_alg (S n) rng = Some (Done (alternating n ++ [mkMove f Single]))).
  { intros f A. apply C55_outcomes. split; [|apply alternating_snoc, A]. unfold alternating. rewrite app_length, map_length, seq_length. cbn. lia. }
  specialize (C _ _ (O fR eq_refl) (O fL eq_refl)). apply C75_equally_likely_partial in C as [_ C]; [|lia|apply O; reflexivity|apply O; reflexivity].
  rewrite !ends_snoc in C. discriminate.
Qed.

(** For one move: R from four of the 45 choices, L from one. *)
Example C75_example :
  filter (fun i => hit [mkMove fR Single] (random_alg 1 (fun _ => i))) (seq 0 45) = [3; 4; 5; 6] /\
  filter (fun i => hit [mkMove fL Single] (random_alg 1 (fun _ => i))) (seq 0 45) = [0].
Proof. vm_compute. auto. Qed.
Print Assumptions C75_exact_partial.
Print Assumptions C75_number_of_choices.
Print Assumptions C75_equally_likely_partial.
Print Assumptions C75_refuted.

(** Every valid 3x3x3 state that satisfies the invariants can be solved: the search
    tables of Data_Solve are checked and composed. *)

From Coq Require Import List Bool Arith ZArith Lia Permutation.
From Verif Require Import Model_Base Model_Space Model_Moves Model_Pieces Model_PieceSet Model_Cubes
  Model_Invariants Spec_Sets Spec_Invariants Proof_Sets Proof_Parity Data_Solve.
Import ListNotations.
Open Scope nat_scope.

(** ** Pieces of both kinds *)

Definition AnyPiece : Type := Corner + Edge.
Definition any_eqb (a b : AnyPiece) : bool :=
  match a, b with
  | inl c, inl d => corner_eqb c d
  | inr e, inr g => edge_eqb e g
  | _, _ => false
  end.
Lemma any_eqb_eq a b : any_eqb a b = true <-> a = b.
Proof.
  destruct a as [c|e], b as [d|g]; cbn; try (split; discriminate).
  - rewrite corner_eqb_eq. split; [intros ->|intros [= ->]]; reflexivity.
  - rewrite edge_eqb_eq. split; [intros ->|intros [= ->]]; reflexivity.
Qed.

Definition any_apply (p : AnyPiece) (m : AxisMove) : AnyPiece :=
  match p with inl c => inl (corner_apply c m) | inr e => inr (edge_apply e m) end.
Definition any_run (p : AnyPiece) (al : list AxisMove) : AnyPiece := fold_left any_apply al p.

Definition any_code (p : AnyPiece) : nat :=
  match p with
  | inl c => 3 * place vec3_eqb corner_reference (c_pos c) + axis_num (c_axis c)
  | inr e => 2 * place edgepos_eqb edge_reference (edge_position e) + (if e_oriented e then 0 else 1)
  end.

Definition same_place (a b : AnyPiece) : bool :=
  match a, b with
  | inl c, inl d => vec3_eqb (c_pos c) (c_pos d)
  | inr e, inr g => edgepos_eqb (edge_position e) (edge_position g)
  | _, _ => false
  end.

Definition solved_piece (id : PieceId) : option AnyPiece :=
  match id with
  | CornerId i => option_map inl (nth_error corner_solved i)
  | EdgeId i => option_map inr (nth_error edge_solved i)
  end.
Definition get_piece (c : Cube3) (id : PieceId) : option AnyPiece :=
  match id with
  | CornerId i => option_map inl (nth_error (c3_corners c) i)
  | EdgeId i => option_map inr (nth_error (c3_edges c) i)
  end.

Definition all_corner_states : list Corner := flat_map (fun p => map (mkCorner p) axis_iter) corner_reference.
Definition all_edge_states : list Edge :=
  flat_map (fun p => map (mkEdge (fst p) (snd p)) [true; false]) edge_reference.
Definition all_of_kind (id : PieceId) : list AnyPiece :=
  match id with
  | CornerId _ => map inl all_corner_states
  | EdgeId _ => map inr all_edge_states
  end.

Lemma all_corner_states_complete c : In c all_corner_states.
Proof. apply (existsb_eqb _ corner_eqb_eq). destruct c as [[[] [] []] []]; reflexivity. Qed.
Lemma all_edge_states_complete e : In e all_edge_states.
Proof. apply (existsb_eqb _ edge_eqb_eq). destruct e as [[] [[] []] []]; reflexivity. Qed.

Lemma all_of_kind_complete c id v : get_piece c id = Some v -> In v (all_of_kind id).
Proof.
  destruct id as [i|i]; cbn [get_piece all_of_kind].
  - destruct (nth_error (c3_corners c) i); [|discriminate]. intros [= <-]. apply in_map, all_corner_states_complete.
  - destruct (nth_error (c3_edges c) i); [|discriminate]. intros [= <-]. apply in_map, all_edge_states_complete.
Qed.

Definition decode_alg (codes : list nat) : list AxisMove :=
  map (fun k => nth k all_moves (mkMove fR Single)) codes.

Definition lookup_alg (t : list (nat * list nat)) (v : AnyPiece) : option (list AxisMove) :=
  option_map (fun x => decode_alg (snd x)) (find_first (fun x => Nat.eqb (fst x) (any_code v)) t).

(** ** Checking one stage and all stages *)

Definition fixes (al : list AxisMove) (p : AnyPiece) : bool := any_eqb (any_run p al) p.

Definition stage_ok (prior : list AnyPiece) (target : AnyPiece) (kind : list AnyPiece)
  (t : list (nat * list nat)) (bound : nat) : bool :=
  forallb (fun v =>
    if existsb (same_place v) prior then true
    else match lookup_alg t v with
         | Some al => any_eqb (any_run v al) target && forallb (fixes al) prior && (length al <=? bound)
         | None => false
         end) kind.

(** The longest alg of a table. *)
Definition longest (t : list (nat * list nat)) : nat :=
  fold_right (fun x b => Nat.max (length (snd x)) b) 0 t.

Fixpoint stages_ok (prior : list AnyPiece) (st : list (PieceId * list (nat * list nat))) : bool :=
  match st with
  | [] => true
  | (id, t) :: r =>
      match solved_piece id with
      | None => false
      | Some target =>
          stage_ok prior target (all_of_kind id) t (longest t) && stages_ok (prior ++ [target]) r
      end
  end.

Definition total_longest (st : list (PieceId * list (nat * list nat))) : nat :=
  fold_right (fun x b => longest (snd x) + b) 0 st.

Definition run3 (c : Cube3) (al : list AxisMove) : Cube3 := fold_left cube3_apply al c.

Lemma get_piece_run al : forall c id, get_piece (run3 c al) id = option_map (fun v => any_run v al) (get_piece c id).
Proof.
  induction al as [|m al IH]; intros c id; cbn [run3 fold_left].
  - destruct (get_piece c id); reflexivity.
  - change (fold_left cube3_apply al (cube3_apply c m)) with (run3 (cube3_apply c m) al). rewrite IH.
    destruct id as [i|i]; cbn [get_piece cube3_apply c3_corners c3_edges]; unfold corner_set_apply, edge_set_apply;
      rewrite nth_error_map.
    + destruct (nth_error (c3_corners c) i); reflexivity.
    + destruct (nth_error (c3_edges c) i); reflexivity.
Qed.

Definition distinct_places (c : Cube3) : Prop :=
  NoDup (map c_pos (c3_corners c)) /\ NoDup (map edge_position (c3_edges c)).

Lemma distinct_run al : forall c, distinct_places c -> distinct_places (run3 c al).
Proof.
  induction al as [|m al IH]; intros c [Dc De]; [split; assumption|].
  apply IH. split; cbn; unfold corner_set_apply, edge_set_apply; rewrite map_map.
  - clear - Dc. induction (c3_corners c) as [|a l IHl]; cbn in *; [constructor|]. inversion Dc; subst. constructor; auto.
    rewrite in_map_iff. intros (b & E & Hb). apply H1. apply corner_pos_inj in E. rewrite <- E. apply in_map. exact Hb.
  - clear - De. induction (c3_edges c) as [|a l IHl]; cbn in *; [constructor|]. inversion De; subst. constructor; auto.
    rewrite in_map_iff. intros (b & E & Hb). apply H1. apply edge_pos_inj in E. rewrite <- E. apply in_map. exact Hb.
Qed.

Lemma distinct_get c id1 id2 v1 v2 : distinct_places c -> get_piece c id1 = Some v1 -> get_piece c id2 = Some v2 ->
  same_place v1 v2 = true -> id1 = id2.
Proof.
  intros [Dc De] H1 H2 S. destruct id1 as [i|i], id2 as [j|j]; cbn in H1, H2;
    destruct (nth_error _ i) as [a|] eqn:Ea; try discriminate; destruct (nth_error _ j) as [b|] eqn:Eb; try discriminate;
    cbn in H1, H2; inversion H1; inversion H2; subst; cbn in S; try discriminate.
  - f_equal. apply vec3_eqb_eq in S. rewrite NoDup_nth_error in Dc. apply Dc.
    + rewrite map_length. apply nth_error_Some. congruence.
    + rewrite !nth_error_map, Ea, Eb. cbn. congruence.
  - f_equal. apply edgepos_eqb_eq in S. rewrite NoDup_nth_error in De. apply De.
    + rewrite map_length. apply nth_error_Some. congruence.
    + rewrite !nth_error_map, Ea, Eb. cbn. congruence.
Qed.

(** Either all pieces of a kind are there or none. *)
Definition full_or_empty (c : Cube3) : Prop :=
  (c3_corners c = [] \/ length (c3_corners c) = 8) /\ (c3_edges c = [] \/ length (c3_edges c) = 12).

Lemma full_run al c : full_or_empty c -> full_or_empty (run3 c al).
Proof.
  revert c; induction al as [|m al IH]; intros c H; [exact H|]. apply IH.
  destruct H as [[Hc|Hc] [He|He]]; split; cbn; unfold corner_set_apply, edge_set_apply;
    rewrite ?map_length; rewrite ?Hc, ?He; auto.
Qed.

Definition same_kind (a b : PieceId) : bool :=
  match a, b with CornerId _, CornerId _ | EdgeId _, EdgeId _ => true | _, _ => false end.

Lemma full_get c id id' v p : full_or_empty c -> get_piece c id = Some v -> solved_piece id' = Some p ->
  same_kind id id' = true -> exists p', get_piece c id' = Some p'.
Proof.
  intros [Fc Fe] Hv Hp K. destruct id as [i|i], id' as [j|j]; try discriminate; cbn [get_piece solved_piece] in *.
  - destruct Fc as [Fc|Fc]; [rewrite Fc in Hv; destruct i; discriminate|].
    destruct (nth_error (c3_corners c) j) eqn:E; [eexists; reflexivity|].
    apply nth_error_None in E. rewrite Fc in E.
    destruct (nth_error corner_solved j) eqn:E'; [|discriminate].
    assert (j < length corner_solved) by (apply nth_error_Some; congruence). cbn in H. lia.
  - destruct Fe as [Fe|Fe]; [rewrite Fe in Hv; destruct i; discriminate|].
    destruct (nth_error (c3_edges c) j) eqn:E; [eexists; reflexivity|].
    apply nth_error_None in E. rewrite Fe in E.
    destruct (nth_error edge_solved j) eqn:E'; [|discriminate].
    assert (j < length edge_solved) by (apply nth_error_Some; congruence). cbn in H. lia.
Qed.

Lemma kind_of c id id' v p : get_piece c id = Some v -> solved_piece id' = Some p -> same_place v p = true ->
  same_kind id id' = true.
Proof.
  destruct id as [i|i], id' as [j|j]; cbn [get_piece solved_piece same_kind]; auto; intros Hv Hp;
    (destruct (nth_error _ i) in Hv; [|discriminate]); (destruct (nth_error _ j) in Hp; [|discriminate]);
    inversion Hv; inversion Hp; subst; discriminate.
Qed.

Lemma Forall2_in_l {A B} (R : A -> B -> Prop) l1 l2 x : Forall2 R l1 l2 -> In x l1 -> exists y, In y l2 /\ R x y.
Proof.
  induction 1 as [|a b l1 l2 Rab F IH]; intros H; [contradiction|]. destruct H as [->|H].
  - exists b. split; [left; reflexivity|exact Rab].
  - destruct (IH H) as (y & Hy & Ry). exists y. split; [right; exact Hy|exact Ry].
Qed.
Lemma Forall2_in_r {A B} (R : A -> B -> Prop) l1 l2 y : Forall2 R l1 l2 -> In y l2 -> exists x, In x l1 /\ R x y.
Proof.
  induction 1 as [|a b l1 l2 Rab F IH]; intros H; [contradiction|]. destruct H as [->|H].
  - exists a. split; [left; reflexivity|exact Rab].
  - destruct (IH H) as (x & Hx & Rx). exists x. split; [right; exact Hx|exact Rx].
Qed.

Lemma any_run_app p a b : any_run p (a ++ b) = any_run (any_run p a) b.
Proof. apply fold_left_app. Qed.
Lemma run3_app c a b : run3 c (a ++ b) = run3 (run3 c a) b.
Proof. apply fold_left_app. Qed.

(** Running all stages solves every piece they mention that the cube has. *)
Lemma stages_solve st : forall (prior_ids : list PieceId) (prior : list AnyPiece) (c : Cube3),
  stages_ok prior st = true -> distinct_places c -> full_or_empty c ->
  Forall2 (fun id p => solved_piece id = Some p) prior_ids prior ->
  NoDup (prior_ids ++ map fst st) ->
  (forall id v, In id prior_ids -> get_piece c id = Some v -> solved_piece id = Some v) ->
  exists al, length al <= total_longest st /\
    forall id v, In id (prior_ids ++ map fst st) -> get_piece (run3 c al) id = Some v -> solved_piece id = Some v.
Proof.
  induction st as [|[id t] st IH]; intros pids prior c OK D Full F N S.
  - exists []. split; [cbn; lia|]. cbn. rewrite app_nil_r. exact S.
  - cbn [stages_ok] in OK. destruct (solved_piece id) as [target|] eqn:Et; [|discriminate].
    apply andb_true_iff in OK as [O1 O2].
    cbn [map fst] in N. assert (Nid : ~ In id pids).
    { intros Hin. apply NoDup_remove_2 in N. apply N, in_app_iff. auto. }
    assert (Step : exists al, length al <= longest t /\
      (forall p, In p prior -> any_run p al = p) /\
      (forall v, get_piece c id = Some v -> any_run v al = target)).
    { destruct (get_piece c id) as [v|] eqn:Ev.
      - pose proof (all_of_kind_complete c id v Ev) as Hv.
        unfold stage_ok in O1. rewrite forallb_forall in O1. specialize (O1 v Hv).
        destruct (existsb (same_place v) prior) eqn:Ex.
        + exfalso. apply existsb_exists in Ex as (p & Hp & Sp).
          destruct (Forall2_in_r _ _ _ _ F Hp) as (id' & Hid' & Ep).
          pose proof (kind_of _ _ _ _ _ Ev Ep Sp) as K.
          destruct (full_get _ _ _ _ _ Full Ev Ep K) as (p' & Ep').
          pose proof (S id' p' Hid' Ep') as E. rewrite Ep in E. inversion E; subst p'.
          apply Nid. rewrite (distinct_get _ _ _ _ _ D Ev Ep' Sp). exact Hid'.
        + destruct (lookup_alg t v) as [al|]; [|discriminate].
          apply andb_true_iff in O1 as [O1 O3]. apply andb_true_iff in O1 as [O1 O4].
          exists al. split; [apply Nat.leb_le; exact O3|]. split.
          * intros p Hp. rewrite forallb_forall in O4. apply any_eqb_eq, O4, Hp.
          * intros v' E. assert (v' = v) by congruence. subst v'. apply any_eqb_eq, O1.
      - exists []. repeat split; [cbn; lia|discriminate]. }
    destruct Step as (al & La & Fix & Tgt).
    destruct (IH (pids ++ [id]) (prior ++ [target]) (run3 c al)) as (al2 & L2 & S2).
    + exact O2.
    + apply distinct_run. exact D.
    + apply full_run. exact Full.
    + apply Forall2_app; [exact F|]. constructor; [exact Et|constructor].
    + rewrite <- app_assoc. exact N.
    + intros id' v Hin. rewrite get_piece_run. apply in_app_iff in Hin as [Hin|[<-|[]]].
      * destruct (get_piece c id') as [w|] eqn:Ew; [|discriminate]. cbn. intros [= <-].
        pose proof (S _ _ Hin Ew) as E. rewrite E. f_equal. symmetry. apply Fix.
        destruct (Forall2_in_l _ _ _ _ F Hin) as (p & Hp & Ep). rewrite E in Ep. inversion Ep; subst. exact Hp.
      * destruct (get_piece c id) as [w|] eqn:Ew; [|discriminate]. cbn. intros [= <-].
        rewrite Et. f_equal. symmetry. apply Tgt. reflexivity.
    + exists (al ++ al2). split.
      * rewrite app_length. cbn [total_longest fold_right snd]. fold (total_longest st). lia.
      * intros id' v Hin. rewrite run3_app. apply S2. rewrite <- app_assoc. exact Hin.
Qed.

(** ** The check of the tables *)

Lemma solve_table_ok : stages_ok [] solve_table = true.
Proof. vm_compute. reflexivity. Qed.

Lemma solve_table_length : total_longest solve_table = 125.
Proof. vm_compute. reflexivity. Qed.

Definition id_eqb (a b : PieceId) : bool :=
  match a, b with
  | CornerId i, CornerId j | EdgeId i, EdgeId j => Nat.eqb i j
  | _, _ => false
  end.
Lemma id_eqb_eq a b : id_eqb a b = true <-> a = b.
Proof.
  destruct a as [i|i], b as [j|j]; cbn; rewrite ?Nat.eqb_eq; split; try discriminate; try congruence;
    intros [= ->]; reflexivity.
Qed.

Lemma solve_table_nodup : NoDup (map fst solve_table).
Proof. apply (find_dup_none _ id_eqb_eq). vm_compute. reflexivity. Qed.

Theorem table_solves c : distinct_places c -> full_or_empty c ->
  exists al, length al <= 125 /\
    forall id v, In id (map fst solve_table) -> get_piece (run3 c al) id = Some v -> solved_piece id = Some v.
Proof.
  intros D F.
  destruct (stages_solve solve_table [] [] c solve_table_ok D F) as (al & L & S).
  - constructor.
  - exact solve_table_nodup.
  - intros id v [].
  - rewrite solve_table_length in L. exists al. split; [exact L|exact S].
Qed.

(** ** The last corner and the last two edges *)

Definition last_corner_ok : bool :=
  forallb (fun v =>
    if existsb (fun x => vec3_eqb (c_pos x) (c_pos v)) (firstn 7 corner_solved) then true
    else if list_sum (map twists (firstn 7 corner_solved ++ [v])) mod 3 =? 0
         then corner_eqb v (mkCorner (mkVec3 Negative Negative Negative) AY) else true)
  all_corner_states.
Lemma last_corner_true : last_corner_ok = true.
Proof. vm_compute. reflexivity. Qed.

Definition double_flip : list AxisMove := decode_alg double_flip_code.

(** The state in which exactly the edges 10 and 11 are flipped. *)
Definition flipped_last_two : list Edge :=
  firstn 10 edge_solved ++ map edge_flip (skipn 10 edge_solved).

Definition last_edges_ok : bool :=
  forallb (fun v => forallb (fun w =>
    if existsb (fun x => edgepos_eqb (edge_position x) (edge_position v)) (firstn 10 edge_solved) then true
    else if existsb (fun x => edgepos_eqb (edge_position x) (edge_position w)) (v :: firstn 10 edge_solved) then true
    else let l := firstn 10 edge_solved ++ [v; w] in
         if even_permutation (edge_permutation l) && Nat.even (length (filter (fun e => negb (e_oriented e)) l))
         then list_eqb edge_eqb l edge_solved || list_eqb edge_eqb l flipped_last_two else true)
  all_edge_states) all_edge_states.
Lemma last_edges_true : last_edges_ok = true.
Proof. vm_compute. reflexivity. Qed.

Lemma double_flip_run : run3 (mkCube3 flipped_last_two corner_solved) double_flip = cube3_solved.
Proof. vm_compute. reflexivity. Qed.
Lemma double_flip_length : length double_flip = 14.
Proof. reflexivity. Qed.

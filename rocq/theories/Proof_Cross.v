(** Lemmas for the cross solver. *)

From Coq Require Import List Bool Arith ZArith SpecFloat Lia.
From Verif Require Import Model_Base Model_Space Model_Moves Model_Pieces Model_PieceSet Model_Cubes
  Model_Visual Model_Search Model_Float Model_Cross Spec_Search Spec_Geometry Spec_Stickers Spec_Cross
  Proof_Sets Proof_Search Proof_Float Proof_FloatSearch Data_Solve Data_Cross Proof_Solve.
Import ListNotations.
Open Scope nat_scope.

(** ** Only the values of the heuristic matter *)

Section Ext.
  Context {K C M : Type} (ops : CostOps K) (pr pr' : Problem K C M).
  Context (He : pr_eqb pr' = pr_eqb pr) (Hs : pr_successors pr' = pr_successors pr)
    (Ht : pr_is_target pr' = pr_is_target pr) (Hh : forall c, pr_heuristic pr' c = pr_heuristic pr c).

  Lemma try_ext rec rec' path : (forall p mn, rec' p mn = rec p mn) ->
    forall succs mn, ida_try pr' rec' path succs mn = ida_try pr rec path succs mn.
  Proof.
    intros H. induction succs as [|[s m] succs IH]; intros mn; cbn [ida_try]; [reflexivity|].
    rewrite He. destruct (existsb (pr_eqb pr s) path); [apply IH|]. rewrite H.
    destruct (rec (s :: path) mn); auto.
  Qed.
  Lemma impl_ext : forall fuel path cur bound mn,
    search_impl ops pr' fuel path cur bound mn = search_impl ops pr fuel path cur bound mn.
  Proof.
    induction fuel as [|fuel IH]; intros path cur bound mn; cbn [search_impl]; [reflexivity|].
    destruct path as [|c rest]; [reflexivity|]. rewrite Hh, Ht, Hs. destruct (k_ltb ops bound _); [reflexivity|].
    destruct (pr_is_target pr c); [reflexivity|]. apply try_ext. intros. apply IH.
  Qed.
  Lemma iter_ext fuel c : forall n bound, search_iter ops pr' fuel c n bound = search_iter ops pr fuel c n bound.
  Proof.
    induction n as [|n IH]; intros bound; cbn [search_iter]; [reflexivity|]. rewrite impl_ext.
    destruct (search_impl ops pr fuel [c] _ bound _); auto.
  Qed.
  Lemma search_ext fuel md c : search ops pr' fuel md c = search ops pr fuel md c.
  Proof. unfold search. rewrite Hh. apply iter_ext. Qed.
End Ext.

(** ** min_moves_to_solve *)

Definition all_edge_pos : list EdgePos := edge_reference.

Definition min_moves_consistent : bool :=
  forallb (fun p => forallb (fun e => forallb (fun m =>
    (min_moves_to_solve p e <=? 1 + min_moves_to_solve p (edge_apply e m))%Z) all_moves) all_edge_states) all_edge_pos.
Definition min_moves_descend : bool :=
  forallb (fun p => forallb (fun e =>
    (0 <=? min_moves_to_solve p e)%Z && (min_moves_to_solve p e <=? 3)%Z &&
    if (min_moves_to_solve p e =? 0)%Z then edge_eqb e (mkEdge (fst p) (snd p) true)
    else existsb (fun m => (min_moves_to_solve p (edge_apply e m) =? min_moves_to_solve p e - 1)%Z) all_moves)
  all_edge_states) all_edge_pos.
Lemma min_moves_consistent_true : min_moves_consistent = true.
Proof. vm_compute. reflexivity. Qed.
Lemma min_moves_descend_true : min_moves_descend = true.
Proof. vm_compute. reflexivity. Qed.

Lemma min_moves_step p e m : (min_moves_to_solve p e <= 1 + min_moves_to_solve p (edge_apply e m))%Z.
Proof.
  pose proof min_moves_consistent_true as H. unfold min_moves_consistent in H. rewrite forallb_forall in H.
  specialize (H p (edgepos_in_reference p)). rewrite forallb_forall in H. specialize (H e (all_edge_states_complete e)).
  rewrite forallb_forall in H. apply Z.leb_le, H, all_moves_complete.
Qed.
Lemma min_moves_facts p e :
  (0 <= min_moves_to_solve p e <= 3)%Z /\
  (min_moves_to_solve p e = 0%Z -> e = mkEdge (fst p) (snd p) true) /\
  ((0 < min_moves_to_solve p e)%Z -> exists m, min_moves_to_solve p (edge_apply e m) = (min_moves_to_solve p e - 1)%Z).
Proof.
  pose proof min_moves_descend_true as H. unfold min_moves_descend in H. rewrite forallb_forall in H.
  specialize (H p (edgepos_in_reference p)). rewrite forallb_forall in H. specialize (H e (all_edge_states_complete e)).
  apply andb_true_iff in H as (H & D). apply andb_true_iff in H as (L & U). apply Z.leb_le in L, U.
  split; [lia|]. destruct (Z.eqb_spec (min_moves_to_solve p e) 0) as [E|E].
  - split; [|lia]. intros _. apply edge_eqb_eq, D.
  - split; [lia|]. intros _. apply existsb_exists in D as (m & _ & D). exists m. apply Z.eqb_eq, D.
Qed.
Lemma min_moves_solved p : min_moves_to_solve p (mkEdge (fst p) (snd p) true) = 0%Z.
Proof. destruct p as [[] [[] []]]; reflexivity. Qed.

Lemma min_moves_lower p al : forall e, brings_edge p e al -> (min_moves_to_solve p e <= Z.of_nat (length al))%Z.
Proof.
  unfold brings_edge. induction al as [|m al IH]; intros e B; cbn [fold_left length] in *.
  - rewrite B, min_moves_solved. lia.
  - apply IH in B. pose proof (min_moves_step p e m). lia.
Qed.
Lemma min_moves_reached p : forall n e, min_moves_to_solve p e = Z.of_nat n ->
  exists al, length al = n /\ brings_edge p e al.
Proof.
  induction n as [|n IH]; intros e E.
  - exists []. split; [reflexivity|]. apply min_moves_facts, E.
  - destruct (min_moves_facts p e) as (_ & _ & D). destruct D as (m & D); [lia|].
    destruct (IH (edge_apply e m)) as (al & L & B); [lia|]. exists (m :: al). split; [cbn; lia|exact B].
Qed.

(** ** Cross edges *)

Lemma is_cross_edge_spec p f : is_cross_edge p f = true <-> edge_on_face p f.
Proof.
  unfold edge_on_face. destruct p as [[] [[] []]], f as [[] []]; vm_compute; split; intros H; try reflexivity; discriminate H.
Qed.

Lemma cross_reference_length f : length (filter (fun p => is_cross_edge p f) edge_reference) = 4.
Proof. destruct f as [[] []]; reflexivity. Qed.

Lemma filter_combine {A B} (g : A -> bool) : forall (r : list A) (s : list B), length s = length r ->
  map fst (filter (fun x => g (fst x)) (combine r s)) = filter g r.
Proof.
  induction r as [|a r IH]; intros [|b s] L; try discriminate; [reflexivity|]. cbn in *.
  destruct (g a); cbn; rewrite IH by lia; reflexivity.
Qed.
Lemma filter_combine_le {A B} (g : A -> bool) : forall (r : list A) (s : list B),
  length (filter (fun x => g (fst x)) (combine r s)) <= length (filter g r).
Proof.
  induction r as [|a r IH]; intros [|b s]; cbn; try lia. specialize (IH s). destruct (g a); cbn; lia.
Qed.

Lemma filter_sub {A} (f g : A -> bool) (l : list A) :
  length (filter (fun x => f x && g x) l) <= length (filter g l) /\
  (length (filter (fun x => f x && g x) l) = length (filter g l) <-> forall x, In x l -> g x = true -> f x = true).
Proof.
  induction l as [|a l (L & I)]; cbn [filter]; [split; [lia|]; split; [intros _ x []|reflexivity]|].
  destruct (g a) eqn:G; rewrite ?andb_true_r, ?andb_false_r.
  - destruct (f a) eqn:F; cbn [length].
    + split; [lia|]. split.
      * intros E x [<-|X]; [auto|]. apply I; [lia|exact X].
      * intros H. f_equal. apply I. intros x X. apply H. right. exact X.
    + split; [lia|]. split.
      * intros E. lia.
      * intros H. specialize (H a (or_introl eq_refl) G). congruence.
  - split; [exact L|]. rewrite I. split.
    + intros H x [<-|X]; [congruence|]. apply H, X.
    + intros H x X. apply H. right. exact X.
Qed.

Lemma count_le c f : (0 <= count_cross_pieces c f <= 4)%Z.
Proof.
  unfold count_cross_pieces. split; [lia|]. unfold iter_with_pos. cbn [pd_reference edge_desc].
  assert (X : forall l : list (EdgePos * Edge), length (filter (fun x => edgepos_eqb (edge_position (snd x)) (fst x) && is_cross_edge (fst x) f && e_oriented (snd x)) l)
    <= length (filter (fun x => is_cross_edge (fst x) f) l)).
  { intros l. rewrite (filter_ext _ (fun x => (edgepos_eqb (edge_position (snd x)) (fst x) && e_oriented (snd x)) && is_cross_edge (fst x) f)).
    - apply (filter_sub (fun x : EdgePos * Edge => edgepos_eqb (edge_position (snd x)) (fst x) && e_oriented (snd x))).
    - intros x. rewrite <- !andb_assoc. f_equal. apply andb_comm. }
  specialize (X (combine edge_reference (c3_edges c))).
  pose proof (filter_combine_le (fun p => is_cross_edge p f) edge_reference (c3_edges c)) as Y.
  rewrite cross_reference_length in Y. lia.
Qed.

Lemma count_four c f : length (c3_edges c) = 12 -> (count_cross_pieces c f = 4%Z <-> cross_solved f c).
Proof.
  intros L12. unfold count_cross_pieces, cross_solved. unfold iter_with_pos. cbn [pd_reference edge_desc].
  rewrite (filter_ext _ (fun x => (edgepos_eqb (edge_position (snd x)) (fst x) && e_oriented (snd x)) && is_cross_edge (fst x) f))
    by (intros x; rewrite <- !andb_assoc; f_equal; apply andb_comm).
  destruct (filter_sub (fun x : EdgePos * Edge => edgepos_eqb (edge_position (snd x)) (fst x) && e_oriented (snd x))
    (fun x => is_cross_edge (fst x) f) (combine edge_reference (c3_edges c))) as (_ & I).
  assert (E4 : length (filter (fun x : EdgePos * Edge => is_cross_edge (fst x) f) (combine edge_reference (c3_edges c))) = 4).
  { rewrite <- (cross_reference_length f), <- (filter_combine (fun p => is_cross_edge p f) edge_reference (c3_edges c)) by exact L12.
    rewrite map_length. reflexivity. }
  rewrite E4 in I. split.
  - intros H i p Hi On. apply is_cross_edge_spec in On.
    destruct (nth_error (c3_edges c) i) as [e|] eqn:Ee.
    + assert (In (p, e) (combine edge_reference (c3_edges c))).
      { apply (nth_error_In _ i). apply combine_nth_error. auto. }
      assert (X : (edgepos_eqb (edge_position e) p && e_oriented e)%bool = true).
      { apply (proj1 I ltac:(lia) (p, e) H0 On). }
      apply andb_true_iff in X as (X1 & X2). apply edgepos_eqb_eq in X1. destruct e as [n s o]. cbn in *. subst. reflexivity.
    + apply nth_error_None in Ee. assert (i < length edge_reference) by (apply nth_error_Some; congruence). cbn in H0. lia.
  - intros H. assert (X : length (filter (fun x : EdgePos * Edge => edgepos_eqb (edge_position (snd x)) (fst x) && e_oriented (snd x) && is_cross_edge (fst x) f)
      (combine edge_reference (c3_edges c))) = 4); [|lia].
    apply I. intros [p e] Hin On. apply In_nth_error in Hin as (i & Hi). apply combine_nth_error in Hi as (Hp & He).
    cbn [fst snd] in *. apply is_cross_edge_spec in On. rewrite (H i p Hp On) in He. injection He as <-. cbn.
    rewrite (proj2 (edgepos_eqb_eq _ _)); [reflexivity|]. destruct p; reflexivity.
Qed.

(** ** Bounds on the heuristics *)

Lemma cross_moves_facts c f :
  length (cross_edge_moves c f) <= 4 /\ (forall z, In z (cross_edge_moves c f) -> (0 <= z <= 3)%Z) /\
  (length (c3_edges c) = 12 -> length (cross_edge_moves c f) = 4).
Proof.
  unfold cross_edge_moves. rewrite map_length. repeat split.
  - pose proof (filter_combine_le (fun p => is_cross_edge p f) edge_reference (c3_edges c)) as Y.
    rewrite cross_reference_length in Y. exact Y.
  - apply in_map_iff in H as (x & <- & _). apply min_moves_facts.
  - apply in_map_iff in H as (x & <- & _). apply min_moves_facts.
  - intros L. rewrite <- (cross_reference_length f), <- (filter_combine (fun p => is_cross_edge p f) edge_reference (c3_edges c)) by exact L.
    rewrite map_length. reflexivity.
Qed.

Lemma fold_add_bounds b l : forall a, (forall z, In z l -> 0 <= z <= b)%Z ->
  (a <= fold_left Z.add l a <= a + b * Z.of_nat (length l))%Z.
Proof.
  induction l as [|x l IH]; intros a H; cbn [fold_left length]; [lia|].
  pose proof (H x (or_introl eq_refl)). destruct (IH (a + x)%Z) as (I1 & I2); [intros z Hz; apply H; right; exact Hz|]. nia.
Qed.
Lemma fold_max_ge l : forall a z, In z (a :: l) -> (z <= fold_left Z.max l a)%Z.
Proof.
  induction l as [|x l IH]; intros a z H; cbn [fold_left]; [destruct H as [<-|[]]; lia|].
  destruct H as [<-|[<-|H]].
  - pose proof (IH (Z.max a x) _ (or_introl eq_refl)). lia.
  - pose proof (IH (Z.max a x) _ (or_introl eq_refl)). lia.
  - apply IH. right. exact H.
Qed.
Lemma fold_max_in l : forall a, In (fold_left Z.max l a) (a :: l).
Proof.
  induction l as [|x l IH]; intros a; cbn [fold_left]; [left; reflexivity|].
  destruct (IH (Z.max a x)) as [E|E]; [|right; right; exact E]. rewrite <- E.
  destruct (Z.max_spec a x) as [(_ & ->)|(_ & ->)]; [right; left|left]; reflexivity.
Qed.

(** Lower bound from a piece. *)
Lemma cross_moves_admissible c f al : cross_solved f (fold_left cube3_apply al c) ->
  forall z, In z (cross_edge_moves c f) -> (z <= Z.of_nat (length al))%Z.
Proof.
  intros S z H. unfold cross_edge_moves in H. apply in_map_iff in H as ([p e] & <- & H). apply filter_In in H as (H & On).
  cbn [fst snd] in *. unfold iter_with_pos in H. apply In_nth_error in H as (i & H). apply combine_nth_error in H as (Hp & He).
  cbn [pd_reference edge_desc] in Hp. apply is_cross_edge_spec in On. specialize (S i p Hp On).
  apply min_moves_lower. unfold brings_edge.
  assert (R : forall al (c : Cube3), c3_edges (fold_left cube3_apply al c) = map (fun e => fold_left edge_apply al e) (c3_edges c)).
  { clear. induction al as [|m al IH]; intros c; cbn; [rewrite map_id; reflexivity|]. rewrite IH. cbn. unfold edge_set_apply. rewrite map_map. reflexivity. }
  rewrite R, nth_error_map, He in S. cbn in S. congruence.
Qed.

(** ** Every cross can be solved in 16 moves *)

Definition cross_table (f : Face) : list (PieceId * list (nat * list nat)) :=
  match face_axis f, face_dir f with
  | AX, Positive => cross_table_R | AX, Negative => cross_table_L
  | AY, Positive => cross_table_U | AY, Negative => cross_table_D
  | AZ, Positive => cross_table_F | AZ, Negative => cross_table_B
  end.
Lemma cross_table_ok f : stages_ok [] (cross_table f) = true.
Proof. destruct f as [[] []]; vm_compute; reflexivity. Qed.
Lemma cross_table_length f : total_longest (cross_table f) = 16.
Proof. destruct f as [[] []]; vm_compute; reflexivity. Qed.
Lemma cross_table_nodup f : NoDup (map fst (cross_table f)).
Proof. apply (find_dup_none _ id_eqb_eq). destruct f as [[] []]; vm_compute; reflexivity. Qed.
Lemma cross_table_edges f i p : nth_error edge_reference i = Some p -> edge_on_face p f ->
  In (EdgeId i) (map fst (cross_table f)).
Proof.
  intros Hi On. apply is_cross_edge_spec in On. apply (existsb_eqb _ id_eqb_eq).
  do 12 (destruct i as [|i]; [injection Hi as <-; destruct f as [[] []]; vm_compute in On; first [discriminate On|vm_compute; reflexivity]|]).
  destruct i; discriminate.
Qed.

Lemma cross_solvable f c : distinct_places c -> full_or_empty c -> length (c3_edges c) = 12 ->
  exists al, length al <= 16 /\ cross_solved f (run3 c al).
Proof.
  intros D F L. destruct (stages_solve (cross_table f) [] [] c (cross_table_ok f) D F) as (al & La & S).
  - constructor.
  - exact (cross_table_nodup f).
  - intros id v [].
  - rewrite cross_table_length in La. exists al. split; [exact La|]. intros i p Hp On.
    destruct (nth_error (c3_edges (run3 c al)) i) as [e|] eqn:Ee.
    + specialize (S (EdgeId i) (inr e) (cross_table_edges f i p Hp On)). cbn [get_piece solved_piece] in S. rewrite Ee in S.
      specialize (S eq_refl). destruct (nth_error edge_solved i) as [e'|] eqn:Es; [|discriminate]. injection S as <-.
      unfold edge_solved in Es. rewrite nth_error_map, Hp in Es. cbn in Es. injection Es as <-. destruct p; reflexivity.
    + apply nth_error_None in Ee. assert (i < length edge_reference) by (apply nth_error_Some; congruence).
      assert (L' : length (c3_edges (run3 c al)) = 12).
      { destruct (full_run al c F) as (_ & [E|E]); [|exact E]. exfalso. clear - E L. revert c E L.
        induction al as [|m al IH]; intros c E L; cbn in E; [rewrite E in L; discriminate|].
        apply (IH (cube3_apply c m)); [exact E|]. cbn. unfold edge_set_apply. rewrite map_length. exact L. }
      cbn in H. lia.
Qed.

(** ** Halves *)
Lemma half_exact z : (0 <= z <= 12)%Z -> f32_div (f32_of_Z z) (f32_of_Z 2) = f32_scaled (- 1) z.
Proof.
  intros H. assert (forallb (fun n => match f32_div (f32_of_Z (Z.of_nat n)) (f32_of_Z 2), f32_scaled (- 1) (Z.of_nat n) with
    | S754_finite a m e, S754_finite b n k => Bool.eqb a b && Pos.eqb m n && Z.eqb e k
    | S754_zero a, S754_zero b => Bool.eqb a b | _, _ => false end) (seq 0 13) = true) by (vm_compute; reflexivity).
  rewrite forallb_forall in H0. specialize (H0 (Z.to_nat z)). rewrite in_seq, Z2Nat.id in H0 by lia.
  specialize (H0 ltac:(lia)). destruct (f32_div _ _), (f32_scaled _ _); try discriminate.
  - apply Bool.eqb_prop in H0. congruence.
  - apply andb_true_iff in H0 as (H0 & H1). apply andb_true_iff in H0 as (H0 & H2).
    apply Bool.eqb_prop in H0. apply Pos.eqb_eq in H2. apply Z.eqb_eq in H1. congruence.
Qed.

(** C58: wide moves keep their depth within the limit; C59: random algs that may be redundant;
    C60: an edge between two faces. *)

From Coq Require Import List Bool Arith NArith ZArith Lia ZifyBool ZifyN ZifyNat.
From Verif Require Import Model_Base Model_Space Model_Moves Model_Pieces Model_PieceSet Model_Cubes Model_Visual Model_Orientable Model_Extra
  Spec_Moves Spec_Geometry Spec_Stickers Prop_BigCube Prop_Orientable.
Import ListNotations.
Open Scope nat_scope.

(** * C58: constructing and converting wide moves *)

(** Every way to make a wide move succeeds exactly when the depth is within the limit, gives
    the move that was asked for, and otherwise reports the depth and the limit. *)
Theorem C58_constructors : forall (n : N) (f : Face) (a : Amount) (d : N) (w : WideAxisMove),
  ((d <= n)%N -> wide_new n f a d = Ok (mkWide d (mkMove f a)) /\ move_widen n (mkMove f a) d = Ok (mkWide d (mkMove f a)) /\
     wide_set_depth n w d = Ok (mkWide d (w_move w))) /\
  ((n < d)%N -> wide_new n f a d = Err (ExcededDepth d n) /\ move_widen n (mkMove f a) d = Err (ExcededDepth d n) /\
     wide_set_depth n w d = Err (ExcededDepth d n)) /\
  ((w_depth w <= n)%N -> wide_set_max_depth n w = Ok w) /\
  ((n < w_depth w)%N -> wide_set_max_depth n w = Err (ExcededDepth (w_depth w) n)).
Proof.
  intros n f a d w. unfold move_widen, wide_new, wide_set_depth, wide_set_max_depth. cbn [mv_face mv_amount].
  destruct (N.ltb_spec n d), (N.ltb_spec n (w_depth w)); repeat split; try lia; reflexivity.
Qed.

(** [Alg::widen]: all moves at the given depth, or an error if the depth is too large (an empty
    alg never fails). *)
Theorem C58_widen_alg : forall (n d : N) (al : list AxisMove),
  alg_widen n al d = if (d <=? n)%N then Ok (map (mkWide d) al) else match al with [] => Ok [] | _ => Err (ExcededDepth d n) end.
Proof.
  intros n d al. destruct (N.leb_spec d n).
  - induction al as [|[f a] al IH]; [reflexivity|]. cbn [alg_widen map]. unfold move_widen, wide_new at 1. cbn [mv_face mv_amount].
    destruct (N.ltb_spec n d); [lia|]. cbn [bind_r]. rewrite IH. reflexivity.
  - destruct al as [|[f a] al]; [reflexivity|]. cbn [alg_widen]. unfold move_widen, wide_new at 1. cbn [mv_face mv_amount].
    destruct (N.ltb_spec n d); [reflexivity|lia].
Qed.

(** Every value of type [WideAxisMove<N>] that can be built satisfies the invariant of the
    type (depth <= N); conversion to an extended move cannot fail. *)
Inductive built : N -> WideAxisMove -> Prop :=
| BuiltNew n f a d w : wide_new n f a d = Ok w -> built n w
| BuiltWiden n m d w : move_widen n m d = Ok w -> built n w
| BuiltSetDepth n v d w : built n v -> wide_set_depth n v d = Ok w -> built n w
| BuiltSetMax n k v w : built k v -> wide_set_max_depth n v = Ok w -> built n w
| BuiltInverse n v : built n v -> built n (wide_inverse v)
| BuiltMove n v m : built n v -> built n (mkWide (w_depth v) m) (* [axis_move] is a public field *)
| BuiltRandom n f a d w : (d <= n)%N -> wide_sample n f a d = Done w -> built n w.
Theorem C58_invariant : forall (n : N) (w : WideAxisMove), built n w -> (w_depth w <= n)%N.
Proof.
  assert (W : forall n f a d w, wide_new n f a d = Ok w -> (w_depth w <= n)%N).
  { intros n f a d w. unfold wide_new. destruct (N.ltb_spec n d); [discriminate|]. intros E. injection E as <-. assumption. }
  induction 1 as [n f a d w E|n m d w E|n v d w B IH E|n k v w B IH E|n v B IH|n v m B IH|n f a d w L E].
  - exact (W _ _ _ _ _ E).
  - exact (W _ _ _ _ _ E).
  - unfold wide_set_depth in E. destruct (N.ltb_spec n d); [discriminate|]. injection E as <-. assumption.
  - unfold wide_set_max_depth in E. destruct (N.ltb_spec n (w_depth v)); [discriminate|]. injection E as <-. assumption.
  - exact IH.
  - exact IH.
  - unfold wide_sample in E. destruct (wide_new n f a d) eqn:X; [|discriminate]. injection E as <-. exact (W _ _ _ _ _ X).
Qed.

(** [ExtendedAxisMove::from] of a wide move: never panics, and doing it on an [Orientable] does
    to the cube what the wide move does to the cube itself, whenever the cube can do it. *)
Theorem C58_to_extended : forall (n : CubeSize) (k : N) (w : WideAxisMove) (o : Orientable n),
  built k w -> (k <= 4294967295)%N ->
  exists m, ext_of_wide w = Done m /\
    ((w_depth w <= cube_size_N n / 2 - 1)%N -> ext_apply n o m = Done (mkOrientable (cube_apply_wide n (ob_cube o) w) (ob_ori o))).
Proof.
  intros n k w o B K. apply C58_invariant in B. exists (XWide w). split.
  - unfold ext_of_wide, wide_set_max_depth. destruct (N.ltb_spec u32_max (w_depth w)) as [Hl|_]; [unfold u32_max in Hl; lia|reflexivity].
  - intros L. change (w_depth w <= widest n)%N in L. cbn [ext_apply].
    assert (S : (2 * widest n + 2 <= cube_size_N n)%N) by (destruct n; vm_compute; discriminate).
    destruct (N.ltb_spec (cube_size_N n) (w_depth w)); [lia|]. destruct (N.ltb_spec (w_depth w) (cube_size_N n - w_depth w)); [|lia].
    cbn [bind_o]. rewrite (set_depth_ok w n L). reflexivity.
Qed.

Example C58_example :
  built 2 (mkWide 1 (mkMove fR Single)) /\ alg_widen 1 [mkMove fR Single; mkMove fU Double] 1 = Ok [mkWide 1 (mkMove fR Single); mkWide 1 (mkMove fU Double)] /\
  alg_widen 1 [mkMove fR Single] 2 = Err (ExcededDepth 2 1) /\
  ext_apply Size4 (mkOrientable (cube_solved Size4) ori_default) (XWide (mkWide 1 (mkMove fR Single)))
    = Done (mkOrientable (cube_apply_wide Size4 (cube_solved Size4) (mkWide 1 (mkMove fR Single))) ori_default).
Proof. split; [apply (BuiltNew 2 fR Single 1); reflexivity|]. repeat split; reflexivity. Qed.

(** * C59: [random_unnormalized] *)

Lemma unnormalized_ok {M} (gen : nat -> outcome M) (f : nat -> M) : (forall k, gen k = Done (f k)) ->
  forall len, random_unnormalized len gen = Done (map f (seq 0 len)).
Proof.
  intros H. induction len as [|n IH]; [reflexivity|]. cbn [random_unnormalized]. rewrite IH. cbn [bind_o]. rewrite H. cbn [bind_o].
  rewrite seq_S, map_app. reflexivity.
Qed.
Lemma map_nth_seq {M} (d : M) l : map (fun k => nth k l d) (seq 0 (length l)) = l.
Proof.
  apply nth_ext with (d := d) (d' := d); [rewrite map_length, seq_length; reflexivity|]. intros i Hi. rewrite map_length, seq_length in Hi.
  rewrite (nth_indep _ d (nth 0 l d)) by (rewrite map_length, seq_length; exact Hi).
  change (nth 0 l d) with ((fun k => nth k l d) 0). rewrite map_nth, seq_nth by exact Hi. reflexivity.
Qed.

(** For plain moves: the outcomes are exactly the algs of the given length. *)
Theorem C59_moves : forall (len : nat) (al : list AxisMove),
  (exists rng : nat -> Face * Amount, random_unnormalized len (fun k => Done (mkMove (fst (rng k)) (snd (rng k)))) = Done al) <->
  length al = len.
Proof.
  intros len al. split.
  - intros [rng E]. rewrite (unnormalized_ok _ (fun k => mkMove (fst (rng k)) (snd (rng k)))) in E by reflexivity. injection E as <-.
    rewrite map_length, seq_length. reflexivity.
  - intros <-. set (d := mkMove fR Single). exists (fun k => (mv_face (nth k al d), mv_amount (nth k al d))).
    rewrite (unnormalized_ok _ (fun k => nth k al d)); [rewrite map_nth_seq; reflexivity|]. intros k. cbn [fst snd]. destruct (nth k al d); reflexivity.
Qed.

(** For wide moves it never panics, and the outcomes are exactly the algs of the given length
    with depths within the limit. *)
Theorem C59_wide_moves : forall (n : N) (len : nat),
  (forall rng, exists al, random_unnormalized len (fun k => gen_wide n (rng k)) = Done al) /\
  (forall al, (exists rng, random_unnormalized len (fun k => gen_wide n (rng k)) = Done al) <->
     length al = len /\ forall w, In w al -> (w_depth w <= n)%N).
Proof.
  intros n len.
  assert (G : forall c, gen_wide n c = Done (mkWide (snd c mod (n + 1)) (mkMove (fst (fst c)) (snd (fst c))))).
  { intros [[f a] d]. cbn [fst snd gen_wide]. unfold wide_sample, wide_new.
    pose proof (N.mod_lt d (n + 1) ltac:(lia)). destruct (N.ltb_spec n (d mod (n + 1))); [lia|reflexivity]. }
  assert (R : forall rng, random_unnormalized len (fun k => gen_wide n (rng k)) =
    Done (map (fun k => mkWide (snd (rng k) mod (n + 1)) (mkMove (fst (fst (rng k))) (snd (fst (rng k))))) (seq 0 len))).
  { intros rng. rewrite (unnormalized_ok _ (fun k => mkWide (snd (rng k) mod (n + 1)) (mkMove (fst (fst (rng k))) (snd (fst (rng k)))))); [reflexivity|].
    intros k. apply G. }
  split; [intros rng; rewrite R; eauto|]. intros al. split.
  - intros [rng E]. rewrite R in E. injection E as <-. split; [rewrite map_length, seq_length; reflexivity|].
    intros w I. apply in_map_iff in I as (k & <- & _). cbn [w_depth]. pose proof (N.mod_lt (snd (rng k)) (n + 1) ltac:(lia)). lia.
  - intros [<- D]. set (d := mkWide 0 (mkMove fR Single)).
    exists (fun k => (mv_face (w_move (nth k al d)), mv_amount (w_move (nth k al d)), w_depth (nth k al d))). rewrite R. cbn [fst snd].
    f_equal. rewrite <- (map_nth_seq d al) at 2. apply map_ext_in. intros k K. apply in_seq in K.
    rewrite N.mod_small; [destruct (nth k al d) as [e [f a]]; reflexivity|]. specialize (D (nth k al d) ltac:(apply nth_In; lia)). lia.
Qed.

(** Each alg comes from exactly one sequence of choices, so a fair generator gives them all
    equally often. For wide moves a choice is a face, an amount and a depth from 0 to [n]. *)
Theorem C59_moves_each_once : forall al : list AxisMove,
  exists js : list (Face * Amount), length js = length al /\
    forall js' : list (Face * Amount), length js' = length al ->
    (random_unnormalized (length al) (fun k => Done (mkMove (fst (nth k js' (fR, Single))) (snd (nth k js' (fR, Single))))) = Done al <-> js' = js).
Proof.
  intros al. exists (map (fun m => (mv_face m, mv_amount m)) al). split; [apply map_length|]. intros js' L.
  rewrite (unnormalized_ok _ (fun k => mkMove (fst (nth k js' (fR, Single))) (snd (nth k js' (fR, Single))))) by reflexivity.
  rewrite <- L. rewrite <- (map_map (fun k => nth k js' (fR, Single)) (fun c => mkMove (fst c) (snd c))), map_nth_seq. split.
  - intros E. injection E as <-. rewrite map_map. rewrite <- (map_id js') at 1. apply map_ext. intros [f a]. reflexivity.
  - intros ->. rewrite map_map. f_equal. rewrite <- (map_id al) at 2. apply map_ext. intros [f a]. reflexivity.
Qed.
Theorem C59_wide_moves_each_once : forall (n : N) (al : list WideAxisMove), (forall w, In w al -> (w_depth w <= n)%N) ->
  exists js : list (Face * Amount * N), length js = length al /\
    forall js' : list (Face * Amount * N), length js' = length al -> (forall c, In c js' -> (snd c <= n)%N) ->
    (random_unnormalized (length al) (fun k => gen_wide n (nth k js' (fR, Single, 0%N))) = Done al <-> js' = js).
Proof.
  intros n al D. exists (map (fun w => (mv_face (w_move w), mv_amount (w_move w), w_depth w)) al). split; [apply map_length|]. intros js' L B.
  set (mk := fun c : Face * Amount * N => mkWide (snd c mod (n + 1)) (mkMove (fst (fst c)) (snd (fst c)))).
  rewrite (unnormalized_ok _ (fun k => mk (nth k js' (fR, Single, 0%N)))).
  2: { intros k. destruct (nth k js' (fR, Single, 0%N)) as [[f a] d]. unfold mk. cbn [fst snd gen_wide]. unfold wide_sample, wide_new.
       pose proof (N.mod_lt d (n + 1) ltac:(lia)). destruct (N.ltb_spec n (d mod (n + 1))); [lia|reflexivity]. }
  rewrite <- L, <- (map_map (fun k => nth k js' (fR, Single, 0%N)) mk), map_nth_seq. split.
  - intros E. injection E as <-. rewrite map_map. rewrite <- (map_id js') at 1. apply map_ext_in. intros [[f a] d] I. specialize (B _ I). cbn [snd] in B.
    unfold mk. cbn [w_move w_depth mv_face mv_amount fst snd]. rewrite N.mod_small by lia. reflexivity.
  - intros ->. rewrite map_map. f_equal. rewrite <- (map_id al) at 2. apply map_ext_in. intros [d [f a]] I. specialize (D _ I). cbn [w_depth] in D.
    unfold mk. cbn [w_move w_depth mv_face mv_amount fst snd]. rewrite N.mod_small by lia. reflexivity.
Qed.

Example C59_example :
  random_unnormalized 2 (fun k => gen_wide 2 match k with 0 => (fR, Single, 5%N) | _ => (fU, Double, 3%N) end)
    = Done [mkWide 2 (mkMove fR Single); mkWide 0 (mkMove fU Double)].
Proof. reflexivity. Qed.

(** * C60: the edge between two faces *)

(** [Edge::try_from] never panics. It fails exactly if the faces are parallel; otherwise the
    result is not flipped, its [faces()] are the two given ones in some order, and it is at
    the place where the two faces meet. *)
Theorem C60_edge_between : forall a b : Face,
  (face_axis a = face_axis b -> edge_try_from a b = Done (Err (SameAxis (face_axis a)))) /\
  (face_axis a <> face_axis b -> exists e, edge_try_from a b = Done (Ok e) /\ e_oriented e = true /\
     (edge_faces e = (a, b) \/ edge_faces e = (b, a)) /\
     to_v3 (edge_coordinates (edge_position e)) = v3_add (normal a) (normal b)).
Proof.
  intros [[] []] [[] []]; (split; intros H; cbn in H; [first [discriminate H|reflexivity]|]);
    try congruence; (eexists; split; [reflexivity|]; split; [reflexivity|]; split; [first [left; reflexivity|right; reflexivity]|reflexivity]).
Qed.
(** The order of the faces does not matter, and every edge that is not flipped is obtained. *)
Theorem C60_symmetric : forall a b : Face, face_axis a <> face_axis b -> edge_try_from a b = edge_try_from b a.
Proof. intros [[] []] [[] []] H; cbn in H; try congruence; reflexivity. Qed.
Theorem C60_all_edges : forall e : Edge, e_oriented e = true ->
  edge_try_from (fst (edge_faces e)) (snd (edge_faces e)) = Done (Ok e).
Proof. intros [[] [[] []] []] H; try discriminate; reflexivity. Qed.

Example C60_example : edge_try_from fU fR = Done (Ok (mkEdge AZ (mkVec2 Positive Positive) true)) /\ edge_try_from fU fD = Done (Err (SameAxis AY)).
Proof. split; reflexivity. Qed.
Print Assumptions C58_constructors.
Print Assumptions C58_widen_alg.
Print Assumptions C58_invariant.
Print Assumptions C58_to_extended.
Print Assumptions C59_moves.
Print Assumptions C59_wide_moves.
Print Assumptions C59_moves_each_once.
Print Assumptions C59_wide_moves_each_once.
Print Assumptions C60_edge_between.
Print Assumptions C60_symmetric.
Print Assumptions C60_all_edges.

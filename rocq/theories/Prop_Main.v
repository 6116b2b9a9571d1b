(** C69, C70, C71: the command line program. *)

From Coq Require Import List Bool Arith NArith ZArith Lia ZifyBool ZifyN ZifyNat String.
From Verif Require Import Model_Base Model_Space Model_Moves Model_Pieces Model_PieceSet Model_Cubes
  Model_Orientable Model_Parser Model_Visual Model_Print Model_Cache Model_Mus Model_Disk Model_Playground Model_Main
  Spec_Moves Spec_Geometry Spec_Stickers Spec_BigCube Spec_Orientable Spec_Notation Spec_Print Spec_Sets
  Proof_Moves Proof_Sets Prop_Moves Prop_Parser Prop_BigCube Prop_Orientable Prop_Playground Prop_Print Prop_Cache Prop_Disk.
Import ListNotations.
Local Open Scope list_scope.
Open Scope nat_scope.

(** ** C69: does a line crash the playground?

    The claim: whatever is typed, the program goes on until the end of the input. *)
Definition C69_claim : Prop := forall isn input, number_class isn ->
  exists o, snd (playground_3x3 isn input) = EndOfInput o.

(** A run of extended moves panics exactly if one of them does, and that does not depend on
    the cube. *)
Definition crashing (m : ExtendedAxisMove) : Prop := exists w, m = XWide w /\ (w_depth w = 1 \/ w_depth w = 2)%N.

Lemma crash_one (o : Orientable Size3) m : ext_apply Size3 o m = Panic <-> crashing m.
Proof.
  rewrite C47_panic_exactly. change (cube_size_N Size3 / 2)%N with 1%N. change (cube_size_N Size3 - 1)%N with 2%N.
  split; intros (w & -> & H); exists w; (split; [reflexivity|]); lia.
Qed.
Lemma crash_run al : forall o : Orientable Size3, ext_run Size3 o al = Panic <-> exists m, In m al /\ crashing m.
Proof.
  induction al as [|m al IH]; intros o; [split; [discriminate|intros (m & [] & _)]|]. cbn [ext_run].
  destruct (ext_apply Size3 o m) as [o'|] eqn:E.
  - rewrite (IH o'). split; intros (m' & H & C); [exists m'; split; [right; exact H|exact C]|].
    destruct H as [<-|H]; [|exists m'; auto]. apply (crash_one o) in C. congruence.
  - split; [|reflexivity]. intros _. exists m. split; [left; reflexivity|]. apply (crash_one o), E.
Qed.

(** Exactly: the program is crashed by the lines that are algorithms with a wide move
    written without a number or with the number 1 or 2 ([Rw], [1Rw], [2Rw]); nothing else that
    can be typed, and no failed read, crashes it. *)
Theorem C69_exact_partial : forall isn input al, number_class isn -> entered input al ->
  (snd (playground_3x3 isn input) = PanicInMove <-> exists m, In m al /\ crashing m) /\
  ((forall m, In m al -> ~ crashing m) -> exists o, snd (playground_3x3 isn input) = EndOfInput o).
Proof.
  intros isn input al N E. destruct (C49_session isn input al N E) as [A B]. split; [rewrite B; apply crash_run|].
  intros H. destruct (ext_run Size3 (orientable_solved Size3) al) as [o|] eqn:R; [exists o; apply A; reflexivity|].
  apply crash_run in R. destruct R as (m & I & C). destruct (H m I C).
Qed.
(** In particular such a line crashes the program whatever was typed before it, and nothing
    is shown for it. *)
Theorem C69_crash_partial : forall isn o line al rest, number_class isn -> line_notation line al ->
  (exists m, In m al /\ crashing m) -> play isn o (ReadLine line :: rest) = ([], PanicInMove).
Proof.
  intros isn o line al rest N L C. apply (proj2 (C49_good_line isn o line al N L)). apply crash_run, C.
Qed.
Theorem C69_refuted : ~ C69_claim.
Proof.
  intros H. assert (N : number_class ascii_number) by apply C49_example.
  destruct (H ascii_number [ReadLine (lit "Rw")] N) as (o & E). vm_compute in E. discriminate E.
Qed.
(** Not even the end of the input is an orderly end: the run never comes back. *)
Theorem C69_never_returns_partial : forall isn args fe fc d input, playground args = true ->
  mn_end (run_main isn args fe fc d input) <> MainReturns.
Proof.
  intros isn args fe fc d input P. unfold run_main, main_playground. rewrite P.
  destruct (playground_3x3 isn input) as [ev stop]. destruct (build_mus_cache args); [|discriminate].
  cbv zeta. destruct (rn_result (cache_init fe fc d)) as [[ca|e]|]; discriminate.
Qed.
Example C69_example :
  (exists al, line_notation (lit "R U' x M") al /\ forall m, In m al -> ~ crashing m) /\
  (exists al, line_notation (lit "R 2Rw2") al /\ exists m, In m al /\ crashing m) /\
  (exists al, line_notation (lit "Lw") al /\ exists m, In m al /\ crashing m).
Proof.
  assert (N : number_class ascii_number) by apply C49_example.
  split; [|split].
  - eexists. split; [apply (parse_line ascii_number _ _ N); vm_compute; reflexivity|].
    intros m H (w & -> & _). repeat (destruct H as [H|H]; [discriminate H|]). destruct H.
  - eexists. split; [apply (parse_line ascii_number _ _ N); vm_compute; reflexivity|].
    eexists. split; [right; left; reflexivity|]. eexists. split; [reflexivity|]. right. reflexivity.
  - eexists. split; [apply (parse_line ascii_number _ _ N); vm_compute; reflexivity|].
    eexists. split; [left; reflexivity|]. eexists. split; [reflexivity|]. left. reflexivity.
Qed.

(** ** C70: what the playground shows

    The [k]-th read is answered by the [k+1]-st event.  After a line that is an algorithm it
    is the cube reached by everything entered so far. *)
Lemma play_app isn input rest : forall o ev o', play isn o input = (ev, EndOfInput o') ->
  play isn o (input ++ rest) = (ev ++ fst (play isn o' rest), snd (play isn o' rest)) /\ List.length ev = List.length input.
Proof.
  induction input as [|r input IH]; intros o ev o'; cbn [play app].
  - intros [= <- <-]. destruct (play isn o rest). auto.
  - destruct (playground_loop isn o (Some r)) as [[o1 ok]|]; [|discriminate].
    destruct (play isn o1 input) as [ev1 stop] eqn:E. intros [= <- ->]. destruct (IH o1 ev1 o' E) as [-> L].
    cbn [app List.length]. rewrite L. auto.
Qed.
Theorem C70_shown : forall isn before line after al al' o, number_class isn -> entered before al -> line_notation line al' ->
  ext_run Size3 (orientable_solved Size3) (al ++ al') = Done o ->
  nth_error (fst (playground_3x3 isn (before ++ ReadLine line :: after))) (S (List.length before)) = Some (Shown (ob_cube o)).
Proof.
  intros isn before line after al al' o N E L R. rewrite ext_run_app in R.
  destruct (ext_run Size3 (orientable_solved Size3) al) as [o1|] eqn:R1; [|discriminate].
  pose proof (proj2 (proj1 (C49_session isn before al N E) o1) R1) as S1. unfold playground_3x3 in *.
  change (orientable_new (cube_solved Size3)) with (orientable_solved Size3) in *. remember (orientable_solved Size3) as o0 eqn:H0. clear H0.
  destruct (play isn o0 before) as [ev stop] eqn:P. cbn [snd] in S1. subst stop.
  destruct (play_app isn before (ReadLine line :: after) _ _ _ P) as [-> LE].
  destruct (C49_good_line isn o1 line al' N L) as [G _]. rewrite (proj2 (G o R)). cbn [fst snd nth_error].
  rewrite nth_error_app2 by lia. rewrite <- LE, Nat.sub_diag. reflexivity.
Qed.

(** What is shown is the net of the base cube, drawn without a panic. *)
Lemma legal_well_formed c : legal c -> cube_well_formed Size3 c.
Proof.
  intros [al ->]. assert (G : forall c, cube_well_formed Size3 c -> cube_well_formed Size3 (apply_alg (cube_apply Size3) c al)).
  { unfold apply_alg. induction al as [|m al IH]; intros c H; [exact H|]. cbn [fold_left]. apply IH, cube_well_formed_move, H. }
  apply G, cube_well_formed_solved.
Qed.
Lemma shown_display c : legal c -> exists out, event_screen (Shown c) = Done out.
Proof.
  intros L. apply legal_well_formed in L. cbn [event_screen]. unfold cube3_display.
  destruct (C56_picture default_scheme c eq_refl L) as (out & E & _). exists out. exact E.
Qed.
Theorem C70_screen : forall isn input e, In e (fst (playground_3x3 isn input)) -> exists out, event_screen e = Done out.
Proof.
  intros isn input e H. destruct e as [c|]; [|exists []; reflexivity]. apply shown_display, (C49_shown_legal isn input c H).
Qed.

(** The claim: the user sees the cube as they hold it, so that two sessions that end with the
    same picture end with cubes that look the same.  ([last_screen]: the last picture.) *)
Definition last_screen (isn : N -> bool) (input : list Read) (out : list Ink) : Prop :=
  exists before c after, fst (playground_3x3 isn input) = before ++ Shown c :: after /\
    (forall e, In e after -> exists x, e = ErrorShown x) /\ event_screen (Shown c) = Done out.
Definition C70_claim : Prop := forall isn i1 i2 o1 o2 out, number_class isn ->
  snd (playground_3x3 isn i1) = EndOfInput o1 -> snd (playground_3x3 isn i2) = EndOfInput o2 ->
  last_screen isn i1 out -> last_screen isn i2 out ->
  forall s, In s (view Size3 o1) <-> In s (view Size3 o2).

(** The last picture is that of the base cube at the end. *)
Lemma last_shown isn input : forall o ev o', play isn o input = (ev, EndOfInput o') ->
  forall before c after, Shown (ob_cube o) :: ev = before ++ Shown c :: after -> (forall e, In e after -> exists x, e = ErrorShown x) -> c = ob_cube o'.
Proof.
  induction input as [|r input IH]; intros o ev o'; cbn [play].
  - intros [= <- <-] before c after E _. destruct before as [|b before]; [injection E as E _; symmetry; exact E|].
    injection E as _ E. destruct before; discriminate E.
  - destruct (playground_loop isn o (Some r)) as [[o1 ok]|] eqn:L; [|discriminate].
    destruct (play isn o1 input) as [ev1 stop] eqn:P. intros [= <- ->] before c after E A.
    assert (K : forall x, ok = Some x -> o1 = o).
    { intros x ->. destruct r as [t|]; cbn [playground_loop] in L; [|injection L as <- _; reflexivity].
      destruct (parse_alg (parse_extended isn) t) as [[al|e]|]; cbn [bind_o] in L; [| |discriminate L]; [|injection L as <- _; reflexivity].
      destruct (apply_extended o al); discriminate L. }
    destruct ok as [x|]; cycle 1.
    + destruct before as [|b before]; [injection E as _ E; subst after; destruct (A _ (or_introl eq_refl)) as [x X]; discriminate X|].
      injection E as _ E. exact (IH _ _ _ P before c after E A).
    + rewrite (K x eq_refl) in P. destruct before as [|b before].
      * injection E as E1 E2. subst after.
        apply (IH o ev1 o' P [] c ev1); [rewrite E1; reflexivity|]. intros e H. apply A. right. exact H.
      * injection E as _ E. destruct before as [|b' before]; [discriminate E|]. injection E as _ E.
        apply (IH o ev1 o' P (Shown (ob_cube o) :: before) c after); [rewrite E; reflexivity|exact A].
Qed.
Lemma last_screen_cube isn input o out : snd (playground_3x3 isn input) = EndOfInput o -> last_screen isn input out ->
  cube3_display (ob_cube o) = Done out /\ legal (ob_cube o).
Proof.
  intros S (before & c & after & E & A & D).
  assert (L : legal c) by (apply (C49_shown_legal isn input); rewrite E; apply in_or_app; right; left; reflexivity).
  unfold playground_3x3 in *. destruct (play isn (orientable_new (cube_solved Size3)) input) as [ev stop] eqn:P.
  cbn [fst snd] in *. subst stop. rewrite <- (last_shown isn input _ ev o P before c after E A). split; [exact D|exact L].
Qed.
Lemma last_screen_exists isn input o : snd (playground_3x3 isn input) = EndOfInput o ->
  exists out, last_screen isn input out.
Proof.
  intros _. pose proof (C49_shown_legal isn input) as L. unfold last_screen.
  assert (H : exists c ev, fst (playground_3x3 isn input) = Shown c :: ev).
  { unfold playground_3x3. destruct (play isn _ input) as [ev stop]. eexists. eexists. reflexivity. }
  destruct H as (c & ev & H). rewrite H in *.
  assert (X : exists before c' after, Shown c :: ev = before ++ Shown c' :: after /\ (forall e, In e after -> exists x, e = ErrorShown x)).
  { clear. induction ev as [|e ev IH] using rev_ind; [exists [], c, []; split; [reflexivity|intros e []]|].
    destruct e as [c'|x]; [exists (Shown c :: ev), c', []; split; [reflexivity|intros e []]|].
    destruct IH as (b & c' & a & E & A). exists b, c', (a ++ [ErrorShown x]). split.
    - change (Shown c :: ev ++ [ErrorShown x]) with ((Shown c :: ev) ++ [ErrorShown x]). rewrite E, <- app_assoc. reflexivity.
    - intros e I. apply in_app_or in I. destruct I as [I|[<-|[]]]; [exact (A _ I)|exists x; reflexivity]. }
  destruct X as (b & c' & a & E & A). destruct (shown_display c') as (out & D).
  { apply L. rewrite E. apply in_or_app. right. left. reflexivity. }
  exists out, b, c', a. split; [exact E|]. split; [exact A|exact D].
Qed.

(** The picture tells the pieces: two sessions end with the same picture exactly if they end
    with the same base cube. *)
Theorem C70_same_picture_partial : forall isn i1 i2 o1 o2 out1 out2,
  snd (playground_3x3 isn i1) = EndOfInput o1 -> snd (playground_3x3 isn i2) = EndOfInput o2 ->
  last_screen isn i1 out1 -> last_screen isn i2 out2 ->
  (out1 = out2 <-> ob_cube o1 = ob_cube o2).
Proof.
  intros isn i1 i2 o1 o2 out1 out2 S1 S2 L1 L2. destruct (last_screen_cube _ _ _ _ S1 L1) as [D1 W1].
  destruct (last_screen_cube _ _ _ _ S2 L2) as [D2 W2]. split.
  - intros <-. apply (C56_injective default_scheme); [apply C56_default_scheme|apply legal_well_formed, W1|apply legal_well_formed, W2|].
    change (cube3_display (ob_cube o1) = cube3_display (ob_cube o2)). congruence.
  - intros E. rewrite E, D2 in D1. injection D1 as <-. reflexivity.
Qed.
(** So the claim holds for sessions that leave the cube held alike, for example those in
    which nothing but face moves is entered. *)
Theorem C70_held_alike_partial : forall isn i1 i2 o1 o2 out,
  snd (playground_3x3 isn i1) = EndOfInput o1 -> snd (playground_3x3 isn i2) = EndOfInput o2 ->
  last_screen isn i1 out -> last_screen isn i2 out -> ob_ori o1 = ob_ori o2 ->
  view Size3 o1 = view Size3 o2.
Proof.
  intros isn i1 i2 o1 o2 out S1 S2 L1 L2 O. pose proof (proj1 (C70_same_picture_partial _ _ _ _ _ _ _ S1 S2 L1 L2) eq_refl) as E.
  unfold view. rewrite E, O. reflexivity.
Qed.
Lemma faces_keep al : Forall (fun m => exists f, m = XRegular f) al ->
  forall o o' : Orientable Size3, ext_run Size3 o al = Done o' -> ob_ori o' = ob_ori o.
Proof.
  induction 1 as [|m al [f ->] _ IH]; intros o o'; cbn [ext_run]; [intros [= <-]; reflexivity|].
  cbn [ext_apply]. unfold orientable_apply. destruct (or_rotations (ob_ori o)) as [rs|]; [|discriminate].
  cbn [map_o bind_o]. intros H. apply IH in H. exact H.
Qed.
Theorem C70_face_moves_partial : forall isn i1 i2 al1 al2 o1 o2 out, number_class isn ->
  entered i1 al1 -> entered i2 al2 -> Forall (fun m => exists f, m = XRegular f) al1 -> Forall (fun m => exists f, m = XRegular f) al2 ->
  snd (playground_3x3 isn i1) = EndOfInput o1 -> snd (playground_3x3 isn i2) = EndOfInput o2 ->
  last_screen isn i1 out -> last_screen isn i2 out -> view Size3 o1 = view Size3 o2.
Proof.
  intros isn i1 i2 al1 al2 o1 o2 out N E1 E2 F1 F2 S1 S2 L1 L2. apply (C70_held_alike_partial isn i1 i2 o1 o2 out); auto.
  apply (C49_session isn i1 al1 N E1) in S1. apply (C49_session isn i2 al2 N E2) in S2.
  rewrite (faces_keep al1 F1 _ _ S1), (faces_keep al2 F2 _ _ S2). reflexivity.
Qed.
(** A line of rotations is answered with the picture that was there before. *)
Lemma rotations_keep al : Forall (fun m => exists r, m = XRotation r) al ->
  forall o : Orientable Size3, exists o', ext_run Size3 o al = Done o' /\ ob_cube o' = ob_cube o.
Proof.
  induction 1 as [|m al [r ->] _ IH]; intros o; cbn [ext_run]; [exists o; auto|].
  cbn [ext_apply]. unfold orientable_rotate. rewrite or_rotate_o_done. cbn [map_o bind_o].
  destruct (IH (mkOrientable (ob_cube o) (or_rotate (ob_ori o) r))) as (o' & R & E). exists o'. split; [exact R|exact E].
Qed.
Theorem C70_rotations_unseen : forall isn o line al, number_class isn -> line_notation line al ->
  Forall (fun m => exists r, m = XRotation r) al ->
  exists o', playground_loop isn o (Some (ReadLine line)) = Done (o', None) /\
    event_screen (Shown (ob_cube o')) = event_screen (Shown (ob_cube o)).
Proof.
  intros isn o line al N L F. destruct (rotations_keep al F o) as (o' & R & E). exists o'. split; [|rewrite E; reflexivity].
  apply (proj1 (C49_good_line isn o line al N L)), R.
Qed.
Theorem C70_refuted : ~ C70_claim.
Proof.
  intros H. assert (N : number_class ascii_number) by apply C49_example.
  set (i2 := [ReadLine (lit "x")]).
  assert (S1 : exists o1, snd (playground_3x3 ascii_number []) = EndOfInput o1) by (eexists; reflexivity).
  assert (S2 : exists o2, snd (playground_3x3 ascii_number i2) = EndOfInput o2) by (eexists; vm_compute; reflexivity).
  destruct S1 as (o1 & S1), S2 as (o2 & S2).
  destruct (last_screen_exists _ _ _ S1) as (out1 & L1). destruct (last_screen_exists _ _ _ S2) as (out2 & L2).
  assert (E : out1 = out2).
  { apply (C70_same_picture_partial _ _ _ _ _ _ _ S1 S2 L1 L2). injection S1 as <-. vm_compute in S2. injection S2 as <-. reflexivity. }
  subst out2. specialize (H _ _ _ _ _ _ N S1 S2 L1 L2).
  injection S1 as <-. vm_compute in S2. injection S2 as <-.
  specialize (H (mkSticker (mkV3 0 2 0) (mkV3 0 1 0) fU)). assert (I : In (mkSticker (mkV3 0 2 0) (mkV3 0 1 0) fU) (view Size3 (orientable_new (cube_solved Size3)))).
  { vm_compute. repeat (first [left; reflexivity|right]). }
  apply H in I. vm_compute in I. repeat (destruct I as [I|I]; [discriminate I|]). exact I.
Qed.

(** ** C71: the program as a whole *)

(** What a successful [load_or_build_partial] returned is in the file afterwards. *)
Lemma write_result fault d p bytes u : rn_result (fs_write fault d p bytes) = Done (Ok u) -> fault = NoFault /\ dk_dir d = true.
Proof. unfold fs_write. destruct (dk_dir d), fault; cbn [rn_result]; intros E; try discriminate E; auto. Qed.
Lemma partial_kept p table ft d bytes : right_table p table ->
  rn_result (load_or_build_partial p (path_total p) (Done table) ft d) = Done (Ok bytes) ->
  let d' := final_disk d (load_or_build_partial p (path_total p) (Done table) ft d) in
  file d' p = Some bytes /\ N.of_nat (List.length bytes) = path_total p /\ forall p', p' <> p -> file d' p' = file d p'.
Proof.
  intros R E. cbv zeta. unfold load_or_build_partial in *. destruct (load_partial p (path_total p) ft d) as [[b|[]]|] eqn:L; try discriminate E.
  - injection E as <-. unfold load_partial, fs_read in L. destruct (ft_read ft); [discriminate L|]. destruct (file d p) as [b'|] eqn:F; [|discriminate L].
    unfold correct_cache_size in L. destruct (N.eqb_spec (N.of_nat (List.length b')) (path_total p)) as [X|X]; [|discriminate L]. injection L as <-.
    cbn [final_disk rn_trace]. unfold final_disk. cbn [rn_trace last]. auto.
  - unfold build_partial in *. set (w := write_partial p (path_total p) ft d table) in *.
    destruct (rn_result w) as [[u|e]|] eqn:W; [| |]; [|unfold run_bind in E; rewrite W in E; discriminate E|unfold run_bind in E; rewrite W in E; discriminate E].
    destruct (run_bind_ok d w (fun _ _ => mkRun [] (Done (Ok table))) u W) as [B1 B2]. rewrite B1 in E. injection E as <-. rewrite B2.
    change (final_disk (final_disk d w) (mkRun [] (Done (Ok table)))) with (final_disk d w).
    cut (file (final_disk d w) p = Some table /\ forall p', p' <> p -> file (final_disk d w) p' = file d p').
    { intros [A B]. split; [exact A|]. split; [exact (right_length p table R)|exact B]. }
    subst w. clear B1 B2 L. unfold write_partial, correct_cache_size in *. rewrite (right_length p table R), N.eqb_refl in *. cbv zeta in *.
    destruct (rn_result (fs_write (ft_write ft) d p table)) as [[v|[]]|] eqn:V; try (rewrite V in W; discriminate W).
    + destruct (write_result _ _ _ _ _ V) as [-> D]. destruct (write_ok d p table D) as [_ ->]. 
      split; [rewrite file_with, D; destruct p; reflexivity|]. intros p' NE. rewrite file_with, D. destruct p, p'; try reflexivity; destruct (NE eq_refl).
    + assert (D : dk_dir d = false).
      { unfold fs_write in V. destruct (dk_dir d); [|reflexivity]. destruct (ft_write ft); discriminate V. }
      unfold fs_create_dir in *. rewrite D in *. destruct (ft_mkdir ft); [discriminate W|]. set (d0 := mkDisk true None None) in *.
      destruct (run_bind_ok d (mkRun [d0] (Done (Ok tt))) (fun _ d => fs_write (ft_write_again ft) d p table) tt eq_refl) as [B1 B2].
      rewrite B2. rewrite B1 in W. change (final_disk d (mkRun [d0] (Done (Ok tt)))) with d0 in *.
      destruct (write_result _ _ _ _ _ W) as [-> _]. destruct (write_ok d0 p table eq_refl) as [_ ->].
      split; [rewrite file_with; destruct p; reflexivity|]. intros p' NE. rewrite file_with.
      assert (Fn : file d p' = None) by (unfold file; rewrite D; reflexivity). rewrite Fn. destruct p, p'; try reflexivity; destruct (NE eq_refl).
Qed.

Lemma init_kept fe fc d ca : rn_result (cache_init fe fc d) = Done (Ok ca) ->
  cache_load no_faults no_faults (final_disk d (cache_init fe fc d)) = Done (Ok ca).
Proof.
  destruct (right_ex EdgesPath) as (te & Re). destruct (right_ex CornersPath) as (tc & Rc).
  unfold cache_init. cbn [rn_result]. cbv zeta. unfold final_disk at 1. cbn [rn_trace]. fold (final_disk d (load_or_build fe fc d)).
  rewrite (load_or_build_eq fe fc d te tc Re Rc).
  set (r1 := load_or_build_partial EdgesPath (path_total EdgesPath) (Done te) fe d).
  destruct (rn_result r1) as [[e|x]|] eqn:E1; [|unfold run_bind; rewrite E1; discriminate|unfold run_bind; rewrite E1; discriminate].
  destruct (run_bind_ok d r1 (fun edges d => run_bind d (load_or_build_partial CornersPath (path_total CornersPath) (Done tc) fc d)
      (fun corners _ => mkRun [] (Done (Ok (mkCache edges corners))))) e E1) as [B1 B2]. rewrite B1, B2. clear B1 B2.
  destruct (partial_kept EdgesPath te fe d e Re E1) as (F1 & L1 & _). fold r1 in F1. set (d1 := final_disk d r1) in *.
  set (r2 := load_or_build_partial CornersPath (path_total CornersPath) (Done tc) fc d1).
  destruct (rn_result r2) as [[c|x]|] eqn:E2; [|unfold run_bind; rewrite E2; discriminate|unfold run_bind; rewrite E2; discriminate].
  destruct (run_bind_ok d1 r2 (fun corners _ => mkRun [] (Done (Ok (mkCache e corners)))) c E2) as [B1 B2]. rewrite B1, B2. cbn [rn_result].
  intros [= <-]. destruct (partial_kept CornersPath tc fc d1 c Rc E2) as (F2 & L2 & K). fold r2 in F2, K. set (d2 := final_disk d1 r2) in *.
  change (final_disk d2 (mkRun [] (Done (Ok (mkCache e c))))) with d2. specialize (K EdgesPath ltac:(discriminate)). rewrite F1 in K.
  unfold cache_load, load_partial, fs_read. cbn [ft_read no_faults]. rewrite K, F2.
  change edges_total_set_size with (path_total EdgesPath). change corners_total_set_size with (path_total CornersPath).
  unfold correct_cache_size. rewrite L1, L2, !N.eqb_refl. reflexivity.
Qed.

(** The disk after the program has ended. *)
Definition disk_after (d : Disk) (r : MainRun) : Disk := last (mn_trace r) d.

(** A run with [--build-mus-cache] that comes to its end, or to the playground, has left a
    cache on the disk that every later start can load, and a complete one if nothing else
    ever wrote to the directory; if there was any error the program says so by a panic. *)
Theorem C71_cache_is_built : forall isn args fe fc d input, build_mus_cache args = true ->
  mn_end (run_main isn args fe fc d input) <> CachePanics ->
  exists ca, cache_load no_faults no_faults (disk_after d (run_main isn args fe fc d input)) = Done (Ok ca) /\
    (history d -> complete_cache ca).
Proof.
  intros isn args fe fc d input B. unfold run_main. rewrite B. cbv zeta.
  destruct (rn_result (cache_init fe fc d)) as [[ca|e]|] eqn:E; [|intros H; destruct (H eq_refl)|intros H; destruct (H eq_refl)].
  intros _. exists ca. destruct (main_playground isn args input) as [ev en]. cbn [mn_trace disk_after]. split.
  - unfold disk_after. cbn [mn_trace]. exact (init_kept fe fc d ca E).
  - intros H. exact (C38_init_never_partial d fe fc ca H E).
Qed.
(** Without faults and without damaged files it does come to its end. *)
Theorem C71_builds : forall isn d input, history d -> ~ corrupt d EdgesPath -> ~ corrupt d CornersPath ->
  mn_end (run_main isn (mkArgs true false) no_faults no_faults d input) = MainReturns.
Proof.
  intros isn d input H N1 N2. destruct (C38_recovery_partial d H N1 N2) as (ca & E & _).
  unfold run_main. cbn [build_mus_cache]. cbv zeta. rewrite E. reflexivity.
Qed.
(** The playground does not touch the disk, and is not influenced by it or by the other
    option, except that it does not start if the cache cannot be built. *)
Theorem C71_playground_apart : forall isn args fe fc d input,
  (build_mus_cache args = false -> mn_trace (run_main isn args fe fc d input) = []) /\
  (build_mus_cache args = true -> mn_trace (run_main isn args fe fc d input) = rn_trace (cache_init fe fc d)) /\
  (playground args = true -> mn_end (run_main isn args fe fc d input) <> CachePanics ->
     mn_shown (run_main isn args fe fc d input) = fst (playground_3x3 isn input) /\
     mn_end (run_main isn args fe fc d input) = PlaygroundStops (snd (playground_3x3 isn input))) /\
  (playground args = false \/ mn_end (run_main isn args fe fc d input) = CachePanics -> mn_shown (run_main isn args fe fc d input) = []) /\
  (mn_end (run_main isn args fe fc d input) = MainReturns -> playground args = false).
Proof.
  intros isn args fe fc d input. unfold run_main, main_playground. destruct args as [b p]. cbn [build_mus_cache playground]. cbv zeta.
  destruct (playground_3x3 isn input) as [ev stop]. cbn [fst snd].
  destruct b; [destruct (rn_result (cache_init fe fc d)) as [[ca|e]|]|]; destruct p; cbn [mn_trace mn_shown mn_end];
    (split; [congruence|]); (split; [congruence|]); (split; [intros; split; congruence|]); (split; [intros [H|H]; congruence|]); congruence.
Qed.
(** Nothing asked, nothing done. *)
Theorem C71_nothing_asked : forall isn fe fc d input,
  run_main isn (mkArgs false false) fe fc d input = mkMain [] [] MainReturns.
Proof. reflexivity. Qed.

Example C71_example : history empty_disk /\ ~ corrupt empty_disk EdgesPath /\ ~ corrupt empty_disk CornersPath /\
  mn_shown (run_main ascii_number (mkArgs false true) no_faults no_faults empty_disk [ReadLine (lit "R"); ReadError]) =
    [Shown (cube_solved Size3); Shown (cube_apply Size3 (cube_solved Size3) (mkMove fR Single)); ErrorShown NotRead].
Proof.
  split; [constructor|]. split; [intros (b & F & _); discriminate F|]. split; [intros (b & F & _); discriminate F|].
  vm_compute. reflexivity.
Qed.
Example C70_example : exists o out, snd (playground_3x3 ascii_number [ReadLine (lit "R x U")]) = EndOfInput o /\
  last_screen ascii_number [ReadLine (lit "R x U")] out /\ out <> [].
Proof.
  assert (S : exists o, snd (playground_3x3 ascii_number [ReadLine (lit "R x U")]) = EndOfInput o) by (eexists; vm_compute; reflexivity).
  destruct S as (o & S). destruct (last_screen_exists _ _ _ S) as (out & L). exists o, out. split; [exact S|]. split; [exact L|].
  destruct (last_screen_cube _ _ _ _ S L) as [D _]. intros ->. vm_compute in S. injection S as <-. vm_compute in D. discriminate D.
Qed.
Print Assumptions C69_exact_partial.
Print Assumptions C69_crash_partial.
Print Assumptions C69_refuted.
Print Assumptions C69_never_returns_partial.
Print Assumptions C70_shown.
Print Assumptions C70_screen.
Print Assumptions C70_same_picture_partial.
Print Assumptions C70_held_alike_partial.
Print Assumptions C70_face_moves_partial.
Print Assumptions C70_rotations_unseen.
Print Assumptions C70_refuted.
Print Assumptions C71_cache_is_built.
Print Assumptions C71_builds.
Print Assumptions C71_playground_apart.
Print Assumptions C71_nothing_asked.

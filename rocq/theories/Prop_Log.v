(** Properties of the messages about the cache files (C93). *)

From Coq Require Import String List Bool Arith NArith ZArith Lia ZifyBool ZifyN ZifyNat.
From Verif Require Import Model_Base Model_Space Model_Moves Model_Pieces Model_Cubes Model_Parser Model_Mus Model_Cache Model_Disk
  Model_Stats Model_Report Model_Log Spec_Mus Spec_Cache Proof_Cache Prop_Cache Prop_Disk Prop_Stats Prop_Report.
Import ListNotations.
Local Open Scope list_scope.
Local Open Scope nat_scope.
#[local] Opaque build_table talking_build.

(* ------------------------------------------------------------------ *)
(** * C93 The messages about the cache files tell the truth *)

(** The messages among some events, with the table they are about; and the states of the disk. *)
Definition said (evs : list Event) : list (Path * text) :=
  flat_map (fun e => match e with Says p m => [(p, m)] | Becomes _ => [] end) evs.
Definition disks (evs : list Event) : list Disk :=
  flat_map (fun e => match e with Says _ _ => [] | Becomes d => [d] end) evs.
(** The last line on the screen. *)
Definition last_said (evs : list Event) : option (Path * text) := last (map Some (said evs)) None.

Definition attempting : text := lit "Attempting to load cache from disk".
Definition loaded : text := lit "Cache has been loaded".
Definition writing : text := lit "Writing cache to disk".
Definition written : text := lit "Cache has been written".
Definition saved : text := lit "Cache saved to disk.".

Definition faulty_read (fe fc : Faults) (p : Path) : Prop := ft_read (match p with EdgesPath => fe | CornersPath => fc end) = true.
Definition faulty_write (fe fc : Faults) (p : Path) : Prop :=
  let ft := match p with EdgesPath => fe | CornersPath => fc end in
  ft_write ft <> NoFault \/ ft_mkdir ft = true \/ ft_write_again ft <> NoFault.

(** ** Lists of events *)

Lemma said_app a b : said (a ++ b) = said a ++ said b. Proof. apply flat_map_app. Qed.
Lemma disks_app a b : disks (a ++ b) = disks a ++ disks b. Proof. apply flat_map_app. Qed.
Lemma now_app d a b : disk_now d (a ++ b) = disk_now (disk_now d a) b. Proof. apply fold_left_app. Qed.
Lemma said_says p l : said (map (Says p) l) = map (pair p) l.
Proof. induction l as [|m l IH]; [reflexivity|]. cbn. f_equal. exact IH. Qed.
Lemma said_becomes l : said (map Becomes l) = [].
Proof. induction l as [|d l IH]; [reflexivity|exact IH]. Qed.
Lemma disks_says p l : disks (map (Says p) l) = [].
Proof. induction l as [|m l IH]; [reflexivity|exact IH]. Qed.
Lemma disks_becomes l : disks (map Becomes l) = l.
Proof. induction l as [|d l IH]; [reflexivity|]. cbn. f_equal. exact IH. Qed.
Lemma now_says p l : forall d, disk_now d (map (Says p) l) = d.
Proof. induction l as [|m l IH]; intros d; [reflexivity|]. apply (IH d). Qed.
Lemma last_cons {A} (a : A) l d : last (a :: l) d = last l a.
Proof. revert a d. induction l as [|b l IH]; intros a d; [reflexivity|]. change (last (b :: l) d = last (b :: l) a). rewrite !IH. reflexivity. Qed.
Lemma now_last evs : forall d, disk_now d evs = last (disks evs) d.
Proof.
  induction evs as [|[p m|d'] evs IH]; intros d; [reflexivity|exact (IH d)|].
  change (disk_now d' evs = last (d' :: disks evs) d). rewrite last_cons. apply IH.
Qed.
Lemma last_said_app a b : last_said (a ++ b) = match last_said b with Some x => Some x | None => last_said a end.
Proof.
  unfold last_said. rewrite said_app, map_app. destruct (said b) as [|x l] using rev_ind; [rewrite app_nil_r; reflexivity|].
  rewrite map_app, app_assoc. cbn [map]. rewrite !last_last. reflexivity.
Qed.

(** ** The messages do not change what is done *)

Definition same {A} (l : Logged A) (r : Run A) : Prop := disks (lg_events l) = rn_trace r /\ lg_result l = rn_result r.
Lemma same_bind {A B} d (l : Logged A) r (f : A -> Disk -> Logged B) g : same l r -> (forall a d, same (f a d) (g a d)) -> same (log_bind d l f) (run_bind d r g).
Proof.
  intros [T R] H. unfold log_bind, run_bind. rewrite R. destruct (rn_result r) as [[a|e]|]; [|split; [exact T|reflexivity]|split; [exact T|reflexivity]].
  unfold final_disk. rewrite <- T, <- now_last. cbv zeta. destruct (H a (disk_now d (lg_events l))) as [T2 R2]. split; cbn [lg_events rn_trace lg_result rn_result]; [rewrite disks_app, T, T2; reflexivity|exact R2].
Qed.
Lemma same_silent {A} (r : Run A) : same (log_silent r) r.
Proof. split; [apply disks_becomes|reflexivity]. Qed.
Lemma same_says {A} d p m (f : unit -> Disk -> Logged A) r : same (f tt d) r -> same (log_bind d (log_says p m) f) r.
Proof. intros [T R]. split; [exact T|exact R]. Qed.
Lemma same_then_says {A B} d p m (l : Logged A) r (x : A -> B) : same l r -> same (log_bind d l (fun a d => log_bind d (log_says p m) (fun _ _ => mkLogged [] (Done (Ok (x a)))))) (run_bind d r (fun a _ => mkRun [] (Done (Ok (x a))))).
Proof. intros H. apply same_bind; [exact H|]. intros a d1. split; reflexivity. Qed.
Lemma load_same p total ft d : same (load_partial_log p total ft d) (mkRun [] (load_partial p total ft d)).
Proof.
  apply same_says. unfold load_partial. destruct (fs_read (ft_read ft) d p) as [bytes|e]; [|split; reflexivity].
  destruct (correct_cache_size total bytes); split; reflexivity.
Qed.
Lemma then_says d p m (l : Logged unit) r : same l r -> same (log_bind d l (fun _ _ => log_says p m)) r.
Proof.
  intros [T R]. unfold log_bind. destruct (lg_result l) as [[[]|e]|]; cbn [lg_events log_says lg_result];
    (split; [cbn [lg_events]; try rewrite disks_app; rewrite T; try apply app_nil_r; reflexivity|cbn [lg_result]; rewrite <- R; reflexivity]).
Qed.
Lemma write_same p total ft d bytes : same (write_partial_log p total ft d bytes) (write_partial p total ft d bytes).
Proof.
  apply same_says. unfold write_partial. destruct (correct_cache_size total bytes); [|split; reflexivity]. cbv zeta.
  apply then_says. destruct (rn_result (fs_write (ft_write ft) d p bytes)) as [[u|[]]|]; try apply same_silent.
  apply same_bind; [apply same_silent|]. intros _ d1. apply same_silent.
Qed.
Lemma build_same p total msgs table ft d : same (build_partial_log p total (msgs, Done table) ft d) (build_partial p total (Done table) ft d).
Proof.
  unfold build_partial_log, build_partial. cbn [fst snd]. unfold log_bind at 1. cbn [lg_result lg_events].
  rewrite now_says. cbv zeta.
  pose proof (same_then_says d p (lit "Cache saved to disk.") _ _ (fun _ : unit => table) (write_same p total ft d table)) as [T R].
  split; cbn [lg_events lg_result]; [rewrite disks_app, disks_says; exact T|exact R].
Qed.
Lemma partial_same p total msgs table ft d : same (load_or_build_partial_log p total (msgs, Done table) ft d) (load_or_build_partial p total (Done table) ft d).
Proof.
  unfold load_or_build_partial_log, load_or_build_partial. destruct (load_same p total ft d) as [T R]. cbn [rn_trace rn_result] in T, R. rewrite R. cbv zeta.
  rewrite now_last, T. cbn [last].
  destruct (load_partial p total ft d) as [[b|[]]|] eqn:E; try (split; [exact T|cbn [rn_result]; rewrite R, ?E; reflexivity]).
  destruct (build_same p total msgs table ft d) as [T2 R2]. split; cbn [lg_events lg_result]; [rewrite disks_app, T; exact T2|exact R2].
Qed.

Lemma edges_talk clock : (forall i, Z.abs (clock i) <= three_years)%Z ->
  exists msgs table, talking_build half_edges_mus clock (path_text EdgesPath) = (msgs, Done table) /\ right_table EdgesPath table /\
    ~ In loaded msgs /\ ~ In written msgs.
Proof.
  intros H. destruct (C91_half_edge_reports clock (path_text EdgesPath) H) as (table & last & st & B & _ & _ & _ & E & _).
  eexists _, table. split; [exact E|]. split; [exact B|].
  split; intros I; apply in_app_or in I; destruct I as [[I|[]]|I]; try discriminate I; apply in_app_or in I;
    (destruct I as [I|[I|[I|[]]]]; [|discriminate I|discriminate I]); apply in_map_iff in I; destruct I as (d & I & _); discriminate I.
Qed.
Lemma corners_talk clock : (forall i, Z.abs (clock i) <= three_years)%Z ->
  exists msgs table, talking_build corners_mus clock (path_text CornersPath) = (msgs, Done table) /\ right_table CornersPath table /\
    ~ In loaded msgs /\ ~ In written msgs.
Proof.
  intros H. destruct (C91_corner_reports clock (path_text CornersPath) H) as (table & last & st & B & _ & _ & _ & E & _).
  eexists _, table. split; [exact E|]. split; [exact B|].
  split; intros I; apply in_app_or in I; destruct I as [[I|[]]|I]; try discriminate I; apply in_app_or in I;
    (destruct I as [I|[I|[I|[]]]]; [|discriminate I|discriminate I]); apply in_map_iff in I; destruct I as (d & I & _); discriminate I.
Qed.

(** The messages do not change what happens on the disk nor the result. *)
Theorem C93_same_run : forall clock_e clock_c fe fc d,
  (forall i, Z.abs (clock_e i) <= three_years)%Z -> (forall i, Z.abs (clock_c i) <= three_years)%Z ->
  disks (lg_events (cache_init_log clock_e clock_c fe fc d)) = rn_trace (cache_init fe fc d) /\
  lg_result (cache_init_log clock_e clock_c fe fc d) = rn_result (cache_init fe fc d) /\
  disks (lg_events (cache_load_log fe fc d)) = [] /\
  lg_result (cache_load_log fe fc d) = cache_load fe fc d.
Proof.
  intros ce cc fe fc d He Hc. destruct (edges_talk ce He) as (me & te & Ee & Re & _). destruct (corners_talk cc Hc) as (mc & tc & Ec & Rc & _).
  assert (S : same (load_or_build_log ce cc fe fc d) (load_or_build fe fc d)).
  { unfold load_or_build_log. rewrite Ee, Ec. rewrite (load_or_build_eq fe fc d te tc Re Rc).
    apply same_bind; [apply partial_same|]. intros edges d1. apply same_bind; [apply partial_same|]. intros corners d2. split; reflexivity. }
  destruct S as [T R]. unfold cache_init_log, cache_init. cbn [lg_events lg_result rn_trace rn_result]. rewrite T, R. split; [reflexivity|]. split; [reflexivity|].
  assert (S : same (cache_load_log fe fc d) (mkRun [] (cache_load fe fc d))).
  { unfold cache_load_log, cache_load.
    pose proof (same_bind d _ _ (fun edges d => log_bind d (load_partial_log CornersPath corners_total_set_size fc d) (fun corners _ => mkLogged [] (Done (Ok (mkCache edges corners)))))
      (fun edges d => run_bind d (mkRun [] (load_partial CornersPath corners_total_set_size fc d)) (fun corners _ => mkRun [] (Done (Ok (mkCache edges corners)))))
      (load_same EdgesPath edges_total_set_size fe d)) as [T1 R1].
    { intros edges d1. apply same_bind; [apply load_same|]. intros corners d2. split; reflexivity. }
    split; [rewrite T1|rewrite R1]; unfold run_bind; cbn [rn_result rn_trace final_disk last app];
      destruct (load_partial EdgesPath edges_total_set_size fe d) as [[e|e]|]; try reflexivity;
      cbn [rn_result rn_trace final_disk last app]; cbv zeta; cbn [bind_o rn_result rn_trace app];
      destruct (load_partial CornersPath corners_total_set_size fc d) as [[c|c]|]; reflexivity. }
  destruct S as [T2 R2]. split; [exact T2|exact R2].
Qed.

(** ** What a write says and does *)

Definition other (p : Path) : Path := match p with EdgesPath => CornersPath | CornersPath => EdgesPath end.
Lemma other_ne p : other p <> p. Proof. destruct p; discriminate. Qed.
Definition bad_write (ft : Faults) : Prop := ft_write ft <> NoFault \/ ft_mkdir ft = true \/ ft_write_again ft <> NoFault.

Lemma fs_write_facts fault d p bytes :
  (forall x, In x (rn_trace (fs_write fault d p bytes)) -> file x (other p) = file d (other p)) /\
  ((rn_result (fs_write fault d p bytes) = Done (Ok tt) /\ file (final_disk d (fs_write fault d p bytes)) p = Some bytes) \/
   (rn_result (fs_write fault d p bytes) = Done (Err OtherError) /\ fault <> NoFault) \/
   (rn_result (fs_write fault d p bytes) = Done (Err NotFound) /\ dk_dir d = false /\ rn_trace (fs_write fault d p bytes) = [])).
Proof.
  split; [intros x I; apply (write_other fault d p (other p) bytes (other_ne p) x I)|].
  unfold fs_write. destruct (dk_dir d) eqn:D; [|right; right; repeat split].
  destruct fault as [| |n]; cbn [rn_result]; [left|right; left|right; left]; (split; [reflexivity|]); try discriminate.
  unfold final_disk. cbn [rn_trace]. unfold write_steps. rewrite last_map_seq, firstn_all, file_with, D. destruct p; reflexivity.
Qed.
Lemma write_facts p total ft d bytes : N.of_nat (length bytes) = total -> let r := write_partial p total ft d bytes in
  (forall x, In x (rn_trace r) -> file x (other p) = file d (other p)) /\
  ((rn_result r = Done (Ok tt) /\ file (final_disk d r) p = Some bytes) \/
   (rn_result r = Done (Err OtherError) /\ bad_write ft)).
Proof.
  intros L. cbv zeta. unfold write_partial, correct_cache_size. rewrite L, N.eqb_refl. cbv zeta.
  destruct (fs_write_facts (ft_write ft) d p bytes) as [T [[R F]|[[R F]|[R [D T0]]]]]; rewrite R.
  - split; [exact T|]. left. split; [exact R|exact F].
  - split; [exact T|]. right. split; [exact R|left; exact F].
  - unfold run_bind, fs_create_dir. rewrite D. destruct (ft_mkdir ft) eqn:M; cbn [rn_result rn_trace].
    + split; [intros x []|]. right. split; [reflexivity|right; left; exact M].
    + cbv zeta. unfold final_disk at 1 2. cbn [rn_trace last].
      destruct (fs_write_facts (ft_write_again ft) (mkDisk true None None) p bytes) as [T2 H2]. cbn [rn_trace rn_result].
      assert (N : file d (other p) = None) by (unfold file; rewrite D; reflexivity).
      split.
      { intros x [<-|I]; [rewrite N; destruct p; reflexivity|]. rewrite (T2 x I), N. destruct p; reflexivity. }
      destruct H2 as [[R2 F2]|[[R2 F2]|[_ [D2 _]]]]; [left|right|discriminate D2].
      * split; [exact R2|]. unfold final_disk in *. cbn [rn_trace app]. rewrite last_cons. exact F2.
      * split; [exact R2|right; right; exact F2].
Qed.
Lemma silent_events {A} (l : Logged A) r : same l r -> said (lg_events l) = [] -> lg_events l = map Becomes (rn_trace r).
Proof.
  intros [<- _]. induction (lg_events l) as [|[p m|d] evs IH]; [reflexivity|discriminate|]. intros S. cbn. f_equal. apply IH, S.
Qed.
Lemma says_bind {A} d p m (f : unit -> Disk -> Logged A) : log_bind d (log_says p m) f = mkLogged (Says p m :: lg_events (f tt d)) (lg_result (f tt d)).
Proof. reflexivity. Qed.
Lemma log_bind_ok {A B} d (r : Logged A) (f : A -> Disk -> Logged B) a : lg_result r = Done (Ok a) ->
  log_bind d r f = mkLogged (lg_events r ++ lg_events (f a (disk_now d (lg_events r)))) (lg_result (f a (disk_now d (lg_events r)))).
Proof. intros E. unfold log_bind. rewrite E. reflexivity. Qed.
Lemma log_bind_err {A B} d (r : Logged A) (f : A -> Disk -> Logged B) e : lg_result r = Done (Err e) -> log_bind d r f = mkLogged (lg_events r) (Done (Err e)).
Proof. intros E. unfold log_bind. rewrite E. reflexivity. Qed.
Lemma write_log p total ft d bytes : N.of_nat (length bytes) = total -> exists ds,
  (forall x, In x ds -> file x (other p) = file d (other p)) /\
  ((lg_events (write_partial_log p total ft d bytes) = Says p writing :: map Becomes ds ++ [Says p written] /\
    lg_result (write_partial_log p total ft d bytes) = Done (Ok tt) /\ file (last ds d) p = Some bytes) \/
   (lg_events (write_partial_log p total ft d bytes) = Says p writing :: map Becomes ds /\
    lg_result (write_partial_log p total ft d bytes) = Done (Err OtherError) /\ bad_write ft)).
Proof.
  intros L. destruct (write_facts p total ft d bytes L) as [T H]. cbv zeta in T, H.
  exists (rn_trace (write_partial p total ft d bytes)). split; [exact T|].
  unfold write_partial_log. rewrite says_bind. cbn [lg_result lg_events].
  revert H. unfold write_partial. unfold correct_cache_size. rewrite L, N.eqb_refl. cbv zeta.
  set (inner := match rn_result (fs_write (ft_write ft) d p bytes) with Done (Err NotFound) => log_bind d _ _ | _ => log_silent _ end).
  set (R := match rn_result (fs_write (ft_write ft) d p bytes) with Done (Err NotFound) => run_bind d _ _ | _ => _ end).
  intros H.
  assert (S : same inner R).
  { subst inner R. destruct (rn_result (fs_write (ft_write ft) d p bytes)) as [[u|[]]|]; try apply same_silent.
    apply same_bind; [apply same_silent|]. intros _ d1. apply same_silent. }
  assert (Q : said (lg_events inner) = []).
  { subst inner. destruct (rn_result (fs_write (ft_write ft) d p bytes)) as [[u|[]]|]; try apply said_becomes.
    unfold log_bind. cbn [log_silent lg_result lg_events]. destruct (rn_result (fs_create_dir (ft_mkdir ft) d)) as [[u|e]|]; cbn [lg_events]; [|apply said_becomes|apply said_becomes].
    cbv zeta. cbn [lg_events log_silent]. rewrite said_app, !said_becomes. reflexivity. }
  pose proof (silent_events inner R S Q) as E. destruct S as [_ SR]. unfold log_bind at 1 2 3 4. rewrite SR.
  destruct H as [[H F]|[H F]]; rewrite H; cbv zeta; cbn [lg_events lg_result log_says]; rewrite E; [left|right]; repeat split; exact F.
Qed.

(** ** What happens for one table *)

Lemma phase p total msgs table ft d : N.of_nat (length table) = total ->
  let l := load_or_build_partial_log p total (msgs, Done table) ft d in
  (lg_events l = [Says p attempting] /\
   ((lg_result l = Done (Err OtherError) /\ ft_read ft = true) \/
    (lg_result l = Panic /\ exists b, file d p = Some b /\ N.of_nat (length b) <> total))) \/
  (exists b, file d p = Some b /\ N.of_nat (length b) = total /\ lg_events l = [Says p attempting; Says p loaded] /\ lg_result l = Done (Ok b)) \/
  (file d p = None /\ exists ds, (forall x, In x ds -> file x (other p) = file d (other p)) /\
   ((lg_events l = Says p attempting :: map (Says p) msgs ++ Says p writing :: map Becomes ds ++ [Says p written; Says p saved] /\
     lg_result l = Done (Ok table) /\ file (last ds d) p = Some table) \/
    (lg_events l = Says p attempting :: map (Says p) msgs ++ Says p writing :: map Becomes ds /\
     lg_result l = Done (Err OtherError) /\ bad_write ft))).
Proof.
  intros L. cbv zeta. unfold load_or_build_partial_log, load_partial_log, fs_read. rewrite says_bind. cbn [lg_result lg_events].
  destruct (ft_read ft) eqn:FR; [left; split; [reflexivity|left; split; reflexivity]|].
  destruct (file d p) as [b|] eqn:F.
  - unfold correct_cache_size. destruct (N.eqb_spec (N.of_nat (length b)) total) as [E|E].
    + right. left. exists b. repeat split; assumption.
    + left. split; [reflexivity|right]. split; [reflexivity|]. exists b. split; [reflexivity|exact E].
  - cbv zeta. cbn [lg_result lg_events]. right. right. split; [reflexivity|].
    change (disk_now d [Says p (lit "Attempting to load cache from disk")]) with d.
    unfold build_partial_log. cbn [fst snd].
    rewrite (log_bind_ok d (mkLogged (map (Says p) msgs) (Done (Ok table))) _ table eq_refl). cbn [lg_result lg_events]. rewrite now_says.
    destruct (write_log p total ft d table L) as (ds & T & [(E & R & FT)|(E & R & FT)]); exists ds; (split; [exact T|]); [left|right].
    + rewrite (log_bind_ok d _ _ tt R). cbn [lg_result lg_events]. rewrite E. split; [|split; [reflexivity|exact FT]].
      cbn. rewrite <- !app_assoc. reflexivity.
    + rewrite (log_bind_err d _ _ OtherError R). cbn [lg_result lg_events]. rewrite E. split; [reflexivity|split; [reflexivity|exact FT]].
Qed.

Lemma along_app (Q : list Event -> Prop) l1 l2 : (forall b a, l1 = b ++ a -> Q b) -> (forall b a, l2 = b ++ a -> Q (l1 ++ b)) ->
  forall b a, l1 ++ l2 = b ++ a -> Q b.
Proof.
  intros H1 H2 b a E. apply app_eq_app in E. destruct E as (l & [[-> ->]|[-> ->]]).
  - apply (H1 b l eq_refl).
  - apply (H2 l a eq_refl).
Qed.
Lemma along_cons (Q : list Event -> Prop) e l : Q [] -> (forall b a, l = b ++ a -> Q (e :: b)) -> forall b a, e :: l = b ++ a -> Q b.
Proof.
  intros H1 H2 [|e' b] a E; [exact H1|]. injection E as <- E. exact (H2 b a E).
Qed.
Lemma along_says (Q : list Event -> Prop) p msgs : (forall b a, msgs = b ++ a -> Q (map (Says p) b)) -> forall b a, map (Says p) msgs = b ++ a -> Q b.
Proof. intros H b a E. apply map_eq_app in E. destruct E as (x & y & -> & <- & _). exact (H x y eq_refl). Qed.
Lemma along_becomes (Q : list Event -> Prop) ds : (forall b a, ds = b ++ a -> Q (map Becomes b)) -> forall b a, map Becomes ds = b ++ a -> Q b.
Proof. intros H b a E. apply map_eq_app in E. destruct E as (x & y & -> & <- & _). exact (H x y eq_refl). Qed.

Section Phase.
  Context (p : Path) (d : Disk) (total : N) (table : list N).
  (** What is true at each moment. *)
  Definition so_far (before : list Event) : Prop :=
    (forall m, ~ In (other p, m) (said before)) /\ file (disk_now d before) (other p) = file d (other p) /\
    ((file (disk_now d before) p = file d p /\ ~ In (p, written) (said before) /\
      (In (p, loaded) (said before) -> exists b, file d p = Some b /\ N.of_nat (length b) = total)) \/
     (last_said before = Some (p, writing) /\ ~ In (p, written) (said before) /\ ~ In (p, loaded) (said before)) \/
     (file (disk_now d before) p = Some table /\ ~ In (p, loaded) (said before))).
  (** The same without the second case. *)
  Definition settled (before : list Event) : Prop :=
    (forall m, ~ In (other p, m) (said before)) /\ file (disk_now d before) (other p) = file d (other p) /\
    ((file (disk_now d before) p = file d p /\ ~ In (p, written) (said before) /\
      (In (p, loaded) (said before) -> exists b, file d p = Some b /\ N.of_nat (length b) = total)) \/
     (file (disk_now d before) p = Some table /\ ~ In (p, loaded) (said before))).
  Lemma settled_so_far b : settled b -> so_far b.
  Proof. intros (A & B & [C|C]); (split; [exact A|]); (split; [exact B|]); [left|right; right]; exact C. Qed.
  Lemma only_p (l : list text) m : ~ In (other p, m) (map (pair p) l).
  Proof. intros I. apply in_map_iff in I. destruct I as (x & E & _). injection E as E _. exact (other_ne p (eq_sym E)). Qed.
  Lemma pair_in (l : list text) m : In (p, m) (map (pair p) l) -> In m l.
  Proof. intros I. apply in_map_iff in I. destruct I as (x & E & I). injection E as <-. exact I. Qed.
  Lemma quiet_settled l : ~ In written l -> ~ In loaded l -> settled (map (Says p) l).
  Proof.
    intros W D. split; [|split]; [intros m; rewrite said_says; apply only_p|rewrite now_says; reflexivity|].
    left. rewrite now_says, said_says. split; [reflexivity|]. split; [intros I; exact (W (pair_in _ _ I))|intros I; destruct (D (pair_in _ _ I))].
  Qed.
  Lemma becomes_file ds : (forall x, In x ds -> file x (other p) = file d (other p)) -> forall b a, ds = b ++ a -> file (last b d) (other p) = file d (other p).
  Proof.
    intros T b a ->. destruct (last_in b d) as [E|E]; [rewrite <- E; reflexivity|]. apply T, in_or_app. left. exact E.
  Qed.
  Lemma now_mid l b : disk_now d (map (Says p) l ++ map Becomes b) = last b d.
  Proof. rewrite now_app, now_says, now_last, disks_becomes. reflexivity. Qed.
  Lemma said_mid l b : said (map (Says p) l ++ map Becomes b) = map (pair p) l.
  Proof. rewrite said_app, said_says, said_becomes, app_nil_r. reflexivity. Qed.

  Lemma phase_prefix msgs ft : ~ In written msgs -> ~ In loaded msgs -> N.of_nat (length table) = total ->
    let l := load_or_build_partial_log p total (msgs, Done table) ft d in
    (forall b a, lg_events l = b ++ a -> so_far b) /\ (forall x, lg_result l = Done (Ok x) -> settled (lg_events l)).
  Proof.
    intros W D L. cbv zeta.
    assert (Q0 : forall b a, msgs = b ++ a -> settled (map (Says p) (attempting :: b))).
    { intros b a ->. apply quiet_settled; (intros [I|I]; [discriminate I|]); [apply W|apply D]; apply in_or_app; left; exact I. }
    assert (QW : forall ds, (forall x, In x ds -> file x (other p) = file d (other p)) ->
                 forall b a, ds = b ++ a -> so_far (map (Says p) (attempting :: msgs ++ [writing]) ++ map Becomes b)).
    { intros ds T b a E. split; [|split].
      - intros m. rewrite said_mid. apply only_p.
      - rewrite now_mid. exact (becomes_file ds T b a E).
      - right. left. rewrite said_mid. split; [|split].
        + unfold last_said. rewrite said_mid, app_comm_cons, !map_app. cbn [map]. apply last_last.
        + intros I. apply pair_in in I. destruct I as [I|I]; [discriminate I|]. apply in_app_or in I. destruct I as [I|[I|[]]]; [exact (W I)|discriminate I].
        + intros I. apply pair_in in I. destruct I as [I|I]; [discriminate I|]. apply in_app_or in I. destruct I as [I|[I|[]]]; [exact (D I)|discriminate I]. }
    assert (QN : so_far []) by (apply settled_so_far, (quiet_settled []); intros []).
    destruct (phase p total msgs table ft d L) as [[E R]|[(b0 & F & L0 & E & R)|(F & ds & T & [(E & R & FT)|(E & R & FT)])]]; rewrite E.
    - split.
      + apply (along_says so_far p [attempting]). intros b a H. apply settled_so_far, quiet_settled;
          (destruct b as [|x [|y b]]; [intros []|injection H as <- _; intros [I|[]]; discriminate I|discriminate H]).
      + intros x RX. destruct R as [[R _]|[R _]]; rewrite R in RX; discriminate RX.
    - assert (S2 : settled (map (Says p) [attempting; loaded])).
      { split; [|split]; [intros m; rewrite said_says; apply only_p|reflexivity|]. left. split; [reflexivity|]. split; [intros [I|[I|[]]]; discriminate I|].
        intros _. exists b0. split; assumption. }
      split; [|intros _ _; exact S2].
      apply (along_says so_far p [attempting; loaded]). intros b a H. destruct b as [|x [|y [|z b]]].
      + exact QN.
      + injection H as <- _. apply settled_so_far, (quiet_settled [attempting]); intros [I|[]]; discriminate I.
      + injection H as <- <- _. apply settled_so_far, S2.
      + discriminate H.
    - set (ev := map (Says p) (attempting :: msgs ++ [writing]) ++ map Becomes ds).
      assert (EV : Says p attempting :: map (Says p) msgs ++ Says p writing :: map Becomes ds ++ [Says p written; Says p saved] = ev ++ map (Says p) [written; saved]).
      { subst ev. cbn [map]. rewrite map_app. cbn [map app]. rewrite <- !app_assoc. reflexivity. }
      rewrite EV.
      assert (END : forall l, settled (ev ++ map (Says p) l) \/ ~ (In loaded l -> False)).
      { intros l. destruct (in_dec (list_eq_dec N.eq_dec) loaded l) as [I|I]; [right; auto|left].
        assert (NOW : disk_now d (ev ++ map (Says p) l) = last ds d) by (subst ev; rewrite now_app, now_says; apply now_mid).
        split; [|split].
        - intros m. subst ev. rewrite said_app, said_mid, said_says. intros J. apply in_app_or in J. destruct J as [J|J]; revert J; apply only_p.
        - rewrite NOW. apply (becomes_file ds T ds []). rewrite app_nil_r. reflexivity.
        - right. split; [rewrite NOW; exact FT|]. subst ev. rewrite said_app, said_mid, said_says. intros J. apply in_app_or in J. destruct J as [J|J]; apply pair_in in J; [|exact (I J)].
          destruct J as [J|J]; [discriminate J|]. apply in_app_or in J. destruct J as [J|[J|[]]]; [exact (D J)|discriminate J]. }
      split.
      + apply along_app.
        * subst ev. rewrite map_cons. rewrite <- app_comm_cons. apply along_cons; [exact QN|].
          rewrite map_app, <- app_assoc. apply along_app.
          -- apply (along_says (fun b => so_far (Says p attempting :: b))). intros b a H. apply settled_so_far. exact (Q0 b a H).
          -- cbn [map app]. apply along_cons.
             ++ rewrite app_nil_r. apply settled_so_far, (Q0 msgs []). rewrite app_nil_r. reflexivity.
             ++ apply (along_becomes (fun b => so_far (Says p attempting :: map (Says p) msgs ++ Says p writing :: b))). intros b a H.
                pose proof (QW ds T b a H) as Q. cbn [map] in Q. rewrite map_app in Q. cbn [map app] in Q. rewrite <- app_assoc in Q. exact Q.
        * apply (along_says (fun b => so_far (ev ++ b)) p [written; saved]). intros b a H. apply settled_so_far.
          destruct (END b) as [S|S]; [exact S|]. destruct S. intros I. destruct b as [|x [|y [|z b]]]; [destruct I| | |discriminate H].
          -- injection H as <- _. destruct I as [I|[]]; discriminate I.
          -- injection H as <- <- _. destruct I as [I|[I|[]]]; discriminate I.
      + intros _ _. destruct (END [written; saved]) as [S|S]; [exact S|]. destruct S. intros [I|[I|[]]]; discriminate I.
    - split.
      + apply along_cons; [exact QN|]. apply along_app.
        * apply (along_says (fun b => so_far (Says p attempting :: b))). intros b a H. apply settled_so_far. exact (Q0 b a H).
        * apply along_cons.
          -- rewrite app_nil_r. apply settled_so_far, (Q0 msgs []). rewrite app_nil_r. reflexivity.
          -- apply (along_becomes (fun b => so_far (Says p attempting :: map (Says p) msgs ++ Says p writing :: b))). intros b a H.
             pose proof (QW ds T b a H) as Q. cbn [map] in Q. rewrite map_app in Q. cbn [map app] in Q. rewrite <- app_assoc in Q. exact Q.
      + intros x RX. rewrite R in RX. discriminate RX.
  Qed.
End Phase.

(** ** A whole run *)

Definition moment (d : Disk) (before : list Event) (p : Path) : Prop :=
  (file (disk_now d before) p = file d p /\ ~ In (p, written) (said before) /\
    (In (p, loaded) (said before) -> exists b, file d p = Some b /\ N.of_nat (length b) = path_total p)) \/
  (last_said before = Some (p, writing) /\ ~ In (p, written) (said before) /\ ~ In (p, loaded) (said before)) \/
  (complete_file (disk_now d before) p /\ ~ In (p, loaded) (said before)).

Lemma init_events ce cc fe fc d : (forall i, Z.abs (ce i) <= three_years)%Z -> (forall i, Z.abs (cc i) <= three_years)%Z ->
  exists me te mc tc, fst (talking_build half_edges_mus ce (path_text EdgesPath)) = me /\ fst (talking_build corners_mus cc (path_text CornersPath)) = mc /\
    right_table EdgesPath te /\ right_table CornersPath tc /\ (~ In written me /\ ~ In loaded me) /\ (~ In written mc /\ ~ In loaded mc) /\
    let l1 := load_or_build_partial_log EdgesPath (path_total EdgesPath) (me, Done te) fe d in
    let d1 := disk_now d (lg_events l1) in
    let l2 := load_or_build_partial_log CornersPath (path_total CornersPath) (mc, Done tc) fc d1 in
    ((exists edges, lg_result l1 = Done (Ok edges) /\ lg_events (cache_init_log ce cc fe fc d) = lg_events l1 ++ lg_events l2 /\
        lg_result (cache_init_log ce cc fe fc d) = match lg_result l2 with Done (Ok corners) => Done (Ok (mkCache edges corners)) | _ => Panic end) \/
     ((forall edges, lg_result l1 <> Done (Ok edges)) /\ lg_events (cache_init_log ce cc fe fc d) = lg_events l1 /\ lg_result (cache_init_log ce cc fe fc d) = Panic)).
Proof.
  intros He Hc. destruct (edges_talk ce He) as (me & te & Ee & Re & Le & We). destruct (corners_talk cc Hc) as (mc & tc & Ec & Rc & Lc & Wc).
  exists me, te, mc, tc. rewrite Ee, Ec. split; [reflexivity|]. split; [reflexivity|]. split; [exact Re|]. split; [exact Rc|].
  split; [exact (conj We Le)|]. split; [exact (conj Wc Lc)|]. cbv zeta.
  unfold cache_init_log, load_or_build_log. rewrite Ee, Ec. change edges_total_set_size with (path_total EdgesPath). change corners_total_set_size with (path_total CornersPath).
  destruct (lg_result (load_or_build_partial_log EdgesPath (path_total EdgesPath) (me, Done te) fe d)) as [[edges|e]|] eqn:R1.
  - left. exists edges. split; [reflexivity|]. rewrite (log_bind_ok d _ _ edges R1). cbn [lg_events lg_result].
    set (d1 := disk_now d _). unfold log_bind.
    destruct (lg_result (load_or_build_partial_log CornersPath (path_total CornersPath) (mc, Done tc) fc d1)) as [[corners|e]|]; cbn [lg_events lg_result];
      rewrite ?app_nil_r; split; reflexivity.
  - right. split; [discriminate|]. rewrite (log_bind_err d _ _ e R1). split; reflexivity.
  - right. split; [discriminate|]. unfold log_bind. rewrite R1. split; reflexivity.
Qed.

Lemma not_said_other p d0 total table b : so_far p d0 total table b -> moment d0 b (other p) \/ False.
Proof.
  intros (A & B & _). left. left. split; [exact B|]. split; [apply A|]. intros I. destruct (A _ I).
Qed.
Lemma init_moments ce cc fe fc d : (forall i, Z.abs (ce i) <= three_years)%Z -> (forall i, Z.abs (cc i) <= three_years)%Z ->
  forall before after, lg_events (cache_init_log ce cc fe fc d) = before ++ after -> forall p, moment d before p.
Proof.
  intros He Hc. destruct (init_events ce cc fe fc d He Hc) as (me & te & mc & tc & _ & _ & Re & Rc & [We Le] & [Wc Lc] & H). cbv zeta in H.
  destruct (phase_prefix EdgesPath d (path_total EdgesPath) te me fe We Le (right_length _ _ Re)) as [P1 S1]. cbv zeta in P1, S1.
  set (l1 := load_or_build_partial_log EdgesPath _ _ fe d) in *. set (d1 := disk_now d (lg_events l1)) in *.
  assert (Q1 : forall b a, lg_events l1 = b ++ a -> forall p, moment d b p).
  { intros b a E p. pose proof (P1 b a E) as Q. destruct p.
    - destruct Q as (_ & _ & [Q|[Q|[F Q]]]); [left; exact Q|right; left; exact Q|right; right]. split; [|exact Q]. exists te. split; assumption.
    - destruct (not_said_other _ _ _ _ _ Q) as [M|[]]. exact M. }
  destruct (phase_prefix CornersPath d1 (path_total CornersPath) tc mc fc Wc Lc (right_length _ _ Rc)) as [P2 _]. cbv zeta in P2.
  set (l2 := load_or_build_partial_log CornersPath _ _ fc d1) in *.
  destruct H as [(edges & R1 & E & _)|(_ & E & _)]; rewrite E; [|exact Q1].
  specialize (S1 edges R1). destruct S1 as (A1 & B1 & C1). cbn [other] in A1, B1.
  apply (along_app (fun b => forall p, moment d b p)); [exact Q1|].
  intros b a E2 p. destruct (P2 b a E2) as (A2 & B2 & C2). cbn [other] in A2, B2.
  unfold moment. rewrite now_app, said_app, last_said_app. fold d1. destruct p.
  - fold d1 in C1. destruct C1 as [(F & W & L)|(F & L)]; [left|right; right]; unfold complete_file; rewrite B2.
    + split; [exact F|]. split; [intros I; apply in_app_or in I; destruct I as [I|I]; [exact (W I)|exact (A2 _ I)]|].
      intros I. apply L. apply in_app_or in I. destruct I as [I|I]; [exact I|destruct (A2 _ I)].
    + split; [exists te; split; assumption|]. intros I. apply in_app_or in I. destruct I as [I|I]; [exact (L I)|exact (A2 _ I)].
  - fold d1 in B1. destruct C2 as [(F & W & L)|[(LS & W & L)|(F & L)]]; [left|right; left|right; right].
    + rewrite F, B1. split; [reflexivity|]. split; [intros I; apply in_app_or in I; destruct I as [I|I]; [exact (A1 _ I)|exact (W I)]|].
      intros I. rewrite <- B1. apply L. apply in_app_or in I. destruct I as [I|I]; [destruct (A1 _ I)|exact I].
    + rewrite LS. split; [reflexivity|]. split; intros I; apply in_app_or in I; (destruct I as [I|I]; [exact (A1 _ I)|]); [exact (W I)|exact (L I)].
    + split; [exists tc; split; assumption|]. intros I. apply in_app_or in I. destruct I as [I|I]; [exact (A1 _ I)|exact (L I)].
Qed.

(** Once it has been said that a file has been written, it is complete, then and as long as the
    call runs. *)
Theorem C93_written : forall clock_e clock_c fe fc d before after p,
  (forall i, Z.abs (clock_e i) <= three_years)%Z -> (forall i, Z.abs (clock_c i) <= three_years)%Z ->
  lg_events (cache_init_log clock_e clock_c fe fc d) = before ++ after -> In (p, lit "Cache has been written") (said before) ->
  exists table, right_table p table /\ file (disk_now d before) p = Some table.
Proof.
  intros ce cc fe fc d b a p He Hc E I. destruct (init_moments ce cc fe fc d He Hc b a E p) as [(_ & W & _)|[(_ & W & _)|(C & _)]]; [destruct (W I)|destruct (W I)|exact C].
Qed.
(** If it has been said that a file has been loaded, the file was there with the right length when
    the call began, and it stays untouched. *)
Theorem C93_loaded : forall clock_e clock_c fe fc d before after p,
  (forall i, Z.abs (clock_e i) <= three_years)%Z -> (forall i, Z.abs (clock_c i) <= three_years)%Z ->
  lg_events (cache_init_log clock_e clock_c fe fc d) = before ++ after -> In (p, lit "Cache has been loaded") (said before) ->
  exists bytes, file d p = Some bytes /\ N.of_nat (length bytes) = path_total p /\ file (disk_now d before) p = Some bytes.
Proof.
  intros ce cc fe fc d b a p He Hc E I. destruct (init_moments ce cc fe fc d He Hc b a E p) as [(F & _ & L)|[(_ & _ & L)|(_ & L)]]; [|destruct (L I)|destruct (L I)].
  destruct (L I) as (bytes & FD & LB). exists bytes. split; [exact FD|]. split; [exact LB|]. rewrite F. exact FD.
Qed.
(** A process stopped at any moment leaves a file as it was, or complete, unless the last line on
    the screen is the announcement that this file is being written. *)
Theorem C93_stopped : forall clock_e clock_c fe fc d before after p,
  (forall i, Z.abs (clock_e i) <= three_years)%Z -> (forall i, Z.abs (clock_c i) <= three_years)%Z ->
  lg_events (cache_init_log clock_e clock_c fe fc d) = before ++ after ->
  last_said before <> Some (p, lit "Writing cache to disk") ->
  file (disk_now d before) p = file d p \/ exists table, right_table p table /\ file (disk_now d before) p = Some table.
Proof.
  intros ce cc fe fc d b a p He Hc E L. destruct (init_moments ce cc fe fc d He Hc b a E p) as [(F & _)|[(W & _)|(C & _)]]; [left; exact F|destruct (L W)|right; exact C].
Qed.

(** All that is said by a call that returns. *)
Theorem C93_returns : forall clock_e clock_c fe fc d ca,
  (forall i, Z.abs (clock_e i) <= three_years)%Z -> (forall i, Z.abs (clock_c i) <= three_years)%Z ->
  lg_result (cache_init_log clock_e clock_c fe fc d) = Done (Ok ca) ->
  let messages p reports := match file d p with
    | Some _ => [lit "Attempting to load cache from disk"; lit "Cache has been loaded"]
    | None => [lit "Attempting to load cache from disk"] ++ reports ++
              [lit "Writing cache to disk"; lit "Cache has been written"; lit "Cache saved to disk."]
    end in
  said (lg_events (cache_init_log clock_e clock_c fe fc d)) =
    map (pair EdgesPath) (messages EdgesPath (fst (talking_build half_edges_mus clock_e (lit "mus-cache/edges.barbarosa")))) ++
    map (pair CornersPath) (messages CornersPath (fst (talking_build corners_mus clock_c (lit "mus-cache/corners.barbarosa")))).
Proof.
  intros ce cc fe fc d ca He Hc R. destruct (init_events ce cc fe fc d He Hc) as (me & te & mc & tc & Me & Mc & Re & Rc & [We Le] & [Wc Lc] & H). cbv zeta in H.
  change (lit "mus-cache/edges.barbarosa") with (path_text EdgesPath). change (lit "mus-cache/corners.barbarosa") with (path_text CornersPath). rewrite Me, Mc. cbv zeta.
  destruct (phase_prefix EdgesPath d (path_total EdgesPath) te me fe We Le (right_length _ _ Re)) as [_ S1]. cbv zeta in S1.
  pose proof (phase EdgesPath (path_total EdgesPath) me te fe d (right_length _ _ Re)) as P1. cbv zeta in P1.
  set (l1 := load_or_build_partial_log EdgesPath _ _ fe d) in *. set (d1 := disk_now d (lg_events l1)) in *.
  pose proof (phase CornersPath (path_total CornersPath) mc tc fc d1 (right_length _ _ Rc)) as P2. cbv zeta in P2.
  set (l2 := load_or_build_partial_log CornersPath _ _ fc d1) in *.
  destruct H as [(edges & R1 & E & ER)|(_ & _ & ER)]; [|rewrite ER in R; discriminate R].
  destruct (S1 edges R1) as (_ & B1 & _). cbn [other] in B1. fold d1 in B1.
  rewrite ER in R. destruct (lg_result l2) as [[corners|]|] eqn:R2; try discriminate R.
  rewrite E, said_app, <- B1. f_equal.
  - destruct P1 as [[_ [[X _]|[X _]]]|[(b & F & _ & EV & _)|(F & ds & _ & [(EV & _)|(_ & X & _)])]]; try (rewrite R1 in X; discriminate X); rewrite EV, F; [reflexivity|].
    change (said (?x :: ?l)) with (said [x] ++ said l). cbn [app map]. rewrite said_app, said_says.
    change (said (?x :: ?l)) with (said [x] ++ said l). rewrite said_app, said_becomes, map_app. reflexivity.
  - destruct P2 as [[_ [[X _]|[X _]]]|[(b & F & _ & EV & _)|(F & ds & _ & [(EV & _)|(_ & X & _)])]]; try discriminate X; rewrite EV, F; [reflexivity|].
    change (said (?x :: ?l)) with (said [x] ++ said l). cbn [app map]. rewrite said_app, said_says.
    change (said (?x :: ?l)) with (said [x] ++ said l). rewrite said_app, said_becomes, map_app. reflexivity.
Qed.

(** When [init] panics, the last line on the screen names the file and the reason: it could not be
    read or has a wrong length, or it could not be written. *)
Theorem C93_panics : forall clock_e clock_c fe fc d,
  (forall i, Z.abs (clock_e i) <= three_years)%Z -> (forall i, Z.abs (clock_c i) <= three_years)%Z ->
  lg_result (cache_init_log clock_e clock_c fe fc d) = Panic ->
  exists p, let last_line := last_said (lg_events (cache_init_log clock_e clock_c fe fc d)) in
    (last_line = Some (p, lit "Attempting to load cache from disk") /\ (faulty_read fe fc p \/ corrupt d p)) \/
    (last_line = Some (p, lit "Writing cache to disk") /\ faulty_write fe fc p /\ file d p = None).
Proof.
  intros ce cc fe fc d He Hc R. destruct (init_events ce cc fe fc d He Hc) as (me & te & mc & tc & Me & Mc & Re & Rc & [We Le] & [Wc Lc] & H). cbv zeta in H.
  destruct (phase_prefix EdgesPath d (path_total EdgesPath) te me fe We Le (right_length _ _ Re)) as [_ S1]. cbv zeta in S1.
  pose proof (phase EdgesPath (path_total EdgesPath) me te fe d (right_length _ _ Re)) as P1. cbv zeta in P1.
  set (l1 := load_or_build_partial_log EdgesPath _ _ fe d) in *. set (d1 := disk_now d (lg_events l1)) in *.
  pose proof (phase CornersPath (path_total CornersPath) mc tc fc d1 (right_length _ _ Rc)) as P2. cbv zeta in P2.
  set (l2 := load_or_build_partial_log CornersPath _ _ fc d1) in *. cbv zeta.
  assert (LW : forall p msgs ds, last_said (Says p attempting :: map (Says p) msgs ++ Says p writing :: map Becomes ds) = Some (p, writing)).
  { intros p msgs ds. change (Says p attempting :: map (Says p) msgs ++ Says p writing :: map Becomes ds) with ((Says p attempting :: map (Says p) msgs) ++ [Says p writing] ++ map Becomes ds).
    rewrite last_said_app, last_said_app. unfold last_said. rewrite said_becomes. reflexivity. }
  destruct H as [(edges & R1 & E & ER)|(N1 & E & _)]; rewrite E.
  - destruct (S1 edges R1) as (_ & B1 & _). cbn [other] in B1. fold d1 in B1. exists CornersPath. rewrite last_said_app.
    destruct P2 as [[EV X]|[(b & _ & _ & _ & X)|(F & ds & _ & [(_ & X & _)|(EV & _ & X)])]].
    + rewrite EV. left. split; [reflexivity|]. destruct X as [[_ X]|[_ (b & F & X)]]; [left; exact X|right]. exists b. rewrite <- B1. split; assumption.
    + rewrite ER, X in R. discriminate R.
    + rewrite ER, X in R. discriminate R.
    + rewrite EV, LW. right. split; [reflexivity|]. split; [exact X|]. rewrite <- B1. exact F.
  - exists EdgesPath. destruct P1 as [[EV X]|[(b & _ & _ & _ & X)|(F & ds & _ & [(_ & X & _)|(EV & _ & X)])]].
    + rewrite EV. left. split; [reflexivity|]. destruct X as [[_ X]|[_ (b & F & X)]]; [left; exact X|right]. exists b. split; assumption.
    + destruct (N1 _ X).
    + destruct (N1 _ X).
    + rewrite EV, LW. right. split; [reflexivity|]. split; [exact X|exact F].
Qed.

(** What [Cache::load] says: about the edges, then about the corners if the edges were loaded; that
    a file has been loaded exactly if it was. *)
Theorem C93_load_says : forall fe fc d,
  let ok p := exists bytes, file d p = Some bytes /\ N.of_nat (length bytes) = path_total p in
  let said_of p := filter (fun x => match fst x, p with EdgesPath, EdgesPath | CornersPath, CornersPath => true | _, _ => false end)
                     (said (lg_events (cache_load_log fe fc d))) in
  (ok EdgesPath /\ ft_read fe = false -> said_of EdgesPath = [(EdgesPath, lit "Attempting to load cache from disk"); (EdgesPath, lit "Cache has been loaded")] /\
     (ok CornersPath /\ ft_read fc = false -> said_of CornersPath = [(CornersPath, lit "Attempting to load cache from disk"); (CornersPath, lit "Cache has been loaded")]) /\
     (~ (ok CornersPath /\ ft_read fc = false) -> said_of CornersPath = [(CornersPath, lit "Attempting to load cache from disk")])) /\
  (~ (ok EdgesPath /\ ft_read fe = false) -> said (lg_events (cache_load_log fe fc d)) = [(EdgesPath, lit "Attempting to load cache from disk")]).
Proof.
  intros fe fc d. cbv zeta.
  assert (P : forall p ft, ((exists bytes, (file d p = Some bytes /\ N.of_nat (length bytes) = path_total p) /\ ft_read ft = false /\ load_partial_log p (path_total p) ft d = mkLogged [Says p attempting; Says p loaded] (Done (Ok bytes)))) \/
     (~ ((exists bytes, file d p = Some bytes /\ N.of_nat (length bytes) = path_total p) /\ ft_read ft = false) /\ lg_events (load_partial_log p (path_total p) ft d) = [Says p attempting] /\ forall b, lg_result (load_partial_log p (path_total p) ft d) <> Done (Ok b))).
  { intros p ft. unfold load_partial_log. rewrite says_bind. unfold fs_read. destruct (ft_read ft); [right; repeat split; [intros [_ X]; discriminate X|discriminate]|].
    destruct (file d p) as [b|]; [|right; repeat split; [intros [(b & X & _) _]; discriminate X|discriminate]].
    unfold correct_cache_size. destruct (N.eqb_spec (N.of_nat (length b)) (path_total p)) as [L|L].
    - left. exists b. repeat split; assumption.
    - right. repeat split; [|discriminate]. intros [(b' & X & Y) _]. injection X as <-. exact (L Y). }
  unfold cache_load_log. change edges_total_set_size with (path_total EdgesPath). change corners_total_set_size with (path_total CornersPath).
  destruct (P EdgesPath fe) as [(be & OE & RE & E)|(NE & E & R)].
  - split; [intros _|intros N; destruct N; split; [exists be; exact OE|exact RE]].
    rewrite E, (log_bind_ok d (mkLogged [Says EdgesPath attempting; Says EdgesPath loaded] (Done (Ok be))) _ be eq_refl). cbn [lg_events].
    change (disk_now d [Says EdgesPath attempting; Says EdgesPath loaded]) with d. rewrite said_app, !filter_app.
    destruct (P CornersPath fc) as [(bc & OC & RC & EC)|(NC & EC & RC)].
    + rewrite EC. split; [reflexivity|]. split; [intros _; reflexivity|]. intros N. destruct N. split; [exists bc; exact OC|exact RC].
    + assert (EB : forall B (f : list N -> Disk -> Logged B), lg_events (log_bind d (load_partial_log CornersPath (path_total CornersPath) fc d) f) = [Says CornersPath attempting]).
      { intros B f. unfold log_bind. destruct (lg_result (load_partial_log CornersPath (path_total CornersPath) fc d)) as [[b|]|]; [destruct (RC b eq_refl)|exact EC|exact EC]. }
      rewrite EB. split; [reflexivity|]. split; [intros Y; destruct (NC Y)|intros _; reflexivity].
  - split; [intros Y; destruct (NE Y)|intros _].
    unfold log_bind at 1. destruct (lg_result (load_partial_log EdgesPath (path_total EdgesPath) fe d)) as [[b|]|]; [destruct (R b eq_refl)|..]; cbn [lg_events]; rewrite E; reflexivity.
Qed.

(** Each message is a line with the time in front and the name of the file it is about at the end. *)
Theorem C93_lines : forall now p msg,
  printed_line now p msg = now ++ lit ": " ++ msg ++
    match p with EdgesPath => lit " (mus-cache/edges.barbarosa)" | CornersPath => lit " (mus-cache/corners.barbarosa)" end.
Proof. intros now [] msg; reflexivity. Qed.

(** The first start: everything is built; a second start only loads. *)
Example C93_example : exists ca d,
  lg_result (cache_init_log (fun _ => 5000%Z) (fun _ => 7000%Z) no_faults no_faults empty_disk) = Done (Ok ca) /\
  disk_now empty_disk (lg_events (cache_init_log (fun _ => 5000%Z) (fun _ => 7000%Z) no_faults no_faults empty_disk)) = d /\
  In (CornersPath, lit "Cache has been written") (said (lg_events (cache_init_log (fun _ => 5000%Z) (fun _ => 7000%Z) no_faults no_faults empty_disk))) /\
  printed_line (lit "12:00:00.000") CornersPath (lit "Cache has been written") = lit "12:00:00.000: Cache has been written (mus-cache/corners.barbarosa)".
Proof.
  assert (H1 : forall i : nat, (Z.abs ((fun _ => 5000) i) <= three_years)%Z) by (intros i; vm_compute; discriminate).
  assert (H2 : forall i : nat, (Z.abs ((fun _ => 7000) i) <= three_years)%Z) by (intros i; vm_compute; discriminate).
  destruct (C38_clean_start empty_disk no_history eq_refl eq_refl) as (ca & R & _).
  destruct (C93_same_run (fun _ => 5000%Z) (fun _ => 7000%Z) no_faults no_faults empty_disk H1 H2) as (_ & RL & _). rewrite R in RL.
  exists ca. eexists. split; [exact RL|]. split; [reflexivity|]. split; [|reflexivity].
  rewrite (C93_returns _ _ _ _ _ _ H1 H2 RL). cbn [file empty_disk dk_dir]. apply in_or_app. right. apply in_map. apply in_or_app. right. apply in_or_app. right. right. left. reflexivity.
Qed.
Print Assumptions C93_same_run.
Print Assumptions C93_written.
Print Assumptions C93_loaded.
Print Assumptions C93_stopped.
Print Assumptions C93_returns.
Print Assumptions C93_panics.
Print Assumptions C93_load_says.
Print Assumptions C93_lines.

(** * Properties of observers and of the order of a run (C38 - C43, C65, C67, C81)

    Statements only; the proofs are lemmas of ObserverP.v, SeqP4.v, CallbacksP.v, CallsP.v,
    Stage1CountP.v, Stage2EvalsP.v and AllP.v. *)
From Coq Require Import ZArith NArith List Bool Arith Lia String.
From Verif Require Import F64 Base Builders Types Filters Runner Observer Env EnvSpec ScatterSearch Codec
  Checkpoint Oqnlp Spec SpecStage1 SpecStage2 SpecObserver Demo Demo2 ObserverP SeqP4 CallbacksP CallsP Stage1CountP Stage2EvalsP AllP CountP Stage2P Properties_Stage2.
Import ListNotations.

(** C38: with another observer, or none, a run returns the same result and leaves the same
    optimizer (apart from the observer) and the same files. *)
Theorem C38_observer_is_passive : forall E s ob r s' r' t', callbacks_ok E ->
  (forall o, o_observer (s_o s) = Some o -> ob_frequency o <> 0) ->
  (forall o, ob = Some o -> ob_frequency o <> 0) ->
  run E s = (r, s') -> run E (observed_by ob s) = (r', t') ->
  r' = r /\ set_o_observer None (s_o t') = set_o_observer None (s_o s') /\ w_disk (s_w t') = w_disk (s_w s').
Proof. exact c38. Qed.
Print Assumptions C38_observer_is_passive.
Definition watcher (n : nat) : observer :=
  with_callback_frequency n (with_callback CbDefault (with_stage2_tracking (with_stage1_tracking obs_new))).
Definition watched (n : nat) (o : oqnlp) : oqnlp := set_o_observer (Some (watcher n)) o.
(** a callback is invoked three times, and the result is not empty *)
Example C38_example : callbacks_ok wells_env /\ ob_frequency (watcher 2) <> 0 /\
  called (record_of wells_env (watched 2 (sequential demo_oqnlp))) = [4; 2; 0] /\
  called (record_of wells_env (sequential demo_oqnlp)) = [] /\
  result_of wells_env (watched 2 (sequential demo_oqnlp)) = Ok [sol1 (of_Z (-2)) f0].
Proof.
  split; [intros n o H; exact H|]. split; [discriminate|]. split; [vm_compute; reflexivity|]. split; vm_compute; reflexivity.
Qed.

(** C39: counters never decrease, and improved calls are at most the calls; *)
Theorem C39_stage1_counters : forall h s,
  s1_evals s <= s1_evals (fold_left do1 h s) /\ s1_trials s <= s1_trials (fold_left do1 h s).
Proof. exact counters1. Qed.
Print Assumptions C39_stage1_counters.
Theorem C39_stage2_counters : forall h s, let s' := fold_left do2 h s in
  s2_evals s <= s2_evals s' /\ s2_calls s <= s2_calls s' /\ s2_improved s <= s2_improved s' /\
  s2_improved s' + s2_calls s <= s2_improved s + s2_calls s'.
Proof. exact counters2. Qed.
Print Assumptions C39_stage2_counters.
(** the best value is the least of the values reported, *)
Theorem C39_best : forall h1 h2, best_of (reported1 h1) (s1_best (fold_left do1 h1 s1_new)) /\
  best_of (reported2 h2) (s2_best (fold_left do2 h2 s2_new)).
Proof. exact (fun h1 h2 => conj (best1 h1) (best2 h2)). Qed.
Print Assumptions C39_best.
(** and once it is a number it never increases. *)
Theorem C39_decreasing : forall h1 h2 s1 s2,
  (is_nan (s1_best s1) = false -> fle (s1_best (fold_left do1 h1 s1)) (s1_best s1) = true) /\
  (is_nan (s2_best s2) = false -> fle (s2_best (fold_left do2 h2 s2)) (s2_best s2) = true).
Proof. exact (fun h1 h2 s1 s2 => conj (down1 h1 s1) (down2 h2 s2)). Qed.
Print Assumptions C39_decreasing.
Example C39_example :
  let s := fold_left do2 [Best2 (of_Z 3); LocalCall true; Solution2 (of_Z 1) [f0]; LocalCall false; Best2 (of_Z 2); Evals2 7] s2_new in
  s2_best s = of_Z 1 /\ s2_calls s = 2 /\ s2_improved s = 1 /\ s2_evals s = 7.
Proof. repeat split. Qed.

(** C40, sequential mode: when an iteration begins, the callbacks so far were for exactly
    those earlier iterations whose index is a multiple of the frequency; *)
Theorem C40_sequential : forall E s r s' new l1 i l2, env_ok E -> callbacks_keep_settings E ->
  run E s = (r, s') -> recorded s s' new -> o_parallel (s_o s') = false -> new = l1 ++ EvIteration i :: l2 ->
  called l2 = filter (due (callback_frequency (s_o s'))) (begun l2).
Proof.
  exact (fun E s r s' new l1 i l2 Hok Hcb Hrun Hnew Hpar H =>
    proj1 (before_iteration E Hok Hcb s s' r new Hrun Hnew Hpar l1 i l2 H)).
Qed.
Print Assumptions C40_sequential.
(** when the run ends, the same holds for all iterations, except the last when it reached the
    target. *)
Theorem C40_sequential_end : forall E s set s' new, env_ok E -> callbacks_keep_settings E ->
  run E s = (Ok set, s') -> recorded s s' new -> o_parallel (s_o s') = false ->
  called new = filter (due (callback_frequency (s_o s'))) (begun new) \/
  target_hit E (s_o s') set /\ called new = filter (due (callback_frequency (s_o s'))) (tl (begun new)).
Proof. exact callbacks_at_end. Qed.
Print Assumptions C40_sequential_end.
Example C40_example : callbacks_keep_settings wells_env /\
  begun (record_of wells_env (watched 2 (sequential demo_oqnlp))) = [5; 4; 3; 2; 1; 0] /\
  called (record_of wells_env (watched 2 (sequential demo_oqnlp))) = [4; 2; 0].
Proof. split; [split; reflexivity|]. split; vm_compute; reflexivity. Qed.
(** C40 is false of the code for batches: the only accepted candidate of a batch calls back
    whatever its index. *)
Definition C40_full : Prop := forall E p o ob n r s' new i ob', env_ok E -> callbacks_keep_settings E -> oq_new p = Ok o ->
  ob_frequency ob <> 0 -> n <> 0 -> run E (start_state (set_o_batch (Some n) (set_o_observer (Some ob) o))) = (r, s') ->
  recorded (start_state o) s' new -> In (EvCallback (Some i) ob') new -> multiple (ob_frequency ob) i = true.
Definition off_beat (n : nat) (e : event) : bool :=
  match e with EvCallback (Some i) _ => negb (multiple n i) | _ => false end.
Theorem C40_parallel_refuted : ~ C40_full.
Proof.
  intro H. set (o := set_o_batch (Some 4) (set_o_observer (Some (watcher 5)) demo_oqnlp)).
  assert (Hb : existsb (off_beat 5) (record_of wells_env o) = true) by (vm_compute; reflexivity).
  apply existsb_exists in Hb as (e & Hin & Hm).
  destruct e as [| | | | | | | |[i|] ob'| | | | |]; try discriminate Hm.
  pose proof (H wells_env demo_params demo_oqnlp (watcher 5) 4 _ _ _ i ob' (demo_env_ok _ _) (fun n o => conj eq_refl eq_refl) eq_refl
    (Nat.neq_succ_0 4) (Nat.neq_succ_0 3) (run_pair wells_env o) (record_recorded wells_env o) Hin) as G.
  change (negb (multiple 5 i) = true) in Hm. change (multiple 5 i = true) in G. rewrite G in Hm. discriminate Hm.
Qed.
Print Assumptions C40_parallel_refuted.
(** What holds in every mode and for every batch size: in a run that returns a set, the
    iterations that are due call back once each and in their order (except the last when it
    reached the target); in every run, any other callback is that of the only candidate its batch
    accepted.  Missing: that there are no other callbacks. *)
Theorem C40_batches_partial : forall E s r s' new, callbacks_keep_settings E -> run E s = (r, s') -> recorded s s' new ->
  let q := callback_frequency (s_o s') in
  (forall l1 i ob l2, new = l1 ++ EvCallback (Some i) ob :: l2 -> due q i = true \/ accepted (this_batch l2) = [i]) /\
  (forall set, r = Ok set -> filter (due q) (called new) = filter (due q) (begun new) \/
     target_hit E (s_o s') set /\ filter (due q) (called new) = filter (due q) (tl (begun new))).
Proof. exact c40_any. Qed.
Print Assumptions C40_batches_partial.
Definition in_fours : oqnlp := set_o_batch (Some 4) (set_o_observer (Some (watcher 5)) demo_oqnlp).
Example C40_batches_example : callbacks_keep_settings wells_env /\
  (begun (record_of wells_env in_fours), called (record_of wells_env in_fours)) = ([4; 5; 3; 2; 1; 0], [4; 5; 0]).
Proof. split; [split; reflexivity|]. vm_compute; reflexivity. Qed.

(** C41: what an observer exposes after any history of calls. *)
Theorem C41_exposed : forall user h, only_looks user -> let o := after user h in
  ((exists s, obs_stage1 o = Some s) <-> In TrackStage1 h /\ ~ In Stage1Complete h) /\
  ((exists s, obs_stage1_final o = Some s) <-> In TrackStage1 h) /\
  ((exists s, obs_stage2 o = Some s) <-> In TrackStage2 h /\ In Stage2Started h).
Proof. exact c41. Qed.
Print Assumptions C41_exposed.
Example C41_example : let o := after (fun _ o => o) [TrackStage1; Update1 (Evals1 3); Stage1Complete; TrackStage2; SetMode Stage2Only; Stage2Started] in
  obs_stage1 o = None /\ (exists s, obs_stage1_final o = Some s /\ s1_evals s = 3) /\ obs_stage2 o = Some s2_new.
Proof. simpl. split; [reflexivity|]. split; [eexists; split; reflexivity|reflexivity]. Qed.

(** C42 is false of the code: a local search that finds a new best solution is not counted as
    improving. *)
Definition C42_full : Prop := forall E p o ob st0 set s' new l st, env_ok E -> callbacks_keep_stage2 E -> oq_new p = Ok o ->
  tracks2 (set_o_observer (Some ob) o) st0 -> run E (start_state (sequential (set_o_observer (Some ob) o))) = (Ok set, s') ->
  recorded (start_state o) s' new -> stage2_part new l -> stage2_of (s_o s') = Some st ->
  s2_improved st = s2_improved st0 + stores l.
Definition patient : params := with_wait 5 demo_params.
Definition late_run : oqnlp := sequential (set_o_observer (Some (watcher 1)) (made patient)).
(** the part of a record after the first batch start *)
Fixpoint after_batch (l : list event) : option (list event) :=
  match l with
  | [] => None
  | EvBatch :: r => match after_batch r with Some a => Some (EvBatch :: a) | None => Some [] end
  | e :: r => option_map (cons e) (after_batch r)
  end.
Lemma after_batch_part : forall l a, after_batch l = Some a -> stage2_part l a.
Proof.
  assert (N : forall l, after_batch l = None -> ~ In EvBatch l).
  { induction l as [|e l IH]; [intros _ []|]. intros H [G|G]; [subst e; simpl in H; destruct (after_batch l); discriminate|].
    destruct e; simpl in H; try (destruct (after_batch l); [discriminate|exact (IH eq_refl G)]). }
  induction l as [|e l IH]; intros a H; [discriminate|].
  destruct e; simpl in H;
    try (destruct (after_batch l) as [x|]; [|discriminate]; injection H as <-;
         destruct (IH _ eq_refl) as (b & -> & Hb); exists b; split; [reflexivity|exact Hb]).
  destruct (after_batch l) as [x|] eqn:Hl; injection H as <-.
  - destruct (IH _ eq_refl) as (b & -> & Hb). exists b. split; [reflexivity|exact Hb].
  - exists l. split; [reflexivity|exact (N l Hl)].
Qed.
Lemma map_some : forall A B (f : A -> B) x b, option_map f x = Some b -> exists a, x = Some a /\ f a = b.
Proof. intros A B f [a|] b H; [|discriminate H]. injection H as <-. exists a. auto. Qed.
Theorem C42_improved_refuted : ~ C42_full.
Proof.
  intro H.
  assert (Hset : exists set, result_of late_env late_run = Ok set) by (exists [sol1 (of_Z (-2)) f0]; vm_compute; reflexivity).
  destruct Hset as [set Hset].
  destruct (after_batch (record_of late_env late_run)) as [l|] eqn:Hl; [|vm_compute in Hl; discriminate Hl].
  assert (Hs : stores l = 1) by (change (stores (match Some l with Some x => x | None => [] end) = 1); rewrite <- Hl; vm_compute; reflexivity).
  assert (Hst : option_map s2_improved (stage2_of (s_o (state_of late_env late_run))) = Some 0) by (vm_compute; reflexivity).
  apply (map_some _ _ _ _ _) in Hst as (st & E2 & Hst).
  assert (Hrun : run late_env (start_state late_run) = (Ok set, state_of late_env late_run)) by (rewrite <- Hset; apply run_pair).
  assert (G : s2_improved st = 0 + stores l).
  { refine (H late_env patient (made patient) (watcher 1) s2_new set _ _ l st (demo_env_ok _ _) (fun n o => conj eq_refl eq_refl) eq_refl _ Hrun
      (record_recorded late_env late_run) (after_batch_part _ _ Hl) E2).
    exists (watcher 1). split; [reflexivity|]. split; [discriminate|reflexivity]. }
  rewrite Hst, Hs in G. discriminate G.
Qed.
Print Assumptions C42_improved_refuted.
(** What holds: every local solution processed in Stage 2 is counted as a call, and the improved
    calls are exactly those that stored a set holding an earlier solution beside the new one, and
    the one that stored the run's very first solution.  Missing: the calls that find a new best
    and replace the set. *)
Theorem C42_calls_partial : forall E s st0 set s' new l before, callbacks_keep_stage2 E -> tracks2 (s_o s) st0 ->
  run E s = (Ok set, s') -> recorded s s' new -> new = l ++ EvBatch :: before -> ~ In EvBatch before ->
  exists st, tracks2 (s_o s') st /\ s2_calls st = s2_calls st0 + results l /\ s2_improved st <= s2_improved st0 + stores l /\
    (begins_with_set E s \/ 0 < stores before -> s2_improved st = s2_improved st0 + joins l) /\
    (~ begins_with_set E s -> stores before = 0 -> s2_improved st = s2_improved st0 + joins l + Nat.min 1 (stores l)).
Proof. exact c42_improved. Qed.
Print Assumptions C42_calls_partial.
(** a local solver that leaves the box from the best scatter-search point *)
Definition stray : ext :=
  mk_ext (fun _ => true) (fun _ _ => XFail 1%N)
    (fun j => match cj_x0 j with
              | [x] => let y := if flt x (lit (-22) 10) && flt (lit (-25) 10) x then of_Z 7
                                else if flt x f0 then of_Z (-2) else of_Z 2 in
                       XDone [y] (cj_objective j [y]) 3%N
              | _ => XFail 2%N
              end).
Definition stray_env : env := demo_env two_wells stray.
Definition stray_run : oqnlp := set_exclude_out_of_bounds true late_run.
(** one Stage 2 call joins the set of Stage 1; when Stage 1 stores nothing the first call is counted *)
Example C42_example : option_map (fun s => (s2_calls s, s2_improved s)) (stage2_of (s_o (state_of wells_env (watched 1 demo_oqnlp)))) = Some (2, 1) /\
  option_map (fun l => (results l, stores l, joins l)) (after_batch (record_of wells_env (watched 1 demo_oqnlp))) = Some (2, 1, 1) /\
  option_map (fun s => (s2_calls s, s2_improved s)) (stage2_of (s_o (state_of stray_env stray_run))) = Some (1, 1) /\
  option_map (fun l => (results l, stores l, joins l)) (after_batch (record_of stray_env stray_run)) = Some (1, 1, 0) /\
  stores (record_of stray_env stray_run) = 1.
Proof. repeat split; vm_compute; reflexivity. Qed.

(** C43 is false of the code: the evaluations of trial points are not counted. *)
Definition C43_full : Prop := forall E p o ob r s' st, env_ok E -> oq_new p = Ok o ->
  run E (start_state (set_o_observer (Some ob) o)) = (r, s') -> stage1_of (s_o s') = Some st ->
  List.length (reference_set s') + s1_trials st <= s1_evals st.
Theorem C43_evaluations_refuted : ~ C43_full.
Proof.
  intro H.
  assert (Hst : option_map (fun st => List.length (reference_set (state_of wells_env (watched 1 demo_oqnlp))) + s1_trials st <=? s1_evals st)
    (stage1_of (s_o (state_of wells_env (watched 1 demo_oqnlp)))) = Some false) by (vm_compute; reflexivity).
  apply (map_some _ _ _ _ _) in Hst as (st & E1 & Hst). apply Nat.leb_gt in Hst.
  pose proof (H wells_env demo_params demo_oqnlp (watcher 1) _ _ st (demo_env_ok _ _) eq_refl (run_pair wells_env (watched 1 demo_oqnlp)) E1) as G.
  exact (Nat.lt_irrefl _ (Nat.le_lt_trans _ _ _ G Hst)).
Qed.
Print Assumptions C43_evaluations_refuted.
(** What holds.  A scatter search evaluates [n] initial points first; these, and only these,
    are counted as evaluations.  The [3 * (k * (k - 1))] trial points are counted as trial
    points; at most so many more evaluations are made, and they are the ones not counted. *)
Theorem C43_search_partial : forall E p s pts best s' st0, env_ok E -> callbacks_keep_stage1 E -> built E p s ->
  observing1 (ss_observer s) st0 -> ss_run E s = (Ok (pts, best), s') ->
  let n := Nat.max (p_population p) (List.length (starting_points (e_problem E) (custom_points s))) in
  let k := sample_size n in
  (Z.of_nat n < 2 ^ 52)%Z ->
  exists st first later, observing1 (ss_observer s') st /\ evaluations (ss_log s') = first ++ later /\ List.length first = n /\
    s1_evals st = s1_evals st0 + List.length first /\ s1_trials st = s1_trials st0 + 3 * (k * (k - 1)) /\
    List.length later <= 3 * (k * (k - 1)).
Proof. exact c43_search. Qed.
Print Assumptions C43_search_partial.
(** A run adds what the local search of Stage 1 reports, and Stage 2 changes neither counter.
    Missing: the evaluations [later] of trial points. *)
Theorem C43_run_partial : forall E s set s' new st0, env_ok E -> callbacks_keep_stage1 E -> observing1 (o_observer (s_o s)) st0 ->
  (forall cp, ~ resumes_from E s cp) -> run E s = (Ok set, s') -> recorded s s' new ->
  let n := Nat.max (p_population (o_params (s_o s)))
    (List.length (starting_points (e_problem E) (match o_custom (s_o s) with Some c => c | None => [] end))) in
  let k := sample_size n in
  (Z.of_nat n < 2 ^ 52)%Z ->
  exists st first later cand searched, observing1 (o_observer (s_o s')) st /\ stage1_evaluations new = first ++ later /\
    List.length first = n /\ In (EvSearch None cand) new /\ search_reports E (s_o s) cand searched /\
    s1_evals st = s1_evals st0 + List.length first + searched /\
    s1_trials st = s1_trials st0 + 3 * (k * (k - 1)) /\ List.length later <= 3 * (k * (k - 1)).
Proof. exact c43_run. Qed.
Print Assumptions C43_run_partial.
Example C43_example : callbacks_keep_stage1 wells_env /\ observing1 (o_observer (watched 1 demo_oqnlp)) s1_new /\
  (forall cp, ~ resumes_from wells_env (start_state (watched 1 demo_oqnlp)) cp) /\
  option_map (fun st => (s1_evals st, s1_trials st)) (stage1_of (s_o (state_of wells_env (watched 1 demo_oqnlp)))) = Some (9, 6) /\
  List.length (stage1_evaluations (record_of wells_env (watched 1 demo_oqnlp))) = 6.
Proof.
  split; [intros n o; auto|]. split; [exists (watcher 1); split; [reflexivity|split; [discriminate|reflexivity]]|].
  split; [intros cp (c & H & _); discriminate H|]. split; vm_compute; reflexivity.
Qed.

(** C65: with [unique_updates], successive invocations of the default callback in Stage 2
    print a line exactly for the states that differ from the state seen before. *)
Theorem C65_unique_lines : forall user states o, ob_callback o = Some CbDefault -> ob_filter o = true ->
  ob_stage2_started o = true -> obs_stage1 o = None -> forall prev, ob_previous o = option_map prev_of prev ->
  exists out, lines prev states out /\ shown user o states = map MsgStage2 out.
Proof. exact c65_lines. Qed.
Print Assumptions C65_unique_lines.
(** three invocations, the second in an unchanged state *)
Example C65_example : let a := do2 (do2 s2_new (Iteration 1)) (Best2 f1) in let b := do2 a (Unchanged 4) in
  let c := do2 b (LocalCall true) in
  let o := fold_left (odo (fun _ o => o)) [TrackStage2; SetCallback CbDefault; UniqueUpdates; Stage2Started] obs_new in
  ob_callback o = Some CbDefault /\ ob_filter o = true /\ ob_previous o = None /\
  shown (fun _ o => o) o [a; b; c] = [MsgStage2 a; MsgStage2 c].
Proof. repeat split. Qed.

(** C67: a run that succeeds, and that neither reached the target nor exceeded the time limit,
    has judged every candidate from the first index to the work bound (and none twice). *)
Theorem C67_all_candidates : forall E s set s' new, env_ok E -> run E s = (Ok set, s') -> recorded s s' new ->
  target_hit E (s_o s') set \/
  (exists m v, o_max_time (s_o s') = Some m /\ In (EvClock v) new /\ fgt v m = true) \/
  NoDup (decided new) /\ exists start, first_index E s start /\
    forall i, start <= i -> i < work_bound s' -> In i (decided new).
Proof. exact c67_all. Qed.
Print Assumptions C67_all_candidates.
Example C67_example : work_bound (state_of wells_env demo_oqnlp) = 6 /\ o_max_time demo_oqnlp = None /\ o_target demo_oqnlp = None /\
  decided (record_of wells_env demo_oqnlp) = [5; 4; 3; 2; 1; 0].
Proof. repeat split; vm_compute; reflexivity. Qed.

(** C81 is false of the code: the evaluations of the searches of a batch that come after the
    one that reaches the target are not counted. *)
Definition C81_full : Prop := forall E s st0 set s' new, env_ok E -> callbacks_keep_stage2 E -> tracks2 (s_o s) st0 ->
  run E s = (Ok set, s') -> recorded s s' new ->
  exists st n, tracks2 (s_o s') st /\ stage2_work E (s_o s') new n /\ s2_evals st = s2_evals st0 + n.
(** when every search reports three evaluations *)
Fixpoint by_threes (l : list event) : nat :=
  match l with
  | [] => 0
  | EvObjective _ _ :: r => S (by_threes r)
  | EvSearch (Some _) _ :: r => 3 + by_threes r
  | _ :: r => by_threes r
  end.
Lemma work_by_threes : forall E o l n, (forall p k, tracked_search E o p k -> k = 3) -> stage2_work E o l n -> n = by_threes l.
Proof.
  intros E o l n H Hw. induction Hw as [|i p l n Hw IH|i p k l n Hk Hw IH|e l n H1 H2 Hw IH]; simpl.
  - reflexivity.
  - rewrite IH. reflexivity.
  - apply H in Hk. rewrite Hk, IH. reflexivity.
  - destruct e; simpl; try exact IH; try (exfalso; eapply H1; reflexivity).
    match goal with |- context [match ?x with Some _ => _ | None => _ end] => destruct x; [exfalso; eapply H2; reflexivity|exact IH] end.
Qed.
Lemma cobyla_threes : forall E o p k, (forall j x v n, cobyla_run (e_ext E) j = XDone x v n -> n = 3%N) ->
  o_solver_type o = COBYLA -> p_solver_type (o_params o) = COBYLA -> tracked_search E o p k -> k = 3.
Proof.
  intros E o p k Hc H1 H2 (ty & cfg & x & n & H & -> & Hty). assert (T : ty = COBYLA) by (destruct Hty as [[-> _]|[-> _]]; auto).
  subst ty. clear Hty H1 H2. simpl in H. unfold solve_cobyla in H. destruct cfg; try discriminate H.
  destruct (Nat.eqb _ _); [|discriminate H]. destruct (cobyla_run _ _) as [y v m|r] eqn:Hj; [|discriminate H].
  apply Hc in Hj. injection H as _ <-. subst m. reflexivity.
Qed.
Lemma late_cobyla : forall j x v n, cobyla_run (e_ext late_env) j = XDone x v n -> n = 3%N.
Proof. intros j x v n H. simpl in H. destruct (cj_x0 j) as [|a [|]]; try discriminate H. injection H. auto. Qed.
(** searches of six candidates run together, and the first result reaches the target *)
Definition lost_run : oqnlp := set_o_batch (Some 6) (target_objective f1 (watched 1 demo_oqnlp)).
Theorem C81_lost_refuted : ~ C81_full.
Proof.
  intro H.
  assert (Hset : exists set, result_of late_env lost_run = Ok set) by (exists [sol1 (of_Z (-2)) f0]; vm_compute; reflexivity).
  destruct Hset as (set & Hset).
  assert (Hrun : run late_env (start_state lost_run) = (Ok set, state_of late_env lost_run)) by (rewrite <- Hset; apply run_pair).
  assert (Hw : by_threes (record_of late_env lost_run) = 15) by (vm_compute; reflexivity).
  assert (Hst : option_map s2_evals (stage2_of (s_o (state_of late_env lost_run))) = Some 3) by (vm_compute; reflexivity).
  assert (S1 : o_solver_type (s_o (state_of late_env lost_run)) = COBYLA) by (vm_compute; reflexivity).
  assert (S2 : p_solver_type (o_params (s_o (state_of late_env lost_run))) = COBYLA) by (vm_compute; reflexivity).
  assert (T : tracks2 (s_o (start_state lost_run)) s2_new) by (exists (watcher 1); split; [reflexivity|split; [discriminate|reflexivity]]).
  pose proof (H late_env (start_state lost_run) s2_new set (state_of late_env lost_run) (record_of late_env lost_run) (demo_env_ok _ _)
    (fun n o => conj eq_refl eq_refl) T Hrun (record_recorded late_env lost_run)) as G.
  clear H Hset Hrun T. revert Hw Hst S1 S2 G. generalize (state_of late_env lost_run) (record_of late_env lost_run).
  intros s' new Hw Hst S1 S2 (st & n & (ob & T1 & T2 & T3) & W & Q).
  apply work_by_threes in W; [|intros p k; apply cobyla_threes; auto; apply late_cobyla]. rewrite Hw in W.
  unfold stage2_of in Hst. rewrite T1 in Hst. unfold obs_stage2, should_observe_stage2 in Hst. rewrite T3 in Hst. clear - Hst T2 W Q.
  destruct (ob_mode ob); [apply T2; reflexivity| |]; injection Hst as Hst; rewrite Hst, W in Q; discriminate Q.
Qed.
Print Assumptions C81_lost_refuted.
(** What holds.  Never more evaluations are counted than are made; and without a target, or
    when candidates are worked one after the other, none is missed: the counter grows by one
    for each candidate evaluated in Stage 2 (those of a resumed run, whose values are not
    known) and by what each local search of Stage 2 reports.
    Missing: a batch of searches of which one reaches the target. *)
Theorem C81_counted_partial : forall E s st0 set s' new, callbacks_keep_stage2 E -> tracks2 (s_o s) st0 ->
  run E s = (Ok set, s') -> recorded s s' new -> (o_parallel (s_o s') = false \/ o_target (s_o s') = None) ->
  exists st n, tracks2 (s_o s') st /\ stage2_work E (s_o s') new n /\ s2_evals st = s2_evals st0 + n.
Proof. exact c81_counted. Qed.
Print Assumptions C81_counted_partial.
Theorem C81_never_more : forall E s st0 set s' new, callbacks_keep_stage2 E -> tracks2 (s_o s) st0 ->
  run E s = (Ok set, s') -> recorded s s' new ->
  exists st n, tracks2 (s_o s') st /\ stage2_work E (s_o s') new n /\ s2_evals st <= s2_evals st0 + n.
Proof. exact c81_never_more. Qed.
Print Assumptions C81_never_more.
(** a run counts two searches of three evaluations; the next, which resumes it, adds the
    candidate it evaluates and a search *)
Example C81_example : callbacks_keep_stage2 wells_env /\ tracks2 (watched 1 demo_oqnlp) s2_new /\
  o_target (s_o (state_of wells_env (watched 1 demo_oqnlp))) = None /\
  option_map s2_evals (stage2_of (s_o (state_of wells_env (watched 1 demo_oqnlp)))) = Some 6 /\
  by_threes (record_of wells_env (watched 1 demo_oqnlp)) = 6 /\
  option_map s2_evals (stage2_of (s_o (again_state wells_env (saving (watched 1 demo_oqnlp))))) = Some 10 /\
  by_threes (again_record wells_env (saving (watched 1 demo_oqnlp))) = 4.
Proof.
  split; [intros n o; auto|]. split; [exists (watcher 1); split; [reflexivity|split; [discriminate|reflexivity]]|].
  repeat split; vm_compute; reflexivity.
Qed.

(** * Properties of the times that are reported (C82, C83)

    Statements only; the proofs are lemmas of TimingP.v and ElapsedP.v.  [run_timed] is the
    optimization with the timers of the observer; [total_time now] and [elapsed_time now]
    are the calls made at the instant [now]. *)
From Coq Require Import ZArith NArith List Bool Arith Lia Sorted String.
From Verif Require Import F64 Base Builders Types Filters Runner Observer Env EnvSpec ScatterSearch Codec
  Checkpoint Oqnlp Timing Spec SpecStage2 SpecObserver SpecTiming Demo Demo2 DemoCp TimingP ElapsedP
  Properties_Stage2 Properties_Observer.
Import ListNotations.

(** the timers are only read out: the optimization is the one the other properties are about *)
Theorem C82_same_run : forall E clock t r t', run_timed E clock t = (r, t') -> run E (t_st t) = (r, t_st t').
Proof. intros E clock t r t' H. pose proof (er_run E clock t) as X. rewrite H in X. exact X. Qed.
Print Assumptions C82_same_run.
(** C82 is false of the code: after a finished run, total_time() of a stage goes on growing,
    although it is documented to be the time spent in the stage once the stage is over. *)
Definition C82_full : Prop := forall E clock t set t' now, goes_forward clock ->
  run_timed E clock t = (Ok set, t') -> (clock (t_reads t') <= now)%Z ->
  total_time now (ck_stage1 (t_ck t')) = total_time (clock (t_reads t')) (ck_stage1 (t_ck t')) /\
  total_time now (ck_stage2 (t_ck t')) = total_time (clock (t_reads t')) (ck_stage2 (t_ck t')).
Definition seconds (n : nat) : instant := (Z.of_nat n * 10 ^ 9)%Z.
Lemma seconds_forward : goes_forward seconds.
Proof. intros m n H. unfold seconds. lia. Qed.
Definition timed_result (o : oqnlp) := fst (run_timed wells_env seconds (started (start_state o))).
Definition timed_state (o : oqnlp) := snd (run_timed wells_env seconds (started (start_state o))).
Definition watched_run : oqnlp := watched 2 (sequential demo_oqnlp).
Theorem C82_keeps_growing_refuted : ~ C82_full.
Proof.
  intro H. assert (R : timed_result watched_run = Ok [sol1 (of_Z (-2)) f0]) by (vm_compute; reflexivity).
  assert (T : t_reads (timed_state watched_run) = 5) by (vm_compute; reflexivity).
  assert (A : total_time (seconds 5) (ck_stage1 (t_ck (timed_state watched_run))) = Some 5000000000%Z) by (vm_compute; reflexivity).
  assert (B : total_time (seconds 6) (ck_stage1 (t_ck (timed_state watched_run))) = Some 6000000000%Z) by (vm_compute; reflexivity).
  assert (P : run_timed wells_env seconds (started (start_state watched_run)) = (Ok [sol1 (of_Z (-2)) f0], timed_state watched_run)).
  { rewrite <- R. unfold timed_result, timed_state. apply surjective_pairing. }
  pose proof (H wells_env seconds _ _ _ (seconds 6) seconds_forward P) as X. clear P R H. revert T A B X.
  generalize (timed_state watched_run). intros t T A B X. rewrite T in X. destruct X as [X _]; [unfold seconds; lia|].
  rewrite A, B in X. discriminate X.
Qed.
Print Assumptions C82_keeps_growing_refuted.
(** What holds for every run, also one that fails: total_time() of Stage 1 is the time since
    this run was started if the observer tracks Stage 1 (also when the run resumes and has no
    Stage 1), and otherwise what it was before the run.  Missing: it stops at the stage's end. *)
Theorem C82_stage1_partial : forall E clock t, let t' := snd (run_timed E clock t) in
  if observes1 (s_o (t_st t))
  then let a := t_reads t + (if timing (s_o (t_st t)) then 1 else 0) in
       a < t_reads t' /\ reads_since clock a (ck_stage1 (t_ck t'))
  else reads_as (ck_stage1 (t_ck t)) (ck_stage1 (t_ck t')).
Proof. exact c82_stage1. Qed.
Print Assumptions C82_stage1_partial.
(** total_time() of Stage 2 is the time since an instant of this run (the start of Stage 2)
    once a batch was begun, and what it was before the run if Stage 2 is not tracked.  Missing:
    it stops at the stage's end. *)
Theorem C82_stage2_partial : forall E clock, callbacks_keep_stage2 E -> forall t new,
  let t' := snd (run_timed E clock t) in
  w_trace (s_w (t_st t')) = new ++ w_trace (s_w (t_st t)) ->
  (In EvBatch new -> observes2 (s_o (t_st t)) = true ->
   exists a, t_reads t <= a < t_reads t' /\ reads_since clock a (ck_stage2 (t_ck t'))) /\
  (observes2 (s_o (t_st t)) = false -> reads_as (ck_stage2 (t_ck t)) (ck_stage2 (t_ck t'))).
Proof. exact c82_stage2. Qed.
Print Assumptions C82_stage2_partial.
(** elapsed_time() of the observer is the time since the start of the last run, if timing was
    switched on, and otherwise what it was before *)
Theorem C82_elapsed : forall E clock t now,
  elapsed_time now (t_ck (snd (run_timed E clock t))) =
  if timing (s_o (t_st t)) then Some (elapsed now (clock (t_reads t))) else elapsed_time now (t_ck t).
Proof. exact c82_run_time. Qed.
Print Assumptions C82_elapsed.
(** a run with both stages tracked and timed: the timers are those of readings 0, 1 and 4 *)
Definition timed_run : oqnlp := set_o_observer (Some (with_timing (watcher 2))) (sequential demo_oqnlp).
Example C82_example : observes1 (s_o (start_state timed_run)) = true /\ observes2 (s_o (start_state timed_run)) = true /\
  timing timed_run = true /\ In EvBatch (w_trace (s_w (t_st (timed_state timed_run)))) /\
  t_reads (timed_state timed_run) = 6 /\
  (let c := t_ck (timed_state timed_run) in
   (elapsed_time (seconds 9) c, total_time (seconds 9) (ck_stage1 c), total_time (seconds 9) (ck_stage2 c)) =
   (Some 9000000000%Z, Some 8000000000%Z, Some 5000000000%Z)).
Proof.
  split; [reflexivity|]. split; [reflexivity|]. split; [reflexivity|]. split; [|split; vm_compute; reflexivity].
  assert (X : existsb (fun e => match e with EvBatch => true | _ => false end) (w_trace (s_w (t_st (timed_state timed_run)))) = true) by (vm_compute; reflexivity).
  revert X. generalize (w_trace (s_w (t_st (timed_state timed_run)))). intros l X. apply existsb_exists in X as (e & H & He).
  destruct e; try discriminate He. exact H.
Qed.

(** C83 is false of the code: a process that resumes from a checkpoint counts from zero, so it
    stores less elapsed time than the checkpoint it continues. *)
Definition C83_full : Prop := forall E1 E2 s o cp y, never_back (e_clock E1) -> never_back (e_clock E2) ->
  let s2 := next_process (snd (run E1 s)) o in
  resumes_from E2 s2 cp -> In y (elapsed_times (w_trace (s_w (snd (run E2 s2))))) -> fle (cp_elapsed cp) y = true.
(** a clock that shows 0 at first and 1 from then on *)
Definition slow (n : nat) : f64 := if n =? 0 then f0 else f1.
Lemma slow_forward : never_back slow.
Proof. intros m n H. unfold slow. destruct (Nat.eqb_spec m 0), (Nat.eqb_spec n 0); try reflexivity. lia. Qed.
Definition first_env : env := with_clock slow wells_env.
(** the second process saves before its clock moves *)
Definition second_env : env := with_clock (fun _ => f0) wells_env.
Definition saver : oqnlp := saving (sequential demo_oqnlp).
Definition second : st := next_process (state_of first_env saver) saver.
Definition second_cp : checkpoint :=
  match fst (load_latest second_env each_iteration (snd (checkpoint_exists second_env each_iteration (w_disk (s_w second))))) with
  | Ok cp => cp | _ => early_cp end.
Theorem C83_resume_refuted : ~ C83_full.
Proof.
  intro H. assert (R : resumes_from second_env second second_cp).
  { exists each_iteration. split; [reflexivity|]. split; [reflexivity|]. split; vm_compute; reflexivity. }
  assert (C : cp_elapsed second_cp = f1) by (vm_compute; reflexivity).
  assert (N : exists l, elapsed_times (w_trace (s_w (snd (run second_env second)))) = f0 :: l).
  { exists [f0]. vm_compute. reflexivity. }
  assert (B : never_back (e_clock second_env)) by (intros m n _; reflexivity).
  pose proof (H first_env second_env (start_state saver) saver second_cp f0 slow_forward B) as X. cbv zeta in X.
  assert (Q : next_process (snd (run first_env (start_state saver))) saver = second) by (unfold second, state_of; reflexivity).
  rewrite Q in X. specialize (X R). clear R H Q B. revert X C N. generalize second_cp.
  generalize (elapsed_times (w_trace (s_w (snd (run second_env second))))). intros l c X C [l' N].
  rewrite N, C in X. specialize (X (or_introl eq_refl)). discriminate X.
Qed.
Print Assumptions C83_resume_refuted.
(** What holds: within a process, whatever the settings and also when runs fail, each checkpoint
    stores what the clock showed at a reading of its own, later than those of the earlier ones. *)
Theorem C83_readings_partial : forall E s, exists new ks,
  w_trace (s_w (snd (run E s))) = new ++ w_trace (s_w s) /\ elapsed_times new = map (e_clock E) ks /\
  StronglySorted (fun later earlier => earlier < later) ks /\
  Forall (fun k => w_tick (s_w s) <= k < w_tick (s_w (snd (run E s)))) ks.
Proof. exact c83_readings. Qed.
Print Assumptions C83_readings_partial.
(** So with a clock that does not go back the stored times never decrease.  Missing: also over
    a restart. *)
Theorem C83_run_partial : forall E s new, w_trace (s_w (snd (run E s))) = new ++ w_trace (s_w s) -> never_back (e_clock E) ->
  StronglySorted (fun later earlier => fle earlier later = true) (elapsed_times new).
Proof. exact c83_run. Qed.
Print Assumptions C83_run_partial.
(** a run that saves seven times, the clock moving after the first *)
Example C83_example : never_back (e_clock first_env) /\
  elapsed_times (record_of first_env saver) = [f1; f1; f1; f1; f1; f1; f1].
Proof. split; [exact slow_forward|vm_compute; reflexivity]. Qed.

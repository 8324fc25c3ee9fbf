(** * Properties of the progress bars (C84, C85)

    Statements only; the proofs are lemmas of BarsP.v.  [run_bar E io (s, b)] is the
    optimization of a build with the feature progress_bar, started in [s] with the bars [b];
    [io n] says whether call number [n] of the progress bar library succeeds. *)
From Coq Require Import ZArith NArith List Bool Arith Lia String.
From Verif Require Import F64 Base Builders Types Filters Runner Observer Env EnvSpec ScatterSearch Codec
  Checkpoint Oqnlp Bars Spec SpecStage2 SpecObserver SpecSave Demo Demo2 DemoCp BarsP Properties_Stage2 Properties_Observer.
Import ListNotations.

(** C84: a build with progress bars runs the same optimization: the same result and the same
    state, if the bars can be drawn. *)
Definition all_drawn : nat -> bool := fun _ => true.
Theorem C84_same_run : forall E io s b, (forall n, io n = true) ->
  exists b', run_bar E io (s, b) = (fst (run E s), (snd (run E s), b')).
Proof.
  intros E io s b Hio. pose proof (tr_run io E s b) as G. destruct (run_bar E io (s, b)) as [r [s' b']].
  destruct G as [_ [[_ G]|[_ (n & _ & G)]]]; [rewrite G; simpl; eauto|rewrite Hio in G; discriminate G].
Qed.
Print Assumptions C84_same_run.
(** C84 is false of the code when a bar cannot be drawn (the terminal is gone): the run panics. *)
Definition C84_full : Prop := forall E io s b r s' b', run_bar E io (s, b) = (r, (s', b')) -> run E s = (r, s').
Definition bar_run (io : nat -> bool) (o : oqnlp) := run_bar wells_env io (start_state o, no_bars).
Lemma bar_run_parts : forall io o, run_bar wells_env io (start_state o, no_bars) =
  (fst (bar_run io o), (fst (snd (bar_run io o)), snd (snd (bar_run io o)))).
Proof. intros io o. unfold bar_run. destruct (run_bar wells_env io (start_state o, no_bars)) as [r [s b]]. reflexivity. Qed.
(** the seventh call, which builds the bar of Stage 2, fails *)
Definition broken : nat -> bool := fun n => n <? 6.
Theorem C84_terminal_refuted : ~ C84_full.
Proof.
  intro H. assert (R : fst (bar_run broken demo_oqnlp) = Panic) by (vm_compute; reflexivity).
  assert (O : count_of (result_of wells_env demo_oqnlp) = 2) by (vm_compute; reflexivity).
  pose proof (H _ _ _ _ _ _ _ (bar_run_parts broken demo_oqnlp)) as X. clear H. rewrite run_pair in X. revert X R O.
  generalize (bar_run broken demo_oqnlp). generalize (result_of wells_env demo_oqnlp). generalize (state_of wells_env demo_oqnlp).
  intros s r [r' sb] X R O. simpl in X, R. injection X as X _. rewrite X, R in O. discriminate O.
Qed.
Print Assumptions C84_terminal_refuted.
(** What holds for all runs, whatever fails: either each call of the library succeeded and the
    run is the one without bars, or a call failed and the run panics.  Missing: the run goes on
    when a call fails. *)
Theorem C84_panics_partial : forall E io s b r s' b', run_bar E io (s, b) = (r, (s', b')) ->
  ((forall n, bars_calls b <= n < bars_calls b' -> io n = true) /\ run E s = (r, s')) \/
  (r = Panic /\ exists n, bars_calls b <= n < bars_calls b' /\ io n = false).
Proof.
  intros E io s b r s' b' H. pose proof (tr_run io E s b) as G. rewrite H in G. exact (proj2 G).
Qed.
Print Assumptions C84_panics_partial.
(** the demonstration makes seven calls: two to build the bars and five in Stage 1 *)
Example C84_example : bars_calls (snd (snd (bar_run all_drawn demo_oqnlp))) = 7 /\
  fst (bar_run all_drawn demo_oqnlp) = result_of wells_env demo_oqnlp /\ count_of (result_of wells_env demo_oqnlp) = 2 /\
  bars_calls (snd (snd (bar_run broken demo_oqnlp))) = 7.
Proof. vm_compute. auto. Qed.

(** C85 is false of the code: after a run the bar of Stage 1 is not at its total... *)
Definition C85_stage1_full : Prop := forall E io s set s' b' v, run_bar E io (s, no_bars) = (Ok set, (s', b')) ->
  bars_1 b' = Some v -> bar_pos v = bar_total v.
Definition is_ok {X A} (r : outcome X A) : bool := match r with Ok _ => true | _ => false end.
Theorem C85_stage1_refuted : ~ C85_stage1_full.
Proof.
  intro H. assert (R : is_ok (fst (bar_run all_drawn demo_oqnlp)) = true) by (vm_compute; reflexivity).
  assert (B : bars_1 (snd (snd (bar_run all_drawn demo_oqnlp))) = Some (mk_bar 3 5 None)) by (vm_compute; reflexivity).
  pose proof (bar_run_parts all_drawn demo_oqnlp) as P. pose proof (fun set s' b' v => H wells_env all_drawn (start_state demo_oqnlp) set s' b' v) as X.
  clear H. revert P X R B. generalize (bar_run all_drawn demo_oqnlp). intros [r [s' b']]. simpl fst. simpl snd.
  generalize (run_bar wells_env all_drawn (start_state demo_oqnlp, no_bars)). intros u P X R B. destruct r as [set|e|]; try discriminate R.
  specialize (X _ _ _ _ P B). discriminate X.
Qed.
Print Assumptions C85_stage1_refuted.
(** ...and the bar of Stage 2 does not show how many iterations were begun. *)
Definition C85_stage2_full : Prop := forall E io s set s' b' v start new, run_bar E io (s, no_bars) = (Ok set, (s', b')) ->
  first_index E s start -> recorded s s' new -> bars_2 b' = Some v -> bar_pos v = start + List.length (begun new).
Theorem C85_stage2_refuted : ~ C85_stage2_full.
Proof.
  intro H. assert (R : is_ok (fst (bar_run all_drawn demo_oqnlp)) = true) by (vm_compute; reflexivity).
  assert (B : exists v, bars_2 (snd (snd (bar_run all_drawn demo_oqnlp))) = Some (mk_bar 6 0 (Some v))).
  { exists f0. vm_compute. reflexivity. }
  assert (N : List.length (begun (w_trace (s_w (fst (snd (bar_run all_drawn demo_oqnlp)))))) = 6) by (vm_compute; reflexivity).
  assert (F : first_index wells_env (start_state demo_oqnlp) 0).
  { left. split; [reflexivity|]. intros cp (c & C & _). discriminate C. }
  assert (Q : forall s', recorded (start_state demo_oqnlp) s' (w_trace (s_w s'))) by (intro; unfold recorded; simpl; rewrite app_nil_r; reflexivity).
  pose proof (bar_run_parts all_drawn demo_oqnlp) as P.
  pose proof (fun set s' b' v => H wells_env all_drawn (start_state demo_oqnlp) set s' b' v 0 (w_trace (s_w s'))) as X.
  clear H. revert P X R B N. generalize (bar_run all_drawn demo_oqnlp). intros [r [s' b']]. simpl fst. simpl snd.
  generalize (run_bar wells_env all_drawn (start_state demo_oqnlp, no_bars)). intros u P X R [v B] N. destruct r as [set|e|]; try discriminate R.
  specialize (X _ _ _ _ P F (Q _) B). rewrite N in X. discriminate X.
Qed.
Print Assumptions C85_stage2_refuted.
(** What holds: a fresh run that returned solutions has made five steps of the three of the
    Stage 1 bar; if a batch was begun, the bar of Stage 2 has the number of iterations set as
    total and stands at zero, whatever was done.  Missing: the bars show the progress made. *)
Theorem C85_fresh_partial : forall E io s b set s' b' new, (forall cp, ~ resumes_from E s cp) ->
  run_bar E io (s, b) = (Ok set, (s', b')) -> recorded s s' new ->
  bars_1 b' = Some (mk_bar 3 5 None) /\
  (In EvBatch new -> exists v, bars_2 b' = Some (mk_bar (p_iterations (o_params (s_o s))) 0 (Some v))).
Proof. exact c85_fresh. Qed.
Print Assumptions C85_fresh_partial.
(** A resumed run has no Stage 1 bar; the bar of Stage 2 stands where the checkpoint was, out
    of the checkpoint's iterations, and shows the checkpoint's best objective value (plus
    infinity if it has none). *)
Theorem C85_resumed_partial : forall E io s cp b set s' b', resumes_from E s cp ->
  run_bar E io (s, b) = (Ok set, (s', b')) ->
  bars_1 b' = bars_1 b /\
  bars_2 b' = Some (mk_bar (p_iterations (cp_params cp)) (cp_iteration cp)
    (Some match cp_solution_set cp with
          | Some l => match best_solution l with Some x => ls_obj x | None => pinf end
          | None => pinf
          end)).
Proof. exact c85_resumed. Qed.
Print Assumptions C85_resumed_partial.
Definition resuming : st := stopped_with (file_name each_iteration 0) demo_cp (saving (sequential demo_oqnlp)).
Example C85_example : (forall cp, ~ resumes_from wells_env (start_state demo_oqnlp) cp) /\
  resumes_from wells_env resuming demo_cp /\ is_ok (fst (run_bar wells_env all_drawn (resuming, no_bars))) = true /\
  bars_2 (snd (snd (run_bar wells_env all_drawn (resuming, no_bars)))) = Some (mk_bar 6 5 (Some f0)).
Proof.
  split; [intros cp (c & C & _); discriminate C|]. split; [|split; vm_compute; reflexivity].
  exists each_iteration. split; [reflexivity|]. split; [reflexivity|]. split; vm_compute; reflexivity.
Qed.

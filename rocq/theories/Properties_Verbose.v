(** * Properties of the verbose output (C88, C89)

    Statements only; the proofs are lemmas of VerboseP.v and VerboseLinesP.v.
    [v_run E io v (s, c)] is [run()] started in [s] after the output [c], with the option
    verbose equal to [v]; [io n] says whether write number [n] succeeds. *)
From Coq Require Import ZArith NArith List Bool Arith Lia String.
From Verif Require Import F64 Base Builders Types Filters Runner Observer Env EnvSpec ScatterSearch Codec
  Checkpoint Oqnlp Verbose Spec SpecStage2 SpecObserver SpecSave SpecVerbose Demo Demo2 DemoCp VerboseP VerboseLinesP
  Properties_Stage2 Properties_Observer.
Import ListNotations.

(** ** C88: the output does not change the run *)
(** If the lines can be written, a run and the two ways to resume do the same with and without
    verbose output. *)
Theorem C88_same_run : forall E io v, (forall n, io n = true) ->
  (forall s c, exists c', v_run E io v (s, c) = (fst (run E s), (snd (run E s), c'))) /\
  (forall np s c, exists c', v_resume_modified E io v np (s, c) =
     (fst (resume_with_modified_params E np s), (snd (resume_with_modified_params E np s), c'))) /\
  (forall f np s c, exists c', v_resume_path E io v f np (s, c) =
     (fst (resume_from_checkpoint_with_params E f np s), (snd (resume_from_checkpoint_with_params E f np s), c'))).
Proof.
  intros E io v Hio.
  assert (G : forall A (m : VM A) m', tracks io m m' -> forall s c, exists c', m (s, c) = (fst (m' s), (snd (m' s), c'))).
  { intros A m m' G s c. specialize (G s c). destruct (m (s, c)) as [r [s' c']].
    destruct G as [_ [[_ G]|[_ (n & _ & G)]]]; [rewrite G; simpl; eauto|rewrite Hio in G; discriminate G]. }
  split; [|split]; intros; apply G; [apply tr_run|apply tr_modified|apply tr_path].
Qed.
Print Assumptions C88_same_run.
(** Without the option a run writes nothing, and so it is the same whatever the state of the
    output stream. *)
Theorem C88_quiet : forall E io s c, v_run E io false (s, c) = (fst (run E s), (snd (run E s), c)).
Proof.
  intros E io s c. pose proof (tr_run E io false s c) as G. pose proof (mu_run E io s c) as Q.
  destruct (v_run E io false (s, c)) as [r [s' c']]. simpl in Q. subst c'.
  destruct G as [_ [[_ G]|[_ (n & Hn & _)]]]; [rewrite G; reflexivity|lia].
Qed.
Print Assumptions C88_quiet.
(** C88 is false of the code when the standard output cannot be written (a closed pipe): the
    run panics. *)
Definition C88_full : Prop := forall E io v s c r s' c', v_run E io v (s, c) = (r, (s', c')) -> run E s = (r, s').
Definition told_of (io : nat -> bool) (o : oqnlp) := v_run wells_env io true (start_state o, silent).
Lemma told_parts : forall io o, v_run wells_env io true (start_state o, silent) =
  (fst (told_of io o), (fst (snd (told_of io o)), snd (snd (told_of io o)))).
Proof. intros io o. unfold told_of. destruct (v_run wells_env io true (start_state o, silent)) as [r [s c]]. reflexivity. Qed.
Definition all_written : nat -> bool := fun _ => true.
(** the pipe is closed after three lines *)
Definition closed_pipe : nat -> bool := fun n => n <? 3.
Theorem C88_stdout_refuted : ~ C88_full.
Proof.
  intro H. assert (R : fst (told_of closed_pipe demo_oqnlp) = Panic) by (vm_compute; reflexivity).
  assert (O : count_of (result_of wells_env demo_oqnlp) = 2) by (vm_compute; reflexivity).
  pose proof (H _ _ _ _ _ _ _ _ (told_parts closed_pipe demo_oqnlp)) as X. clear H. rewrite run_pair in X. revert X R O.
  generalize (told_of closed_pipe demo_oqnlp). generalize (result_of wells_env demo_oqnlp). generalize (state_of wells_env demo_oqnlp).
  intros s r [r' sb] X R O. simpl in X, R. injection X as X _. rewrite X, R in O. discriminate O.
Qed.
Print Assumptions C88_stdout_refuted.
(** What holds for all runs, whatever fails: either every write succeeded and the run is the
    one without output, or a write failed and the run panics.  Missing: the run goes on when
    a line cannot be written. *)
Theorem C88_panics_partial : forall E io v s c r s' c', v_run E io v (s, c) = (r, (s', c')) ->
  ((forall n, c_writes c <= n < c_writes c' -> io n = true) /\ run E s = (r, s')) \/
  (r = Panic /\ exists n, c_writes c <= n < c_writes c' /\ io n = false).
Proof. intros E io v s c r s' c' H. pose proof (tr_run E io v s c) as G. rewrite H in G. exact (proj2 G). Qed.
Print Assumptions C88_panics_partial.
(** With the option off, resuming with a smaller population still writes: its warning goes to
    the standard error stream, and if that is closed the call panics. *)
Definition C88_quiet_resume_full : Prop := forall E io np s c,
  snd (snd (v_resume_modified E io false np (s, c))) = c.
Definition with_population (n : nat) (p : params) : params :=
  mk_params (p_iterations p) n (p_wait_cycle p) (p_threshold_factor p) (p_distance_factor p)
            (p_solver_type p) (p_solver_config p) (p_seed p).
Definition stopped_demo (cp : checkpoint) : st := stopped_with (file_name each_iteration 0) cp (saving (sequential demo_oqnlp)).
Theorem C88_warning_refuted : ~ C88_quiet_resume_full.
Proof.
  intro H. specialize (H wells_env all_written (with_population 4 demo_params) (stopped_demo demo_cp) silent).
  assert (W : c_writes (snd (snd (v_resume_modified wells_env all_written false (with_population 4 demo_params) (stopped_demo demo_cp, silent)))) = 1)
    by (vm_compute; reflexivity).
  rewrite H in W. discriminate W.
Qed.
Print Assumptions C88_warning_refuted.
(** the demonstration writes 13 lines and returns its two solutions *)
Example C88_example : c_writes (snd (snd (told_of all_written demo_oqnlp))) = 13 /\
  fst (told_of all_written demo_oqnlp) = result_of wells_env demo_oqnlp /\ count_of (result_of wells_env demo_oqnlp) = 2 /\
  c_writes (snd (snd (told_of closed_pipe demo_oqnlp))) = 4.
Proof. vm_compute. auto. Qed.

(** ** C89: what the output says is true *)
(** Solutions.  The lines about the solution set are exactly those that describe the sets the
    run went through, in order: for each the solution that entered, whether it joined the
    others or took their place, and the size of the set. *)
Theorem C89_solutions : forall E io s r s' c' b new, (forall n, io n = true) ->
  v_run E io true (s, silent) = (r, (s', c')) -> set_before E s b -> recorded s s' new ->
  filter about_set (lines c') = announce b (sets_of new).
Proof. intros E io s r s' c' b new Hio H Hb Hn. destruct (told_run E io Hio _ _ _ _ _ _ H Hb Hn) as (X & G & _). exact G. Qed.
Print Assumptions C89_solutions.
(** Files.  The files said to be saved are the files written, in order; only a run that does
    not return solutions can have begun one more. *)
Theorem C89_files : forall E io s r s' c' b new, (forall n, io n = true) ->
  v_run E io true (s, silent) = (r, (s', c')) -> set_before E s b -> recorded s s' new ->
  exists unsaid, files_of new = said_files (lines c') ++ unsaid /\ List.length unsaid <= 1 /\
    ((exists set, r = Ok set) -> unsaid = []).
Proof.
  intros E io s r s' c' b new Hio H Hb Hn. destruct (told_run E io Hio _ _ _ _ _ _ H Hb Hn) as (X & _ & _ & G1 & G2 & G3 & _). eauto.
Qed.
Print Assumptions C89_files.
(** Every other line is true in the state in which it is printed: the iteration number, the
    target and that it is reached, the limit and that the clock has passed it, the rejected
    solution and that it is outside the bounds, the newest solution, the old threshold, the
    file and that it holds the checkpoint, the restored iteration and number of solutions. *)
Theorem C89_true : forall E io s r s' c' b new, (forall n, io n = true) ->
  v_run E io true (s, silent) = (r, (s', c')) -> set_before E s b -> recorded s s' new ->
  Forall (true_then E) (c_out c').
Proof.
  intros E io s r s' c' b new Hio H Hb Hn. destruct (told_run E io Hio _ _ _ _ _ _ H Hb Hn) as (X & _ & _ & _ & _ & _ & G). exact G.
Qed.
Print Assumptions C89_true.
(** The threshold.  C89 is false of the code here: the value it says the threshold is adjusted
    to is not the value it is set to. *)
Definition C89_threshold_full : Prop := forall E io s r s' c' b new, (forall n, io n = true) ->
  v_run E io true (s, silent) = (r, (s', c')) -> set_before E s b -> recorded s s' new ->
  relaxed_to new = map snd (said_changes (lines c')).
Lemma all_set_before : forall o, o_cp o = None -> set_before wells_env (start_state o) (o_set o).
Proof. intros o H. left. split; [reflexivity|]. intros cp (c & C & _). simpl in C. congruence. Qed.
Lemma all_recorded : forall o s', recorded (start_state o) s' (w_trace (s_w s')).
Proof. intros o s'. unfold recorded. simpl. rewrite app_nil_r. reflexivity. Qed.
Definition first_is (p : f64 -> bool) (l : list f64) : bool := match l with x :: _ => p x | [] => false end.
Theorem C89_threshold_refuted : ~ C89_threshold_full.
Proof.
  intro H. assert (P : first_is (fun x => feq x (of_Z 20)) (relaxed_to (w_trace (s_w (fst (snd (told_of all_written demo_oqnlp)))))) = true) by (vm_compute; reflexivity).
  assert (Q : first_is (fun x => feq x (of_Z 20)) (map snd (said_changes (lines (snd (snd (told_of all_written demo_oqnlp)))))) = false) by (vm_compute; reflexivity).
  pose proof (H _ _ _ _ _ _ _ _ (fun _ => eq_refl) (told_parts all_written demo_oqnlp) (all_set_before demo_oqnlp eq_refl) (all_recorded _ _)) as X. clear H.
  revert X P Q. generalize (told_of all_written demo_oqnlp). intros [r [s c]]. simpl fst. simpl snd. intros X P Q. rewrite X in P. congruence.
Qed.
Print Assumptions C89_threshold_refuted.
(** What holds: there is one such line for each relaxation, in order; the first value it shows
    is the threshold that is relaxed, to itself + threshold_factor * (1 + |itself|).  Missing:
    the second value shown is that one. *)
Theorem C89_threshold_partial : forall E io s r s' c' b new, (forall n, io n = true) ->
  v_run E io true (s, silent) = (r, (s', c')) -> set_before E s b -> recorded s s' new ->
  relaxed_to new = map (fun ab => fadd (fst ab) (fmul (p_threshold_factor (o_params (s_o s'))) (fadd f1 (fabs (fst ab))))) (said_changes (lines c')).
Proof.
  intros E io s r s' c' b new Hio H Hb Hn. destruct (told_run E io Hio _ _ _ _ _ _ H Hb Hn) as (X & _ & G & _). exact G.
Qed.
Print Assumptions C89_threshold_partial.
(** Resuming with other parameters.  C89 is false of the code here too: the sizes it names are
    those of the populations, not those of the reference sets. *)
Definition C89_sizes_full : Prop := forall E io np s s' c' cp, (forall n, io n = true) ->
  v_resume_modified E io true np (s, silent) = (Ok true, (s', c')) -> latest_of E s cp ->
  (forall a b, In (LExpanded a b) (lines c') -> a = List.length (cp_reference_set cp) /\ b = ref_size (s_o s')) /\
  (forall n, In (LKeeping n) (lines c') -> n = ref_size (s_o s')).
(** a checkpoint of a run with population 2 that was resumed from one with population 6 *)
Definition resumed_cp : checkpoint := cp_with (with_population 2 demo_params) (cp_reference_set demo_cp) demo_cp.
Definition resumed_told (n : nat) := v_resume_modified wells_env all_written true (with_population n demo_params) (stopped_demo resumed_cp, silent).
Lemma resumed_parts : forall n, v_resume_modified wells_env all_written true (with_population n demo_params) (stopped_demo resumed_cp, silent) =
  (fst (resumed_told n), (fst (snd (resumed_told n)), snd (snd (resumed_told n)))).
Proof. intro n. unfold resumed_told. destruct (v_resume_modified _ _ _ _ _) as [r [s c]]. reflexivity. Qed.
Lemma resumed_latest : latest_of wells_env (stopped_demo resumed_cp) resumed_cp.
Proof. exists each_iteration. split; [reflexivity|]. split; vm_compute; reflexivity. Qed.
Theorem C89_sizes_refuted : ~ C89_sizes_full.
Proof.
  intro H. assert (R : fst (resumed_told 4) = Ok true) by (vm_compute; reflexivity).
  assert (N : ref_size (s_o (fst (snd (resumed_told 4)))) = 6) by (vm_compute; reflexivity).
  assert (L : nth_error (lines (snd (snd (resumed_told 4)))) 0 = Some (LExpanded 2 4)) by (vm_compute; reflexivity).
  pose proof (resumed_parts 4) as P. pose proof (fun s' c' => H wells_env all_written (with_population 4 demo_params) (stopped_demo resumed_cp) s' c' resumed_cp (fun _ => eq_refl)) as X.
  clear H. revert P X R N L. generalize (resumed_told 4). intros [r [s c]]. simpl fst. simpl snd.
  generalize (v_resume_modified wells_env all_written true (with_population 4 demo_params) (stopped_demo resumed_cp, silent)).
  intros u P X R N L. rewrite R in P. specialize (X _ _ P resumed_latest). destruct X as [X _]. apply nth_error_In in L. destruct (X _ _ L) as [_ X2]. rewrite N in X2. discriminate X2.
Qed.
Print Assumptions C89_sizes_refuted.
(** What holds: resuming with other parameters prints exactly the change of the population, if
    there is one, then the iteration and the number of solutions restored and the old and the
    new number of iterations; resuming from a file the latter with its name.  Missing: the
    sizes of the reference sets. *)
Theorem C89_resume_partial : forall E io, (forall n, io n = true) ->
  (forall np s s' c', v_resume_modified E io true np (s, silent) = (Ok true, (s', c')) ->
   exists cp, latest_of E s cp /\
    let old := p_population (cp_params cp) in let new := p_population np in
    lines c' = (if old <? new then [LExpanded old new]
                else if new <? old then [LSmaller new old; LKeeping old] else []) ++
               [LRestored (cp_iteration cp) (set_size cp); LModified (p_iterations (cp_params cp)) (p_iterations np)] /\
    Forall (true_then E) (c_out c')) /\
  (forall f np s s' c', o_cp (s_o s) <> None -> v_resume_path E io true f np (s, silent) = (Ok tt, (s', c')) ->
   exists cp, fst (load_from_path E f (w_disk (s_w s))) = Ok cp /\
    lines c' = [LRestored (cp_iteration cp) (set_size cp); LModifiedFrom f (p_iterations (cp_params cp)) (p_iterations np)] /\
    Forall (true_then E) (c_out c')).
Proof. intros E io Hio. split; [exact (told_modified E io Hio)|exact (told_path E io Hio)]. Qed.
Print Assumptions C89_resume_partial.
(** a number for each kind of line *)
Definition kind (l : line) : nat := match l with
  | LStage1 => 1 | LStage1Local _ => 2 | LStage2 => 3 | LAdded _ _ => 4 | LReplaced _ _ => 5 | LSize _ => 6
  | LIterAdded _ _ => 7 | LPoint _ => 8 | LAdjust _ _ _ => 9 | LSaved _ => 10 | LFinal _ => 11 | LRestored _ _ => 12 | LResuming _ => 13 | LModified _ _ => 14
  | LExpanded _ _ => 15 | _ => 0 end.
Example C89_example : set_before wells_env (start_state demo_oqnlp) None /\
  map kind (lines (snd (snd (told_of all_written demo_oqnlp)))) = [1; 2; 4; 6; 3; 9; 9; 4; 6; 7; 8; 9; 9] /\
  map kind (lines (snd (snd (told_of all_written (saving (sequential demo_oqnlp)))))) = [1; 2; 4; 6; 3; 9; 10; 10; 9; 10; 10; 9; 10; 9; 10; 11] /\
  map kind (lines (snd (snd (resumed_told 4)))) = [15; 12; 14].
Proof. split; [exact (all_set_before demo_oqnlp eq_refl)|]. vm_compute. auto. Qed.

(** * The same run on another machine (C96)

    Statements only; the proofs are lemmas of ReproP.v and Stage1R.v.  [elsewhere] (SpecRepro.v)
    changes whatever may differ between two executions of one program: the number of threads,
    how parallel work is split, which of several errors is reported first, the clock and the
    time stamps.  The problem, the local solver, the random numbers, the files and their
    answers stay. *)
From Coq Require Import ZArith NArith List Bool Arith Lia String.
From Verif Require Import F64 Base Builders Types Filters Runner Observer Env EnvSpec ScatterSearch Codec Checkpoint
  Oqnlp Spec SpecStage1 SpecRepro Demo Demo2 DemoStage1 ReproP.
Import ListNotations.

(** C96 *)
Definition C96_full : Prop := forall E threads sched pick clock timestamp s, env_ok E -> 1 <= threads ->
  o_max_time (s_o s) = None ->
  fst (run (elsewhere threads sched pick clock timestamp E) s) = fst (run E s).
(** the same machine, with another number of threads, another schedule, another first error *)
Definition on_threads (n : nat) (E : env) : env := elsewhere n (e_sched E) (e_err_pick E) (e_clock E) (e_timestamp E) E.
Definition on_schedule (sched : list nat -> stree) (E : env) : env :=
  elsewhere (e_threads E) sched (e_err_pick E) (e_clock E) (e_timestamp E) E.
Definition on_first_error (pick : list nat -> nat) (E : env) : env :=
  elsewhere (e_threads E) (e_sched E) pick (e_clock E) (e_timestamp E) E.
(** The number of threads decides how many candidates are judged together, and so which
    solutions are found: two minima with two threads, one with one. *)
Theorem C96_threads_refuted : ~ C96_full.
Proof.
  intro H.
  specialize (H wells_env 1 (e_sched wells_env) (e_err_pick wells_env) (e_clock wells_env) (e_timestamp wells_env)
    (start_state demo_oqnlp) (demo_env_ok _ _) (le_n _) eq_refl).
  assert (A : result_of wells_env demo_oqnlp = Ok [sol1 (of_Z (-2)) f0; sol1 f2 f0]) by (vm_compute; reflexivity).
  assert (B : result_of (on_threads 1 wells_env) demo_oqnlp = Ok [sol1 (of_Z (-2)) f0]) by (vm_compute; reflexivity).
  unfold result_of, on_threads in A, B.
  revert A B H. match goal with |- ?x = _ -> ?y = _ -> _ => generalize x y end.
  intros x y -> ->. discriminate.
Qed.
Print Assumptions C96_threads_refuted.
(** f(x) = x on [0, 8] but for a narrow well at 3.3 which the local solver finds from any x > 2 *)
Definition narrow_well : problem :=
  mk_problem (fun p => inl (if fgt (first_coordinate p) (lit 329 100) && flt (first_coordinate p) (lit 331 100)
                            then of_Z (-1) else first_coordinate p))
    (fun _ => inr 1%N) (fun _ => inr 1%N) [(f0, of_Z 8)] [].
Definition to_narrow_well : ext :=
  mk_ext (fun _ => true) (fun _ _ => XFail 1%N)
    (fun j => let y := if fgt (first_coordinate (cj_x0 j)) f2 then lit 33 10 else f0 in XDone [y] (cj_objective j [y]) 3%N).
Definition narrow_env : env := demo_env narrow_well to_narrow_well.
Definition narrow_oqnlp : oqnlp :=
  set_o_custom (Some [[lit 573 512]; [lit 8013163056127057 (2 ^ 52)]; [lit 5836136342240017 (2 ^ 51)]; [of_Z 5]; [of_Z 6]; [of_Z 7]])
    (made (params_for 9)).
(** The schedule decides how Stage 1 rounds a sum, and so whether the global minimum is found. *)
Theorem C96_schedule_refuted : ~ C96_full.
Proof.
  intro H.
  specialize (H narrow_env (e_threads narrow_env) other_schedule (e_err_pick narrow_env) (e_clock narrow_env) (e_timestamp narrow_env)
    (start_state narrow_oqnlp) (demo_env_ok _ _) (le_S _ _ (le_n _)) eq_refl).
  assert (A : result_of narrow_env narrow_oqnlp = Ok [sol1 (lit 33 10) (of_Z (-1))]) by (vm_compute; reflexivity).
  assert (B : result_of (on_schedule other_schedule narrow_env) narrow_oqnlp = Ok [sol1 f0 f0]) by (vm_compute; reflexivity).
  unfold result_of, on_schedule in A, B.
  revert A B H. match goal with |- ?x = _ -> ?y = _ -> _ => generalize x y end.
  intros x y -> ->. discriminate.
Qed.
Print Assumptions C96_schedule_refuted.
(** a local solver that fails, in different ways, from points above -2 *)
Definition two_failures : ext :=
  mk_ext (fun _ => true) (fun _ _ => XFail 1%N)
    (fun j => let x := first_coordinate (cj_x0 j) in
              if flt x (of_Z (-2)) then XDone [of_Z (-2)] (cj_objective j [of_Z (-2)]) 3%N
              else if flt x f0 then XFail 4%N else XFail 5%N).
Definition failing_env : env := demo_env two_wells two_failures.
(** When two searches of a batch fail, either failure may be the one that is reported. *)
Theorem C96_error_refuted : ~ C96_full.
Proof.
  intro H.
  specialize (H failing_env (e_threads failing_env) (e_sched failing_env) (fun _ => 1) (e_clock failing_env) (e_timestamp failing_env)
    (start_state demo_oqnlp) (demo_env_ok _ _) (le_S _ _ (le_n _)) eq_refl).
  vm_compute in H. discriminate H.
Qed.
Print Assumptions C96_error_refuted.
Example C96_two_errors :
  result_of failing_env demo_oqnlp = Err (LocalSolverError (RunFailed (RRun 5))) /\
  result_of (on_first_error (fun _ => 1) failing_env) demo_oqnlp = Err (LocalSolverError (RunFailed (RRun 4))).
Proof. split; vm_compute; reflexivity. Qed.
(** What holds.  With parallel processing switched off nothing of the machine matters: result
    and optimizer are the same, also with checkpointing and after a resume.  (The settings are
    those in force at the end of the run: a resume may replace them.) *)
Theorem C96_sequential_partial : forall E threads sched pick clock timestamp s, env_ok E ->
  o_max_time (s_o (snd (run E s))) = None -> o_parallel (s_o (snd (run E s))) = false ->
  fst (run (elsewhere threads sched pick clock timestamp E) s) = fst (run E s) /\
  s_o (snd (run (elsewhere threads sched pick clock timestamp E) s)) = s_o (snd (run E s)).
Proof. exact repro_sequential. Qed.
Print Assumptions C96_sequential_partial.
(** In parallel, what a successful run returns is the same if the batch size is set (or the
    number of threads is the same) and Stage 1 is skipped, being resumed, or is small.
    Missing: larger reference sets, automatic batch sizes, and which error is reported. *)
Theorem C96_parallel_partial : forall E threads sched pick clock timestamp s set, env_ok E ->
  o_max_time (s_o (snd (run E s))) = None ->
  (o_batch (s_o (snd (run E s))) <> None \/ threads = e_threads E) ->
  (fst (try_resume_from_checkpoint E s) = Ok true \/
   p_population (o_params (s_o (snd (run E s)))) <= 8 /\
   List.length (match o_custom (s_o (snd (run E s))) with Some c => c | None => [] end) <= 5) ->
  fst (run E s) = Ok set ->
  fst (run (elsewhere threads sched pick clock timestamp E) s) = Ok set /\
  s_o (snd (run (elsewhere threads sched pick clock timestamp E) s)) = s_o (snd (run E s)).
Proof. exact repro_parallel. Qed.
Print Assumptions C96_parallel_partial.
(** a run that finds both minima, on two threads and on eight; and the sequential one *)
Example C96_example :
  let o := batch_iterations 2 (saving demo_oqnlp) in
  o_parallel o = true /\ o_batch o <> None /\ p_population (o_params o) <= 8 /\
  result_of wells_env o = Ok [sol1 (of_Z (-2)) f0; sol1 f2 f0] /\
  result_of (elsewhere 8 other_schedule (fun _ => 1) (fun _ => f2) (fun _ => "later"%string) wells_env) o
    = Ok [sol1 (of_Z (-2)) f0; sol1 f2 f0] /\
  result_of wells_env (sequential demo_oqnlp) = Ok [sol1 (of_Z (-2)) f0] /\
  o_max_time (s_o (state_of wells_env (sequential demo_oqnlp))) = None /\
  o_parallel (s_o (state_of wells_env (sequential demo_oqnlp))) = false.
Proof.
  cbv zeta. split; [reflexivity|]. split; [discriminate|]. split; [vm_compute; repeat constructor|].
  repeat split; vm_compute; reflexivity.
Qed.

(** * Failures and the result of a run: C94 *)
From Coq Require Import ZArith NArith List Bool Arith Lia String.
From Verif Require Import F64 Base Builders Types Filters Runner Observer Env EnvSpec ScatterSearch Codec Checkpoint
  Oqnlp Spec SpecStage2 SpecCheckpoint SpecErrors Demo Demo2 DemoCp ErrorsP.
Import ListNotations.

(** C94: a run that returns Ok met no failure.  Two parts of it are false of the code. *)
Definition C94_evaluations : Prop := forall E s set s' new p, env_ok E -> run E s = (Ok set, s') -> recorded s s' new ->
  In (EvStage1 (SsEval p)) new -> exists v, pb_objective (e_problem E) p = inl v.
Definition C94_disk : Prop := forall E s set s' n, env_ok E -> run E s = (Ok set, s') -> disk_operation s s' n -> e_io E n = IoOk.

(** An error of the objective at a trial point of Stage 1 is dropped with the point. *)
Definition soft_spot : problem :=
  mk_problem (fun p => match p with
                       | [x] => if flt (of_Z (-1)) x && flt x (lit (-75) 100) then inr 5%N else pb_objective two_wells p
                       | _ => inr 7%N
                       end) (fun _ => inr 1%N) (fun _ => inr 1%N) [(of_Z (-4), of_Z 5)] [].
Definition spot_env : env := demo_env soft_spot to_well.
Definition four : oqnlp := made (mk_params 4 4 1 (of_Z 20) (lit 75 100) COBYLA (cb_build cb_default) 3).
Definition failing_evaluation (P : problem) (e : event) : bool :=
  match e with EvStage1 (SsEval p) => match pb_objective P p with inr _ => true | inl _ => false end | _ => false end.
Theorem C94_trial_refuted : ~ C94_evaluations.
Proof.
  intro H.
  assert (R : run spot_env (start_state four) = (Ok [sol1 (of_Z (-2)) f0; sol1 f2 f0], state_of spot_env four)) by (vm_compute; reflexivity).
  assert (X : existsb (failing_evaluation soft_spot) (w_trace (s_w (state_of spot_env four))) = true) by (vm_compute; reflexivity).
  apply existsb_exists in X as (e & Hin & He). destruct e as [[|p| |]| | | | | | | | | | | | |]; try discriminate He.
  destruct (H spot_env _ _ _ (w_trace (s_w (state_of spot_env four))) p (demo_env_ok _ _) R) as [v Hv].
  - unfold recorded. symmetry. apply app_nil_r.
  - exact Hin.
  - cbn [failing_evaluation] in He. change (e_problem spot_env) with soft_spot in Hv. rewrite Hv in He. discriminate He.
Qed.
Print Assumptions C94_trial_refuted.
(** With one file per save ([keep_all]), a directory that cannot be read counts as one
    without checkpoints: the run starts over, although the checkpoint of a finished run is
    there and readable. *)
Definition numbered : cp_config := mk_cpc "demo" 1 true true.
Definition finished : st := state_of wells_env (set_o_cp (Some numbered) (sequential demo_oqnlp)).
Definition io_env (io : nat -> io) : env := match wells_env with
  | mk_env a b c d e f g h i j k l m n _ p q r => mk_env a b c d e f g h i j k l m n io p q r end.
Lemma io_env_ok io : env_ok (io_env io).
Proof. destruct (demo_env_ok two_wells to_well). constructor; assumption. Qed.
Definition fails_at (k n : nat) : io := if n =? k then IoFail else IoOk.
Definition unlisted_env : env := io_env (fails_at (d_tick (w_disk (s_w finished)))).
Theorem C94_directory_refuted : ~ C94_disk.
Proof.
  intro H. set (s := finished).
  assert (R : fst (run unlisted_env s) = Ok [sol1 (of_Z (-2)) f0]) by (vm_compute; reflexivity).
  assert (N : d_tick (w_disk (s_w s)) <? d_tick (w_disk (s_w (snd (run unlisted_env s)))) = true) by (vm_compute; reflexivity).
  apply Nat.ltb_lt in N.
  assert (X : e_io unlisted_env (d_tick (w_disk (s_w s))) = IoOk).
  { destruct (run unlisted_env s) as [r s'] eqn:Hr. cbn [fst snd] in R, N. subst r.
    apply (H unlisted_env s _ s' _ (io_env_ok _) Hr). split; [apply le_n|exact N]. }
  vm_compute in X. discriminate X.
Qed.
Print Assumptions C94_directory_refuted.
(** that run starts Stage 1 again; with a readable directory it resumes *)
Example C94_directory_example :
  fst (checkpoint_exists wells_env numbered (w_disk (s_w finished))) = Ok true /\
  existsb (fun e => match e with EvStage1 _ => true | _ => false end)
    (firstn 20 (w_trace (s_w (snd (run wells_env finished))))) = false.
Proof. split; vm_compute; reflexivity. Qed.
(** Nothing else is swallowed: after Ok every local search gave a result, every evaluation in
    Stage 2 a value, and every disk operation succeeded but possibly that one listing.
    (The points of Stage 1 that stay in the reference set have values by C14.) *)
Theorem C94_success_partial : forall E s set s' new, env_ok E -> run E s = (Ok set, s') -> recorded s s' new ->
  (forall i p, In (EvSearch i p) new -> exists x, local_result E (s_o s') p x) /\
  (forall i p, In (EvObjective i p) new -> exists v, pb_objective (e_problem E) p = inl v) /\
  (forall n, disk_operation s s' n -> e_io E n = IoOk \/
     n = d_tick (w_disk (s_w s)) /\ lists_directory (s_o s)).
Proof.
  intros E s set s' new HE Hr Hn. destruct (run_errors E s _ s' HE Hr) as (new' & T & _ & G).
  assert (new' = new) as -> by (apply (app_inv_tail (w_trace (s_w s))); rewrite <- Hn; symmetry; exact T).
  destruct (G set eq_refl) as [F D]. rewrite Forall_forall in F.
  split; [intros i p H; exact (F _ H)|]. split; [intros i p H; exact (F _ H)|exact D].
Qed.
Print Assumptions C94_success_partial.
(** Every error that a run returns reports a failure that the run met. *)
Theorem C94_errors : forall E s e s' new, env_ok E -> run E s = (Err e, s') -> recorded s s' new -> met E s s' new e.
Proof.
  intros E s e s' new HE Hr Hn. destruct (run_errors E s _ s' HE Hr) as (new' & T & G & _).
  assert (new' = new) as -> by (apply (app_inv_tail (w_trace (s_w s))); rewrite <- Hn; symmetry; exact T).
  exact (G e eq_refl).
Qed.
Print Assumptions C94_errors.
Example C94_success_example : fst (run wells_env finished) = Ok [sol1 (of_Z (-2)) f0; sol1 f2 f0] /\
  d_tick (w_disk (s_w (snd (run wells_env finished)))) - d_tick (w_disk (s_w finished)) = 5.
Proof. split; vm_compute; reflexivity. Qed.
(** runs that end in the different errors *)
Definition no_solver : ext := mk_ext (fun _ => true) (fun _ _ => XFail 1%N) (fun _ => XFail 2%N).
Definition outsider : ext := mk_ext (fun _ => true) (fun _ _ => XFail 1%N) (fun j => XDone [of_Z 9] (cj_objective j [of_Z 9]) 1%N).
Definition broken : problem := mk_problem (fun _ => inr 5%N) (fun _ => inr 1%N) (fun _ => inr 1%N) [(of_Z (-4), of_Z 5)] [].
Definition infeasible : problem := mk_problem (pb_objective two_wells) (fun _ => inr 1%N) (fun _ => inr 1%N) [(of_Z (-4), of_Z 5)] [fun _ => of_Z (-1)].
Definition inverted : problem := mk_problem (pb_objective two_wells) (fun _ => inr 1%N) (fun _ => inr 1%N) [(of_Z (-4), of_Z 5); (f1, f1)] [].
Definition scribble : st := mk_st (s_o finished) (mk_world (mk_disk [(file_name numbered 3, str_bytes "?")] 9) 0 []).
Example C94_errors_example :
  (exists e, result_of (demo_env two_wells no_solver) demo_oqnlp = Err (LocalSolverError e)) /\
  result_of (demo_env two_wells outsider) (set_exclude_out_of_bounds true demo_oqnlp) = Err NoFeasibleSolution /\
  fst (run (demo_env broken to_well) finished) = Err ObjectiveFunctionEvaluationFailed /\
  result_of (demo_env broken to_well) demo_oqnlp = Err (ScatterSearchRunError (EvaluationError 5)) /\
  result_of (demo_env infeasible to_well) demo_oqnlp = Err (ScatterSearchRunError (NoFeasibleCandidates 10 1)) /\
  result_of (demo_env inverted to_well) demo_oqnlp = Err (ScatterSearchError (InvalidBounds 1 f1 f1)) /\
  fst (run wells_env scribble) = Err (CheckpointError CpSerialization) /\
  fst (run (io_env (fails_at (3 + d_tick (w_disk (s_w finished))))) finished) = Err (CheckpointError (CpIo "write")).
Proof. split; [eexists; vm_compute; reflexivity|]. repeat (split; [vm_compute; reflexivity|]). vm_compute. reflexivity. Qed.

(** * Running without checkpoints (C109)

    Statements only; the proofs are lemmas of UnsavedP.v. *)
From Coq Require Import ZArith NArith List Bool Arith Lia String.
From Verif Require Import F64 Base Builders Types Filters Runner Observer Env EnvSpec ScatterSearch Codec
  Checkpoint Oqnlp Spec SpecStage2 SpecMore SpecUnsaved Actions MoreP UnsavedP Demo Demo2 DemoSession Properties_Stage2 Properties_More.
Import ListNotations.

(** C109: a run that writes checkpoints and has nothing to resume from (and has no time limit) does the same
    as the run without checkpoints and ends in the same way, unless a checkpoint cannot be
    written; and then the run without checkpoints first does everything that it did.  (In
    parallel mode, which of several failures of one batch is reported is the environment's
    choice, and must not depend on the checkpoints.) *)
Theorem C109_same : forall E c s rA sA na rB sB nb,
  run E s = (rA, sA) -> recorded s sA na -> run E (unsaved_state s) = (rB, sB) -> recorded (unsaved_state s) sB nb ->
  o_cp (s_o s) = Some c -> nothing_to_resume E c s -> o_max_time (s_o s) = None ->
  (o_parallel (s_o s) = true -> forall i j, e_err_pick E i = e_err_pick E j) ->
  (rB = rA /\ doings nb = doings na) \/ (save_failed c rA /\ exists more, doings nb = more ++ doings na).
Proof. exact c109_same. Qed.
Print Assumptions C109_same.

(** Two at a time, with a file for every iteration, looking for a checkpoint first. *)
Definition keep_and_resume : cp_config := mk_cpc "demo" 1 true true.
Definition filed (o : oqnlp) : oqnlp := set_o_cp (Some keep_and_resume) o.
Example C109_case : (exists set, result_of slanted_env (filed (two_at_a_time 6)) = Ok set /\ result_of slanted_env (two_at_a_time 6) = Ok set) /\
  doings (record_of slanted_env (two_at_a_time 6)) = doings (record_of slanted_env (filed (two_at_a_time 6))) /\
  List.length (record_of slanted_env (two_at_a_time 6)) <> List.length (record_of slanted_env (filed (two_at_a_time 6))).
Proof.
  assert (R1 : result_of slanted_env (filed (two_at_a_time 6)) = Ok [sol1 (of_Z (-2)) f2]) by (vm_compute; reflexivity).
  pose proof (run_pair slanted_env (filed (two_at_a_time 6))) as P1. rewrite R1 in P1.
  pose proof (run_pair slanted_env (two_at_a_time 6)) as P2. pose proof (record_recorded slanted_env (two_at_a_time 6)) as Q2.
  assert (A : start_state (two_at_a_time 6) = unsaved_state (start_state (filed (two_at_a_time 6)))) by reflexivity.
  rewrite A in P2, Q2.
  destruct (C109_same slanted_env keep_and_resume (start_state (filed (two_at_a_time 6))) _ _ _ _ _ _ P1 (record_recorded slanted_env (filed (two_at_a_time 6))) P2 Q2
    eq_refl (fun _ => eq_refl) eq_refl (fun _ _ _ => eq_refl)) as [[H1 H2]|[[[e H]|[H _]] _]]; [|discriminate..].
  split; [eexists; split; [exact R1|exact H1]|]. split; [exact H2|]. apply Nat.eqb_neq. vm_compute. reflexivity.
Qed.
(** A disk that is full after two files, and one candidate after the other: the run fails,
    having done a part of what the run without checkpoints does. *)
Definition full_env : env :=
  let E := slanted_env in
  mk_env (e_problem E) (e_ext E) (e_seed_from E) (e_next E) (e_uniform E) (e_perturb E) (e_shuffle E) (e_sort E) (e_select E)
    (e_threads E) (e_sched E) (e_err_pick E) (e_clock E) (e_timestamp E) (fun n => if n <? 2 then IoOk else IoFail) (e_dir_order E) (e_callback E) (e_overflow_checks E).
Example C109_full_disk_case : save_failed keep_and_resume (result_of full_env (filed (one_by_one 6))) /\
  exists more, doings (record_of full_env (one_by_one 6)) = more ++ doings (record_of full_env (filed (one_by_one 6))) /\ more <> [].
Proof.
  pose proof (run_pair full_env (filed (one_by_one 6))) as P1.
  pose proof (run_pair full_env (one_by_one 6)) as P2. pose proof (record_recorded full_env (one_by_one 6)) as Q2.
  assert (A : start_state (one_by_one 6) = unsaved_state (start_state (filed (one_by_one 6)))) by reflexivity.
  rewrite A in P2, Q2.
  assert (X : List.length (doings (record_of full_env (one_by_one 6))) =? List.length (doings (record_of full_env (filed (one_by_one 6)))) = false) by (vm_compute; reflexivity).
  apply Nat.eqb_neq in X.
  destruct (C109_same full_env keep_and_resume (start_state (filed (one_by_one 6))) _ _ _ _ _ _ P1 (record_recorded full_env (filed (one_by_one 6))) P2 Q2
    eq_refl (fun _ => eq_refl) eq_refl (fun _ _ _ => eq_refl)) as [[_ H]|[H [more M]]].
  - contradiction X. exact (f_equal (@List.length event) H).
  - split; [exact H|]. exists more. split; [exact M|]. intros ->. rewrite M in X. apply X. reflexivity.
Qed.

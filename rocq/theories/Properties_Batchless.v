(** * Another batch size (C113)

    Statements only; the proofs are lemmas of BatchlessP.v. *)
From Coq Require Import ZArith NArith List Bool Arith Lia String.
From Verif Require Import F64 Base Builders Types Filters Runner Observer Env EnvSpec ScatterSearch Codec
  Checkpoint Oqnlp Spec SpecStage2 SpecObserver SpecMore SpecBatchless Actions MoreP BatchlessP Demo Demo2 Properties_Stage2 Properties_More.
Import ListNotations.

(** C113: without parallel processing, the batch size is of no effect, whatever it is: with and
    without one, and with and without resuming, the program does the same, in the same order,
    and ends in the same way. *)
Theorem C113_same : forall E b s rA sA na rB sB nb,
  run E s = (rA, sA) -> recorded s sA na -> run E (batched_state b s) = (rB, sB) -> recorded (batched_state b s) sB nb ->
  o_parallel (s_o s) = false -> rB = rA /\ works nb = works na.
Proof. exact c113_same. Qed.
Print Assumptions C113_same.

(** Six candidates, one after the other, without a batch size and with a batch size of 0 (which
    is a panic in parallel mode); *)
Example C113_case : result_of slanted_env (batch_iterations 0 (one_by_one 6)) = Ok [sol1 f2 (of_Z (-2))] /\
  works (record_of slanted_env (batch_iterations 0 (one_by_one 6))) = works (record_of slanted_env (one_by_one 6)) /\
  result_of slanted_env (batch_iterations 0 (made (some_of_six 6))) = Panic.
Proof.
  assert (R : result_of slanted_env (one_by_one 6) = Ok [sol1 f2 (of_Z (-2))]) by (vm_compute; reflexivity).
  pose proof (run_pair slanted_env (one_by_one 6)) as P1. rewrite R in P1.
  pose proof (run_pair slanted_env (batch_iterations 0 (one_by_one 6))) as P2.
  pose proof (record_recorded slanted_env (batch_iterations 0 (one_by_one 6))) as Q2.
  assert (A : start_state (batch_iterations 0 (one_by_one 6)) = batched_state (Some 0) (start_state (one_by_one 6))) by reflexivity.
  rewrite A in P2, Q2.
  destruct (C113_same slanted_env (Some 0) (start_state (one_by_one 6)) _ _ _ _ _ _ P1 (record_recorded slanted_env (one_by_one 6)) P2 Q2) as [H1 H2]; [reflexivity|].
  split; [exact H1|]. split; [exact H2|]. vm_compute. reflexivity.
Qed.
(** and with parallel processing it makes a difference: batches of 1 and of 2. *)
Example C113_parallel_case : result_of slanted_env (batch_iterations 1 (made (some_of_six 6))) = Ok [sol1 f2 (of_Z (-2))] /\
  result_of slanted_env (batch_iterations 2 (made (some_of_six 6))) = Ok [sol1 (of_Z (-2)) f2].
Proof. split; vm_compute; reflexivity. Qed.

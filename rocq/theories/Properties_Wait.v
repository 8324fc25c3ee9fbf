(** * Another wait cycle (C112)

    Statements only; the proofs are lemmas of WaitLongP.v. *)
From Coq Require Import ZArith NArith List Bool Arith Lia String.
From Verif Require Import F64 Base Builders Types Filters Runner Observer Env EnvSpec ScatterSearch Codec
  Checkpoint Oqnlp Spec SpecStage2 SpecObserver SpecMore SpecWait Actions MoreP WaitLongP Demo Demo2 Properties_Stage2 Properties_More Properties_Factor.
Import ListNotations.

(** C112: in sequential and in parallel mode, with and without resuming, a program with a longer
    wait cycle does the same as the one with the shorter, in the same order, up to the first
    relaxation of the threshold by the latter (records are latest first); *)
Theorem C112_until_relaxed : forall E n s rA sA na rB sB nb,
  run E s = (rA, sA) -> recorded s sA na -> run E (waiting_state n s) = (rB, sB) -> recorded (waiting_state n s) sB nb ->
  p_wait_cycle (o_params (s_o s)) <= n ->
  (rB = rA /\ chores nb = chores na) \/
  (exists after v before after', na = after ++ EvRelax v :: before /\ chores nb = after' ++ chores before).
Proof. exact c112_until. Qed.
Print Assumptions C112_until_relaxed.
(** and if that does not happen, they end in the same way. *)
Theorem C112_same : forall E n s rA sA na rB sB nb,
  run E s = (rA, sA) -> recorded s sA na -> run E (waiting_state n s) = (rB, sB) -> recorded (waiting_state n s) sB nb ->
  p_wait_cycle (o_params (s_o s)) <= n ->
  (forall v, ~ In (EvRelax v) na) -> rB = rA /\ chores nb = chores na.
Proof. exact c112_same. Qed.
Print Assumptions C112_same.

(** Two at a time: a wait cycle of 1 leads to a relaxation, one of 7 to none. *)
Example C112_relaxed_case : relaxes (record_of slanted_env (six_with 7 f1)) = [] /\
  exists after v before after', record_of slanted_env (six_with 1 f1) = after ++ EvRelax v :: before /\
    chores (record_of slanted_env (six_with 7 f1)) = after' ++ chores before.
Proof.
  pose proof (run_pair slanted_env (six_with 1 f1)) as P1. pose proof (run_pair slanted_env (six_with 7 f1)) as P2.
  pose proof (record_recorded slanted_env (six_with 7 f1)) as Q2.
  assert (A : start_state (six_with 7 f1) = waiting_state 7 (start_state (six_with 1 f1))) by reflexivity.
  rewrite A in P2, Q2.
  assert (W : p_wait_cycle (o_params (s_o (start_state (six_with 1 f1)))) <=? 7 = true) by reflexivity. apply Nat.leb_le in W.
  assert (X : (match relaxes (chores (record_of slanted_env (six_with 1 f1))), relaxes (chores (record_of slanted_env (six_with 7 f1))) with
    | _ :: _, [] => true | _, _ => false end) = true) by (vm_compute; reflexivity).
  split; [vm_compute; reflexivity|].
  destruct (C112_until_relaxed slanted_env 7 (start_state (six_with 1 f1)) _ _ _ _ _ _ P1 (record_recorded slanted_env (six_with 1 f1)) P2 Q2) as [[_ H]|H].
  - exact W.
  - exfalso. rewrite H in X. destruct (relaxes (chores _)); discriminate X.
  - exact H.
Qed.
(** Wait cycles of 7 and 9 make no difference to six candidates. *)
Example C112_same_case : (exists set, result_of slanted_env (six_with 9 f1) = Ok set /\ result_of slanted_env (six_with 7 f1) = Ok set) /\
  chores (record_of slanted_env (six_with 9 f1)) = chores (record_of slanted_env (six_with 7 f1)).
Proof.
  assert (R : exists set, result_of slanted_env (six_with 7 f1) = Ok set).
  { assert (X : (match result_of slanted_env (six_with 7 f1) with Ok _ => true | _ => false end) = true) by (vm_compute; reflexivity).
    destruct (result_of slanted_env (six_with 7 f1)) as [set| |]; [exists set; reflexivity|discriminate X..]. }
  destruct R as [set R].
  pose proof (run_pair slanted_env (six_with 7 f1)) as P1. rewrite R in P1. pose proof (run_pair slanted_env (six_with 9 f1)) as P2.
  pose proof (record_recorded slanted_env (six_with 9 f1)) as Q2.
  assert (A : start_state (six_with 9 f1) = waiting_state 9 (start_state (six_with 7 f1))) by reflexivity.
  rewrite A in P2, Q2.
  assert (X : relaxes (record_of slanted_env (six_with 7 f1)) = []) by (vm_compute; reflexivity).
  destruct (C112_same slanted_env 9 (start_state (six_with 7 f1)) _ _ _ _ _ _ P1 (record_recorded slanted_env (six_with 7 f1)) P2 Q2) as [H1 H2].
  - apply Nat.leb_le. reflexivity.
  - exact (relaxes_in _ X).
  - split; [exists set; split; [exact H1|exact R]|exact H2].
Qed.

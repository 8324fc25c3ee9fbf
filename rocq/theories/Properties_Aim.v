(** * A lower target (C107)

    Statements only; the proofs are lemmas of AimP.v. *)
From Coq Require Import ZArith NArith List Bool Arith Lia String.
From Verif Require Import F64 Base Builders Types Filters Runner Observer Env EnvSpec ScatterSearch Codec
  Checkpoint Oqnlp Spec SpecStage2 SpecMore SpecAim Actions MoreP AimP Demo Demo2 Properties_Stage2 Properties_More.
Import ListNotations.

(** C107: in sequential and in parallel mode, with and without resuming, a run without a target,
    or with a lower one, first does everything that the run with a target does, in the same
    order, whatever the outcomes are. *)
Theorem C107_first_moves : forall E g t s rA sA na rB sB nb,
  run E s = (rA, sA) -> recorded s sA na -> run E (aiming_state g s) = (rB, sB) -> recorded (aiming_state g s) sB nb ->
  o_target (s_o s) = Some t -> at_most g t -> exists more, moves nb = more ++ moves na.
Proof. exact c107_moves. Qed.
Print Assumptions C107_first_moves.
(** The target makes a difference only to a run that meets it: unless a returned solution is at
    the target, the other run does the same and returns the same. *)
Theorem C107_only_when_met : forall E g t s set sA na rB sB nb,
  run E s = (Ok set, sA) -> recorded s sA na -> run E (aiming_state g s) = (rB, sB) -> recorded (aiming_state g s) sB nb ->
  o_target (s_o s) = Some t -> at_most g t ->
  (exists x, In x set /\ fle (ls_obj x) t = true) \/ (rB = Ok set /\ moves nb = moves na).
Proof. exact c107_same. Qed.
Print Assumptions C107_only_when_met.
(** And lowering the target costs nothing: if both succeed, the result is not worse (runs that
    do not resume, numeric objectives, tolerances not negative). *)
Theorem C107_no_worse : forall E g t s setA sA na setB sB nb,
  run E s = (Ok setA, sA) -> recorded s sA na -> run E (aiming_state g s) = (Ok setB, sB) -> recorded (aiming_state g s) sB nb ->
  (forall c, o_cp (s_o s) = Some c -> cc_auto_resume c = false) ->
  o_target (s_o s) = Some t -> at_most g t ->
  tolerances_ok (s_o s) -> (forall s0, o_set (s_o s) = Some s0 -> numeric_set s0) ->
  (forall x, In (EvResult x) nb -> number (ls_obj x)) -> not_worse setB setA.
Proof. exact c107_no_worse. Qed.
Print Assumptions C107_no_worse.

(** One candidate after the other.  A target of 3 is met by the first local search, a target
    of -1 by a later one only. *)
Definition one_by_one_to (z : Z) : oqnlp := target_objective (of_Z z) (one_by_one 6).
Example C107_sequential_case :
  (exists more, moves (record_of slanted_env (one_by_one_to (-1))) = more ++ moves (record_of slanted_env (one_by_one_to 3)) /\ more <> []) /\
  not_worse [sol1 f2 (of_Z (-2))] [sol1 (of_Z (-2)) f2].
Proof.
  assert (R1 : result_of slanted_env (one_by_one_to 3) = Ok [sol1 (of_Z (-2)) f2]) by (vm_compute; reflexivity).
  assert (R2 : result_of slanted_env (one_by_one_to (-1)) = Ok [sol1 f2 (of_Z (-2))]) by (vm_compute; reflexivity).
  pose proof (run_pair slanted_env (one_by_one_to 3)) as P1. rewrite R1 in P1.
  pose proof (run_pair slanted_env (one_by_one_to (-1))) as P2. rewrite R2 in P2.
  assert (A : start_state (one_by_one_to (-1)) = aiming_state (Some (of_Z (-1))) (start_state (one_by_one_to 3))) by reflexivity.
  assert (N : forallb numericb (record_of slanted_env (one_by_one_to (-1))) = true) by (vm_compute; reflexivity).
  assert (L : at_most (Some (of_Z (-1))) (of_Z 3)) by (right; exists (of_Z (-1)); split; [reflexivity|vm_compute; reflexivity]).
  pose proof (record_recorded slanted_env (one_by_one_to (-1))) as Q2.
  rewrite A in P2, Q2. split.
  - destruct (C107_first_moves slanted_env _ _ (start_state (one_by_one_to 3)) _ _ _ _ _ _ P1 (record_recorded slanted_env (one_by_one_to 3)) P2 Q2 eq_refl L) as [more M].
    exists more. split; [exact M|]. intros ->.
    assert (X : List.length (moves (record_of slanted_env (one_by_one_to (-1)))) =? List.length (moves (record_of slanted_env (one_by_one_to 3))) = false) by (vm_compute; reflexivity).
    rewrite M in X. apply Nat.eqb_neq in X. apply X. reflexivity.
  - exact (C107_no_worse slanted_env _ _ (start_state (one_by_one_to 3)) _ _ _ _ _ _ P1 (record_recorded slanted_env (one_by_one_to 3)) P2 Q2
      (fun c (H : None = Some c) => match H in _ = y return match y with Some c => cc_auto_resume c = false | None => True end with eq_refl => I end)
      eq_refl L (conj eq_refl (conj eq_refl eq_refl))
      (fun s0 (H : None = Some s0) => match H in _ = y return match y with Some c => numeric_set c | None => True end with eq_refl => I end)
      (all_numeric _ N)).
Qed.
(** Six candidates, two at a time: a target of -3 is out of reach, and the run is the one
    without a target. *)
Definition two_at_a_time_to (z : Z) : oqnlp := target_objective (of_Z z) (two_at_a_time 6).
Example C107_out_of_reach_case : result_of slanted_env (two_at_a_time 6) = result_of slanted_env (two_at_a_time_to (-3)) /\
  moves (record_of slanted_env (two_at_a_time 6)) = moves (record_of slanted_env (two_at_a_time_to (-3))).
Proof.
  assert (R1 : result_of slanted_env (two_at_a_time_to (-3)) = Ok [sol1 (of_Z (-2)) f2]) by (vm_compute; reflexivity).
  pose proof (run_pair slanted_env (two_at_a_time_to (-3))) as P1. rewrite R1 in P1.
  pose proof (run_pair slanted_env (two_at_a_time 6)) as P2. pose proof (record_recorded slanted_env (two_at_a_time 6)) as Q2.
  assert (A : start_state (two_at_a_time 6) = aiming_state None (start_state (two_at_a_time_to (-3)))) by reflexivity.
  rewrite A in P2, Q2.
  destruct (C107_only_when_met slanted_env _ _ (start_state (two_at_a_time_to (-3))) _ _ _ _ _ _ P1 (record_recorded slanted_env (two_at_a_time_to (-3))) P2 Q2 eq_refl (or_introl eq_refl))
    as [(x & [<-|[]] & H)|[H1 H2]]; [vm_compute in H; discriminate|].
  split; [rewrite R1; exact H1|exact H2].
Qed.

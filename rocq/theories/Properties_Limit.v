(** * A longer time limit (C108)

    Statements only; the proofs are lemmas of LimitP.v. *)
From Coq Require Import ZArith NArith List Bool Arith Lia String.
From Verif Require Import F64 Base Builders Types Filters Runner Observer Env EnvSpec ScatterSearch Codec
  Checkpoint Oqnlp Spec SpecStage2 SpecMore SpecLimit Actions MoreP LimitP Demo Demo2 Properties_Stage2 Properties_More.
Import ListNotations.

(** C108: in sequential and in parallel mode, with and without resuming, a run with a longer time
    limit, or none, first does everything that the run with a time limit does, in the same order,
    whatever the outcomes are.  The two runs read the same clock.  (Without a limit the clock is
    read less often.  What the environment chooses must then not depend on that: which of several
    failures of one batch is reported.) *)
Theorem C108_first_deeds : forall E g m s rA sA na rB sB nb,
  run E s = (rA, sA) -> recorded s sA na -> run E (limited_state g s) = (rB, sB) -> recorded (limited_state g s) sB nb ->
  o_max_time (s_o s) = Some m -> at_least g m -> (g = None -> forall i j, e_err_pick E i = e_err_pick E j) ->
  exists more, deeds nb = more ++ deeds na.
Proof. exact c108_deeds. Qed.
Print Assumptions C108_first_deeds.
(** The limit makes a difference only to a run that exceeds it: unless the clock showed more, the
    other run does the same and ends in the same way. *)
Theorem C108_only_when_exceeded : forall E g m s rA sA na rB sB nb,
  run E s = (rA, sA) -> recorded s sA na -> run E (limited_state g s) = (rB, sB) -> recorded (limited_state g s) sB nb ->
  o_max_time (s_o s) = Some m -> at_least g m -> (g = None -> forall i j, e_err_pick E i = e_err_pick E j) ->
  (exists v, In (EvClock v) na /\ fgt v m = true) \/ (rB = rA /\ deeds nb = deeds na).
Proof. exact c108_same. Qed.
Print Assumptions C108_only_when_exceeded.
(** And more time costs nothing: if both succeed, the result is not worse (runs that do not
    resume, numeric objectives, tolerances not negative). *)
Theorem C108_no_worse : forall E g m s setA sA na setB sB nb,
  run E s = (Ok setA, sA) -> recorded s sA na -> run E (limited_state g s) = (Ok setB, sB) -> recorded (limited_state g s) sB nb ->
  (forall c, o_cp (s_o s) = Some c -> cc_auto_resume c = false) ->
  o_max_time (s_o s) = Some m -> at_least g m -> (g = None -> forall i j, e_err_pick E i = e_err_pick E j) ->
  tolerances_ok (s_o s) -> (forall s0, o_set (s_o s) = Some s0 -> numeric_set s0) ->
  (forall x, In (EvResult x) nb -> number (ls_obj x)) -> not_worse setB setA.
Proof. exact c108_no_worse. Qed.
Print Assumptions C108_no_worse.

(** One candidate after the other, with a second each: a limit of one second, and of five. *)
Definition one_by_one_in (z : Z) : oqnlp := max_time (of_Z z) (one_by_one 6).
Definition three_at_a_time_in (z : Z) : oqnlp := max_time (of_Z z) (three_at_a_time 6).
Example C108_sequential_case :
  (exists more, deeds (record_of slanted_env (one_by_one_in 5)) = more ++ deeds (record_of slanted_env (one_by_one_in 1)) /\ more <> []) /\
  not_worse [sol1 f2 (of_Z (-2))] [sol1 (of_Z (-2)) f2].
Proof.
  assert (R1 : result_of slanted_env (one_by_one_in 1) = Ok [sol1 (of_Z (-2)) f2]) by (vm_compute; reflexivity).
  assert (R2 : result_of slanted_env (one_by_one_in 5) = Ok [sol1 f2 (of_Z (-2))]) by (vm_compute; reflexivity).
  pose proof (run_pair slanted_env (one_by_one_in 1)) as P1. rewrite R1 in P1.
  pose proof (run_pair slanted_env (one_by_one_in 5)) as P2. rewrite R2 in P2.
  assert (A : start_state (one_by_one_in 5) = limited_state (Some (of_Z 5)) (start_state (one_by_one_in 1))) by reflexivity.
  assert (N : forallb numericb (record_of slanted_env (one_by_one_in 5)) = true) by (vm_compute; reflexivity).
  assert (L : at_least (Some (of_Z 5)) (of_Z 1)) by (right; exists (of_Z 5); split; [reflexivity|vm_compute; reflexivity]).
  assert (K : Some (of_Z 5) = None -> forall i j, e_err_pick slanted_env i = e_err_pick slanted_env j) by reflexivity.
  pose proof (record_recorded slanted_env (one_by_one_in 5)) as Q2.
  rewrite A in P2, Q2. split.
  - destruct (C108_first_deeds slanted_env _ _ (start_state (one_by_one_in 1)) _ _ _ _ _ _ P1 (record_recorded slanted_env (one_by_one_in 1)) P2 Q2 eq_refl L K) as [more M].
    exists more. split; [exact M|]. intros ->.
    assert (X : List.length (deeds (record_of slanted_env (one_by_one_in 5))) =? List.length (deeds (record_of slanted_env (one_by_one_in 1))) = false) by (vm_compute; reflexivity).
    rewrite M in X. apply Nat.eqb_neq in X. apply X. reflexivity.
  - exact (C108_no_worse slanted_env _ _ (start_state (one_by_one_in 1)) _ _ _ _ _ _ P1 (record_recorded slanted_env (one_by_one_in 1)) P2 Q2
      (fun c (H : None = Some c) => match H in _ = y return match y with Some c => cc_auto_resume c = false | None => True end with eq_refl => I end)
      eq_refl L K (conj eq_refl (conj eq_refl eq_refl))
      (fun s0 (H : None = Some s0) => match H in _ = y return match y with Some c => numeric_set c | None => True end with eq_refl => I end)
      (all_numeric _ N)).
Qed.
(** Three at a time: two seconds are too few, and the run without a limit goes on. *)
Example C108_batches_case :
  exists more, deeds (record_of slanted_env (three_at_a_time 6)) = more ++ deeds (record_of slanted_env (three_at_a_time_in 2)) /\ more <> [].
Proof.
  pose proof (run_pair slanted_env (three_at_a_time_in 2)) as P1. pose proof (run_pair slanted_env (three_at_a_time 6)) as P2.
  pose proof (record_recorded slanted_env (three_at_a_time 6)) as Q2.
  assert (A : start_state (three_at_a_time 6) = limited_state None (start_state (three_at_a_time_in 2))) by reflexivity. rewrite A in P2, Q2.
  destruct (C108_first_deeds slanted_env _ _ (start_state (three_at_a_time_in 2)) _ _ _ _ _ _ P1 (record_recorded slanted_env (three_at_a_time_in 2)) P2 Q2 eq_refl
    (or_introl eq_refl) (fun _ _ _ => eq_refl)) as [more M].
  exists more. split; [exact M|]. intros ->.
  assert (X : List.length (deeds (record_of slanted_env (three_at_a_time 6))) =? List.length (deeds (record_of slanted_env (three_at_a_time_in 2))) = false) by (vm_compute; reflexivity).
  rewrite M in X. apply Nat.eqb_neq in X. apply X. reflexivity.
Qed.
(** A hundred seconds are enough, and the run is the one without a limit. *)
Example C108_enough_case : result_of slanted_env (three_at_a_time 6) = result_of slanted_env (three_at_a_time_in 100) /\
  deeds (record_of slanted_env (three_at_a_time 6)) = deeds (record_of slanted_env (three_at_a_time_in 100)).
Proof.
  pose proof (run_pair slanted_env (three_at_a_time_in 100)) as P1. pose proof (run_pair slanted_env (three_at_a_time 6)) as P2.
  pose proof (record_recorded slanted_env (three_at_a_time 6)) as Q2.
  assert (A : start_state (three_at_a_time 6) = limited_state None (start_state (three_at_a_time_in 100))) by reflexivity. rewrite A in P2, Q2.
  destruct (C108_only_when_exceeded slanted_env _ _ (start_state (three_at_a_time_in 100)) _ _ _ _ _ _ P1 (record_recorded slanted_env (three_at_a_time_in 100)) P2 Q2 eq_refl
    (or_introl eq_refl) (fun _ _ _ => eq_refl)) as [(v & H1 & H2)|H]; [|exact H].
  assert (X : forallb (fun e => match e with EvClock v => negb (fgt v (of_Z 100)) | _ => true end) (record_of slanted_env (three_at_a_time_in 100)) = true) by (vm_compute; reflexivity).
  rewrite forallb_forall in X. specialize (X _ H1). cbv beta iota in X. rewrite H2 in X. discriminate.
Qed.

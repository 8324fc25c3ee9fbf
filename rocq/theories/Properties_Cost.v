(** * How much work a run does (C98)

    Statements only; the proofs are lemmas of CostP.v. *)
From Coq Require Import ZArith NArith List Bool Arith Lia String.
From Verif Require Import F64 Base Builders Types Filters Runner Observer Env EnvSpec ScatterSearch Codec
  Checkpoint Oqnlp Spec SpecStage1 SpecStage2 SpecObserver SpecSave SpecCost
  Actions CostP Demo Demo2 DemoCp DemoStage1 Properties_Stage2.
Import ListNotations.

(** A run that does not resume, successful or not: with n first members (the population size,
    unless more seeds and custom points are feasible) and k about the square root of n, Stage 1
    calls the objective at most n + 3k(k-1) times and Stage 2 at most once for each of the first
    [iterations] members; together not more than 5n times.  One local search ends Stage 1, and
    at most one starts from each of these members. *)
Theorem C98_fresh : forall E s r s' new, env_ok E -> run E s = (r, s') -> recorded s s' new -> (forall cp, ~ resumes_from E s cp) ->
  let n := first_members (e_problem E) (s_o s) in
  let k := sample_size n in
  let i := p_iterations (o_params (s_o s)) in
  (Z.of_nat n < 2 ^ 52)%Z ->
  List.length (stage1_evaluations new) <= n + 3 * (k * (k - 1)) /\
  List.length (objective_calls new) <= n + 3 * (k * (k - 1)) + Nat.min i n /\
  List.length (objective_calls new) <= 5 * Nat.max n 2 /\
  List.length (search_starts new) <= 1 + Nat.min i n.
Proof. exact c98_fresh. Qed.
Print Assumptions C98_fresh.
(** The demonstration has 6 first members: 6 evaluations in Stage 1, none in Stage 2, which
    knows the values, and 3 local searches. *)
Example C98_fresh_case :
  let new := record_of wells_env demo_oqnlp in
  first_members two_wells demo_oqnlp = 6 /\ sample_size 6 = 2 /\
  List.length (stage1_evaluations new) = 6 /\ List.length (objective_calls new) = 6 /\ List.length (search_starts new) = 3 /\
  List.length (objective_calls new) <= 30 /\ List.length (search_starts new) <= 7.
Proof.
  cbv zeta. repeat (split; [vm_compute; reflexivity|]).
  destruct (C98_fresh wells_env (start_state demo_oqnlp) _ _ _ (demo_env_ok _ _) (run_pair wells_env demo_oqnlp) (record_recorded wells_env demo_oqnlp))
    as (_ & _ & H3 & H4).
  - intros cp (c & H & _). discriminate H.
  - vm_compute. reflexivity.
  - split; [exact H3|exact H4].
Qed.
(** A user of the scatter search alone: at most 4n evaluations, whatever the outcome. *)
Theorem C98_search : forall E p s r s', env_ok E -> built E p s -> ss_run E s = (r, s') ->
  let n := Nat.max (p_population p) (List.length (starting_points (e_problem E) (custom_points s))) in
  let k := sample_size n in
  (Z.of_nat n < 2 ^ 52)%Z ->
  List.length (evaluations (ss_log s')) <= n + 3 * (k * (k - 1)) /\ List.length (evaluations (ss_log s')) <= 4 * Nat.max n 2.
Proof. exact c98_search. Qed.
Print Assumptions C98_search.
Example C98_search_case : built plane_env (params_for 8) plane_search /\
  Nat.max 8 (List.length (starting_points plane (custom_points plane_search))) = 8 /\ sample_size 8 = 2 /\
  List.length (evaluations (ss_log (snd (ss_run plane_env plane_search)))) = 11.
Proof. split; [apply search_built; vm_compute; reflexivity|]. repeat split; vm_compute; reflexivity. Qed.
(** A run that resumes: it calls the objective, and starts a local search, at most once for each
    member from the stored iteration on, and does not repeat Stage 1. *)
Theorem C98_resumed : forall E s r s' new cp, env_ok E -> run E s = (r, s') -> recorded s s' new -> resumes_from E s cp ->
  let left := Nat.min (p_iterations (cp_params cp)) (List.length (cp_reference_set cp)) - cp_iteration cp in
  List.length (objective_calls new) <= left /\ List.length (search_starts new) <= left.
Proof. exact c98_resumed. Qed.
Print Assumptions C98_resumed.
(** The demonstration with a checkpoint of iteration 5 of 6 is run again: one evaluation and
    one local search. *)
Definition stopped : st := stopped_with (file_name each_iteration 0) demo_cp (saving (sequential demo_oqnlp)).
Example C98_resumed_case : resumes_from wells_env stopped demo_cp /\
  Nat.min (p_iterations (cp_params demo_cp)) (List.length (cp_reference_set demo_cp)) - cp_iteration demo_cp = 1 /\
  let new := firstn (List.length (trace (snd (run wells_env stopped))) - List.length (trace stopped)) (trace (snd (run wells_env stopped))) in
  List.length (objective_calls new) = 1 /\ List.length (search_starts new) = 1.
Proof.
  split.
  - exists each_iteration. split; [reflexivity|]. split; [reflexivity|]. split; vm_compute; reflexivity.
  - split; [vm_compute; reflexivity|]. split; vm_compute; reflexivity.
Qed.

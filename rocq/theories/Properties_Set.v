(** * Properties of the solution set (C22 - C28, C64)

    Statements only; the proofs are lemmas of SetP.v, LeaderP.v and SetP2.v.  The theorems
    about [run] speak of one call of run from any state whose solution set, and whose
    decodable checkpoint files, have the property already; a new optimizer and an empty
    directory do, and C66 (Properties_Session.v) shows that every reachable state does. *)
From Coq Require Import ZArith NArith List Bool Arith String.
From Verif Require Import F64 Base Builders Types Filters Runner Observer Env EnvSpec ScatterSearch Codec
  Checkpoint Oqnlp Spec SetP LeaderP Demo SetP2.
Import ListNotations.

(** C22: every set that a run returns, ends with or stores on the way has all its members
    within the tolerances of the first. *)
Theorem C22_run : forall E s r s' set, run E s = (r, s') ->
  (forall x, o_set (s_o s) = Some x -> close_to_first (o_abs_tol (s_o s)) (o_rel_tol (s_o s)) x) ->
  checkpoints_hold (fun cp => forall x, cp_solution_set cp = Some x ->
    close_to_first (cp_abs_tol cp) (cp_rel_tol cp) x) s ->
  r = Ok set \/ o_set (s_o s') = Some set \/ stored_during s s' set ->
  close_to_first (o_abs_tol (s_o s')) (o_rel_tol (s_o s')) set.
Proof. exact c22_run. Qed.
Print Assumptions C22_run.
Theorem C22_history : forall E sols s s' set, history E sols s s' ->
  (forall x, o_set (s_o s) = Some x -> close_to_first (o_abs_tol (s_o s)) (o_rel_tol (s_o s)) x) ->
  o_set (s_o s') = Some set -> close_to_first (o_abs_tol (s_o s')) (o_rel_tol (s_o s')) set.
Proof. exact c22_history. Qed.
Print Assumptions C22_history.
(** a run of the demonstration problem ends with two solutions *)
Example C22_example : result_of wells_env demo_oqnlp = Ok [sol1 (of_Z (-2)) f0; sol1 f2 f0] /\
  o_set demo_oqnlp = None /\ checkpoints_hold (fun _ => False) (start_state demo_oqnlp).
Proof. split; [vm_compute; reflexivity|]. split; [reflexivity|]. intros f c cp []. Qed.

(** C23: two members of the set are never closer than the distance factor. *)
Theorem C23_run : forall E s r s' set, run E s = (r, s') ->
  (forall x, o_set (s_o s) = Some x -> pairwise_separated (p_distance_factor (o_params (s_o s))) x) ->
  checkpoints_hold (fun cp => forall x, cp_solution_set cp = Some x ->
    pairwise_separated (p_distance_factor (cp_params cp)) x) s ->
  r = Ok set \/ o_set (s_o s') = Some set \/ stored_during s s' set ->
  pairwise_separated (p_distance_factor (o_params (s_o s'))) set.
Proof. exact c23_run. Qed.
Print Assumptions C23_run.
Theorem C23_history : forall E sols s s' set, history E sols s s' ->
  (forall x, o_set (s_o s) = Some x -> pairwise_separated (p_distance_factor (o_params (s_o s))) x) ->
  o_set (s_o s') = Some set -> pairwise_separated (p_distance_factor (o_params (s_o s'))) set.
Proof. exact c23_history. Qed.
Print Assumptions C23_history.
Example C23_example : exists x y, result_of wells_env demo_oqnlp = Ok [x; y] /\
  flt (dist2 (ls_point x) (ls_point y))
      (fmul (p_distance_factor demo_params) (p_distance_factor demo_params)) = false.
Proof. exists (sol1 (of_Z (-2)) f0), (sol1 f2 f0). split; vm_compute; reflexivity. Qed.

(** C24 is false of the code: with factor zero the test "squared distance < 0" never finds
    a duplicate, and the same minimum is stored again and again. *)
Definition C24_full : Prop := forall E p o set s', env_ok E -> oq_new p = Ok o ->
  p_distance_factor p = f0 -> run E (start_state o) = (Ok set, s') -> no_repeats set.
Theorem C24_zero_factor_refuted : ~ C24_full.
Proof.
  intro H.
  specialize (H wells_env (with_factor f0 demo_params) (made (with_factor f0 demo_params))
    [sol1 (of_Z (-2)) f0; sol1 f2 f0; sol1 (of_Z (-2)) f0]
    (state_of wells_env (made (with_factor f0 demo_params))) (demo_env_ok _ _) eq_refl eq_refl).
  refine (H _ 0 2 (sol1 (of_Z (-2)) f0) (sol1 (of_Z (-2)) f0) _ eq_refl eq_refl eq_refl);
    [vm_compute; reflexivity | discriminate].
Qed.
Print Assumptions C24_zero_factor_refuted.
(** What holds: a factor whose square is positive excludes repeated finite points.  Missing
    for the full claim: factor zero (and factors so small that the square underflows). *)
Theorem C24_positive_factor_partial : forall E s r s' set, run E s = (r, s') ->
  (forall x, o_set (s_o s) = Some x -> pairwise_separated (p_distance_factor (o_params (s_o s))) x) ->
  checkpoints_hold (fun cp => forall x, cp_solution_set cp = Some x ->
    pairwise_separated (p_distance_factor (cp_params cp)) x) s ->
  r = Ok set \/ o_set (s_o s') = Some set \/ stored_during s s' set ->
  flt f0 (fmul (p_distance_factor (o_params (s_o s'))) (p_distance_factor (o_params (s_o s')))) = true ->
  (forall x, In x set -> finite_point (ls_point x)) -> no_repeats set.
Proof. exact c24_run. Qed.
Print Assumptions C24_positive_factor_partial.
Example C24_example : flt f0 (fmul (p_distance_factor demo_params) (p_distance_factor demo_params)) = true.
Proof. reflexivity. Qed.

(** C25: with numeric objectives the leader never gets worse; at each step the processed
    solution is not better than the leader by more than the tolerance; with zero tolerances
    the leader is at least as good as everything processed. *)
Theorem C25_history : forall E sols s s', history E sols s s' -> tolerances_ok (s_o s) ->
  Forall (fun x => number (ls_obj x)) sols ->
  (forall s0, o_set (s_o s) = Some s0 -> numeric_set s0) ->
  (forall s0, o_set (s_o s') = Some s0 -> numeric_set s0) /\
  (forall s0, o_set (s_o s) = Some s0 -> exists set, o_set (s_o s') = Some set /\ not_worse set s0) /\
  (zero_tol (s_o s) -> forall x, In x sols -> not_excluded E (s_o s) x ->
     exists set v, o_set (s_o s') = Some set /\ leads set v /\ fle v (ls_obj x) = true).
Proof. exact c25_history. Qed.
Print Assumptions C25_history.
Theorem C25_not_much_better : forall E x s b s1, process_local_solution E x s = (b, s1) ->
  tolerances_ok (s_o s) -> number (ls_obj x) -> (forall s0, o_set (s_o s) = Some s0 -> numeric_set s0) ->
  not_excluded E (s_o s) x ->
  exists set v, o_set (s_o s1) = Some set /\ leads set v /\
    flt (ls_obj x) (fsub v (tolerance (o_abs_tol (s_o s)) (o_rel_tol (s_o s)) (ls_obj x) v)) = false.
Proof. intros E x s b s1 H1 H2 H3 H4. exact (proj2 (proj2 (pls_leader E x s b s1 H1 H2 H3 H4))). Qed.
Print Assumptions C25_not_much_better.
Theorem C25_run : forall E s r s' new, run E s = (r, s') -> w_trace (s_w s') = new ++ w_trace (s_w s) ->
  tolerances_ok (s_o s) -> (forall s0, o_set (s_o s) = Some s0 -> numeric_set s0) ->
  checkpoints_hold (fun cp => wf (cp_abs_tol cp) = true /\ wf (cp_rel_tol cp) = true /\
    fle f0 (cp_abs_tol cp) = true /\ forall s0, cp_solution_set cp = Some s0 -> numeric_set s0) s ->
  (forall x, In (EvResult x) new -> number (ls_obj x)) ->
  (forall l1 l2 l3 b a, new = l1 ++ EvSolutionSet b :: l2 ++ EvSolutionSet a :: l3 -> not_worse b a) /\
  (forall set, r = Ok set -> forall a, In (EvSolutionSet a) new -> not_worse set a) /\
  (forall set, r = Ok set -> zero_tol (s_o s') -> forall x, In (EvResult x) new -> not_excluded E (s_o s') x ->
     exists v, leads set v /\ fle v (ls_obj x) = true).
Proof. exact c25_run. Qed.
Print Assumptions C25_run.
(** three solutions, each better than the last; the leader follows *)
Example C25_example : exists s', history wells_env [sol1 f0 (of_Z 9); sol1 f1 (of_Z 4); sol1 f2 (of_Z 5)]
    (start_state (with_tolerance f0 f0 demo_oqnlp)) s' /\ o_set (s_o s') = Some [sol1 f1 (of_Z 4)] /\
  tolerances_ok (with_tolerance f0 f0 demo_oqnlp) /\ zero_tol (with_tolerance f0 f0 demo_oqnlp).
Proof.
  set (s0 := start_state (with_tolerance f0 f0 demo_oqnlp)).
  set (s1 := snd (process_local_solution wells_env (sol1 f0 (of_Z 9)) s0)).
  set (s2 := snd (process_local_solution wells_env (sol1 f1 (of_Z 4)) s1)).
  exists (snd (process_local_solution wells_env (sol1 f2 (of_Z 5)) s2)). split.
  - apply (HistCons _ _ _ true _ s1); [vm_compute; reflexivity|].
    apply (HistCons _ _ _ false _ s2); [vm_compute; reflexivity|].
    eapply (HistCons _ _ _ false); [vm_compute; reflexivity|constructor].
  - split; [vm_compute; reflexivity|]. split; [repeat split|]. split; eexists; reflexivity.
Qed.

(** C26 is false of the code: comparisons with NaN fail, so a NaN leader stays forever. *)
Definition C26_full : Prop := forall E p o s', oq_new p = Ok o -> forall x y,
  is_nan (ls_obj x) = true -> is_finite (ls_obj y) = true ->
  history E [x; y] (start_state o) s' ->
  exists set, o_set (s_o s') = Some set /\ leads set (ls_obj y).
Theorem C26_nan_first_refuted : ~ C26_full.
Proof.
  intro H.
  set (s1 := snd (process_local_solution wells_env (sol1 f0 (NaN false)) (start_state demo_oqnlp))).
  set (s2 := snd (process_local_solution wells_env (sol1 f2 f0) s1)).
  destruct (H wells_env demo_params demo_oqnlp s2 eq_refl (sol1 f0 (NaN false)) (sol1 f2 f0) eq_refl eq_refl)
    as (set & Hs & (x & r & -> & Hx)).
  - apply (HistCons _ _ _ true _ s1); [vm_compute; reflexivity|].
    apply (HistCons _ _ _ false _ s2); [vm_compute; reflexivity|constructor].
  - vm_compute in Hs. injection Hs as <- <-. discriminate.
Qed.
Print Assumptions C26_nan_first_refuted.
(** What holds: NaN results after the first stored one change neither the set nor the merit
    threshold.  Missing: the case of a NaN stored first. *)
Theorem C26_later_nan_partial : forall E sols s s', history E sols s s' -> o_set (s_o s) <> None ->
  Forall (fun x => is_nan (ls_obj x) = true) sols ->
  o_set (s_o s') = o_set (s_o s) /\ mf_threshold (o_merit (s_o s')) = mf_threshold (o_merit (s_o s)).
Proof. exact c26_history. Qed.
Print Assumptions C26_later_nan_partial.
Example C26_example : exists s1 s2, history wells_env [sol1 f2 f0] (start_state demo_oqnlp) s1 /\
  o_set (s_o s1) = Some [sol1 f2 f0] /\ history wells_env [sol1 f1 (NaN true)] s1 s2.
Proof.
  set (s1 := snd (process_local_solution wells_env (sol1 f2 f0) (start_state demo_oqnlp))).
  exists s1, (snd (process_local_solution wells_env (sol1 f1 (NaN true)) s1)). split; [|split].
  - eapply (HistCons _ _ _ true); [vm_compute; reflexivity|constructor].
  - vm_compute; reflexivity.
  - eapply (HistCons _ _ _ false); [vm_compute; reflexivity|constructor].
Qed.

(** C27: with exclusion on, no stored or returned solution is outside the bounds. *)
Theorem C27_run : forall E s r s' set, run E s = (r, s') ->
  (o_exclude (s_o s) = true -> forall y, o_set (s_o s) = Some y ->
     forall x, In x y -> solution_inside (pb_bounds (e_problem E)) x) ->
  checkpoints_hold (fun cp => cp_exclude_oob cp = true -> forall y, cp_solution_set cp = Some y ->
     forall x, In x y -> solution_inside (pb_bounds (e_problem E)) x) s ->
  o_exclude (s_o s') = true ->
  r = Ok set \/ o_set (s_o s') = Some set \/ stored_during s s' set ->
  forall x, In x set -> solution_inside (pb_bounds (e_problem E)) x.
Proof. exact c27_run. Qed.
Print Assumptions C27_run.
Theorem C27_history : forall E sols s s' set, history E sols s s' ->
  (forall y, o_set (s_o s) = Some y -> forall x, In x y -> solution_inside (pb_bounds (e_problem E)) x) ->
  o_exclude (s_o s) = true -> o_set (s_o s') = Some set ->
  forall x, In x set -> solution_inside (pb_bounds (e_problem E)) x.
Proof. exact c27_history. Qed.
Print Assumptions C27_history.
(** the solver's answer 7 is outside [-4, 5] and is dropped, 2 is kept *)
Example C27_example : exists s', history wells_env [sol1 (of_Z 7) f0; sol1 f2 f1]
    (start_state (set_exclude_out_of_bounds true demo_oqnlp)) s' /\ o_set (s_o s') = Some [sol1 f2 f1].
Proof.
  set (s0 := start_state (set_exclude_out_of_bounds true demo_oqnlp)).
  set (s1 := snd (process_local_solution wells_env (sol1 (of_Z 7) f0) s0)).
  exists (snd (process_local_solution wells_env (sol1 f2 f1) s1)). split; [|vm_compute; reflexivity].
  apply (HistCons _ _ _ false _ s1); [vm_compute; reflexivity|].
  eapply (HistCons _ _ _ true); [vm_compute; reflexivity|constructor].
Qed.

(** C28: each member was there before, comes from a checkpoint file, or is exactly what the
    local solver returned for a point of the current reference set or for the best point of
    this run's scatter search. *)
Theorem C28_run : forall E s r s' set x, run E s = (r, s') ->
  (forall k l y, In y (e_shuffle E k l) -> In y l) ->
  r = Ok set \/ o_set (s_o s') = Some set \/ stored_during s s' set -> In x set ->
  (exists set0, o_set (s_o s) = Some set0 /\ In x set0) \/ checkpointed s x \/
  exists p, local_result E (s_o s') p x /\
    ((exists refs, o_ref (s_o s') = Some refs /\ In p refs) \/ stage1_found E s p).
Proof. exact c28_run. Qed.
Print Assumptions C28_run.
Example C28_example : result_of wells_env demo_oqnlp = Ok [sol1 (of_Z (-2)) f0; sol1 f2 f0] /\
  local_result wells_env (s_o (state_of wells_env demo_oqnlp)) [lit 5 10] (sol1 f2 f0) /\
  exists refs, o_ref (s_o (state_of wells_env demo_oqnlp)) = Some refs /\ nth_error refs 3 = Some [lit 5 10].
Proof.
  split; [vm_compute; reflexivity|]. split.
  - exists COBYLA, (cb_build cb_default). split; [vm_compute; reflexivity|]. left. vm_compute. auto.
  - eexists. split; [vm_compute; reflexivity|]. reflexivity.
Qed.

(** C64 is false of the code: for a leader with objective +infinity (what COBYLA reports when
    the objective fails) the test is "objective < infinity - infinity", so it is never
    replaced; finite solutions are appended behind it instead. *)
Definition C64_full : Prop := forall E p o s', oq_new p = Ok o -> forall x y,
  ls_obj x = pinf -> is_finite (ls_obj y) = true ->
  history E [x; y] (start_state o) s' ->
  exists set, o_set (s_o s') = Some set /\ leads set (ls_obj y).
Theorem C64_infinite_first_refuted : ~ C64_full.
Proof.
  intro H.
  set (s1 := snd (process_local_solution wells_env (sol1 f0 pinf) (start_state demo_oqnlp))).
  set (s2 := snd (process_local_solution wells_env (sol1 f2 f0) s1)).
  destruct (H wells_env demo_params demo_oqnlp s2 eq_refl (sol1 f0 pinf) (sol1 f2 f0) eq_refl eq_refl)
    as (set & Hs & (x & r & -> & Hx)).
  - apply (HistCons _ _ _ true _ s1); [vm_compute; reflexivity|].
    apply (HistCons _ _ _ true _ s2); [vm_compute; reflexivity|constructor].
  - vm_compute in Hs. injection Hs as <- <-. discriminate.
Qed.
Print Assumptions C64_infinite_first_refuted.
(** What holds: with relative tolerance zero and a finite absolute tolerance the finite
    solution takes over.  Missing: positive relative tolerances, the default. *)
Theorem C64_zero_relative_tolerance_partial : forall E s b s' x rest y,
  process_local_solution E y s = (Ok b, s') -> o_set (s_o s) = Some (x :: rest) -> ls_obj x = pinf ->
  is_finite (ls_obj y) = true -> not_excluded E (s_o s) y ->
  (exists z, o_rel_tol (s_o s) = Zero z) -> is_finite (o_abs_tol (s_o s)) = true -> o_set (s_o s') = Some [y].
Proof. exact c64_step. Qed.
Print Assumptions C64_zero_relative_tolerance_partial.
Example C64_example : exists s1 s2,
  history wells_env [sol1 f0 pinf] (start_state (with_tolerance lit_1e_8 f0 demo_oqnlp)) s1 /\
  o_set (s_o s1) = Some [sol1 f0 pinf] /\
  process_local_solution wells_env (sol1 f2 f0) s1 = (Ok false, s2) /\ o_set (s_o s2) = Some [sol1 f2 f0].
Proof.
  set (s1 := snd (process_local_solution wells_env (sol1 f0 pinf) (start_state (with_tolerance lit_1e_8 f0 demo_oqnlp)))).
  exists s1, (snd (process_local_solution wells_env (sol1 f2 f0) s1)). split; [|split; [|split]].
  - eapply (HistCons _ _ _ true); [vm_compute; reflexivity|constructor].
  - vm_compute; reflexivity.
  - vm_compute; reflexivity.
  - vm_compute; reflexivity.
Qed.

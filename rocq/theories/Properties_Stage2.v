(** * Properties of Stage 2 (C29 - C37, C62)

    Statements only; the proofs are lemmas of FilterP.v, SearchP.v, CountP.v, TargetP.v,
    ClockP.v, ClockFreeP.v, WaitP.v, Stage2P.v, BatchP.v, StartP.v and F64Alg.v.  [recorded s s' new]:
    [new] is what one run recorded, latest event first. *)
From Coq Require Import ZArith NArith List Bool Arith Permutation String.
From Verif Require Import F64 F64Order F64Alg Base Builders Types Filters Runner Observer Env EnvSpec ScatterSearch Codec
  Checkpoint Oqnlp Spec SpecStage2 Demo Demo2 CountP TargetP WaitP ClockP ClockFreeP Stage2P BatchP StartP.
Import ListNotations.

(** the record of a run from [start_state o] *)
Definition record_of (E : env) (o : oqnlp) : list event := w_trace (s_w (state_of E o)).
Lemma record_recorded : forall E o, recorded (start_state o) (state_of E o) (record_of E o).
Proof. intros. unfold recorded. simpl. rewrite app_nil_r. reflexivity. Qed.
Lemma run_pair : forall E o, run E (start_state o) = (result_of E o, state_of E o).
Proof. intros. unfold result_of, state_of. destruct (run E (start_state o)); reflexivity. Qed.
Definition decisions (l : list event) : list (nat * bool) :=
  flat_map (fun e => match e with EvDecide i _ _ _ b => [(i, b)] | _ => [] end) l.

(** C29: a candidate is accepted exactly when its objective value is at most the threshold in
    force and it is far enough from every local solution processed so far (in this run or
    before); *)
Theorem C29_decision : forall E s r s' new, run E s = (r, s') -> recorded s s' new ->
  exists t0 sols0, initial_filter s t0 sols0 /\ forall l1 l2 i p obj o b, new = l1 ++ EvDecide i p obj o b :: l2 ->
    (b = true <-> fle obj (threshold_after t0 l2) = true /\
       forall x, In x sols0 \/ result_in l2 x ->
         flt (fmul (fp_distance_factor (df_params (o_df (s_o s)))) (fp_distance_factor (df_params (o_df (s_o s)))))
             (dist2 p (ls_point x)) = true).
Proof. exact c29_decide. Qed.
Print Assumptions C29_decision.
(** a Stage 2 local search starts only from a candidate that was accepted, with no local
    solution processed in between; *)
Theorem C29_search : forall E s r s' new l1 l2 i p, run E s = (r, s') -> recorded s s' new ->
  new = l1 ++ EvSearch (Some i) p :: l2 ->
  exists obj o l3 l4, l2 = l3 ++ EvDecide i p obj o true :: l4 /\ forall x, ~ result_in l3 x.
Proof. exact c29_search. Qed.
Print Assumptions C29_search.
(** and a rejected candidate starts none. *)
Theorem C29_rejected : forall E s r s' new i p obj o, env_ok E -> run E s = (r, s') -> recorded s s' new ->
  In (EvDecide i p obj o false) new -> ~ In i (searched new).
Proof. exact c29_rejected. Qed.
Print Assumptions C29_rejected.
Example C29_example : decisions (rev (record_of wells_env (sequential demo_oqnlp))) =
    [(0, false); (1, true); (2, false); (3, true); (4, false); (5, false)] /\
  rev (searched (record_of wells_env (sequential demo_oqnlp))) = [1; 3].
Proof. split; vm_compute; reflexivity. Qed.

(** C30 is false of the code: the candidates are shuffled, their objective values are not. *)
Definition C30_full : Prop := forall E p o r s' new i q obj o1 b, env_ok E -> oq_new p = Ok o ->
  run E (start_state o) = (r, s') -> recorded (start_state o) s' new ->
  In (EvDecide i q obj o1 b) new -> pb_objective (e_problem E) q = inl obj.
(** a candidate that was attributed a value below its objective *)
Definition misjudged (P : problem) (e : event) : bool :=
  match e with
  | EvDecide _ q obj _ _ => match pb_objective P q with inl v => flt obj v | inr _ => false end
  | _ => false
  end.
Theorem C30_own_objective_refuted : ~ C30_full.
Proof.
  intro H.
  assert (Hb : existsb (misjudged two_wells) (record_of wells_env demo_oqnlp) = true) by (vm_compute; reflexivity).
  apply existsb_exists in Hb as (e & Hin & Hm). destruct e as [| |i q obj o1 b| | | | | | | | | | |]; try discriminate Hm.
  pose proof (H wells_env demo_params demo_oqnlp _ _ _ i q obj o1 b (demo_env_ok _ _) eq_refl
    (run_pair wells_env demo_oqnlp) (record_recorded wells_env demo_oqnlp) Hin) as G.
  change (pb_objective two_wells q = inl obj) in G. unfold misjudged in Hm. rewrite G, flt_irrefl in Hm. discriminate.
Qed.
Print Assumptions C30_own_objective_refuted.
(** What holds of every run: the value attributed to the i-th candidate is the objective value
    of the i-th point of the reference set, which is not shuffled.  Missing: that this point is
    the candidate. *)
Theorem C30_position_partial : forall E s r s' new i p obj o b, env_ok E -> run E s = (r, s') -> recorded s s' new ->
  In (EvDecide i p obj o b) new ->
  exists q, nth_error (reference_set s') i = Some q /\ pb_objective (e_problem E) q = inl obj.
Proof. exact c30_position. Qed.
Print Assumptions C30_position_partial.
(** What holds: a run that resumes from a checkpoint evaluates each candidate itself.
    Missing: runs that start with Stage 1. *)
Theorem C30_resumed_partial : forall E s r s' new s1 i p obj o b, run E s = (r, s') -> recorded s s' new ->
  try_resume_from_checkpoint E s = (Ok true, s1) -> In (EvDecide i p obj o b) new ->
  pb_objective (e_problem E) p = inl obj /\ nth_error (reference_set s') i = Some p.
Proof. exact c30_resumed. Qed.
Print Assumptions C30_resumed_partial.
(** a second run of the demonstration resumes at iteration 5 and evaluates that candidate *)
Example C30_example : fst (try_resume_from_checkpoint wells_env (state_of wells_env (saving (sequential demo_oqnlp)))) = Ok true /\
  decisions (again_record wells_env (saving (sequential demo_oqnlp))) = [(5, true)].
Proof. split; vm_compute; reflexivity. Qed.

(** C31: candidates are the points of the reference set in some order; each of the first
    min(iterations, size) of them is begun, evaluated, judged and searched at most once; one
    more local search ends Stage 1.  (Termination: [run] is a total function.) *)
Theorem C31_bound : forall E s r s' new, env_ok E -> run E s = (r, s') -> recorded s s' new ->
  once_below (work_bound s') (begun new) /\ once_below (work_bound s') (evaluated new) /\
  once_below (work_bound s') (decided new) /\ once_below (work_bound s') (searched new) /\
  List.length (searched new) <= work_bound s' /\ List.length (stage1_searches new) <= 1.
Proof. exact c31_bound. Qed.
Print Assumptions C31_bound.
Theorem C31_candidates : forall E s r s' new, run E s = (r, s') -> recorded s s' new -> env_ok E ->
  exists order, Permutation order (reference_set s') /\
    forall i p obj o b, In (EvDecide i p obj o b) new -> nth_error order i = Some p.
Proof. exact c31_points. Qed.
Print Assumptions C31_candidates.
Example C31_example : work_bound (state_of wells_env demo_oqnlp) = 6 /\
  rev (decided (record_of wells_env demo_oqnlp)) = [0; 1; 2; 3; 4; 5] /\
  List.length (stage1_searches (record_of wells_env demo_oqnlp)) = 1.
Proof. repeat split; vm_compute; reflexivity. Qed.

(** C32 is false of the code for a run that resumes with the target already reached: it
    works on a batch before it looks. *)
Definition C32_full : Prop := forall E s r s' new, env_ok E -> run E s = (r, s') -> recorded s s' new ->
  forall i p obj o b, In (EvDecide i p obj o b) new -> forall set, o_set o = Some set -> ~ target_hit E o set.
Definition late_target : oqnlp := target_objective f1 (saving (sequential demo_oqnlp)).
Definition judged_after_target (e : event) : bool :=
  match e with
  | EvDecide _ _ _ o _ =>
      match o_set o, o_target o, o_exclude o with
      | Some set, Some t, false => match best_solution set with Some b => fle (ls_obj b) t | None => false end
      | _, _, _ => false
      end
  | _ => false
  end.
Theorem C32_resumed_refuted : ~ C32_full.
Proof.
  intro H.
  assert (Hb : existsb judged_after_target (again_record late_env late_target) = true) by (vm_compute; reflexivity).
  apply existsb_exists in Hb as (e & Hin & Hm). destruct e as [| |i q obj o1 b| | | | | | | | | | |]; try discriminate Hm.
  unfold judged_after_target in Hm. destruct (o_set o1) as [set|] eqn:Hs; try discriminate Hm.
  destruct (o_target o1) as [t|] eqn:Ht; try discriminate Hm. destruct (o_exclude o1) eqn:He; try discriminate Hm.
  destruct (best_solution set) as [x|] eqn:Hx; try discriminate Hm.
  refine (H late_env (state_of late_env late_target) (again_result late_env late_target) (again_state late_env late_target)
    (again_record late_env late_target) (demo_env_ok _ _) _ _ i q obj o1 b Hin set Hs _).
  - unfold again_result, again_state. destruct (run late_env (state_of late_env late_target)); reflexivity.
  - apply again_recorded.
  - exists t, x. split; [exact Ht|]. split; [exact Hx|]. split; [exact Hm|]. intro Hy. rewrite He in Hy. discriminate Hy.
Qed.
Print Assumptions C32_resumed_refuted.
(** What holds: once a set that reaches the target has been stored, nothing more is done and
    that set is the result.  Missing: a target reached already when the run begins. *)
Theorem C32_stops_partial : forall E s r s' new l1 set l2, run E s = (r, s') -> recorded s s' new ->
  new = l1 ++ EvSolutionSet set :: l2 -> target_hit E (s_o s') set ->
  (forall e, In e l1 -> ~ work e) /\ (forall x, r = Ok x -> x = set).
Proof. exact c32_run. Qed.
Print Assumptions C32_stops_partial.
(** the run stops at its second candidate *)
Example C32_example : result_of late_env (target_objective f1 demo_oqnlp) = Ok [sol1 (of_Z (-2)) f0] /\
  target_hit late_env (target_objective f1 demo_oqnlp) [sol1 (of_Z (-2)) f0] /\
  rev (decided (record_of late_env late_target)) = [0; 1].
Proof.
  split; [vm_compute; reflexivity|]. split; [|vm_compute; reflexivity].
  exists f1, (sol1 (of_Z (-2)) f0). repeat split; discriminate.
Qed.

(** C33: every batch starts right after a clock reading that is not above the limit; a
    reading above the limit is followed by no work; *)
Theorem C33_limit : forall E s r s' new m, run E s = (r, s') -> recorded s s' new -> o_max_time (s_o s') = Some m ->
  (forall l1 l2, new = l1 ++ EvBatch :: l2 -> exists v l3, l2 = EvClock v :: l3 /\ fgt v m = false) /\
  (forall l1 v l2, new = l1 ++ EvClock v :: l2 -> fgt v m = true -> forall e, In e l1 -> ~ work e).
Proof. exact clock_run. Qed.
Print Assumptions C33_limit.
(** between two batch starts at most one batch of candidates is worked on; *)
Theorem C33_one_batch : forall E s r s' new l1 seg l2, run E s = (r, s') -> recorded s s' new ->
  new = l1 ++ seg ++ l2 -> within_batch seg ->
  List.length (begun seg) <= max_batch (s_o s') /\ List.length (evaluated seg) <= max_batch (s_o s') /\
  List.length (decided seg) <= max_batch (s_o s') /\ List.length (searched seg) <= max_batch (s_o s').
Proof. exact batch_bound. Qed.
Print Assumptions C33_one_batch.
(** and without a limit two clocks give the same result, optimizer and files (up to the
    time stamps in them). *)
Theorem C33_no_limit : forall E c s r s' r' t', o_max_time (s_o s) = None ->
  run E s = (r, s') -> run (with_clock c E) s = (r', t') ->
  r' = r /\ s_o t' = s_o s' /\ map fst (d_files (w_disk (s_w t'))) = map fst (d_files (w_disk (s_w s'))).
Proof. exact c33_no_limit. Qed.
Print Assumptions C33_no_limit.
(** the clock of the demonstration shows 1 at the first check, 2 at the second *)
Example C33_example :
  rev (decided (record_of wells_env (max_time f1 (sequential demo_oqnlp)))) = [0] /\
  rev (decided (record_of wells_env (max_time (of_Z 3) (sequential demo_oqnlp)))) = [0; 1; 2].
Proof. split; vm_compute; reflexivity. Qed.

(** C34: the counter stays below max(1, wait_cycle); at every batch start, and at the end,
    the rejected candidates are the completed cycles, each with its relaxation, plus the
    counter; *)
Theorem C34_counter : forall E s r s' new, run E s = (r, s') -> recorded s s' new ->
  o_unchanged (s_o s) < cycle (s_o s) ->
  checkpoints_hold (fun cp => cp_unchanged cp < Nat.max 1 (p_wait_cycle (cp_params cp))) s ->
  exists u0, initial_counter s u0 /\ u0 < cycle (s_o s') /\
    (forall l1 l2, new = l1 ++ EvBatch :: l2 -> exists u, u < cycle (s_o s') /\
       u0 + rejections l2 = relaxations l2 * cycle (s_o s') + u) /\
    (forall set, r = Ok set -> exists u, u < cycle (s_o s') /\
       u0 + rejections new = relaxations new * cycle (s_o s') + u) /\
    (forall f cp, In (EvSave f cp) new -> cp_unchanged cp < cycle (s_o s')) /\
    o_unchanged (s_o s') < cycle (s_o s').
Proof. exact wait_run. Qed.
Print Assumptions C34_counter.
(** and each relaxation sets the threshold t to t + threshold_factor * (1 + |t|). *)
Theorem C34_relaxed : forall E s r s' new, run E s = (r, s') -> recorded s s' new ->
  exists t0 sols0, initial_filter s t0 sols0 /\ forall l1 v l2, new = l1 ++ EvRelax v :: l2 ->
    v = fadd (threshold_after t0 l2)
             (fmul (p_threshold_factor (o_params (s_o s'))) (fadd f1 (fabs (threshold_after t0 l2)))).
Proof. exact relax_run. Qed.
Print Assumptions C34_relaxed.
(** wait cycle 2: five rejections, two relaxations *)
Example C34_example :
  let o := sequential (made (with_wait 2 demo_params)) in
  o_unchanged o < cycle o /\ checkpoints_hold (fun _ => False) (start_state o) /\
  rejections (record_of wells_env o) = 5 /\ relaxations (record_of wells_env o) = 2.
Proof. split; [apply Nat.ltb_lt; reflexivity|]. split; [intros f c cp []|]. split; vm_compute; reflexivity. Qed.

(** C35: relaxation never lowers a threshold that is a number, a finite threshold stays a
    number, and whatever the filter accepted it still accepts (unless the threshold is minus
    infinity, which becomes NaN). *)
Theorem C35_relaxation : forall s r s', adjust_threshold s = (r, s') ->
  let factor := p_threshold_factor (o_params (s_o s)) in
  let t := mf_threshold (o_merit (s_o s)) in
  let t' := mf_threshold (o_merit (s_o s')) in
  wf factor = true -> wf t = true -> flt f0 factor = true -> is_nan t = false ->
  flt t' t = false /\ (is_finite t = true -> is_nan t' = false) /\
  (t <> Inf true -> forall v, mf_check (o_merit (s_o s)) v = true -> mf_check (o_merit (s_o s')) v = true).
Proof. exact c35_adjust. Qed.
Print Assumptions C35_relaxation.
Example C35_example :
  let s := start_state (set_o_merit (mf_update mf_new (of_Z (-7))) demo_oqnlp) in
  wf (p_threshold_factor (o_params (s_o s))) = true /\ flt f0 (p_threshold_factor (o_params (s_o s))) = true /\
  mf_threshold (o_merit (s_o (snd (adjust_threshold s)))) = of_Z 153 /\
  is_nan (relaxed (of_Z 20) (Inf true)) = true.
Proof. repeat split; vm_compute; reflexivity. Qed.

(** C36 is false of the code: finding a better solution leaves the counter as it is. *)
Definition C36_full : Prop := forall E p o r s' new l1 i q obj o1 b seg set l2, env_ok E -> oq_new p = Ok o ->
  run E (start_state (sequential o)) = (r, s') -> recorded (start_state (sequential o)) s' new ->
  new = l1 ++ EvDecide i q obj o1 b :: seg ++ EvSolutionSet set :: l2 -> rejections seg = 0 ->
  o_unchanged o1 = 0.
Theorem C36_no_reset_refuted : ~ C36_full.
Proof.
  intro H. set (p := with_wait 5 demo_params). set (o := made p).
  destruct (stale_split (record_of late_env (sequential o))) as (l1 & i & q & obj & o1 & b & seg & set & l2 & H1 & H2 & H3).
  - vm_compute. reflexivity.
  - apply H3. eapply (H late_env p o _ _ _ l1 i q obj o1 b seg set l2 (demo_env_ok _ _) eq_refl
      (run_pair _ _) (record_recorded _ _) H1 H2).
Qed.
Print Assumptions C36_no_reset_refuted.

(** C37 is false of the code: a parallel batch judges all its candidates before it processes
    any result. *)
Definition C37_full : Prop := forall E start resumed objs batch u s r1 s1 r2 s2, env_ok E ->
  process_batch_parallel E start resumed objs batch u s = (Ok r1, s1) ->
  process_batch_sequential E start resumed objs batch u s = (Ok r2, s2) -> o_set (s_o s1) = o_set (s_o s2).
Definition wells_stage1 : st := snd (stage1_run wells_env (start_state demo_oqnlp)).
Definition wells_batch : list (nat * point) := enumerate (reference_set wells_stage1).
Theorem C37_batches_refuted : ~ C37_full.
Proof.
  intro H.
  set (a := process_batch_parallel wells_env 0 false None wells_batch 0 wells_stage1).
  set (b := process_batch_sequential wells_env 0 false None wells_batch 0 wells_stage1).
  assert (Ha : option_map (@List.length lsol) (o_set (s_o (snd a))) = Some 1) by (vm_compute; reflexivity).
  assert (Hb : option_map (@List.length lsol) (o_set (s_o (snd b))) = Some 2) by (vm_compute; reflexivity).
  assert (Fa : fst a = Ok 0) by (vm_compute; reflexivity). assert (Fb : fst b = Ok 0) by (vm_compute; reflexivity).
  rewrite (H wells_env 0 false None wells_batch 0 wells_stage1 0 (snd a) 0 (snd b) (demo_env_ok _ _)) in Ha.
  - rewrite Hb in Ha. discriminate Ha.
  - fold a. rewrite <- Fa. destruct a; reflexivity.
  - fold b. rewrite <- Fb. destruct b; reflexivity.
Qed.
Print Assumptions C37_batches_refuted.
(** For whole runs: *)
Definition C37_runs_full : Prop := forall E p o a b, env_ok E -> oq_new p = Ok o ->
  result_of E (parallel true o) = Ok a -> result_of E (parallel false o) = Ok b -> a = b.
Theorem C37_runs_refuted : ~ C37_runs_full.
Proof.
  intro H.
  specialize (H wells_env demo_params demo_oqnlp [sol1 (of_Z (-2)) f0; sol1 f2 f0] [sol1 (of_Z (-2)) f0] (demo_env_ok _ _) eq_refl).
  assert (G : [sol1 (of_Z (-2)) f0; sol1 f2 f0] = [sol1 (of_Z (-2)) f0]) by (apply H; vm_compute; reflexivity).
  discriminate G.
Qed.
Print Assumptions C37_runs_refuted.
(** What holds: for a batch of one candidate both ways leave the same solution set, filters
    and counter.  Missing: batches of two or more. *)
Theorem C37_one_candidate_partial : forall E start resumed objs i p u s r1 s1 r2 s2,
  process_batch_parallel E start resumed objs [(i, p)] u s = (Ok r1, s1) ->
  process_batch_sequential E start resumed objs [(i, p)] u s = (Ok r2, s2) ->
  r1 = r2 /\ o_set (s_o s1) = o_set (s_o s2) /\ o_merit (s_o s1) = o_merit (s_o s2) /\ o_df (s_o s1) = o_df (s_o s2).
Proof. exact c37_single. Qed.
Print Assumptions C37_one_candidate_partial.
Example C37_example :
  let b := [(1, [of_Z 3])] in
  fst (process_batch_parallel wells_env 0 false None b 0 (start_state demo_oqnlp)) = Ok 0 /\
  fst (process_batch_sequential wells_env 0 false None b 0 (start_state demo_oqnlp)) = Ok 0 /\
  o_set (s_o (snd (process_batch_sequential wells_env 0 false None b 0 (start_state demo_oqnlp)))) = Some [sol1 f2 f0].
Proof. repeat split; vm_compute; reflexivity. Qed.

(** C62: the squared distance is the same in both orders (or NaN in both), never below zero,
    and zero from a finite point to itself. *)
Theorem C62_symmetric : forall a b, dist2 a b = dist2 b a \/ (is_nan (dist2 a b) = true /\ is_nan (dist2 b a) = true).
Proof. exact dist2_sym. Qed.
Print Assumptions C62_symmetric.
Theorem C62_not_negative : forall a b, flt (dist2 a b) f0 = false.
Proof. exact dist2_nonneg. Qed.
Print Assumptions C62_not_negative.
Theorem C62_diagonal : forall a, finite_point a -> dist2 a a = f0.
Proof. exact dist2_diag. Qed.
Print Assumptions C62_diagonal.
Example C62_example : dist2 [f1; f0] [of_Z 4; of_Z 4] = of_Z 25 /\ finite_point [f1; of_Z 4].
Proof. split; [vm_compute; reflexivity|repeat constructor]. Qed.

(** * Properties of Stage 1 (C08 - C21, C56, C73)

    Statements only; the proofs are lemmas of Stage1Q.v, Stage1R.v, SchedP.v, StartP.v and ExpandP.v.
    [built E p s]: s is a ScatterSearch made by [new] and the three builder methods.  The
    vocabulary is SpecStage1.v, the problems of the examples are in DemoStage1.v. *)
From Coq Require Import ZArith NArith List Bool Arith Lia Permutation.
From Verif Require Import F64 Base Builders Types Runner Observer Env EnvSpec ScatterSearch Codec Checkpoint Oqnlp
  Spec SpecStage1 SpecStage2 SpecSave Demo Demo2 DemoCp DemoStage1 Stage1Q Stage1R ExpandP DistP GreedyP
  HoareP CountP StartP.
Import ListNotations.

(** C08 *)
Theorem C08_in_bounds : forall E p s pts best s', env_ok E -> built E p s ->
  Forall tame_bound (pb_bounds (e_problem E)) ->
  Forall (fun c => in_box (pb_bounds (e_problem E)) c /\ canonical c) (custom_points s) ->
  ss_run E s = (Ok (pts, best), s') ->
  in_box (pb_bounds (e_problem E)) best /\ Forall (fun m => in_box (pb_bounds (e_problem E)) (fst m)) pts.
Proof. exact c08. Qed.
Print Assumptions C08_in_bounds.
Example C08_example : env_ok plane_env /\ built plane_env (params_for 8) plane_search /\
  Forall tame_bound (pb_bounds plane) /\
  Forall (fun c => in_box (pb_bounds plane) c /\ canonical c) (custom_points plane_search) /\
  returns (ss_run plane_env plane_search) (fun l => length l =? 8) = true.
Proof.
  split; [apply demo_env_ok|]. split; [apply search_built; vm_compute; reflexivity|].
  split; [repeat constructor|]. split; [repeat constructor|]. vm_compute. reflexivity.
Qed.

(** C09 is false of the code: the sum of two accepted bounds may overflow, and the reference
    set that Stage 1 returns contains a point at infinity. *)
Definition C09_full : Prop := forall E p s pts best s', env_ok E -> built E p s ->
  Forall finite_bound (pb_bounds (e_problem E)) -> custom_points s = [] ->
  ss_run E s = (Ok (pts, best), s') ->
  forall v, In (centre (pb_bounds (e_problem E)), v) pts -> in_box (pb_bounds (e_problem E)) (centre (pb_bounds (e_problem E))).
Definition ends_at_infinity (l : list (point * f64)) : bool :=
  match rev l with ([Inf false], v) :: _ => true | _ => false end.
Lemma last_infinite : forall l, ends_at_infinity l = true -> exists v, In ([Inf false], v) l.
Proof.
  intros l H. unfold ends_at_infinity in H. destruct (rev l) as [|[q v] r] eqn:Hp; [discriminate|].
  exists v. apply (proj2 (in_rev l _)). rewrite Hp. left. destruct q as [|[| [|] | |] [|]]; try discriminate. reflexivity.
Qed.
Theorem C09_midpoint_refuted : ~ C09_full.
Proof.
  intro H. set (s := search huge_env 3 false []).
  destruct (returns_case (ss_run huge_env s) ends_at_infinity)
    as (pts & best & s' & Hr & Hf); [vm_compute; reflexivity|].
  apply last_infinite in Hf as Hin.
  destruct Hin as [v Hin].
  assert (Hc : centre (pb_bounds (e_problem huge_env)) = [Inf false]) by (vm_compute; reflexivity).
  assert (B : in_box (pb_bounds (e_problem huge_env)) [Inf false]).
  { rewrite <- Hc. refine (H huge_env (params_for 3) s pts best s' (demo_env_ok _ _) _ _ _ Hr v _).
    - apply search_built. vm_compute. reflexivity.
    - repeat constructor.
    - reflexivity.
    - rewrite Hc. exact Hin. }
  inversion B as [|? ? ? ? [_ B1] _]. vm_compute in B1. discriminate B1.
Qed.
Print Assumptions C09_midpoint_refuted.
(** What holds: if the sums do not overflow, the three seeds are the two corners and the
    centre, and all lie inside. *)
Theorem C09_midpoint_partial : forall E p s, built E p s -> Forall tame_bound (pb_bounds (e_problem E)) ->
  seed_points (ss_lower s) (ss_upper s) =
    [lower_corner (pb_bounds (e_problem E)); upper_corner (pb_bounds (e_problem E)); centre (pb_bounds (e_problem E))] /\
  Forall (in_box (pb_bounds (e_problem E))) (seed_points (ss_lower s) (ss_upper s)).
Proof. exact c09. Qed.
Print Assumptions C09_midpoint_partial.
Example C09_example : built plane_env (params_for 8) plane_search /\ Forall tame_bound (pb_bounds plane).
Proof. split; [apply search_built; vm_compute; reflexivity|]. repeat constructor. Qed.

(** C10 *)
Theorem C10_trials_in_box : forall E b a c seed l, length a = length b -> length c = length b ->
  combine_points E (lower_corner b) (upper_corner b) a c seed = Some l -> length l = 6 /\ Forall (in_box_or_nan b) l.
Proof. exact c10_box. Qed.
Print Assumptions C10_trials_in_box.
Theorem C10_trial_pairs : forall E p s trials s', ss_params s = p ->
  ss_lower s = lower_corner (pb_bounds (e_problem E)) -> ss_upper s = upper_corner (pb_bounds (e_problem E)) ->
  Forall (fun r => length r = length (pb_bounds (e_problem E))) (ss_ref s) ->
  (Z.of_nat (length (ss_ref s)) < 2 ^ 52)%Z ->
  generate_trial_points E s = (Ok trials, s') ->
  let k := sample_size (length (ss_ref s)) in
  exists pairs groups, NoDup pairs /\ (forall i j, In (i, j) pairs <-> i < j < k) /\
    trials = concat groups /\ length trials = 3 * (k * (k - 1)) /\
    Forall2 (fun ij g => length g = 6 /\ exists seed,
       combine_points E (ss_lower s) (ss_upper s) (nth (fst ij) (ss_ref s) []) (nth (snd ij) (ss_ref s) []) seed = Some g)
      pairs groups /\
    Forall (in_box_or_nan (pb_bounds (e_problem E))) trials.
Proof. exact c10_trials. Qed.
Print Assumptions C10_trial_pairs.
Example C10_example : match generate_trial_points plane_env (snd (ss_run plane_env plane_search)) with
  | (Ok t, _) => length t =? 6 | _ => false end = true.
Proof. vm_compute. reflexivity. Qed.
Example C10_example_parents : exists l,
  combine_points plane_env (lower_corner (pb_bounds plane)) (upper_corner (pb_bounds plane)) [Inf false; NaN false] [f0; f1] 5 = Some l.
Proof. eexists. vm_compute. reflexivity. Qed.

(** C11 *)
Theorem C11_feasible : forall E p s pts best s', env_ok E -> built E p s -> ss_run E s = (Ok (pts, best), s') ->
  feasible (e_problem E) best /\ Forall (fun m => feasible (e_problem E) (fst m)) pts.
Proof. exact c11. Qed.
Print Assumptions C11_feasible.
(** one corner and some samples of the demonstration problem are infeasible *)
Example C11_example : built plane_env (params_for 8) plane_search /\
  returns (ss_run plane_env plane_search) (fun l => length l =? 8) = true /\
  ~ feasible plane (lower_corner (pb_bounds plane)).
Proof.
  split; [apply search_built; vm_compute; reflexivity|]. split; [vm_compute; reflexivity|].
  intro H. specialize (H _ (or_introl eq_refl)). vm_compute in H. discriminate H.
Qed.

(** C12 *)
Theorem C12_size : forall E p s pts best s', env_ok E -> built E p s ->
  length (starting_points (e_problem E) (custom_points s)) <= p_population p ->
  ss_run E s = (Ok (pts, best), s') -> length pts = p_population p.
Proof.
  intros E p s pts best s' HE Hb Hc H. pose proof (c12_size E p s pts best s' HE Hb H). lia.
Qed.
Print Assumptions C12_size.
Theorem C12_errors : forall E p s e s', env_ok E -> built E p s -> 1 <= p_population p -> ss_run E s = (Err e, s') ->
  (exists x q, e = EvaluationError x /\ pb_objective (e_problem E) q = inr x) \/
  (pb_constraints (e_problem E) <> [] /\ exists a d, e = NoFeasibleCandidates a d).
Proof. exact c12_errors. Qed.
Print Assumptions C12_errors.
Example C12_example : length (starting_points plane (custom_points plane_search)) = 3 /\
  returns (ss_run plane_env plane_search) (fun l => length l =? 8) = true /\
  fst (ss_run nowhere_env (search nowhere_env 4 false [])) = Err (NoFeasibleCandidates 10 1).
Proof. split; [|split]; vm_compute; reflexivity. Qed.

(** C13 is false of the code: with more seeds and custom points than population_size all of
    them stay, unless a trial point is accepted. *)
Definition C13_full : Prop := forall E p s pts best s', env_ok E -> built E p s -> ss_run E s = (Ok (pts, best), s') ->
  length pts <= p_population p.
Theorem C13_population_refuted : ~ C13_full.
Proof.
  intro H. set (s := search flat_env 3 false [[lit 1 4]; [lit 3 4]]).
  destruct (returns_case (ss_run flat_env s) (fun l => length l =? 5)) as (pts & best & s' & Hr & Hf); [vm_compute; reflexivity|].
  assert (L : length pts <= 3).
  { refine (H flat_env (params_for 3) s pts best s' (demo_env_ok _ _) _ Hr). apply search_built. vm_compute. reflexivity. }
  apply Nat.eqb_eq in Hf. lia.
Qed.
Print Assumptions C13_population_refuted.
(** What holds: there are never fewer than population_size members, and never more than the
    larger of population_size and the number of feasible seeds and custom points. *)
Theorem C13_population_partial : forall E p s pts best s', env_ok E -> built E p s -> ss_run E s = (Ok (pts, best), s') ->
  p_population p <= length pts <= Nat.max (p_population p) (length (starting_points (e_problem E) (custom_points s))).
Proof. exact c12_size. Qed.
Print Assumptions C13_population_partial.
Example C13_example : built flat_env (params_for 3) (search flat_env 3 false [[lit 1 4]; [lit 3 4]]) /\
  length (starting_points (flat (f0, f1)) [[lit 1 4]; [lit 3 4]]) = 5.
Proof. split; [apply search_built|]; vm_compute; reflexivity. Qed.

(** C14 *)
Theorem C14_values : forall E s pts best s', env_ok E -> ss_run E s = (Ok (pts, best), s') ->
  Forall (fun m => pb_objective (e_problem E) (fst m) = inl (snd m)) pts.
Proof. exact c14. Qed.
Print Assumptions C14_values.
(** the values of this run differ from each other *)
Example C14_example : returns (ss_run slope_env slope_search)
  (fun l => match map snd l with a :: b :: _ => flt a b | _ => false end) = true.
Proof. vm_compute. reflexivity. Qed.

(** C15 *)
Theorem C15_update : forall E s trials s', env_ok E -> length (ss_ref s) = length (ss_objs s) ->
  (Z.of_nat (length (ss_ref s)) < 2 ^ 52)%Z -> trials <> [] ->
  update_reference_set E trials s = (Ok tt, s') ->
  exists threshold accepted,
    (length (ss_ref s) < 2 -> threshold = f0) /\
    (2 <= length (ss_ref s) -> tenth_of_mean (ss_ref s) (sample_size (length (ss_ref s))) threshold) /\
    (forall p v, In (p, v) accepted <-> In p trials /\ feasible (e_problem E) p /\
       (forall r, In r (firstn 5 (ss_ref s)) -> flt threshold (dist2 p r) = true) /\
       pb_objective (e_problem E) p = inl v /\ flt v (last (ss_objs s) pinf) = true) /\
    (accepted = [] -> members s' = members s) /\
    (accepted <> [] -> exists dropped, Permutation (members s ++ accepted) (members s' ++ dropped) /\
       length (members s') = p_population (ss_params s) /\
       forall a b, In a (members s') -> In b dropped -> total_le (snd a) (snd b) = true) /\
    (forall p v, In (p, v) (members s) -> exists q w, In (q, w) (members s') /\ total_le w v = true).
Proof. exact c15_full. Qed.
Print Assumptions C15_update.
(** in this run a better point enters and the worst ones leave *)
Definition slope_state : ss := ss_with_ref [[f1]; [of_Z 5]; [of_Z 7]] [f1; of_Z 5; of_Z 7] (search slope_env 3 false []).
Example C15_example : length (ss_ref slope_state) = length (ss_objs slope_state) /\
  fst (update_reference_set slope_env [[of_Z 3]; [of_Z 8]; [of_Z 5]] slope_state) = Ok tt /\
  members (snd (update_reference_set slope_env [[of_Z 3]; [of_Z 8]; [of_Z 5]] slope_state)) =
    [([f1], f1); ([of_Z 3], of_Z 3); ([of_Z 5], of_Z 5)].
Proof. split; [reflexivity|]. split; vm_compute; reflexivity. Qed.

(** C16 *)
Theorem C16_best : forall E s pts best s', env_ok E -> ss_run E s = (Ok (pts, best), s') ->
  exists v, In (best, v) pts /\ forall q w, In (q, w) pts -> total_le v w = true.
Proof. exact c16. Qed.
Print Assumptions C16_best.
Example C16_example : match fst (ss_run slope_env slope_search) with Ok (_, [x]) => feq x f0 | _ => false end = true.
Proof. vm_compute. reflexivity. Qed.

(** C17 is false of the code in sequential mode: points closer than 1e-7 to the set all count
    as distance 0, and the one that is taken need not be the farthest. *)
Definition C17_full : Prop := forall E refs s out s', env_ok E ->
  diversify_reference_set E refs (pb_constraints (e_problem E)) s = (Ok out, s') -> ss_log s = [] ->
  exists left, chosen not_farther refs (filter (feasibleb (e_problem E)) (drawn (ss_log s'))) out left.
Theorem C17_sequential_refuted : ~ C17_full.
Proof.
  intro H. set (s := search tiny_env 2 false []).
  set (x := diversify_reference_set tiny_env [[f0]] (pb_constraints (e_problem tiny_env)) s).
  set (far := [Fin false 4533471823554860 (-81)]). set (near := [Fin false 6044629098073146 (-83)]).
  assert (H1 : fst x = Ok [[f0]; near]) by (vm_compute; reflexivity).
  assert (H2 : filter (feasibleb (e_problem tiny_env)) (drawn (ss_log (snd x))) = [far; near]) by (vm_compute; reflexivity).
  destruct x as [r s'] eqn:Hx. cbn [fst snd] in H1, H2. subst r.
  destruct (H tiny_env [[f0]] s [[f0]; near] s' (demo_env_ok _ _) Hx eq_refl) as [left Hc]. rewrite H2 in Hc.
  inversion Hc as [|set0 cands p rest final left0 Hp Hn Hrest]; subst.
  apply chosen_prefix in Hrest as [new Hnew]. injection Hnew as <- _.
  specialize (Hn far (or_introl eq_refl) (min_distance_par SLeaf far [[f0]]) (min_distance_par SLeaf near [[f0]])
    (min_par_nearest _ _ _) (min_par_nearest _ _ _)).
  vm_compute in Hn. discriminate Hn.
Qed.
Print Assumptions C17_sequential_refuted.
(** What holds: in parallel mode every added point is a farthest one; in sequential mode it is,
    except that a candidate closer than 1e-7 (squared 1e-14) to the set may be passed over; no
    point is lost or invented. *)
Theorem C17_greedy_partial : forall E refs s out s',
  diversify_reference_set E refs (pb_constraints (e_problem E)) s = (Ok out, s') -> ss_log s = [] ->
  let cands := filter (feasibleb (e_problem E)) (drawn (ss_log s')) in
  exists left, chosen (if ss_parallel s then not_farther else not_farther_upto) refs cands out left /\
    Permutation (out ++ left) (refs ++ cands) /\ length out = Nat.max (p_population (ss_params s)) (length refs).
Proof. exact c17_spec. Qed.
Print Assumptions C17_greedy_partial.
Example C17_example : match diversify_reference_set plane_env [[f0; f0]] (pb_constraints plane) plane_search with
  | (Ok out, s') => (length out =? 8) && (8 <? length (drawn (ss_log s'))) | _ => false end = true.
Proof. vm_compute. reflexivity. Qed.

(** C18 *)
Theorem C18_effort : forall E p s r s', built E p s -> pb_constraints (e_problem E) <> [] -> ss_run E s = (r, s') -> r <> Panic ->
  let samples := drawn (ss_log s') in
  let good := filter (feasibleb (e_problem E)) samples in
  let start := starting_points (e_problem E) (custom_points s) in
  length samples <= p_population p + 20 * p_population p /\
  (forall a d, r = Err (NoFeasibleCandidates a d) -> a <= 10 /\ d = length (pb_bounds (e_problem E)) /\
     (length good < p_population p -> a = 10 /\ length samples = 21 * p_population p)) /\
  ((exists a d, r = Err (NoFeasibleCandidates a d)) <-> (good = [] \/ length start + length good < p_population p)).
Proof. exact c18. Qed.
Print Assumptions C18_effort.
Example C18_example : built nowhere_env (params_for 4) (search nowhere_env 4 false []) /\ pb_constraints nowhere <> [] /\
  fst (ss_run nowhere_env (search nowhere_env 4 false [])) = Err (NoFeasibleCandidates 10 1) /\
  length (drawn (ss_log (snd (ss_run nowhere_env (search nowhere_env 4 false []))))) = 84.
Proof.
  split; [apply search_built; vm_compute; reflexivity|]. split; [discriminate|]. split; vm_compute; reflexivity.
Qed.

(** C19 *)
Theorem C19_schedule : forall t p refs, nearest refs p (min_distance true t p refs) /\
  forall t', min_distance true t' p refs = min_distance true t p refs.
Proof. exact c19. Qed.
Print Assumptions C19_schedule.
Example C19_example : min_distance true (SNode 2 SLeaf (SNode 1 SLeaf SLeaf)) [f0] [[f2]; [NaN false]; [f1]; [f2]] = f1 /\
  min_distance true SLeaf [f0] [] = pinf.
Proof. split; vm_compute; reflexivity. Qed.

(** C20 is false of the code: the sequential version returns 0 for a reference point closer
    than 1e-7. *)
Definition C20_full : Prop := forall t p refs, min_distance false t p refs = min_distance true t p refs.
Theorem C20_agree_refuted : ~ C20_full.
Proof. intro H. specialize (H SLeaf [f0] [[lit_1e_8]]). vm_compute in H. discriminate H. Qed.
Print Assumptions C20_agree_refuted.
(** What holds: they agree if no reference point is that close; otherwise the sequential
    version returns 0 and the parallel one less than 1e-14. *)
Theorem C20_agree_partial : forall t t' p refs, (forall q, In q refs -> flt (dist2 p q) lit_1e_14 = false) ->
  min_distance false t p refs = min_distance true t' p refs.
Proof. exact c20_clear. Qed.
Print Assumptions C20_agree_partial.
Theorem C20_gap_partial : forall t t' p refs,
  min_distance false t p refs = min_distance true t' p refs \/
  (min_distance false t p refs = f0 /\ flt (min_distance true t' p refs) lit_1e_14 = true).
Proof. exact c20. Qed.
Print Assumptions C20_gap_partial.
Example C20_example : (forall q, In q [[f1]; [f2]] -> flt (dist2 [f0] q) lit_1e_14 = false) /\
  min_distance false SLeaf [f0] [[f1]; [f2]] = f1.
Proof. split; [|vm_compute; reflexivity]. intros q [<-|[<-|[]]]; vm_compute; reflexivity. Qed.

(** C21 is false of the code: the acceptance threshold for trial points is a floating point sum
    whose bracketing follows the schedule, and a trial point may sit exactly at it. *)
Definition C21_full : Prop := forall E p s sched pick pts best s', env_ok E -> built E p s ->
  ss_run E s = (Ok (pts, best), s') ->
  exists s'', ss_run (rescheduled sched pick E) s = (Ok (pts, best), s'').
Theorem C21_schedule_refuted : ~ C21_full.
Proof.
  intro H. set (E2 := rescheduled other_schedule (fun _ => 0) slope_env).
  destruct (returns_case (ss_run slope_env slope_search) (fun l => feq (last (map snd l) f0) (of_Z 4)))
    as (pts & best & s' & Hr & Hf); [vm_compute; reflexivity|].
  destruct (returns_case (ss_run E2 slope_search) (fun l => flt (last (map snd l) f0) (of_Z 4)))
    as (pts2 & best2 & s2 & Hr2 & Hf2); [vm_compute; reflexivity|].
  destruct (H slope_env (params_for 9) slope_search other_schedule (fun _ => 0) pts best s' (demo_env_ok _ _)) as [s'' G].
  - apply search_built. vm_compute. reflexivity.
  - exact Hr.
  - fold E2 in G. pose proof (eq_trans (eq_sym Hr2) G) as K.
    assert (Kp : pts2 = pts) by (injection K; auto). rewrite Kp in Hf2.
    assert (N : forall x, feq x (of_Z 4) = true -> flt x (of_Z 4) = true -> False).
    { intros x A B. unfold feq, flt in A, B. destruct (fcmp x (of_Z 4)) as [[| |]|]; discriminate. }
    exact (N _ Hf Hf2).
Qed.
Print Assumptions C21_schedule_refuted.
(** What holds: the initial reference set never depends on the schedule (if no evaluation
    fails); with at most eight members the whole run does not; and in sequential mode nothing
    does.  Missing: larger sets in parallel mode, where the threshold's bracketing matters. *)
Theorem C21_initial_partial : forall E s sched pick, (forall p, exists v, pb_objective (e_problem E) p = inl v) ->
  initialize_reference_set (rescheduled sched pick E) s = initialize_reference_set E s.
Proof. exact c21_init. Qed.
Print Assumptions C21_initial_partial.
Theorem C21_small_partial : forall E p s sched pick, env_ok E -> built E p s ->
  p_population p <= 8 -> length (custom_points s) <= 5 ->
  ss_run (rescheduled sched pick E) s = ss_run E s.
Proof. exact c21_small. Qed.
Print Assumptions C21_small_partial.
Theorem C21_sequential_partial : forall E s sched pick, env_ok E -> ss_parallel s = false ->
  ss_run (rescheduled sched pick E) s = ss_run E s.
Proof. exact c21_sequential. Qed.
Print Assumptions C21_sequential_partial.
Example C21_example : built plane_env (params_for 8) plane_search /\ ss_parallel plane_search = true /\
  e_sched (rescheduled other_schedule (fun _ => 0) plane_env) [] <> e_sched plane_env [].
Proof. split; [apply search_built; vm_compute; reflexivity|]. split; [reflexivity|discriminate]. Qed.

(** C56 *)
Theorem C56_expand : forall E np s s1, env_ok E -> Forall finite_bound (pb_bounds (e_problem E)) ->
  resume_with_modified_params E np s = (Ok true, s1) ->
  exists c cp added, o_cp (s_o s) = Some c /\
    fst (load_latest E c (snd (checkpoint_exists E c (w_disk (s_w s))))) = Ok cp /\
    o_ref (s_o s1) = Some (cp_reference_set cp ++ added) /\
    (p_population np <= p_population (cp_params cp) -> added = []) /\
    (p_population (cp_params cp) < p_population np ->
       length (cp_reference_set cp ++ added) = Nat.max (p_population np) (length (cp_reference_set cp))) /\
    Forall (fun p => in_box (pb_bounds (e_problem E)) p /\ feasible (e_problem E) p) added.
Proof. exact modified_refs. Qed.
Print Assumptions C56_expand.
Definition stopped_demo (c : cp_config) : st := stopped_with (file_name c 0) demo_cp (set_o_cp (Some c) (sequential demo_oqnlp)).
Definition count_refs (s : st) : nat := match o_ref (s_o s) with Some l => length l | None => 0 end.
Example C56_example : Forall finite_bound (pb_bounds two_wells) /\ length (cp_reference_set demo_cp) = 6 /\
  fst (resume_with_modified_params wells_env (params_for 9) (stopped_demo each_iteration)) = Ok true /\
  count_refs (snd (resume_with_modified_params wells_env (params_for 9) (stopped_demo each_iteration))) = 9 /\
  count_refs (snd (resume_with_modified_params wells_env (params_for 4) (stopped_demo each_iteration))) = 6.
Proof. split; [repeat constructor|]. split; [vm_compute; reflexivity|]. split; [|split]; vm_compute; reflexivity. Qed.

(** C73: the corners, the centre and the custom points, where feasible, all take part: each is
    a member of the final set or was displaced by [population_size] points that are no
    worse, and the point that Stage 1 hands to the local solver is no worse than any of them. *)
Theorem C73_starting_points : forall E p s pts best s', env_ok E -> built E p s -> ss_run E s = (Ok (pts, best), s') ->
  forall q, In q (starting_points (e_problem E) (custom_points s)) ->
  exists w, pb_objective (e_problem E) q = inl w /\
    (In (q, w) pts \/ length pts = p_population p /\ forall m, In m pts -> total_le (snd m) w = true) /\
    exists v, In (best, v) pts /\ total_le v w = true.
Proof. exact c73. Qed.
Print Assumptions C73_starting_points.
(** the same of a whole run of the optimizer: the local search that ends Stage 1 starts at a
    point that is no worse than any feasible point given to [with_points] *)
Theorem C73_run : forall E s r s' new p, env_ok E -> run E s = (r, s') -> recorded s s' new -> In (EvSearch None p) new ->
  forall q, In q (starting_points (e_problem E) (match o_custom (s_o s) with Some c => c | None => [] end)) ->
  exists v w, pb_objective (e_problem E) p = inl v /\ pb_objective (e_problem E) q = inl w /\ total_le v w = true.
Proof. exact c73_run. Qed.
Print Assumptions C73_run.
(** of two custom points the feasible one, (-1/2, 0), is the best point; (-1, 0) would have
    been better but violates the constraint *)
Definition plane_custom : ss := search plane_env 8 true [[of_Z (-1); f0]; [lit (-1) 2; f0]].
Example C73_example : built plane_env (params_for 8) plane_custom /\
  length (starting_points plane (custom_points plane_custom)) = 3 /\
  match fst (ss_run plane_env plane_custom) with Ok (_, [x; y]) => feq x (lit (-1) 2) && feq y f0 | _ => false end = true.
Proof. split; [apply search_built; reflexivity|]. split; vm_compute; reflexivity. Qed.
(** without custom points the demonstration starts its local search elsewhere *)
Definition from_two : oqnlp := match with_points wells_env [[of_Z 2]] demo_oqnlp with Ok o => o | _ => demo_oqnlp end.
Definition starts_at (x : f64) (e : event) : bool :=
  match e with EvSearch None [y] => feq x y | _ => false end.
Example C73_example_run : existsb (starts_at (of_Z 2)) (w_trace (s_w (state_of wells_env from_two))) = true /\
  existsb (starts_at (of_Z 2)) (w_trace (s_w (state_of wells_env demo_oqnlp))) = false /\
  In [of_Z 2] (starting_points two_wells (match o_custom from_two with Some c => c | None => [] end)).
Proof. split; [vm_compute; reflexivity|]. split; [vm_compute; reflexivity|]. vm_compute. tauto. Qed.

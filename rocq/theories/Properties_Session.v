(** * Properties of whole sessions (C63, C66)

    Statements only; the proofs are lemmas of NoPanicP.v and SessionP.v. *)
From Coq Require Import ZArith NArith List Bool Arith Lia String.
From Verif Require Import F64 Base Builders Types Filters Runner Observer Env EnvSpec ScatterSearch Codec
  Checkpoint Oqnlp Spec SpecStage1 SpecStage2 SpecObserver SpecCheckpoint SpecPanic SpecSession
  RunP NoPanicP SessionP Demo Demo2 DemoCp DemoSession.
Import ListNotations.

(** C63 is false of the code: the two entries of the line search bounds are read without a
    look at the length, and the configuration can hold any list. *)
Definition C63_full : Prop := forall E p o, env_ok E -> callbacks_keep_settings E ->
  Forall finite_bound (pb_bounds (e_problem E)) -> oq_new p = Ok o -> sane_settings o ->
  fst (run E (start_state o)) <> Panic.
Theorem C63_line_search_refuted : ~ C63_full.
Proof.
  intro H. specialize (H wells_env one_bound_params (made one_bound_params) (demo_env_ok _ _)
    (fun n o => conj eq_refl eq_refl) wells_finite eq_refl).
  apply H; [|vm_compute; reflexivity]. constructor; [discriminate|discriminate|discriminate| |]; vm_compute; reflexivity.
Qed.
Print Assumptions C63_line_search_refuted.
(** With two bounds, and local solvers that return points of the problem's dimension, a run
    does not panic: not with failing objectives and constraints, failing local solvers, any
    schedule, any clock, any disk errors.  The state must be sane ([SpecPanic.v]), and so
    must the state that a resuming run starts from. *)
Theorem C63_run_partial : forall E s, env_ok E -> callbacks_keep_settings E -> solvers_keep_dimension E ->
  Forall finite_bound (pb_bounds (e_problem E)) -> sane E (s_o s) ->
  (forall cp, resumes_from E s cp -> sane E (restored cp (s_o s))) -> fst (run E s) <> Panic.
Proof. exact run_safe. Qed.
Print Assumptions C63_run_partial.
(** Every session that starts with a new optimizer in a directory without checkpoints and
    uses sane arguments reaches only states whose runs do not panic. *)
Theorem C63_session_partial : forall P M p l s0 s E, Forall finite_bound (pb_bounds P) ->
  begins p s0 -> good_params M p -> session l s0 s -> Forall (tame P M) l -> saves_fit s ->
  tame_env P E -> fst (run E s) <> Panic.
Proof. exact session_safe. Qed.
Print Assumptions C63_session_partial.
Example C63_example : begins demo_params (start_state demo_oqnlp) /\ good_params 100 demo_params /\
  session demo_calls (start_state demo_oqnlp) st_f /\ Forall (tame two_wells 100) demo_calls /\
  saves_fit st_f /\ tame_env two_wells wells_env /\ Forall finite_bound (pb_bounds two_wells) /\
  List.length (d_files (w_disk (s_w st_f))) = 8.
Proof.
  assert (G1 : good_params 100 demo_params).
  { split; [exact I|]. split; [apply Nat.leb_le; reflexivity|]. split; [vm_compute; reflexivity|apply Nat.leb_le; reflexivity]. }
  assert (G2 : good_params 100 more_params).
  { split; [exact I|]. split; [apply Nat.leb_le; reflexivity|]. split; [vm_compute; reflexivity|apply Nat.leb_le; reflexivity]. }
  split; [exact demo_begins|]. split; [exact G1|]. split; [exact demo_session|].
  split; [unfold demo_calls, map; repeat (apply Forall_cons; [split; [exact wells_tame|first [exact I|exact G1|exact G2|discriminate]]|]); constructor|].
  split; [exact demo_fit|]. split; [exact wells_tame|]. split; [exact wells_finite|]. vm_compute. reflexivity.
Qed.
(** without files and without a stored set the hypotheses of C63_run hold of every new optimizer *)
Example C63_new_optimizer : forall E p o, oq_new p = Ok o -> two_bounds (p_solver_config p) ->
  (p_seed p + N.of_nat (p_iterations p) < 2 ^ 64)%N -> sane E o.
Proof.
  intros E p o H Hb Hs. unfold oq_new in H. destruct (p_population p <=? 3) eqn:Hp; [discriminate|].
  repeat match type of H with (if ?b then _ else _) = _ => destruct b; [discriminate|] end.
  destruct (df_new _) as [df|v]; [|discriminate]. inversion H; subst o. apply Nat.leb_gt in Hp.
  split; [constructor; [discriminate|discriminate|discriminate|exact Hs|]|].
  { cbn [o_params o_iteration]. eapply N.le_lt_trans; [|exact Hs]. apply N.add_le_mono_l, N.le_0_l. }
  split; [intros l Hl; discriminate Hl|]. split; [split; exact Hb|]. split; [intros l Hl; discriminate Hl|].
  cbn [o_params]. lia.
Qed.

(** C66: the stored solution set, after any session.  It is false of the code in general:
    with_tolerance, called after a run, does not look at the set that is stored; *)
Definition C66_full : Prop := forall p l s0 s set, begins p s0 -> session l s0 s -> saves_fit s ->
  o_set (s_o s) = Some set ->
  set <> [] /\ close_to_first (o_abs_tol (s_o s)) (o_rel_tol (s_o s)) set /\
  pairwise_separated (p_distance_factor (o_params (s_o s))) set.
Theorem C66_tolerance_refuted : ~ C66_full.
Proof.
  intro H. destruct tight_facts as (F1 & F2 & F3 & F4).
  destruct (H demo_params tight_calls (start_state demo_oqnlp) tight_st _ demo_begins tight_session F1 F2) as (_ & C & _).
  rewrite F3, F4 in C.
  specialize (C 1 (sol1 f2 lit_1e_8) (sol1 (of_Z (-2)) f0) (le_n 1) eq_refl eq_refl). vm_compute in C. discriminate C.
Qed.
Print Assumptions C66_tolerance_refuted.
(** and resume_with_modified_params does not look at it when the distance factor grows. *)
Theorem C66_factor_refuted : ~ C66_full.
Proof.
  intro H. destruct wide_facts as (F1 & F2 & F3).
  destruct (H demo_params wide_calls (start_state demo_oqnlp) wide_st _ demo_begins wide_session F1 F2) as (_ & _ & D).
  rewrite F3 in D.
  specialize (D 0 1 (sol1 (of_Z (-2)) f0) (sol1 f2 f0) (Nat.neq_0_succ 0) eq_refl eq_refl). vm_compute in D. discriminate D.
Qed.
Print Assumptions C66_factor_refuted.
(** In a session that keeps the distance factor, and changes tolerances only while no set is
    stored, the stored set is never empty, close to its first member and separated, and so is
    the set of every checkpoint file that can be decoded. *)
Theorem C66_session_partial : forall d p l s0 s, begins p s0 -> p_distance_factor p = d -> session l s0 s ->
  Forall (steady d) l -> saves_fit s ->
  (forall set, o_set (s_o s) = Some set ->
     set <> [] /\ close_to_first (o_abs_tol (s_o s)) (o_rel_tol (s_o s)) set /\ pairwise_separated d set) /\
  checkpoints_hold (fun cp => forall set, cp_solution_set cp = Some set ->
     set <> [] /\ close_to_first (cp_abs_tol cp) (cp_rel_tol cp) set /\ pairwise_separated d set) s.
Proof.
  intros d p l s0 s B Hd S L F. destruct (session_sets d p l s0 s B Hd S L F) as ([_ G1] & _ & G3).
  split; [exact G1|]. intros f b cp I1 I2. exact (proj2 (G3 F f b cp I1 I2)).
Qed.
Print Assumptions C66_session_partial.
(** The same for what the runs of the session return. *)
Theorem C66_returned_partial : forall d p l s0 s E set s', begins p s0 -> p_distance_factor p = d -> session l s0 s ->
  Forall (steady d) l -> run E s = (Ok set, s') -> saves_fit s' ->
  set <> [] /\ close_to_first (o_abs_tol (s_o s')) (o_rel_tol (s_o s')) set /\ pairwise_separated d set.
Proof.
  intros d p l s0 s E set s' B Hd S L R F.
  refine (proj1 (C66_session_partial d p ((E, CRun) :: l) s0 s' B Hd (SStep l E CRun s0 s s' S (DRun E s _ s' R)) _ F) set _).
  - constructor; [exact I|exact L].
  - exact (proj2 (run_acts E s _ s' R) set eq_refl).
Qed.
Print Assumptions C66_returned_partial.
Example C66_example : begins demo_params (start_state demo_oqnlp) /\ session demo_calls (start_state demo_oqnlp) st_f /\
  Forall (steady (p_distance_factor demo_params)) demo_calls /\ saves_fit st_f /\
  o_set (s_o st_f) = Some [sol1 (of_Z (-2)) f0; sol1 f2 f0] /\ o_set (s_o st_c) = Some [sol1 (of_Z (-2)) f0].
Proof.
  split; [exact demo_begins|]. split; [exact demo_session|].
  split; [unfold demo_calls, map; repeat (apply Forall_cons; [first [exact I|reflexivity]|]); constructor|].
  split; [exact demo_fit|]. split; vm_compute; reflexivity.
Qed.

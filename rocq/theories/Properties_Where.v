(** * Where the optimizer evaluates the objective (C97)

    Statements only; the proofs are lemmas of WhereP.v. *)
From Coq Require Import ZArith NArith List Bool Arith Lia String.
From Verif Require Import F64 Base Builders Types Filters Runner Observer Env EnvSpec ScatterSearch Codec
  Checkpoint Oqnlp Spec SpecStage1 SpecStage2 SpecObserver SpecCheckpoint SpecPanic SpecSession SpecWhere
  Actions SessionP WhereP Demo Demo2 DemoCp DemoSession DemoStage1.
Import ListNotations.

(** Whatever a user does with one optimizer for a problem, the objective is called by the
    optimizer, and the local solver is started, only at points inside the bounds that violate
    no constraint. *)
Definition C97_full : Prop := forall P p l s0 s e q, Forall finite_bound (pb_bounds P) -> begins p s0 -> session l s0 s ->
  Forall (for_problem P) l -> Forall numbers l -> saves_fit s -> In e (trace s) -> In q (visited e) -> allowed P q.
(** False of the code: the sum of two large finite bounds overflows, and Stage 1 then
    evaluates a "midpoint" at infinity. *)
Definition huge_state : st := snd (run huge_env (start_state demo_oqnlp)).
Definition at_point (f : point -> bool) (s : st) : option event := find (fun e => existsb f (visited e)) (trace s).
Definition infinite_point (q : point) : bool := match q with [Inf false] => true | _ => false end.
Lemma finds : forall f s, match at_point f s with Some _ => true | None => false end = true ->
  exists e q, In e (trace s) /\ In q (visited e) /\ f q = true.
Proof.
  intros f s H. unfold at_point in H. destruct (find _ _) as [e|] eqn:F; [|discriminate].
  apply find_some in F as [F1 F2]. apply existsb_exists in F2 as (q & F2 & F3). eauto.
Qed.
Lemma one_run : forall E s, session [(E, CRun)] s (snd (run E s)).
Proof. intros E s. apply SStep with (s1 := s); [apply SNil|]. eapply DRun, surjective_pairing. Qed.
Theorem C97_overflow_refuted : ~ C97_full.
Proof.
  intro H. destruct (finds infinite_point huge_state) as (e & q & H1 & H2 & H3); [vm_compute; reflexivity|].
  assert (X : allowed (flat huge) q).
  { refine (H (flat huge) demo_params [(huge_env, CRun)] (start_state demo_oqnlp) huge_state e q _ demo_begins
      (one_run huge_env (start_state demo_oqnlp)) _ _ _ H1 H2).
    - constructor; [|constructor]. repeat split; vm_compute; congruence.
    - constructor; [|constructor]. split; [reflexivity|]. split; [apply demo_env_ok|exact I].
    - constructor; [exact I|constructor].
    - apply saves_okb_fit. vm_compute. reflexivity. }
  destruct X as [X _]. destruct q as [|[|[|]| |] [|]]; try discriminate H3. inversion X as [|? ? ? ? [_ Y]]; subst.
  vm_compute in Y. discriminate Y.
Qed.
Print Assumptions C97_overflow_refuted.
(** Also false for tame bounds when a custom point has a NaN coordinate: the bounds check of
    [with_points] lets it through. *)
Definition C97_any_points : Prop := forall P p l s0 s e q, Forall tame_bound (pb_bounds P) -> begins p s0 -> session l s0 s ->
  Forall (for_problem P) l -> saves_fit s -> In e (trace s) -> In q (visited e) -> allowed P q.
Definition nan_custom : oqnlp := match with_points wells_env [[NaN false]] demo_oqnlp with Ok o => o | _ => demo_oqnlp end.
Definition nan_state : st := snd (run wells_env (start_state nan_custom)).
Definition nan_calls : list (env * call) := [(wells_env, CRun); (wells_env, CPoints [[NaN false]])].
Definition nan_point (q : point) : bool := match q with [NaN _] => true | _ => false end.
Lemma wells_bounds_tame : Forall tame_bound (pb_bounds two_wells).
Proof. constructor; [|constructor]. repeat split; vm_compute; congruence. Qed.
Theorem C97_nan_refuted : ~ C97_any_points.
Proof.
  intro H. destruct (finds nan_point nan_state) as (e & q & H1 & H2 & H3); [vm_compute; reflexivity|].
  assert (X : allowed two_wells q).
  { refine (H two_wells demo_params nan_calls (start_state demo_oqnlp) nan_state e q wells_bounds_tame demo_begins _ _ _ H1 H2).
    - apply SStep with (s1 := start_state nan_custom); [|eapply DRun, surjective_pairing].
      apply SStep with (s1 := start_state demo_oqnlp); [apply SNil|].
      apply (DPoints wells_env [[NaN false]] nan_custom (start_state demo_oqnlp)). reflexivity.
    - constructor; [|constructor; [|constructor]]; (split; [reflexivity|split; [apply demo_env_ok|]]).
      + exact I.
      + constructor; [|constructor]. constructor; [reflexivity|constructor].
    - apply saves_okb_fit. vm_compute. reflexivity. }
  destruct X as [X _]. destruct q as [|[| |n|] [|]]; try discriminate H3. inversion X as [|? ? ? ? [Y _]]; subst.
  destruct n; vm_compute in Y; discriminate Y.
Qed.
Print Assumptions C97_nan_refuted.
(** With tame bounds and custom points that are numbers it holds for every sequence of calls:
    runs, runs again, resumptions from any checkpoint that the session wrote, new parameters,
    in any mode and on any schedule.  The points that a local solver evaluates on its own are
    not events of the model. *)
Theorem C97_points_partial : forall P p l s0 s e q, Forall tame_bound (pb_bounds P) -> begins p s0 -> session l s0 s ->
  Forall (for_problem P) l -> Forall numbers l -> saves_fit s -> In e (trace s) -> In q (visited e) -> allowed P q.
Proof. exact c97. Qed.
Print Assumptions C97_points_partial.
(** The session of DemoSession.v: a run with checkpoints, a new optimizer, a resumption with a
    larger population and the continued run.  It visits more than twenty points. *)
Example C97_points_partial_case :
  20 <= List.length (flat_map visited (trace st_f)) /\
  forall e q, In e (trace st_f) -> In q (visited e) -> in_box [(of_Z (-4), of_Z 5)] q /\ feasible two_wells q.
Proof.
  split; [apply Nat.leb_le; vm_compute; reflexivity|].
  intros e q H1 H2. refine (C97_points_partial two_wells demo_params demo_calls (start_state demo_oqnlp) st_f e q
    wells_bounds_tame demo_begins demo_session _ _ demo_fit H1 H2).
  - repeat (constructor; [split; [reflexivity|split; [apply demo_env_ok|exact I]]|]). constructor.
  - repeat (constructor; [exact I|]). constructor.
Qed.
(** With the constraint x >= -1 and a custom point: the run visits several points of
    [-1, 5] and none to the left. *)
Definition right_wells : problem :=
  mk_problem (pb_objective two_wells) (pb_gradient two_wells) (pb_hessian two_wells) (pb_bounds two_wells)
    [fun p => fadd (first_coordinate p) f1].
Definition right_env : env := demo_env right_wells to_well.
Definition right_custom : oqnlp := match with_points right_env [[lit (-1) 2]] demo_oqnlp with Ok o => o | _ => demo_oqnlp end.
Definition right_state : st := snd (run right_env (start_state right_custom)).
Example C97_points_partial_constraint :
  existsb (fun e => match e with EvSearch _ _ => true | _ => false end) (trace right_state) = true /\
  existsb (fun q => feq (first_coordinate q) (lit (-1) 2)) (flat_map visited (trace right_state)) = true /\
  forall e q, In e (trace right_state) -> In q (visited e) -> allowed right_wells q.
Proof.
  split; [vm_compute; reflexivity|]. split; [vm_compute; reflexivity|].
  intros e q H1 H2. refine (C97_points_partial right_wells demo_params
    [(right_env, CRun); (right_env, CPoints [[lit (-1) 2]])] (start_state demo_oqnlp) right_state e q
    wells_bounds_tame demo_begins _ _ _ _ H1 H2).
  - apply SStep with (s1 := start_state right_custom); [|eapply DRun, surjective_pairing].
    apply SStep with (s1 := start_state demo_oqnlp); [apply SNil|].
    apply (DPoints right_env [[lit (-1) 2]] right_custom (start_state demo_oqnlp)). reflexivity.
  - constructor; [|constructor; [|constructor]]; (split; [reflexivity|split; [apply demo_env_ok|]]).
    + exact I.
    + constructor; [|constructor]. constructor; [vm_compute; reflexivity|constructor].
  - constructor; [exact I|]. constructor; [|constructor]. constructor; [|constructor]. constructor; [reflexivity|constructor].
  - apply saves_okb_fit. vm_compute. reflexivity.
Qed.
(** The same for a user of the scatter search alone. *)
Theorem C97_search : forall E p s r s', env_ok E -> Forall tame_bound (pb_bounds (e_problem E)) -> built E p s ->
  Forall (fun c => in_box (pb_bounds (e_problem E)) c /\ canonical c) (custom_points s) ->
  ss_run E s = (r, s') -> Forall (allowed (e_problem E)) (evaluations (ss_log s')).
Proof. intros E p s r s' HE Hb. exact (search_where E HE Hb p s r s'). Qed.
Print Assumptions C97_search.
Example C97_search_case :
  8 <= List.length (evaluations (ss_log (snd (ss_run plane_env plane_search)))) /\
  Forall (allowed plane) (evaluations (ss_log (snd (ss_run plane_env plane_search)))).
Proof.
  split; [apply Nat.leb_le; vm_compute; reflexivity|].
  refine (C97_search plane_env (params_for 8) plane_search _ _ (demo_env_ok _ _) _ (search_built plane_env 8 true [[lit 1 2; f1]] eq_refl) _ (surjective_pairing _)).
  - repeat (constructor; [repeat split; vm_compute; congruence|]). constructor.
  - constructor; [|constructor]. split; [|repeat (constructor; [vm_compute; reflexivity|]); constructor].
    repeat (constructor; [split; vm_compute; reflexivity|]). constructor.
Qed.

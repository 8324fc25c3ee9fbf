(** * Which local solver a run uses (C101)

    Statements and examples; the proofs are lemmas of SolvedP.v. *)
From Coq Require Import ZArith NArith List Bool Arith Lia String.
From Verif Require Import F64 Base Builders Types Filters Runner Observer Env EnvSpec ScatterSearch Codec Checkpoint
  Oqnlp Spec SpecStage1 SpecStage2 SpecObserver SpecCheckpoint SpecSession SpecSolved
  Actions ValuesP SolvedP Demo Demo2 DemoCp DemoSession.
Import ListNotations.

(** C101: all local searches of a run use the local solver, with the settings, that the
    parameters of the run name.  It is false of the code: the parameters of a checkpoint, or new
    ones passed when resuming, replace the optimizer's parameters but not its local solver. *)
Definition C101_full : Prop := forall p l s0 s E r s' new, begins p s0 -> session l s0 s -> env_ok E ->
  run E s = (r, s') -> recorded s s' new ->
  explains E (p_solver_type (o_params (s_o s'))) (p_solver_config (o_params (s_o s'))) r new.
(** COBYLA finds 2 and Nelder-Mead finds -2 *)
Definition two_solvers : ext :=
  mk_ext (fun _ => true) (fun _ _ => XDone (Some [of_Z (-2)]) f0 1%N) (fun j => XDone [of_Z 2] (cj_objective j [of_Z 2]) 3%N).
Definition both_env : env := demo_env two_wells two_solvers.
Definition nm_params : params := mk_params 6 6 1 (of_Z 20) (lit 75 100) NelderMead (nm_build nm_default) 3.
Definition manual : cp_config := mk_cpc "demo" 1 false false.
(** a run with COBYLA and a checkpoint, then a request for Nelder-Mead *)
Section Request.
Context (c : call) (o : oqnlp) (D : does both_env c (start_state demo_oqnlp) (start_state o)).
Definition req_a : st := snd (with_checkpointing both_env manual (start_state o)).
Definition req_b : st := snd (run both_env req_a).
Definition req_c : st := snd (resume_with_modified_params both_env nm_params req_b).
Definition req_d : st := snd (run both_env req_c).
Definition req_new : list event := firstn (List.length (trace req_d) - List.length (trace req_c)) (trace req_d).
Definition req_calls : list (env * call) :=
  [(both_env, CResumeWith nm_params); (both_env, CRun); (both_env, CCheckpointing manual); (both_env, c)].
Lemma req_session : session req_calls (start_state demo_oqnlp) req_c.
Proof.
  apply SStep with (s1 := req_b); [|eapply DResumeWith, surjective_pairing].
  apply SStep with (s1 := req_a); [|eapply DRun, surjective_pairing].
  apply SStep with (s1 := start_state o); [|eapply DCheckpointing, surjective_pairing].
  apply SStep with (s1 := start_state demo_oqnlp); [apply SNil|exact D].
Qed.
End Request.
Definition finds_at (y : f64) (l : list event) : bool :=
  existsb (fun e => match e with EvResult (mk_lsol [x] _) => feq x y | _ => false end) l.
Lemma finds_at_in y l : finds_at y l = true -> exists x, In (EvResult x) l /\ exists z, ls_point x = [z] /\ feq z y = true.
Proof.
  intros H. apply existsb_exists in H as (e & H1 & H2). destruct e as [| | | |x| | | | | | | | |]; try discriminate H2. destruct x as [[|z [|]] v]; try discriminate H2.
  eexists. split; [exact H1|]. exists z. auto.
Qed.
Lemma both_results ty cfg q x : solve two_solvers two_wells ty cfg q = Ok x ->
  ls_point x = [if match ty with COBYLA => true | _ => false end then of_Z 2 else of_Z (-2)].
Proof.
  intros H. unfold solve in H. destruct (solve_with_tracking two_solvers two_wells ty cfg q false) as [[y n]|e|] eqn:Hs; try discriminate H.
  injection H as <-. destruct ty;
    try (apply argmin_done in Hs as (j & k & Hs); [injection Hs as Hs _ _; congruence|discriminate]).
  apply cobyla_done in Hs as (j & k & Hs & _). injection Hs as Hs _ _. congruence.
Qed.
Theorem C101_requested_refuted : ~ C101_full.
Proof.
  intro H. set (o := sequential demo_oqnlp).
  assert (R : recorded (req_c o) (req_d o) (req_new o)) by (vm_compute; reflexivity).
  destruct (H demo_params _ _ (req_c o) both_env _ (req_d o) (req_new o) demo_begins
    (req_session (CParallel false) o (DParallel both_env false (start_state demo_oqnlp))) (demo_env_ok _ _) (surjective_pairing _) R) as [X _].
  destruct (finds_at_in (of_Z 2) (req_new o)) as (x & H1 & z & H2 & H3); [vm_compute; reflexivity|].
  destruct (X x H1) as (it & q & _ & Hq). change (e_ext both_env) with two_solvers in Hq. change (e_problem both_env) with two_wells in Hq.
  replace (p_solver_type (o_params (s_o (req_d o)))) with NelderMead in Hq by (vm_compute; reflexivity).
  apply both_results in Hq. rewrite H2 in Hq. injection Hq as ->. vm_compute in H3. discriminate H3.
Qed.
Print Assumptions C101_requested_refuted.
(** In parallel mode one run can even use both solvers: batches with one accepted candidate are
    searched with one, batches with several with the other. *)
Definition C101_one_solver : Prop := forall p l s0 s E r s' new, begins p s0 -> session l s0 s -> env_ok E ->
  run E s = (r, s') -> recorded s s' new -> exists ty cfg, explains E ty cfg r new.
Theorem C101_mixed_refuted : ~ C101_one_solver.
Proof.
  intro H. set (o := batch_iterations 3 demo_oqnlp).
  assert (R : recorded (req_c o) (req_d o) (req_new o)) by (vm_compute; reflexivity).
  destruct (H demo_params _ _ (req_c o) both_env _ (req_d o) (req_new o) demo_begins
    (req_session (CBatch 3) o (DBatch both_env 3 (start_state demo_oqnlp))) (demo_env_ok _ _) (surjective_pairing _) R) as (ty & cfg & X & _).
  destruct (finds_at_in (of_Z 2) (req_new o)) as (x & H1 & z & H2 & H3); [vm_compute; reflexivity|].
  destruct (finds_at_in (of_Z (-2)) (req_new o)) as (x' & H1' & z' & H2' & H3'); [vm_compute; reflexivity|].
  destruct (X x H1) as (it & q & _ & Hq). destruct (X x' H1') as (it' & q' & _ & Hq').
  clear R H. change (e_ext both_env) with two_solvers in Hq, Hq'. change (e_problem both_env) with two_wells in Hq, Hq'.
  apply both_results in Hq. apply both_results in Hq'. rewrite H2 in Hq. rewrite H2' in Hq'. injection Hq as ->. injection Hq' as ->.
  clear - H3 H3'. destruct ty; vm_compute in H3, H3'; congruence.
Qed.
Print Assumptions C101_mixed_refuted.
(** It holds in every session in which the optimizers, and the parameters passed when resuming,
    name one solver with one configuration: in both modes, on every schedule, resumed or not. *)
Theorem C101_session_partial : forall ty cfg p l s0 s E r s' new, begins p s0 -> names ty cfg p -> session l s0 s ->
  Forall (keeps_solver ty cfg) l -> env_ok E -> run E s = (r, s') -> recorded s s' new -> saves_fit s' -> explains E ty cfg r new.
Proof. exact c101. Qed.
Print Assumptions C101_session_partial.
(** the session of DemoSession.v ends with a resumed run, whose searches are COBYLA's *)
Example C101_session_partial_case :
  let new := firstn (List.length (trace st_f) - List.length (trace st_e)) (trace st_f) in
  explains wells_env COBYLA (cb_build cb_default) (fst (run wells_env st_e)) new /\
  existsb (fun e => match e with EvResult _ => true | _ => false end) new = true.
Proof.
  cbv zeta. split; [|vm_compute; reflexivity].
  refine (C101_session_partial COBYLA (cb_build cb_default) demo_params (tl demo_calls) (start_state demo_oqnlp) st_e wells_env _ st_f _
    demo_begins (conj eq_refl eq_refl) _ _ (demo_env_ok _ _) (surjective_pairing _) _ demo_fit).
  - apply SStep with (s1 := st_d); [|eapply DResumeWith, surjective_pairing].
    apply SStep with (s1 := mk_st demo_oqnlp (s_w st_c)); [|eapply DCheckpointing, surjective_pairing].
    apply SStep with (s1 := st_c); [|apply DNew; reflexivity].
    apply SStep with (s1 := st_b); [|eapply DRun, surjective_pairing].
    apply SStep with (s1 := start_state (with_tolerance f0 lit_1e_8 (sequential demo_oqnlp))); [|eapply DCheckpointing, surjective_pairing].
    apply SStep with (s1 := start_state (sequential demo_oqnlp)); [|exact (DTolerance wells_env f0 lit_1e_8 (start_state (sequential demo_oqnlp)))].
    apply SStep with (s1 := start_state demo_oqnlp); [apply SNil|exact (DParallel wells_env false (start_state demo_oqnlp))].
  - repeat (constructor; [first [exact I|split; reflexivity]|]). constructor.
  - vm_compute. reflexivity.
Qed.

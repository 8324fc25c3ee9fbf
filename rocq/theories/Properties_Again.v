(** * Running the same optimizer again (C99)

    Statements only; the proofs are lemmas of AgainP.v. *)
From Coq Require Import ZArith NArith List Bool Arith Lia String Permutation.
From Verif Require Import F64 Base Builders Types Filters Runner Observer Env EnvSpec ScatterSearch Codec
  Checkpoint Oqnlp Spec SpecStage1 SpecStage2 SpecObserver
  Actions AgainP Demo Demo2 Properties_Stage2.
Import ListNotations.

(** An environment like [demo_env], whose shuffle depends on the seed. *)
Definition turning_env : env :=
  mk_env two_wells to_well (fun s => (s mod 1024)%N) (fun r => (r, (r * 5 + 3) mod 1024)%N)
    demo_uniform
    (fun r => ((if N.even r then lit 5 100 else fopp (lit 5 100)), (r * 5 + 3) mod 1024)%N)
    (fun r l => if N.even r then l else rev l) isort (fun i l => isort l)
    2 (fun ctx => SNode 2 SLeaf (SNode 1 SLeaf SLeaf)) (fun _ => 0)
    (fun t => of_Z (Z.of_nat t)) (fun _ => "2026-01-01T00:00:00+00:00"%string)
    (fun _ => IoOk) (fun _ l => l) (fun _ o => o) false.
Lemma turning_ok : env_ok turning_env.
Proof.
  destruct (demo_env_ok two_wells to_well). constructor; try assumption.
  intros r l. change (Permutation (if N.even r then l else rev l) l). destruct (N.even r); [apply Permutation_refl|].
  apply Permutation_sym, Permutation_rev.
Qed.
Definition two_of_six : params := mk_params 2 6 1 (of_Z 20) (lit 75 100) COBYLA (cb_build cb_default) 3.
Definition twice_oqnlp : oqnlp := sequential (made two_of_six).
Definition again (E : env) (o : oqnlp) : outcome oq_error solset * st := run E (state_of E o).
Lemma again_pair E o : run E (state_of E o) = (fst (again E o), snd (again E o)).
Proof. unfold again. destruct (run E (state_of E o)); reflexivity. Qed.

(** C99 is false of the code: a second run of the same optimizer keeps the solutions of the
    first and orders the candidates of Stage 2 with the seed plus the iteration at which the
    first run ended. *)
Definition C99_full : Prop := forall E p o set1 s1 set2, env_ok E -> oq_new p = Ok o ->
  run E (start_state (sequential o)) = (Ok set1, s1) -> fst (run E s1) = Ok set2 -> set2 = set1.
Theorem C99_same_result_refuted : ~ C99_full.
Proof.
  intro H.
  assert (R1 : result_of turning_env twice_oqnlp = Ok [sol1 (of_Z (-2)) f0]) by (vm_compute; reflexivity).
  assert (R2 : fst (run turning_env (state_of turning_env twice_oqnlp)) = Ok [sol1 (of_Z (-2)) f0; sol1 f2 f0]) by (vm_compute; reflexivity).
  pose proof (run_pair turning_env (sequential (made two_of_six))) as R. fold twice_oqnlp in R. rewrite R1 in R.
  assert (N : oq_new two_of_six = Ok (made two_of_six)) by (vm_compute; reflexivity).
  specialize (H turning_env two_of_six (made two_of_six) [sol1 (of_Z (-2)) f0] (state_of turning_env twice_oqnlp)
    [sol1 (of_Z (-2)) f0; sol1 f2 f0] turning_ok N R R2). discriminate H.
Qed.
Print Assumptions C99_same_result_refuted.

(** What holds without auto_resume: the second result is not worse than the first, if the
    objectives of the local solutions are numbers and the tolerances are not negative.
    Missing: that the results are equal, which is false. *)
Theorem C99_no_worse_partial : forall E s setA s1 na setB s2 nb, run E s = (Ok setA, s1) -> recorded s s1 na ->
  run E s1 = (Ok setB, s2) -> recorded s1 s2 nb ->
  (forall c, o_cp (s_o s) = Some c -> cc_auto_resume c = false) -> tolerances_ok (s_o s) ->
  (forall s0, o_set (s_o s) = Some s0 -> numeric_set s0) ->
  (forall x, In (EvResult x) na \/ In (EvResult x) nb -> number (ls_obj x)) -> not_worse setB setA.
Proof. exact c99_no_worse. Qed.
Print Assumptions C99_no_worse_partial.
(** In sequential mode the second run, successful or not, repeats Stage 1: it evaluates the
    same points in the same order, starts the same local search, and, if both runs reach
    Stage 2, has the same reference set.  Neither the solutions found before nor the observer,
    whatever its state, changes this.  Missing: parallel mode. *)
Theorem C99_stage1_partial : forall E s ra s1 na rb s2 nb, env_ok E -> run E s = (ra, s1) -> recorded s s1 na ->
  run E s1 = (rb, s2) -> recorded s1 s2 nb ->
  (forall c, o_cp (s_o s) = Some c -> cc_auto_resume c = false) -> o_parallel (s_o s) = false ->
  stage1_evaluations nb = stage1_evaluations na /\ stage1_searches nb = stage1_searches na /\
  (begun na <> [] -> begun nb <> [] -> reference_set s2 = reference_set s1).
Proof. exact c99_stage1. Qed.
Print Assumptions C99_stage1_partial.
(** The two runs of the refutation. *)
Definition record_again (E : env) (o : oqnlp) : list event :=
  let t := w_trace (s_w (snd (again E o))) in firstn (List.length t - List.length (record_of E o)) t.
Lemma again_recorded : recorded (state_of turning_env twice_oqnlp) (snd (again turning_env twice_oqnlp)) (record_again turning_env twice_oqnlp).
Proof. unfold recorded. vm_compute. reflexivity. Qed.
Example C99_case :
  begun (record_of turning_env twice_oqnlp) = [1; 0] /\ begun (record_again turning_env twice_oqnlp) = [1; 0] /\
  List.length (stage1_evaluations (record_again turning_env twice_oqnlp)) = 6 /\
  stage1_evaluations (record_again turning_env twice_oqnlp) = stage1_evaluations (record_of turning_env twice_oqnlp) /\
  reference_set (snd (again turning_env twice_oqnlp)) = reference_set (state_of turning_env twice_oqnlp).
Proof.
  destruct (C99_stage1_partial turning_env (start_state twice_oqnlp) _ _ _ _ _ _ turning_ok
    (run_pair turning_env twice_oqnlp) (record_recorded turning_env twice_oqnlp) (again_pair turning_env twice_oqnlp) again_recorded)
    as (H1 & _ & H3); [intros c H; discriminate H|reflexivity|].
  assert (B1 : begun (record_of turning_env twice_oqnlp) = [1; 0]) by (vm_compute; reflexivity).
  assert (B2 : begun (record_again turning_env twice_oqnlp) = [1; 0]) by (vm_compute; reflexivity).
  split; [exact B1|]. split; [exact B2|]. split; [vm_compute; reflexivity|]. split; [exact H1|].
  apply H3; [rewrite B1|rewrite B2]; discriminate.
Qed.
Example C99_no_worse_case : tolerances_ok (s_o (start_state twice_oqnlp)) /\
  (forall x, In (EvResult x) (record_of turning_env twice_oqnlp) \/ In (EvResult x) (record_again turning_env twice_oqnlp) -> number (ls_obj x)) /\
  not_worse [sol1 (of_Z (-2)) f0; sol1 f2 f0] [sol1 (of_Z (-2)) f0].
Proof.
  split; [repeat split|]. split.
  - assert (D : forall l, forallb (fun e => match e with EvResult x => negb (is_nan (ls_obj x)) && wf (ls_obj x) | _ => true end) l = true ->
      forall x, In (EvResult x) l -> number (ls_obj x)).
    { intros l H x Hx. rewrite forallb_forall in H. specialize (H _ Hx). cbn beta iota in H. apply andb_prop in H as [H1 H2].
      apply negb_true_iff in H1. split; assumption. }
    intros x [Hx|Hx]; (eapply D; [|exact Hx]); vm_compute; reflexivity.
  - exists f0, f0. split; [eexists _, _; split; reflexivity|]. split; [eexists _, _; split; reflexivity|reflexivity].
Qed.

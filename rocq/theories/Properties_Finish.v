(** * Starting a program again whose run has finished (C100)

    Statements only; the proofs are lemmas of FinishP.v and KeepAllP.v. *)
From Coq Require Import ZArith NArith List Bool Arith Lia String.
From Verif Require Import F64 Base Builders Types Filters Runner Observer Env EnvSpec ScatterSearch Codec
  Checkpoint Oqnlp Spec SpecStage1 SpecStage2 SpecObserver SpecSave SpecCheckpoint SpecTiming SpecCost SpecLoss
  Actions FinishP KeepAllP Demo Demo2 DemoCp DemoSession Properties_Stage2.
Import ListNotations.

(** C100 is false of the code: with auto_resume, a program that is started again after its run
    has finished judges the last candidate again, with another threshold and another order of
    the candidates, and may return another set. *)
Definition C100_full : Prop := forall E p o set s1 set2, env_ok E -> oq_new p = Ok o ->
  run E (start_state (saving (sequential o))) = (Ok set, s1) ->
  fst (run E (next_process s1 (saving (sequential o)))) = Ok set2 -> set2 = set.
Definition done_oqnlp : oqnlp := saving (sequential demo_oqnlp).
Definition rerun : outcome oq_error solset * st := run wells_env (next_process (state_of wells_env done_oqnlp) done_oqnlp).
Theorem C100_same_result_refuted : ~ C100_full.
Proof.
  intro H.
  assert (R1 : result_of wells_env done_oqnlp = Ok [sol1 (of_Z (-2)) f0]) by (vm_compute; reflexivity).
  assert (R2 : fst (run wells_env (next_process (state_of wells_env done_oqnlp) done_oqnlp)) = Ok [sol1 (of_Z (-2)) f0; sol1 f2 f0])
    by (vm_compute; reflexivity).
  pose proof (run_pair wells_env done_oqnlp) as R. rewrite R1 in R.
  specialize (H wells_env demo_params demo_oqnlp [sol1 (of_Z (-2)) f0] (state_of wells_env done_oqnlp)
    [sol1 (of_Z (-2)) f0; sol1 f2 f0] (demo_env_ok _ _) eq_refl R R2). discriminate H.
Qed.
Print Assumptions C100_same_result_refuted.

(** A successful run that checkpoints leaves on disk, as its last action, a checkpoint of the
    state it ended in, with the set it returned; unless it never saved, as when the target was
    reached in Stage 1. *)
Theorem C100_saved : forall E s set s' new c, run E s = (Ok set, s') -> recorded s s' new -> o_cp (s_o s') = Some c ->
  (forall f cp, ~ In (EvSave f cp) new) \/
  exists cp l, new = EvSave (file_name c (cp_iteration cp)) cp :: l /\ agrees (s_o s') cp /\ cp_solution_set cp = Some set /\
    lookup (file_name c (cp_iteration cp)) (d_files (w_disk (s_w s'))) = Some (enc_checkpoint cp).
Proof. exact c100_saved. Qed.
Print Assumptions C100_saved.
(** With a single checkpoint file and auto_resume, a program started next in the same directory,
    whatever its other settings, does not repeat Stage 1, judges only candidates from the
    iteration the first ended in, and does not return a worse set.  Missing: that it returns
    the same set, which is false; for one file per save see below. *)
Theorem C100_rest_partial : forall E E2 s set s1 new c o2 r2 s2 new2, env_ok E -> env_ok E2 -> io_works E2 ->
  run E s = (Ok set, s1) -> recorded s s1 new -> (exists f cp, In (EvSave f cp) new) ->
  (forall f cp, In (EvSave f cp) new -> checkpoint_ok cp) ->
  o_cp (s_o s1) = Some c -> cc_auto_resume c = true -> cc_keep_all c = false -> o_cp o2 = Some c ->
  run E2 (next_process s1 o2) = (r2, s2) -> recorded (next_process s1 o2) s2 new2 ->
  List.length (objective_calls new2) <= work_bound s1 - o_iteration (s_o s1) /\
  List.length (search_starts new2) <= work_bound s1 - o_iteration (s_o s1) /\
  (forall set2, r2 = Ok set2 -> tolerances_ok (s_o s1) -> numeric_set set ->
     (forall x, In (EvResult x) new2 -> number (ls_obj x)) -> not_worse set2 set).
Proof. exact c100_again. Qed.
Print Assumptions C100_rest_partial.
(** If the first run was sequential and neither a target nor a time limit stopped it, only its
    last candidate is judged again: at most one evaluation and one local search. *)
Theorem C100_once_partial : forall E E2 s set s1 new c o2 r2 s2 new2, env_ok E -> env_ok E2 -> io_works E2 -> callbacks_keep_settings E ->
  run E s = (Ok set, s1) -> recorded s s1 new -> (exists f cp, In (EvSave f cp) new) ->
  (forall f cp, In (EvSave f cp) new -> checkpoint_ok cp) -> o_parallel (s_o s1) = false ->
  o_cp (s_o s1) = Some c -> cc_auto_resume c = true -> cc_keep_all c = false -> o_cp o2 = Some c ->
  ~ target_hit E (s_o s1) set -> o_max_time (s_o s1) = None ->
  run E2 (next_process s1 o2) = (r2, s2) -> recorded (next_process s1 o2) s2 new2 ->
  List.length (objective_calls new2) <= 1 /\ List.length (search_starts new2) <= 1.
Proof. exact c100_once. Qed.
Print Assumptions C100_once_partial.
(** The run of the refutation and its repetition: one evaluation, one local search. *)
Lemma done_saved : exists f cp, In (EvSave f cp) (record_of wells_env done_oqnlp).
Proof.
  assert (X : existsb (fun e => match e with EvSave _ _ => true | _ => false end) (record_of wells_env done_oqnlp) = true) by (vm_compute; reflexivity).
  apply existsb_exists in X as (e & He & X). destruct e as [| | | | | | | | | |f cp| | |]; try discriminate X. exists f, cp. exact He.
Qed.
Lemma done_fit : forall f cp, In (EvSave f cp) (record_of wells_env done_oqnlp) -> checkpoint_ok cp.
Proof. apply (saves_okb_fit (state_of wells_env done_oqnlp)). vm_compute. reflexivity. Qed.
Lemma rerun_recorded : recorded (next_process (state_of wells_env done_oqnlp) done_oqnlp) (snd rerun) (w_trace (s_w (snd rerun))).
Proof.
  unfold recorded, next_process. cbn [w_trace s_w]. generalize (w_trace (s_w (snd rerun))). intro l. rewrite app_nil_r. reflexivity.
Qed.
Example C100_case : o_iteration (s_o (state_of wells_env done_oqnlp)) = 5 /\ work_bound (state_of wells_env done_oqnlp) = 6 /\
  List.length (objective_calls (w_trace (s_w (snd rerun)))) <= 1 /\ List.length (search_starts (w_trace (s_w (snd rerun)))) = 1.
Proof.
  split; [vm_compute; reflexivity|]. split; [vm_compute; reflexivity|]. split; [|vm_compute; reflexivity].
  assert (R : run wells_env (start_state done_oqnlp) = (Ok [sol1 (of_Z (-2)) f0], state_of wells_env done_oqnlp)).
  { assert (R1 : result_of wells_env done_oqnlp = Ok [sol1 (of_Z (-2)) f0]) by (vm_compute; reflexivity).
    rewrite (run_pair wells_env done_oqnlp), R1. reflexivity. }
  assert (R2 : run wells_env (next_process (state_of wells_env done_oqnlp) done_oqnlp) = (fst rerun, snd rerun)) by (unfold rerun; apply surjective_pairing).
  refine (proj1 (C100_once_partial wells_env wells_env (start_state done_oqnlp) _ (state_of wells_env done_oqnlp) (record_of wells_env done_oqnlp)
    each_iteration done_oqnlp (fst rerun) (snd rerun) _ (demo_env_ok _ _) (demo_env_ok _ _) _ _ R (record_recorded wells_env done_oqnlp) done_saved done_fit
    _ _ eq_refl eq_refl eq_refl _ _ R2 rerun_recorded)).
  - intro t. reflexivity.
  - intros n o. split; reflexivity.
  - vm_compute. reflexivity.
  - vm_compute. reflexivity.
  - assert (T : o_target (s_o (state_of wells_env done_oqnlp)) = None) by (vm_compute; reflexivity).
    unfold target_hit. rewrite T. intros (t & best & X & _). discriminate X.
  - vm_compute. reflexivity.
Qed.

(** With one file per save and candidates in batches, the next program can even lose what the
    first found: it resumes from the file with the greatest number, and the candidates of a
    batch are not processed in that order. *)
Definition C100_kept : Prop := forall E p o n c set s1 set2 s2, env_ok E -> io_works E -> lists_all E -> oq_new p = Ok o -> 0 < n ->
  cc_keep_all c = true -> cc_auto_resume c = true -> 0 < cc_save_frequency c ->
  let first := set_o_cp (Some c) (batch_iterations n o) in
  run E (start_state first) = (Ok set, s1) -> run E (next_process s1 first) = (Ok set2, s2) ->
  numeric_set set -> numeric_set set2 -> not_worse set2 set.
(** f(x) = (x^2 - 4)^2 - x: the minimum at 2 is the deeper one *)
Definition tilted : problem :=
  mk_problem
    (fun p => match p with
              | [x] => let d := fsub (fmul x x) (of_Z 4) in inl (fsub (fmul d d) x)
              | _ => inr 7%N
              end)
    (fun _ => inr 1%N) (fun _ => inr 1%N) [(of_Z (-4), of_Z 5)] [].
Definition tilted_env : env := demo_env tilted late.
Definition kept_all : cp_config := mk_cpc "demo" 1 true true.
Definition pairs_kept : oqnlp := set_o_cp (Some kept_all) (batch_iterations 2 demo_oqnlp).
Lemma tilted_io : io_works tilted_env /\ lists_all tilted_env.
Proof. split; [intro t; reflexivity|intros t l; apply Permutation.Permutation_refl]. Qed.
(** Batches of two.  The last batch is processed in the order 5, 4, and the minimum at 2 is found
    in 4; the checkpoint of 5 does not have it, and the next program, which resumes there,
    returns the other minimum. *)
Theorem C100_lost_refuted : ~ C100_kept.
Proof.
  intro H.
  assert (R1 : result_of tilted_env pairs_kept = Ok [sol1 f2 (of_Z (-2))]) by (vm_compute; reflexivity).
  assert (R2 : fst (run tilted_env (next_process (state_of tilted_env pairs_kept) pairs_kept)) = Ok [sol1 (of_Z (-2)) f2]) by (vm_compute; reflexivity).
  pose proof (run_pair tilted_env pairs_kept) as R. rewrite R1 in R.
  pose proof (surjective_pairing (run tilted_env (next_process (state_of tilted_env pairs_kept) pairs_kept))) as S. rewrite R2 in S.
  assert (N : forall x v, number v -> numeric_set [sol1 x v]) by (intros x v Hv; split; [discriminate|intros y [<-|[]]; exact Hv]).
  destruct (H tilted_env demo_params demo_oqnlp 2 kept_all _ _ _ _ (demo_env_ok _ _) (proj1 tilted_io) (proj2 tilted_io) eq_refl (Nat.lt_0_succ 1)
    eq_refl eq_refl (Nat.lt_0_succ 0) R S (N f2 (of_Z (-2)) (conj eq_refl eq_refl)) (N (of_Z (-2)) f2 (conj eq_refl eq_refl))) as (v & w & (x & t & X & ->) & (y & u & Y & ->) & L).
  injection X as <- _. injection Y as <- _. discriminate L.
Qed.
Print Assumptions C100_lost_refuted.
(** In every mode the next program does not repeat Stage 1 and judges no candidate before the
    iteration the first ended in, if that was not iteration 0 and the first found its directory
    in order. *)
Theorem C100_kept_cost_partial : forall E E2 s set s1 new c c2 o2 r2 s2 new2, env_ok E2 -> io_works E2 -> lists_all E2 ->
  run E s = (Ok set, s1) -> recorded s s1 new -> (exists f cp, In (EvSave f cp) new) ->
  (forall f cp, In (EvSave f cp) new -> checkpoint_ok cp) ->
  o_cp (s_o s1) = Some c -> cc_keep_all c = true -> string_utf8 (cc_name c) -> directory_in_order E s c -> 0 < o_iteration (s_o s1) ->
  o_cp o2 = Some c2 -> cc_name c2 = cc_name c -> cc_keep_all c2 = true -> cc_auto_resume c2 = true ->
  run E2 (next_process s1 o2) = (r2, s2) -> recorded (next_process s1 o2) s2 new2 ->
  List.length (objective_calls new2) <= work_bound s1 - o_iteration (s_o s1) /\
  List.length (search_starts new2) <= work_bound s1 - o_iteration (s_o s1).
Proof. exact c100_kept. Qed.
Print Assumptions C100_kept_cost_partial.
(** After a sequential run it does not return a worse set either. *)
Theorem C100_kept_partial : forall E E2 s set s1 new c c2 o2 set2 s2 new2, env_ok E -> callbacks_keep_settings E -> io_works E2 -> lists_all E2 ->
  run E s = (Ok set, s1) -> recorded s s1 new -> (exists f cp, In (EvSave f cp) new) ->
  (forall f cp, In (EvSave f cp) new -> checkpoint_ok cp) -> o_parallel (s_o s1) = false ->
  o_cp (s_o s1) = Some c -> cc_keep_all c = true -> string_utf8 (cc_name c) -> directory_in_order E s c -> 0 < o_iteration (s_o s1) ->
  o_cp o2 = Some c2 -> cc_name c2 = cc_name c -> cc_keep_all c2 = true -> cc_auto_resume c2 = true ->
  run E2 (next_process s1 o2) = (Ok set2, s2) -> recorded (next_process s1 o2) s2 new2 ->
  tolerances_ok (s_o s1) -> numeric_set set -> (forall x, In (EvResult x) new2 -> number (ls_obj x)) -> not_worse set2 set.
Proof. exact c100_kept_seq. Qed.
Print Assumptions C100_kept_partial.
(** the same landscape, one candidate at a time *)
Definition kept_oqnlp : oqnlp := set_o_cp (Some kept_all) (sequential demo_oqnlp).
Definition kept_first : st := state_of tilted_env kept_oqnlp.
Definition kept_next_run : outcome oq_error solset * st := run tilted_env (next_process kept_first kept_oqnlp).
Lemma saves_some l : existsb (fun e => match e with EvSave _ _ => true | _ => false end) l = true -> exists f cp, In (EvSave f cp) l.
Proof. intro X. apply existsb_exists in X as (e & He & X). destruct e as [| | | | | | | | | |f cp| | |]; try discriminate X. exists f, cp. exact He. Qed.
Lemma results_numbers l : forallb (fun e => match e with EvResult x => negb (is_nan (ls_obj x)) && wf (ls_obj x) | _ => true end) l = true ->
  forall x, In (EvResult x) l -> number (ls_obj x).
Proof.
  intros H x Hx. rewrite forallb_forall in H. specialize (H _ Hx). cbn beta iota in H. apply andb_prop in H as [H1 H2].
  apply negb_true_iff in H1. split; assumption.
Qed.
Lemma next_recorded E s o : recorded (next_process s o) (snd (run E (next_process s o))) (w_trace (s_w (snd (run E (next_process s o))))).
Proof. unfold recorded. change (w_trace (s_w (next_process s o))) with (@nil event). symmetry. apply app_nil_r. Qed.
Lemma kept_order : directory_in_order tilted_env (start_state kept_oqnlp) kept_all.
Proof.
  left. split.
  - intros cp (c & R1 & _ & R3 & _). injection R1 as <-. discriminate R3.
  - intros f i P. destruct P. reflexivity.
Qed.
Example C100_kept_case : exists set set2, fst kept_next_run = Ok set2 /\ result_of tilted_env kept_oqnlp = Ok set /\ not_worse set2 set.
Proof.
  assert (R1 : result_of tilted_env kept_oqnlp = Ok [sol1 f2 (of_Z (-2))]) by (vm_compute; reflexivity).
  assert (R2 : fst (run tilted_env (next_process (state_of tilted_env kept_oqnlp) kept_oqnlp)) = Ok [sol1 f2 (of_Z (-2))]) by (vm_compute; reflexivity).
  exists [sol1 f2 (of_Z (-2))], [sol1 f2 (of_Z (-2))]. split; [exact R2|]. split; [exact R1|].
  pose proof (run_pair tilted_env kept_oqnlp) as R. rewrite R1 in R.
  pose proof (surjective_pairing (run tilted_env (next_process (state_of tilted_env kept_oqnlp) kept_oqnlp))) as S. rewrite R2 in S.
  assert (Hex : exists f cp, In (EvSave f cp) (record_of tilted_env kept_oqnlp)) by (apply saves_some; vm_compute; reflexivity).
  assert (Hfit : forall f cp, In (EvSave f cp) (record_of tilted_env kept_oqnlp) -> checkpoint_ok cp) by (apply (saves_okb_fit (state_of tilted_env kept_oqnlp)); vm_compute; reflexivity).
  assert (Hp : o_parallel (s_o (state_of tilted_env kept_oqnlp)) = false) by (vm_compute; reflexivity).
  assert (Hc : o_cp (s_o (state_of tilted_env kept_oqnlp)) = Some kept_all) by (vm_compute; reflexivity).
  assert (Hi : (0 <? o_iteration (s_o (state_of tilted_env kept_oqnlp))) = true) by (vm_compute; reflexivity). apply Nat.ltb_lt in Hi.
  assert (T1 : o_abs_tol (s_o (state_of tilted_env kept_oqnlp)) = o_abs_tol kept_oqnlp) by (vm_compute; reflexivity).
  assert (T2 : o_rel_tol (s_o (state_of tilted_env kept_oqnlp)) = o_rel_tol kept_oqnlp) by (vm_compute; reflexivity).
  assert (Ht : tolerances_ok (s_o (state_of tilted_env kept_oqnlp))) by (unfold tolerances_ok; rewrite T1, T2; vm_compute; auto).
  assert (Hn : numeric_set [sol1 f2 (of_Z (-2))]) by (split; [discriminate|intros y [<-|[]]; split; reflexivity]).
  assert (Hx : forall x, In (EvResult x) (w_trace (s_w (snd (run tilted_env (next_process (state_of tilted_env kept_oqnlp) kept_oqnlp))))) -> number (ls_obj x))
    by (apply results_numbers; vm_compute; reflexivity).
  exact (C100_kept_partial tilted_env tilted_env (start_state kept_oqnlp) _ _ _ kept_all kept_all kept_oqnlp _ _ _ (demo_env_ok _ _) (fun _ _ => conj eq_refl eq_refl)
    (proj1 tilted_io) (proj2 tilted_io) R (record_recorded tilted_env kept_oqnlp) Hex Hfit Hp Hc eq_refl eq_refl kept_order Hi eq_refl eq_refl eq_refl eq_refl S
    (next_recorded tilted_env (state_of tilted_env kept_oqnlp) kept_oqnlp) Ht Hn Hx).
Qed.

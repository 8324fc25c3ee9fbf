(** * Another batch size (C113) *)
From Coq Require Import ZArith NArith List Bool Arith Lia String.
From Verif Require Import F64 F64Order Base Builders Types Filters Runner Observer Env EnvSpec
  ScatterSearch Codec Checkpoint Oqnlp Spec SpecStage2 SpecObserver SpecBatchless Wp Actions RunP SetP SimP ClockFreeP LeaderP FrameP SeqP3 ResumeP AgainP FinishP BasicP.
From Verif Require Import MoreP.
Import ListNotations.
Local Open Scope monad_scope.

Section Batchless.
Context (E : env) (g : option nat).
Notation bat := (set_o_batch g).
Definition bals (s t : st) : Prop :=
  o_parallel (s_o s) = false /\ s_o t = bat (s_o s) /\ w_tick (s_w t) = w_tick (s_w s) /\
  d_tick (w_disk (s_w t)) = d_tick (w_disk (s_w s)) /\
  map fst (d_files (w_disk (s_w t))) = map fst (d_files (w_disk (s_w s))) /\
  works (trace t) = works (trace s).
Notation sim := (sim bals).
Lemma works_app l l' : works (l ++ l') = works l ++ works l'. Proof. apply flat_map_app. Qed.
Lemma m_oqnlp : sim (fun o o' => o' = bat o /\ o_parallel o = false) the_oqnlp the_oqnlp.
Proof. intros s t H. pose proof H as H'. destruct H' as (H0 & H1 & _). simpl. auto. Qed.
Lemma m_upd f : (forall o, f (bat o) = bat (f o)) -> (forall o, o_parallel (f o) = o_parallel o) -> sim eq (upd f) (upd f).
Proof. intros H G. apply sim_modify. intros s t (H0 & H1 & H2). split; [simpl; rewrite G; exact H0|]. split; [simpl; rewrite H1; apply H|exact H2]. Qed.
Lemma m_obs f : sim eq (obs f) (obs f). Proof. apply m_upd; reflexivity. Qed.
Lemma m_emit l l' : works (rev l') = works (rev l) -> sim eq (emit l) (emit l').
Proof.
  intros H. apply sim_modify. intros s t (H0 & H1 & H2 & H3 & H4 & H5). unfold bals, trace in *. simpl. rewrite !works_app, H, H5. auto 10.
Qed.
Lemma m_tick : sim eq tick tick.
Proof. intros s t (H0 & H1 & H2 & H3 & H4 & H5). simpl. rewrite H2. split; [reflexivity|]. unfold bals, trace in *. simpl. auto 10. Qed.
Lemma m_of_solver A (r : outcome ls_error A) : sim eq (of_solver r) (of_solver r).
Proof. destruct r as [a|e|]; [apply sim_ret|apply sim_fail|apply sim_panic]; auto. Qed.
Ltac cs1 :=
  match goal with
  | |- SimP.sim _ _ (bind the_oqnlp _) _ => eapply sim_bind; [apply m_oqnlp|]; let o := fresh "o" in let o' := fresh "o'" in intros o o' [-> ?];
      repeat match goal with
      | |- context [should_start_local (bat o)] => change (should_start_local (bat o)) with (should_start_local o)
      | |- context [target_reached E (bat o)] => change (target_reached E (bat o)) with (target_reached E o)
      | |- context [observes1 (bat o)] => change (observes1 (bat o)) with (observes1 o)
      | |- context [observes2 (bat o)] => change (observes2 (bat o)) with (observes2 o)
      end
  | |- SimP.sim _ _ (bind _ _) _ => eapply sim_bind with (V := eq); [|intros ? ? <-]
  | |- SimP.sim _ _ (ret _) _ => apply sim_ret; auto
  | |- SimP.sim _ _ (fail _) _ => apply sim_fail
  | |- SimP.sim _ _ panic _ => apply sim_panic
  | |- SimP.sim _ _ (upd _) _ => apply m_upd; reflexivity
  | |- SimP.sim _ _ (obs _) _ => apply m_obs
  | |- SimP.sim _ _ (emit _) _ => apply m_emit; reflexivity
  | |- SimP.sim _ _ tick _ => apply m_tick
  | |- SimP.sim _ _ (unwrap _) _ => apply sim_unwrap
  | |- SimP.sim _ _ (of_result _) _ => apply sim_of_result; apply vrel_eq
  | |- SimP.sim _ _ (of_solver _) _ => apply m_of_solver
  | |- SimP.sim _ _ (let '(_, _) := ?x in _) _ => destruct x
  | |- SimP.sim _ _ (if ?b then _ else _) (if ?c then _ else _) => change c with b; destruct b
  | |- SimP.sim _ _ (match ?x with _ => _ end) (match ?y with _ => _ end) => change y with x; destruct x
  end.
Ltac cs := repeat cs1.
Lemma m_process sol : sim eq (process_local_solution E sol) (process_local_solution E sol).
Proof. unfold process_local_solution, set_solutions, set_threshold, add_to_filter. cs. Qed.
Lemma m_callback i : sim eq (callback E i) (callback E i).
Proof. unfold callback. cs. Qed.
Lemma m_callback_at i : sim eq (callback_at E i) (callback_at E i).
Proof. unfold callback_at. cs. apply m_callback. Qed.
Lemma m_save_disk cc cp cp' i : sim eq (on_disk (save_checkpoint E cc cp i)) (on_disk (save_checkpoint E cc cp' i)).
Proof.
  intros s t (H0 & H1 & H2 & H3 & H4 & H5).
  destruct s as [o [[fs k] m tr]], t as [o' [[fs' k'] m' tr']]. cbn [s_o s_w w_tick w_disk d_tick d_files] in *. subst o' m' k'.
  unfold trace in H5. cbn [s_w w_trace] in H5.
  unfold on_disk, save_checkpoint, fs_write, next_io, set_files, bind, modify, fail, ret. simpl.
  destruct (e_io E k); simpl; (split; [reflexivity|]); unfold bals, trace; simpl;
    (split; [exact H0|]); (split; [reflexivity|]); (split; [reflexivity|]); (split; [reflexivity|]); (split; [|exact H5]); try exact H4; apply put_names; exact H4.
Qed.
Lemma m_save_now cc : sim eq (save_now E cc) (save_now E cc).
Proof.
  unfold save_now. eapply sim_bind with (V := fun _ _ => True).
  - unfold create_checkpoint. eapply sim_bind; [apply m_tick|intros ? ? _]. cs1. apply sim_ret. exact I.
  - intros cp cp' _. cs1. eapply sim_bind; [apply m_emit; reflexivity|intros ? ? _]. eapply sim_bind; [apply m_save_disk|intros ? ? _]. cs.
Qed.
Lemma m_maybe_save : sim eq (maybe_save_checkpoint E) (maybe_save_checkpoint E).
Proof. unfold maybe_save_checkpoint. cs; apply m_save_now. Qed.
Lemma m_final : sim eq (maybe_save_final_checkpoint E ;;; final_set) (maybe_save_final_checkpoint E ;;; final_set).
Proof. unfold maybe_save_final_checkpoint, final_set. cs; apply m_save_now. Qed.
Lemma m_begin i u : sim eq (begin_iteration E i u) (begin_iteration E i u).
Proof. unfold begin_iteration. cs. Qed.
Lemma m_obs_iteration i u : sim eq (obs_iteration i u) (obs_iteration i u).
Proof. unfold obs_iteration. cs. Qed.
Lemma m_obs_search a k : sim eq (obs_search a k) (obs_search a k).
Proof. unfold obs_search. cs. Qed.
Lemma m_count u : sim eq (count_unchanged u) (count_unchanged u).
Proof. unfold count_unchanged, adjust_threshold. cs. Qed.
Lemma m_threshold v : sim eq (set_threshold v) (set_threshold v).
Proof. unfold set_threshold. cs. Qed.
Lemma m_begin2 : sim eq begin_stage2 begin_stage2.
Proof. unfold begin_stage2. cs. Qed.
Ltac cs3 := repeat first [ apply m_process | apply m_callback | apply m_callback_at | apply m_maybe_save
  | apply m_begin | apply m_obs_iteration | apply m_obs_search | apply m_count | apply m_threshold
  | match goal with |- SimP.sim _ _ (let _ := _ in _) _ => cbv zeta end | cs1 ].
Lemma m_one objs i p u : sim eq (process_one_seq E objs i p u) (process_one_seq E objs i p u).
Proof. unfold process_one_seq, emit_eval. cs3. Qed.
Lemma m_batch_seq start res objs b : forall u, sim eq (process_batch_sequential E start res objs b u) (process_batch_sequential E start res objs b u).
Proof.
  induction b as [|[i p] b IH]; intros u; simpl; [cs3|].
  destruct (res && (i <? start)); [apply IH|]. cs1; [apply m_one|]. destruct a as [u' [|]]; [cs3|apply IH].
Qed.
(** one candidate after the other: the size of a batch is 1 *)
Lemma m_loop start res objs : forall bs u, sim eq (stage2_loop E 1 start res objs bs u) (stage2_loop E 1 start res objs bs u).
Proof.
  induction bs as [|b bs IH]; intros u; [simpl; cs3|]. cbn [stage2_loop]. cs1. change (o_max_time (bat o)) with (o_max_time o).
  cs1; [cs3|]. destruct a; [cs3|]. cs1; [cs3|]. cs1; [apply m_batch_seq|]. cs1. cs1; [cs3|]. destruct a1; [cs3|apply IH].
Qed.
Lemma m_stage2 res refs objs u : sim eq (stage2_run E res refs objs u) (stage2_run E res refs objs u).
Proof.
  unfold stage2_run. eapply sim_bind with (V := eq); [apply m_begin2|intros ? ? _]. cs1.
  eapply sim_bind with (V := eq); [cs3|intros rs ? <-]. cbv zeta. change (o_iteration (bat o)) with (o_iteration o). change (o_params (bat o)) with (o_params o).
  unfold batch_size. change (o_parallel (bat o)) with (o_parallel o). rewrite H. cbn [negb Nat.eqb].
  eapply sim_bind with (V := eq); [apply m_loop|intros ? ? _]. apply m_final.
Qed.
Lemma m_stage1 : sim eq (stage1_run E) (stage1_run E).
Proof.
  unfold stage1_run, end_stage1, stage1_enter. cs1. cs1; [apply m_tick|].
  change (stage1_init E (bat o) a) with (stage1_init E o a). destruct (stage1_init E o a) as [x|e|]; [|cs..].
  destruct (ss_run E x) as [r sf]. cs3.
Qed.
Definition fresh_run : OM solset :=
  r <- stage1_run E ;; match r with None => final_set | Some (refs, objs) => stage2_run E false refs (Some objs) 0 end.
Lemma m_run : sim eq fresh_run fresh_run.
Proof. unfold fresh_run. cs1; [apply m_stage1|]. destruct a as [[refs objs]|]; [apply m_stage2|unfold final_set; cs]. Qed.
End Batchless.

(** the first step: a program that resumes takes the batch size from the checkpoint *)
Lemma resume_batched E b s : let x := try_resume_from_checkpoint E s in let y := try_resume_from_checkpoint E (batched_state b s) in
  fst y = fst x /\ trace (snd x) = trace s /\
  ((fst x = Ok true /\ snd y = snd x) \/ (fst x <> Ok true /\ snd y = batched_state b (snd x) /\ s_o (snd x) = s_o s)).
Proof.
  cbv zeta. unfold try_resume_from_checkpoint, restore_from_checkpoint, upd, modify, on_disk, bind, the_oqnlp, get, ret, bind.
  cbn [fst snd s_o s_w batched_state]. change (o_cp (set_o_batch b (s_o s))) with (o_cp (s_o s)).
  destruct (o_cp (s_o s)) as [c|]; cbn [fst snd]; [|split; [reflexivity|split; [reflexivity|right; split; [discriminate|split; reflexivity]]]].
  destruct (cc_auto_resume c); cbn [fst snd]; [|split; [reflexivity|split; [reflexivity|right; split; [discriminate|split; reflexivity]]]].
  change (w_disk (s_w (batched_state b s))) with (w_disk (s_w s)).
  destruct (checkpoint_exists E c (w_disk (s_w s))) as [[[|]|e|] d]; cbn [fst snd s_o s_w w_disk];
    try (split; [reflexivity|split; [reflexivity|right; split; [discriminate|split; reflexivity]]]).
  destruct (load_latest E c d) as [[cp|e|] d2]; cbn [fst snd s_o s_w w_disk];
    try (split; [reflexivity|split; [reflexivity|right; split; [discriminate|split; reflexivity]]]).
  split; [reflexivity|]. split; [reflexivity|]. left. split; [reflexivity|]. reflexivity.
Qed.
Theorem c113_same : forall E b s rA sA na rB sB nb,
  run E s = (rA, sA) -> recorded s sA na -> run E (batched_state b s) = (rB, sB) -> recorded (batched_state b s) sB nb ->
  o_parallel (s_o s) = false -> rB = rA /\ works nb = works na.
Proof.
  intros E b s rA sA na rB sB nb Ha Na Hb Nb Hp.
  unfold recorded in Na, Nb. change (w_trace (s_w (batched_state b s))) with (w_trace (s_w s)) in Nb.
  assert (Same : rB = rA -> works (w_trace (s_w sB)) = works (w_trace (s_w sA)) -> rB = rA /\ works nb = works na).
  { intros H1 H2. rewrite Na, Nb, !works_app in H2. apply app_inv_tail in H2. auto. }
  pose proof (resume_batched E b s) as X. cbv zeta in X. unfold run in Ha, Hb. unfold bind at 1 in Ha. unfold bind at 1 in Hb.
  destruct (try_resume_from_checkpoint E s) as [x s1], (try_resume_from_checkpoint E (batched_state b s)) as [y s2].
  cbn [fst snd] in X. destruct X as (-> & X1 & X2). destruct x as [[|]|e|].
  - destruct X2 as [[_ ->]|[X2 _]]; [|contradiction X2; reflexivity]. rewrite Ha in Hb. injection Hb as <- <-. apply Same; reflexivity.
  - destruct X2 as [[X2 _]|(_ & -> & X2)]; [discriminate|].
    assert (L : bals b s1 (batched_state b s1)).
    { unfold bals. rewrite X2. split; [exact Hp|]. cbn [batched_state s_o s_w]. rewrite X2. repeat split. }
    destruct (m_run E b _ _ L) as [G1 G2]. unfold fresh_run in G1, G2. rewrite Ha, Hb in G1, G2. cbn [fst snd] in G1, G2.
    destruct G2 as (_ & _ & _ & _ & _ & G2). apply Same; [apply vrel_eq_inv in G1; auto|exact G2].
  - destruct X2 as [[X2 _]|(_ & -> & X2)]; [discriminate|]. injection Ha as <- <-. injection Hb as <- <-. apply Same; reflexivity.
  - destruct X2 as [[X2 _]|(_ & -> & X2)]; [discriminate|]. injection Ha as <- <-. injection Hb as <- <-. apply Same; reflexivity.
Qed.

(** * Running again after a run has finished (C100) *)
From Coq Require Import ZArith NArith List Bool Arith Lia String.
From Verif Require Import F64 Base Builders Types Filters Runner Observer Env EnvSpec ScatterSearch Codec Checkpoint
  Oqnlp Spec SpecStage1 SpecStage2 SpecObserver SpecSave SpecCheckpoint SpecTiming SpecCost CodecP CheckpointP
  Actions RunP CountP FilterP SaveP Stage2P SeqP3 SeqP4 TargetP LeaderP ResumeP CostP.
Import ListNotations.

Lemma bind_inv {S Er A B} (m : M S Er A) (k : A -> M S Er B) s b s' : bind m k s = (Ok b, s') ->
  exists a s1, m s = (Ok a, s1) /\ k a s1 = (Ok b, s').
Proof. unfold bind. destruct (m s) as [[a|e|] s1]; intro H; [eauto|discriminate|discriminate]. Qed.
(** the last step of a run that went through Stage 2 is the final save *)
Lemma stage2_last E b refs objs u s set s' : stage2_run E b refs objs u s = (Ok set, s') ->
  exists sm, maybe_save_final_checkpoint E sm = (Ok tt, s').
Proof.
  intro H. unfold stage2_run in H.
  apply bind_inv in H as (a1 & t1 & _ & H). apply bind_inv in H as (o & t2 & _ & H). apply bind_inv in H as (rs & t3 & _ & H).
  cbv zeta in H. apply bind_inv in H as (a4 & t4 & _ & H). apply bind_inv in H as ([] & t5 & H5 & H). exists t4. rewrite H5. f_equal.
  unfold final_set, bind, the_oqnlp, get, ret, bind in H. cbn [fst snd] in H.
  destruct (o_set (s_o t5)); [injection H as _ <-; reflexivity|discriminate].
Qed.
Lemma save_ok E c i cp d d' f : save_checkpoint E c cp i d = (Ok f, d') -> lookup (file_name c i) (d_files d') = Some (enc_checkpoint cp).
Proof.
  unfold save_checkpoint. intro H. apply bind_inv in H as ([] & d1 & H & G). injection G as _ <-.
  unfold fs_write in H. apply bind_inv in H as (r & d2 & H2 & H). injection H2 as <- <-.
  destruct (e_io E (d_tick d)).
  - injection H as <-. cbn [d_files]. rewrite lookup_put, bytes_eqb_refl. reflexivity.
  - discriminate.
  - apply bind_inv in H as (? & ? & _ & H). discriminate.
Qed.
Lemma save_now_ok E c s s' : save_now E c s = (Ok tt, s') -> s_o s' = s_o s /\
  exists cp, trace s' = EvSave (file_name c (cp_iteration cp)) cp :: trace s /\ agrees (s_o s') cp /\
    lookup (file_name c (cp_iteration cp)) (d_files (w_disk (s_w s'))) = Some (enc_checkpoint cp).
Proof.
  unfold save_now. intro H. apply bind_inv in H as (cp & s1 & H1 & H). destruct (create_agrees E s _ s1 H1) as (Ho & cp' & Hx & Hag).
  injection Hx as <-. assert (Ht : trace s1 = trace s).
  { unfold create_checkpoint in H1. apply bind_inv in H1 as (t & s2 & H2 & H1). injection H2 as _ <-.
    apply bind_inv in H1 as (o & s3 & H2 & H1). unfold the_oqnlp in H2. apply bind_inv in H2 as (q & s4 & H3 & H4).
    injection H3 as _ <-. injection H4 as _ <-. injection H1 as _ <-. reflexivity. }
  apply bind_inv in H as (o & s2 & H2 & H). unfold the_oqnlp in H2. apply bind_inv in H2 as (q & s2' & H3 & H4).
  injection H3 as <- <-. injection H4 as <- <-. clear H1.
  apply bind_inv in H as ([] & s3 & H3 & H). assert (H3' : s_o s3 = s_o s1 /\ trace s3 = EvSave (file_name c (o_iteration (s_o s1))) cp :: trace s1)
    by (injection H3 as <-; split; reflexivity). clear H3. destruct H3' as [O3 T3].
  apply bind_inv in H as (f & s4 & H4 & H). injection H as <-. unfold on_disk in H4.
  destruct (save_checkpoint E c cp (o_iteration (s_o s1)) (w_disk (s_w s3))) as [r d] eqn:Hs.
  destruct r as [f'|e|]; [|discriminate H4|discriminate H4]. pose proof (save_ok _ _ _ _ _ _ _ Hs) as L.
  injection H4 as _ <-. assert (Hit : o_iteration (s_o s1) = cp_iteration cp) by (rewrite Ho; exact (proj1 (proj2 Hag))).
  rewrite Hit in *. split; [exact (eq_trans O3 Ho)|]. exists cp. split; [|split].
  - change (trace s3 = EvSave (file_name c (cp_iteration cp)) cp :: trace s). rewrite T3, Ht. reflexivity.
  - change (agrees (s_o s3) cp). rewrite O3, Ho. exact Hag.
  - exact L.
Qed.
Lemma final_save E c sm s' : maybe_save_final_checkpoint E sm = (Ok tt, s') -> o_cp (s_o s') = Some c ->
  exists cp, trace s' = EvSave (file_name c (cp_iteration cp)) cp :: trace sm /\ agrees (s_o s') cp /\
    lookup (file_name c (cp_iteration cp)) (d_files (w_disk (s_w s'))) = Some (enc_checkpoint cp).
Proof.
  unfold maybe_save_final_checkpoint. intros H Hc. apply bind_inv in H as (o & s1 & H1 & H).
  unfold the_oqnlp in H1. apply bind_inv in H1 as (q & s1' & H3 & H4). injection H3 as <- <-. injection H4 as <- <-.
  destruct (o_cp (s_o sm)) as [c'|] eqn:Hm.
  - destruct (save_now_ok E c' sm s' H) as (Ho & cp & H2). rewrite Ho, Hm in Hc. injection Hc as ->. exists cp. exact H2.
  - injection H as <-. congruence.
Qed.
Lemma firstn_all_le {A} k (l : list A) : List.length l <= k -> firstn k l = l.
Proof. intro H. rewrite <- (firstn_all l) at 2. revert k H. induction l as [|x l IH]; intros [|k] H; simpl in *; try reflexivity; [lia|]. f_equal. rewrite firstn_all. rewrite (IH k) by lia. apply firstn_all. Qed.
(** what a successful run leaves *)
Theorem c100_saved : forall E s set s' new c, run E s = (Ok set, s') -> recorded s s' new -> o_cp (s_o s') = Some c ->
  (forall f cp, ~ In (EvSave f cp) new) \/
  exists cp l, new = EvSave (file_name c (cp_iteration cp)) cp :: l /\ agrees (s_o s') cp /\ cp_solution_set cp = Some set /\
    lookup (file_name c (cp_iteration cp)) (d_files (w_disk (s_w s'))) = Some (enc_checkpoint cp).
Proof.
  intros E s set s' new c Hrun Hnew Hc.
  assert (Hset : o_set (s_o s') = Some set) by (eapply (run_acts E); eauto).
  destruct (HoareP.run_cases E s _ s' new Hrun Hnew) as [(_ & _ & H)|(b & s1 & Hst & Htr & Hr & Hcfg)]; [exfalso; eapply H; reflexivity|].
  assert (Fin : forall b refs objs u s2, stage2_run E b refs objs u s2 = (Ok set, ends s' new) ->
    exists cp l, new = EvSave (file_name c (cp_iteration cp)) cp :: l /\ agrees (s_o s') cp /\ cp_solution_set cp = Some set /\
    lookup (file_name c (cp_iteration cp)) (d_files (w_disk (s_w s'))) = Some (enc_checkpoint cp)).
  { intros b0 refs objs u s2 H. apply stage2_last in H as (sm & H). destruct (final_save E c sm _ H Hc) as (cp & T & A & L).
    exists cp, (trace sm). split; [exact T|]. split; [exact A|]. split; [|exact L].
    unfold agrees in A. decompose [and] A. rewrite <- Hset. symmetry. assumption. }
  destruct b; unfold HoareP.run_rest in Hr.
  - right. apply bind_inv in Hr as (o & s2 & _ & Hr). eapply Fin. exact Hr.
  - apply bind_inv in Hr as (x & s2 & H1 & Hr). destruct x as [[refs objs]|]; [right; eapply Fin; exact Hr|]. left.
    destruct (SeqP3.em_stage1 E s1) as (n1 & T1 & F1). rewrite H1, Htr, app_nil_r in T1. cbn [snd] in T1.
    assert (Hs : s2 = ends s' new).
    { unfold final_set, bind, the_oqnlp, get, ret, bind in Hr. cbn [fst snd] in Hr. destruct (o_set (s_o s2)); [injection Hr as _ Hr; exact Hr|discriminate]. }
    assert (T : new = n1) by (rewrite <- T1, Hs; reflexivity). rewrite T. intros f cp Hin. rewrite Forall_forall in F1. exact (F1 _ Hin).
Qed.
(** in sequential mode, when nothing stopped the run, that checkpoint is of the last candidate *)
Theorem c100_last : forall E s set s' new c cp l, env_ok E -> callbacks_keep_settings E -> run E s = (Ok set, s') -> recorded s s' new ->
  o_parallel (s_o s') = false -> o_cp (s_o s') = Some c -> new = EvSave (file_name c (cp_iteration cp)) cp :: l ->
  target_hit E (s_o s') set \/
  (exists m v, o_max_time (s_o s') = Some m /\ In (EvClock v) new /\ fgt v m = true) \/
  work_bound s' <= 1 + cp_iteration cp.
Proof.
  intros E s set s' new c cp l Hok Hcb Hrun Hnew Hpar Hc Heq.
  assert (Hset : o_set (s_o s') = Some set) by (eapply (run_acts E); eauto).
  assert (Hh : target_reached E (s_o s') = Some true -> target_hit E (s_o s') set).
  { intro H. apply reached_iff in H as (set' & H1 & H2). congruence. }
  assert (P : target_hit E (s_o s') set \/ exists start it0 l0 pre, new = l0 ++ pre /\
    stage2_record E (s_o s') it0 (seq start (work_bound s' - start)) s' true l0 /\ (start = it0 \/ start = 0)).
  { destruct (run_seq E Hok Hcb s _ s' new Hrun Hnew Hpar) as (b & H & Hb). specialize (Hb eq_refl).
    destruct H as [b pre H1 H2|b l0 pre H1 H0 H2|b l0 cp0 H1 H2]; subst b; [left; auto|right ..].
    - exists 0, (o_iteration (s_o s)), l0, pre. rewrite Nat.sub_0_r. auto.
    - exists (cp_iteration cp0), (cp_iteration cp0), l0, []. rewrite app_nil_r. auto. }
  destruct P as [P|(start & it0 & l0 & pre & He & Hs & Hit)]; [left; exact P|].
  inversion Hs as [k e lx fin Hsh He1 He2 Hk Hfr Hb Hl|]; subst l0.
  rewrite Hc in Hfr. destruct Hfr as (cp' & -> & Hi). pose proof He as Hne. rewrite Heq in He. injection He as _ <- _.
  destruct (le_lt_dec (List.length (seq start (work_bound s' - start))) k) as [G|G].
  - right. right. rewrite firstn_all_le in Hi by exact G. rewrite Hi. rewrite seq_length in G.
    destruct (work_bound s' - start) as [|n] eqn:Hn.
    + simpl in *. destruct Hit; lia.
    + rewrite seq_S, rev_app_distr. simpl. lia.
  - destruct (Hk G) as [H|(m & v & l' & H1 & H2 & H3)]; [left; auto|]. right. left. exists m, v. split; [exact H1|]. split; [|exact H3].
    rewrite Hne. apply in_or_app. left. rewrite H2. right. left. reflexivity.
Qed.
Lemma next_resumes E c o s1 cp : o_cp o = Some c -> cc_auto_resume c = true -> cc_keep_all c = false -> io_works E -> checkpoint_ok cp ->
  lookup (file_name c (cp_iteration cp)) (d_files (w_disk (s_w s1))) = Some (enc_checkpoint cp) ->
  resumes_from E (next_process s1 o) cp.
Proof.
  intros Hc Ha Hk Hio Hok L. exists c. split; [exact Hc|]. split; [exact Ha|].
  assert (Hn : file_name c 0 = file_name c (cp_iteration cp)) by (unfold file_name; rewrite Hk; reflexivity).
  rewrite <- Hn in L. change (w_disk (s_w (next_process s1 o))) with (w_disk (s_w s1)).
  unfold checkpoint_exists, load_latest. rewrite Hk. unfold bind, get, ret, bind. cbn [fst snd]. rewrite L. split; [reflexivity|].
  unfold load_from_path, bind, get, ret, bind. cbn [fst snd]. rewrite L. unfold next_io. cbv beta. rewrite Hio, (decode_encode cp Hok). reflexivity.
Qed.
Theorem c100_again : forall E E2 s set s1 new c o2 r2 s2 new2, env_ok E -> env_ok E2 -> io_works E2 ->
  run E s = (Ok set, s1) -> recorded s s1 new -> (exists f cp, In (EvSave f cp) new) ->
  (forall f cp, In (EvSave f cp) new -> checkpoint_ok cp) ->
  o_cp (s_o s1) = Some c -> cc_auto_resume c = true -> cc_keep_all c = false -> o_cp o2 = Some c ->
  run E2 (next_process s1 o2) = (r2, s2) -> recorded (next_process s1 o2) s2 new2 ->
  List.length (objective_calls new2) <= work_bound s1 - o_iteration (s_o s1) /\
  List.length (search_starts new2) <= work_bound s1 - o_iteration (s_o s1) /\
  (forall set2, r2 = Ok set2 -> tolerances_ok (s_o s1) -> numeric_set set ->
     (forall x, In (EvResult x) new2 -> number (ls_obj x)) -> not_worse set2 set).
Proof.
  intros E E2 s set s1 new c o2 r2 s2 new2 Hok Hok2 Hio Hrun Hnew (f & cp0 & Hin) Hfit Hc Ha Hk Ho2 Hrun2 Hnew2.
  destruct (c100_saved E s set s1 new c Hrun Hnew Hc) as [H|(cp & l & Heq & Hag & Hset & L)]; [exfalso; eapply H; exact Hin|].
  assert (Hcp : checkpoint_ok cp) by (eapply Hfit; rewrite Heq; left; reflexivity).
  pose proof (next_resumes E2 c o2 s1 cp Ho2 Ha Hk Hio Hcp L) as Hres.
  destruct (c98_resumed E2 _ _ _ _ cp Hok2 Hrun2 Hnew2 Hres) as [B1 B2].
  unfold agrees in Hag. destruct Hag as (A1 & A2 & A3 & A4 & A5 & A6 & A7 & A8 & A9 & A10 & A11 & A12 & A13 & A14).
  assert (Hw : Nat.min (p_iterations (cp_params cp)) (List.length (cp_reference_set cp)) = work_bound s1).
  { unfold work_bound. rewrite <- A1, <- A5. reflexivity. }
  rewrite Hw, <- A2 in B1, B2. split; [exact B1|]. split; [exact B2|].
  intros set2 -> (T1 & T2 & T3) Hnum Hx.
  refine (resumed_no_worse E2 _ set2 s2 new2 cp set Hrun2 Hnew2 Hres _ _ _ Hset Hnum Hx); congruence.
Qed.
Theorem c100_once : forall E E2 s set s1 new c o2 r2 s2 new2, env_ok E -> env_ok E2 -> io_works E2 -> callbacks_keep_settings E ->
  run E s = (Ok set, s1) -> recorded s s1 new -> (exists f cp, In (EvSave f cp) new) ->
  (forall f cp, In (EvSave f cp) new -> checkpoint_ok cp) -> o_parallel (s_o s1) = false ->
  o_cp (s_o s1) = Some c -> cc_auto_resume c = true -> cc_keep_all c = false -> o_cp o2 = Some c ->
  ~ target_hit E (s_o s1) set -> o_max_time (s_o s1) = None ->
  run E2 (next_process s1 o2) = (r2, s2) -> recorded (next_process s1 o2) s2 new2 ->
  List.length (objective_calls new2) <= 1 /\ List.length (search_starts new2) <= 1.
Proof.
  intros E E2 s set s1 new c o2 r2 s2 new2 Hok Hok2 Hio Hcb Hrun Hnew Hex Hfit Hpar Hc Ha Hk Ho2 Ht Hm Hrun2 Hnew2.
  destruct (c100_again E E2 s set s1 new c o2 r2 s2 new2 Hok Hok2 Hio Hrun Hnew Hex Hfit Hc Ha Hk Ho2 Hrun2 Hnew2) as (B1 & B2 & _).
  destruct Hex as (f & cp0 & Hin).
  destruct (c100_saved E s set s1 new c Hrun Hnew Hc) as [H|(cp & l & Heq & Hag & _ & _)]; [exfalso; eapply H; exact Hin|].
  destruct (c100_last E s set s1 new c cp l Hok Hcb Hrun Hnew Hpar Hc Heq) as [H|[(m & v & H & _)|H]]; [contradiction|congruence|].
  destruct Hag as (_ & A2 & _). lia.
Qed.

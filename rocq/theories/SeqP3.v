(** * Sequential runs: the whole record (C40, C52, C54, C67) *)
From Coq Require Import ZArith NArith List Bool Arith Lia String Permutation.
From Verif Require Import F64 Base Builders Types Filters Runner Observer Env EnvSpec
  ScatterSearch Codec Checkpoint Oqnlp Spec SpecStage2 SpecObserver SolverP Wp Actions RunP SetP FrameP EmitsP FilterP CountP HoareP SeqP SeqP2.
Import ListNotations.

(** ** Stage 1 leaves the callback settings alone *)
Section Stage1.
Context (E : env) (Hcb : callbacks_keep_settings E).
Definition ocf (ob : option observer) : option nat :=
  match ob with Some ob => match ob_callback ob with Some _ => Some (ob_frequency ob) | None => None end | None => None end.
Definition sk {A} (m : M ss ss_error A) : Prop := forall s, ocf (ss_observer (snd (m s))) = ocf (ss_observer s).
Lemma sk_bind : forall A B (m : M ss ss_error A) (k : A -> M ss ss_error B), sk m -> (forall a, sk (k a)) -> sk (bind m k).
Proof.
  intros A B m k H1 H2 s. unfold bind. specialize (H1 s). destruct (m s) as [[a|e|] s1]; simpl in *; auto. rewrite H2. auto.
Qed.
Lemma sk_id : forall A (m : M ss ss_error A), (forall s, ss_observer (snd (m s)) = ss_observer s) -> sk m.
Proof. intros A m H s. rewrite H. reflexivity. Qed.
Lemma sk_strat : forall n, sk (generate_stratified_samples E n).
Proof.
  intro n. apply sk_id. intro s. unfold generate_stratified_samples, bind, get, ret. simpl.
  destruct (draw_seeds E n (ss_rng s)). simpl. unfold unwrap, ret, panic. destruct (all_some _); reflexivity.
Qed.
Lemma sk_ret : forall A (a : A), sk (ret a). Proof. intros A a s. reflexivity. Qed.
Lemma sk_get : sk get. Proof. intro s. reflexivity. Qed.
Lemma sk_fail : forall A e, @sk A (fail e). Proof. intros A e s. reflexivity. Qed.
Lemma sk_result : forall A r, @sk A (of_result r). Proof. intros A r s. reflexivity. Qed.
Lemma sk_unwrap : forall A (o : option A), sk (unwrap o). Proof. intros A [a|] s; reflexivity. Qed.
Lemma sk_refill : forall pop cs f a c, sk (refill E pop cs f a c).
Proof.
  intros pop cs f. induction f as [|f IH]; intros a c; simpl; [apply sk_ret|]. destruct (_ <? _); [|apply sk_ret].
  apply sk_bind; [apply sk_strat|intro; apply IH].
Qed.
Lemma sk_div : forall refs cs, sk (diversify_reference_set E refs cs).
Proof.
  intros refs cs. unfold diversify_reference_set. apply sk_bind; [apply sk_get|intro s]. apply sk_bind; [apply sk_strat|intro c0].
  apply sk_bind; [|intro; apply sk_result]. destruct cs; [apply sk_ret|]. apply sk_bind; [apply sk_refill|intros [c1 n]].
  destruct c1; [apply sk_fail|]. destruct (_ <? _); [apply sk_fail|apply sk_ret].
Qed.
Lemma sk_init : sk (initialize_reference_set E).
Proof.
  unfold initialize_reference_set. apply sk_bind; [apply sk_get|intro s]. apply sk_bind; [apply sk_div|intro refs]. cbv zeta.
  apply sk_bind; [apply sk_id; reflexivity|intro]. match goal with |- sk (match ?x with _ => _ end) => destruct x end; [apply sk_id; reflexivity|apply sk_fail].
Qed.
Lemma sk_trials : sk (generate_trial_points E).
Proof.
  unfold generate_trial_points. apply sk_bind; [apply sk_get|intro s]. cbv zeta. destruct (draw_seeds _ _ _).
  apply sk_bind; [apply sk_id; reflexivity|intro]. apply sk_bind; [apply sk_unwrap|intro; apply sk_ret].
Qed.
Lemma sk_update : forall t, sk (update_reference_set E t).
Proof.
  intro t. unfold update_reference_set. destruct t; [apply sk_ret|]. apply sk_bind; [apply sk_get|intro s]. cbv zeta.
  apply sk_bind; [apply sk_unwrap|intro thr]. apply sk_bind; [apply sk_id; reflexivity|intro].
  destruct (flat_map _ _); [apply sk_ret|]. apply sk_bind; [apply sk_unwrap|intro]. apply sk_id; reflexivity.
Qed.
Lemma sk_obs : forall f, sk (ss_obs (upd_stage1 f)).
Proof.
  intros f s. simpl. destruct (ss_observer s) as [ob|]; [|reflexivity]. simpl. destruct (cf1 f ob) as [-> ->]. reflexivity.
Qed.
Lemma sk_callback : sk (ss_callback E).
Proof.
  intro s. unfold ss_callback, bind, get. destruct (ss_observer s) as [ob|] eqn:Ho; simpl; [|rewrite Ho; reflexivity].
  destruct (ob_callback ob) as [cb|] eqn:Hc; [|simpl; rewrite Ho; reflexivity || (simpl; rewrite Hc; reflexivity)].
  destruct (cf_invoke E Hcb ob) as [C1 C2]. destruct (invoke_callback (Env.e_callback E) ob) as [ob' m]. simpl in *. rewrite C1, C2, Hc. reflexivity.
Qed.
Lemma sk_best : sk (ss_best_solution E).
Proof.
  unfold ss_best_solution. apply sk_bind; [apply sk_get|intro s]. cbv zeta. match goal with |- sk (match ?x with _ => _ end) => destruct x as [[? ?]|] end; [apply sk_unwrap|apply sk_fail].
Qed.
Lemma sk_run : sk (ss_run E).
Proof.
  unfold ss_run. apply sk_bind; [apply sk_init|intro]. apply sk_bind; [apply sk_obs|intro]. apply sk_bind; [apply sk_callback|intro].
  apply sk_bind; [apply sk_get|intro]. apply sk_bind; [apply sk_obs|intro]. apply sk_bind; [apply sk_callback|intro].
  apply sk_bind; [apply sk_trials|intro]. apply sk_bind; [apply sk_update|intro]. apply sk_bind; [apply sk_get|intro].
  apply sk_bind; [apply sk_obs|intro]. apply sk_bind; [apply sk_callback|intro]. apply sk_bind; [apply sk_best|intro].
  apply sk_bind; [apply sk_get|intro]. apply sk_ret.
Qed.
Lemma fi_callback : forall i, keeps fi (callback E i).
Proof.
  intros i s. unfold callback, bind, the_oqnlp, get, ret, bind. simpl. destruct (o_observer (s_o s)) as [ob|] eqn:Ho; [|reflexivity].
  destruct (ob_callback ob) as [cb|] eqn:Hc; [|reflexivity]. destruct (cf_invoke E Hcb ob) as [C1 C2].
  destruct (invoke_callback (Env.e_callback E) ob) as [ob' m]. simpl in *. unfold fi, frame, callback_frequency. simpl.
  rewrite C1, C2, Ho, Hc. reflexivity.
Qed.
Lemma fi_complete : forall ob, ob_callback (mark_stage1_complete ob) = ob_callback ob /\ ob_frequency (mark_stage1_complete ob) = ob_frequency ob.
Proof. intro ob. split; reflexivity. Qed.
Lemma fi_started : forall ob, ob_callback (mark_stage2_started ob) = ob_callback ob /\ ob_frequency (mark_stage2_started ob) = ob_frequency ob.
Proof. intro ob. split; reflexivity. Qed.
Lemma fi_end_stage1 : keeps fi (end_stage1 E).
Proof.
  unfold end_stage1, stage1_enter. apply k_bind; [apply fi_obs, cf1|intro]. apply k_bind; [apply fi_callback|intro]. apply fi_obs, fi_complete.
Qed.
Lemma fi_stage1 : keeps fi (stage1_run E).
Proof.
  intro s. unfold stage1_run. unfold bind at 1. simpl. unfold bind at 1. simpl.
  set (s1 := mk_st (s_o s) (mk_world (w_disk (s_w s)) (S (w_tick (s_w s))) (w_trace (s_w s)))).
  change (s_o s) with (s_o s1). clearbody s1. generalize (w_tick (s_w s)). clear s. intro t. rename s1 into s.
  destruct (stage1_init E (s_o s) t) as [s3|e|] eqn:Hi; [|reflexivity|reflexivity].
  assert (Ho : observes1 (s_o s) = true -> ss_observer s3 = o_observer (s_o s)).
  { intro H. unfold stage1_init in Hi. destruct (ss_new E (o_params (s_o s)) t); try discriminate Hi. rewrite H in Hi. injection Hi as <-. reflexivity. }
  pose proof (sk_run s3) as Hk. destruct (ss_run E s3) as [res sf] eqn:Hr. simpl in Hk.
  set (s' := if observes1 (s_o s) then changed (set_o_observer (ss_observer sf)) s else s).
  assert (F : fi (s_o s') = fi (s_o s)).
  { unfold s'. destruct (observes1 (s_o s)); [|reflexivity]. unfold fi, frame. simpl.
    rewrite (Ho eq_refl) in Hk. change (callback_frequency (set_o_observer (ss_observer sf) (s_o s))) with (ocf (ss_observer sf)).
    rewrite Hk. reflexivity. }
  assert (X : (if observes1 (s_o s) then upd (set_o_observer (ss_observer sf)) else ret tt) s = (Ok tt, s')).
  { unfold s'. destruct (observes1 (s_o s)); reflexivity. }
  rewrite (bind_ok _ _ _ _ _ _ _ X). rewrite <- F. clear X F Hk Ho Hi. generalize s'. clear s' s s3 Hr t. 
  match goal with |- forall s, fi (s_o (snd (?m s))) = _ => change (keeps fi m) end.
  apply k_bind; [apply k_emit|intro]. destruct res as [[pts cand]|e|]; [|apply k_fail|apply k_panic]. cbv zeta.
  apply k_bind; [apply fi_obs, cf1|intro]. apply k_bind; [apply fi_callback|intro]. unfold stage1_enter.
  apply k_bind; [apply fi_obs, cf1|intro]. apply k_bind; [apply k_oqnlp|intro]. apply k_bind; [apply k_emit|intro].
  apply k_bind; [apply k_of_solver|intro]. apply k_bind; [apply fi_threshold|intro]. apply k_bind; [apply fi_obs, cf1|intro].
  apply k_bind; [apply fi_callback|intro]. apply k_bind; [apply fi_process|intro]. apply k_bind; [apply k_oqnlp|intro].
  apply k_bind; [apply k_unwrap|intros [|]]. apply k_bind; [apply fi_end_stage1|intro; apply k_ret].
  apply k_bind; [apply k_upd; reflexivity|intro]. apply k_bind; [apply fi_end_stage1|intro; apply k_ret].
Qed.
(** what Stage 1 records *)
Definition early (e : event) : Prop :=
  match e with
  | EvStage1 _ | EvSearch None _ | EvResult _ | EvSolutionSet _ | EvThreshold _ | EvCallback None _ | EvPrint _ => True
  | _ => False
  end.
Lemma em_callback_none : emits early (callback E None).
Proof.
  unfold callback. em; try exact I. apply Forall_forall. intros ev Hx. destruct Hx as [<-|Hx]; [exact I|]. apply in_map_iff in Hx as (y & <- & _). exact I.
Qed.
Lemma em_end_stage1 : emits early (end_stage1 E).
Proof. unfold end_stage1, stage1_enter. apply e_bind; [em|intro]. apply e_bind; [apply em_callback_none|intro; em]. Qed.
Lemma em_stage1 : emits early (stage1_run E).
Proof.
  unfold stage1_run, stage1_enter. apply e_bind; [em|intro o]. apply e_bind; [em|intro t].
  destruct (stage1_init E o t); [|em..]. destruct (ss_run E a) as [res sf]. apply e_bind; [em|intro].
  apply e_bind; [apply e_emit_map; intro; exact I|intro]. destruct res as [[pts cand]|e|]; [|em..]. cbv zeta.
  apply e_bind; [em|intro]. apply e_bind; [apply em_callback_none|intro]. apply e_bind; [em|intro]. apply e_bind; [em|intro].
  apply e_bind; [apply e_emit; repeat constructor|intro]. apply e_bind; [em|intro]. apply e_bind; [apply e_threshold; exact I|intro].
  apply e_bind; [em|intro]. apply e_bind; [apply em_callback_none|intro]. apply e_bind; [apply e_process; intros; exact I|intro].
  apply e_bind; [em|intro]. apply e_bind; [em|intros [|]]. apply e_bind; [apply em_end_stage1|intro; em].
  apply e_bind; [em|intro]. apply e_bind; [apply em_end_stage1|intro; em].
Qed.
End Stage1.

(** Stage 1 ends the run only with the target reached *)
Lemma sp_any : forall A (P : st -> Prop) (m : OM A), spec (fun _ => True) P m (fun _ _ => True).
Proof. intros A P m s _. destruct (m s) as [[a|e|] s']; exact I. Qed.
Lemma tr_end_stage1 : forall E, keeps (target_reached E) (end_stage1 E).
Proof.
  intro E. unfold end_stage1, stage1_enter. apply k_bind; [apply k_upd; reflexivity|intro].
  apply k_bind; [apply k_callback; reflexivity|intro]. apply k_upd; reflexivity.
Qed.
Lemma stage1_spec : forall E, spec (fun _ => True) (fun _ => True) (stage1_run E)
  (fun r s => r = None -> target_reached E (s_o s) = Some true).
Proof.
  intro E. unfold stage1_run. apply sp_bind with (1 := sp_any _ _ _). intro o. apply sp_bind with (1 := sp_any _ _ _). intro t.
  destruct (stage1_init E o t); [|intros s _; exact I..]. destruct (ss_run E a) as [res sf].
  apply sp_bind with (1 := sp_any _ _ _). intro. apply sp_bind with (1 := sp_any _ _ _). intro.
  destruct res as [[pts cand]|e|]; [|intros s _; exact I..]. cbv zeta.
  do 9 (apply sp_bind with (1 := sp_any _ _ _); intro).
  eapply sp_bind; [apply sp_any|intro; cbv beta]. eapply sp_bind; [apply sp_oqnlp|intro; cbv beta]. eapply sp_bind; [apply sp_unwrap; auto|intros [|]; cbv beta].
  - intros s [[_ Ho] Ht]. subst. pose proof (tr_end_stage1 E s) as K. unfold bind. destruct (end_stage1 E s) as [[[]|e|] s']; simpl in *; auto.
    intros _. congruence.
  - apply sp_bind with (1 := sp_any _ _ _). intro. apply sp_bind with (1 := sp_any _ _ _). intro. apply sp_ret. discriminate.
Qed.
Lemma stage1_stop : forall E s, fst (stage1_run E s) = Ok None -> target_reached E (s_o (snd (stage1_run E s))) = Some true.
Proof.
  intros E s H. pose proof (stage1_spec E s I) as G. destruct (stage1_run E s) as [[r|e|] s']; simpl in *; try discriminate.
  apply G. congruence.
Qed.

(** ** Stage 2 and the run *)
Lemma chunks_concat : forall A (l : list A), List.concat (chunks 1 l) = l.
Proof.
  intros A l. unfold chunks. generalize (Nat.le_refl (List.length l)). generalize (List.length l) at 2 3 as f.
  intro f. revert l. induction f as [|f IH]; intros [|x l] H; simpl in *; try reflexivity; try lia. rewrite IH by lia. reflexivity.
Qed.
Section Run.
Context (E : env) (Hok : env_ok E) (Hcb : callbacks_keep_settings E).
(** the record of Stage 2 over the candidates [ids] *)
Inductive stage2_record (o : oqnlp) (it0 : nat) (ids : list nat) (s : st) : bool -> list event -> Prop :=
| S2Done : forall k e l fin, shape E (frame o) (rev (firstn k ids)) e l -> e <> Cut ->
    (e = Hit -> target_reached E (s_o s) = Some true) ->
    (k < List.length ids -> target_reached E (s_o s) = Some true \/
       exists m v l', o_max_time (s_o s) = Some m /\ l = EvClock v :: l' /\ fgt v m = true) ->
    final_record (o_cp o) (hd it0 (rev (firstn k ids))) fin ->
    stage2_record o it0 ids s true (fin ++ l)
| S2Failed : forall k e l, shape E (frame o) (rev (firstn k ids)) e l -> stage2_record o it0 ids s false l.
Lemma fi_begin_stage2 : keeps fi begin_stage2.
Proof.
  unfold begin_stage2. apply k_bind; [apply k_oqnlp|intro]. apply k_bind; [apply fi_obs, cf2|intro]. apply fi_obs, fi_started.
Qed.
Lemma tr_begin_stage2 : forall s, trace (snd (begin_stage2 s)) = trace s /\ fst (begin_stage2 s) = Ok tt.
Proof. intro s. split; reflexivity. Qed.
Lemma final_save_spec : forall s r s', maybe_save_final_checkpoint E s = (r, s') ->
  s_o s' = s_o s /\ exists fin, trace s' = fin ++ trace s /\ final_record (o_cp (s_o s)) (o_iteration (s_o s)) fin.
Proof.
  intros s r s' H. unfold maybe_save_final_checkpoint, bind, the_oqnlp, get, ret, bind in H. simpl in H.
  destruct (o_cp (s_o s)) as [c|].
  - destruct (save_now_spec _ _ _ _ _ H) as (_ & G2 & cp & G3 & G4 & _). split; [auto|]. eexists [_]. split; [exact G3|]. simpl. eauto.
  - injection H as <- <-. split; [auto|]. exists []. split; reflexivity.
Qed.
Definition some_ok {A} (r : outcome oq_error A) : bool := match r with Ok _ => true | _ => false end.
Lemma stage2_seq : forall resumed refs objs u s r s', o_parallel (s_o s) = false ->
  stage2_run E resumed refs objs u s = (r, s') ->
  let start := if resumed then o_iteration (s_o s) else 0 in
  let ids := seq start (Nat.min (p_iterations (o_params (s_o s))) (List.length refs) - start) in
  callback_frequency (s_o s') = callback_frequency (s_o s) /\
  exists new b, trace s' = new ++ trace s /\ stage2_record (s_o s) (o_iteration (s_o s)) ids s' b new /\ (some_ok r = true -> b = true).
Proof.
  intros resumed refs objs u s r s' Hpar H start ids. unfold stage2_run in H. unfold bind in H at 1.
  pose proof (fi_begin_stage2 s) as Hf. destruct (tr_begin_stage2 s) as [Ht Hr].
  destruct (begin_stage2 s) as [r0 s1]. simpl in Hf, Ht, Hr. subst r0. unfold bind in H at 1. simpl in H.
  assert (H1 : o_iteration (s_o s1) = o_iteration (s_o s)) by (unfold fi in Hf; congruence).
  assert (Hfr : frame (s_o s1) = frame (s_o s)) by (unfold fi in Hf; congruence).
  assert (H2 : o_params (s_o s1) = o_params (s_o s) /\ o_parallel (s_o s1) = o_parallel (s_o s) /\ o_cp (s_o s1) = o_cp (s_o s)).
  { unfold frame in Hfr. injection Hfr; auto. }
  destruct H2 as (H2 & H3 & H3').
  assert (Hcut : forall x, fi (s_o x) = fi (s_o s1) -> trace x = trace s1 ->
    callback_frequency (s_o x) = callback_frequency (s_o s) /\
    exists new b, trace x = new ++ trace s /\ stage2_record (s_o s) (o_iteration (s_o s)) ids x b new /\ (false = true -> b = true)).
  { intros x Hx Hy. split; [unfold fi, frame in *; congruence|]. exists [], false. split; [simpl; congruence|]. split; [|discriminate].
    apply (S2Failed _ _ _ _ 0 Whole). constructor. }
  set (go := fun refs1 => bind (if batch_size E (s_o s1) (if resumed then o_iteration (s_o s1) else 0) =? 0 then panic
     else stage2_loop E (batch_size E (s_o s1) (if resumed then o_iteration (s_o s1) else 0)) (if resumed then o_iteration (s_o s1) else 0) resumed objs
       (chunks (batch_size E (s_o s1) (if resumed then o_iteration (s_o s1) else 0))
          (skipn (if resumed then o_iteration (s_o s1) else 0) (enumerate (firstn (p_iterations (o_params (s_o s1))) refs1)))) u)
     (fun _ => bind (maybe_save_final_checkpoint E) (fun _ => final_set))) in *.
  assert (Hgo : forall refs1 s2 r s', List.length refs1 = List.length refs -> fi (s_o s2) = fi (s_o s1) -> trace s2 = trace s1 ->
    go refs1 s2 = (r, s') -> 
    callback_frequency (s_o s') = callback_frequency (s_o s) /\
    exists new b, trace s' = new ++ trace s /\ stage2_record (s_o s) (o_iteration (s_o s)) ids s' b new /\ (some_ok r = true -> b = true)).
  { clear H r s'. intros refs1 s2 r s' Hlen Hf2 Ht2 H. unfold go in H. rewrite H1, H2 in H.
    change (if resumed then o_iteration (s_o s) else 0) with start in H.
    assert (Hb : batch_size E (s_o s1) start = 1) by (unfold batch_size; rewrite H3, Hpar; reflexivity). rewrite Hb in H. clear Hb. change (1 =? 0) with false in H.
    set (bs := chunks 1 (skipn start (enumerate (firstn (p_iterations (o_params (s_o s))) refs1)))) in *.
    assert (Hcc : List.concat bs = skipn start (enumerate (firstn (p_iterations (o_params (s_o s))) refs1))) by apply chunks_concat.
    assert (Hids : map fst (List.concat bs) = ids).
    { rewrite Hcc, <- skipn_map. unfold enumerate. rewrite enum_fst, skipn_seq, firstn_length, Hlen. reflexivity. }
    assert (Hge : forall i p, In (i, p) (List.concat bs) -> start <= i).
    { intros i p Hin. apply (in_map fst) in Hin. rewrite Hids in Hin. apply in_seq in Hin. simpl in Hin. lia. }
    assert (A : at_shape E (frame (s_o s)) (trace s) (o_iteration (s_o s)) [] Whole s2).
    { split; [simpl; rewrite Hf2, Hf; reflexivity|]. exists []. split; [simpl; congruence|constructor]. }
    pose proof (loop_seq E Hcb (frame (s_o s)) (trace s) (o_iteration (s_o s)) start resumed objs bs [] u Hge s2 A) as G.
    rewrite Hids in G. unfold bind in H at 1.
    destruct (stage2_loop E 1 start resumed objs bs u s2) as [[[]|e|] s3].
    2,3: injection H as <- <-; destruct G as [G1 (k & e' & l & G2 & G3)]; split; [unfold frame in G1; congruence|];
         exists l, false; split; [auto|]; split; [rewrite app_nil_r in G3; eapply S2Failed; eauto|discriminate].
    destruct G as (k & e & G1 & [G2 (l & G3 & G4)] & G5 & G6). rewrite app_nil_r in *.
    unfold bind in H at 1. destruct (maybe_save_final_checkpoint E s3) as [r4 s4] eqn:E4.
    destruct (final_save_spec _ _ _ E4) as (F1 & fin & F2 & F3).
    assert (Fr : frame (s_o s3) = frame (s_o s)) by (unfold fi in G2; congruence).
    assert (Hit : o_iteration (s_o s3) = hd (o_iteration (s_o s)) (rev (firstn k ids))) by (unfold fi in G2; congruence).
    assert (Hcp : o_cp (s_o s3) = o_cp (s_o s)) by (unfold frame in Fr; congruence).
    rewrite Hit, Hcp in F3.
    assert (Hs' : s' = s4).
    { destruct r4 as [[]|e4|]; [|injection H as _ <-; reflexivity..].
      unfold final_set, bind, the_oqnlp, get, ret, bind, fail in H. simpl in H. destruct (o_set (s_o s4)); injection H as _ <-; reflexivity. }
    subst s'. split; [rewrite F1; unfold frame in Fr; congruence|]. exists (fin ++ l), true.
    split; [rewrite F2, G3, app_assoc; reflexivity|]. split; [|auto]. eapply S2Done; eauto; rewrite F1; auto.
    intro Hk. destruct (G6 Hk) as [G7|(m & v & t & G7 & G8 & G9)]; [auto|].
    right. exists m, v, t. rewrite G3 in G8. change (EvClock v :: t ++ trace s) with ((EvClock v :: t) ++ trace s) in G8. apply app_inv_tail in G8. auto. }
  destruct resumed.
  - unfold bind in H at 1. simpl in H. apply (Hgo refs s1); auto.
  - unfold bind in H at 1. unfold bind in H at 1.
    destruct (add_u64 E (p_seed (o_params (s_o s1))) (N.of_nat (o_iteration (s_o s1)))) as [sd|]; simpl in H.
    + eapply Hgo; [| | |exact H]; try reflexivity. apply Permutation_length, (eo_shuffle E Hok).
    + injection H as <- <-. apply Hcut; auto.
Qed.
Lemma record_frame : forall o o' it0 ids s b l, frame o = frame o' -> stage2_record o it0 ids s b l -> stage2_record o' it0 ids s b l.
Proof.
  intros o o' it0 ids s b l H G. assert (Hc : o_cp o = o_cp o') by (unfold frame in H; congruence). destruct G.
  - econstructor; eauto; rewrite <- ?H, <- ?Hc; auto.
  - econstructor. rewrite <- H. eauto.
Qed.
Inductive seq_record (s s' : st) : bool -> list event -> Prop :=
| SqStage1 : forall b pre, Forall early pre -> (b = true -> target_reached E (s_o s') = Some true) -> seq_record s s' b pre
| SqFresh : forall b l pre, Forall early pre -> (forall cp, ~ resumes_from E s cp) ->
    stage2_record (s_o s') (o_iteration (s_o s)) (seq 0 (work_bound s')) s' b l -> seq_record s s' b (l ++ pre)
| SqResumed : forall b l cp, resumes_from E s cp ->
    stage2_record (s_o s') (cp_iteration cp) (seq (cp_iteration cp) (work_bound s' - cp_iteration cp)) s' b l -> seq_record s s' b l.
Lemma start_fresh : forall s s1, run_start E (blank s) false s1 -> forall cp, ~ resumes_from E s cp.
Proof.
  intros s s1 H cp (c & H1 & H2 & H3 & _). inversion H as [d Hd Hc|]; subst. specialize (Hc c H1 H2). simpl in Hc. congruence.
Qed.
Lemma first_index_some : forall s, exists start, first_index E s start.
Proof.
  intro s.
  destruct (o_cp (s_o s)) as [c|] eqn:Hc.
  2: { exists 0. left. split; [reflexivity|]. intros cp (c & H1 & _). congruence. }
  destruct (cc_auto_resume c) eqn:Ha.
  2: { exists 0. left. split; [reflexivity|]. intros cp (c' & H1 & H2 & _). congruence. }
  destruct (fst (checkpoint_exists E c (w_disk (s_w s)))) as [[|]|e|] eqn:He.
  2,3,4: exists 0; left; split; [reflexivity|]; intros cp (c' & H1 & _ & H2 & _); assert (c' = c) by congruence; subst; congruence.
  destruct (fst (load_latest E c (snd (checkpoint_exists E c (w_disk (s_w s)))))) as [cp|e|] eqn:Hl.
  2,3: exists 0; left; split; [reflexivity|]; intros cp (c' & H1 & _ & _ & H2); assert (c' = c) by congruence; subst; congruence.
  exists (cp_iteration cp). right. exists cp. split; [exists c; auto|reflexivity].
Qed.
Lemma frame_config : forall o o', same_config o o' -> callback_frequency o' = callback_frequency o -> frame o = frame o'.
Proof.
  intros o o' H Hc. unfold same_config in H. unfold frame. rewrite Hc.
  destruct H as (-> & -> & -> & _ & -> & -> & -> & _ & -> & _). reflexivity.
Qed.
Lemma ends_record : forall o it0 ids s new b l, stage2_record o it0 ids (ends s new) b l -> stage2_record o it0 ids s b l.
Proof. intros o it0 ids s new b l H. destruct H; econstructor; eauto. Qed.
Theorem run_seq : forall s r s' new, run E s = (r, s') -> recorded s s' new -> o_parallel (s_o s') = false ->
  exists b, seq_record s s' b new /\ (some_ok r = true -> b = true).
Proof.
  intros s r s' new Hrun Hnew Hpar.
  destruct (run_cases E s r s' new Hrun Hnew) as [(-> & _ & Hno)|(b & s1 & Hst & Ht & Hr & Hcfg)].
  { exists false. split; [apply SqStage1; [constructor|discriminate]|]. destruct r; try discriminate. exfalso. eapply Hno; reflexivity. }
  assert (Hpar1 : o_parallel (s_o s1) = false) by (rewrite <- Hpar; symmetry; apply Hcfg).
  destruct b; unfold run_rest in Hr.
  - assert (Href : exists refs cp, o_ref (s_o s1) = Some refs /\ resumes_from E s cp /\ o_iteration (s_o s1) = cp_iteration cp).
    { inversion Hst; subst. simpl. exists (cp_reference_set cp), cp. split; [reflexivity|]. split; [|reflexivity]. exists c; auto. }
    destruct Href as (refs & cp & Href & Hres & Hit). unfold bind, the_oqnlp, get, ret, bind in Hr. simpl in Hr. rewrite Href in Hr.
    pose proof (a_stage2 E (candidate E true (s_o s1) refs) None true refs (o_unchanged (s_o s1))
                    (fun r s' => True) s1 (fun i p H => H) (fun r s' _ H => I)) as [W1 _].
    rewrite Hr in W1. simpl in W1.
    assert (Hrf : o_ref (s_o s') = Some refs).
    { rewrite <- Href. change (s_o s') with (s_o (ends s' new)). eapply acts_ref; [|exact W1]. intros p (i & rs & Hx & _). discriminate. }
    destruct (stage2_seq _ _ _ _ _ _ _ Hpar1 Hr) as (F & l & b & G1 & G2 & G3). rewrite Ht, app_nil_r in G1. simpl in G1. subst l.
    exists b. split; [|auto]. eapply SqResumed; [exact Hres|]. rewrite Hit in G2.
    assert (Hw : work_bound s' = Nat.min (p_iterations (o_params (s_o s1))) (List.length refs)).
    { unfold work_bound, reference_set. rewrite Hrf. destruct Hcfg as [-> _]. reflexivity. }
    rewrite Hw. eapply ends_record, record_frame; [|exact G2]. apply frame_config; auto.
  - unfold bind in Hr at 1. pose proof (fi_stage1 E Hcb s1) as F1. pose proof (em_stage1 E s1) as (pre & P1 & P2).
    pose proof (a_stage1 E (stage1_best E s1) None
        (fun r s2 => forall refs objs, r = Some (refs, objs) -> stage1_result E s1 s2 refs objs) s1
        (fun _ H => H) (fun _ _ _ H => H)) as [A1 W0].
    assert (Stop : fst (stage1_run E s1) = Ok None -> target_reached E (s_o (snd (stage1_run E s1))) = Some true).
    { intro H. pose proof (stage1_stop E s1) as X. destruct (stage1_run E s1) as [r2 s2]. simpl in *. subst r2. exact (X eq_refl). }
    destruct (stage1_run E s1) as [r2 s2] eqn:E1. simpl in *. rewrite Ht, app_nil_r in P1.
    assert (Hfl : r2 = Ok None -> s2 = ends s' new).
    { intros ->. unfold final_set, bind, the_oqnlp, get, ret, fail, bind in Hr. simpl in Hr. destruct (o_set (s_o s2)); injection Hr; auto. }
    destruct r2 as [[[refs objs]|]|e|].
    + destruct (W0 refs objs eq_refl) as (_ & _ & _ & _ & _ & _ & _ & _ & Href).
      pose proof (acts_config _ _ _ _ _ A1) as C1.
      assert (Hpar2 : o_parallel (s_o s2) = false) by (rewrite <- Hpar1; apply C1).
      pose proof (a_stage2 E (candidate E false (s_o s2) refs) (Some objs) false refs 0
                    (fun r s' => True) s2 (fun i p H => H) (fun r s' _ H => I)) as [W1 _].
      rewrite Hr in W1. simpl in W1. pose proof (acts_config _ _ _ _ _ W1) as C2. simpl in C2.
      assert (Hrf : o_ref (s_o s') = Some refs).
      { rewrite <- Href. change (s_o s') with (s_o (ends s' new)). eapply acts_ref; [|exact W1]. intros p (i & rs & Hx & _). discriminate. }
      destruct (stage2_seq _ _ _ _ _ _ _ Hpar2 Hr) as (F & l & b & G1 & G2 & G3). rewrite P1 in G1. change (new = l ++ pre) in G1. subst new.
      exists b. split; [|auto]. apply SqFresh; [exact P2|exact (start_fresh _ _ Hst)|].
      assert (Hw : work_bound s' = Nat.min (p_iterations (o_params (s_o s2))) (List.length refs)).
      { unfold work_bound, reference_set. rewrite Hrf. destruct C2 as [-> _]. reflexivity. }
      assert (Hit : o_iteration (s_o s) = o_iteration (s_o s2)).
      { transitivity (o_iteration (s_o s1)); [inversion Hst; reflexivity|unfold fi in F1; congruence]. }
      rewrite Hw, Hit. simpl in G2. rewrite Nat.sub_0_r in G2. eapply ends_record, record_frame; [|exact G2]. apply frame_config; auto.
    + specialize (Hfl eq_refl). subst s2. exists true. split; [|auto]. change (new = pre) in P1. subst pre. apply SqStage1; [auto|]. intros _. exact (Stop eq_refl).
    + injection Hr as <- Hr. exists false. split; [|discriminate]. rewrite Hr in P1. change (new = pre) in P1. subst pre. apply SqStage1; [auto|discriminate].
    + injection Hr as <- Hr. exists false. split; [|discriminate]. rewrite Hr in P1. change (new = pre) in P1. subst pre. apply SqStage1; [auto|discriminate].
Qed.
End Run.

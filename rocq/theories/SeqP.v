(** * Sequential Stage 2: the exact order of events (C40, C52, C54) *)
From Coq Require Import ZArith NArith List Bool Arith Lia String Permutation.
From Verif Require Import F64 Base Builders Types Filters Runner Observer Env EnvSpec
  ScatterSearch Codec Checkpoint Oqnlp Spec SpecStage2 SpecObserver SolverP Wp Actions RunP SetP FrameP EmitsP HoareP.
Import ListNotations.

(** ** Assertions with a separate condition for failing outcomes *)
Section Spec.
Context (F : st -> Prop).
Definition spec {A} (P : st -> Prop) (m : OM A) (Q : A -> st -> Prop) : Prop :=
  forall s, P s -> match m s with (Ok a, s') => Q a s' | (_, s') => F s' end.
Lemma sp_bind : forall A B (P : st -> Prop) (m : OM A) Q (k : A -> OM B) R,
  spec P m Q -> (forall a, spec (Q a) (k a) R) -> spec P (bind m k) R.
Proof.
  intros A B P m Q k R H1 H2 s Hp. unfold bind. specialize (H1 s Hp). destruct (m s) as [[a|e|] s1]; auto.
  apply H2. exact H1.
Qed.
Lemma sp_ret : forall A (P : st -> Prop) (a : A) (Q : A -> st -> Prop), (forall s, P s -> Q a s) -> spec P (ret a) Q.
Proof. intros A P a Q H s Hp. simpl. auto. Qed.
Lemma sp_weak : forall A (P P' : st -> Prop) (m : OM A) (Q Q' : A -> st -> Prop), spec P' m Q' ->
  (forall s, P s -> P' s) -> (forall a s, Q' a s -> Q a s) -> spec P m Q.
Proof.
  intros A P P' m Q Q' H H1 H2 s Hp. specialize (H s (H1 s Hp)). destruct (m s) as [[a|e|] s1]; auto.
Qed.
Lemma sp_oqnlp : forall (P : st -> Prop), spec P the_oqnlp (fun o s => P s /\ o = s_o s).
Proof. intros P s Hp. simpl. auto. Qed.
Lemma sp_unwrap : forall A (o : option A) (P : st -> Prop), (forall s, P s -> F s) ->
  spec P (unwrap o) (fun a s => P s /\ o = Some a).
Proof. intros A [a|] P H s Hp; simpl; auto. Qed.
Lemma sp_of_result : forall A (r : outcome oq_error A) (P : st -> Prop), (forall s, P s -> F s) ->
  spec P (of_result r) (fun a s => P s /\ r = Ok a).
Proof. intros A [a|e|] P H s Hp; simpl; auto. Qed.
Lemma sp_of_solver : forall A (r : outcome ls_error A) (P : st -> Prop), (forall s, P s -> F s) ->
  spec P (of_solver r) (fun a s => P s /\ r = Ok a).
Proof. intros A [a|e|] P H s Hp; simpl; auto. Qed.
Lemma sp_pre : forall A (P : st -> Prop) (m : OM A) (Q : A -> st -> Prop), (forall s0, P s0 -> spec (fun s => s = s0) m Q) -> spec P m Q.
Proof. intros A P m Q H s Hp. exact (H s Hp s eq_refl). Qed.
End Spec.

Definition quiet (e : event) : Prop :=
  match e with
  | EvObjective _ _ | EvDecide _ _ _ _ _ | EvSearch _ _ | EvResult _ | EvSolutionSet _ | EvThreshold _ | EvRelax _ => True
  | _ => False
  end.
Definition header (e : event) : Prop := match e with EvClock _ | EvBatch => True | _ => False end.

Lemma cf_map : forall o f, (forall ob, ob_callback (f ob) = ob_callback ob /\ ob_frequency (f ob) = ob_frequency ob) ->
  callback_frequency (set_o_observer (option_map f (o_observer o)) o) = callback_frequency o.
Proof.
  intros o f H. unfold callback_frequency. simpl. destruct (o_observer o) as [ob|]; [|reflexivity]. simpl.
  destruct (H ob) as [-> ->]. reflexivity.
Qed.
Lemma cf1 : forall f ob, ob_callback (upd_stage1 f ob) = ob_callback ob /\ ob_frequency (upd_stage1 f ob) = ob_frequency ob.
Proof. intros f ob. unfold upd_stage1. destruct (should_observe_stage1 ob); auto. destruct (ob_stage1 ob); auto. Qed.
Lemma cf2 : forall f ob, ob_callback (upd_stage2 f ob) = ob_callback ob /\ ob_frequency (upd_stage2 f ob) = ob_frequency ob.
Proof. intros f ob. unfold upd_stage2. destruct (should_observe_stage2 ob); auto. destruct (ob_stage2 ob); auto. Qed.
Lemma cf3 : forall f ob, ob_callback (upd_stage2_any f ob) = ob_callback ob /\ ob_frequency (upd_stage2_any f ob) = ob_frequency ob.
Proof. intros f ob. unfold upd_stage2_any. destruct (ob_stage2 ob); auto. Qed.
(** what an iteration does not change *)
Definition frame (o : oqnlp) : option nat * option cp_config * params * (solver_type * solver_config * option f64 * option nat * bool) :=
  (callback_frequency o, o_cp o, o_params o, (o_solver_type o, o_solver_config o, o_target o, o_batch o, o_parallel o)).
Definition fi (o : oqnlp) := (frame o, o_iteration o).
Lemma fi_obs : forall f, (forall ob, ob_callback (f ob) = ob_callback ob /\ ob_frequency (f ob) = ob_frequency ob) -> keeps fi (obs f).
Proof. intros f H. apply k_upd. intro o. unfold fi, frame. rewrite cf_map; auto. Qed.
Lemma fi_obs_iteration : forall i u, keeps fi (obs_iteration i u).
Proof. intros. unfold obs_iteration. apply k_bind; [apply k_oqnlp|intro]. apply fi_obs, cf2. Qed.
Lemma fi_obs_search : forall a n, keeps fi (obs_search a n).
Proof. intros. unfold obs_search. apply k_bind; [apply k_oqnlp|intro]. apply fi_obs. intro ob. apply cf2. Qed.
Lemma fi_process : forall E sol, keeps fi (process_local_solution E sol).
Proof.
  intros. unfold process_local_solution, set_solutions, set_threshold, add_to_filter.
  repeat match goal with |- keeps _ (obs _) => apply fi_obs, cf3 | _ => kp1 end.
Qed.
Lemma fi_count : forall u, keeps fi (count_unchanged u).
Proof. intros. unfold count_unchanged, adjust_threshold. kp. Qed.
Lemma fi_threshold : forall v, keeps fi (set_threshold v).
Proof. intros. unfold set_threshold. kp. Qed.

Section Seq.
Context (E : env) (Hcb : callbacks_keep_settings E).
Lemma cf_invoke : forall ob, ob_callback (fst (invoke_callback (Env.e_callback E) ob)) = ob_callback ob /\
  ob_frequency (fst (invoke_callback (Env.e_callback E) ob)) = ob_frequency ob.
Proof.
  intro ob. unfold invoke_callback. destruct (ob_callback ob) as [[n| | |]|] eqn:Hc; simpl; auto.
  - destruct (Hcb n ob) as [-> ->]. auto.
  - unfold default_callback. destruct (match obs_stage1 ob with Some s => _ | None => _ end); [auto|].
    destruct (obs_stage2 ob) as [s2|]; [|auto]. destruct (0 <? s2_iteration s2); [|auto]. destruct (ob_filter ob); auto.
Qed.
(** the records of a callback and of a save *)
Definition callback_record (q : option nat) (i : nat) (l : list event) : Prop :=
  if due q i then exists prints ob, l = map EvPrint prints ++ [EvCallback (Some i) ob] else l = [].
Definition save_record (c : option cp_config) (i : nat) (l : list event) : Prop :=
  if due_save c i then exists cfg cp, c = Some cfg /\ l = [EvSave (file_name cfg i) cp] /\ cp_iteration cp = i else l = [].
Lemma callback_at_spec : forall i s r s', callback_at E i s = (r, s') ->
  fi (s_o s') = fi (s_o s) /\ o_set (s_o s') = o_set (s_o s) /\ o_exclude (s_o s') = o_exclude (s_o s) /\
  ((r = Ok tt /\ exists new, trace s' = new ++ trace s /\ callback_record (callback_frequency (s_o s)) i new) \/
   (r = Panic /\ trace s' = trace s)).
Proof.
  intros i s r s' H. unfold callback_at, bind, the_oqnlp, get, ret, bind in H. simpl in H.
  destruct (o_observer (s_o s)) as [ob|] eqn:Ho.
  2: { injection H as <- <-. repeat split; auto. left. split; auto. exists []. split; auto.
       unfold callback_record, callback_frequency. rewrite Ho. reflexivity. }
  unfold should_invoke_callback in H. destruct (ob_callback ob) as [cb|] eqn:Hc.
  2: { injection H as <- <-. repeat split; auto. left. split; auto. exists []. split; auto.
       unfold callback_record, callback_frequency. rewrite Ho, Hc. reflexivity. }
  assert (Hq : callback_frequency (s_o s) = Some (ob_frequency ob)) by (unfold callback_frequency; rewrite Ho, Hc; reflexivity).
  destruct (ob_frequency ob) as [|f] eqn:Hf.
  { injection H as <- <-. repeat split; auto. }
  fold (multiple (S f) i) in H. destruct (multiple (S f) i) eqn:Hm.
  2: { injection H as <- <-. repeat split; auto. left. split; auto. exists []. split; auto.
       unfold callback_record, due. rewrite Hq, Hm. reflexivity. }
  unfold callback, bind, the_oqnlp, get, ret, bind in H. simpl in H. rewrite Ho, Hc in H.
  destruct (cf_invoke ob) as [C1 C2].
  destruct (invoke_callback (Env.e_callback E) ob) as [ob' msgs] eqn:Hi. simpl in H, C1, C2. injection H as <- <-. simpl.
  split. { unfold fi, frame. rewrite Hq. unfold callback_frequency. simpl. rewrite C1, C2, Hc, Hf. reflexivity. }
  repeat split; auto. left. split; auto. exists (map EvPrint (rev msgs) ++ [EvCallback (Some i) ob]).
  rewrite map_rev. split; [reflexivity|]. unfold callback_record, due. rewrite Hq, Hm. exists (rev msgs), ob. rewrite map_rev. reflexivity.
Qed.
Lemma save_now_spec : forall c s r s', save_now E c s = (r, s') ->
  fi (s_o s') = fi (s_o s) /\ s_o s' = s_o s /\ exists cp, trace s' = EvSave (file_name c (o_iteration (s_o s))) cp :: trace s /\
    cp_iteration cp = o_iteration (s_o s) /\ (forall x, r = Ok x -> x = tt).
Proof.
  intros c s r s' H. unfold save_now, create_checkpoint, bind, tick, the_oqnlp, get, ret, bind, emit, modify in H. simpl in H.
  unfold on_disk in H. simpl in H. destruct (save_checkpoint E c _ _ _) as [[x|e|] d]; injection H as <- <-; simpl; (split; [reflexivity|]);
    (split; [reflexivity|]); eexists; split; [reflexivity| |reflexivity| |reflexivity|]; split; try reflexivity; try (intros ? Hx; discriminate Hx).
  intros [] _. reflexivity.
Qed.
Lemma maybe_save_spec : forall s r s', maybe_save_checkpoint E s = (r, s') ->
  fi (s_o s') = fi (s_o s) /\ s_o s' = s_o s /\
  ((exists new, trace s' = new ++ trace s /\ save_record (o_cp (s_o s)) (o_iteration (s_o s)) new) \/
   (r = Panic /\ trace s' = trace s)).
Proof.
  intros s r s' H. unfold maybe_save_checkpoint, bind, the_oqnlp, get, ret, bind in H. simpl in H.
  destruct (o_cp (s_o s)) as [c|] eqn:Hc.
  2: { injection H as <- <-. repeat split; auto. left. exists []. split; auto. reflexivity. }
  destruct (cc_save_frequency c) as [|k] eqn:Hk.
  { injection H as <- <-. repeat split; auto. }
  fold (multiple (S k) (o_iteration (s_o s))) in H. destruct (multiple (S k) (o_iteration (s_o s))) eqn:Hm.
  - destruct (save_now_spec _ _ _ _ H) as (G1 & G2 & cp & G3 & G4 & _). split; [auto|]. split; [auto|]. left.
    eexists [_]. split; [exact G3|]. unfold save_record, due_save. rewrite Hk, Hm. eauto.
  - injection H as <- <-. repeat split; auto. left. exists []. split; auto. unfold save_record, due_save. rewrite Hk, Hm. reflexivity.
Qed.

(** ** One iteration *)
Definition whole_tail (q : option nat) (c : option cp_config) (i : nat) (tail : list event) : Prop :=
  exists cbs svs, tail = svs ++ cbs /\ callback_record q i cbs /\ save_record c i svs.
Definition part_tail (done : Prop) (q : option nat) (c : option cp_config) (i : nat) (tail : list event) : Prop :=
  tail = [] \/ (done /\ (callback_record q i tail \/ whole_tail q c i tail)).
Section One.
Context (objs : option (list f64)) (i u : nat) (p : point) (fr : option nat * option cp_config * params * (solver_type * solver_config * option f64 * option nat * bool)) (t0 : list event).
Notation q := (fst (fst (fst fr))).
Notation c := (snd (fst (fst fr))).
Definition bad (s : st) : Prop := frame (s_o s) = fr /\
  (trace s = t0 \/ exists mid tail, trace s = tail ++ mid ++ EvIteration i :: t0 /\ Forall quiet mid /\
     part_tail (exists o, frame o = fr /\ finished E o i mid) q c i tail).
Definition in_mid (X : list event -> Prop) (s : st) : Prop :=
  fi (s_o s) = (fr, i) /\ exists mid, trace s = mid ++ EvIteration i :: t0 /\ Forall quiet mid /\ X mid.
Definition grows (X : list event -> Prop) : Prop := forall new mid, X mid -> X (new ++ mid).
Lemma mid_bad : forall X s, in_mid X s -> bad s.
Proof.
  intros X s [H1 (mid & H2 & H3 & _)]. split; [injection H1; auto|]. right. exists mid, []. split; [exact H2|]. split; [auto|]. left; auto.
Qed.
Lemma sp_mid : forall X A (m : OM A), grows X -> emits quiet m -> keeps fi m -> spec bad (in_mid X) m (fun _ => in_mid X).
Proof.
  intros X A m HX He Hk s [H1 (mid & H2 & H3 & H4)]. destruct (He s) as (new & Ht & Hq). specialize (Hk s).
  assert (G : in_mid X (snd (m s))).
  { split; [congruence|]. exists (new ++ mid). rewrite Ht, H2, app_assoc. split; auto. split; [apply Forall_app; auto|]. apply HX; auto. }
  destruct (m s) as [[a|e|] s'] eqn:Em; simpl in *; auto; eapply mid_bad; eauto.
Qed.
Lemma sp_emit1 : forall (X Y : list event -> Prop) e, quiet e -> (forall mid, X mid -> Y (e :: mid)) ->
  spec bad (in_mid X) (emit [e]) (fun _ => in_mid Y).
Proof.
  intros X Y e He HX s [H1 (mid & H2 & H3 & H4)]. simpl. split; [exact H1|]. exists (e :: mid). unfold trace in *. simpl. rewrite H2. auto.
Qed.
Lemma sp_begin : spec bad (fun s => frame (s_o s) = fr /\ trace s = t0) (begin_iteration E i u) (fun _ => in_mid (fun _ => True)).
Proof.
  intros s [H1 H2]. unfold begin_iteration, bind, upd, modify, the_oqnlp, get, ret, bind, unwrap. simpl.
  destruct (add_u64 E (p_seed (o_params (s_o s))) (N.of_nat i)) as [sd|]; simpl.
  - split; [unfold fi; rewrite <- H1; reflexivity|]. exists []. unfold trace in *. simpl. rewrite H2. auto.
  - split; [rewrite <- H1; reflexivity|]. left. exact H2.
Qed.
Lemma pls_first : forall sol s b s', process_local_solution E sol s = (Ok b, s') ->
  exists new, trace s' = new ++ EvResult sol :: trace s /\ Forall quiet new.
Proof.
  intros sol s b s' H. pose proof (pls_cases E sol s) as Hc. rewrite H in Hc. simpl in Hc.
  destruct Hc as [[-> G]|[[_ [_ [-> _]]]|[_ [[_ [-> _]]|
    [cur [rest [_ [[_ [_ [ob ->]]]|[[_ [_ [_ [_ [ob ->]]]]]|[_ [_ [_ ->]]]]]]]]]]]]; cbv [changed noted trace s_o s_w w_trace w_disk w_tick].
  - destruct G as [G _]. discriminate G.
  - exists []. split; [reflexivity|auto].
  - exists [EvThreshold (ls_obj sol); EvSolutionSet [sol]]. split; [reflexivity|repeat constructor].
  - exists [EvThreshold (ls_obj sol); EvSolutionSet [sol]]. split; [reflexivity|repeat constructor].
  - eexists [_]. split; [reflexivity|repeat constructor].
  - exists []. split; [reflexivity|auto].
Qed.
Definition searched_in (o : oqnlp) (mid : list event) : Prop := finished E o i mid.
Lemma grows_true : grows (fun _ => True). Proof. intros ? ? ?; exact I. Qed.
Lemma grows_in : forall e, grows (In e). Proof. intros e new mid H. apply in_or_app; auto. Qed.
Lemma grows_finished : forall o, grows (finished E o i).
Proof.
  intros o new mid [(p' & obj & o' & H)|(p' & obj & o' & x & l1 & l2 & -> & H1 & H2)].
  - left. exists p', obj, o'. apply in_or_app; auto.
  - right. exists p', obj, o', x, (new ++ l1), l2. rewrite app_assoc. auto.
Qed.
Lemma sp_pure : forall (F : st -> Prop) (H : Prop) A (P : st -> Prop) (m : OM A) (Q : A -> st -> Prop),
  (forall s, P s -> H) -> (H -> spec F P m Q) -> spec F P m Q.
Proof. intros F H A P m Q H1 H2 s Hp. apply H2; eauto. Qed.
(** the part between the start of the iteration and its end *)
Definition middle : OM (nat * bool) :=
  bind (obs_iteration i u) (fun _ => bind (emit_eval objs i p) (fun _ =>
  bind (of_result (cand_objective E objs i p)) (fun obj =>
  bind (match objs with None => obs (upd_stage2 (s2_add_evals 1)) | Some _ => ret tt end) (fun _ =>
  bind the_oqnlp (fun o =>
  let go := should_start_local o p obj in
  bind (emit [EvDecide i p obj o go]) (fun _ =>
  if go then
    bind (set_threshold obj) (fun _ => bind (emit [EvSearch (Some i) p]) (fun _ =>
    bind (of_solver (solve_tracked E (o_solver_type o) (o_solver_config o) p (observes2 o))) (fun r =>
    bind (process_local_solution E (fst r)) (fun added =>
    bind (obs_search added (snd r)) (fun _ =>
    bind the_oqnlp (fun o2 => bind (unwrap (target_reached E o2)) (fun stop => ret (u, stop))))))))
  else bind (count_unchanged u) (fun u' => ret (u', false)))))))).
Definition ending (r : nat * bool) : OM (nat * bool) :=
  let '(u', stop) := r in
  if stop then ret (u', true)
  else bind (callback_at E i) (fun _ => bind (maybe_save_checkpoint E) (fun _ => ret (u', false))).
Lemma bind_assoc : forall S X A B C (m : M S X A) (f : A -> M S X B) (g : B -> M S X C) s,
  bind (bind m f) g s = bind m (fun a => bind (f a) g) s.
Proof. intros. unfold bind. destruct (m s) as [[a|e|] s1]; auto. Qed.
Lemma bind_ext : forall S X A B (m : M S X A) (f g : A -> M S X B) s, (forall a s, f a s = g a s) -> bind m f s = bind m g s.
Proof. intros S X A B m f g s H. unfold bind. destruct (m s) as [[a|e|] s1]; auto. Qed.
Lemma one_split : forall s, process_one_seq E objs i p u s =
  bind (begin_iteration E i u) (fun _ => bind middle ending) s.
Proof.
  intro s. unfold process_one_seq, middle. apply bind_ext. intros _ s1.
  rewrite bind_assoc. apply bind_ext. intros _ s2. rewrite bind_assoc. apply bind_ext. intros _ s3.
  rewrite bind_assoc. apply bind_ext. intros obj s4. rewrite bind_assoc. apply bind_ext. intros _ s5.
  rewrite bind_assoc. apply bind_ext. intros o s6. cbv zeta. rewrite bind_assoc. apply bind_ext. intros _ s7.
  apply bind_ext. intros [u' stop] s8. reflexivity.
Qed.
Lemma em_quiet_process : forall sol, emits quiet (process_local_solution E sol).
Proof. intro sol. apply e_process; intros; exact I. Qed.
Lemma sp_process : forall o obj r, solve_tracked E (o_solver_type o) (o_solver_config o) p (observes2 o) = Ok r ->
  spec bad (in_mid (fun mid => exists mid', mid = EvSearch (Some i) p :: mid' /\ In (EvDecide i p obj o true) mid'))
    (process_local_solution E (fst r)) (fun _ => in_mid (finished E o i)).
Proof.
  intros o obj [sol n] Hr s [H1 (mid & H2 & H3 & mid' & -> & H4)]. simpl.
  pose proof (em_quiet_process sol s) as He. pose proof (fi_process E sol s) as Hk.
  destruct (process_local_solution E sol s) as [[a|e|] s'] eqn:Hp; simpl in He, Hk.
  - destruct (pls_first _ _ _ _ Hp) as (new & Ht & Hq). split; [congruence|].
    exists (new ++ EvResult sol :: EvSearch (Some i) p :: mid'). rewrite Ht, H2, <- app_assoc. split; [reflexivity|].
    split; [apply Forall_app; split; auto; constructor; [exact I|auto]|].
    right. exists p, obj, o, sol, new, mid'. split; [reflexivity|]. split; [|exact H4].
    exists (o_solver_type o), (o_solver_config o). split; [eapply solve_tracked_solve; eauto|auto].
  - destruct He as (new & Ht & Hq). split; [unfold fi in *; congruence|]. right. exists (new ++ EvSearch (Some i) p :: mid'), [].
    rewrite Ht, H2. simpl. rewrite <- app_assoc. split; [reflexivity|]. split; [apply Forall_app; auto|left; reflexivity].
  - destruct He as (new & Ht & Hq). split; [unfold fi in *; congruence|]. right. exists (new ++ EvSearch (Some i) p :: mid'), [].
    rewrite Ht, H2. simpl. rewrite <- app_assoc. split; [reflexivity|]. split; [apply Forall_app; auto|left; reflexivity].
Qed.
Lemma sp_middle : spec bad (in_mid (fun _ => True)) middle
  (fun r s => (exists o, frame o = fr /\ in_mid (finished E o i) s) /\ (snd r = true -> target_reached E (s_o s) = Some true)).
Proof.
  unfold middle.
  eapply sp_bind; [apply sp_mid; [apply grows_true|apply e_obs_iteration|apply fi_obs_iteration]|intro; cbv beta].
  eapply sp_bind; [apply sp_mid; [apply grows_true| |]|intro; cbv beta].
  { unfold emit_eval. destruct objs; [apply e_ret|apply e_emit; repeat constructor]. }
  { unfold emit_eval. destruct objs; [apply k_ret|apply k_emit]. }
  eapply sp_bind; [apply sp_of_result; apply mid_bad|intro obj].
  eapply sp_bind; [eapply sp_weak; [apply (sp_mid (fun _ => True)); [apply grows_true| |]|intros s [H _]; exact H|intros ? ? H; exact H]|intro; cbv beta].
  { destruct objs; [apply e_ret|apply e_upd]. }
  { destruct objs; [apply k_ret|apply fi_obs, cf2]. }
  eapply sp_bind; [apply sp_oqnlp|intro o]. cbv zeta.
  apply (sp_pure _ (frame o = fr)); [intros s [[H _] ->]; injection H; auto|intro Ho].
  set (go := should_start_local o p obj).
  eapply sp_bind; [eapply sp_weak; [apply (sp_emit1 (fun _ => True) (In (EvDecide i p obj o go)) (EvDecide i p obj o go)); [exact I|intros; left; reflexivity]
     |intros s [H _]; exact H|intros ? ? H; exact H]|intro; cbv beta].
  destruct go.
  - eapply sp_bind; [apply sp_mid; [apply grows_in|apply e_threshold; exact I|apply fi_threshold]|intro; cbv beta].
    eapply sp_bind; [apply (sp_emit1 _ (fun mid => exists mid', mid = EvSearch (Some i) p :: mid' /\ In (EvDecide i p obj o true) mid')); [exact I|intros mid H; eauto]|intro; cbv beta].
    eapply sp_bind; [apply sp_of_solver; apply mid_bad|intro r].
    apply (sp_pure _ (solve_tracked E (o_solver_type o) (o_solver_config o) p (observes2 o) = Ok r)); [intros s [_ H]; exact H|intro Hr].
    eapply sp_bind; [eapply sp_weak; [apply (sp_process o obj r Hr)|intros s [H _]; exact H|intros ? ? H; exact H]|intro added].
    eapply sp_bind; [apply sp_mid; [apply grows_finished|apply e_obs_search|apply fi_obs_search]|intro; cbv beta].
    eapply sp_bind; [apply sp_oqnlp|intro o2].
    eapply sp_bind; [apply sp_unwrap; intros s [H _]; eapply mid_bad; eauto|intro stop].
    apply sp_ret. intros s [[H ->] Hs]. split; [eauto|]. simpl. intros ->. exact Hs.
  - eapply sp_bind; [apply sp_mid; [apply grows_in| |apply fi_count]|intro u'].
    { apply e_count; intro; exact I. }
    apply sp_ret. intros s [H1 (mid & H2 & H3 & H4)]. split; [|discriminate]. exists o. split; [auto|]. split; [auto|].
    exists mid. split; [auto|]. split; [auto|]. left. eauto.
Qed.
Definition one_done (r : nat * bool) (s : st) : Prop :=
  fi (s_o s) = (fr, i) /\ exists o mid tail, frame o = fr /\ trace s = tail ++ mid ++ EvIteration i :: t0 /\ Forall quiet mid /\ finished E o i mid /\
    (if snd r then tail = [] /\ target_reached E (s_o s) = Some true else whole_tail q c i tail).
Lemma sp_ending : forall r, spec bad (fun s => (exists o, frame o = fr /\ in_mid (finished E o i) s) /\ (snd r = true -> target_reached E (s_o s) = Some true))
  (ending r) one_done.
Proof.
  intros [u' [|]] s [(o & Ho & Hi & mid & Ht & Hq & Hf) Hs]; simpl in Hs.
  - simpl. split; [exact Hi|]. exists o, mid, []. split; [auto|]. split; [exact Ht|]. split; [auto|]. split; [auto|]. split; [reflexivity|]. apply Hs; reflexivity.
  - simpl. unfold bind at 1. destruct (callback_at E i s) as [r1 s1] eqn:E1.
    destruct (callback_at_spec _ _ _ _ E1) as (C1 & _ & _ & C2).
    assert (Hq1 : callback_frequency (s_o s) = q) by (assert (X : frame (s_o s) = fr) by (unfold fi in *; congruence); rewrite <- X; reflexivity).
    destruct C2 as [[-> (cbs & C3 & C4)]|[-> C3]].
    2: { split; [unfold fi in *; congruence|]. right. exists mid, []. split; [rewrite C3; exact Ht|]. split; [auto|left; auto]. }
    rewrite Hq1 in C4. unfold bind. destruct (maybe_save_checkpoint E s1) as [r2 s2] eqn:E2.
    destruct (maybe_save_spec _ _ _ E2) as (D1 & D2 & D3).
    assert (Hc1 : o_cp (s_o s1) = c) by (assert (X : frame (s_o s1) = fr) by (unfold fi in *; congruence); rewrite <- X; reflexivity).
    assert (Hi1 : o_iteration (s_o s1) = i) by (unfold fi in *; congruence).
    rewrite Hc1, Hi1 in D3.
    assert (B : forall svs, trace s2 = svs ++ trace s1 -> trace s2 = (svs ++ cbs) ++ mid ++ EvIteration i :: t0).
    { intros svs H. rewrite H, C3, Ht, <- app_assoc. reflexivity. }
    destruct D3 as [(svs & D3 & D4)|[-> D3]].
    + destruct r2 as [[]|e|]; simpl.
      * split; [congruence|]. exists o, mid, (svs ++ cbs). split; [auto|]. split; [auto|]. split; [auto|]. split; [auto|]. exists cbs, svs. auto.
      * split; [unfold fi in *; congruence|]. right. exists mid, (svs ++ cbs). split; [auto|]. split; [auto|]. right. split; [eauto|]. right. exists cbs, svs. auto.
      * split; [unfold fi in *; congruence|]. right. exists mid, (svs ++ cbs). split; [auto|]. split; [auto|]. right. split; [eauto|]. right. exists cbs, svs. auto.
    + split; [unfold fi in *; congruence|]. right. exists mid, cbs. split; [rewrite D3, C3, Ht; reflexivity|]. split; [auto|right; split; [eauto|left; auto]].
Qed.
Lemma one_seq : spec bad (fun s => frame (s_o s) = fr /\ trace s = t0) (process_one_seq E objs i p u) one_done.
Proof.
  intros s Hs. rewrite one_split. revert s Hs.
  apply (sp_bind bad _ _ _ (begin_iteration E i u) (fun _ => in_mid (fun _ => True)) (fun _ => bind middle ending)); [|intro x]. { apply sp_begin. }
  eapply sp_bind; [apply sp_middle|apply sp_ending].
Qed.
End One.
End Seq.

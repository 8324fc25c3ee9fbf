(** * Another wait cycle (C112) *)
From Coq Require Import ZArith NArith List Bool Arith Lia String.
From Verif Require Import F64 F64Order Base Builders Types Filters Runner Observer Env EnvSpec
  ScatterSearch Codec Checkpoint Oqnlp Spec SpecStage2 SpecObserver SpecWait Wp Actions RunP SetP SimP ClockFreeP LeaderP FrameP SeqP3 ResumeP AgainP FinishP BasicP.
From Verif Require Import MoreP.
Import ListNotations.
Local Open Scope monad_scope.

(** ** The scatter search *)
Section Search.
Context (E : env) (g : nat).
Definition ss_waiting (s : ss) : ss :=
  mk_ss (p_waiting g (ss_params s)) (ss_ref s) (ss_objs s) (ss_lower s) (ss_upper s) (ss_rng s) (ss_parallel s)
        (ss_observer s) (ss_custom s) (ss_ctx s) (ss_log s).
Definition waits (s t : ss) : Prop := t = ss_waiting s.
Notation sm := (sim waits eq).
Lemma k_get A (k k' : ss -> M ss ss_error A) : (forall s, sm (k s) (k' (ss_waiting s))) -> sm (bind get k) (bind get k').
Proof. intros H s t L. pose proof L as L'. unfold waits in L'. subst t. unfold bind, get. exact (H s s _ L). Qed.
Lemma k_modify f : (forall s, f (ss_waiting s) = ss_waiting (f s)) -> sm (modify f : M ss ss_error unit) (modify f).
Proof. intros H. apply sim_modify. intros s t ->. apply H. Qed.
Ltac s1 :=
  match goal with
  | |- sim _ eq (bind get _) (bind get _) => apply k_get; let s := fresh "s" in intros s;
      cbn [ss_waiting ss_params ss_ref ss_objs ss_lower ss_upper ss_rng ss_parallel ss_observer ss_custom ss_ctx p_waiting p_population p_seed]
  | |- sim _ eq (bind _ _) (bind _ _) => eapply (sim_bind waits _ _ _ _ eq eq); [|intros ? ? <-]
  | |- sim _ eq (ret _) (ret _) => apply sim_ret; reflexivity
  | |- sim _ eq (fail _) (fail _) => apply sim_fail
  | |- sim _ eq panic panic => apply sim_panic
  | |- sim _ eq (unwrap _) (unwrap _) => apply sim_unwrap
  | |- sim _ eq (of_result _) (of_result _) => apply sim_of_result, vrel_eq
  | |- sim _ eq (modify _) (modify _) => apply k_modify; intro; reflexivity
  | |- sim _ eq (let '(_, _) := ?x in _) _ => destruct x
  | |- sim _ eq (if ?b then _ else _) _ => destruct b
  | |- sim _ eq (match ?x with _ => _ end) _ => destruct x
  end.
Ltac ssim := repeat s1.
Lemma k_samples m : sm (generate_stratified_samples E m) (generate_stratified_samples E m).
Proof. unfold generate_stratified_samples. ssim. Qed.
Lemma k_refill pop cs fuel : forall a c, sm (refill E pop cs fuel a c) (refill E pop cs fuel a c).
Proof. induction fuel as [|f IH]; intros a c; simpl; [ssim|]. s1; [|ssim]. s1; [apply k_samples|apply IH]. Qed.
Lemma k_diversify refs cs : sm (diversify_reference_set E refs cs) (diversify_reference_set E refs cs).
Proof.
  unfold diversify_reference_set. s1. s1; [apply k_samples|]. s1; [|ssim].
  s1; [s1|]. s1; [apply k_refill|]. ssim.
Qed.
Lemma k_init : sm (initialize_reference_set E) (initialize_reference_set E).
Proof. unfold initialize_reference_set. s1. s1; [apply k_diversify|]. ssim. Qed.
Lemma k_trials : sm (generate_trial_points E) (generate_trial_points E).
Proof. unfold generate_trial_points. ssim. Qed.
Lemma k_update trials : sm (update_reference_set E trials) (update_reference_set E trials).
Proof.
  unfold update_reference_set. s1; [s1|]. s1. change (dist_threshold E (ss_waiting s)) with (dist_threshold E s). ssim.
Qed.
Lemma k_best : sm (ss_best_solution E) (ss_best_solution E).
Proof. unfold ss_best_solution. ssim. Qed.
Lemma k_obs f : sm (ss_obs f) (ss_obs f).
Proof. unfold ss_obs. ssim. Qed.
Lemma k_callback : sm (ss_callback E) (ss_callback E).
Proof. unfold ss_callback. ssim. Qed.
Lemma k_run : sm (ss_run E) (ss_run E).
Proof.
  unfold ss_run. s1; [apply k_init|]. s1; [apply k_obs|]. s1; [apply k_callback|]. s1. s1; [apply k_obs|].
  s1; [apply k_callback|]. s1; [apply k_trials|]. s1; [apply k_update|]. s1. s1; [apply k_obs|]. s1; [apply k_callback|].
  s1; [apply k_best|]. ssim.
Qed.
End Search.


(** ** The optimizer *)
(** in the parameters and in the distance filter *)
Definition both (g h : nat) (o : oqnlp) : oqnlp := set_o_df (df_waiting h (o_df o)) (set_o_params (p_waiting g (o_params o)) o).

Section Wait.
Context (E : env) (g h : nat) (T0 : list event).
Notation wai := (both g h).
Definition wals (s t : st) : Prop :=
  p_wait_cycle (o_params (s_o s)) <= g /\ s_o t = wai (s_o s) /\ w_tick (s_w t) = w_tick (s_w s) /\
  d_tick (w_disk (s_w t)) = d_tick (w_disk (s_w s)) /\
  map fst (d_files (w_disk (s_w t))) = map fst (d_files (w_disk (s_w s))) /\
  chores (trace t) = chores (trace s) /\ exists l, trace s = l ++ T0.
Notation sim := (sim wals).
Lemma chores_app l l' : chores (l ++ l') = chores l ++ chores l'. Proof. apply flat_map_app. Qed.
Lemma m_oqnlp : sim (fun o o' => o' = wai o /\ p_wait_cycle (o_params o) <= g) the_oqnlp the_oqnlp.
Proof. intros s t H. pose proof H as H'. destruct H' as (H0 & H1 & _). simpl. auto. Qed.
Lemma m_upd f : (forall o, f (wai o) = wai (f o)) -> (forall o, o_params (f o) = o_params o) -> sim eq (upd f) (upd f).
Proof. intros H G. apply sim_modify. intros s t (H0 & H1 & H2). split; [simpl; rewrite G; exact H0|]. split; [simpl; rewrite H1; apply H|exact H2]. Qed.
Lemma m_obs f : sim eq (obs f) (obs f). Proof. apply m_upd; reflexivity. Qed.
Lemma m_emit l l' : chores (rev l') = chores (rev l) -> sim eq (emit l) (emit l').
Proof.
  intros H. apply sim_modify. intros s t (H0 & H1 & H2 & H3 & H4 & H5 & k & H6). unfold wals, trace in *. simpl.
  rewrite !chores_app, H, H5, H6. repeat (split; [auto|]). exists (rev l ++ k). apply app_assoc.
Qed.
Lemma m_tick : sim eq tick tick.
Proof. intros s t (H0 & H1 & H2 & H3 & H4 & H5). simpl. rewrite H2. split; [reflexivity|]. unfold wals, trace in *. simpl. auto 10. Qed.
Lemma m_of_solver A (r : outcome ls_error A) : sim eq (of_solver r) (of_solver r).
Proof. destruct r as [a|e|]; [apply sim_ret|apply sim_fail|apply sim_panic]; auto. Qed.
Ltac cs1 :=
  match goal with
  | |- SimP.sim _ _ (bind the_oqnlp _) _ => eapply sim_bind; [apply m_oqnlp|]; let o := fresh "o" in let o' := fresh "o'" in intros o o' [-> ?];
      repeat match goal with
      | |- context [should_start_local (wai o)] => change (should_start_local (wai o)) with (should_start_local o)
      | |- context [target_reached E (wai o)] => change (target_reached E (wai o)) with (target_reached E o)
      | |- context [observes1 (wai o)] => change (observes1 (wai o)) with (observes1 o)
      | |- context [observes2 (wai o)] => change (observes2 (wai o)) with (observes2 o)
      end
  | |- SimP.sim _ _ (bind _ _) _ => eapply sim_bind with (V := eq); [|intros ? ? <-]
  | |- SimP.sim _ _ (ret _) _ => apply sim_ret; auto
  | |- SimP.sim _ _ (fail _) _ => apply sim_fail
  | |- SimP.sim _ _ panic _ => apply sim_panic
  | |- SimP.sim _ _ (upd _) _ => apply m_upd; reflexivity
  | |- SimP.sim _ _ (obs _) _ => apply m_obs
  | |- SimP.sim _ _ (emit _) _ => apply m_emit; reflexivity
  | |- SimP.sim _ _ tick _ => apply m_tick
  | |- SimP.sim _ _ (unwrap _) _ => apply sim_unwrap
  | |- SimP.sim _ _ (of_result _) _ => apply sim_of_result; apply vrel_eq
  | |- SimP.sim _ _ (of_solver _) _ => apply m_of_solver
  | |- SimP.sim _ _ (let '(_, _) := ?x in _) _ => destruct x
  | |- SimP.sim _ _ (if ?b then _ else _) (if ?c then _ else _) => change c with b; destruct b
  | |- SimP.sim _ _ (match ?x with _ => _ end) (match ?y with _ => _ end) => change y with x; destruct x
  end.
Ltac cs := repeat cs1.
Lemma m_process sol : sim eq (process_local_solution E sol) (process_local_solution E sol).
Proof. unfold process_local_solution, set_solutions, set_threshold, add_to_filter. cs. Qed.
Lemma m_callback i : sim eq (callback E i) (callback E i).
Proof. unfold callback. cs. Qed.
Lemma m_callback_at i : sim eq (callback_at E i) (callback_at E i).
Proof. unfold callback_at. cs. apply m_callback. Qed.
Lemma m_save_disk cc cp cp' i : sim eq (on_disk (save_checkpoint E cc cp i)) (on_disk (save_checkpoint E cc cp' i)).
Proof.
  intros s t (H0 & H1 & H2 & H3 & H4 & H5 & H6).
  destruct s as [o [[fs k] m tr]], t as [o' [[fs' k'] m' tr']]. cbn [s_o s_w w_tick w_disk d_tick d_files] in *. subst o' m' k'.
  unfold trace in H5, H6. cbn [s_w w_trace] in H5, H6.
  unfold on_disk, save_checkpoint, fs_write, next_io, set_files, bind, modify, fail, ret. simpl.
  destruct (e_io E k); simpl; (split; [reflexivity|]); unfold wals, trace; simpl;
    (split; [exact H0|]); (split; [reflexivity|]); (split; [reflexivity|]); (split; [reflexivity|]); (split; [|split; [exact H5|exact H6]]); try exact H4; apply put_names; exact H4.
Qed.
Lemma m_save_now cc : sim eq (save_now E cc) (save_now E cc).
Proof.
  unfold save_now. eapply sim_bind with (V := fun _ _ => True).
  - unfold create_checkpoint. eapply sim_bind; [apply m_tick|intros ? ? _]. cs1. apply sim_ret. exact I.
  - intros cp cp' _. cs1. eapply sim_bind; [apply m_emit; reflexivity|intros ? ? _]. eapply sim_bind; [apply m_save_disk|intros ? ? _]. cs.
Qed.
Lemma m_maybe_save : sim eq (maybe_save_checkpoint E) (maybe_save_checkpoint E).
Proof. unfold maybe_save_checkpoint. cs; apply m_save_now. Qed.
Lemma m_final : sim eq (maybe_save_final_checkpoint E ;;; final_set) (maybe_save_final_checkpoint E ;;; final_set).
Proof. unfold maybe_save_final_checkpoint, final_set. cs; apply m_save_now. Qed.
Lemma m_begin i u : sim eq (begin_iteration E i u) (begin_iteration E i u).
Proof. unfold begin_iteration. cs. Qed.
Lemma m_obs_iteration i u : sim eq (obs_iteration i u) (obs_iteration i u).
Proof. unfold obs_iteration. cs. Qed.
Lemma m_obs_search a k : sim eq (obs_search a k) (obs_search a k).
Proof. unfold obs_search. cs. Qed.
Lemma m_threshold v : sim eq (set_threshold v) (set_threshold v).
Proof. unfold set_threshold. cs. Qed.
Lemma m_begin2 : sim eq begin_stage2 begin_stage2.
Proof. unfold begin_stage2. cs. Qed.
Ltac cs3 := repeat first [ apply m_process | apply m_callback | apply m_callback_at | apply m_maybe_save
  | apply m_begin | apply m_obs_iteration | apply m_obs_search | apply m_threshold
  | match goal with |- SimP.sim _ _ (let _ := _ in _) _ => cbv zeta end | cs1 ].
Lemma chores_decide o (f : nat * point * f64 -> bool) l :
  chores (rev (map (fun c => EvDecide (fst (fst c)) (snd (fst c)) (snd c) (wai o) (f c)) l)) =
  chores (rev (map (fun c => EvDecide (fst (fst c)) (snd (fst c)) (snd c) o (f c)) l)).
Proof. induction l as [|c l IH]; [reflexivity|]. simpl. rewrite !chores_app, IH. reflexivity. Qed.

(** ** The first relaxation *)
Definition strayed (s t : st) : Prop := exists after v before after', trace s = after ++ EvRelax v :: before ++ T0 /\
  chores (trace t) = after' ++ chores (before ++ T0).
(** [m'] does what [m] does, up to a relaxation of the threshold if there is one *)
Definition cut {A} (m m' : OM A) : Prop := forall s t, wals s t ->
  (vrel eq (fst (m s)) (fst (m' t)) /\ wals (snd (m s)) (snd (m' t))) \/ strayed (snd (m s)) (snd (m' t)).
Lemma cut_sim A (m m' : OM A) : sim eq m m' -> cut m m'.
Proof. intros H s t L. left. exact (H s t L). Qed.
Lemma strayed_left A (m : OM A) s t : FrameP.frame m -> strayed s t -> strayed (snd (m s)) t.
Proof.
  intros Hf (l & x & c & l' & H1 & H2). destruct (grows _ m Hf s) as [new Hn]. exists (new ++ l), x, c, l'.
  rewrite Hn, H1, <- app_assoc. auto.
Qed.
Lemma strayed_right A (m : OM A) s t : FrameP.frame m -> strayed s t -> strayed s (snd (m t)).
Proof.
  intros Hf (l & x & c & l' & H1 & H2). destruct (grows _ m Hf t) as [new Hn]. exists l, x, c, (chores new ++ l').
  rewrite Hn, chores_app, H2, <- app_assoc. auto.
Qed.
Lemma cut_bind_sim A B V (m m' : OM A) (k k' : A -> OM B) : sim V m m' -> (forall a b, V a b -> cut (k a) (k' b)) -> cut (bind m k) (bind m' k').
Proof.
  intros H1 H2 s t L. unfold bind. destruct (H1 s t L) as [G1 G2].
  destruct (m s) as [[a|e|] s1], (m' t) as [[b|e'|] t2]; cbn [fst snd vrel] in *; try contradiction.
  - exact (H2 a b G1 s1 t2 G2).
  - left. split; [exact G1|exact G2].
  - left. split; [exact I|exact G2].
Qed.
Lemma cut_bind A B (m m' : OM A) (k : A -> OM B) : cut m m' -> (forall a, cut (k a) (k a)) -> (forall a, FrameP.frame (k a)) -> cut (bind m k) (bind m' k).
Proof.
  intros H1 H2 Hf s t L. unfold bind. destruct (H1 s t L) as [[G1 G2]|G].
  - destruct (m s) as [[a|e|] s1], (m' t) as [[b|e'|] t2]; cbn [fst snd vrel] in *; try contradiction.
    + subst b. exact (H2 a s1 t2 G2).
    + left. split; [exact G1|exact G2].
    + left. split; [exact I|exact G2].
  - right. destruct (m s) as [[a|e|] s1], (m' t) as [[b|e'|] t2]; cbn [snd] in *;
      repeat first [exact G | apply strayed_left; [apply Hf|] | apply strayed_right; [apply Hf|]].
Qed.
Lemma cut_ret A (a : A) : cut (ret a) (ret a).
Proof. apply cut_sim, sim_ret. reflexivity. Qed.
Ltac fr3 := repeat first [ apply fr_process | apply fr_callback_at | apply fr_callback | apply fr_maybe_save | apply fr_begin | apply fr_obs_iteration
  | apply fr_obs_search | apply fr_count | apply fr_threshold | fr1 ].
Lemma c_count u : cut (count_unchanged u) (count_unchanged u).
Proof.
  unfold count_unchanged. eapply cut_bind_sim; [apply m_oqnlp|]. intros o o' [-> Hw].
  change (p_wait_cycle (o_params (wai o))) with g.
  destruct (p_wait_cycle (o_params o) <=? S u) eqn:H1.
  - intros s t L. right. destruct L as (_ & _ & _ & _ & _ & H5 & l & Hl).
    assert (K : exists new, chores (trace (snd ((if g <=? S u then adjust_threshold ;;; ret 0 else ret (S u)) t))) = new ++ chores (trace t)).
    { destruct (g <=? S u); [eexists [_]; reflexivity|exists []; reflexivity]. }
    destruct K as [new K]. exists [], (relaxed (p_threshold_factor (o_params (s_o s))) (mf_threshold (o_merit (s_o s)))), l, new.
    rewrite <- Hl, <- H5. split; [reflexivity|exact K].
  - apply Nat.leb_gt in H1. assert (H2 : g <=? S u = false) by (apply Nat.leb_gt; lia). rewrite H2. apply cut_ret.
Qed.
Lemma cut_check A (k : bool -> OM A) : (forall b, cut (k b) (k b)) ->
  cut (o <- the_oqnlp ;; b <- unwrap (target_reached E o) ;; k b) (o <- the_oqnlp ;; b <- unwrap (target_reached E o) ;; k b).
Proof.
  intro H. eapply cut_bind_sim; [apply m_oqnlp|]. intros o o' [-> ?]. change (target_reached E (wai o)) with (target_reached E o).
  eapply cut_bind_sim with (V := eq); [|intros b ? <-; apply H].
  intros s t L. destruct (target_reached E o); simpl; auto.
Qed.
Ltac bs := eapply cut_bind_sim with (V := eq); [solve [cs3]|intros ? ? <-].
Ltac bo := eapply cut_bind_sim; [apply m_oqnlp|]; let o := fresh "o" in let o' := fresh "o'" in intros o o' [-> ?].
Lemma c_one objs i p u : cut (process_one_seq E objs i p u) (process_one_seq E objs i p u).
Proof.
  unfold process_one_seq, emit_eval. do 5 bs. bo.
  change (should_start_local (wai o)) with (should_start_local o). cbv zeta.
  eapply cut_bind_sim with (V := eq); [apply m_emit; reflexivity|intros ? ? _].
  apply cut_bind.
  - change (o_solver_type (wai o)) with (o_solver_type o). change (o_solver_config (wai o)) with (o_solver_config o). change (observes2 (wai o)) with (observes2 o).
    destruct (should_start_local o p a2); [|apply cut_bind; [apply c_count|intro; apply cut_ret|intro; fr3]].
    apply cut_sim. cs3.
  - intros [u' [|]]; [apply cut_ret|apply cut_sim; cs3].
  - intros [u' [|]]; fr3.
Qed.
Lemma c_batch_seq start res objs b : forall u, cut (process_batch_sequential E start res objs b u) (process_batch_sequential E start res objs b u).
Proof.
  induction b as [|[i p] b IH]; intros u; simpl; [apply cut_ret|].
  destruct (res && (i <? start)); [apply IH|]. apply cut_bind.
  - apply c_one.
  - intros [u' [|]]; [apply cut_ret|apply IH].
  - intros [u' [|]]; [fr3|apply fr_batch_seq].
Qed.
Lemma c_quicks : forall l u, cut (process_quicks E l u) (process_quicks E l u).
Proof.
  induction l as [|[[i p] v] l IH]; intros u; simpl; [apply cut_ret|]. apply cut_bind; [|intro; apply IH|intro; apply fr_quicks].
  unfold process_quick. bs. apply cut_bind; [apply c_count|intro; apply cut_sim; cs3|intro; fr3].
Qed.
Lemma c_par_result i v x k u : cut (process_par_result E i v x k u) (process_par_result E i v x k u).
Proof.
  unfold process_par_result. repeat bs. 
  apply cut_check. intros [|]; [apply cut_ret|apply cut_sim; cs3].
Qed.
Lemma c_par_results : forall l u, cut (process_par_results E l u) (process_par_results E l u).
Proof.
  induction l as [|[[[i p] v] [x k]] l IH]; intros u; simpl; [apply cut_ret|]. apply cut_bind.
  - apply c_par_result.
  - intros [|]; [apply cut_ret|apply IH].
  - intros [|]; [fr3|apply fr_par_results].
Qed.
Lemma c_single i p v u : cut (process_single E i p v u) (process_single E i p v u).
Proof.
  unfold process_single. do 2 bs. bo. repeat bs. 
  apply cut_check. intros [|]; [apply cut_ret|apply cut_sim; cs3].
Qed.
Lemma c_singles : forall l u, cut (process_singles E l u) (process_singles E l u).
Proof.
  induction l as [|[[i p] v] l IH]; intros u; simpl; [apply cut_ret|]. apply cut_bind.
  - apply c_single.
  - intros [|]; [apply cut_ret|apply IH].
  - intros [|]; [fr3|apply fr_singles].
Qed.
Lemma c_batch_par start res objs b u : cut (process_batch_parallel E start res objs b u) (process_batch_parallel E start res objs b u).
Proof.
  unfold process_batch_parallel. set (fb := if res then _ else _). clearbody fb.
  destruct (match fb with [] => true | _ => false end); [apply cut_ret|].
  do 4 bs. bo. cbv zeta. change (should_start_local (wai o)) with (should_start_local o).
  destruct (partition _ _) as [local quick].
  eapply cut_bind_sim with (V := eq); [apply m_emit, chores_decide|intros ? ? _].
  apply cut_bind; [apply c_quicks| |].
  2: { intro w. fr3; first [apply fr_par_results|apply fr_singles]. }
  intro w. bo. apply cut_bind.
  - change (o_parallel (wai o0)) with (o_parallel o0). destruct ((2 <=? List.length local) && o_parallel o0); [|apply c_singles].
    eapply cut_bind_sim with (V := eq); [apply m_emit; reflexivity|intros ? ? _].
    eapply cut_bind_sim with (V := eq); [apply sim_of_result, vrel_eq|intros rs ? <-]. apply c_par_results.
  - intro. apply cut_ret.
  - intro. fr3.
Qed.
Lemma c_loop size start res objs : forall bs u, cut (stage2_loop E size start res objs bs u) (stage2_loop E size start res objs bs u).
Proof.
  induction bs as [|b bs IH]; intros u; simpl; [apply cut_ret|]. bo. change (o_max_time (wai o)) with (o_max_time o). bs.
  destruct a; [apply cut_ret|]. bs. apply cut_bind.
  - destruct (1 <? size); [apply c_batch_par|apply c_batch_seq].
  - intro u'. apply cut_check. intros [|]; [apply cut_ret|apply IH].
  - intro u'. fr3. apply fr_loop.
Qed.
Lemma fr_end : FrameP.frame (maybe_save_final_checkpoint E ;;; final_set).
Proof. apply fr_bind; [apply fr_final_save|intro]. unfold final_set. repeat fr1. Qed.
Lemma c_stage2 res refs objs u : cut (stage2_run E res refs objs u) (stage2_run E res refs objs u).
Proof.
  unfold stage2_run. eapply cut_bind_sim with (V := eq); [apply m_begin2|intros ? ? _]. bo.
  change (p_iterations (o_params (wai o))) with (p_iterations (o_params o)). change (p_seed (o_params (wai o))) with (p_seed (o_params o)). change (o_iteration (wai o)) with (o_iteration o). bs. cbv zeta.
  set (start := if res then o_iteration o else 0). clearbody start.
  change (batch_size E (wai o) start) with (batch_size E o start).
  apply cut_bind.
  - destruct (batch_size E o start =? 0); [apply cut_sim, sim_panic|apply c_loop].
  - intros _. apply cut_sim, m_final.
  - intros _. apply fr_end.
Qed.
Definition resumed_run : OM solset :=
  o <- the_oqnlp ;; stage2_run E true (match o_ref o with Some r => r | None => [] end) None (o_unchanged o).
Lemma c_resumed : cut resumed_run resumed_run.
Proof. unfold resumed_run. bo. change (o_ref (wai o)) with (o_ref o). change (o_unchanged (wai o)) with (o_unchanged o). apply c_stage2. Qed.
Lemma c_stage1 : cut (stage1_run E) (stage1_run E).
Proof.
  unfold stage1_run. bo. eapply cut_bind_sim with (V := eq); [apply m_tick|intros a ? <-].
  change (observes1 (wai o)) with (observes1 o).
  assert (I : match stage1_init E o a, stage1_init E (wai o) a with
    | Ok x, Ok y => y = ss_waiting g x | Err e, Err e' => e' = e | Panic, Panic => True | _, _ => False end).
  { unfold stage1_init, ss_new. cbn [both p_waiting set_o_df set_o_params o_params p_seed o_parallel o_custom].
    change (observes1 (wai o)) with (observes1 o).
    destruct (bad_bound 0 _); [reflexivity|]. destruct (o_custom o), (observes1 o); reflexivity. }
  destruct (stage1_init E o a) as [x|e|], (stage1_init E (wai o) a) as [y|e'|]; try contradiction; [|subst; apply cut_sim; cs3..].
  destruct (k_run E g x y I) as [K1 K2]. unfold waits in K2. destruct (ss_run E x) as [r1 x1], (ss_run E y) as [r2 y1].
  cbn [fst snd] in K1, K2. apply vrel_eq_inv in K1. subst r2 y1. cbn [ss_waiting ss_observer ss_log].
  do 2 bs. destruct r1 as [[pts cand]|e|]; [|apply cut_sim, sim_fail|apply cut_sim, sim_panic]. cbv zeta.
  do 2 bs. eapply cut_bind_sim with (V := eq); [unfold stage1_enter; solve [cs3]|intros ? ? _]. bo.
  repeat bs.
  apply cut_check. intros [|]; apply cut_sim; unfold end_stage1, stage1_enter; cs3.
Qed.
Definition fresh_run : OM solset :=
  r <- stage1_run E ;; match r with None => final_set | Some (refs, objs) => stage2_run E false refs (Some objs) 0 end.
Lemma c_run : cut fresh_run fresh_run.
Proof.
  unfold fresh_run. apply cut_bind.
  - apply c_stage1.
  - intros [[refs objs]|]; [apply c_stage2|]. apply cut_sim. unfold final_set. cs.
  - intros [[refs objs]|]; [apply fr_stage2|]. unfold final_set. fr3.
Qed.
End Wait.

(** the first step: a program that resumes takes the value in the parameters from the checkpoint *)
Lemma resume_both E g s : let x := try_resume_from_checkpoint E s in let y := try_resume_from_checkpoint E (waiting_state g s) in
  fst y = fst x /\ trace (snd x) = trace s /\
  ((fst x = Ok true /\ snd y = mk_st (both (p_wait_cycle (o_params (s_o (snd x)))) g (s_o (snd x))) (s_w (snd x))) \/
   (fst x <> Ok true /\ snd y = waiting_state g (snd x) /\ s_o (snd x) = s_o s)).
Proof.
  cbv zeta. unfold try_resume_from_checkpoint, restore_from_checkpoint, upd, modify, on_disk, bind, the_oqnlp, get, ret, bind.
  cbn [fst snd s_o s_w waiting_state]. change (o_cp (waiting g (s_o s))) with (o_cp (s_o s)).
  destruct (o_cp (s_o s)) as [c|]; cbn [fst snd]; [|split; [reflexivity|split; [reflexivity|right; split; [discriminate|split; reflexivity]]]].
  destruct (cc_auto_resume c); cbn [fst snd]; [|split; [reflexivity|split; [reflexivity|right; split; [discriminate|split; reflexivity]]]].
  change (w_disk (s_w (waiting_state g s))) with (w_disk (s_w s)).
  destruct (checkpoint_exists E c (w_disk (s_w s))) as [[[|]|e|] d]; cbn [fst snd s_o s_w w_disk];
    try (split; [reflexivity|split; [reflexivity|right; split; [discriminate|split; reflexivity]]]).
  destruct (load_latest E c d) as [[cp|e|] d2]; cbn [fst snd s_o s_w w_disk];
    try (split; [reflexivity|split; [reflexivity|right; split; [discriminate|split; reflexivity]]]).
  split; [reflexivity|]. split; [reflexivity|]. left. split; [reflexivity|]. destruct cp as [[]]. reflexivity.
Qed.
Theorem c112_until : forall E g s rA sA na rB sB nb,
  run E s = (rA, sA) -> recorded s sA na -> run E (waiting_state g s) = (rB, sB) -> recorded (waiting_state g s) sB nb ->
  p_wait_cycle (o_params (s_o s)) <= g ->
  (rB = rA /\ chores nb = chores na) \/
  (exists after v before after', na = after ++ EvRelax v :: before /\ chores nb = after' ++ chores before).
Proof.
  intros E g s rA sA na rB sB nb Ha Na Hb Nb Hw.
  unfold recorded in Na, Nb. change (w_trace (s_w (waiting_state g s))) with (w_trace (s_w s)) in Nb.
  assert (Same : rB = rA -> chores (w_trace (s_w sB)) = chores (w_trace (s_w sA)) -> rB = rA /\ chores nb = chores na).
  { intros H1 H2. rewrite Na, Nb, !chores_app in H2. apply app_inv_tail in H2. auto. }
  assert (Cut : forall g', (vrel eq rA rB /\ wals g' g (trace s) sA sB) \/ strayed (trace s) sA sB -> (rB = rA /\ chores nb = chores na) \/
    (exists after v before after', na = after ++ EvRelax v :: before /\ chores nb = after' ++ chores before)).
  { intros g' G. destruct G as [[G1 G2]|(l & z & c & l' & G1 & G2)].
    - left. destruct G2 as (_ & _ & _ & _ & _ & G2 & _). apply Same; [apply vrel_eq_inv in G1; auto|exact G2].
    - right. unfold trace in G1, G2. rewrite Na in G1. rewrite Nb, !chores_app, app_assoc in G2. apply app_inv_tail in G2.
      rewrite app_comm_cons, app_assoc in G1. apply app_inv_tail in G1. exists l, z, c, l'. auto. }
  pose proof (resume_both E g s) as X. cbv zeta in X. unfold run in Ha, Hb. unfold bind at 1 in Ha. unfold bind at 1 in Hb.
  destruct (try_resume_from_checkpoint E s) as [x s1], (try_resume_from_checkpoint E (waiting_state g s)) as [y s2].
  cbn [fst snd] in X. destruct X as (-> & X1 & X2). destruct x as [[|]|e|].
  - destruct X2 as [[_ ->]|[X2 _]]; [|contradiction X2; reflexivity]. set (g' := p_wait_cycle (o_params (s_o s1))) in *. apply (Cut g').
    assert (L : wals g' g (trace s) s1 (mk_st (both g' g (s_o s1)) (s_w s1))).
    { unfold wals. split; [unfold g'; apply le_n|]. repeat (split; [reflexivity|]). exists []. exact X1. }
    pose proof (c_resumed E g' g (trace s) _ _ L) as G. unfold resumed_run in G. rewrite Ha, Hb in G. exact G.
  - destruct X2 as [[X2 _]|(_ & -> & X2)]; [discriminate|]. apply (Cut g).
    assert (L : wals g g (trace s) s1 (waiting_state g s1)).
    { unfold wals. split; [rewrite X2; exact Hw|]. repeat (split; [reflexivity|]). exists []. exact X1. }
    pose proof (c_run E g g (trace s) _ _ L) as G. unfold fresh_run in G. rewrite Ha, Hb in G. exact G.
  - left. destruct X2 as [[X2 _]|(_ & -> & X2)]; [discriminate|]. injection Ha as <- <-. injection Hb as <- <-. apply Same; reflexivity.
  - left. destruct X2 as [[X2 _]|(_ & -> & X2)]; [discriminate|]. injection Ha as <- <-. injection Hb as <- <-. apply Same; reflexivity.
Qed.
Theorem c112_same : forall E g s rA sA na rB sB nb,
  run E s = (rA, sA) -> recorded s sA na -> run E (waiting_state g s) = (rB, sB) -> recorded (waiting_state g s) sB nb ->
  p_wait_cycle (o_params (s_o s)) <= g ->
  (forall v, ~ In (EvRelax v) na) -> rB = rA /\ chores nb = chores na.
Proof.
  intros E g s rA sA na rB sB nb Ha Na Hb Nb Hw Hres.
  destruct (c112_until E g s rA sA na rB sB nb Ha Na Hb Nb Hw) as [H|(l & v & c & l' & H1 & _)]; [exact H|].
  contradiction (Hres v). rewrite H1. apply in_or_app. right. left. reflexivity.
Qed.

(** * Which local solver a run uses (C101) *)
From Coq Require Import ZArith NArith List Bool Arith Lia String.
From Verif Require Import F64 Base Builders Types Filters Runner Observer Env EnvSpec ScatterSearch Codec Checkpoint
  Oqnlp Spec SpecStage1 SpecStage2 SpecObserver SpecCheckpoint SpecPanic SpecSession SpecErrors SpecSolved
  Wp Actions RunP SetP FrameP CheckpointP ResumeP NoPanicP SessionP ErrorsP.
Import ListNotations.
Local Open Scope monad_scope.

(** ** No call reads what was recorded before *)
Definition with_past (tr : list event) (s : st) : st :=
  mk_st (s_o s) (mk_world (w_disk (s_w s)) (w_tick (s_w s)) (w_trace (s_w s) ++ tr)).
Section Past.
Context (tr : list event).
Definition past {A} (m : OM A) : Prop := forall s, m (with_past tr s) = (fst (m s), with_past tr (snd (m s))).
Lemma p_bind A B (m : OM A) (k : A -> OM B) : past m -> (forall a, past (k a)) -> past (bind m k).
Proof. intros H K s. unfold bind. rewrite H. destruct (m s) as [[a|e|] s1]; cbn [fst snd]; [apply K|reflexivity|reflexivity]. Qed.
Lemma p_ret A (a : A) : past (ret a). Proof. intros s. reflexivity. Qed.
Lemma p_panic A : past (@panic st oq_error A). Proof. intros s. reflexivity. Qed.
Lemma p_fail A e : past (@fail st oq_error A e). Proof. intros s. reflexivity. Qed.
Lemma p_oqnlp : past the_oqnlp. Proof. intros s. reflexivity. Qed.
Lemma p_upd f : past (upd f). Proof. intros s. reflexivity. Qed.
Lemma p_obs f : past (obs f). Proof. intros s. reflexivity. Qed.
Lemma p_tick : past tick. Proof. intros s. reflexivity. Qed.
Lemma p_emit l : past (emit l).
Proof. intros s. unfold emit, modify, with_past. cbn. rewrite <- app_assoc. reflexivity. Qed.
Lemma p_result A (r : outcome oq_error A) : past (of_result r). Proof. intros s. reflexivity. Qed.
Lemma p_unwrap A (o : option A) : past (unwrap o). Proof. destruct o; [apply p_ret|apply p_panic]. Qed.
Lemma p_solver A (r : outcome ls_error A) : past (of_solver r). Proof. destruct r; [apply p_ret|apply p_fail|apply p_panic]. Qed.
Lemma p_disk A (m : M disk cp_error A) : past (on_disk m).
Proof. intros s. unfold on_disk, with_past. cbn. destruct (m (w_disk (s_w s))) as [[a|e|] d]; reflexivity. Qed.
Ltac pa1 :=
  match goal with
  | |- past (bind _ _) => apply p_bind; [|intro]
  | |- past (ret _) => apply p_ret
  | |- past panic => apply p_panic
  | |- past (fail _) => apply p_fail
  | |- past the_oqnlp => apply p_oqnlp
  | |- past (upd _) => apply p_upd
  | |- past (obs _) => apply p_obs
  | |- past (emit _) => apply p_emit
  | |- past tick => apply p_tick
  | |- past (unwrap _) => apply p_unwrap
  | |- past (of_result _) => apply p_result
  | |- past (of_solver _) => apply p_solver
  | |- past (on_disk _) => apply p_disk
  | |- past (let '(_, _) := ?x in _) => destruct x
  | |- past (if ?b then _ else _) => destruct b
  | |- past (match ?x with _ => _ end) => destruct x
  end.
Ltac pa := repeat pa1.
Context (E : env).
Lemma p_callback i : past (callback E i).
Proof. unfold callback. pa. Qed.
Lemma p_callback_at i : past (callback_at E i).
Proof. unfold callback_at. pa. apply p_callback. Qed.
Lemma p_save_now c : past (save_now E c).
Proof. unfold save_now, create_checkpoint. pa. Qed.
Lemma p_maybe_save : past (maybe_save_checkpoint E).
Proof. unfold maybe_save_checkpoint. pa. apply p_save_now. Qed.
Lemma p_final_save : past (maybe_save_final_checkpoint E).
Proof. unfold maybe_save_final_checkpoint. pa. apply p_save_now. Qed.
Lemma p_process x : past (process_local_solution E x).
Proof. unfold process_local_solution, set_solutions, set_threshold, add_to_filter. pa. Qed.
Lemma p_begin i u : past (begin_iteration E i u).
Proof. unfold begin_iteration. pa. Qed.
Lemma p_obs_iteration i u : past (obs_iteration i u).
Proof. unfold obs_iteration. pa. Qed.
Lemma p_obs_search a n : past (obs_search a n).
Proof. unfold obs_search. pa. Qed.
Lemma p_count u : past (count_unchanged u).
Proof. unfold count_unchanged, adjust_threshold, set_threshold. pa. Qed.
Lemma p_one objs i p u : past (process_one_seq E objs i p u).
Proof.
  unfold process_one_seq, emit_eval, set_threshold. pa;
    auto using p_begin, p_obs_iteration, p_process, p_obs_search, p_count, p_callback_at, p_maybe_save.
Qed.
Lemma p_seq start res objs b : forall u, past (process_batch_sequential E start res objs b u).
Proof.
  induction b as [|[i p] b IH]; intros u; cbn [process_batch_sequential]; [apply p_ret|].
  destruct (res && (i <? start)); [apply IH|]. pa; auto using p_one.
Qed.
Lemma p_quicks l : forall u, past (process_quicks E l u).
Proof.
  induction l as [|[[i p] v] l IH]; intros u; cbn [process_quicks]; [apply p_ret|]. apply p_bind; [|intro; apply IH].
  unfold process_quick. pa; auto using p_begin, p_obs_iteration, p_count, p_callback_at, p_maybe_save.
Qed.
Lemma p_par_results l : forall u, past (process_par_results E l u).
Proof.
  induction l as [|[[[i p] v] [x n]] l IH]; intros u; cbn [process_par_results]; [apply p_ret|]. apply p_bind; [|intro; destruct a; [apply p_ret|apply IH]].
  unfold process_par_result, set_threshold. pa; auto using p_begin, p_obs_iteration, p_process, p_obs_search, p_callback_at, p_maybe_save.
Qed.
Lemma p_singles l : forall u, past (process_singles E l u).
Proof.
  induction l as [|[[i p] v] l IH]; intros u; cbn [process_singles]; [apply p_ret|]. apply p_bind; [|intro; destruct a; [apply p_ret|apply IH]].
  unfold process_single, set_threshold. pa; auto using p_begin, p_obs_iteration, p_process, p_obs_search, p_callback, p_maybe_save.
Qed.
Lemma p_par start res objs b u : past (process_batch_parallel E start res objs b u).
Proof.
  unfold process_batch_parallel. pa; auto using p_quicks, p_par_results, p_singles.
Qed.
Lemma p_loop size start res objs bs : forall u, past (stage2_loop E size start res objs bs u).
Proof.
  induction bs as [|b bs IH]; intros u; cbn [stage2_loop]; [apply p_ret|]. pa; auto using p_par, p_seq.
Qed.
Lemma p_stage2 res refs objs u : past (stage2_run E res refs objs u).
Proof.
  unfold stage2_run, begin_stage2, final_set. pa; auto using p_loop, p_final_save.
Qed.
Lemma p_stage1 : past (stage1_run E).
Proof.
  unfold stage1_run, end_stage1, stage1_enter, set_threshold. pa; auto using p_callback, p_process.
Qed.
Lemma p_run : past (run E).
Proof.
  unfold run, try_resume_from_checkpoint, restore_from_checkpoint, final_set. pa; auto using p_stage1, p_stage2.
Qed.
End Past.
(** so each run can be looked at as the first one *)
Definition no_past (s : st) : st := mk_st (s_o s) (mk_world (w_disk (s_w s)) (w_tick (s_w s)) []).
Lemma run_alone E s r s' new : run E s = (r, s') -> recorded s s' new -> run E (no_past s) = (r, mk_st (s_o s') (mk_world (w_disk (s_w s')) (w_tick (s_w s')) new)).
Proof.
  intros H Hn. pose proof (p_run (w_trace (s_w s)) E (no_past s)) as P.
  assert (X : with_past (w_trace (s_w s)) (no_past s) = s) by (destruct s as [o [d t l]]; reflexivity). rewrite X, H in P.
  destruct (run E (no_past s)) as [r1 s1]. cbn [fst snd] in P. injection P as <- Hs. unfold with_past in Hs.
  destruct s' as [o' [d' t' l']], s1 as [o1 [d1 t1 l1]]. cbn in *. unfold recorded in Hn. cbn in Hn. injection Hs as <- <- <- Hs.
  f_equal. f_equal. f_equal. apply (app_inv_tail (w_trace (s_w s))). congruence.
Qed.

(** ** Every result belongs to a search of the same run *)
Definition matched (E : env) (s : st) : Prop := forall x, In (EvResult x) (trace s) ->
  exists it p, In (EvSearch it p) (trace s) /\ solver_result E (s_o s) p x.
Lemma result_config E o o' p x : same_config o o' -> solver_result E o p x -> solver_result E o' p x.
Proof.
  intros (H1 & H2 & H3 & _) (ty & cfg & tr & n & H & G). exists ty, cfg, tr, n. split; [exact H|]. rewrite H1, H2, H3. exact G.
Qed.
Lemma matched_act E K objs s s' : act E K objs s s' -> matched E s -> matched E s'.
Proof.
  intros A M x Hx. pose proof (act_config _ _ _ _ _ A) as Hc. pose proof (act_trace _ _ _ _ _ A) as [new Ht].
  assert (Old : In (EvResult x) (trace s) -> exists it p, In (EvSearch it p) (trace s') /\ solver_result E (s_o s') p x).
  { intros Hi. destruct (M x Hi) as (it & p & H1 & H2). exists it, p. split; [rewrite Ht; apply in_or_app; auto|eapply result_config; eauto]. }
  destruct A; try (apply Old; exact Hx); try (destruct Hx as [Hx|Hx]; [subst; discriminate|apply Old; exact Hx]).
  destruct (pls_set E sol s) as (nw & Hw & _ & G & _); cbv zeta in *. rewrite Hw in Hx. apply in_app_or in Hx as [Hx|Hx]; [|apply Old; exact Hx].
  rewrite (G x Hx) in *. exists it, p. split; [rewrite Hw; apply in_or_app; auto|eapply result_config; eauto].
Qed.
Lemma matched_acts E K objs s s' : acts E K objs s s' -> matched E s -> matched E s'.
Proof. intros A. induction A as [s|s s1 s' H _ IH]; auto. intros X. apply IH. eapply matched_act; eauto. Qed.
Lemma run_matched E s r s' : trace s = [] -> run E s = (r, s') -> matched E s'.
Proof.
  intros Hs H. destruct (run_acts E s r s' H) as [Hsh _].
  assert (St : forall b s1, run_start E s b s1 -> matched E s1).
  { intros b s1 R x Hx. assert (Ht : trace s1 = trace s) by (inversion R; subst; reflexivity). rewrite Ht, Hs in Hx. destruct Hx. }
  destruct Hsh as [dd Hd -> _ | s1 Hs1 Ha | s1 s2 refs objs Hs1 _ Ha1 Ha2 | s1 refs Hs1 _ Ha].
  - intros x Hx. change (In (EvResult x) (trace s)) in Hx. rewrite Hs in Hx. destruct Hx.
  - eauto using matched_acts.
  - eauto using matched_acts.
  - eauto using matched_acts.
Qed.
Lemma run_results E s r s' new x : run E s = (r, s') -> recorded s s' new -> In (EvResult x) new ->
  exists it p, In (EvSearch it p) new /\ local_result E (s_o s') p x.
Proof.
  intros H Hn Hx. pose proof (run_alone E s r s' new H Hn) as R. apply run_matched in R; [|reflexivity].
  destruct (R x Hx) as (it & p & H1 & ty & cfg & tr & n & H2 & H3). exists it, p. split; [exact H1|].
  exists ty, cfg. split; [eapply solve_tracked_solve; eauto|exact H3].
Qed.

(** ** Sessions that only name solvers with the property [Q] *)
Section Named.
Context (Q : solver_type -> solver_config -> Prop).
Definition named_p (p : params) : Prop := Q (p_solver_type p) (p_solver_config p).
Definition named (o : oqnlp) : Prop := Q (o_solver_type o) (o_solver_config o) /\ named_p (o_params o).
Definition named_cp (cp : checkpoint) : Prop := named_p (cp_params cp).
Definition named_call (ec : env * call) : Prop :=
  match snd ec with CNew p | CResumeWith p | CResumeFile _ p => named_p p | _ => True end.
Definition named_st (s : st) : Prop :=
  named (s_o s) /\ (forall f cp, In (EvSave f cp) (w_trace (s_w s)) -> named_cp cp) /\ (saves_fit s -> checkpoints_hold named_cp s).
Lemma named_config o o' : same_config o o' -> named o -> named o'.
Proof. intros (H1 & H2 & H3 & _) (G1 & G2). unfold named. rewrite H1, H2, H3. auto. Qed.
Lemma named_act E K objs s s' : act E K objs s s' -> named_st s -> named_st s'.
Proof.
  intros A (G1 & G2 & G3). pose proof (act_config _ _ _ _ _ A) as Hc. pose proof (act_trace _ _ _ _ _ A) as [new Ht].
  assert (Fit0 : saves_fit s' -> saves_fit s) by (intros F f cp I'; eapply (fit_back s' new); eauto).
  split; [eapply named_config; eauto|].
  destruct A; try (split; [exact G2|intros F; exact (G3 (Fit0 F))]);
    try (split; [intros f cp [I'|I']; [discriminate I'|eapply G2; exact I']|intros F; exact (G3 (Fit0 F))]).
  - split; [intros f cp [I'|I']; [subst e; discriminate|eapply G2; exact I']|intros F; exact (G3 (Fit0 F))].
  - split; [intros f cp I'; eapply G2; eapply pls_saves; exact I'|]. intros F f b cp I'. rewrite pls_disk in I'. apply (G3 (Fit0 F) f b cp I').
  - split; [|intros F; exact (G3 (Fit0 F))]. intros f0 cp0 [I'|I']; [|eapply G2; exact I']. inversion I'; subst.
    destruct H as (S1 & _). unfold named_cp. rewrite S1. apply G1.
  - split; [exact G2|]. intros F f b cp0 I' Dec. simpl in I'. pose proof (G3 (Fit0 F)) as K0. subst d.
    destruct (save_files E c cp i (w_disk (s_w s))) as [Sf|[k Sf]]; rewrite Sf in I'; [apply (K0 f b cp0 I' Dec)|].
    unfold put_file in I'. apply in_app_or in I' as [I'|[I'|[]]].
    + unfold remove_file in I'. apply filter_In in I' as [I' _]. apply (K0 f b cp0 I' Dec).
    + inversion I'; subst. destruct (torn cp k (F _ _ H)) as [X|X]; rewrite X in Dec; inversion Dec; subst. eapply G2; eauto.
  - split; [exact G2|]. intros F f b cp I'. simpl in I'. rewrite H in I'. apply (G3 (Fit0 F) f b cp I').
Qed.
Lemma named_acts E K objs s s' : acts E K objs s s' -> named_st s -> named_st s'.
Proof. intros A. induction A as [s|s s1 s' H _ IH]; auto. intros X. apply IH. eapply named_act; eauto. Qed.
Lemma named_from s (f : checkpoint -> checkpoint -> Prop) s' :
  (forall cp cp', named_cp cp -> f cp cp' -> named_cp cp') -> named_st s -> calm s s' -> from_file s f (s_o s') -> saves_fit s' -> named_st s'.
Proof.
  intros Hf (G1 & G2 & G3) Hc Hfile Fit. split; [|split].
  - destruct Hfile as [->|(n & b & cp & cp' & I1 & I2 & I3 & ->)]; [exact G1|]. split; [apply G1|].
    apply (Hf cp cp'); [|exact I3]. eapply (G3 (calm_fit _ _ Hc Fit)); eauto.
  - intros g cp I'. destruct Hc as [_ (new & Ht & Hn)]. rewrite Ht in I'. apply in_app_or in I' as [I'|I']; [destruct (Hn _ _ I')|eauto].
  - exact (calm_disk _ _ _ Hc G3).
Qed.
Lemma named_start E s b s1 : run_start E s b s1 -> saves_fit s1 -> named_st s -> named_st s1.
Proof.
  intros R F X. assert (C : calm s s1).
  { inversion R; subst; (split; [assumption|exists []; split; [reflexivity|intros ? ? []]]). }
  apply (named_from s eq s1); auto; [intros cp cp' K <-; exact K|]. destruct b.
  - destruct (run_start_file _ _ _ R) as (n & c & cp & H1 & H2 & H3). right. exists n, c, cp, cp. auto.
  - left. eapply run_start_fresh; eauto.
Qed.
Lemma named_run E s r s' : run E s = (r, s') -> saves_fit s' -> named_st s -> named_st s'.
Proof.
  intros H F X. destruct (run_acts E s r s' H) as [Hsh _].
  assert (Back : forall K objs a b, acts E K objs a b -> saves_fit b -> saves_fit a).
  { intros K objs a b A Fb f cp I'. destruct (acts_trace _ _ _ _ _ A) as [new Ht]. eapply (fit_back b new); eauto. }
  destruct Hsh as [dd Hd -> _ | s1 Hs1 Ha | s1 s2 refs objs Hs1 _ Ha1 Ha2 | s1 refs Hs1 _ Ha].
  - destruct X as (G1 & G2 & G3). split; [exact G1|]. split; [exact G2|]. intros F' f b cp I'. simpl in I'. rewrite Hd in I'. apply (G3 F' f b cp I').
  - eapply named_acts; [eassumption|]. eapply named_start; eauto.
  - eapply named_acts; [eassumption|]. eapply named_acts; [eassumption|]. eapply named_start; eauto.
  - eapply named_acts; [eassumption|]. eapply named_start; eauto.
Qed.
Lemma named_change np cp cp' : named_p np -> named_cp cp -> changed_to np cp cp' -> named_cp cp'.
Proof. intros H _ [refs ->]. exact H. Qed.
Lemma named_files s s' : s_o s' = s_o s -> w_trace (s_w s') = w_trace (s_w s) ->
  (forall f b cp, In (f, b) (d_files (w_disk (s_w s'))) -> decode_checkpoint b = Some cp -> exists g, In (g, b) (d_files (w_disk (s_w s)))) ->
  named_st s -> named_st s'.
Proof.
  intros H1 H2 H3 (G1 & G2 & G3). split; [rewrite H1; exact G1|]. split; [rewrite H2; exact G2|].
  intros F f b cp I1 I2. destruct (H3 f b cp I1 I2) as [g I3]. eapply G3; eauto. intros f' cp' I4. apply (F f' cp'). congruence.
Qed.
Lemma named_fresh p o : oq_new p = Ok o -> named_p p -> named o.
Proof.
  intros H Ha. unfold oq_new in H. repeat match type of H with (if ?b then _ else _) = _ => destruct b; [discriminate|] end.
  destruct (df_new _) as [df|v]; [|discriminate]. inversion H; subst. split; exact Ha.
Qed.
Lemma named_step E c s s' : does E c s s' -> named_call (E, c) -> saves_fit s' -> named_st s -> named_st s'.
Proof.
  intros D T2 Fit X. unfold named_call in T2. destruct D as [p o s H|ob s|t s|n s|b s|t s|b s|a r s|l o s H|c s r s' H|s r s' H|s r s' H|np s r s' H|f np s r s' H|c n s r s' H|f b s H|f s];
    simpl in T2; try exact X.
  - destruct X as [_ X]. split; [eapply named_fresh; eauto|exact X].
  - unfold with_points in H. destruct (check_points (pb_bounds (e_problem E)) 0 l) as [[]|e|] eqn:Hp; try discriminate.
    inversion H; subst. exact X.
  - apply checkpointing_effect in H as [Hc Ho]. destruct X as (G1 & G2 & G3). split; [destruct Ho as [->| ->]; exact G1|].
    split; [|exact (calm_disk _ _ _ Hc G3)]. intros g cp I'. destruct Hc as [_ (new & Ht & Hn)]. rewrite Ht in I'.
    apply in_app_or in I' as [I'|I']; [destruct (Hn _ _ I')|eauto].
  - eapply named_run; eauto.
  - apply try_effect in H as [H1 H2]. eapply named_from; eauto. intros cp cp' K <-. exact K.
  - apply modified_effect in H as [H1 H2]. eapply named_from; eauto. intros cp cp' K. apply named_change; assumption.
  - apply file_effect in H as [H1 H2]. eapply named_from; eauto. intros cp cp' K. apply named_change; assumption.
  - apply cleanup_effect in H as (H1 & H2 & H3). eapply named_files; eauto.
  - eapply (named_files s); [reflexivity|reflexivity| |exact X]. simpl. intros f' b' cp I1 I2.
    unfold put_file in I1. apply in_app_or in I1 as [I1|[I1|[]]]; [|inversion I1; subst; congruence].
    unfold remove_file in I1. apply filter_In in I1 as [I1 _]. eauto.
  - eapply (named_files s); [reflexivity|reflexivity| |exact X]. simpl. intros f' b' cp I1 I2.
    unfold remove_file in I1. apply filter_In in I1 as [I1 _]. eauto.
Qed.
Lemma session_named p l s0 s : begins p s0 -> named_p p -> session l s0 s -> Forall named_call l -> saves_fit s -> named_st s.
Proof.
  intros (B1 & B2 & B3) Hd Hs Hl Fit. induction Hs as [s|l E c s s1 s2 Hs IH D].
  - split; [eapply named_fresh; eauto|]. split; [rewrite B2; intros f cp []|]. intros _ f b cp I1 I2. destruct (B3 f b cp I1 I2).
  - inversion Hl; subst. eapply named_step; eauto. apply IH; auto. eapply does_fit; eauto.
Qed.
End Named.
Definition just (ty : solver_type) (cfg : solver_config) : solver_type -> solver_config -> Prop := fun t c => t = ty /\ c = cfg.
Lemma named_explains ty cfg E s r s' new : env_ok E -> run E s = (r, s') -> recorded s s' new -> named (just ty cfg) (s_o s') -> explains E ty cfg r new.
Proof.
  intros HE H Hn ((N1 & N2) & N3 & N4).
  assert (L : forall p x, local_result E (s_o s') p x -> solve (e_ext E) (e_problem E) ty cfg p = Ok x).
  { intros p x (t & c & H1 & [[-> ->]|[-> ->]]); congruence. }
  split; [|split].
  - intros x Hx. destruct (run_results E s r s' new x H Hn Hx) as (it & p & H1 & H2). exists it, p. auto.
  - intros e ->. destruct (run_errors E s _ s' HE H) as (new' & T & G & _).
    assert (new' = new) as -> by (apply (app_inv_tail (w_trace (s_w s))); rewrite <- Hn; symmetry; exact T).
    destruct (G _ eq_refl) as (it & p & H1 & t & c & H2 & H3). exists it, p. split; [exact H1|]. destruct H3 as [[-> ->]|[-> ->]]; congruence.
  - intros a it p -> Hp. destruct (run_errors E s _ s' HE H) as (new' & T & _ & G).
    assert (new' = new) as -> by (apply (app_inv_tail (w_trace (s_w s))); rewrite <- Hn; symmetry; exact T).
    destruct (G a eq_refl) as [F _]. rewrite Forall_forall in F. destruct (F _ Hp) as [x Hx]. eauto.
Qed.
Theorem c101 : forall ty cfg p l s0 s E r s' new, begins p s0 -> names ty cfg p -> session l s0 s -> Forall (keeps_solver ty cfg) l ->
  env_ok E -> run E s = (r, s') -> recorded s s' new -> saves_fit s' -> explains E ty cfg r new.
Proof.
  intros ty cfg p l s0 s E r s' new B Hp Hs Hl HE H Hn F. apply (named_explains ty cfg E s r s' new HE H Hn).
  refine (proj1 (session_named (just ty cfg) p ((E, CRun) :: l) s0 s' B Hp (SStep l E CRun s0 s s' Hs (DRun E s _ s' H)) _ F)).
  constructor; [exact I|exact Hl].
Qed.

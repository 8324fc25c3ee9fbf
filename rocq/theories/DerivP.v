(** * Derivatives are used by the solvers that need them only (C102) *)
From Coq Require Import ZArith NArith List Bool Arith Lia String.
From Verif Require Import F64 Base Builders Types Filters Runner Observer Env EnvSpec ScatterSearch Codec Checkpoint
  Oqnlp Spec SpecStage1 SpecStage2 SpecObserver SpecCheckpoint SpecPanic SpecSession SpecSolved SpecDeriv
  Wp Actions RunP SessionP SolvedP.
Import ListNotations.
Local Open Scope monad_scope.

Lemma bind_ext : forall S X A B (m m' : M S X A) (k k' : A -> M S X B) s,
  m s = m' s -> (forall a s1, k a s1 = k' a s1) -> bind m k s = bind m' k' s.
Proof. intros S X A B m m' k k' s H1 H2. unfold bind. rewrite H1. destruct (m' s) as [[a|e|] s1]; auto. Qed.

(** ** One local search *)
Section Solver.
Context (X : ext) (P : problem) (g : point -> point + N) (h : point -> list point + N).
Context (A : asks_only X).
Let P' := with_derivatives g h P.
Lemma exec_same track j : (uses_gradient (job_type j) = true -> g = pb_gradient P) -> (uses_hessian (job_type j) = true -> h = pb_hessian P) ->
  exec X P' track j = exec X P track j.
Proof. intros H1 H2. unfold exec, P'. rewrite A; auto. Qed.
Lemma step_same B (mk : reason -> ls_error) c (k k' : outcome ls_error B) : k = k' -> step X mk c k = step X mk c k'.
Proof. intros ->. reflexivity. Qed.
Lemma bounds2_same B b (k k' : f64 -> f64 -> outcome ls_error B) : (forall x y, k x y = k' x y) -> bounds2 b k = bounds2 b k'.
Proof. intros H. destruct b as [|x [|y b]]; cbn; auto. Qed.
Lemma build_same B mk l (k k' : ls_job -> outcome ls_error B) : (forall j, k j = k' j) -> build_ls X mk l k = build_ls X mk l k'.
Proof.
  intros H. destruct l; cbn; repeat (apply step_same || apply bounds2_same || intro || apply H).
Qed.
Lemma solver_same ty cfg x track : (uses_gradient ty = true -> g = pb_gradient P) -> (uses_hessian ty = true -> h = pb_hessian P) ->
  solve_with_tracking X P' ty cfg x track = solve_with_tracking X P ty cfg x track.
Proof.
  intros H1 H2. destruct ty; cbn [solve_with_tracking].
  - destruct cfg; try reflexivity. cbn [solve_lbfgs]. apply build_same. intro j. repeat apply step_same.
    destruct l1_coefficient; try apply step_same; apply exec_same; auto.
  - destruct cfg; try reflexivity. cbn [solve_nelder_mead]. repeat apply step_same. apply exec_same; auto.
  - destruct cfg; try reflexivity. cbn [solve_steepestdescent]. apply build_same. intro j. apply exec_same; auto.
  - destruct cfg; try reflexivity. cbn [solve_trust_region]. repeat apply step_same. apply exec_same; auto.
  - destruct cfg; try reflexivity. cbn [solve_newton_cg]. apply build_same. intro j.
    destruct line_search_params; try apply step_same; apply exec_same; auto.
  - reflexivity.
Qed.
End Solver.

(** ** Runs *)
Section Agree.
Context (G H : bool) (E : env) (g : point -> point + N) (h : point -> list point + N).
Context (A : asks_only (e_ext E)) (Hg : G = true -> g = pb_gradient (e_problem E)) (Hh : H = true -> h = pb_hessian (e_problem E)).
Definition fits (ty : solver_type) (cfg : solver_config) : Prop :=
  (uses_gradient ty = true -> G = true) /\ (uses_hessian ty = true -> H = true).
Let E' := env_with (with_derivatives g h (e_problem E)) E.
Lemma tracked_same ty cfg x track : fits ty cfg -> solve_tracked E' ty cfg x track = solve_tracked E ty cfg x track.
Proof.
  intros [F1 F2]. unfold solve_tracked. destruct track.
  - apply solver_same; auto.
  - unfold solve. change (e_problem E') with (with_derivatives g h (e_problem E)). change (e_ext E') with (e_ext E). rewrite solver_same; auto.
Qed.
(** the scatter search does not use derivatives *)
Lemma x_draw : forall n r, draw_seeds E' n r = draw_seeds E n r.
Proof. induction n as [|n IH]; intro r; simpl; [reflexivity|]. destruct (e_next E r). rewrite IH. reflexivity. Qed.
Lemma x_sample : forall lo hi r, sample_point E' r lo hi = sample_point E r lo hi.
Proof. induction lo as [|l lo IH]; intros [|u hi] r; simpl; try reflexivity. destruct (e_uniform E r l u) as [[x r1]|]; [rewrite IH|]; reflexivity. Qed.
Lemma x_stratified : forall n s, generate_stratified_samples E' n s = generate_stratified_samples E n s.
Proof.
  intros n s. unfold generate_stratified_samples, bind, get. rewrite x_draw. destruct (draw_seeds E n (ss_rng s)) as [l r].
  erewrite map_ext; [reflexivity|]. intro sd. cbn [e_seed_from E' env_with]. apply x_sample.
Qed.
Lemma x_refill : forall pop cs fuel a l s, refill E' pop cs fuel a l s = refill E pop cs fuel a l s.
Proof.
  intros pop cs. induction fuel as [|fuel IH]; intros a l s; simpl; [reflexivity|]. destruct (_ <? _); [|reflexivity].
  unfold bind. change (pop + (pop + 0)) with (2 * pop). rewrite x_stratified. destruct (generate_stratified_samples E _ s) as [[b|e|] s1]; auto.
Qed.
Lemma x_greedy : forall ctx par n refs cands ds, greedy E' ctx par n refs cands ds = greedy E ctx par n refs cands ds.
Proof.
  intros ctx par. induction n as [|n IH]; intros; simpl; [reflexivity|]. destruct (argmax par _ ds); [|reflexivity].
  destruct (swap_remove n0 cands) as [[? ?]|]; [|reflexivity]. destruct (swap_remove n0 ds) as [[? ?]|]; auto.
Qed.
Lemma x_perturb : forall p lo hi r, perturb E' r lo hi p = perturb E r lo hi p.
Proof.
  induction p as [|x p IH]; intros [|l lo] [|u hi] r; simpl; try reflexivity. destruct (e_perturb E r). rewrite IH. reflexivity.
Qed.
Lemma x_combine : forall lo hi a b sd, combine_points E' lo hi a b sd = combine_points E lo hi a b sd.
Proof.
  intros. unfold combine_points. rewrite x_perturb. cbn [e_seed_from E' env_with].
  destruct (perturb E (e_seed_from E sd) lo hi _) as [[p1 r1]|]; [|reflexivity]. rewrite x_perturb. reflexivity.
Qed.
Lemma x_diversify : forall refs cs s, diversify_reference_set E' refs cs s = diversify_reference_set E refs cs s.
Proof.
  intros. unfold diversify_reference_set. apply bind_ext; [reflexivity|]. intros s0 s1. cbv zeta.
  apply bind_ext; [apply x_stratified|]. intros cd s2. apply bind_ext.
  - destruct (match cs with [] => true | _ => false end); [reflexivity|]. apply bind_ext; [apply x_refill|reflexivity].
  - intros cd2 s3. unfold of_result. rewrite x_greedy. reflexivity.
Qed.
Lemma x_init : forall s, initialize_reference_set E' s = initialize_reference_set E s.
Proof.
  intros. unfold initialize_reference_set. apply bind_ext; [reflexivity|]. intros s0 s1. cbv zeta.
  apply bind_ext; [apply x_diversify|]. reflexivity.
Qed.
Lemma x_trials : forall s, generate_trial_points E' s = generate_trial_points E s.
Proof.
  intros. unfold generate_trial_points. apply bind_ext; [reflexivity|]. intros s0 s1. cbv zeta. rewrite x_draw.
  destruct (draw_seeds E _ _) as [l r]. apply bind_ext; [reflexivity|]. intros u s2.
  erewrite map_ext; [reflexivity|]. intros [[i j] sd]. destruct (nth_error _ _); [|reflexivity]. destruct (nth_error _ _); [|reflexivity]. apply x_combine.
Qed.
Lemma x_run : forall s, ss_run E' s = ss_run E s.
Proof.
  intros. unfold ss_run. apply bind_ext; [apply x_init|]. intros ? ?.
  do 5 (apply bind_ext; [reflexivity|intros ? ?]). apply bind_ext; [apply x_trials|intros ? ?]. reflexivity.
Qed.
Definition agree {B} (m' m : OM B) : Prop := forall s, named fits (s_o s) -> m' s = m s /\ forall a s', m s = (Ok a, s') -> named fits (s_o s').
Lemma a_bind B C (m' m : OM B) (k' k : B -> OM C) : agree m' m -> (forall a, agree (k' a) (k a)) -> agree (bind m' k') (bind m k).
Proof.
  intros Hm Hk s Hs. destruct (Hm s Hs) as [Q1 Q2]. unfold bind. rewrite Q1. destruct (m s) as [[a|e|] s1] eqn:Em.
  - destruct (Hk a s1 (Q2 _ _ eq_refl)) as [R1 R2]. split; assumption.
  - split; [reflexivity|discriminate].
  - split; [reflexivity|discriminate].
Qed.
Lemma a_ret B (a : B) : agree (ret a) (ret a).
Proof. intros s Hs. split; [reflexivity|]. intros b s' Q. injection Q as _ <-. exact Hs. Qed.
Lemma a_panic B : agree (@panic st oq_error B) panic.
Proof. intros s Hs. split; [reflexivity|discriminate]. Qed.
Lemma a_fail B e : agree (@fail st oq_error B e) (fail e).
Proof. intros s Hs. split; [reflexivity|discriminate]. Qed.
Lemma a_oqnlp B (k' k : oqnlp -> OM B) : (forall o, named fits o -> agree (k' o) (k o)) -> agree (bind the_oqnlp k') (bind the_oqnlp k).
Proof. intros Hk s Hs. exact (Hk (s_o s) Hs s Hs). Qed.
Lemma a_upd f : (forall o, named fits o -> named fits (f o)) -> agree (upd f) (upd f).
Proof. intros Hf s Hs. split; [reflexivity|]. intros b s' Q. injection Q as _ <-. exact (Hf _ Hs). Qed.
Lemma a_obs f : agree (obs f) (obs f).
Proof. apply a_upd. intros o Ho. exact Ho. Qed.
Lemma a_emit l : agree (emit l) (emit l).
Proof. intros s Hs. split; [reflexivity|]. intros b s' Q. injection Q as _ <-. exact Hs. Qed.
Lemma a_tick : agree tick tick.
Proof. intros s Hs. split; [reflexivity|]. intros b s' Q. injection Q as _ <-. exact Hs. Qed.
Lemma a_unwrap B (o : option B) : agree (unwrap o) (unwrap o).
Proof. destruct o; [apply a_ret|apply a_panic]. Qed.
Lemma a_result B (r : outcome oq_error B) : agree (of_result r) (of_result r).
Proof. intros s Hs. split; [reflexivity|]. intros b s' Q. injection Q as _ <-. exact Hs. Qed.
Lemma a_solver B (r : outcome ls_error B) : agree (of_solver r) (of_solver r).
Proof. destruct r; [apply a_ret|apply a_fail|apply a_panic]. Qed.
Lemma a_disk B (m : M disk cp_error B) : agree (on_disk m) (on_disk m).
Proof.
  intros s Hs. split; [reflexivity|]. intros b s' Q. unfold on_disk in Q. destruct (m (w_disk (s_w s))) as [[a|e|] d]; injection Q as _ <-; exact Hs.
Qed.
Ltac ag1 :=
  match goal with
  | |- agree (bind the_oqnlp _) _ => apply a_oqnlp; intros
  | |- agree (bind _ _) _ => apply a_bind; [|intro]
  | |- agree (ret _) _ => apply a_ret
  | |- agree panic _ => apply a_panic
  | |- agree (fail _) _ => apply a_fail
  | |- agree (upd _) _ => apply a_upd; intros ? Ho; exact Ho
  | |- agree (obs _) _ => apply a_obs
  | |- agree (emit _) _ => apply a_emit
  | |- agree tick _ => apply a_tick
  | |- agree (unwrap _) _ => apply a_unwrap
  | |- agree (of_result _) _ => apply a_result
  | |- agree (of_solver _) _ => apply a_solver
  | |- agree (on_disk _) _ => apply a_disk
  | |- agree (let '(_, _) := ?x in _) _ => destruct x
  | |- agree (if ?b then _ else _) _ => destruct b
  | |- agree (match ?x with _ => _ end) _ => destruct x
  end.
Ltac ag := repeat ag1.
Lemma a_callback i : agree (callback E i) (callback E i).
Proof. unfold callback. ag. Qed.
Lemma a_callback_at i : agree (callback_at E i) (callback_at E i).
Proof. unfold callback_at. ag. apply a_callback. Qed.
Lemma a_save_now c : agree (save_now E c) (save_now E c).
Proof. unfold save_now, create_checkpoint. ag. Qed.
Lemma a_maybe_save : agree (maybe_save_checkpoint E) (maybe_save_checkpoint E).
Proof. unfold maybe_save_checkpoint. ag. apply a_save_now. Qed.
Lemma a_final_save : agree (maybe_save_final_checkpoint E) (maybe_save_final_checkpoint E).
Proof. unfold maybe_save_final_checkpoint. ag. apply a_save_now. Qed.
Lemma a_process x : agree (process_local_solution E x) (process_local_solution E x).
Proof. unfold process_local_solution, set_solutions, set_threshold, add_to_filter. ag. Qed.
Lemma a_begin i u : agree (begin_iteration E i u) (begin_iteration E i u).
Proof. unfold begin_iteration. ag. Qed.
Lemma a_obs_iteration i u : agree (obs_iteration i u) (obs_iteration i u).
Proof. unfold obs_iteration. ag. Qed.
Lemma a_obs_search a n : agree (obs_search a n) (obs_search a n).
Proof. unfold obs_search. ag. Qed.
Lemma a_count u : agree (count_unchanged u) (count_unchanged u).
Proof. unfold count_unchanged, adjust_threshold, set_threshold. ag. Qed.
Lemma a_one objs i p u : agree (process_one_seq E' objs i p u) (process_one_seq E objs i p u).
Proof.
  unfold process_one_seq, emit_eval, set_threshold.
  change (begin_iteration E') with (begin_iteration E). change (cand_objective E') with (cand_objective E).
  change (process_local_solution E') with (process_local_solution E). change (target_reached E') with (target_reached E).
  change (callback_at E') with (callback_at E). change (maybe_save_checkpoint E') with (maybe_save_checkpoint E).
  repeat (ag1 || match goal with N : named fits ?o |- context [solve_tracked E' (o_solver_type ?o) _ _ _] => rewrite (tracked_same _ _ _ _ (proj1 N)) end);
    auto using a_begin, a_obs_iteration, a_process, a_obs_search, a_count, a_callback_at, a_maybe_save.
Qed.
Lemma a_seq start res objs b : forall u, agree (process_batch_sequential E' start res objs b u) (process_batch_sequential E start res objs b u).
Proof.
  induction b as [|[i p] b IH]; intros u; cbn [process_batch_sequential]; [apply a_ret|].
  destruct (res && (i <? start)); [apply IH|]. ag; auto using a_one.
Qed.
Lemma a_quicks l : forall u, agree (process_quicks E' l u) (process_quicks E l u).
Proof.
  induction l as [|[[i p] v] l IH]; intros u; cbn [process_quicks]; [apply a_ret|]. apply a_bind; [|intro; apply IH].
  change (process_quick E') with (process_quick E). unfold process_quick. ag; auto using a_begin, a_obs_iteration, a_count, a_callback_at, a_maybe_save.
Qed.
Lemma a_par_results l : forall u, agree (process_par_results E' l u) (process_par_results E l u).
Proof.
  induction l as [|[[[i p] v] [x n]] l IH]; intros u; cbn [process_par_results]; [apply a_ret|]. apply a_bind; [|intro; destruct a; [apply a_ret|apply IH]].
  change (process_par_result E') with (process_par_result E). unfold process_par_result, set_threshold. ag; auto using a_begin, a_obs_iteration, a_process, a_obs_search, a_callback_at, a_maybe_save.
Qed.
Lemma a_singles l : forall u, agree (process_singles E' l u) (process_singles E l u).
Proof.
  induction l as [|[[i p] v] l IH]; intros u; cbn [process_singles]; [apply a_ret|]. apply a_bind; [|intro; destruct a; [apply a_ret|apply IH]].
  unfold process_single, set_threshold.
  change (begin_iteration E') with (begin_iteration E).
  change (process_local_solution E') with (process_local_solution E). change (target_reached E') with (target_reached E).
  change (callback E') with (callback E). change (maybe_save_checkpoint E') with (maybe_save_checkpoint E).
  repeat (ag1 || match goal with N : named fits ?o |- context [solve_tracked E' (o_solver_type ?o) _ _ _] => rewrite (tracked_same _ _ _ _ (proj1 N)) end);
    auto using a_begin, a_obs_iteration, a_process, a_obs_search, a_callback, a_maybe_save.
Qed.
Lemma a_par start res objs b u : agree (process_batch_parallel E' start res objs b u) (process_batch_parallel E start res objs b u).
Proof.
  unfold process_batch_parallel.
  change (cand_objective E') with (cand_objective E). change (e_err_pick E') with (e_err_pick E).
  repeat (ag1 || match goal with N : named fits ?o |- context [map (fun c => match lift_solver (solve_tracked E' (p_solver_type (o_params ?o)) _ _ _) with _ => _ end) ?l] =>
    erewrite (map_ext (fun c => match lift_solver (solve_tracked E' (p_solver_type (o_params o)) _ _ _) with Ok r => Ok (c, r) | Err e => Err e | Panic => Panic end));
    [|intros c; rewrite (tracked_same _ _ _ _ (proj2 N)); reflexivity] end);
    auto using a_quicks, a_par_results, a_singles.
Qed.
Lemma a_loop size start res objs bs : forall u, agree (stage2_loop E' size start res objs bs u) (stage2_loop E size start res objs bs u).
Proof.
  induction bs as [|b bs IH]; intros u; cbn [stage2_loop]; [apply a_ret|].
  change (e_clock E') with (e_clock E). change (target_reached E') with (target_reached E).
  ag; auto using a_par, a_seq.
Qed.
Lemma a_stage2 res refs objs u : agree (stage2_run E' res refs objs u) (stage2_run E res refs objs u).
Proof.
  unfold stage2_run, begin_stage2, final_set. change (add_u64 E') with (add_u64 E). change (e_shuffle E') with (e_shuffle E).
  change (e_seed_from E') with (e_seed_from E). change (batch_size E') with (batch_size E).
  change (maybe_save_final_checkpoint E') with (maybe_save_final_checkpoint E).
  ag; auto using a_loop, a_final_save.
Qed.
Lemma a_stage1 : agree (stage1_run E') (stage1_run E).
Proof.
  unfold stage1_run, end_stage1, stage1_enter, set_threshold.
  change (stage1_init E') with (stage1_init E). change (callback E') with (callback E).
  change (process_local_solution E') with (process_local_solution E). change (target_reached E') with (target_reached E).
  apply a_oqnlp; intros o No. apply a_bind; [apply a_tick|intro t]. destruct (stage1_init E o t) as [s3|e|]; [|apply a_fail|apply a_panic].
  rewrite x_run.
  repeat (ag1 || match goal with N : named fits ?o |- context [solve_tracked E' (o_solver_type ?o) _ _ _] => rewrite (tracked_same _ _ _ _ (proj1 N)) end);
    auto using a_callback, a_process.
Qed.
Lemma run_same s : named_st fits s -> saves_fit s -> run E' s = run E s.
Proof.
  intros N F. unfold run. change (try_resume_from_checkpoint E') with (try_resume_from_checkpoint E).
  unfold bind at 1 4. destruct (try_resume_from_checkpoint E s) as [[b|e|] s1] eqn:Hr; try reflexivity.
  assert (N1 : named fits (s_o s1)).
  { pose proof (try_effect E s _ s1 Hr) as [C1 C2]. refine (proj1 (named_from fits s eq s1 _ N C1 C2 _)); [intros cp cp' K <-; exact K|].
    destruct C1 as [_ (new & Ht & Hn)]. intros f cp I'. rewrite Ht in I'. apply in_app_or in I' as [I'|I']; [destruct (Hn _ _ I')|exact (F _ _ I')]. }
  destruct b.
  - refine (proj1 (a_oqnlp _ _ _ _ s1 N1)). intros o _. apply a_stage2.
  - refine (proj1 (a_bind _ _ _ _ _ _ a_stage1 _ s1 N1)). intros [[refs objs]|]; [apply a_stage2|unfold final_set; ag].
Qed.
Lemma expand_same refs a b s : expand_reference_set E' refs a b s = expand_reference_set E refs a b s.
Proof.
  unfold expand_reference_set. destruct (b <=? a); [reflexivity|]. change (ss_new E') with (ss_new E). change (add_u64 E') with (add_u64 E).
  do 3 (apply bind_ext; [reflexivity|intros ? ?]). destruct (ss_new E _ _) as [x|e|]; try reflexivity.
  apply bind_ext; [|reflexivity]. unfold run_ss. rewrite x_diversify. reflexivity.
Qed.
Lemma modified_same np s : resume_with_modified_params E' np s = resume_with_modified_params E np s.
Proof.
  unfold resume_with_modified_params. change (checkpoint_exists E') with (checkpoint_exists E). change (load_latest E') with (load_latest E).
  apply bind_ext; [reflexivity|]. intros o s1. destruct (o_cp o) as [c|]; [|reflexivity]. apply bind_ext; [reflexivity|]. intros ex s2.
  destruct ex; [|reflexivity]. apply bind_ext; [reflexivity|]. intros cp s3. cbv zeta. apply bind_ext; [|reflexivity].
  destruct (_ <? _); [apply expand_same|reflexivity].
Qed.
Lemma does_same c s s1 : named_st fits s -> saves_fit s -> does E c s s1 -> does E' c s s1.
Proof.
  intros N F D. destruct D as [p o s Q|ob s|t s|n s|b s|t s|b s|a r s|l o s Q|c s r s' Q|s r s' Q|s r s' Q|np s r s' Q|f np s r s' Q|c n s r s' Q|f b s Q|f s];
    try (constructor; assumption).
  - exact (DCheckpointing E' c s r s' Q).
  - apply DRun with (r := r). rewrite run_same; assumption.
  - exact (DTryResume E' s r s' Q).
  - apply DResumeWith with (r := r). rewrite modified_same. exact Q.
  - exact (DResumeFile E' f np s r s' Q).
  - exact (DCleanup E' c n s r s' Q).
Qed.
End Agree.

Section Session.
Context (G H : bool).
Lemma within_named p : solver_within G H p -> named_p (fits G H) p. Proof. intros X. exact X. Qed.
Lemma within_call l : Forall (call_within G H) l -> Forall (named_call (fits G H)) l.
Proof. intros X. exact X. Qed.
Theorem c102_run : forall p l s0 s E E', begins p s0 -> solver_within G H p -> session l s0 s -> Forall (call_within G H) l -> saves_fit s ->
  same_but_derivatives G H E E' -> run E' s = run E s.
Proof.
  intros p l s0 s E E' B Hp Hs Hl F (A & g & h & -> & Hg & Hh). apply (run_same G H E g h A Hg Hh); [|exact F].
  exact (session_named (fits G H) p l s0 s B Hp Hs Hl F).
Qed.
Theorem c102_session : forall p l l' s0 s, begins p s0 -> solver_within G H p -> session l s0 s -> Forall (call_within G H) l -> saves_fit s ->
  Forall2 (fun a b => same_but_derivatives G H (fst a) (fst b) /\ snd a = snd b) l l' -> session l' s0 s.
Proof.
  intros p l l' s0 s B Hp Hs. revert l'. induction Hs as [s|l E c z s1 s2 Hs IH D]; intros l' Hl F T.
  - inversion T; subst. apply SNil.
  - inversion T as [|x y ? l2 [(A & g & h & He & Hg & Hh) Hc] T2]; subst. inversion Hl as [|? ? Hl1 Hl2]; subst. destruct y as [E2 c2]. cbn in He, Hc. subst E2 c2.
    assert (F1 : saves_fit s1) by (eapply does_fit; eauto).
    apply SStep with (s1 := s1); [apply IH; assumption|]. apply (does_same G H E g h A Hg Hh); [|exact F1|exact D].
    exact (session_named (fits G H) p l z s1 B Hp Hs Hl2 F1).
Qed.
End Session.

(** * What the Stage 1 counters of the observer count (C43) *)
From Coq Require Import ZArith NArith List Bool Arith Lia String Permutation.
From Verif Require Import F64 Base Builders Types Filters Runner Observer Env EnvSpec
  ScatterSearch Codec Checkpoint Oqnlp Spec SpecStage1 SpecStage2 SpecObserver SolverP GreedyP Stage1P Stage1Q SqrtP Stage1R Wp Actions RunP FrameP EmitsP FilterP CountP HoareP SeqP SeqP3 SaveP.
Import ListNotations.

(** the Stage 1 mode and counters *)
Definition g1 (ob : observer) : obs_mode * option (nat * nat) :=
  (ob_mode ob, option_map (fun s => (s1_evals s, s1_trials s)) (ob_stage1 ob)).
Definition tally1 (o : oqnlp) : option (obs_mode * option (nat * nat)) := option_map g1 (o_observer o).
Definition ss_tally (s : ss) : option (obs_mode * option (nat * nat)) := option_map g1 (ss_observer s).

Section Counting.
Context (E : env) (Hcb : callbacks_keep_stage1 E).
Lemma g1_invoke : forall ob, g1 (fst (invoke_callback (Env.e_callback E) ob)) = g1 ob.
Proof.
  intro ob. unfold invoke_callback, g1. destruct (ob_callback ob) as [[n| | |]|] eqn:Hc; simpl; auto.
  - destruct (Hcb n ob) as [-> ->]. auto.
  - unfold default_callback. destruct (match obs_stage1 ob with Some s => _ | None => _ end); [auto|].
    destruct (obs_stage2 ob) as [s2|]; [|auto]. destruct (0 <? s2_iteration s2); [|auto]. destruct (ob_filter ob); auto.
Qed.
Lemma g1_upd2 : forall f ob, g1 (upd_stage2 f ob) = g1 ob.
Proof. clear Hcb. intros f ob. unfold upd_stage2. destruct (should_observe_stage2 ob); auto. destruct (ob_stage2 ob); auto. Qed.
Lemma g1_any2 : forall f ob, g1 (upd_stage2_any f ob) = g1 ob.
Proof. clear Hcb. intros f ob. unfold upd_stage2_any. destruct (ob_stage2 ob); auto. Qed.
(** an update of a Stage 1 state that is observed *)
Lemma g1_upd1 : forall f ob md e t a b, g1 ob = (md, Some (e, t)) -> md <> Stage2Only ->
  (forall s, s1_evals (f s) = s1_evals s + a /\ s1_trials (f s) = s1_trials s + b) ->
  g1 (upd_stage1 f ob) = (md, Some (e + a, t + b)).
Proof.
  clear Hcb. intros f ob md e t a b H Hm Hf. unfold g1 in H. injection H as H1 H2.
  destruct (ob_stage1 ob) as [s|] eqn:Hs; [|discriminate H2]. simpl in H2. injection H2 as <- <-.
  unfold upd_stage1, should_observe_stage1. rewrite H1, Hs. destruct (Hf s) as [F1 F2].
  destruct md; [|congruence|]; unfold g1; simpl; rewrite H1, F1, F2; reflexivity.
Qed.
Lemma g1_any1 : forall f ob, (forall s, s1_evals (f s) = s1_evals s /\ s1_trials (f s) = s1_trials s) -> g1 (upd_stage1 f ob) = g1 ob.
Proof.
  clear Hcb. intros f ob H. unfold upd_stage1. destruct (should_observe_stage1 ob); auto. destruct (ob_stage1 ob) as [s|] eqn:Hs; auto.
  unfold g1. simpl. rewrite Hs. simpl. destruct (H s) as [-> ->]. reflexivity.
Qed.

(** ** The scatter search *)
Lemma ss_obs_counts : forall f s md e t a b, ss_tally s = Some (md, Some (e, t)) -> md <> Stage2Only ->
  (forall s, s1_evals (f s) = s1_evals s + a /\ s1_trials (f s) = s1_trials s + b) ->
  run_to (ss_obs (upd_stage1 f)) s (fun r s' => r = Ok tt /\ noisy s s' /\ ss_tally s' = Some (md, Some (e + a, t + b))).
Proof.
  clear Hcb. intros f s md e t a b H Hm Hf. destruct (noisy_obs (upd_stage1 f) s) as [N1 N2].
  unfold run_to. split; [exact N1|]. split; [exact N2|]. unfold ss_tally in *. simpl.
  destruct (ss_observer s) as [ob|]; [|discriminate H]. simpl in *. f_equal. apply g1_upd1; auto. congruence.
Qed.
Lemma ss_callback_counts : forall s, run_to (ss_callback E) s (fun r s' => r = Ok tt /\ noisy s s' /\ ss_tally s' = ss_tally s).
Proof.
  intro s. destruct (noisy_callback E s) as [N1 N2]. unfold run_to. split; [exact N1|]. split; [exact N2|]. clear N1 N2.
  unfold ss_callback, bind, get. destruct (ss_observer s) as [ob|] eqn:Ho; simpl; [|reflexivity].
  destruct (ob_callback ob) as [cb|] eqn:Hc; [|reflexivity].
  pose proof (g1_invoke ob) as C1. destruct (invoke_callback (Env.e_callback E) ob) as [ob' m]. simpl in *.
  unfold ss_tally. rewrite Ho. simpl. rewrite C1. reflexivity.
Qed.
Lemma ev_emit : forall l s, evaluations (ss_log (ss_emit (map SsEval l) s)) = evaluations (ss_log s) ++ l.
Proof.
  clear Hcb. intros l s. unfold ss_emit. simpl. rewrite evaluations_app. f_equal. unfold evaluations. rewrite rev_involutive.
  induction l as [|p l IH]; simpl; [reflexivity|]. f_equal. exact IH.
Qed.
Lemma ev_drew : forall r l s, evaluations (ss_log (drew r l s)) = evaluations (ss_log s).
Proof.
  clear Hcb. intros r l s. unfold drew. simpl. unfold evaluations. rewrite ?rev_app_distr, flat_map_app.
  rewrite <- app_nil_r. f_equal. rewrite ?rev_involutive. induction l as [|p l IH]; simpl; auto.
Qed.
(** what an update evaluates: some of the trial points, each at most once *)
Lemma update_counts : forall trials s, run_to (update_reference_set E trials) s (fun r s' =>
  forall u, r = Ok u -> ss_tally s' = ss_tally s /\ exists later, evaluations (ss_log s') = evaluations (ss_log s) ++ later /\
    incl later trials /\ List.length later <= List.length trials).
Proof.
  clear Hcb. intros trials s. unfold update_reference_set.
  assert (Hno : ss_tally s = ss_tally s /\ exists later, evaluations (ss_log s) = evaluations (ss_log s) ++ later /\
    incl later trials /\ List.length later <= List.length trials).
  { split; [reflexivity|]. exists []. rewrite app_nil_r. split; [reflexivity|]. split; [intros ? []|simpl; lia]. }
  destruct trials as [|t0 trials]; [intros u _; exact Hno|].
  set (ts := t0 :: trials) in *. apply rt_bind. unfold run_to at 1, get. cbn [fst snd]. apply rt_bind.
  destruct (dist_threshold_spec E s) as (thr & -> & _). unfold run_to at 1, unwrap, ret. cbn [fst snd].
  apply rt_bind. unfold run_to at 1, modify. cbn [fst snd].
  set (res := map (fun p => (p, evaluate_trial E (ss_ref s) (last (ss_objs s) pinf) thr p)) ts).
  set (evs := map fst (filter (fun r => fst (snd r)) res)).
  replace (map (fun r : point * (bool * option (point * f64)) => SsEval (fst r)) (filter (fun r => fst (snd r)) res))
    with (map SsEval evs) by (unfold evs; rewrite map_map; reflexivity).
  assert (Hev : incl evs ts /\ List.length evs <= List.length ts).
  { split.
    - intros p Hp. unfold evs in Hp. apply in_map_iff in Hp as ([q x] & <- & Hin).
      apply filter_In in Hin as [Hin _]. unfold res in Hin. apply in_map_iff in Hin as (q' & E' & Hq). injection E' as <- _. auto.
    - unfold evs. rewrite map_length. replace (List.length ts) with (List.length res) by (unfold res; apply map_length).
      clear. induction res as [|x l IH]; simpl; [lia|]. destruct (fst (snd x)); simpl; lia. }
  generalize (flat_map (fun r : point * (bool * option (point * f64)) => match snd (snd r) with Some x => [x] | None => [] end) res).
  intro accepted. clearbody evs. destruct Hev as [Hev1 Hev2].
  destruct accepted as [|a0 accepted].
  - intros u _. split; [reflexivity|]. exists evs. unfold ret. cbn [fst snd]. rewrite ev_emit. auto.
  - apply rt_bind. unfold run_to at 1, unwrap, ret, panic.
    destruct (keep_best E _ _) as [kept|]; cbn [fst snd]; [|intros u G; discriminate G].
    intros u _. split; [reflexivity|]. exists evs. unfold modify. cbn [fst snd].
    change (ss_log (ss_with_ref (map fst kept) (map snd kept) (ss_emit (map SsEval evs) s))) with (ss_log (ss_emit (map SsEval evs) s)).
    rewrite ev_emit. auto.
Qed.
(** six points for each pair of the sample *)
Lemma all_some_len : forall A (l : list (option A)) r, all_some l = Some r -> List.length r = List.length l.
Proof.
  clear. induction l as [|[a|] l IH]; intros r H; simpl in H; [injection H as <-; reflexivity| |discriminate H].
  destruct (all_some l) as [r'|]; [|discriminate H]. injection H as <-. simpl. rewrite (IH r' eq_refl). reflexivity.
Qed.
Lemma trials_len : forall lo hi refs trials, trials_of E lo hi refs trials ->
  List.length trials = 3 * (ksel (List.length refs) * (ksel (List.length refs) - 1)).
Proof.
  clear Hcb. intros lo hi refs trials (groups & -> & G). set (k := ksel (List.length refs)) in *.
  assert (L6 : Forall (fun g : list point => List.length g = 6) groups).
  { induction G as [|ij g l gs (sd & a & b & _ & _ & H) G IH]; constructor; auto.
    unfold combine_points in H. destruct (perturb E (e_seed_from E sd) lo hi (pdiv (padd a b) f2)) as [[p1 r1]|]; [|discriminate H].
    destruct (perturb E r1 lo hi (pdiv (padd a b) f2)) as [[p2 r2]|]; [|discriminate H].
    apply all_some_len in H. rewrite H, app_length, map_length. reflexivity. }
  assert (Lg : List.length groups = List.length (pairs k)) by (clear -G; induction G; simpl; auto).
  rewrite concat_length6, Lg by auto. pose proof (pairs_length k). lia.
Qed.
(** the run: the initial members are counted, the trial points only as trial points *)
Lemma ss_counts : env_ok E -> forall s md e t, ss_tally s = Some (md, Some (e, t)) -> md <> Stage2Only ->
  run_to (ss_run E) s (fun r s' => forall x, r = Ok x -> exists first trials later,
    ss_tally s' = Some (md, Some (e + List.length first, t + List.length trials)) /\
    evaluations (ss_log s') = evaluations (ss_log s) ++ first ++ later /\
    List.length first = Nat.max (p_population (ss_params s)) (List.length (initial_points (e_problem E) s)) /\
    List.length trials = 3 * (ksel (List.length first) * (ksel (List.length first) - 1)) /\
    incl later trials /\ List.length later <= List.length trials).
Proof.
  intros HE s md e t Ht Hm. unfold ss_run. apply rt_bind. eapply rt_conseq; [apply init_spec|].
  intros r1 s1 H1. destruct r1 as [[]|err|]; [|intros x G; discriminate G|intros x G; discriminate G].
  assert (I : ss_tally s1 = ss_tally s /\ exists first, evaluations (ss_log s1) = evaluations (ss_log s) ++ first /\
    List.length first = List.length (ss_ref s1) /\
    List.length first = Nat.max (p_population (ss_params s)) (List.length (initial_points (e_problem E) s))).
  { destruct (init_members E HE s s1 H1) as (_ & L & _).
    inversion H1 as [rng l refs objs Hs Hd Hmap He| | |]; subst. split; [reflexivity|]. exists refs.
    split; [|split; [|inversion Hd; auto]].
    - change (ss_log (ss_with_ref (map fst (e_sort E (combine refs objs))) (map snd (e_sort E (combine refs objs)))
         (ss_emit (map SsEval refs) (drew rng l s)))) with (ss_log (ss_emit (map SsEval refs) (drew rng l s))).
      rewrite ev_emit, ev_drew. reflexivity.
    - rewrite L. inversion Hd; auto. }
  destruct I as (I1 & first & I2 & I3 & I4). clear H1. rewrite Ht in I1. clear Ht.
  apply rt_bind. eapply rt_conseq; [eapply (ss_obs_counts _ s1 md e t 0 0 I1 Hm); intro; simpl; lia|].
  intros r2 s2 (-> & N2 & T2). rewrite !Nat.add_0_r in T2.
  apply rt_bind. eapply rt_conseq; [apply ss_callback_counts|]. intros r3 s3 (-> & N3 & T3). rewrite T2 in T3.
  apply rt_bind. unfold run_to at 1, get. cbn [fst snd].
  apply rt_bind. eapply rt_conseq; [eapply (ss_obs_counts _ s3 md e t (List.length (ss_ref s3)) 0 T3 Hm); intro; simpl; lia|].
  intros r4 s4 (-> & N4 & T4). rewrite Nat.add_0_r in T4.
  apply rt_bind. eapply rt_conseq; [apply ss_callback_counts|]. intros r5 s5 (-> & N5 & T5). rewrite T4 in T5.
  assert (N : noisy s1 s3) by (eapply noisy_trans; eauto).
  assert (N' : noisy s3 s5) by (eapply noisy_trans; eauto).
  destruct (noisy_view _ _ N) as (_ & V & _ & _ & _ & _ & _ & _ & W). destruct (noisy_view _ _ N') as (_ & _ & _ & _ & _ & _ & _ & _ & W').
  destruct (noisy_view _ _ N') as (_ & V5 & _). rewrite V, <- I3 in T5. rewrite W, I2 in W'. clear N N' N2 N3 N4 N5 T2 T3 T4 W.
  apply rt_bind. eapply rt_conseq; [apply gen_trials_spec|]. cbv beta. intros r6 s6 [[rng Hs6] Htr].
  destruct r6 as [trials|err|]; [|intros x G; discriminate G|intros x G; discriminate G].
  assert (T6 : ss_tally s6 = Some (md, Some (e + List.length first, t))) by (subst s6; exact T5).
  assert (W6 : evaluations (ss_log s6) = evaluations (ss_log s) ++ first) by (subst s6; exact W').
  apply trials_len in Htr. rewrite V5, V, <- I3 in Htr. clear Hs6 T5 W' V V5.
  apply rt_bind. eapply rt_conseq; [apply update_counts|]. cbv beta. intros r7 s7 Hu.
  destruct r7 as [u|err|]; [|intros x G; discriminate G|intros x G; discriminate G].
  destruct (Hu u eq_refl) as (T7 & later & W7 & U1 & U2). rewrite T6 in T7. rewrite W6 in W7. clear Hu T6 W6.
  apply rt_bind. unfold run_to at 1, get. cbn [fst snd].
  apply rt_bind. eapply rt_conseq; [eapply (ss_obs_counts _ s7 md _ _ 0 (List.length trials) T7 Hm); intro; simpl; lia|].
  intros r8 s8 (-> & N8 & T8). rewrite Nat.add_0_r in T8.
  apply rt_bind. eapply rt_conseq; [apply ss_callback_counts|]. intros r9 s9 (-> & N9 & T9). rewrite T8 in T9.
  assert (N : noisy s7 s9) by (eapply noisy_trans; eauto). destruct (noisy_view _ _ N) as (_ & _ & _ & _ & _ & _ & _ & _ & W9).
  rewrite W7 in W9. apply rt_bind. unfold run_to at 1. rewrite best_eq.
  assert (Fin : exists first trials later,
    ss_tally s9 = Some (md, Some (e + List.length first, t + List.length trials)) /\
    evaluations (ss_log s9) = evaluations (ss_log s) ++ first ++ later /\
    List.length first = Nat.max (p_population (ss_params s)) (List.length (initial_points (e_problem E) s)) /\
    List.length trials = 3 * (ksel (List.length first) * (ksel (List.length first) - 1)) /\
    incl later trials /\ List.length later <= List.length trials).
  { exists first, trials, later. split; [exact T9|]. split; [rewrite W9, app_assoc; reflexivity|]. auto. }
  destruct (min_by cmp_snd (enumerate (ss_objs s9))) as [[i v]|]; cbn [fst snd]; [|intros x G; discriminate G].
  destruct (nth_error (ss_ref s9) i); cbn [fst snd]; [|intros x G; discriminate G].
  intros x _. exact Fin.
Qed.
(** ** Steps that keep the counters *)
Lemma u_obs : forall f, (forall ob, g1 (f ob) = g1 ob) -> keeps tally1 (obs f).
Proof. clear Hcb. intros f H s. unfold tally1. simpl. destruct (o_observer (s_o s)); simpl; [rewrite H|]; reflexivity. Qed.
Lemma u_callback : forall i, keeps tally1 (callback E i).
Proof.
  intros i s. unfold callback, bind, the_oqnlp, get, ret, bind. simpl. destruct (o_observer (s_o s)) as [ob|] eqn:Ho; [|reflexivity].
  destruct (ob_callback ob) as [cb|] eqn:Hc; [|reflexivity]. pose proof (g1_invoke ob) as C.
  destruct (invoke_callback (Env.e_callback E) ob) as [ob' m]. simpl in *. unfold tally1. simpl. rewrite Ho. simpl. congruence.
Qed.
Ltac uk := repeat match goal with
  | |- keeps _ (obs (upd_stage2 _)) => apply u_obs, g1_upd2
  | |- keeps _ (obs (upd_stage2_any _)) => apply u_obs, g1_any2
  | |- keeps _ (obs (upd_stage1 _)) => apply u_obs; intro; apply g1_any1; intro; simpl; auto
  | |- keeps _ (obs _) => apply u_obs; reflexivity
  | |- keeps _ (callback _ _) => apply u_callback
  | _ => kp1
  end.
Lemma u_iter : forall i u, keeps tally1 (obs_iteration i u). Proof. intros. unfold obs_iteration. uk. Qed.
Lemma u_callback_at : forall i, keeps tally1 (callback_at E i). Proof. intro. unfold callback_at. uk. Qed.
Lemma u_save_now : forall c, keeps tally1 (save_now E c). Proof. intro. unfold save_now, create_checkpoint. uk. Qed.
Lemma u_maybe_save : keeps tally1 (maybe_save_checkpoint E). Proof. unfold maybe_save_checkpoint. uk. apply u_save_now. Qed.
Lemma u_final_save : keeps tally1 (maybe_save_final_checkpoint E). Proof. unfold maybe_save_final_checkpoint. uk. apply u_save_now. Qed.
Lemma u_count : forall u, keeps tally1 (count_unchanged u). Proof. intro. unfold count_unchanged, adjust_threshold. uk. Qed.
Lemma u_threshold : forall v, keeps tally1 (set_threshold v). Proof. intro. unfold set_threshold. uk. Qed.
Lemma u_begin : forall i u, keeps tally1 (begin_iteration E i u). Proof. intros. unfold begin_iteration. uk. Qed.
Lemma u_process : forall x, keeps tally1 (process_local_solution E x).
Proof. intro. unfold process_local_solution, set_solutions, set_threshold, add_to_filter. uk. Qed.
Lemma u_search : forall b n, keeps tally1 (obs_search b n). Proof. intros. unfold obs_search. uk. Qed.
Lemma u_begin_stage2 : keeps tally1 begin_stage2. Proof. unfold begin_stage2. uk. Qed.
Lemma u_end_stage1 : keeps tally1 (end_stage1 E). Proof. unfold end_stage1, stage1_enter. uk. Qed.
Ltac um := repeat match goal with
  | |- keeps _ (callback_at _ _) => apply u_callback_at
  | |- keeps _ (maybe_save_checkpoint _) => apply u_maybe_save
  | |- keeps _ (count_unchanged _) => apply u_count
  | |- keeps _ (set_threshold _) => apply u_threshold
  | |- keeps _ (begin_iteration _ _ _) => apply u_begin
  | |- keeps _ (obs_iteration _ _) => apply u_iter
  | |- keeps _ (process_local_solution _ _) => apply u_process
  | |- keeps _ (obs_search _ _) => apply u_search
  | _ => progress uk
  end.
Lemma u_one : forall objs i p u, keeps tally1 (process_one_seq E objs i p u).
Proof. intros. unfold process_one_seq, emit_eval. um. Qed.
Lemma u_seq : forall start res objs b u, keeps tally1 (process_batch_sequential E start res objs b u).
Proof.
  intros start res objs b. induction b as [|[i p] b IH]; intro u; simpl; [um|].
  destruct (res && (i <? start)); [apply IH|]. apply k_bind; [apply u_one|intros [u' stop]]. destruct stop; [um|apply IH].
Qed.
Lemma u_quicks : forall l u, keeps tally1 (process_quicks E l u).
Proof. induction l as [|[[i p] v] l IH]; intro u; simpl; [um|]. apply k_bind; [unfold process_quick; um|intro; apply IH]. Qed.
Lemma u_results : forall l u, keeps tally1 (process_par_results E l u).
Proof.
  induction l as [|[[[i p] v] [x n]] l IH]; intro u; simpl; [um|]. apply k_bind; [unfold process_par_result; um|intro b].
  destruct b; [um|apply IH].
Qed.
Lemma u_singles : forall l u, keeps tally1 (process_singles E l u).
Proof.
  induction l as [|[[i p] v] l IH]; intro u; simpl; [um|]. apply k_bind; [unfold process_single; um|intro b].
  destruct b; [um|apply IH].
Qed.
Lemma u_par : forall start res objs b u, keeps tally1 (process_batch_parallel E start res objs b u).
Proof.
  intros. unfold process_batch_parallel. cbv zeta. um; first [apply u_quicks|apply u_results|apply u_singles].
Qed.
Lemma u_loop : forall size start res objs bs u, keeps tally1 (stage2_loop E size start res objs bs u).
Proof.
  intros size start res objs bs. induction bs as [|b bs IH]; intro u; simpl; [um|].
  um; first [apply u_par|apply u_seq|apply IH].
Qed.
Lemma u_stage2 : forall res refs objs u, keeps tally1 (stage2_run E res refs objs u).
Proof.
  intros. unfold stage2_run, final_set. cbv zeta. apply k_bind; [apply u_begin_stage2|intro]. um; first [apply u_loop|apply u_final_save].
Qed.
Lemma u_final : keeps tally1 final_set. Proof. unfold final_set. um. Qed.

(** ** Stage 1 of a run *)
(** events other than those of the scatter search *)
Definition other (e : event) : Prop := match e with EvStage1 _ => False | _ => True end.
Lemma ev1_app : forall a b, stage1_evaluations (a ++ b) = stage1_evaluations b ++ stage1_evaluations a.
Proof. clear. intros. unfold stage1_evaluations. rewrite rev_app_distr, flat_map_app. reflexivity. Qed.
Lemma ev1_other : forall l, Forall other l -> stage1_evaluations l = [].
Proof.
  clear. intros l H. unfold stage1_evaluations. apply Forall_rev in H. induction H as [|e l0 He H IH]; [reflexivity|].
  simpl. rewrite IH. destruct e; try reflexivity. destruct He.
Qed.
Lemma ev1_log : forall l, stage1_evaluations (rev (map EvStage1 (rev l))) = evaluations l.
Proof.
  clear. intro l. unfold stage1_evaluations, evaluations. rewrite rev_involutive. induction (rev l) as [|x r IH]; [reflexivity|].
  simpl. rewrite IH. destruct x; reflexivity.
Qed.
Definition solver_of (o : oqnlp) : solver_type * solver_config := (o_solver_type o, o_solver_config o).
Definition setup (o : oqnlp) : option (obs_mode * option (nat * nat)) * (solver_type * solver_config) := (tally1 o, solver_of o).
Lemma k_both : forall A (m : OM A), keeps tally1 m -> keeps solver_of m -> keeps setup m.
Proof. clear. intros A m H1 H2 s. unfold setup. rewrite H1, H2. reflexivity. Qed.
Lemma step_in : forall B (f : oqnlp -> B) A C (m : OM A) (k : A -> OM C) s r s', keeps f m -> emits other m -> bind m k s = (Ok r, s') ->
  exists a s1 new, m s = (Ok a, s1) /\ k a s1 = (Ok r, s') /\ f (s_o s1) = f (s_o s) /\ trace s1 = new ++ trace s /\ Forall other new.
Proof.
  clear. intros B f A C m k s r s' Hk He H. specialize (Hk s). destruct (He s) as (new & H1 & H2). unfold bind in H.
  destruct (m s) as [[a|e|] s1]; [|discriminate H|discriminate H]. exists a, s1, new. auto.
Qed.
Lemma o_callback : forall i, emits other (callback E i). Proof. clear. intro. apply EmitsP.e_callback; side. Qed.
Lemma o_end_stage1 : emits other (end_stage1 E). Proof. clear. unfold end_stage1, stage1_enter. em. apply o_callback. Qed.
Lemma s_callback : forall i, keeps solver_of (callback E i). Proof. clear. intro. apply k_callback. reflexivity. Qed.
Lemma u_stage1 : env_ok E -> forall s md e t r s', tally1 (s_o s) = Some (md, Some (e, t)) -> md <> Stage2Only ->
  stage1_run E s = (Ok r, s') -> exists first trials later cand k new,
    tally1 (s_o s') = Some (md, Some (e + List.length first + k, t + List.length trials)) /\
    trace s' = new ++ trace s /\ stage1_evaluations new = first ++ later /\ In (EvSearch None cand) new /\
    search_reports E (s_o s) cand k /\
    List.length first = Nat.max (p_population (o_params (s_o s)))
      (List.length (starting_points (e_problem E) (match o_custom (s_o s) with Some c => c | None => [] end))) /\
    List.length trials = 3 * (ksel (List.length first) * (ksel (List.length first) - 1)) /\
    incl later trials /\ List.length later <= List.length trials.
Proof.
  intros HE s md e t r s' Ht Hm H. unfold stage1_run in H. unfold bind at 1 in H. simpl in H. unfold bind at 1 in H. simpl in H.
  set (s1 := mk_st (s_o s) (mk_world (w_disk (s_w s)) (S (w_tick (s_w s))) (w_trace (s_w s)))) in H.
  change (trace s) with (trace s1). change (s_o s) with (s_o s1) in H, Ht |- *. clearbody s1. revert H. generalize (w_tick (s_w s)). clear s.
  intros tk H. rename s1 into s.
  assert (Hob : observes1 (s_o s) = true).
  { unfold observes1, tally1 in *. destruct (o_observer (s_o s)) as [ob|]; [|discriminate Ht]. simpl in Ht. unfold g1 in Ht.
    unfold should_observe_stage1. destruct (ob_stage1 ob); [|discriminate Ht]. injection Ht as -> _ _. destruct md; congruence. }
  destruct (stage1_init E (s_o s) tk) as [s3|err|] eqn:Hi; [|discriminate H|discriminate H].
  assert (B : built E (o_params (s_o s)) s3 /\ ss_observer s3 = o_observer (s_o s) /\
    custom_points s3 = match o_custom (s_o s) with Some c => c | None => [] end).
  { unfold stage1_init in Hi. destruct (ss_new E (o_params (s_o s)) tk) as [s0| |] eqn:Hn; try discriminate Hi. rewrite Hob in Hi. injection Hi as <-.
    split; [|split; [reflexivity|]].
    - apply built_observer. destruct (o_custom (s_o s)); [apply built_custom|]; apply built_parallel; eapply built_new; eauto.
    - unfold custom_points. destruct (o_custom (s_o s)); [reflexivity|]. unfold ss_new in Hn.
      destruct (bad_bound 0 (pb_bounds (e_problem E))); [discriminate Hn|]. injection Hn as <-. reflexivity. }
  destruct B as (B1 & B2 & B3). destruct (built_view _ _ _ B1) as (Ep & _ & _ & _ & _ & El & _).
  assert (T3 : ss_tally s3 = Some (md, Some (e, t))) by (unfold ss_tally; rewrite B2; exact Ht).
  pose proof (ss_counts HE s3 md e t T3 Hm) as C. unfold run_to in C.
  destruct (ss_run E s3) as [res sf] eqn:Hr. cbn [fst snd] in C. rewrite Hob in H.
  rewrite (initial_eq _ _ _ B1), B3, Ep, El in C. clear Hi B1 B2 B3 T3 Ep El Hr Ht Hob.
  unfold bind at 1 in H. cbn [upd modify] in H. unfold bind at 1 in H. cbn [emit modify] in H.
  destruct res as [[pts cand]|err|]; [|discriminate H|discriminate H].
  destruct (C _ eq_refl) as (first & trials & later & C1 & C2 & C3 & C4 & C5 & C6). clear C. simpl app in C2.
  cbv zeta in H. match type of H with bind _ _ ?x = _ => set (s4 := x) in H end.
  assert (F4 : setup (s_o s4) = (Some (md, Some (e + List.length first, t + List.length trials)), solver_of (s_o s))).
  { unfold setup, s4. unfold tally1. simpl. f_equal. exact C1. }
  assert (W4 : trace s4 = rev (map EvStage1 (rev (ss_log sf))) ++ trace s) by reflexivity. clearbody s4.
  apply step_in with (f := setup) in H; [|apply k_both; [apply u_obs; intro; apply g1_any1; intro x|kp]|em].
  2:{ destruct (min_by _ _) as [[i b]|]; [|split; reflexivity]. destruct (nth_error _ _); [|split; reflexivity].
      unfold s1_set_best_solution. destruct (_ || _); split; reflexivity. }
  destruct H as (? & s5 & n5 & _ & H & F5 & W5 & O5).
  apply step_in with (f := setup) in H; [|apply k_both; [apply u_callback|apply s_callback]|apply o_callback].
  destruct H as (? & s6 & n6 & _ & H & F6 & W6 & O6).
  apply step_in with (f := setup) in H; [|apply k_both; unfold stage1_enter; [uk|kp]|unfold stage1_enter; em].
  destruct H as (? & s7 & n7 & _ & H & F7 & W7 & O7).
  unfold bind at 1 in H. simpl in H. unfold bind at 1 in H. simpl in H.
  rewrite F6, F5, F4 in F7. assert (Ho7 : observes1 (s_o s7) = true).
  { unfold setup in F7. injection F7 as F7 _. unfold observes1, tally1 in *. destruct (o_observer (s_o s7)) as [ob|]; [|discriminate F7]. simpl in F7. unfold g1 in F7.
    unfold should_observe_stage1. destruct (ob_stage1 ob); [|discriminate F7]. injection F7 as -> _ _. destruct md; congruence. }
  match type of H with bind _ _ ?x = _ => set (s8 := x) in H end.
  assert (F8 : setup (s_o s8) = setup (s_o s7)) by reflexivity.
  assert (W8 : trace s8 = EvSearch None cand :: trace s7) by reflexivity.
  rewrite F7 in F8. assert (S7 : solver_of (s_o s7) = solver_of (s_o s)) by (unfold setup in F7; congruence).
  unfold solve_tracked in H. rewrite Ho7 in H. unfold solver_of in S7. injection S7 as S7 S7'. rewrite S7, S7' in H.
  clearbody s8. clear Ho7 S7 S7' F4 F5 F6 F7.
  unfold bind at 1 in H.
  destruct (solve_with_tracking (e_ext E) (e_problem E) (o_solver_type (s_o s)) (o_solver_config (s_o s)) cand true) as [[sol n]|er|] eqn:Hsolve;
    [|discriminate H|discriminate H]. cbn [of_solver ret fst snd] in H.
  apply step_in with (f := setup) in H; [|apply k_both; [apply u_threshold|apply k_threshold; reflexivity]|apply e_threshold; exact I].
  destruct H as (? & s9 & n9 & _ & H & F9 & W9 & O9). rewrite F8 in F9.
  unfold bind at 1 in H. cbn [obs upd modify] in H.
  match type of H with bind _ _ ?y = _ => set (s10 := y) in H end.
  assert (F10 : tally1 (s_o s10) = Some (md, Some (e + List.length first + N.to_nat n, t + List.length trials))).
  { unfold s10, tally1. simpl. unfold setup in F9. injection F9 as F9 _ _. unfold tally1 in F9.
    destruct (o_observer (s_o s9)) as [ob|]; [|discriminate F9]. simpl in F9 |- *. f_equal.
    rewrite (g1_upd1 _ ob md (e + List.length first) (t + List.length trials) (N.to_nat n) 0);
      [rewrite Nat.add_0_r; reflexivity|congruence|exact Hm|].
    intro z. unfold s1_set_best_solution. destruct (_ || _); simpl; lia. }
  assert (W10 : trace s10 = trace s9) by reflexivity. clearbody s10.
  apply step_in with (f := tally1) in H; [|apply u_callback|apply o_callback].
  destruct H as (? & s11 & n11 & _ & H & F11 & W11 & O11).
  apply step_in with (f := tally1) in H; [|apply u_process|apply e_process; intros; exact I].
  destruct H as (? & s12 & n12 & _ & H & F12 & W12 & O12).
  assert (Rest : exists n13, tally1 (s_o s') = tally1 (s_o s12) /\ trace s' = n13 ++ trace s12 /\ Forall other n13).
  { match type of H with ?m _ = _ => assert (K : keeps tally1 m); [|assert (M : emits other m)] end.
    - apply k_bind; [apply k_oqnlp|intro]. apply k_bind; [kp|intro b]. destruct b; (uk; apply u_end_stage1).
    - apply e_bind; [em|intro]. apply e_bind; [em|intro b]. destruct b; (em; apply o_end_stage1).
    - specialize (K s12). destruct (M s12) as (n13 & M1 & M2). rewrite H in K, M1. exists n13. auto. }
  destruct Rest as (n13 & F13 & W13 & O13).
  exists first, trials, later, cand, (N.to_nat n),
    (n13 ++ n12 ++ n11 ++ n9 ++ (EvSearch None cand :: n7 ++ n6 ++ n5) ++ rev (map EvStage1 (rev (ss_log sf)))).
  split; [rewrite F13, F12, F11; exact F10|].
  split; [rewrite W13, W12, W11, W10, W9, W8, W7, W6, W5, W4, <- !app_assoc; simpl; rewrite <- !app_assoc; reflexivity|].
  split; [|split; [|split; [exists sol, n; auto|auto]]].
  - rewrite !ev1_app, (ev1_other _ O13), (ev1_other _ O12), (ev1_other _ O11), (ev1_other _ O9), ev1_log, !app_nil_r.
    rewrite (ev1_other (EvSearch None cand :: n7 ++ n6 ++ n5)); [rewrite app_nil_r; exact C2|].
    constructor; [exact I|]. apply Forall_app. split; [auto|]. apply Forall_app. auto.
  - do 4 (apply in_or_app; right). apply in_or_app. left. left. reflexivity.
Qed.
(** Stage 2 records nothing of the scatter search *)
Ltac om := repeat match goal with
  | |- emits _ (callback _ _) => apply o_callback
  | |- emits _ (callback_at _ _) => apply e_callback_at; side
  | |- emits _ (maybe_save_checkpoint _) => apply e_maybe_save; side
  | |- emits _ (maybe_save_final_checkpoint _) => apply e_final_save; side
  | |- emits _ (count_unchanged _) => apply e_count; side
  | |- emits _ (set_threshold _) => apply e_threshold; exact I
  | |- emits _ (begin_iteration _ _ _) => apply e_begin; exact I
  | |- emits _ (obs_iteration _ _) => apply e_obs_iteration
  | |- emits _ (process_local_solution _ _) => apply e_process; intros; exact I
  | |- emits _ (obs_search _ _) => apply e_obs_search
  | |- emits _ (emit (map _ _)) => apply e_emit_map; intro; exact I
  | |- emits _ (emit _) => apply e_emit; repeat constructor
  | _ => progress em1
  end.
Lemma o_seq : forall start res objs b u, emits other (process_batch_sequential E start res objs b u).
Proof.
  clear. intros start res objs b. induction b as [|[i p] b IH]; intro u; simpl; [om|].
  destruct (res && (i <? start)); [apply IH|]. apply e_bind; [unfold process_one_seq, emit_eval; om|intros [u' stop]]. destruct stop; [om|apply IH].
Qed.
Lemma o_quicks : forall l u, emits other (process_quicks E l u).
Proof. clear. induction l as [|[[i p] v] l IH]; intro u; simpl; [om|]. apply e_bind; [unfold process_quick; om|intro; apply IH]. Qed.
Lemma o_results : forall l u, emits other (process_par_results E l u).
Proof.
  clear. induction l as [|[[[i p] v] [x n]] l IH]; intro u; simpl; [om|]. apply e_bind; [unfold process_par_result; om|intro b].
  destruct b; [om|apply IH].
Qed.
Lemma o_singles : forall l u, emits other (process_singles E l u).
Proof.
  clear. induction l as [|[[i p] v] l IH]; intro u; simpl; [om|]. apply e_bind; [unfold process_single; om|intro b].
  destruct b; [om|apply IH].
Qed.
Lemma o_par : forall start res objs b u, emits other (process_batch_parallel E start res objs b u).
Proof. clear. intros. unfold process_batch_parallel. cbv zeta. om; first [apply o_quicks|apply o_results|apply o_singles]. Qed.
Lemma o_loop : forall size start res objs bs u, emits other (stage2_loop E size start res objs bs u).
Proof.
  clear. intros size start res objs bs. induction bs as [|b bs IH]; intro u; simpl; [om|].
  om; first [apply o_par|apply o_seq|apply IH].
Qed.
Lemma o_stage2 : forall res refs objs u, emits other (stage2_run E res refs objs u).
Proof. clear. intros. unfold stage2_run, final_set, begin_stage2. cbv zeta. om; apply o_loop. Qed.
End Counting.
Lemma observing_tally : forall ob st, observing1 ob st -> exists md, md <> Stage2Only /\ option_map g1 ob = Some (md, Some (s1_evals st, s1_trials st)).
Proof. intros ob st (o & -> & Hm & Hs). exists (ob_mode o). split; [exact Hm|]. simpl. unfold g1. rewrite Hs. reflexivity. Qed.
Lemma tally_observing : forall ob md e t, md <> Stage2Only -> option_map g1 ob = Some (md, Some (e, t)) ->
  exists st, observing1 ob st /\ s1_evals st = e /\ s1_trials st = t.
Proof.
  intros [o|] md e t Hm H; [|discriminate H]. simpl in H. unfold g1 in H. destruct (ob_stage1 o) as [st|] eqn:Hs; [|discriminate H].
  injection H as <- <- <-. exists st. split; [exists o; auto|auto].
Qed.
Theorem c43_search : forall E p s pts best s' st0, env_ok E -> callbacks_keep_stage1 E -> built E p s ->
  observing1 (ss_observer s) st0 -> ss_run E s = (Ok (pts, best), s') ->
  let n := Nat.max (p_population p) (List.length (starting_points (e_problem E) (custom_points s))) in
  let k := sample_size n in
  (Z.of_nat n < 2 ^ 52)%Z ->
  exists st first later, observing1 (ss_observer s') st /\ evaluations (ss_log s') = first ++ later /\ List.length first = n /\
    s1_evals st = s1_evals st0 + List.length first /\ s1_trials st = s1_trials st0 + 3 * (k * (k - 1)) /\
    List.length later <= 3 * (k * (k - 1)).
Proof.
  intros E p s pts best s' st0 HE Hcb Hb Hob H n k Hn. destruct (observing_tally _ _ Hob) as (md & Hm & Ht).
  pose proof (ss_counts E Hcb HE s md _ _ Ht Hm) as C. unfold run_to in C. rewrite H in C. cbn [fst snd] in C.
  destruct (C _ eq_refl) as (first & trials & later & C1 & C2 & C3 & C4 & C5 & C6).
  destruct (built_view _ _ _ Hb) as (Ep & _ & _ & _ & _ & El & _). rewrite Ep, (initial_eq _ _ _ Hb) in C3. fold n in C3.
  rewrite El in C2. rewrite C3, ksel_sqrt in C4 by exact Hn. fold k in C4.
  destruct (tally_observing _ _ _ _ Hm C1) as (st & T1 & T2 & T3). exists st, first, later.
  split; [exact T1|]. split; [exact C2|]. split; [exact C3|]. split; [exact T2|]. split; [rewrite T3, C4; reflexivity|]. rewrite <- C4. exact C6.
Qed.
Theorem c43_run : forall E s set s' new st0, env_ok E -> callbacks_keep_stage1 E -> observing1 (o_observer (s_o s)) st0 ->
  (forall cp, ~ resumes_from E s cp) -> run E s = (Ok set, s') -> recorded s s' new ->
  let n := Nat.max (p_population (o_params (s_o s)))
    (List.length (starting_points (e_problem E) (match o_custom (s_o s) with Some c => c | None => [] end))) in
  let k := sample_size n in
  (Z.of_nat n < 2 ^ 52)%Z ->
  exists st first later cand searched, observing1 (o_observer (s_o s')) st /\ stage1_evaluations new = first ++ later /\
    List.length first = n /\ In (EvSearch None cand) new /\ search_reports E (s_o s) cand searched /\
    s1_evals st = s1_evals st0 + List.length first + searched /\
    s1_trials st = s1_trials st0 + 3 * (k * (k - 1)) /\ List.length later <= 3 * (k * (k - 1)).
Proof.
  intros E s set s' new st0 HE Hcb Hob Hres Hrun Hnew n k Hn. destruct (observing_tally _ _ Hob) as (md & Hm & Ht).
  destruct (run_cases E s _ s' new Hrun Hnew) as [(-> & _ & Hno)|(b & s1 & Hst & Htr & Hr & Hcfg)].
  { exfalso. eapply Hno; reflexivity. }
  destruct b.
  { exfalso. inversion Hst; subst. eapply Hres. apply resumes_blank. unfold resumes_from. eauto 10. }
  assert (Ho : s_o s1 = s_o s) by (inversion Hst; reflexivity).
  unfold run_rest in Hr. unfold bind in Hr at 1. destruct (stage1_run E s1) as [[r|e|] s2] eqn:E1; [|discriminate Hr|discriminate Hr].
  assert (Ht1 : tally1 (s_o s1) = Some (md, Some (s1_evals st0, s1_trials st0))) by (rewrite Ho; exact Ht).
  destruct (u_stage1 E Hcb HE s1 md _ _ _ _ Ht1 Hm E1) as (first & trials & later & cand & c & new1 & U1 & U2 & U3 & U4 & U5 & U6 & U7 & U8 & U9).
  rewrite Ho in U5, U6. fold n in U6. rewrite U6, ksel_sqrt in U7 by exact Hn. fold k in U7.
  assert (X : exists new2, tally1 (s_o s') = tally1 (s_o s2) /\ new = new2 ++ trace s2 /\ Forall other new2).
  { assert (Y : forall A (m : OM A) a, keeps tally1 m -> emits other m -> m s2 = (a, ends s' new) ->
      exists new2, tally1 (s_o s') = tally1 (s_o s2) /\ new = new2 ++ trace s2 /\ Forall other new2).
    { intros A m a K M G. specialize (K s2). destruct (M s2) as (new2 & M1 & M2). rewrite G in K, M1. exists new2. auto. }
    destruct r as [[refs objs]|].
    - eapply Y; [| |exact Hr]; [apply u_stage2; exact Hcb|apply o_stage2].
    - eapply Y; [| |exact Hr]; [apply u_final|unfold final_set; em]. }
  destruct X as (new2 & X1 & X2 & X3). rewrite U1 in X1.
  destruct (tally_observing _ _ _ _ Hm X1) as (st & T1 & T2 & T3).
  exists st, first, later, cand, c. rewrite U2, Htr, app_nil_r in X2. subst new.
  split; [exact T1|]. split; [rewrite ev1_app, (ev1_other _ X3), app_nil_r; exact U3|]. split; [exact U6|].
  split; [apply in_or_app; right; exact U4|]. split; [exact U5|]. split; [exact T2|]. split; [rewrite T3, U7; reflexivity|]. rewrite <- U7. exact U9.
Qed.

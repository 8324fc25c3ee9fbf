(** * Observers do not change the optimization (C38) *)
From Coq Require Import ZArith NArith List Bool Arith Lia String.
From Verif Require Import F64 Base Builders Types Filters Runner Observer Env EnvSpec
  ScatterSearch Codec Checkpoint Oqnlp Spec SpecStage2 Wp Actions RunP SetP SimP ClockFreeP.
Import ListNotations.
Local Open Scope monad_scope.

Definition freq_ok (ob : option observer) : Prop := forall o, ob = Some o -> ob_frequency o <> 0.
Section Obs.
Context (E : env) (Hcb : forall n o, ob_frequency o <> 0 -> ob_frequency (e_callback E n o) <> 0).
Definition same_but_observer (s t : st) : Prop :=
  (exists ob, s_o t = set_o_observer ob (s_o s)) /\ freq_ok (o_observer (s_o s)) /\ freq_ok (o_observer (s_o t)) /\
  w_disk (s_w t) = w_disk (s_w s) /\ w_tick (s_w t) = w_tick (s_w s).
Notation R := same_but_observer.
Notation sim := (sim R).
Definition vo (o o' : oqnlp) : Prop := exists ob, o' = set_o_observer ob o /\ freq_ok (o_observer o) /\ freq_ok ob.
Lemma b_oqnlp : sim vo the_oqnlp the_oqnlp.
Proof.
  intros s t H. split; [|exact H]. destruct H as ((ob & H1) & H2 & H3 & H4). simpl. exists ob. split; [exact H1|]. split; [exact H2|].
  rewrite H1 in H3. exact H3.
Qed.
Lemma b_upd : forall f, (forall ob o, f (set_o_observer ob o) = set_o_observer ob (f o)) -> 
  (forall o, o_observer (f o) = o_observer o) -> sim eq (upd f) (upd f).
Proof.
  intros f H H'. apply sim_modify. intros s t ((ob & H1) & H2 & H3 & H4). unfold R in *. simpl. rewrite !H'.
  split; [exists ob; rewrite H1; apply H|]. auto.
Qed.
Definition keeps_freq (f : observer -> observer) : Prop := forall o, ob_frequency (f o) = ob_frequency o.
Lemma freq_map : forall f ob, keeps_freq f -> freq_ok ob -> freq_ok (option_map f ob).
Proof. intros f [o|] Hf H o' Ho; simpl in Ho; [|discriminate]. injection Ho as <-. rewrite Hf. apply H; reflexivity. Qed.
Lemma b_obs : forall f g, keeps_freq f -> keeps_freq g -> sim eq (obs f) (obs g).
Proof.
  intros f g Hf Hg. apply sim_modify. intros s t ((ob & H1) & H2 & H3 & H4). unfold R in *. simpl.
  split; [eexists; rewrite H1; reflexivity|]. auto using freq_map.
Qed.
Lemma k1 : forall f, keeps_freq (upd_stage1 f).
Proof. intros f o. unfold upd_stage1. destruct (should_observe_stage1 o); [|reflexivity]. destruct (ob_stage1 o); reflexivity. Qed.
Lemma k2 : forall f, keeps_freq (upd_stage2 f).
Proof. intros f o. unfold upd_stage2. destruct (should_observe_stage2 o); [|reflexivity]. destruct (ob_stage2 o); reflexivity. Qed.
Lemma k3 : forall f, keeps_freq (upd_stage2_any f).
Proof. intros f o. unfold upd_stage2_any. destruct (ob_stage2 o); reflexivity. Qed.
Lemma k4 : keeps_freq mark_stage1_complete. Proof. intro; reflexivity. Qed.
Lemma k5 : keeps_freq mark_stage2_started. Proof. intro; reflexivity. Qed.
Hint Resolve k1 k2 k3 k4 k5 : core.
Lemma b_emit : forall l l', sim eq (emit l) (emit l').
Proof. intros l l'. apply sim_modify. intros s t H. exact H. Qed.
Lemma b_tick : sim eq tick tick.
Proof. intros s t (H1 & H2 & H3 & H4 & H5). simpl. rewrite H5. repeat split; simpl; auto. Qed.
Lemma b_on_disk : forall A (m : DM A), sim eq (on_disk m) (on_disk m).
Proof.
  intros A m s t (H1 & H2 & H3 & H4 & H5). unfold on_disk. rewrite H4.
  destruct (m (w_disk (s_w s))) as [[a|e|] d]; simpl; (split; [reflexivity|]); unfold R; simpl; rewrite H5; auto.
Qed.
Lemma b_of_solver : forall A B (V : A -> B -> Prop) (r : outcome ls_error A) r', vrel V r r' -> sim V (of_solver r) (of_solver r').
Proof. intros A B V [a|e|] [b|e'|] H; simpl in H; try contradiction; subst; [apply sim_ret|apply sim_fail|apply sim_panic]; auto. Qed.
Lemma tracked : forall ty cfg x a b, vrel (fun r r' => fst r = fst r') (solve_tracked E ty cfg x a) (solve_tracked E ty cfg x b).
Proof.
  intros ty cfg x a b.
  assert (G : forall c, match solve_tracked E ty cfg x c with Ok r => Ok (fst r) | Err e => Err e | Panic => Panic end = solve (e_ext E) (e_problem E) ty cfg x).
  { intro c. pose proof (track_irrelevant (e_ext E) (e_problem E) ty cfg x true false) as H. unfold solve_tracked, solve in *. destruct c.
    - destruct (solve_with_tracking (e_ext E) (e_problem E) ty cfg x true) as [[? ?]|e|], (solve_with_tracking (e_ext E) (e_problem E) ty cfg x false) as [[? ?]|e'|]; simpl in *; congruence.
    - destruct (solve_with_tracking (e_ext E) (e_problem E) ty cfg x false) as [[? ?]|e'|]; reflexivity. }
  pose proof (G a) as Ga. pose proof (G b) as Gb. rewrite <- Gb in Ga.
  destruct (solve_tracked E ty cfg x a), (solve_tracked E ty cfg x b); simpl in *; try exact I; congruence.
Qed.
Ltac red_o := cbn [o_params o_merit o_df o_solver_type o_solver_config o_set o_max_time o_batch o_parallel o_target
  o_exclude o_cp o_iteration o_ref o_unchanged o_seed o_custom o_abs_tol o_rel_tol set_o_observer] in *.
Ltac bs1 :=
  match goal with
  | |- SimP.sim _ _ (bind the_oqnlp _) _ => eapply sim_bind; [apply b_oqnlp|]; let o := fresh "o" in let ob := fresh "ob" in intros o ? (ob & -> & ? & ?);
      change (target_reached E (set_o_observer ob o)) with (target_reached E o); red_o
  | |- SimP.sim _ _ (bind _ _) _ => eapply sim_bind with (V := eq); [|intros ? ? <-]
  | |- SimP.sim _ _ (ret _) _ => apply sim_ret; auto
  | |- SimP.sim _ _ (fail _) _ => apply sim_fail
  | |- SimP.sim _ _ panic _ => apply sim_panic
  | |- SimP.sim _ _ (upd _) _ => apply b_upd; reflexivity
  | |- SimP.sim _ _ (obs _) _ => apply b_obs; auto
  | |- SimP.sim _ _ (emit _) _ => apply b_emit
  | |- SimP.sim _ _ tick _ => apply b_tick
  | |- SimP.sim _ _ (on_disk _) _ => apply b_on_disk
  | |- SimP.sim _ _ (unwrap _) _ => apply sim_unwrap
  | |- SimP.sim _ _ (of_result _) _ => apply sim_of_result; apply vrel_eq
  | |- SimP.sim _ _ (let '(_, _) := ?x in _) _ => destruct x
  | |- SimP.sim _ _ (if ?b then _ else _) _ => destruct b
  | |- SimP.sim _ _ (match ?x with _ => _ end) _ => destruct x
  end.
Ltac bs := repeat bs1.
Lemma b_process : forall sol, sim eq (process_local_solution E sol) (process_local_solution E sol).
Proof. intro sol. unfold process_local_solution, set_solutions, set_threshold, add_to_filter. bs. Qed.
Lemma invoke_freq : forall o o' msgs, ob_frequency o <> 0 -> invoke_callback (e_callback E) o = (o', msgs) -> ob_frequency o' <> 0.
Proof.
  intros o o' msgs H. unfold invoke_callback. destruct (ob_callback o) as [[n| | |]|]; intro Hx; try (injection Hx as <- _; auto).
  unfold default_callback in Hx. destruct (match obs_stage1 o with Some s => _ | None => false end); [injection Hx as <- _; auto|].
  destruct (obs_stage2 o); [|injection Hx as <- _; auto]. destruct (_ <? _); [|injection Hx as <- _; auto].
  destruct (ob_filter o); injection Hx as <- _; auto.
Qed.
(** a callback changes nothing but the observer *)
Lemma callback_only : forall i s, exists ob tr, callback E i s = (Ok tt, mk_st (set_o_observer ob (s_o s)) (mk_world (w_disk (s_w s)) (w_tick (s_w s)) tr)) /\
  (freq_ok (o_observer (s_o s)) -> freq_ok ob).
Proof.
  intros i [[]  [d t tr]]. unfold callback, bind, the_oqnlp, get, ret, bind. simpl.
  destruct o_observer as [ob|]; [|exists None, tr; split; [reflexivity|auto]].
  destruct (ob_callback ob) eqn:Hc; [|exists (Some ob), tr; split; [reflexivity|auto]].
  destruct (invoke_callback (e_callback E) ob) as [ob' msgs] eqn:Hi. exists (Some ob'). eexists. split; [reflexivity|].
  intros Hf o Ho. injection Ho as <-. apply (invoke_freq _ _ _ (Hf _ eq_refl) Hi).
Qed.
Lemma callback_at_only : forall i s, freq_ok (o_observer (s_o s)) -> exists ob tr, callback_at E i s = (Ok tt, mk_st (set_o_observer ob (s_o s)) (mk_world (w_disk (s_w s)) (w_tick (s_w s)) tr)) /\
  freq_ok ob.
Proof.
  intros i s Hf. unfold callback_at. unfold bind, the_oqnlp, get, ret, bind. simpl.
  assert (N : exists ob tr, (Ok tt : outcome oq_error unit, s) = (Ok tt, mk_st (set_o_observer ob (s_o s)) (mk_world (w_disk (s_w s)) (w_tick (s_w s)) tr)) /\ freq_ok ob).
  { destruct s as [[] [d t tr]]. simpl in *. eexists; exists tr. split; [unfold set_o_observer; simpl; reflexivity|exact Hf]. }
  destruct (o_observer (s_o s)) as [ob|] eqn:Ho; [|exact N].
  unfold should_invoke_callback. destruct (ob_callback ob); [|exact N].
  specialize (Hf ob eq_refl) as Hf'. destruct (ob_frequency ob) as [|n] eqn:Hq; [congruence|].
  destruct (_ =? 0); [|exact N]. destruct (callback_only (Some i) s) as (ob' & tr & H1 & H2). exists ob', tr. split; auto. apply H2. rewrite Ho. auto.
Qed.
Lemma b_callback : forall i j, sim eq (callback E i) (callback E j).
Proof.
  intros i j s t ((ob & H1) & H2 & H3 & H4 & H5).
  destruct (callback_only i s) as (ob1 & tr1 & -> & F1). destruct (callback_only j t) as (ob2 & tr2 & -> & F2).
  simpl. split; [reflexivity|]. unfold R. simpl. rewrite H1. split; [exists ob2; reflexivity|]. auto.
Qed.
Lemma b_callback_at : forall i j, sim eq (callback_at E i) (callback_at E j).
Proof.
  intros i j s t ((ob & H1) & H2 & H3 & H4 & H5).
  destruct (callback_at_only i s H2) as (ob1 & tr1 & -> & F1). destruct (callback_at_only j t H3) as (ob2 & tr2 & -> & F2).
  simpl. split; [reflexivity|]. unfold R. simpl. rewrite H1. split; [exists ob2; reflexivity|]. auto.
Qed.
Lemma b_save_now : forall cc, sim eq (save_now E cc) (save_now E cc).
Proof. intros cc. unfold save_now, create_checkpoint. bs. Qed.
Lemma b_maybe_save : sim eq (maybe_save_checkpoint E) (maybe_save_checkpoint E).
Proof. unfold maybe_save_checkpoint. bs. apply b_save_now. Qed.
Lemma b_final_save : sim eq (maybe_save_final_checkpoint E) (maybe_save_final_checkpoint E).
Proof. unfold maybe_save_final_checkpoint. bs. apply b_save_now. Qed.
Lemma b_begin : forall i u, sim eq (begin_iteration E i u) (begin_iteration E i u).
Proof. intros. unfold begin_iteration. bs. Qed.
Lemma b_obs_iteration : forall i u, sim eq (obs_iteration i u) (obs_iteration i u).
Proof. intros. unfold obs_iteration. bs. Qed.
Lemma b_obs_search : forall a n a' n', sim eq (obs_search a n) (obs_search a' n').
Proof. intros. unfold obs_search. bs. Qed.
Lemma b_count : forall u, sim eq (count_unchanged u) (count_unchanged u).
Proof. intros. unfold count_unchanged, adjust_threshold. bs. Qed.
Lemma b_threshold : forall v, sim eq (set_threshold v) (set_threshold v).
Proof. intros. unfold set_threshold. bs. Qed.
Ltac bs3 := repeat first [ apply b_process | apply b_callback | apply b_callback_at | apply b_maybe_save | apply b_final_save
  | apply b_begin | apply b_obs_iteration | apply b_obs_search | apply b_count | apply b_threshold
  | match goal with
    | |- SimP.sim _ _ (let _ := _ in _) _ => cbv zeta
    | |- SimP.sim _ _ (bind (of_solver _) _) _ => eapply sim_bind; [apply b_of_solver, tracked|]; let r := fresh "r" in let r' := fresh "r'" in intros r r' Hr; rewrite <- Hr; clear Hr
    end | bs1 ].
Lemma b_one : forall objs i p u, sim eq (process_one_seq E objs i p u) (process_one_seq E objs i p u).
Proof.
  intros. unfold process_one_seq, emit_eval. do 4 (bs1; [bs3|]). bs1; [bs3|].
  bs1. change (should_start_local (set_o_observer ob o)) with (should_start_local o). bs3.
Qed.
Lemma b_batch_seq : forall start res objs b u,
  sim eq (process_batch_sequential E start res objs b u) (process_batch_sequential E start res objs b u).
Proof.
  intros start res objs b; induction b as [|[i p] b IH]; intros u; simpl; [bs|].
  destruct (res && (i <? start)); [apply IH|]. eapply sim_bind; [apply b_one|]. intros [u' stop] ? <-.
  destruct stop; [bs|apply IH].
Qed.
Lemma b_quicks : forall l u, sim eq (process_quicks E l u) (process_quicks E l u).
Proof. induction l as [|[[i p] v] l IH]; intros u; simpl; unfold process_quick; bs3; apply IH. Qed.
Lemma b_par_results : forall l l' u, Forall2 (fun x y => fst x = fst y /\ fst (snd x) = fst (snd y)) l l' ->
  sim eq (process_par_results E l u) (process_par_results E l' u).
Proof.
  induction l as [|[[[i p] v] [x n]] l IH]; intros l' u H; inversion H as [|y y' ? ? [H1 H2] H3]; subst; simpl; [bs|].
  destruct y' as [[[i' p'] v'] [x' n']]. simpl in *. injection H1 as <- <- <-. subst x'.
  unfold process_par_result. bs3. apply IH; auto.
Qed.
Lemma b_singles : forall l u, sim eq (process_singles E l u) (process_singles E l u).
Proof. induction l as [|[[i p] v] l IH]; intros u; simpl; unfold process_single; [bs|]. bs3; apply IH. Qed.
Lemma collect_rel : forall A B C (V : B -> C -> Prop) (f : A -> outcome oq_error B) (g : A -> outcome oq_error C) l pick,
  (forall a, vrel V (f a) (g a)) -> vrel (Forall2 V) (par_collect pick (map f l)) (par_collect pick (map g l)).
Proof.
  intros A B C V f g l pick H. unfold par_collect.
  assert (H1 : existsb oc_panic (map f l) = existsb oc_panic (map g l)).
  { induction l as [|a l IH]; simpl; [reflexivity|]. rewrite IH. specialize (H a). destruct (f a), (g a); simpl in *; try contradiction; reflexivity. }
  assert (H2 : oc_errs (map f l) = oc_errs (map g l)).
  { clear H1. induction l as [|a l IH]; simpl; [reflexivity|]. unfold oc_errs in *. simpl. rewrite IH. specialize (H a). destruct (f a), (g a); simpl in *; try contradiction; congruence. }
  rewrite <- H1, <- H2. destruct (existsb oc_panic (map f l)) eqn:Hp; [exact I|].
  destruct (oc_errs (map f l)) eqn:He; [|simpl; reflexivity]. simpl.
  clear H1 H2 Hp. induction l as [|a l IH]; simpl; [constructor|]. unfold oc_errs, oc_vals in *. simpl in *. specialize (H a).
  destruct (f a), (g a); simpl in *; try contradiction; try discriminate; auto.
Qed.
Lemma b_batch_par : forall start res objs b u,
  sim eq (process_batch_parallel E start res objs b u) (process_batch_parallel E start res objs b u).
Proof.
  intros. unfold process_batch_parallel. set (fb := if res then _ else _). clearbody fb.
  destruct (match fb with [] => true | _ => false end); [bs|].
  do 4 (bs1; [bs3|]). bs1. cbv zeta. change (should_start_local (set_o_observer ob o)) with (should_start_local o).
  destruct (partition _ a1) as [loc quick]. bs1; [bs3|]. bs1; [apply b_quicks|]. bs1. bs1; [|bs].
  destruct (_ && _); [|apply b_singles]. bs1; [bs3|]. eapply sim_bind.
  - apply sim_of_result. apply collect_rel with (V := fun x y => fst x = fst y /\ fst (snd x) = fst (snd y)). intro c.
    pose proof (tracked (p_solver_type (o_params o0)) (p_solver_config (o_params o0)) (snd (fst c)) (observes2 o0)
      (observes2 (set_o_observer ob0 o0))) as T.
    destruct (solve_tracked E _ _ _ (observes2 o0)), (solve_tracked E _ _ _ (observes2 _)); simpl in *; try contradiction; subst; auto.
  - intros rs rs' Hrs. apply b_par_results. exact Hrs.
Qed.
Lemma b_loop : forall size start res objs l u,
  sim eq (stage2_loop E size start res objs l u) (stage2_loop E size start res objs l u).
Proof.
  intros size start res objs l; induction l as [|b l IH]; intros u; simpl; [bs|].
  bs1. bs1; [bs|]. destruct a; [bs|]. bs1; [bs|].
  eapply sim_bind with (V := eq); [destruct (1 <? size); [apply b_batch_par|apply b_batch_seq]|intros u' ? <-]. bs; apply IH.
Qed.
Lemma b_stage2 : forall res refs objs u, sim eq (stage2_run E res refs objs u) (stage2_run E res refs objs u).
Proof.
  intros. unfold stage2_run, begin_stage2, final_set. bs1; [bs|]. bs1. bs1; [bs|]. cbv zeta.
  change (batch_size E (set_o_observer ob o)) with (batch_size E o). bs3; apply b_loop.
Qed.

(** ** The scatter search *)
Definition srel (s t : ss) : Prop := exists ob log, t = mk_ss (ss_params s) (ss_ref s) (ss_objs s) (ss_lower s)
  (ss_upper s) (ss_rng s) (ss_parallel s) ob (ss_custom s) (ss_ctx s) log /\
  freq_ok (ss_observer s) /\ freq_ok ob.
Notation ssim := (SimP.sim (E := ss_error) srel).
Lemma s_emit : forall l l' s t, srel s t -> srel (ss_emit l s) (ss_emit l' t).
Proof. intros l l' s t (ob & log & -> & H1 & H2). do 2 eexists. split; [reflexivity|]. auto. Qed.
Lemma s_ref : forall a b s t, srel s t -> srel (ss_with_ref a b s) (ss_with_ref a b t).
Proof. intros a b s t (ob & log & -> & H1 & H2). do 2 eexists. split; [reflexivity|]. auto. Qed.
Lemma s_rng : forall a s t, srel s t -> srel (ss_with_rng a s) (ss_with_rng a t).
Proof. intros a s t (ob & log & -> & H1 & H2). do 2 eexists. split; [reflexivity|]. auto. Qed.
Lemma s_obs : forall f g, keeps_freq f -> keeps_freq g -> ssim eq (ss_obs f) (ss_obs g).
Proof. intros f g Hf Hg. apply sim_modify. intros s t (ob & log & -> & H1 & H2). do 2 eexists. split; [reflexivity|]. simpl. auto using freq_map. Qed.
Lemma s_callback : ssim eq (ss_callback E) (ss_callback E).
Proof.
  intros s t (ob & log & -> & H1 & H2). unfold ss_callback, bind, get. simpl.
  assert (G : forall s0, freq_ok (ss_observer s0) -> exists ob' log', 
    (match ss_observer s0 with None => ret tt | Some o => match ob_callback o with None => ret tt | Some _ =>
       let '(o', msgs) := invoke_callback (e_callback E) o in
       modify (fun s => ss_emit (SsCallback o :: map SsPrint msgs) (ss_set_observer (Some o') s)) end end) s0
    = (Ok tt : outcome ss_error unit, mk_ss (ss_params s0) (ss_ref s0) (ss_objs s0) (ss_lower s0)
       (ss_upper s0) (ss_rng s0) (ss_parallel s0) ob' (ss_custom s0) (ss_ctx s0) log') /\ freq_ok ob').
  { intros [] Hf. simpl in *. destruct ss_observer as [o|]; [|exists None, ss_log; auto].
    destruct (ob_callback o) eqn:Hc; [|exists (Some o), ss_log; auto].
    destruct (invoke_callback (e_callback E) o) as [o' msgs] eqn:Hi. exists (Some o'). eexists. split; [reflexivity|].
    intros x Hx. injection Hx as <-. apply (invoke_freq _ _ _ (Hf _ eq_refl) Hi). }
  destruct (G s H1) as (ob1 & log1 & G1 & F1). rewrite G1.
  destruct (G (mk_ss (ss_params s) (ss_ref s) (ss_objs s) (ss_lower s) (ss_upper s) (ss_rng s) (ss_parallel s) ob (ss_custom s) (ss_ctx s) log) H2) as (ob2 & log2 & G2 & F2).
  simpl in G2. rewrite G2. simpl. split; [reflexivity|]. do 2 eexists. split; [reflexivity|]. auto.
Qed.
Ltac ss1 :=
  match goal with
  | |- SimP.sim _ _ (bind get _) _ => eapply sim_bind; [apply sim_get|]; intros ? ? (? & ? & -> & ? & ?);
      cbn [ss_params ss_ref ss_objs ss_lower ss_upper ss_rng ss_parallel ss_observer ss_custom ss_ctx ss_log]
  | |- SimP.sim _ _ (bind _ _) _ => eapply sim_bind with (V := eq); [|intros ? ? <-]
  | |- SimP.sim _ _ (ret _) _ => apply sim_ret; auto
  | |- SimP.sim _ _ (fail _) _ => apply sim_fail
  | |- SimP.sim _ _ panic _ => apply sim_panic
  | |- SimP.sim _ _ (modify _) _ => apply sim_modify; auto using s_emit, s_ref, s_rng
  | |- SimP.sim _ _ (ss_obs _) _ => apply s_obs; auto
  | |- SimP.sim _ _ (ss_callback _) _ => apply s_callback
  | |- SimP.sim _ _ (unwrap _) _ => apply sim_unwrap
  | |- SimP.sim _ _ (of_result _) _ => apply sim_of_result; apply vrel_eq
  | |- SimP.sim _ _ (let _ := _ in _) _ => cbv zeta
  | |- SimP.sim _ _ (let '(_, _) := ?x in _) _ => destruct x
  | |- SimP.sim _ _ (if ?b then _ else _) _ => destruct b
  | |- SimP.sim _ _ (match ?x with _ => _ end) _ => destruct x
  end.
Ltac sst := repeat ss1.
Lemma s_stratified : forall n, ssim eq (generate_stratified_samples E n) (generate_stratified_samples E n).
Proof. intro n. unfold generate_stratified_samples. sst. Qed.
Lemma s_refill : forall pop cs fuel a l, ssim eq (refill E pop cs fuel a l) (refill E pop cs fuel a l).
Proof.
  intros pop cs. induction fuel as [|fuel IH]; intros a l; simpl; [sst|]. destruct (_ <? _); [|sst].
  eapply sim_bind; [apply s_stratified|]. intros ? ? <-. apply IH.
Qed.
Lemma s_diversify : forall refs cs, ssim eq (diversify_reference_set E refs cs) (diversify_reference_set E refs cs).
Proof.
  intros. unfold diversify_reference_set. ss1. cbv zeta. eapply sim_bind; [apply s_stratified|]. intros c ? <-.
  eapply sim_bind with (V := eq); [|intros ? ? <-; sst]. destruct (match cs with [] => true | _ => false end); [sst|].
  eapply sim_bind; [apply s_refill|]. intros [c1 n] ? <-. sst.
Qed.
Lemma s_init : ssim eq (initialize_reference_set E) (initialize_reference_set E).
Proof. unfold initialize_reference_set. ss1. cbv zeta. eapply sim_bind; [apply s_diversify|]. intros refs ? <-. cbv zeta. sst. Qed.
Lemma s_trials : ssim eq (generate_trial_points E) (generate_trial_points E).
Proof. unfold generate_trial_points. sst. Qed.
Lemma s_update : forall l, ssim eq (update_reference_set E l) (update_reference_set E l).
Proof.
  intro l. unfold update_reference_set. destruct (match l with [] => true | _ => false end); [sst|]. ss1. cbv zeta.
  change (dist_threshold E (mk_ss (ss_params a) (ss_ref a) (ss_objs a) (ss_lower a) (ss_upper a) (ss_rng a) (ss_parallel a) x (ss_custom a) (ss_ctx a) x0)) with (dist_threshold E a).
  sst.
Qed.
Lemma s_best : ssim eq (ss_best_solution E) (ss_best_solution E).
Proof. unfold ss_best_solution. sst. Qed.
Lemma s_run : ssim eq (ss_run E) (ss_run E).
Proof.
  unfold ss_run. eapply sim_bind; [apply s_init|intros ? ? _]. do 2 (ss1; [sst|]). ss1. do 2 (ss1; [sst|]).
  eapply sim_bind; [apply s_trials|intros tr ? <-]. eapply sim_bind; [apply s_update|intros ? ? _]. ss1. do 2 (ss1; [sst|]).
  eapply sim_bind; [apply s_best|intros ? ? <-]. sst.
Qed.
Lemma b_stage1_init : forall o ob t, freq_ok (o_observer o) -> freq_ok ob ->
  vrel srel (stage1_init E o t) (stage1_init E (set_o_observer ob o) t).
Proof.
  intros o ob t H1 H2. unfold stage1_init. red_o. destruct (ss_new E (o_params o) t) eqn:Hn; simpl; auto.
  assert (Ha : ss_observer a = None).
  { unfold ss_new in Hn. destruct (bad_bound _ _); [discriminate|]. injection Hn as <-. reflexivity. }
  assert (HN : freq_ok None) by (intros ? ?; discriminate).
  unfold srel. destruct (observes1 o), (observes1 (set_o_observer ob o)), (o_custom o); destruct a; simpl in *; subst;
    do 2 eexists; (split; [reflexivity|]); auto.
Qed.
Lemma b_set_observer : forall ob ob' (b b' : bool), freq_ok ob -> freq_ok ob' ->
  sim eq (if b then upd (set_o_observer ob) else ret tt) (if b' then upd (set_o_observer ob') else ret tt).
Proof.
  intros ob ob' b b' H1 H2 s t ((ob0 & G1) & G2 & G3 & G4 & G5).
  destruct b, b'; simpl; (split; [reflexivity|]); unfold R; simpl; (split; [|auto]); rewrite G1; destruct (s_o s); eexists; reflexivity.
Qed.
Lemma b_stage1 : sim eq (stage1_run E) (stage1_run E).
Proof.
  unfold stage1_run, end_stage1, stage1_enter. bs1. bs1; [bs|].
  pose proof (b_stage1_init o ob a H H0) as HI.
  destruct (stage1_init E o a) as [s3|e|], (stage1_init E (set_o_observer ob o) a) as [t3|e'|]; simpl in HI; try contradiction; subst; try (bs; fail).
  destruct (s_run s3 t3 HI) as [K1 K2].
  destruct (ss_run E s3) as [res sf], (ss_run E t3) as [res' tf]. simpl in K1, K2. apply vrel_eq_inv in K1. subst res'.
  destruct K2 as (obf & log & -> & F1 & F2). cbn [ss_observer ss_log].
  eapply sim_bind; [apply b_set_observer; auto|intros ? ? _].
  bs3.
Qed.
Lemma b_resume : sim eq (try_resume_from_checkpoint E) (try_resume_from_checkpoint E).
Proof. unfold try_resume_from_checkpoint, restore_from_checkpoint. bs. Qed.
Lemma b_run : sim eq (run E) (run E).
Proof.
  unfold run, final_set. eapply sim_bind; [apply b_resume|]. intros b ? <-. destruct b.
  - bs1. apply b_stage2.
  - eapply sim_bind; [apply b_stage1|]. intros [[refs objs]|] ? <-; [apply b_stage2|]. bs.
Qed.
End Obs.

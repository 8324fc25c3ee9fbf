(** * More iterations (C106) *)
From Coq Require Import ZArith NArith List Bool Arith Lia String.
From Verif Require Import F64 Base Builders Types Filters Runner Observer Env EnvSpec
  ScatterSearch Codec Checkpoint Oqnlp Spec SpecStage2 SpecObserver SpecMore Wp Actions RunP SetP SimP ClockFreeP LeaderP FrameP SeqP3 ResumeP AgainP.
Import ListNotations.
Local Open Scope monad_scope.

(** ** The scatter search *)
Section Search.
Context (E : env) (n : nat).
Definition ss_asking (s : ss) : ss :=
  mk_ss (p_asking n (ss_params s)) (ss_ref s) (ss_objs s) (ss_lower s) (ss_upper s) (ss_rng s) (ss_parallel s)
        (ss_observer s) (ss_custom s) (ss_ctx s) (ss_log s).
Definition asks (s t : ss) : Prop := t = ss_asking s.
Notation sm := (sim asks eq).
Lemma k_get A (k k' : ss -> M ss ss_error A) : (forall s, sm (k s) (k' (ss_asking s))) -> sm (bind get k) (bind get k').
Proof. intros H s t L. pose proof L as L'. unfold asks in L'. subst t. unfold bind, get. exact (H s s _ L). Qed.
Lemma k_modify f : (forall s, f (ss_asking s) = ss_asking (f s)) -> sm (modify f : M ss ss_error unit) (modify f).
Proof. intros H. apply sim_modify. intros s t ->. apply H. Qed.
Ltac s1 :=
  match goal with
  | |- sim _ eq (bind get _) (bind get _) => apply k_get; let s := fresh "s" in intros s;
      cbn [ss_asking ss_params ss_ref ss_objs ss_lower ss_upper ss_rng ss_parallel ss_observer ss_custom ss_ctx p_asking p_population p_seed]
  | |- sim _ eq (bind _ _) (bind _ _) => eapply (sim_bind asks _ _ _ _ eq eq); [|intros ? ? <-]
  | |- sim _ eq (ret _) (ret _) => apply sim_ret; reflexivity
  | |- sim _ eq (fail _) (fail _) => apply sim_fail
  | |- sim _ eq panic panic => apply sim_panic
  | |- sim _ eq (unwrap _) (unwrap _) => apply sim_unwrap
  | |- sim _ eq (of_result _) (of_result _) => apply sim_of_result, vrel_eq
  | |- sim _ eq (modify _) (modify _) => apply k_modify; intro; reflexivity
  | |- sim _ eq (let '(_, _) := ?x in _) _ => destruct x
  | |- sim _ eq (if ?b then _ else _) _ => destruct b
  | |- sim _ eq (match ?x with _ => _ end) _ => destruct x
  end.
Ltac ssim := repeat s1.
Lemma k_samples m : sm (generate_stratified_samples E m) (generate_stratified_samples E m).
Proof. unfold generate_stratified_samples. ssim. Qed.
Lemma k_refill pop cs fuel : forall a c, sm (refill E pop cs fuel a c) (refill E pop cs fuel a c).
Proof. induction fuel as [|f IH]; intros a c; simpl; [ssim|]. s1; [|ssim]. s1; [apply k_samples|apply IH]. Qed.
Lemma k_diversify refs cs : sm (diversify_reference_set E refs cs) (diversify_reference_set E refs cs).
Proof.
  unfold diversify_reference_set. s1. s1; [apply k_samples|]. s1; [|ssim].
  s1; [s1|]. s1; [apply k_refill|]. ssim.
Qed.
Lemma k_init : sm (initialize_reference_set E) (initialize_reference_set E).
Proof. unfold initialize_reference_set. s1. s1; [apply k_diversify|]. ssim. Qed.
Lemma k_trials : sm (generate_trial_points E) (generate_trial_points E).
Proof. unfold generate_trial_points. ssim. Qed.
Lemma k_update trials : sm (update_reference_set E trials) (update_reference_set E trials).
Proof.
  unfold update_reference_set. s1; [s1|]. s1. change (dist_threshold E (ss_asking s)) with (dist_threshold E s). ssim.
Qed.
Lemma k_best : sm (ss_best_solution E) (ss_best_solution E).
Proof. unfold ss_best_solution. ssim. Qed.
Lemma k_obs f : sm (ss_obs f) (ss_obs f).
Proof. unfold ss_obs. ssim. Qed.
Lemma k_callback : sm (ss_callback E) (ss_callback E).
Proof. unfold ss_callback. ssim. Qed.
Lemma k_run : sm (ss_run E) (ss_run E).
Proof.
  unfold ss_run. s1; [apply k_init|]. s1; [apply k_obs|]. s1; [apply k_callback|]. s1. s1; [apply k_obs|].
  s1; [apply k_callback|]. s1; [apply k_trials|]. s1; [apply k_update|]. s1. s1; [apply k_obs|]. s1; [apply k_callback|].
  s1; [apply k_best|]. ssim.
Qed.
End Search.

(** ** The optimizer *)
Section More.
Context (E : env) (n : nat) (T0 T1 : list event) (cfg : params * bool * option nat * solver_type * solver_config).
Definition settings (o : oqnlp) : params * bool * option nat * solver_type * solver_config :=
  (o_params o, o_parallel o, o_batch o, o_solver_type o, o_solver_config o).
Definition along (s t : st) : Prop :=
  settings (s_o s) = cfg /\ s_o t = asking n (s_o s) /\ w_tick (s_w t) = w_tick (s_w s) /\
  d_tick (w_disk (s_w t)) = d_tick (w_disk (s_w s)) /\
  map fst (d_files (w_disk (s_w t))) = map fst (d_files (w_disk (s_w s))) /\
  exists l l', trace s = l ++ T0 /\ trace t = l' ++ T1 /\ steps l' = steps l.
Notation sim := (sim along).
Lemma m_oqnlp : sim (fun o o' => o' = asking n o /\ settings o = cfg) the_oqnlp the_oqnlp.
Proof. intros s t H. pose proof H as H'. destruct H' as (H0 & H1 & _). simpl. auto. Qed.
Lemma m_upd f : (forall o, f (asking n o) = asking n (f o)) -> (forall o, settings (f o) = settings o) -> sim eq (upd f) (upd f).
Proof.
  intros H G. apply sim_modify. intros s t (H0 & H1 & H2). split; [simpl; rewrite G; exact H0|].
  split; [simpl; rewrite H1; apply H|exact H2].
Qed.
Lemma m_obs f : sim eq (obs f) (obs f). Proof. apply m_upd; reflexivity. Qed.
Lemma m_emit l l' : steps (rev l') = steps (rev l) -> sim eq (emit l) (emit l').
Proof.
  intros H. apply sim_modify. intros s t (H0 & H1 & H2 & H3 & H4 & x & y & H5 & H6 & H7). unfold along, trace in *. simpl.
  rewrite H5, H6. repeat (split; [assumption|]). exists (rev l ++ x), (rev l' ++ y). rewrite !app_assoc.
  repeat split. unfold steps in *. rewrite !flat_map_app, H, H7. reflexivity.
Qed.
Lemma m_tick : sim eq tick tick.
Proof. intros s t (H0 & H1 & H2 & H3 & H4 & H5). simpl. rewrite H2. split; [reflexivity|]. unfold along, trace in *. simpl. auto 10. Qed.
Lemma m_of_solver A (r : outcome ls_error A) : sim eq (of_solver r) (of_solver r).
Proof. destruct r as [a|e|]; [apply sim_ret|apply sim_fail|apply sim_panic]; auto. Qed.
Ltac cs1 :=
  match goal with
  | |- SimP.sim _ _ (bind the_oqnlp _) _ => eapply sim_bind; [apply m_oqnlp|]; let o := fresh "o" in let o' := fresh "o'" in intros o o' [-> ?];
      repeat match goal with
      | |- context [should_start_local (asking n o)] => change (should_start_local (asking n o)) with (should_start_local o)
      | |- context [target_reached E (asking n o)] => change (target_reached E (asking n o)) with (target_reached E o)
      | |- context [observes1 (asking n o)] => change (observes1 (asking n o)) with (observes1 o)
      | |- context [observes2 (asking n o)] => change (observes2 (asking n o)) with (observes2 o)
      end
  | |- SimP.sim _ _ (bind _ _) _ => eapply sim_bind with (V := eq); [|intros ? ? <-]
  | |- SimP.sim _ _ (ret _) _ => apply sim_ret; auto
  | |- SimP.sim _ _ (fail _) _ => apply sim_fail
  | |- SimP.sim _ _ panic _ => apply sim_panic
  | |- SimP.sim _ _ (upd _) _ => apply m_upd; reflexivity
  | |- SimP.sim _ _ (obs _) _ => apply m_obs
  | |- SimP.sim _ _ (emit _) _ => apply m_emit; reflexivity
  | |- SimP.sim _ _ tick _ => apply m_tick
  | |- SimP.sim _ _ (unwrap _) _ => apply sim_unwrap
  | |- SimP.sim _ _ (of_result _) _ => apply sim_of_result; apply vrel_eq
  | |- SimP.sim _ _ (of_solver _) _ => apply m_of_solver
  | |- SimP.sim _ _ (let '(_, _) := ?x in _) _ => destruct x
  | |- SimP.sim _ _ (if ?b then _ else _) (if ?c then _ else _) => change c with b; destruct b
  | |- SimP.sim _ _ (match ?x with _ => _ end) (match ?y with _ => _ end) => change y with x; destruct x
  end.
Ltac cs := repeat cs1.
Lemma m_process sol : sim eq (process_local_solution E sol) (process_local_solution E sol).
Proof. unfold process_local_solution, set_solutions, set_threshold, add_to_filter. cs. Qed.
Lemma m_callback i : sim eq (callback E i) (callback E i).
Proof. unfold callback. cs. Qed.
Lemma m_callback_at i : sim eq (callback_at E i) (callback_at E i).
Proof. unfold callback_at. cs. apply m_callback. Qed.
Lemma m_save_disk cc cp cp' i : sim eq (on_disk (save_checkpoint E cc cp i)) (on_disk (save_checkpoint E cc cp' i)).
Proof.
  intros s t (H0 & H1 & H2 & H3 & H4 & H5).
  destruct s as [o [[fs k] m tr]], t as [o' [[fs' k'] m' tr']]. cbn [s_o s_w w_tick w_disk d_tick d_files] in *. subst o' m' k'.
  unfold trace in H5. cbn [s_w w_trace] in H5.
  unfold on_disk, save_checkpoint, fs_write, next_io, set_files, bind, modify, fail, ret. simpl.
  destruct (e_io E k); simpl; (split; [reflexivity|]); unfold along, trace; simpl;
    (split; [exact H0|]); (split; [reflexivity|]); (split; [reflexivity|]); (split; [reflexivity|]); (split; [|exact H5]); try exact H4; apply put_names; exact H4.
Qed.
Lemma m_save_now cc : sim eq (save_now E cc) (save_now E cc).
Proof.
  unfold save_now. eapply sim_bind with (V := fun _ _ => True).
  - unfold create_checkpoint. eapply sim_bind; [apply m_tick|intros ? ? _]. cs1. apply sim_ret. exact I.
  - intros cp cp' _. cs1. eapply sim_bind; [apply m_emit; reflexivity|intros ? ? _]. eapply sim_bind; [apply m_save_disk|intros ? ? _]. cs.
Qed.
Lemma m_maybe_save : sim eq (maybe_save_checkpoint E) (maybe_save_checkpoint E).
Proof. unfold maybe_save_checkpoint. cs; apply m_save_now. Qed.
Lemma m_begin i u : sim eq (begin_iteration E i u) (begin_iteration E i u).
Proof. unfold begin_iteration. cs. Qed.
Lemma m_obs_iteration i u : sim eq (obs_iteration i u) (obs_iteration i u).
Proof. unfold obs_iteration. cs. Qed.
Lemma m_obs_search a k : sim eq (obs_search a k) (obs_search a k).
Proof. unfold obs_search. cs. Qed.
Lemma m_count u : sim eq (count_unchanged u) (count_unchanged u).
Proof. unfold count_unchanged, adjust_threshold. cs. Qed.
Lemma m_threshold v : sim eq (set_threshold v) (set_threshold v).
Proof. unfold set_threshold. cs. Qed.
Ltac cs3 := repeat first [ apply m_process | apply m_callback | apply m_callback_at | apply m_maybe_save
  | apply m_begin | apply m_obs_iteration | apply m_obs_search | apply m_count | apply m_threshold
  | match goal with |- SimP.sim _ _ (let _ := _ in _) _ => cbv zeta end | cs1 ].
Lemma m_one objs i p u : sim eq (process_one_seq E objs i p u) (process_one_seq E objs i p u).
Proof. unfold process_one_seq, emit_eval. cs3. Qed.
Lemma m_batch_seq start res objs b : forall u,
  sim eq (process_batch_sequential E start res objs b u) (process_batch_sequential E start res objs b u).
Proof.
  induction b as [|[i p] b IH]; intros u; simpl; [cs|].
  destruct (res && (i <? start)); [apply IH|]. eapply sim_bind; [apply m_one|]. intros [u' stop] ? <-.
  destruct stop; [cs|apply IH].
Qed.
Lemma m_quicks : forall l u, sim eq (process_quicks E l u) (process_quicks E l u).
Proof. induction l as [|[[i p] v] l IH]; intros u; simpl; unfold process_quick; cs3; apply IH. Qed.
Lemma m_par_results : forall l u, sim eq (process_par_results E l u) (process_par_results E l u).
Proof. induction l as [|[[[i p] v] [x k]] l IH]; intros u; simpl; unfold process_par_result; [cs|]. cs3; apply IH. Qed.
Lemma m_singles : forall l u, sim eq (process_singles E l u) (process_singles E l u).
Proof. induction l as [|[[i p] v] l IH]; intros u; simpl; unfold process_single; [cs|]. cs3; apply IH. Qed.
Lemma steps_decide o (g : nat * point * f64 -> bool) l :
  steps (rev (map (fun c => EvDecide (fst (fst c)) (snd (fst c)) (snd c) (asking n o) (g c)) l)) =
  steps (rev (map (fun c => EvDecide (fst (fst c)) (snd (fst c)) (snd c) o (g c)) l)).
Proof. induction l as [|c l IH]; [reflexivity|]. unfold steps in *. simpl. rewrite !flat_map_app, IH. reflexivity. Qed.
Lemma m_batch_par start res objs b u :
  sim eq (process_batch_parallel E start res objs b u) (process_batch_parallel E start res objs b u).
Proof.
  unfold process_batch_parallel. set (fb := if res then _ else _). clearbody fb.
  destruct (match fb with [] => true | _ => false end); [cs|].
  do 4 (cs1; [solve [cs3]|]). cs1. cbv zeta.
  destruct (partition _ _) as [local quick].
  eapply sim_bind with (V := eq); [apply m_emit, steps_decide|intros ? ? _].
  eapply sim_bind with (V := eq); [apply m_quicks|intros w ? <-].
  cs3; first [apply m_quicks|apply m_par_results|apply m_singles].
Qed.
Lemma m_stage1 : sim eq (stage1_run E) (stage1_run E).
Proof.
  unfold stage1_run, end_stage1, stage1_enter. cs1. cs1; [apply m_tick|].
  assert (I : match stage1_init E o a, stage1_init E (asking n o) a with
    | Ok x, Ok y => y = ss_asking n x | Err e, Err e' => e' = e | Panic, Panic => True | _, _ => False end).
  { unfold stage1_init, ss_new. cbn [asking p_asking set_o_params o_params p_seed o_parallel o_custom].
    change (observes1 (asking n o)) with (observes1 o).
    destruct (bad_bound 0 _); [reflexivity|]. destruct (o_custom o), (observes1 o); reflexivity. }
  destruct (stage1_init E o a) as [x|e|], (stage1_init E (asking n o) a) as [y|e'|]; try contradiction; [|subst; cs..].
  destruct (k_run E n x y I) as [K1 K2]. unfold asks in K2. destruct (ss_run E x) as [r1 x1], (ss_run E y) as [r2 y1].
  cbn [fst snd] in K1, K2. apply vrel_eq_inv in K1. subst r2 y1. cbn [ss_asking ss_observer ss_log]. cs3.
Qed.

(** ** A longer loop *)
Definition ahead (s t : st) : Prop :=
  exists l l' x, trace s = l ++ T0 /\ trace t = l' ++ T1 /\ steps l' = x ++ steps l.
Lemma along_ahead s t t' : along s t -> (exists new, trace t' = new ++ trace t) -> ahead s t'.
Proof.
  intros (_ & _ & _ & _ & _ & l & l' & H1 & H2 & H3) [new H]. exists l, (new ++ l'), (steps new).
  split; [exact H1|]. split; [rewrite H, H2, app_assoc; reflexivity|].
  unfold steps in *. rewrite flat_map_app, H3. reflexivity.
Qed.
Lemma grows A (m : OM A) : FrameP.frame m -> forall s, exists new, trace (snd (m s)) = new ++ trace s.
Proof.
  intros H s. specialize (H (blank s) (trace s)). change (older (trace s) (blank s)) with (older (w_trace (s_w s)) (blank s)) in H.
  rewrite older_blank in H. rewrite H. exists (trace (snd (m (blank s)))). reflexivity.
Qed.
(** [m'] does what [m] does, and perhaps more *)
Definition pre {A} (m m' : OM A) : Prop := forall s t, along s t -> exists t',
  along (snd (m s)) t' /\ (exists new, trace (snd (m' t)) = new ++ trace t') /\
  ((forall a, fst (m s) <> Ok a) -> m' t = (fst (m s), t')).
Lemma pre_sim A (m m' : OM A) : sim eq m m' -> pre m m'.
Proof.
  intros H s t L. destruct (H s t L) as [H1 H2]. exists (snd (m' t)). split; [exact H2|]. split; [exists []; reflexivity|].
  intros _. apply vrel_eq_inv in H1. rewrite H1. destruct (m' t); reflexivity.
Qed.
Lemma pre_bind A B (V : A -> A -> Prop) (m m' : OM A) (k k' : A -> OM B) :
  sim V m m' -> (forall a b, V a b -> pre (k a) (k' b)) -> pre (bind m k) (bind m' k').
Proof.
  intros H1 H2 s t L. destruct (H1 s t L) as [G1 G2]. unfold bind.
  destruct (m s) as [[a|e|] s1], (m' t) as [[b|e'|] t1]; simpl in *; try contradiction.
  - exact (H2 a b G1 s1 t1 G2).
  - subst e'. exists t1. split; [exact G2|]. split; [exists []; reflexivity|reflexivity].
  - exists t1. split; [exact G2|]. split; [exists []; reflexivity|reflexivity].
Qed.
Lemma m_loop size start res objs b2 : forall b1 u,
  pre (stage2_loop E size start res objs b1 u) (stage2_loop E size start res objs (b1 ++ b2) u).
Proof.
  induction b1 as [|b b1 IH]; intros u.
  - intros s t L. exists t. split; [exact L|]. split; [|intro X; contradiction (X tt eq_refl)]. apply grows, fr_loop.
  - simpl. eapply pre_bind; [apply m_oqnlp|]. intros o o' [-> _]. eapply pre_bind with (V := eq); [cs|]. intros w ? <-.
    destruct w; [apply pre_sim; cs|]. eapply pre_bind with (V := eq); [cs|intros ? ? <-].
    eapply pre_bind with (V := eq); [destruct (1 <? size); [apply m_batch_par|apply m_batch_seq]|intros u' ? <-].
    eapply pre_bind; [apply m_oqnlp|]. intros o2 ? [-> _]. change (target_reached E (asking n o2)) with (target_reached E o2).
    eapply pre_bind with (V := eq); [cs|intros stop ? <-]. destruct stop; [apply pre_sim; cs|apply IH].
Qed.
Lemma enumerate_app A (l l' : list A) : forall k, enumerate_from k (l ++ l') = enumerate_from k l ++ enumerate_from (k + List.length l) l'.
Proof.
  induction l as [|x l IH]; intro k; simpl; [rewrite Nat.add_0_r; reflexivity|]. rewrite IH. simpl. rewrite <- plus_n_Sm. reflexivity.
Qed.
Lemma enumerate_len A (l : list A) : forall k, List.length (enumerate_from k l) = List.length l.
Proof. induction l as [|x l IH]; intro k; simpl; auto. Qed.
Lemma chunks_more A k : 0 < k -> forall f (l : list A), List.length l <= f -> chunks_fuel f k l = chunks k l.
Proof.
  intros Hk. assert (G : forall f g (l : list A), List.length l <= f -> List.length l <= g -> chunks_fuel f k l = chunks_fuel g k l).
  { induction f as [|f IH]; intros [|g] [|x l] Hf Hg; try reflexivity; simpl in Hf, Hg; try lia.
    simpl. f_equal. destruct k as [|k]; [lia|]. simpl. apply IH; rewrite skipn_length; lia. }
  intros f l H. apply G; [exact H|apply Nat.le_refl].
Qed.
Lemma chunks_app A k (l2 : list A) : 0 < k -> forall m l1, List.length l1 = m * k -> chunks k (l1 ++ l2) = chunks k l1 ++ chunks k l2.
Proof.
  intros Hk. induction m as [|m IH]; intros l1 H.
  - destruct l1; [reflexivity|discriminate].
  - destruct l1 as [|x l1]; [simpl in H; lia|].
    assert (D : forall l : list A, chunks k (x :: l) = firstn k (x :: l) :: chunks k (skipn k (x :: l))).
    { intro l. unfold chunks at 1. cbn [List.length chunks_fuel]. f_equal. apply chunks_more; [exact Hk|].
      rewrite skipn_length. cbn [List.length]. lia. }
    cbn [app]. rewrite !D. rewrite (firstn_app k (x :: l1) l2 : firstn k (x :: l1 ++ l2) = _).
    rewrite (skipn_app k (x :: l1) l2 : skipn k (x :: l1 ++ l2) = _).
    assert (Z : k - List.length (x :: l1) = 0) by (rewrite H; simpl; lia). rewrite Z. simpl (firstn 0 l2). simpl (skipn 0 l2).
    rewrite app_nil_r. cbn [app]. f_equal. apply IH. rewrite skipn_length, H. simpl. lia.
Qed.
Lemma candidates_more A k n1 m (refs : list A) : n1 = m * k -> n1 <= n -> 0 < k -> exists b2,
  chunks k (enumerate (firstn n refs)) = chunks k (enumerate (firstn n1 refs)) ++ b2.
Proof.
  intros Hm Hn Hk. destruct (Nat.le_gt_cases (List.length refs) n1) as [H|H].
  - exists []. rewrite !firstn_all2, app_nil_r by lia. reflexivity.
  - exists (chunks k (enumerate_from (0 + List.length (firstn n1 refs)) (firstn (n - n1) (skipn n1 refs)))).
    assert (D : firstn n refs = firstn n1 refs ++ firstn (n - n1) (skipn n1 refs)).
    { rewrite <- (firstn_skipn n1 refs) at 1. rewrite firstn_app, firstn_firstn, firstn_length.
      rewrite (Nat.min_r n n1) by lia. rewrite (Nat.min_l n1) by lia. reflexivity. }
    rewrite D. unfold enumerate. rewrite enumerate_app. apply (chunks_app _ k _ Hk m).
    rewrite enumerate_len, firstn_length. lia.
Qed.
(** Stage 2 of a run that does not resume *)
Definition ah {A} (m m' : OM A) : Prop := forall s t, along s t -> ahead (snd (m s)) (snd (m' t)).
Lemma ah_sim A (m m' : OM A) V : sim V m m' -> ah m m'.
Proof. intros H s t L. destruct (H s t L) as [_ H2]. apply (along_ahead _ _ _ H2). exists []. reflexivity. Qed.
Lemma ah_bind A B (V : A -> A -> Prop) (m m' : OM A) (k k' : A -> OM B) :
  sim V m m' -> (forall a b, V a b -> ah (k a) (k' b)) -> ah (bind m k) (bind m' k').
Proof.
  intros H1 H2 s t L. destruct (H1 s t L) as [G1 G2]. unfold bind.
  destruct (m s) as [[a|e|] s1], (m' t) as [[b|e'|] t1]; simpl in *; try contradiction.
  - exact (H2 a b G1 s1 t1 G2).
  - apply (along_ahead _ _ _ G2). exists []. reflexivity.
  - apply (along_ahead _ _ _ G2). exists []. reflexivity.
Qed.
Lemma ah_end A B (m m' : OM A) (k : A -> OM B) : pre m m' -> (forall a, FrameP.frame (k a)) ->
  (forall a s, exists new, trace (snd (k a s)) = new ++ trace s /\ steps new = []) -> ah (bind m k) (bind m' k).
Proof.
  intros H1 H2 H3 s t L. destruct (H1 s t L) as (t' & G1 & [new G2] & G3). unfold bind.
  assert (Fin : ahead (snd (m s)) (snd ((let '(r, s0) := m' t in match r with Ok a => k a s0 | Err e => (Err e, s0) | Panic => (Panic, s0) end)))).
  { apply (along_ahead _ t'); [exact G1|]. destruct (m' t) as [[a|e|] t1]; cbn [snd] in *; [|exists new; exact G2..].
    destruct (grows _ (k a) (H2 a) t1) as [n2 ->]. exists (n2 ++ new). rewrite G2, app_assoc. reflexivity. }
  destruct (m s) as [[a|e|] s1]; cbn [fst snd] in *; [|exact Fin..].
  destruct (H3 a s1) as (n2 & E1 & E2). destruct Fin as (l & l' & x & F1 & F2 & F3).
  exists (n2 ++ l), l', x. split; [rewrite E1, F1, app_assoc; reflexivity|]. split; [exact F2|].
  unfold steps in *. rewrite flat_map_app, E2. exact F3.
Qed.
Lemma m_begin2 : sim eq begin_stage2 begin_stage2.
Proof. unfold begin_stage2. cs. Qed.
Lemma m_whole o rs objs u : (let '(p, par, bat, _, _) := cfg in
    p_iterations p <= n /\ (par = false \/ exists k, bat = Some k /\ exists m, p_iterations p = m * k)) -> settings o = cfg ->
  pre (if batch_size E o 0 =? 0 then panic
       else stage2_loop E (batch_size E o 0) 0 false objs (chunks (batch_size E o 0) (skipn 0 (enumerate (firstn (p_iterations (o_params o)) rs)))) u)
      (if batch_size E (asking n o) 0 =? 0 then panic
       else stage2_loop E (batch_size E (asking n o) 0) 0 false objs
              (chunks (batch_size E (asking n o) 0) (skipn 0 (enumerate (firstn (p_iterations (o_params (asking n o))) rs)))) u).
Proof.
  intros W Hc. rewrite <- Hc in W. unfold settings in W. destruct W as [Hn W].
  change (p_iterations (o_params (asking n o))) with n.
  assert (Hs : batch_size E (asking n o) 0 = batch_size E o 0).
  { unfold batch_size. change (o_parallel (asking n o)) with (o_parallel o). change (o_batch (asking n o)) with (o_batch o).
    destruct W as [->|(k & -> & _)]; reflexivity. }
  rewrite Hs.
  destruct (batch_size E o 0 =? 0) eqn:Hz; [apply pre_sim; cs|]. apply Nat.eqb_neq in Hz.
  assert (Hd : exists m, p_iterations (o_params o) = m * batch_size E o 0).
  { unfold batch_size. destruct W as [->|(k & Hk & m & W)]; [exists (p_iterations (o_params o)); simpl; lia|].
    destruct (o_parallel o); [rewrite Hk; exists m; exact W|exists (p_iterations (o_params o)); simpl; lia]. }
  destruct Hd as [m Hd]. cbn [skipn].
  destruct (candidates_more _ _ _ m rs Hd Hn) as [b2 ->]; [lia|]. apply m_loop.
Qed.
Lemma m_stage2 refs objs u : (let '(p, par, bat, _, _) := cfg in
    p_iterations p <= n /\ (par = false \/ exists k, bat = Some k /\ exists m, p_iterations p = m * k)) ->
  ah (stage2_run E false refs objs u) (stage2_run E false refs objs u).
Proof.
  intro W. unfold stage2_run. eapply ah_bind with (V := eq); [apply m_begin2|intros ? ? _].
  eapply ah_bind; [apply m_oqnlp|]. intros o o' [-> Hc]. eapply ah_bind with (V := eq); [cs|]. intros rs ? <-. cbv zeta iota.
  apply ah_end.
  - apply m_whole; [exact W|exact Hc].
  - intros _. unfold maybe_save_final_checkpoint, final_set, save_now, create_checkpoint. 
    apply fr_bind; [|intro]; repeat fr1.
  - intros _ s. unfold bind. destruct (maybe_save_final_checkpoint E s) as [r s'] eqn:Hf.
    destruct (final_save_spec E s r s' Hf) as (_ & fin & F1 & F2).
    assert (F3 : steps fin = []).
    { unfold final_record in F2. destruct (o_cp (s_o s)); [|subst; reflexivity]. destruct F2 as [cp F2]; destruct F2 as [F2 _]; rewrite F2; reflexivity. }
    exists fin. split; [|exact F3].
    destruct r as [[]|e|]; cbn [snd]; [|exact F1..]. unfold final_set, bind, the_oqnlp, get, ret, fail, bind. cbn [fst snd].
    destruct (o_set (s_o s')); exact F1.
Qed.
End More.

(** ** Whole runs *)
Lemma no_resume_start E s : no_resume (s_o s) -> try_resume_from_checkpoint E s = (Ok false, s).
Proof.
  intro H. unfold try_resume_from_checkpoint, bind, the_oqnlp, get, ret, bind. cbn [fst snd].
  destruct (o_cp (s_o s)) as [c|] eqn:Hc; [|reflexivity]. rewrite (H c Hc). reflexivity.
Qed.
Theorem c106_steps : forall E n s rA sA na rB sB nb,
  run E s = (rA, sA) -> recorded s sA na -> run E (asking_state n s) = (rB, sB) -> recorded (asking_state n s) sB nb ->
  (forall c, o_cp (s_o s) = Some c -> cc_auto_resume c = false) ->
  p_iterations (o_params (s_o s)) <= n -> whole_batches (s_o s) ->
  exists more, steps nb = more ++ steps na.
Proof.
  intros E n s rA sA na rB sB nb Ha Na Hb Nb Hr Hn Hw.
  set (T := w_trace (s_w s)). set (cfg := settings (s_o s)).
  assert (L : along n T T cfg s (asking_state n s)).
  { unfold along. repeat (split; [reflexivity|]). exists [], []. repeat split. }
  assert (G : ah n T T cfg (stage1_r <- stage1_run E ;; match stage1_r with None => final_set | Some (refs, objs) => stage2_run E false refs (Some objs) 0 end)
    (stage1_r <- stage1_run E ;; match stage1_r with None => final_set | Some (refs, objs) => stage2_run E false refs (Some objs) 0 end)).
  { eapply ah_bind; [apply m_stage1|]. intros [[refs objs]|] ? <-.
    - apply m_stage2. unfold cfg, settings. split; [exact Hn|]. exact Hw.
    - apply ah_sim with (V := eq). unfold final_set. eapply sim_bind; [apply m_oqnlp|]. intros o o' [-> _].
      change (o_set (asking n o)) with (o_set o). destruct (o_set o); [apply sim_ret; reflexivity|apply sim_fail]. }
  specialize (G _ _ L).
  assert (Rn : forall x, no_resume (s_o x) -> run E x = (stage1_r <- stage1_run E ;; match stage1_r with None => final_set | Some (refs, objs) => stage2_run E false refs (Some objs) 0 end) x).
  { intros x Hx. unfold run. unfold bind at 1. rewrite (no_resume_start E x Hx). reflexivity. }
  rewrite <- !Rn in G by (exact Hr). rewrite Ha, Hb in G. cbn [snd] in G.
  destruct G as (l & l' & x & G1 & G2 & G3). unfold recorded in Na, Nb. unfold trace in G1, G2.
  rewrite Na in G1. rewrite Nb in G2. unfold T in *. apply app_inv_tail in G1.
  change (w_trace (s_w (asking_state n s))) with (w_trace (s_w s)) in G2. apply app_inv_tail in G2. subst l l'.
  exists x. exact G3.
Qed.
(** the stored set is the last one recorded *)
Lemma acts_last E K objs s s' : acts E K objs s s' -> exists new, trace s' = new ++ trace s /\
  (o_set (s_o s') = o_set (s_o s) \/ exists set, o_set (s_o s') = Some set /\ In (EvSolutionSet set) new).
Proof.
  induction 1 as [s|s s1 s' H H0 IH]; [exists []; auto|].
  destruct (act_set _ _ _ _ _ H) as (n1 & T1 & C1). destruct IH as (n2 & T2 & C2).
  exists (n2 ++ n1). split; [rewrite T2, T1, app_assoc; reflexivity|].
  destruct C2 as [C2|(set & C2 & C3)]; [|right; exists set; split; [exact C2|apply in_or_app; auto]].
  destruct C1 as [[C1 _]|(sol & it & p & set & _ & _ & _ & C1 & C4 & _)]; [left; congruence|].
  right. exists set. split; [congruence|apply in_or_app; auto].
Qed.
Lemma run_last E s set s' new : run E s = (Ok set, s') -> recorded s s' new -> no_resume (s_o s) ->
  o_set (s_o s) = Some set \/ In (EvSolutionSet set) new.
Proof.
  intros Hrun Hnew Hn. pose proof (proj2 (run_acts E s _ s' Hrun) set eq_refl) as Hset.
  destruct (run_from E s _ s' Hrun) as [[H _]|(s1 & Hst & Htr & _ & Ha)]; [contradiction (H set eq_refl)|].
  assert (Ho : s_o s1 = s_o s) by (destruct Hst as [[Ho _]|(cp & (c & H1 & H2 & _) & _)]; [exact Ho|rewrite (Hn c H1) in H2; discriminate]).
  assert (G : exists new', trace s' = new' ++ trace s1 /\ (o_set (s_o s') = o_set (s_o s1) \/ exists x, o_set (s_o s') = Some x /\ In (EvSolutionSet x) new')).
  { destruct Ha as [(K & objs & Ha)|(K & objs & s2 & K2 & objs2 & Ha & Hb)]; [exact (acts_last _ _ _ _ _ Ha)|].
    destruct (acts_last _ _ _ _ _ Ha) as (n1 & T1 & C1). destruct (acts_last _ _ _ _ _ Hb) as (n2 & T2 & C2).
    exists (n2 ++ n1). split; [rewrite T2, T1, app_assoc; reflexivity|].
    destruct C2 as [C2|(x & C2 & C3)]; [|right; exists x; split; [exact C2|apply in_or_app; auto]].
    destruct C1 as [C1|(x & C1 & C3)]; [left; congruence|right; exists x; split; [congruence|apply in_or_app; auto]]. }
  destruct G as (new' & T & C). assert (new' = new).
  { rewrite Htr in T. unfold recorded in Hnew. unfold trace in T. rewrite Hnew in T. apply app_inv_tail in T. auto. }
  subst new'. destruct C as [C|(x & C1 & C2)]; [left; congruence|]. right. rewrite Hset in C1. injection C1 as ->. exact C2.
Qed.
Lemma steps_set set l : In (EvSolutionSet set) (steps l) <-> In (EvSolutionSet set) l.
Proof.
  unfold steps. rewrite in_flat_map. split.
  - intros (e & H1 & H2). destruct e; simpl in H2; try (destruct H2 as [H2|[]]; try discriminate; injection H2 as <-; exact H1). contradiction.
  - intro H. exists (EvSolutionSet set). split; [exact H|left; reflexivity].
Qed.

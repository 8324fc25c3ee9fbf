(** * The observer shows what Stage 1 found (C104) *)
From Coq Require Import ZArith NArith List Bool Arith Lia String Permutation Sorted.
From Verif Require Import F64 F64Order Base Builders Types Filters Runner Observer Env EnvSpec
  ScatterSearch Codec Checkpoint Oqnlp Spec SpecStage1 SpecStage2 SpecObserver SpecShown1 BasicP SolverP GreedyP Stage1P Stage1Q SqrtP Stage1R
  DistP Wp Actions RunP FrameP EmitsP FilterP CountP HoareP SeqP SeqP3 SaveP ObserverP Stage1CountP.
Import ListNotations.

(** ** Least values *)
Lemma numbers_le : forall a b, is_nan a = false -> is_nan b = false -> total_le a b = true -> flt b a = false.
Proof. intros a b Ha Hb H. apply fle_not_flt. apply total_le_fle; auto. Qed.
(** a report of a least value covers all the values *)
Lemma least_grow : forall st0 st l b p new, shows_least st0 st l -> In (p, b) new ->
  (forall q w, In (q, w) new -> is_nan w = false) -> (forall q w, In (q, w) new -> flt w b = false) ->
  shows_least st0 (s1_set_best_solution b p st) (new ++ l).
Proof.
  intros st0 st l b p new [A B] Hin Hnum Hle.
  assert (Hb : is_nan b = false) by (eapply Hnum; eauto).
  unfold s1_set_best_solution. destruct (is_nan (s1_best st) || flt b (s1_best st)) eqn:Hc; unfold shows_least; cbn [s1_best s1_best_point].
  - split; [|right; exists p; split; [apply in_or_app; left; exact Hin|reflexivity]].
    right. split; [exact Hb|]. split.
    { right. apply in_map_iff. exists (p, b). split; [reflexivity|]. apply in_or_app. left. exact Hin. }
    intros v Hv. rewrite map_app in Hv. destruct (flt v b) eqn:Hvb; [|reflexivity]. exfalso.
    assert (X : In v (s1_best st0 :: map snd l) \/ In v (map snd new)).
    { destruct Hv as [Hv|Hv]; [left; left; exact Hv|]. apply in_app_or in Hv as [Hv|Hv]; [right; exact Hv|left; right; exact Hv]. }
    destruct X as [X|X].
    + destruct A as [[A1 A2]|(A1 & A2 & A3)].
      * apply flt_nan_l in Hvb. rewrite (A2 v X) in Hvb. discriminate.
      * rewrite A1 in Hc. simpl in Hc. pose proof (flt_trans _ _ _ Hvb Hc) as Y. rewrite (A3 v X) in Y. discriminate.
    + apply in_map_iff in X as ([q w] & <- & X). simpl in Hvb. rewrite (Hle _ _ X) in Hvb. discriminate.
  - apply orb_false_iff in Hc as [C1 C2]. destruct A as [[A1 _]|(A1 & A2 & A3)]; [congruence|]. split.
    + right. split; [exact A1|]. split.
      { destruct A2 as [A2|A2]; [left; exact A2|right]. rewrite map_app. apply in_or_app. right. exact A2. }
      intros v Hv. rewrite map_app in Hv. destruct Hv as [Hv|Hv]; [apply A3; left; exact Hv|].
      apply in_app_or in Hv as [Hv|Hv]; [|apply A3; right; exact Hv].
      apply in_map_iff in Hv as ([q w] & <- & X). simpl.
      destruct (flt w (s1_best st)) eqn:Hw; [|reflexivity]. exfalso.
      pose proof (Hle _ _ X) as L1. assert (Nw : is_nan w = false) by (eapply Hnum; eauto).
      pose proof (not_flt_fle _ _ Hb Nw L1) as L2. pose proof (fle_lt_trans _ _ _ L2 Hw) as L3. congruence.
    + destruct B as [B|(q & B1 & B2)]; [left; exact B|right]. exists q. split; [apply in_or_app; right; exact B1|exact B2].
Qed.
(** the report of a local solution, which may be NaN *)
Lemma least_step : forall st0 st l b p, shows_least st0 st l -> shows_least st0 (s1_set_best_solution b p st) ((p, b) :: l).
Proof.
  intros st0 st l b p [A B]. split.
  - replace (s1_best (s1_set_best_solution b p st)) with (keep (s1_best st) b).
    2: { unfold keep, s1_set_best_solution. destruct (_ || _); reflexivity. }
    apply (keep_step _ _ b) in A. destruct A as [[A1 A2]|(A1 & A2 & A3)]; [left|right]; (split; [exact A1|]).
    + intros v Hv. apply A2. simpl in Hv |- *. rewrite in_app_iff. simpl. tauto.
    + split; [simpl in A2 |- *; rewrite in_app_iff in A2; simpl in A2; tauto|].
      intros v Hv. apply A3. simpl in Hv |- *. rewrite in_app_iff. simpl. tauto.
  - unfold s1_set_best_solution. destruct (_ || _); cbn [s1_best s1_best_point].
    + right. exists p. split; [left; reflexivity|reflexivity].
    + destruct B as [B|(q & B1 & B2)]; [left; exact B|right]. exists q. split; [right; exact B1|exact B2].
Qed.
Lemma least_same : forall st0 st l l', (forall x, In x l <-> In x l') -> shows_least st0 st l -> shows_least st0 st l'.
Proof.
  intros st0 st l l' H [A B].
  assert (M : forall v, In v (map snd l) <-> In v (map snd l')).
  { intro v. rewrite !in_map_iff. split; intros (x & E & Hx); exists x; (split; [exact E|apply H; exact Hx]). }
  split.
  - destruct A as [[A1 A2]|(A1 & A2 & A3)]; [left|right]; (split; [exact A1|]).
    + intros v [Hv|Hv]; apply A2; [left; exact Hv|right; apply M; exact Hv].
    + split; [destruct A2 as [A2|A2]; [left; exact A2|right; apply M; exact A2]|].
      intros v [Hv|Hv]; apply A3; [left; exact Hv|right; apply M; exact Hv].
  - destruct B as [B|(q & B1 & B2)]; [left; exact B|right]. exists q. split; [apply H; exact B1|exact B2].
Qed.
Lemma least_keep : forall st0 st st' l, s1_best st' = s1_best st -> s1_best_point st' = s1_best_point st ->
  shows_least st0 st l -> shows_least st0 st' l.
Proof. intros st0 st st' l H1 H2 H. unfold shows_least in *. rewrite H1, H2. exact H. Qed.

(** ** The mode and the Stage 1 state of the observer *)
Definition h1 (ob : observer) : obs_mode * option stage1 := (ob_mode ob, ob_stage1 ob).
Definition view1 (o : oqnlp) : option (obs_mode * option stage1) := option_map h1 (o_observer o).
Definition ss_view (s : ss) : option (obs_mode * option stage1) := option_map h1 (ss_observer s).
Section Showing.
Context (E : env) (Hcb : callbacks_keep_stage1 E).
Lemma h1_invoke : forall ob, h1 (fst (invoke_callback (Env.e_callback E) ob)) = h1 ob.
Proof.
  intro ob. unfold invoke_callback, h1. destruct (ob_callback ob) as [[n| | |]|] eqn:Hc; simpl; auto.
  - destruct (Hcb n ob) as [-> ->]. auto.
  - unfold default_callback. destruct (match obs_stage1 ob with Some s => _ | None => _ end); [auto|].
    destruct (obs_stage2 ob) as [s2|]; [|auto]. destruct (0 <? s2_iteration s2); [|auto]. destruct (ob_filter ob); auto.
Qed.
Lemma h1_upd2 : forall f ob, h1 (upd_stage2 f ob) = h1 ob.
Proof. clear Hcb. intros f ob. unfold upd_stage2. destruct (should_observe_stage2 ob); auto. destruct (ob_stage2 ob); auto. Qed.
Lemma h1_any2 : forall f ob, h1 (upd_stage2_any f ob) = h1 ob.
Proof. clear Hcb. intros f ob. unfold upd_stage2_any. destruct (ob_stage2 ob); auto. Qed.
Lemma h1_upd1 : forall f ob md st, h1 ob = (md, Some st) -> md <> Stage2Only -> h1 (upd_stage1 f ob) = (md, Some (f st)).
Proof.
  clear Hcb. intros f ob md st H Hm. unfold h1 in H. injection H as H1 H2.
  unfold upd_stage1, should_observe_stage1. rewrite H1, H2. destruct md; [|congruence|]; unfold h1; simpl; rewrite H1; reflexivity.
Qed.

(** ** The scatter search *)
Lemma ss_obs_shows : forall f s md st, ss_view s = Some (md, Some st) -> md <> Stage2Only ->
  run_to (ss_obs (upd_stage1 f)) s (fun r s' => r = Ok tt /\ noisy s s' /\ ss_view s' = Some (md, Some (f st))).
Proof.
  clear Hcb. intros f s md st H Hm. destruct (noisy_obs (upd_stage1 f) s) as [N1 N2].
  unfold run_to. split; [exact N1|]. split; [exact N2|]. unfold ss_view in *. simpl.
  destruct (ss_observer s) as [ob|]; [|discriminate H]. simpl in *. f_equal. apply h1_upd1; auto. congruence.
Qed.
Lemma ss_callback_shows : forall s, run_to (ss_callback E) s (fun r s' => r = Ok tt /\ noisy s s' /\ ss_view s' = ss_view s).
Proof.
  intro s. destruct (noisy_callback E s) as [N1 N2]. unfold run_to. split; [exact N1|]. split; [exact N2|]. clear N1 N2.
  unfold ss_callback, bind, get. destruct (ss_observer s) as [ob|] eqn:Ho; simpl; [|reflexivity].
  destruct (ob_callback ob) as [cb|] eqn:Hc; [|reflexivity].
  pose proof (h1_invoke ob) as C1. destruct (invoke_callback (Env.e_callback E) ob) as [ob' m]. simpl in *.
  unfold ss_view. rewrite Ho. simpl. rewrite C1. reflexivity.
Qed.
(** what is evaluated covers the members, and no evaluated value is below them all *)
Definition number_at (p : point) : Prop := forall v, pb_objective (e_problem E) p = inl v -> is_nan v = false.
Definition covers (evs : list point) (pts : list (point * f64)) : Prop :=
  (forall p v, In (p, v) pts -> In p evs /\ pb_objective (e_problem E) p = inl v) /\
  (Forall number_at evs -> forall p v, In p evs -> pb_objective (e_problem E) p = inl v -> exists q w, In (q, w) pts /\ flt v w = false).
Lemma init_covers : env_ok E -> forall s s1, initialized E s (Ok tt) s1 -> exists first,
  ss_view s1 = ss_view s /\ evaluations (ss_log s1) = evaluations (ss_log s) ++ first /\ covers first (members s1) /\
  (forall p v, pb_objective (e_problem E) p = inl v -> In p first -> In (p, v) (members s1)).
Proof.
  clear Hcb. intros HE s s1 H1. inversion H1 as [rng l refs objs Hs Hd Hm He| | |]; subst. exists refs.
  split; [reflexivity|].
  destruct (mapped_pairs _ _ _ Hm) as [Hl Hp].
  set (P := combine refs objs) in *.
  assert (M : members (ss_with_ref (map fst (e_sort E P)) (map snd (e_sort E P)) (ss_emit (map SsEval refs) (drew rng l s))) = e_sort E P).
  { unfold members. cbn [ss_ref ss_objs ss_with_ref]. apply combine_fst_snd. }
  rewrite M. pose proof (eo_sort E HE P) as [HP _].
  assert (I1 : forall p v, In (p, v) (e_sort E P) -> In p refs /\ pb_objective (e_problem E) p = inl v).
  { intros p v Hin. apply (Permutation_in _ HP) in Hin. split; [eapply in_combine_l; exact Hin|apply Hp; exact Hin]. }
  assert (I2 : forall p v, pb_objective (e_problem E) p = inl v -> In p refs -> In (p, v) (e_sort E P)).
  { intros p v Hv Hin. eapply Permutation_in; [symmetry; exact HP|].
    assert (G : exists w, In (p, w) P).
    { unfold P. clear - Hin Hl. revert objs Hl. induction refs as [|x refs IH]; intros [|w objs] Hl; try discriminate; [destruct Hin|].
      destruct Hin as [->|Hin]; [exists w; left; auto|]. destruct (IH Hin objs) as [v Hv]; [simpl in Hl; lia|]. exists v. right; auto. }
    destruct G as [w Hw]. pose proof (Hp _ _ Hw) as X. rewrite Hv in X. injection X as <-. exact Hw. }
  split; [|split; [split; [exact I1|]|exact I2]].
  - change (ss_log (ss_with_ref (map fst (e_sort E P)) (map snd (e_sort E P)) (ss_emit (map SsEval refs) (drew rng l s))))
      with (ss_log (ss_emit (map SsEval refs) (drew rng l s))). rewrite ev_emit, ev_drew. reflexivity.
  - intros _ p v Hin Hv. exists p, v. split; [apply I2; assumption|apply flt_irrefl].
Qed.
Lemma evaluate_fst : forall refs worst thr p, fst (evaluate_trial E refs worst thr p) = true ->
  forall v, pb_objective (e_problem E) p = inl v -> snd (evaluate_trial E refs worst thr p) = if flt v worst then Some (p, v) else None.
Proof.
  clear Hcb. intros refs worst thr p H v Hv. unfold evaluate_trial in *.
  destruct (negb (is_feasible _ p)); [discriminate H|]. destruct (negb (forallb _ _)); [discriminate H|]. rewrite Hv. reflexivity.
Qed.
Lemma evaluate_snd : forall refs worst thr p q v, snd (evaluate_trial E refs worst thr p) = Some (q, v) ->
  q = p /\ fst (evaluate_trial E refs worst thr p) = true /\ pb_objective (e_problem E) p = inl v.
Proof.
  clear Hcb. intros refs worst thr p q v H. unfold evaluate_trial in *.
  destruct (negb (is_feasible _ p)); [discriminate H|]. destruct (negb (forallb _ _)); [discriminate H|].
  destruct (pb_objective (e_problem E) p) as [w|]; [|discriminate H]. simpl in *. destruct (flt w worst); [|discriminate H].
  injection H as <- <-. auto.
Qed.
Lemma last_pair : forall (refs : list point) (objs : list f64) d, List.length refs = List.length objs -> objs <> [] ->
  exists q, In (q, last objs d) (combine refs objs).
Proof.
  clear. induction refs as [|r refs IH]; intros [|x objs] d H Hne; try discriminate H; [congruence|].
  destruct objs as [|y objs]; [exists r; left; reflexivity|].
  destruct (IH (y :: objs) d) as [q Q]; [simpl in *; lia|discriminate|]. exists q. right. exact Q.
Qed.
Lemma update_covers : env_ok E -> forall trials s first, List.length (ss_ref s) = List.length (ss_objs s) -> (trials <> [] -> ss_objs s <> []) ->
  covers first (members s) -> run_to (update_reference_set E trials) s (fun r s' =>
  forall u, r = Ok u -> ss_view s' = ss_view s /\ exists later, evaluations (ss_log s') = evaluations (ss_log s) ++ later /\
    covers (first ++ later) (members s')).
Proof.
  clear Hcb. intros HE trials s first Hl Hne Hc. unfold update_reference_set.
  assert (Hno : ss_view s = ss_view s /\ exists later, evaluations (ss_log s) = evaluations (ss_log s) ++ later /\ covers (first ++ later) (members s)).
  { split; [reflexivity|]. exists []. rewrite !app_nil_r. split; [reflexivity|exact Hc]. }
  destruct trials as [|t0 trials]; [intros u _; exact Hno|]. clear Hno. assert (Hne' : ss_objs s <> []) by (apply Hne; discriminate).
  set (ts := t0 :: trials) in *. apply rt_bind. unfold run_to at 1, get. cbn [fst snd]. apply rt_bind.
  destruct (dist_threshold_spec E s) as (thr & -> & _). unfold run_to at 1, unwrap, ret. cbn [fst snd].
  apply rt_bind. unfold run_to at 1, modify. cbn [fst snd].
  set (worst := last (ss_objs s) pinf). 
  set (res := map (fun p => (p, evaluate_trial E (ss_ref s) worst thr p)) ts).
  set (evs := map fst (filter (fun r => fst (snd r)) res)).
  replace (map (fun r : point * (bool * option (point * f64)) => SsEval (fst r)) (filter (fun r => fst (snd r)) res))
    with (map SsEval evs) by (unfold evs; rewrite map_map; reflexivity).
  set (accepted := flat_map (fun r : point * (bool * option (point * f64)) => match snd (snd r) with Some x => [x] | None => [] end) res).
  assert (A1 : forall p v, In (p, v) accepted -> In p evs /\ pb_objective (e_problem E) p = inl v).
  { intros p v H. apply in_flat_map in H as ([q x] & Hq & Hx). cbn [snd] in Hx.
    unfold res in Hq. apply in_map_iff in Hq as (q' & Eq & Hts). injection Eq as -> <-.
    destruct (snd (evaluate_trial E (ss_ref s) worst thr q)) as [[q1 v1]|] eqn:Hs; [|destruct Hx]. destruct Hx as [Hx|[]]. injection Hx as -> ->.
    destruct (evaluate_snd _ _ _ _ _ _ Hs) as (-> & F & O). split; [|exact O]. unfold evs. apply in_map_iff. exists (q, evaluate_trial E (ss_ref s) worst thr q).
    split; [reflexivity|]. apply filter_In. split; [|exact F]. unfold res. apply in_map_iff. exists q. auto. }
  assert (A2 : forall p v, In p evs -> pb_objective (e_problem E) p = inl v -> flt v worst = true -> In (p, v) accepted).
  { intros p v H Hv Hw. unfold evs in H. apply in_map_iff in H as ([q x] & <- & H). apply filter_In in H as [H F]. cbn [fst snd] in F, Hv.
    pose proof H as H'. unfold res in H. apply in_map_iff in H as (q' & Eq & Hts). injection Eq as -> <-.
    apply in_flat_map. exists (q, evaluate_trial E (ss_ref s) worst thr q). split; [exact H'|]. cbn [fst snd].
    rewrite (evaluate_fst _ _ _ _ F v Hv), Hw. left. reflexivity. }
  assert (A3 : exists q, In (q, worst) (members s)).
  { apply last_pair; assumption. }
  clearbody evs accepted. clear res. destruct Hc as [C1 C2].
  (* every evaluated value is matched by a member or an accepted point *)
  assert (A4 : Forall number_at (first ++ evs) -> forall p v, In p (first ++ evs) -> pb_objective (e_problem E) p = inl v ->
    exists q w, In (q, w) (members s ++ accepted) /\ flt v w = false).
  { intros Hn p v Hp Hv. apply in_app_or in Hp as [Hp|Hp].
    - apply Forall_app in Hn as [Hn _]. destruct (C2 Hn p v Hp Hv) as (q & w & Q1 & Q2). exists q, w. split; [apply in_or_app; left; exact Q1|exact Q2].
    - destruct (flt v worst) eqn:Hw.
      + exists p, v. split; [apply in_or_app; right; apply A2; assumption|apply flt_irrefl].
      + destruct A3 as [q Q]. exists q, worst. split; [apply in_or_app; left; exact Q|exact Hw]. }
  destruct accepted as [|a0 accepted].
  - intros u _. split; [reflexivity|]. exists evs. unfold ret. cbn [fst snd]. rewrite ev_emit. split; [reflexivity|]. split.
    + intros p v H. destruct (C1 p v H) as [X Y]. split; [apply in_or_app; left; exact X|exact Y].
    + intros Hn p v Hp Hv. destruct (A4 Hn p v Hp Hv) as (q & w & Q1 & Q2). rewrite app_nil_r in Q1. exists q, w. auto.
  - set (acc := a0 :: accepted) in *. apply rt_bind. unfold run_to at 1, unwrap, ret, panic.
    destruct (keep_best E _ _) as [kept|] eqn:Hk; cbn [fst snd]; [|intros u G; discriminate G].
    intros u _. split; [reflexivity|]. exists evs. unfold modify. cbn [fst snd].
    change (ss_log (ss_with_ref (map fst kept) (map snd kept) (ss_emit (map SsEval evs) s))) with (ss_log (ss_emit (map SsEval evs) s)).
    rewrite ev_emit. split; [reflexivity|].
    replace (members (ss_with_ref (map fst kept) (map snd kept) (ss_emit (map SsEval evs) s))) with kept
      by (unfold members; cbn [ss_ref ss_objs ss_with_ref]; rewrite combine_fst_snd; reflexivity).
    change (combine (ss_ref s) (ss_objs s)) with (members s) in Hk.
    destruct (keep_best_some E HE _ _ _ Hk) as (Hpop & dropped & HP & Lk & Hle).
    assert (In1 : forall p v, In (p, v) (members s ++ acc) -> In p (first ++ evs) /\ pb_objective (e_problem E) p = inl v).
    { intros p v H. apply in_app_or in H as [H|H].
      - destruct (C1 p v H) as [X Y]. split; [apply in_or_app; left; exact X|exact Y].
      - destruct (A1 p v H) as [X Y]. split; [apply in_or_app; right; exact X|exact Y]. }
    split.
    + intros p v H. apply In1. eapply Permutation_in; [symmetry; exact HP|]. apply in_or_app. left. exact H.
    + intros Hn p v Hp Hv. destruct (A4 Hn p v Hp Hv) as (q & w & Q1 & Q2).
      apply (Permutation_in _ HP) in Q1. apply in_app_or in Q1 as [Q1|Q1]; [exists q, w; auto|].
      destruct kept as [|[k kv] kept]; [simpl in Lk; lia|]. exists k, kv. split; [left; reflexivity|].
      assert (Num : forall x y, In (x, y) (((k, kv) :: kept) ++ dropped) -> is_nan y = false).
      { intros x y H. apply (Permutation_in _ (Permutation_sym HP)) in H. destruct (In1 x y H) as [X Y].
        rewrite Forall_forall in Hn. apply (Hn x X y Y). }
      assert (Nk : is_nan kv = false) by (apply (Num k); left; reflexivity).
      assert (Nw : is_nan w = false) by (apply (Num q); apply in_or_app; right; exact Q1).
      assert (Nv : is_nan v = false) by (rewrite Forall_forall in Hn; apply (Hn p Hp v Hv)).
      pose proof (Hle (k, kv) (q, w) (or_introl eq_refl) Q1) as T. cbn [snd] in T.
      pose proof (total_le_fle _ _ Nk Nw T) as T'. destruct (flt v kv) eqn:Hvk; [|reflexivity].
      rewrite <- Q2. symmetry. eapply flt_le_trans; eauto.
Qed.
(** the run: nothing is shown of the values yet; the members are the best of the evaluated points *)
Lemma ss_shown : env_ok E -> forall s md st, ss_view s = Some (md, Some st) -> md <> Stage2Only ->
  run_to (ss_run E) s (fun r s' => forall pts cand, r = Ok (pts, cand) -> exists evs st',
    ss_view s' = Some (md, Some st') /\ s1_best st' = s1_best st /\ s1_best_point st' = s1_best_point st /\
    evaluations (ss_log s') = evaluations (ss_log s) ++ evs /\ covers evs pts).
Proof.
  intros HE s md st Ht Hm. unfold ss_run. apply rt_bind. eapply rt_conseq; [apply init_spec|].
  intros r1 s1 H1. destruct r1 as [[]|err|]; [|intros x y G; discriminate G|intros x y G; discriminate G].
  destruct (init_covers HE s s1 H1) as (first & I1 & I2 & I3 & _). destruct (init_members E HE s s1 H1) as (L1 & _). clear H1. rewrite Ht in I1. clear Ht.
  apply rt_bind. eapply rt_conseq; [eapply (ss_obs_shows _ s1 md st I1 Hm)|].
  intros r2 s2 (-> & N2 & T2).
  apply rt_bind. eapply rt_conseq; [apply ss_callback_shows|]. intros r3 s3 (-> & N3 & T3). rewrite T2 in T3.
  apply rt_bind. unfold run_to at 1, get. cbn [fst snd].
  apply rt_bind. eapply rt_conseq; [eapply (ss_obs_shows _ s3 md _ T3 Hm)|].
  intros r4 s4 (-> & N4 & T4).
  apply rt_bind. eapply rt_conseq; [apply ss_callback_shows|]. intros r5 s5 (-> & N5 & T5). rewrite T4 in T5.
  match type of T5 with _ = Some (_, Some ?x) => set (st5 := x) in T5; assert (B5 : s1_best st5 = s1_best st /\ s1_best_point st5 = s1_best_point st) by (split; reflexivity); clearbody st5 end.
  assert (N : noisy s1 s5) by (eapply noisy_trans; [eapply noisy_trans; [exact N2|exact N3]|eapply noisy_trans; eauto]).
  destruct (noisy_view _ _ N) as (_ & V2 & V3 & _ & _ & _ & _ & _ & W). rewrite I2 in W. rewrite <- (members_view _ _ N) in I3.
  rewrite <- V2, <- V3 in L1. clear N N2 N3 N4 N5 T2 T3 T4 V2 V3 I1 I2.
  apply rt_bind. eapply rt_conseq; [apply gen_trials_spec|]. cbv beta. intros r6 s6 [[rng Hs6] Htr].
  destruct r6 as [trials|err|]; [|intros x y G; discriminate G|intros x y G; discriminate G].
  assert (T6 : ss_view s6 = Some (md, Some st5)) by (subst s6; exact T5).
  assert (W6 : evaluations (ss_log s6) = evaluations (ss_log s) ++ first) by (subst s6; exact W).
  assert (C6 : covers first (members s6)) by (subst s6; exact I3).
  assert (L6 : List.length (ss_ref s6) = List.length (ss_objs s6)) by (subst s6; exact L1).
  assert (Z6 : trials <> [] -> ss_objs s6 <> []).
  { intros Hne Hz. apply trials_len in Htr. subst s6. cbn [ss_objs ss_with_rng] in Hz. 
    assert (L0 : List.length (ss_ref s5) = 0) by (rewrite L1; change (List.length (ss_objs s5) = 0); destruct (ss_objs s5); [reflexivity|discriminate Hz]).
    rewrite L0 in Htr. change (ksel 0) with 0 in Htr. destruct trials; [congruence|discriminate Htr]. }
  clear Htr Hs6 T5 W I3 L1.
  apply rt_bind. eapply rt_conseq; [apply (update_covers HE trials s6 first L6 Z6 C6)|]. cbv beta. intros r7 s7 Hu.
  destruct r7 as [u|err|]; [|intros x y G; discriminate G|intros x y G; discriminate G].
  destruct (Hu u eq_refl) as (T7 & later & W7 & C7). rewrite T6 in T7. rewrite W6 in W7. clear Hu T6 W6.
  apply rt_bind. unfold run_to at 1, get. cbn [fst snd].
  apply rt_bind. eapply rt_conseq; [eapply (ss_obs_shows _ s7 md _ T7 Hm)|].
  intros r8 s8 (-> & N8 & T8).
  apply rt_bind. eapply rt_conseq; [apply ss_callback_shows|]. intros r9 s9 (-> & N9 & T9). rewrite T8 in T9.
  assert (N : noisy s7 s9) by (eapply noisy_trans; eauto). destruct (noisy_view _ _ N) as (_ & V2 & V3 & _ & _ & _ & _ & _ & W9).
  rewrite W7 in W9. rewrite <- (members_view _ _ N) in C7. apply rt_bind. unfold run_to at 1. rewrite best_eq.
  match type of T9 with _ = Some (_, Some ?x) => set (st9 := x) in T9; assert (B9 : s1_best st9 = s1_best st /\ s1_best_point st9 = s1_best_point st) by exact B5; clearbody st9 end.
  destruct (min_by cmp_snd (enumerate (ss_objs s9))) as [[i v]|]; cbn [fst snd]; [|intros x y G; discriminate G].
  destruct (nth_error (ss_ref s9) i); cbn [fst snd]; [|intros x y G; discriminate G].
  apply rt_bind. unfold run_to at 1, get. cbn [fst snd]. unfold run_to, ret. cbn [fst snd].
  intros pts cand G. injection G as <- _. exists (first ++ later), st9. split; [exact T9|]. split; [apply B9|]. split; [apply B9|].
  split; [rewrite W9, app_assoc; reflexivity|]. exact C7.
Qed.
(** ** Steps that keep the state *)
Lemma v_obs : forall f, (forall ob, h1 (f ob) = h1 ob) -> keeps view1 (obs f).
Proof. clear Hcb. intros f H s. unfold view1. simpl. destruct (o_observer (s_o s)); simpl; [rewrite H|]; reflexivity. Qed.
Lemma v_callback : forall i, keeps view1 (callback E i).
Proof.
  intros i s. unfold callback, bind, the_oqnlp, get, ret, bind. simpl. destruct (o_observer (s_o s)) as [ob|] eqn:Ho; [|reflexivity].
  destruct (ob_callback ob) as [cb|] eqn:Hc; [|reflexivity]. pose proof (h1_invoke ob) as C.
  destruct (invoke_callback (Env.e_callback E) ob) as [ob' m]. simpl in *. unfold view1. simpl. rewrite Ho. simpl. congruence.
Qed.
Ltac vk := repeat match goal with
  | |- keeps _ (obs (upd_stage2 _)) => apply v_obs, h1_upd2
  | |- keeps _ (obs (upd_stage2_any _)) => apply v_obs, h1_any2
  | |- keeps _ (obs _) => apply v_obs; reflexivity
  | |- keeps _ (callback _ _) => apply v_callback
  | _ => kp1
  end.
Lemma v_iter : forall i u, keeps view1 (obs_iteration i u). Proof. intros. unfold obs_iteration. vk. Qed.
Lemma v_callback_at : forall i, keeps view1 (callback_at E i). Proof. intro. unfold callback_at. vk. Qed.
Lemma v_save_now : forall c, keeps view1 (save_now E c). Proof. intro. unfold save_now, create_checkpoint. vk. Qed.
Lemma v_maybe_save : keeps view1 (maybe_save_checkpoint E). Proof. unfold maybe_save_checkpoint. vk. apply v_save_now. Qed.
Lemma v_final_save : keeps view1 (maybe_save_final_checkpoint E). Proof. unfold maybe_save_final_checkpoint. vk. apply v_save_now. Qed.
Lemma v_count : forall u, keeps view1 (count_unchanged u). Proof. intro. unfold count_unchanged, adjust_threshold. vk. Qed.
Lemma v_threshold : forall v, keeps view1 (set_threshold v). Proof. intro. unfold set_threshold. vk. Qed.
Lemma v_begin : forall i u, keeps view1 (begin_iteration E i u). Proof. intros. unfold begin_iteration. vk. Qed.
Lemma v_process : forall x, keeps view1 (process_local_solution E x).
Proof. intro. unfold process_local_solution, set_solutions, set_threshold, add_to_filter. vk. Qed.
Lemma v_search : forall b n, keeps view1 (obs_search b n). Proof. intros. unfold obs_search. vk. Qed.
Lemma v_begin_stage2 : keeps view1 begin_stage2. Proof. unfold begin_stage2. vk. Qed.
Ltac vm := repeat match goal with
  | |- keeps _ (callback_at _ _) => apply v_callback_at
  | |- keeps _ (maybe_save_checkpoint _) => apply v_maybe_save
  | |- keeps _ (count_unchanged _) => apply v_count
  | |- keeps _ (set_threshold _) => apply v_threshold
  | |- keeps _ (begin_iteration _ _ _) => apply v_begin
  | |- keeps _ (obs_iteration _ _) => apply v_iter
  | |- keeps _ (process_local_solution _ _) => apply v_process
  | |- keeps _ (obs_search _ _) => apply v_search
  | _ => progress vk
  end.
Lemma v_one : forall objs i p u, keeps view1 (process_one_seq E objs i p u).
Proof. intros. unfold process_one_seq, emit_eval. vm. Qed.
Lemma v_seq : forall start res objs b u, keeps view1 (process_batch_sequential E start res objs b u).
Proof.
  intros start res objs b. induction b as [|[i p] b IH]; intro u; simpl; [vm|].
  destruct (res && (i <? start)); [apply IH|]. apply k_bind; [apply v_one|intros [u' stop]]. destruct stop; [vm|apply IH].
Qed.
Lemma v_quicks : forall l u, keeps view1 (process_quicks E l u).
Proof. induction l as [|[[i p] v] l IH]; intro u; simpl; [vm|]. apply k_bind; [unfold process_quick; vm|intro; apply IH]. Qed.
Lemma v_results : forall l u, keeps view1 (process_par_results E l u).
Proof.
  induction l as [|[[[i p] v] [x n]] l IH]; intro u; simpl; [vm|]. apply k_bind; [unfold process_par_result; vm|intro b].
  destruct b; [vm|apply IH].
Qed.
Lemma v_singles : forall l u, keeps view1 (process_singles E l u).
Proof.
  induction l as [|[[i p] v] l IH]; intro u; simpl; [vm|]. apply k_bind; [unfold process_single; vm|intro b].
  destruct b; [vm|apply IH].
Qed.
Lemma v_par : forall start res objs b u, keeps view1 (process_batch_parallel E start res objs b u).
Proof. intros. unfold process_batch_parallel. cbv zeta. vm; first [apply v_quicks|apply v_results|apply v_singles]. Qed.
Lemma v_loop : forall size start res objs bs u, keeps view1 (stage2_loop E size start res objs bs u).
Proof.
  intros size start res objs bs. induction bs as [|b bs IH]; intro u; simpl; [vm|].
  vm; first [apply v_par|apply v_seq|apply IH].
Qed.
Lemma v_stage2 : forall res refs objs u, keeps view1 (stage2_run E res refs objs u).
Proof.
  intros. unfold stage2_run, final_set. cbv zeta. apply k_bind; [apply v_begin_stage2|intro]. vm; first [apply v_loop|apply v_final_save].
Qed.
Lemma v_final : keeps view1 final_set. Proof. unfold final_set. vm. Qed.
(** ** Events of which Stage 1 learns nothing and shows nothing *)
Definition quiet (e : event) : Prop :=
  match e with EvStage1 _ => False | EvSearch None _ => False | EvCallback None _ => False | _ => True end.
Lemma q_callback : forall i, emits quiet (callback E (Some i)).
Proof.
  clear. intro i. unfold callback. em. apply Forall_forall. intros ev [<-|Hx]; [exact I|].
  apply in_map_iff in Hx as (y & <- & _). exact I.
Qed.
Lemma q_callback_at : forall i, emits quiet (callback_at E i).
Proof. clear. intro i. unfold callback_at. em. apply q_callback. Qed.
Ltac qm := repeat match goal with
  | |- emits _ (callback _ (Some _)) => apply q_callback
  | |- emits _ (callback_at _ _) => apply q_callback_at
  | |- emits _ (maybe_save_checkpoint _) => apply e_maybe_save; side
  | |- emits _ (maybe_save_final_checkpoint _) => apply e_final_save; side
  | |- emits _ (count_unchanged _) => apply e_count; side
  | |- emits _ (set_threshold _) => apply e_threshold; exact I
  | |- emits _ (begin_iteration _ _ _) => apply e_begin; exact I
  | |- emits _ (obs_iteration _ _) => apply e_obs_iteration
  | |- emits _ (process_local_solution _ _) => apply e_process; intros; exact I
  | |- emits _ (obs_search _ _) => apply e_obs_search
  | |- emits _ (emit (map _ _)) => apply e_emit_map; intro; exact I
  | |- emits _ (emit _) => apply e_emit; repeat constructor
  | _ => progress em1
  end.
Lemma q_seq : forall start res objs b u, emits quiet (process_batch_sequential E start res objs b u).
Proof.
  clear. intros start res objs b. induction b as [|[i p] b IH]; intro u; simpl; [qm|].
  destruct (res && (i <? start)); [apply IH|]. apply e_bind; [unfold process_one_seq, emit_eval; qm|intros [u' stop]]. destruct stop; [qm|apply IH].
Qed.
Lemma q_quicks : forall l u, emits quiet (process_quicks E l u).
Proof. clear. induction l as [|[[i p] v] l IH]; intro u; simpl; [qm|]. apply e_bind; [unfold process_quick; qm|intro; apply IH]. Qed.
Lemma q_results : forall l u, emits quiet (process_par_results E l u).
Proof.
  clear. induction l as [|[[[i p] v] [x n]] l IH]; intro u; simpl; [qm|]. apply e_bind; [unfold process_par_result; qm|intro b].
  destruct b; [qm|apply IH].
Qed.
Lemma q_singles : forall l u, emits quiet (process_singles E l u).
Proof.
  clear. induction l as [|[[i p] v] l IH]; intro u; simpl; [qm|]. apply e_bind; [unfold process_single; qm|intro b].
  destruct b; [qm|apply IH].
Qed.
Lemma q_par : forall start res objs b u, emits quiet (process_batch_parallel E start res objs b u).
Proof. clear. intros. unfold process_batch_parallel. cbv zeta. qm; first [apply q_quicks|apply q_results|apply q_singles]. Qed.
Lemma q_loop : forall size start res objs bs u, emits quiet (stage2_loop E size start res objs bs u).
Proof.
  clear. intros size start res objs bs. induction bs as [|b bs IH]; intro u; simpl; [qm|].
  qm; first [apply q_par|apply q_seq|apply IH].
Qed.
Lemma q_stage2 : forall res refs objs u, emits quiet (stage2_run E res refs objs u).
Proof. clear. intros. unfold stage2_run, final_set, begin_stage2. cbv zeta. qm; apply q_loop. Qed.

(** ** Traces whose callbacks show the least value known *)
Context (o : oqnlp) (st0 : stage1).
Definition says (st : stage1) (e : event) : Prop :=
  match e with
  | EvStage1 _ => False
  | EvSearch None _ => False
  | EvCallback None ob => ob_stage1 ob = Some st
  | _ => True
  end.
Definition honest (t : list event) : Prop := forall a ob b st, t = a ++ EvCallback None ob :: b -> ob_stage1 ob = Some st ->
  shows_least st0 st (known E o b).
Lemma quiet_says : forall st l, Forall quiet l -> Forall (says st) l.
Proof. clear. intros st l H. eapply Forall_impl; [|exact H]. intros e He. destruct e; auto; destruct iter; auto; destruct He. Qed.
Lemma known_says : forall st l t, Forall (says st) l -> known E o (l ++ t) = known E o t.
Proof.
  clear. intros st l t H. induction H as [|e l He H IH]; [reflexivity|]. simpl. rewrite IH. destruct e; try reflexivity.
  - destruct He.
  - destruct iter; [reflexivity|destruct He].
Qed.
Lemma honest_says : forall st l t, honest t -> shows_least st0 st (known E o t) -> Forall (says st) l -> honest (l ++ t).
Proof.
  clear. intros st l t Ht Hs H. induction H as [|e l He H IH]; [exact Ht|]. intros a ob b st' Eq Hob. destruct a as [|x a].
  - simpl in Eq. injection Eq as -> <-. simpl in He. rewrite Hob in He. injection He as ->. rewrite (known_says st l t H). exact Hs.
  - simpl in Eq. injection Eq as -> Eq. exact (IH a ob b st' Eq Hob).
Qed.
Lemma honest_other : forall e t, honest t -> (forall ob, e <> EvCallback None ob) -> honest (e :: t).
Proof.
  clear. intros e t Ht He a ob b st Eq Hob. destruct a as [|x a]; simpl in Eq; injection Eq as -> Eq; [destruct (He ob); reflexivity|eauto].
Qed.
Lemma honest_ss : forall l, honest (rev (map EvStage1 (rev l))).
Proof.
  clear. intros l. rewrite <- map_rev, rev_involutive. induction l as [|e l IH]; [intros [|] ? ? ? Eq; discriminate Eq|].
  simpl. apply honest_other; [exact IH|discriminate].
Qed.
Lemma known_ss : forall l x, In x (known E o (rev (map EvStage1 (rev l)))) <->
  exists p, In p (evaluations l) /\ pb_objective (e_problem E) p = inl (snd x) /\ fst x = p.
Proof.
  clear. intros l x. rewrite <- map_rev, rev_involutive.
  assert (K : forall p, In p (evaluations l) <-> In (SsEval p) l).
  { intro p. unfold evaluations. rewrite in_flat_map. split.
    - intros (e & He & Hp). apply in_rev in He. destruct e; simpl in Hp; try contradiction. destruct Hp as [->|[]]. exact He.
    - intro H. exists (SsEval p). split; [apply in_rev; rewrite rev_involutive; exact H|left; reflexivity]. }
  unfold known. rewrite in_flat_map. split.
  - intros (e & He & Hx). apply in_map_iff in He as (y & <- & Hy). simpl in Hx. destruct y; try destruct Hx.
    destruct (pb_objective (e_problem E) p) as [v|] eqn:Hv; [|destruct Hx]. destruct Hx as [<-|[]]. exists p. simpl. rewrite K. auto.
  - intros (p & Hp & Hv & Hf). destruct x as [q v]. simpl in *. subst q. apply K in Hp. exists (EvStage1 (SsEval p)).
    split; [apply in_map; exact Hp|]. simpl. rewrite Hv. left. reflexivity.
Qed.
(** a callback *)
Lemma callback_says : forall s md st s' u, view1 (s_o s) = Some (md, Some st) -> callback E None s = (u, s') ->
  view1 (s_o s') = Some (md, Some st) /\ exists new, trace s' = new ++ trace s /\ Forall (says st) new.
Proof.
  intros s md st s' u Hv H. pose proof (v_callback None s) as K. rewrite H in K. simpl in K. split; [congruence|].
  unfold callback, bind, the_oqnlp, get, ret, bind in H. simpl in H. unfold view1 in Hv.
  destruct (o_observer (s_o s)) as [ob|] eqn:Ho; [|discriminate Hv]. simpl in Hv. unfold h1 in Hv.
  destruct (ob_callback ob) as [cb|] eqn:Hc.
  2:{ injection H as <- <-. exists []. auto. }
  destruct (invoke_callback (Env.e_callback E) ob) as [ob' m]. simpl in H. injection H as <- <-.
  exists (rev (EvCallback None ob :: map EvPrint m)). split; [reflexivity|].
  apply Forall_rev. constructor; [simpl; congruence|]. apply Forall_forall. intros e He. apply in_map_iff in He as (x & <- & _). exact I.
Qed.
(** ** Stage 1 of a run *)
Definition rest_of (x : oqnlp) : (solver_type * solver_config) * option (list point) := ((o_solver_type x, o_solver_config x), o_ref x).
Definition held (x : oqnlp) := (view1 x, rest_of x).
Lemma k_held : forall A (m : OM A), keeps view1 m -> keeps rest_of m -> keeps held m.
Proof. clear. intros A m H1 H2 s. unfold held. rewrite H1, H2. reflexivity. Qed.
Lemma step_quiet : forall B (f : oqnlp -> B) A C (m : OM A) (k : A -> OM C) s r s', keeps f m -> emits quiet m -> bind m k s = (Ok r, s') ->
  exists a s1 new, m s = (Ok a, s1) /\ k a s1 = (Ok r, s') /\ f (s_o s1) = f (s_o s) /\ trace s1 = new ++ trace s /\ Forall quiet new.
Proof.
  clear. intros B f A C m k s r s' Hk He H. specialize (Hk s). destruct (He s) as (new & H1 & H2). unfold bind in H.
  destruct (m s) as [[a|e|] s1]; [|discriminate H|discriminate H]. exists a, s1, new. auto.
Qed.
Lemma step_callback : forall C (k : unit -> OM C) s r s' md st, view1 (s_o s) = Some (md, Some st) -> bind (callback E None) k s = (Ok r, s') ->
  exists s1 new, k tt s1 = (Ok r, s') /\ held (s_o s1) = held (s_o s) /\ trace s1 = new ++ trace s /\ Forall (says st) new.
Proof.
  intros C k s r s' md st Hv H. unfold bind in H. pose proof (k_callback E rest_of (fun _ _ => eq_refl) None s) as K.
  pose proof (v_callback None s) as K'.
  destruct (callback E None s) as [[[]|e|] s1] eqn:Hc; [|discriminate H|discriminate H].
  destruct (callback_says s md st _ _ Hv Hc) as (V & new & N1 & N2). exists s1, new.
  split; [exact H|]. split; [|auto]. unfold held. simpl in K, K'. rewrite K, K'. reflexivity.
Qed.
Lemma view_observes : forall x md st, view1 x = Some (md, Some st) -> md <> Stage2Only -> observes1 x = true.
Proof.
  clear. intros x md st H Hm. unfold observes1, view1 in *. destruct (o_observer x) as [ob|]; [|discriminate H]. simpl in H. unfold h1 in H.
  unfold should_observe_stage1. destruct (ob_stage1 ob); [|discriminate H]. injection H as -> _. destruct md; congruence.
Qed.
Lemma view_upd : forall f x md st, view1 x = Some (md, Some st) -> md <> Stage2Only ->
  view1 (set_o_observer (option_map (upd_stage1 f) (o_observer x)) x) = Some (md, Some (f st)).
Proof.
  clear. intros f x md st H Hm. unfold view1 in *. simpl. destruct (o_observer x) as [ob|]; [|discriminate H]. simpl in *. f_equal.
  apply h1_upd1; [congruence|exact Hm].
Qed.
Lemma held_upd : forall f x md st r, held x = (Some (md, Some st), r) -> md <> Stage2Only ->
  held (set_o_observer (option_map (upd_stage1 f) (o_observer x)) x) = (Some (md, Some (f st)), r).
Proof.
  clear. intros f x md st r H Hm. unfold held in *. pose proof (f_equal fst H) as H1. pose proof (f_equal snd H) as H2. cbn [fst snd] in H1, H2.
  rewrite (view_upd f x md st H1 Hm), <- H2. reflexivity.
Qed.
Lemma held_view : forall x v r, held x = (v, r) -> view1 x = v.
Proof. clear. intros x v r H. exact (f_equal fst H). Qed.
Lemma held_rest : forall x v r, held x = (v, r) -> rest_of x = r.
Proof. clear. intros x v r H. exact (f_equal snd H). Qed.
Lemma covers_least : forall evs pts i b p, covers evs pts -> Forall number_at evs -> min_by cmp_snd (enumerate (map snd pts)) = Some (i, b) ->
  nth_error (map fst pts) i = Some p -> In (p, b) pts /\ forall q w, In q evs -> pb_objective (e_problem E) q = inl w -> flt w b = false.
Proof.
  clear. intros evs pts i b p [C1 C2] Hn Hmin Hp. pose proof (min_by_spec (map snd pts)) as M. rewrite Hmin in M. destruct M as [M1 M2].
  assert (I : In (p, b) pts).
  { clear - M1 Hp. revert i M1 Hp. induction pts as [|[x y] l IH]; intros [|i] M1 Hp; try discriminate M1; simpl in *.
    - injection M1 as <-. injection Hp as <-. left. reflexivity.
    - right. eapply IH; eauto. }
  split; [exact I|]. intros q w Hq Hw. destruct (C2 Hn q w Hq Hw) as (x & y & Hx & Hy).
  rewrite Forall_forall in Hn.
  assert (Ny : is_nan y = false) by (destruct (C1 _ _ Hx) as [X Y]; apply (Hn x X y Y)).
  assert (Nb : is_nan b = false) by (destruct (C1 _ _ I) as [X Y]; apply (Hn p X b Y)).
  assert (T : total_le b y = true) by (apply M2; apply in_map_iff; exists (x, y); auto).
  pose proof (total_le_fle _ _ Nb Ny T) as T'. destruct (flt w b) eqn:Hwb; [|reflexivity].
  rewrite <- Hy. symmetry. eapply flt_le_trans; eauto.
Qed.
Lemma step_end : forall C (k : unit -> OM C) s r s' md st x, held (s_o s) = (Some (md, Some st), x) -> md <> Stage2Only ->
  bind (end_stage1 E) k s = (Ok r, s') ->
  exists s1 new, k tt s1 = (Ok r, s') /\ held (s_o s1) = (Some (md, Some (s1_enter "stage1_complete" st)), x) /\
    trace s1 = new ++ trace s /\ Forall (says (s1_enter "stage1_complete" st)) new.
Proof.
  intros C k s r s' md st x Hh Hm H. unfold end_stage1 in H. unfold bind at 1 in H.
  unfold bind at 1 in H. unfold stage1_enter at 1 in H. cbn [obs upd modify] in H.
  match type of H with context [callback E None] => idtac end.
  match type of H with context [bind (callback E None) ?k' ?y] => set (s1 := y) in H; set (kk := k') in H end.
  assert (F1 : held (s_o s1) = (Some (md, Some (s1_enter "stage1_complete" st)), x)) by (exact (held_upd _ _ md st _ Hh Hm)).
  assert (W1 : trace s1 = trace s) by reflexivity. clearbody s1.
  destruct (bind (callback E None) kk s1) as [[u|e|] s2] eqn:Hc; [|discriminate H|discriminate H].
  apply (step_callback _ _ s1 _ _ md _ (held_view _ _ _ F1)) in Hc. destruct Hc as (s3 & new & H3 & F3 & W3 & O3).
  unfold kk in H3. cbn [obs upd modify] in H3. injection H3 as <- <-.
  eexists. exists new. split; [exact H|]. rewrite F1 in F3. rewrite W1 in W3. split; [|split; [exact W3|exact O3]].
  rewrite <- F3. unfold held, view1, rest_of. cbn [s_o set_o_observer o_observer o_solver_type o_solver_config o_ref].
  destruct (o_observer (s_o s3)) as [ob|]; reflexivity.
Qed.
Lemma v_stage1 : env_ok E -> forall s md r s', s_o s = o -> trace s = [] -> view1 o = Some (md, Some st0) -> md <> Stage2Only ->
  stage1_run E s = (Ok r, s') -> (forall p, In (EvStage1 (SsEval p)) (trace s') -> number_at p) ->
  exists st, view1 (s_o s') = Some (md, Some st) /\ honest (trace s') /\ shows_least st0 st (known E o (trace s')) /\
    match r with Some (refs, _) => o_ref (s_o s') = Some refs /\ s1_ref_size st = List.length refs | None => o_ref (s_o s') = o_ref o end.
Proof.
  intros HE s md r s' Hs Htr0 Ht Hm H Hnum. unfold stage1_run in H. unfold bind at 1 in H. simpl in H. unfold bind at 1 in H. simpl in H.
  set (s1 := mk_st (s_o s) (mk_world (w_disk (s_w s)) (S (w_tick (s_w s))) (w_trace (s_w s)))) in H.
  change (trace s) with (trace s1) in Htr0. change (s_o s) with (s_o s1) in H, Hs. clearbody s1. revert H. generalize (w_tick (s_w s)). clear s.
  intros tk H. rename s1 into s. rewrite Hs in H.
  assert (Hob : observes1 o = true) by (eapply view_observes; eauto).
  destruct (stage1_init E o tk) as [s3|err|] eqn:Hi; [|discriminate H|discriminate H].
  assert (B : built E (o_params o) s3 /\ ss_observer s3 = o_observer o).
  { unfold stage1_init in Hi. destruct (ss_new E (o_params o) tk) as [s0| |] eqn:Hn; try discriminate Hi. rewrite Hob in Hi. injection Hi as <-.
    split; [|reflexivity]. apply built_observer. destruct (o_custom o); [apply built_custom|]; apply built_parallel; eapply built_new; eauto. }
  destruct B as (B1 & B2). destruct (built_view _ _ _ B1) as (_ & _ & _ & _ & _ & El & _).
  assert (T3 : ss_view s3 = Some (md, Some st0)) by (unfold ss_view; rewrite B2; exact Ht).
  pose proof (ss_shown HE s3 md st0 T3 Hm) as C. unfold run_to in C.
  destruct (ss_run E s3) as [res sf] eqn:Hr. cbn [fst snd] in C. rewrite Hob in H. rewrite El in C. clear Hi B1 B2 T3 El Hr Hob.
  unfold bind at 1 in H. cbn [upd modify] in H. unfold bind at 1 in H. cbn [emit modify] in H.
  destruct res as [[pts cand]|err|]; [|discriminate H|discriminate H].
  destruct (C _ _ eq_refl) as (evs & st1 & C1 & C2 & C3 & C4 & C5). clear C. simpl app in C4.
  cbv zeta in H. match type of H with bind _ _ ?x = _ => set (s4 := x) in H end.
  assert (F4 : held (s_o s4) = (Some (md, Some st1), rest_of o)).
  { unfold held, s4. unfold view1. simpl. f_equal; [exact C1|]. unfold rest_of. rewrite <- Hs. reflexivity. }
  assert (W4 : trace s4 = rev (map EvStage1 (rev (ss_log sf)))) by (unfold s4; unfold trace in *; simpl; rewrite Htr0, app_nil_r; reflexivity).
  clearbody s4. clear Hs Htr0 s Ht C1.
  assert (Q4 : honest (trace s4)) by (rewrite W4; apply honest_ss).
  (* scatter_search_complete *)
  unfold bind at 1 in H. cbn [obs upd modify] in H. match type of H with bind _ _ ?x = _ => set (s5 := x) in H end.
  match goal with s5 := context [upd_stage1 ?f] |- _ => set (f5 := f) in s5 end. set (st5 := f5 st1).
  assert (F5 : held (s_o s5) = (Some (md, Some st5), rest_of o)).
  { exact (held_upd f5 _ md st1 _ F4 Hm). }
  assert (W5 : trace s5 = trace s4) by reflexivity. clearbody s5.
  assert (Z5 : s1_ref_size st5 = List.length (map fst pts)).
  { unfold st5, f5. destruct (min_by _ _) as [[i b]|]; [|reflexivity]. destruct (nth_error _ i); [|reflexivity].
    unfold s1_set_best_solution. destruct (_ || _); reflexivity. }
  assert (Sh4 : (Forall number_at evs) -> shows_least st0 st5 (known E o (trace s4))).
  { intro Hn. assert (Kn : forall x, In x (known E o (trace s4)) <-> exists p, In p evs /\ pb_objective (e_problem E) p = inl (snd x) /\ fst x = p).
    { intro x. rewrite W4, known_ss, C4. reflexivity. }
    assert (Base : shows_least st0 (s1_set_ref_size (List.length (map fst pts)) (s1_enter "scatter_search_complete" st1)) []).
    { split; [|left; split; assumption]. cbn [s1_best s1_set_ref_size s1_enter map]. rewrite C2.
      destruct (is_nan (s1_best st0)) eqn:Hz; [left; split; [exact Hz|intros v [<-|[]]; exact Hz]|].
      right. split; [exact Hz|]. split; [left; reflexivity|]. intros v [<-|[]]. apply flt_irrefl. }
    unfold st5, f5.
    destruct (min_by cmp_snd (enumerate (map snd pts))) as [[i b]|] eqn:Hmin.
    - destruct (nth_error (map fst pts) i) as [p|] eqn:Hp.
      + destruct (covers_least evs pts i b p C5 Hn Hmin Hp) as [L1 L2].
        rewrite <- (app_nil_r (known E o (trace s4))). apply least_grow; [exact Base| | |].
        * apply Kn. exists p. destruct C5 as [X _]. destruct (X _ _ L1) as [Y Z]. auto.
        * intros q w Hq. apply Kn in Hq as (q' & Q1 & Q2 & _). rewrite Forall_forall in Hn. apply (Hn q' Q1 w Q2).
        * intros q w Hq. apply Kn in Hq as (q' & Q1 & Q2 & _). apply (L2 q' w Q1 Q2).
      + exfalso. pose proof (min_by_spec (map snd pts)) as M. rewrite Hmin in M. destruct M as [M _].
        apply nth_error_None in Hp. assert (X : i < List.length (map snd pts)) by (apply nth_error_Some; congruence). rewrite map_length in *. lia.
    - pose proof (min_by_spec (map snd pts)) as M. rewrite Hmin in M. apply map_eq_nil in M. subst pts.
      assert (N0 : known E o (trace s4) = []).
      { destruct (known E o (trace s4)) as [|x l] eqn:Hk; [reflexivity|exfalso]. destruct (proj1 (Kn x) (or_introl eq_refl)) as (p & P1 & P2 & _).
        destruct C5 as [_ X]. destruct (X Hn p _ P1 P2) as (? & ? & [] & _). }
      rewrite N0. exact Base. }
  clearbody f5 st5. clear F4.
  (* the trace ends with the scatter search's events *)
  assert (Hevs : forall s9 l, trace s9 = l ++ trace s4 -> (forall p, In (EvStage1 (SsEval p)) (trace s9) -> number_at p) -> Forall number_at evs).
  { intros s9 l Hl Hn. apply Forall_forall. intros p Hp. apply Hn. rewrite Hl. apply in_or_app. right. rewrite W4.
    apply in_rev. rewrite rev_involutive. apply in_map. apply in_rev. rewrite rev_involutive.
    rewrite <- C4 in Hp. unfold evaluations in Hp. apply in_flat_map in Hp as (e & He & Hp). apply in_rev in He. destruct e; simpl in Hp; try contradiction.
    destruct Hp as [->|[]]. exact He. }
  rewrite <- W5 in *. clear W4 C4 C5 W5 C2 C3 st1.
  apply (step_callback _ _ s5 _ _ md st5) in H; [|exact (held_view _ _ _ F5)].
  destruct H as (s6 & n6 & H & F6 & W6 & O6). rewrite F5 in F6.
  unfold bind at 1 in H. unfold stage1_enter at 1 in H. cbn [obs upd modify] in H. match type of H with bind _ _ ?x = _ => set (s7 := x) in H end.
  set (st7 := s1_enter "local_optimization" st5).
  assert (F7 : held (s_o s7) = (Some (md, Some st7), rest_of o)).
  { exact (held_upd _ _ md st5 _ F6 Hm). }
  assert (W7 : trace s7 = trace s6) by reflexivity. clearbody s7.
  unfold bind at 1 in H. simpl in H. unfold bind at 1 in H. simpl in H.
  assert (Ho7 : observes1 (s_o s7) = true) by (eapply view_observes; [exact (held_view _ _ _ F7)|exact Hm]).
  match type of H with bind _ _ ?x = _ => set (s8 := x) in H end.
  assert (F8 : held (s_o s8) = held (s_o s7)) by reflexivity.
  assert (W8 : trace s8 = EvSearch None cand :: trace s7) by reflexivity.
  rewrite F7 in F8. assert (S7 : rest_of (s_o s7) = rest_of o) by (exact (held_rest _ _ _ F7)).
  unfold solve_tracked in H. rewrite Ho7 in H. unfold rest_of in S7. injection S7 as S7 S7' _. rewrite S7, S7' in H.
  clearbody s8. clear Ho7 S7 S7' F6 F7 F5.
  unfold bind at 1 in H.
  destruct (solve_with_tracking (e_ext E) (e_problem E) (o_solver_type o) (o_solver_config o) cand true) as [[sol n]|er|] eqn:Hsolve;
    [|discriminate H|discriminate H]. cbn [of_solver ret fst snd] in H.
  apply step_quiet with (f := held) in H; [|apply k_held; [apply v_threshold|apply k_threshold; reflexivity]|apply e_threshold; exact I].
  destruct H as (? & s9 & n9 & _ & H & F9 & W9 & O9). rewrite F8 in F9.
  unfold bind at 1 in H. cbn [obs upd modify] in H.
  match type of H with bind _ _ ?y = _ => set (s10 := y) in H end.
  match goal with s10 := context [upd_stage1 ?f] |- _ => set (f10 := f) in s10 end. set (st10 := f10 st7).
  assert (F10 : held (s_o s10) = (Some (md, Some st10), rest_of o)).
  { exact (held_upd f10 _ md st7 _ F9 Hm). }
  assert (W10 : trace s10 = trace s9) by reflexivity. clearbody s10.
  assert (K8 : known E o (trace s8) = (ls_point sol, ls_obj sol) :: known E o (trace s7)).
  { rewrite W8. unfold known. cbn [flat_map learned]. rewrite Hsolve. reflexivity. }
  assert (K7 : known E o (trace s7) = known E o (trace s5)) by (rewrite W7, W6; eapply known_says; exact O6).
  assert (K10 : known E o (trace s10) = known E o (trace s8)) by (rewrite W10, W9; eapply (known_says st10); apply quiet_says; exact O9).
  assert (Sh10 : Forall number_at evs -> shows_least st0 st10 (known E o (trace s10))).
  { intro Hn. rewrite K10, K8, K7. unfold st10, f10.
    apply least_keep with (st := s1_set_best_solution (ls_obj sol) (ls_point sol) (s1_enter "local_optimization_complete" st7)); [reflexivity|reflexivity|].
    apply least_step. eapply least_keep; [| |apply Sh4; exact Hn]; reflexivity. }
  assert (Z10 : s1_ref_size st10 = List.length (map fst pts)).
  { rewrite <- Z5. unfold st10, f10. unfold s1_set_best_solution. destruct (_ || _); reflexivity. }
  clearbody f10 st10.
  assert (Q10 : Forall number_at evs -> honest (trace s10)).
  { intro Hn. rewrite W10, W9. apply honest_says with (st := st10); [|rewrite <- K10; apply Sh10; exact Hn|apply quiet_says; exact O9].
    rewrite W8. apply honest_other; [|discriminate]. rewrite W7, W6. apply honest_says with (st := st5); [exact Q4|apply Sh4; exact Hn|exact O6]. }
  assert (E10 : exists l, trace s10 = l ++ trace s5).
  { exists (n9 ++ EvSearch None cand :: n6). rewrite W10, W9, W8, W7, W6, <- app_assoc. reflexivity. }
  clear W6 W7 W8 W9 W10 K7 K8 K10 F8 F9 Q4 Sh4 Z5 O6 O9 Hsolve n9 n6 s9 s8 s7 s6.
  apply (step_callback _ _ s10 _ _ md st10) in H; [|exact (held_view _ _ _ F10)].
  destruct H as (s11 & n11 & H & F11 & W11 & O11). rewrite F10 in F11.
  apply step_quiet with (f := held) in H; [|apply k_held; [apply v_process|unfold process_local_solution, set_solutions, set_threshold, add_to_filter; kp]|apply e_process; intros; exact I].
  destruct H as (? & s12 & n12 & _ & H & F12 & W12 & O12). rewrite F11 in F12.
  unfold bind at 1 in H. cbn [the_oqnlp get ret] in H.
  set (st12 := s1_enter "stage1_complete" st10).
  assert (K12 : known E o (trace s12) = known E o (trace s10)).
  { rewrite W12, (known_says st10 n12) by (apply quiet_says; exact O12). rewrite W11. eapply known_says; exact O11. }
  assert (Q12 : Forall number_at evs -> honest (trace s12)).
  { intro Hn. rewrite W12. assert (X : honest (trace s11)).
    { rewrite W11. apply honest_says with (st := st10); [apply Q10; exact Hn|apply Sh10; exact Hn|exact O11]. }
    apply honest_says with (st := st10); [exact X| |apply quiet_says; exact O12]. rewrite W11, (known_says st10 n11) by exact O11. apply Sh10; exact Hn. }
  assert (E12 : exists l, trace s12 = l ++ trace s5).
  { destruct E10 as [l El]. exists (n12 ++ n11 ++ l). rewrite W12, W11, El, <- !app_assoc. reflexivity. }
  assert (Sh12 : Forall number_at evs -> shows_least st0 st12 (known E o (trace s12))).
  { intro Hn. rewrite K12. eapply least_keep; [| |apply Sh10; exact Hn]; reflexivity. }
  assert (Z12 : s1_ref_size st12 = List.length (map fst pts)) by exact Z10.
  clear W11 W12 O11 O12 F11 Q10 Sh10 E10 K12.
  change (the_oqnlp s12) with (@Ok oq_error oqnlp (s_o s12), s12) in H. cbv iota beta in H.
  unfold bind at 1 in H. destruct (target_reached E (s_o s12)) as [stop|]; cbn [unwrap ret panic] in H; [|discriminate H].
  assert (Fin : forall s13 n13, trace s13 = n13 ++ trace s12 -> Forall (says st12) n13 -> trace s' = trace s13 ->
    Forall number_at evs /\ honest (trace s') /\ shows_least st0 st12 (known E o (trace s'))).
  { intros s13 n13 W O Eq. destruct E12 as [l El].
    assert (Hn : Forall number_at evs) by (apply (Hevs s' (n13 ++ l)); [rewrite Eq, W, El, <- app_assoc; reflexivity|exact Hnum]).
    split; [exact Hn|]. rewrite Eq, W. split; [apply honest_says with (st := st12); auto|]. rewrite (known_says st12) by exact O. apply Sh12; exact Hn. }
  destruct stop.
  - apply (step_end _ _ s12 _ _ md st10 _ F12 Hm) in H. destruct H as (s13 & n13 & H & F13 & W13 & O13). cbn [ret] in H. injection H as <- <-.
    exists st12. destruct (Fin s13 n13 W13 O13 eq_refl) as (_ & G1 & G2). split; [exact (held_view _ _ _ F13)|]. split; [exact G1|]. split; [exact G2|].
    pose proof (held_rest _ _ _ F13) as X. exact (f_equal snd X).
  - unfold bind at 1 in H. cbn [upd modify] in H.
    match type of H with bind _ _ ?y = _ => set (s12' := y) in H end.
    assert (F12' : held (s_o s12') = (Some (md, Some st10), ((o_solver_type o, o_solver_config o), Some (map fst pts)))).
    { pose proof (held_rest _ _ _ F12) as X. pose proof (f_equal fst X) as X1. cbn [fst rest_of] in X1.
      unfold held. rewrite <- X1. f_equal. exact (held_view _ _ _ F12). }
    assert (W12' : trace s12' = trace s12) by reflexivity. clearbody s12'.
    apply (step_end _ _ s12' _ _ md st10 _ F12' Hm) in H. destruct H as (s13 & n13 & H & F13 & W13 & O13). cbn [ret] in H. injection H as <- <-.
    rewrite W12' in W13. destruct (Fin s13 n13 W13 O13 eq_refl) as (_ & G1 & G2).
    exists st12. split; [exact (held_view _ _ _ F13)|]. split; [exact G1|]. split; [exact G2|]. split; [|exact Z12].
    pose proof (held_rest _ _ _ F13) as X. exact (f_equal snd X).
Qed.
End Showing.
Lemma observing_view : forall ob st, observing1 ob st -> exists md, md <> Stage2Only /\ option_map h1 ob = Some (md, Some st).
Proof. intros ob st (o & -> & Hm & Hs). exists (ob_mode o). split; [exact Hm|]. simpl. unfold h1. rewrite Hs. reflexivity. Qed.
Lemma view_observing : forall ob md st, md <> Stage2Only -> option_map h1 ob = Some (md, Some st) -> observing1 ob st.
Proof. intros [o|] md st Hm H; [|discriminate H]. simpl in H. unfold h1 in H. injection H as <- H. exists o. auto. Qed.
Theorem c104 : forall E s set s' new st0, env_ok E -> callbacks_keep_stage1 E -> observing1 (o_observer (s_o s)) st0 ->
  (forall cp, ~ resumes_from E s cp) -> run E s = (Ok set, s') -> recorded s s' new ->
  (forall p v, In (EvStage1 (SsEval p)) new -> pb_objective (e_problem E) p = inl v -> is_nan v = false) ->
  (forall a ob b st, new = a ++ EvCallback None ob :: b -> ob_stage1 ob = Some st -> shows_least st0 st (known E (s_o s) b)) /\
  exists st, observing1 (o_observer (s_o s')) st /\ shows_least st0 st (known E (s_o s) new) /\
    (o_ref (s_o s) = None -> forall refs, o_ref (s_o s') = Some refs -> s1_ref_size st = List.length refs).
Proof.
  intros E s set s' new st0 HE Hcb Hob Hres Hrun Hnew Hnum. destruct (observing_view _ _ Hob) as (md & Hm & Ht).
  destruct (run_cases E s _ s' new Hrun Hnew) as [(-> & _ & Hno)|(b & s1 & Hst & Htr & Hr & Hcfg)].
  { exfalso. eapply Hno; reflexivity. }
  destruct b.
  { exfalso. inversion Hst; subst. eapply Hres. apply resumes_blank. unfold resumes_from. eauto 10. }
  assert (Ho : s_o s1 = s_o s) by (inversion Hst; reflexivity).
  unfold run_rest in Hr. unfold bind in Hr at 1. destruct (stage1_run E s1) as [[r|e|] s2] eqn:E1; [|discriminate Hr|discriminate Hr].
  assert (X : exists new2, view1 (s_o s') = view1 (s_o s2) /\ o_ref (s_o s') = o_ref (s_o s2) /\ new = new2 ++ trace s2 /\ Forall quiet new2).
  { assert (Y : forall A (m : OM A) a, keeps view1 m -> keeps o_ref m -> emits quiet m -> m s2 = (a, ends s' new) ->
      exists new2, view1 (s_o s') = view1 (s_o s2) /\ o_ref (s_o s') = o_ref (s_o s2) /\ new = new2 ++ trace s2 /\ Forall quiet new2).
    { intros A m a K K' M G. specialize (K s2). specialize (K' s2). destruct (M s2) as (new2 & M1 & M2). rewrite G in K, K', M1. exists new2. auto. }
    destruct r as [[refs objs]|].
    - eapply Y; [| | |exact Hr]; [apply v_stage2; exact Hcb| |apply q_stage2].
      intro z. pose proof (RunP.a_stage2 E (candidate E false (s_o z) refs) (Some objs) false refs 0
                    (fun r s' => True) z (fun i p H => H) (fun r s' _ H => I)) as [W1 _].
      eapply acts_ref; [|exact W1]. intros p (i & rs & Hx & _). discriminate.
    - eapply Y; [| | |exact Hr]; [apply v_final|unfold final_set; kp|unfold final_set; em]. }
  destruct X as (new2 & X1 & X2 & X3 & X4).
  destruct (v_stage1 E Hcb (s_o s) st0 HE s1 md r s2 Ho Htr Ht Hm E1) as (st & V1 & V2 & V3 & V4).
  { intros p Hp v Hv. apply (Hnum p v); [|exact Hv]. rewrite X3. apply in_or_app. right. exact Hp. }
  split.
  - intros a ob b st' Eq Hs. assert (Hh : honest E (s_o s) st0 new); [|exact (Hh a ob b st' Eq Hs)].
    rewrite X3. eapply honest_says; [exact V2|exact V3|apply quiet_says; exact X4].
  - exists st. split; [apply (view_observing _ md _ Hm); rewrite <- V1, <- X1; reflexivity|]. split.
    + rewrite X3, (known_says E (s_o s) st) by (apply quiet_says; exact X4). exact V3.
    + intros Hn refs Hrefs. rewrite X2 in Hrefs. destruct r as [[rs os]|]; [destruct V4 as [V4 V5]; rewrite V5; congruence|congruence].
Qed.

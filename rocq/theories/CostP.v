(** * How much work a run does (C98) *)
From Coq Require Import ZArith NArith List Bool Arith Lia String Permutation.
From Verif Require Import F64 Base Builders Types Filters Runner Observer Env EnvSpec ScatterSearch Codec Checkpoint
  Oqnlp Spec SpecStage1 SpecStage2 SpecObserver SpecCost
  BasicP GreedyP SampleP SqrtP Stage1P Stage1Q Wp Actions RunP SetP FrameP CountP FilterP Stage2P EmitsP HoareP Stage1CountP StartP WhereP.
Import ListNotations.

(** ** The scatter search *)
Section Search.
Context (E : env) (HE : env_ok E).
Notation P := (e_problem E).
Lemma upto_len f (l : list point) : List.length (@upto_error f64 f l) <= List.length l.
Proof. induction l as [|x l IH]; simpl; [lia|]. destruct (f x); simpl; lia. Qed.
Lemma init_cost s : run_to (initialize_reference_set E) s (fun r s' =>
  exists later, evaluations (ss_log s') = evaluations (ss_log s) ++ later /\
    List.length later <= Nat.max (p_population (ss_params s)) (List.length (initial_points P s))).
Proof.
  unfold initialize_reference_set. apply rt_bind. unfold run_to at 1, get. cbn [fst snd].
  apply rt_bind.
  replace (match ss_custom s with Some c => filter (is_feasible (pb_constraints (e_problem E))) c | None => [] end)
    with (filter (is_feasible (pb_constraints (e_problem E))) (custom_points s))
    by (unfold custom_points; destruct (ss_custom s); reflexivity).
  fold (initial_points (e_problem E) s).
  destruct (div_spec E (initial_points P s) (pb_constraints P) s)
    as (rng & l & r & Hd & Hs & Hdiv & _).
  unfold run_to at 1. rewrite Hd. cbn [fst snd]. set (n := Nat.max _ _).
  assert (No : exists later, evaluations (ss_log (drew rng l s)) = evaluations (ss_log s) ++ later /\ List.length later <= n).
  { exists []. rewrite app_nil_r. split; [apply ev_drew|simpl; lia]. }
  destruct r as [refs|e|]; [|exact No|exact No].
  assert (Hr : List.length refs = n) by (inversion Hdiv; auto).
  apply rt_bind. unfold run_to at 1, modify. cbn [fst snd].
  match goal with |- context [ss_emit (map SsEval ?l) _] => set (evs := l) end.
  assert (Hi : List.length evs <= n).
  { unfold evs. rewrite <- Hr. destruct (ss_parallel s && (20 <=? List.length refs)); [auto|apply upto_len]. }
  clearbody evs.
  assert (Y : exists later, evaluations (ss_log (ss_emit (map SsEval evs) (drew rng l s))) = evaluations (ss_log s) ++ later /\
    List.length later <= n).
  { exists evs. rewrite ev_emit, ev_drew. split; [reflexivity|exact Hi]. }
  match goal with |- context [match ?x with inl _ => _ | inr _ => _ end] => destruct x end; exact Y.
Qed.
Lemma update_cost trials s : run_to (update_reference_set E trials) s (fun r s' =>
  exists later, evaluations (ss_log s') = evaluations (ss_log s) ++ later /\ List.length later <= List.length trials).
Proof.
  unfold update_reference_set.
  assert (No : exists later, evaluations (ss_log s) = evaluations (ss_log s) ++ later /\ List.length later <= List.length trials).
  { exists []. rewrite app_nil_r. split; [reflexivity|simpl; lia]. }
  destruct trials as [|t0 trials]; [exact No|]. set (ts := t0 :: trials) in *.
  apply rt_bind. unfold run_to at 1, get. cbn [fst snd]. apply rt_bind.
  destruct (dist_threshold_spec E s) as (thr & -> & _). unfold run_to at 1, unwrap, ret. cbn [fst snd].
  apply rt_bind. unfold run_to at 1, modify. cbn [fst snd].
  set (res := map (fun p => (p, evaluate_trial E (ss_ref s) (last (ss_objs s) pinf) thr p)) ts).
  set (evs := map fst (filter (fun r => fst (snd r)) res)).
  replace (map (fun r : point * (bool * option (point * f64)) => SsEval (fst r)) (filter (fun r => fst (snd r)) res))
    with (map SsEval evs) by (unfold evs; rewrite map_map; reflexivity).
  assert (Hev : List.length evs <= List.length ts).
  { unfold evs. rewrite map_length. replace (List.length ts) with (List.length res) by (unfold res; apply map_length).
    clear. induction res as [|x l IH]; simpl; [lia|]. destruct (fst (snd x)); simpl; lia. }
  generalize (flat_map (fun r : point * (bool * option (point * f64)) => match snd (snd r) with Some x => [x] | None => [] end) res).
  intro accepted. clearbody evs.
  assert (Y : exists later, evaluations (ss_log (ss_emit (map SsEval evs) s)) = evaluations (ss_log s) ++ later /\
    List.length later <= List.length ts) by (exists evs; rewrite ev_emit; auto).
  destruct accepted as [|a0 accepted]; [exact Y|].
  apply rt_bind. unfold run_to at 1, unwrap, ret, panic.
  destruct (keep_best E _ _) as [kept|]; cbn [fst snd]; exact Y.
Qed.
Theorem search_cost p s r s' : built E p s -> ss_run E s = (r, s') ->
  let n := Nat.max (p_population p) (List.length (starting_points P (custom_points s))) in
  List.length (evaluations (ss_log s')) <= n + 3 * (ksel n * (ksel n - 1)).
Proof.
  intros Hb H n.
  destruct (built_view _ _ _ Hb) as (Ep & Er & _ & Elo & Ehi & El & Hnb).
  assert (L0 : evaluations (ss_log s) = []) by (rewrite El; reflexivity).
  set (B := n + 3 * (ksel n * (ksel n - 1))).
  assert (G : run_to (ss_run E) s (fun _ s' => List.length (evaluations (ss_log s')) <= B)).
  2:{ eapply (rt_eq _ _ _ _ _ _ G H). }
  clear H r s'. unfold ss_run. apply rt_bind.
  eapply rt_conseq.
  { exact (rt_and _ _ _ _ _ (init_spec E s) (init_cost s)). }
  cbv beta. intros r s1 [Hi (later & Hl & Hlg)]. rewrite L0 in Hl. cbn [app] in Hl.
  rewrite Ep, (initial_eq _ _ _ Hb) in Hlg. fold n in Hlg.
  assert (A0 : List.length (evaluations (ss_log s1)) <= n) by (rewrite Hl; exact Hlg).
  assert (A1 : List.length (evaluations (ss_log s1)) <= B) by (unfold B; lia).
  destruct r as [[]|e|]; [|exact A1|exact A1].
  assert (Hobs : forall A f (k : unit -> M ss ss_error A) s0 Q,
    (forall s', noisy s0 s' -> run_to (k tt) s' Q) -> run_to (bind (ss_obs f) k) s0 Q).
  { intros A f k s0 Q H. apply rt_bind. destruct (noisy_obs f s0) as [G1 G2]. unfold run_to at 1. rewrite G1. auto. }
  assert (Hcall : forall A (k : unit -> M ss ss_error A) s0 Q,
    (forall s', noisy s0 s' -> run_to (k tt) s' Q) -> run_to (bind (ss_callback E) k) s0 Q).
  { intros A k s0 Q H. apply rt_bind. destruct (noisy_callback E s0) as [G1 G2]. unfold run_to at 1. rewrite G1. auto. }
  apply Hobs. intros a1 N1. apply Hcall. intros a2 N2. apply rt_bind. unfold run_to at 1, get. cbn [fst snd].
  apply Hobs. intros a3 N3. apply Hcall. intros s2 N4.
  assert (N : noisy s1 s2) by (eapply noisy_trans; [eapply noisy_trans; [eapply noisy_trans|]|]; eauto).
  clear a1 N1 a2 N2 a3 N3 N4.
  destruct (init_members E HE s s1 Hi) as (_ & Lm & _).
  rewrite Ep, (initial_eq _ _ _ Hb) in Lm. fold n in Lm.
  apply rt_bind. eapply rt_conseq; [apply gen_trials_spec|]. cbv beta.
  intros r s3 [[rng Hs3] Hr]. assert (N3 : noisy s1 s3) by (eapply noisy_trans; [exact N|subst s3; apply noisy_rng]).
  assert (A3 : List.length (evaluations (ss_log s3)) <= n).
  { destruct (noisy_view _ _ N3) as (_ & _ & _ & _ & _ & _ & _ & _ & ->). exact A0. }
  destruct (noisy_view _ _ N) as (V1 & V2 & _).
  rewrite V2 in Hr. destruct r as [trials|e|]; [|cbv beta; unfold B; lia|cbv beta; unfold B; lia].
  apply trials_len in Hr. rewrite Lm in Hr.
  apply rt_bind. eapply rt_conseq; [apply update_cost|]. cbv beta. intros r s4 (lt & Hlt & Hlg2).
  assert (A4 : List.length (evaluations (ss_log s4)) <= B).
  { rewrite Hlt, app_length. unfold B. lia. }
  destruct r as [[]|e|]; [|exact A4|exact A4].
  apply rt_bind. unfold run_to at 1, get. cbn [fst snd].
  apply Hobs. intros a1 N1. apply Hcall. intros s5 N2.
  assert (A5 : List.length (evaluations (ss_log s5)) <= B).
  { assert (N5 : noisy s4 s5) by (eapply noisy_trans; eauto). destruct (noisy_view _ _ N5) as (_ & _ & _ & _ & _ & _ & _ & _ & ->). exact A4. }
  apply rt_bind. unfold run_to at 1. rewrite best_eq.
  destruct (min_by cmp_snd (enumerate (ss_objs s5))) as [[i v]|]; [|exact A5].
  destruct (nth_error (ss_ref s5) i); exact A5.
Qed.
End Search.
Lemma k_small n : (Z.of_nat n < 2 ^ 52)%Z -> n + 3 * (ksel n * (ksel n - 1)) <= 4 * Nat.max n 2.
Proof.
  intros H. rewrite (ksel_sqrt n H). unfold sample_size.
  destruct (Nat.le_gt_cases 4 n) as [G|G].
  - assert (S2 : 2 <= Nat.sqrt n) by (apply Nat.sqrt_le_square; exact G).
    pose proof (Nat.sqrt_le_lin n). rewrite (Nat.max_r 2) by lia. rewrite (Nat.min_r n) by lia.
    pose proof (Nat.sqrt_spec' n) as [S3 _]. nia.
  - destruct n as [|[|[|[|n]]]]; simpl; lia.
Qed.

(** ** Counting events *)
Lemma ev1_cons e l : List.length (stage1_evaluations (e :: l)) =
  (match e with EvStage1 (SsEval _) => 1 | _ => 0 end) + List.length (stage1_evaluations l).
Proof.
  unfold stage1_evaluations. simpl. rewrite flat_map_app, app_length. simpl.
  destruct e; simpl; try lia. destruct e; simpl; lia.
Qed.
Lemma calls_split l : List.length (objective_calls l) = List.length (stage1_evaluations l) + List.length (evaluated l).
Proof.
  induction l as [|e l IH]; [reflexivity|]. rewrite ev1_cons. unfold objective_calls, evaluated, indices in *. simpl.
  rewrite !app_length, IH. destruct e; simpl; try lia. destruct e; simpl; lia.
Qed.
Lemma starts_split l : List.length (search_starts l) = List.length (stage1_searches l) + List.length (searched l).
Proof.
  induction l as [|e l IH]; [reflexivity|]. unfold search_starts, searched, stage1_searches, indices in *. simpl.
  rewrite !app_length, IH. destruct e as [| | |[j|] q| | | | | | | | | |]; simpl; lia.
Qed.
(** events of Stage 1 *)
Definition early (e : event) : Prop := match e with EvObjective _ _ | EvSearch (Some _) _ => False | _ => True end.
Lemma early_none l : Forall early l -> evaluated l = [] /\ searched l = [].
Proof.
  induction 1 as [|e l He H [IH1 IH2]]; [split; reflexivity|]. unfold evaluated, searched, indices in *. simpl. rewrite IH1, IH2.
  destruct e as [| | |[j|] q| | | | | | | | | |]; try (split; reflexivity); destruct He.
Qed.
Section Run.
Context (E : env) (HE : env_ok E).
Lemma early_process x : emits early (process_local_solution E x).
Proof. apply e_process; intros; exact I. Qed.
Lemma early_end : emits early (end_stage1 E).
Proof. unfold end_stage1, stage1_enter. em. apply EmitsP.e_callback; intros; exact I. Qed.
Lemma early_stage1 : emits early (stage1_run E).
Proof.
  unfold stage1_run, stage1_enter, set_threshold. em; try (apply EmitsP.e_callback; intros; exact I); try apply early_process; try apply early_end;
    try exact I; try (apply Forall_cons; [exact I|apply Forall_nil]).
  apply Forall_forall. intros e He. apply in_map_iff in He as (y & <- & _). exact I.
Qed.
Lemma other_process x : emits other (process_local_solution E x).
Proof. apply e_process; intros; exact I. Qed.
Lemma stage1_cost s : exists new, trace (snd (stage1_run E s)) = new ++ trace s /\
  let n := first_members (e_problem E) (s_o s) in List.length (stage1_evaluations new) <= n + 3 * (ksel n * (ksel n - 1)).
Proof.
  assert (No : forall a b : st, trace b = trace a -> exists new, trace b = new ++ trace a /\
    let n := first_members (e_problem E) (s_o s) in List.length (stage1_evaluations new) <= n + 3 * (ksel n * (ksel n - 1))).
  { intros a b H. exists []. split; [exact H|]. simpl. lia. }
  unfold stage1_run. unfold bind at 1. cbn [the_oqnlp bind get ret fst snd s_o]. unfold bind at 1.
  destruct (tick s) as [t0 s1] eqn:Ht. injection Ht as <- <-. cbn [fst snd].
  set (s1 := mk_st (s_o s) (mk_world (w_disk (s_w s)) (S (w_tick (s_w s))) (w_trace (s_w s)))).
  destruct (stage1_init E (s_o s) (w_tick (s_w s))) as [s3|e|] eqn:Hi; [|apply No; reflexivity|apply No; reflexivity].
  destruct (stage1_init_built _ _ _ _ Hi) as [Hb Hc].
  destruct (ss_run E s3) as [res sf] eqn:Hrun. pose proof (search_cost E HE _ _ _ _ Hb Hrun) as Hcost.
  rewrite Hc in Hcost. fold (first_members (e_problem E) (s_o s)) in Hcost.
  match goal with |- context [bind ?m ?k s1] => assert (Hm : exists s2, m s1 = (Ok tt, s2) /\ trace s2 = trace s) end.
  { destruct (observes1 (s_o s)); eexists; split; reflexivity. }
  destruct Hm as (s2 & Hm & Ht2). unfold bind at 1. rewrite Hm. unfold bind at 1. cbn [emit modify fst snd].
  match goal with |- context [snd (?m ?s5)] => assert (Ho : emits other m) end.
  { destruct res as [[pts cand]|e|]; unfold stage1_enter, set_threshold; em;
      try (apply EmitsP.e_callback; intros; exact I); try apply other_process; try apply o_end_stage1; try exact I;
      try (apply Forall_cons; [exact I|apply Forall_nil]). }
  match goal with |- context [snd (?m ?s5)] => destruct (Ho s5) as (new & Hn & Hf) end.
  rewrite Hn. exists (new ++ rev (map EvStage1 (rev (ss_log sf)))). split.
  - rewrite <- app_assoc. f_equal. rewrite <- Ht2. reflexivity.
  - cbv zeta. rewrite ev1_app, (ev1_other _ Hf), app_nil_r, ev1_log. exact Hcost.
Qed.
(** a run that does not resume *)
Theorem fresh_cost s r s' new : run E s = (r, s') -> recorded s s' new -> (forall cp, ~ resumes_from E s cp) ->
  let n := first_members (e_problem E) (s_o s) in
  let i := p_iterations (o_params (s_o s)) in
  List.length (stage1_evaluations new) <= n + 3 * (ksel n * (ksel n - 1)) /\
  List.length (evaluated new) <= Nat.min i n /\ List.length (searched new) <= Nat.min i n.
Proof.
  intros Hrun Hnew Hres n i.
  destruct (c31_bound E s r s' new HE Hrun Hnew) as (_ & B1 & _ & B2 & _). apply once_length in B1, B2.
  destruct (run_cases E s _ s' new Hrun Hnew) as [(-> & _ & _)|(b & s1 & Hst & Htr & Hr & Hcfg)]; [simpl; lia|].
  destruct b.
  { exfalso. inversion Hst; subst. eapply Hres. apply SaveP.resumes_blank. unfold resumes_from. eauto 10. }
  assert (Ho : s_o s1 = s_o s) by (inversion Hst; reflexivity).
  unfold work_bound in B1, B2.
  assert (Hit : p_iterations (o_params (s_o s')) = i) by (unfold i; rewrite <- Ho; destruct Hcfg as (-> & _); reflexivity).
  rewrite Hit in B1, B2. clear Hit.
  unfold run_rest in Hr. unfold bind in Hr at 1.
  destruct (stage1_cost s1) as (n1 & T1 & C1). rewrite Ho in C1. cbv zeta in C1. fold n in C1.
  destruct (early_stage1 s1) as (n1' & T1' & E1). rewrite T1 in T1'. apply app_inv_tail in T1'. subst n1'. rewrite Htr, app_nil_r in T1.
  pose proof (a_stage1 E (stage1_best E s1) None
    (fun r s2 => forall refs objs, r = Some (refs, objs) -> stage1_result E s1 s2 refs objs) s1
    (fun _ H => H) (fun _ _ _ H => H)) as [_ W].
  destruct (stage1_run E s1) as [r1 s2] eqn:Hs1. cbn [fst snd] in *.
  assert (Stop : forall A (m : OM A) a, emits (fun e => other e /\ early e) m -> m s2 = (a, ends s' new) ->
    List.length (stage1_evaluations new) <= n + 3 * (ksel n * (ksel n - 1)) /\
    List.length (evaluated new) <= Nat.min i n /\ List.length (searched new) <= Nat.min i n).
  { intros A m a M G. destruct (M s2) as (n2 & M1 & M2). rewrite G in M1. cbn [snd] in M1. change (trace (ends s' new)) with new in M1.
    rewrite M1, T1. assert (M3 : Forall early (n2 ++ n1)).
    { apply Forall_app. split; [|exact E1]. eapply Forall_impl; [|exact M2]. intros e [_ X]. exact X. }
    destruct (early_none _ M3) as [-> ->]. rewrite ev1_app, (ev1_other n2), app_nil_r; [simpl; lia|].
    eapply Forall_impl; [|exact M2]. intros e [X _]. exact X. }
  destruct r1 as [[[refs objs]|]|e|].
  - destruct (W refs objs eq_refl) as (s0 & pts & best & sf & G1 & G2 & G3 & G4 & G5).
    destruct (stage1_init_built _ _ _ _ G1) as [Hb Hc].
    pose proof (c12_size E _ s0 pts best sf HE Hb G2) as [_ Hsz]. rewrite Hc, Ho in Hsz. fold (first_members (e_problem E) (s_o s)) in Hsz. fold n in Hsz.
    pose proof (a_stage2 E (candidate E false (s_o s2) refs) (Some objs) false refs 0 (fun _ _ => True) s2 (fun i p H => H) (fun r s' _ H => I)) as [W2 _].
    rewrite Hr in W2. cbn [fst snd] in W2.
    assert (Hrf : o_ref (s_o (ends s' new)) = Some refs).
    { rewrite <- G5. eapply acts_ref; [|exact W2]. intros p (j & rs & Hx & _). discriminate. }
    change (s_o (ends s' new)) with (s_o s') in Hrf. unfold reference_set in B1, B2. rewrite Hrf, G3, map_length in B1, B2.
    destruct (o_stage2 E false refs (Some objs) 0 s2) as (n2 & M1 & M2). rewrite Hr in M1. cbn [snd] in M1. change (trace (ends s' new)) with new in M1.
    split; [|split; lia]. rewrite M1, T1, ev1_app, (ev1_other n2 M2), app_nil_r. exact C1.
  - eapply Stop; [|exact Hr]. unfold final_set. em.
  - injection Hr as _ Hr. eapply (Stop unit (ret tt)); [em|]. unfold ret. rewrite Hr. reflexivity.
  - injection Hr as _ Hr. eapply (Stop unit (ret tt)); [em|]. unfold ret. rewrite Hr. reflexivity.
Qed.
(** a run that resumes *)
Lemma acts_objective K o s s' : acts E K o s s' -> forall i p,
  In (EvObjective i p) (trace s') -> In (EvObjective i p) (trace s) \/ K (Some i) p.
Proof.
  intros H. induction H as [s|s s1 s' H H0 IH]; intros i p Hin; [auto|].
  destruct (IH _ _ Hin) as [G|G]; [|auto]. clear IH H0 Hin.
  destruct H; try (left; exact G); try (destruct G as [G|G]; [discriminate|left; exact G]).
  - destruct G as [G|G]; [subst e; discriminate|left; exact G].
  - destruct G as [G|G]; [|left; exact G]. injection G as <- <-. right. auto.
  - revert G. destruct (pls_cases E sol s) as [[-> _]|[[_ [_ [-> _]]]|[_ [[_ [-> _]]|
    [cur [rest [_ [[_ [_ [ob ->]]]|[[_ [_ [_ [_ [ob ->]]]]]|[_ [_ [_ ->]]]]]]]]]]]]; intro G; simpl in G;
      repeat (destruct G as [G|G]; [discriminate|]); auto.
Qed.
Lemma range_length m n l : once_below n l -> (forall i, In i l -> m <= i) -> List.length l <= n - m.
Proof.
  intros [H1 H2] H. rewrite <- (seq_length (n - m) m). apply NoDup_incl_length; [exact H1|].
  intros i Hi. apply in_seq. specialize (H i Hi). specialize (H2 i Hi). lia.
Qed.
Theorem resumed_cost s r s' new cp : run E s = (r, s') -> recorded s s' new -> resumes_from E s cp ->
  stage1_evaluations new = [] /\ stage1_searches new = [] /\
  let w := Nat.min (p_iterations (cp_params cp)) (List.length (cp_reference_set cp)) in
  List.length (evaluated new) <= w - cp_iteration cp /\ List.length (searched new) <= w - cp_iteration cp.
Proof.
  intros Hrun Hnew Hres.
  destruct (c31_bound E s r s' new HE Hrun Hnew) as (_ & B1 & _ & B2 & _).
  destruct (run_cases E s _ s' new Hrun Hnew) as [(-> & _ & _)|(b & s1 & Hst & Htr & Hr & Hcfg)].
  { repeat split; simpl; lia. }
  assert (Hb : b = true /\ s_o s1 = restored cp (s_o s)).
  { destruct Hres as (c & R1 & R2 & R3 & R4). destruct Hst as [d Hd Hn|c' d cp' H1 H2 H3 H4 Hd].
    - exfalso. change (o_cp (s_o (blank s))) with (o_cp (s_o s)) in Hn. specialize (Hn c R1 R2).
      change (w_disk (s_w (blank s))) with (w_disk (s_w s)) in Hn. congruence.
    - split; [reflexivity|]. change (o_cp (s_o (blank s))) with (o_cp (s_o s)) in H1. rewrite R1 in H1. injection H1 as <-.
      change (w_disk (s_w (blank s))) with (w_disk (s_w s)) in H4. rewrite R4 in H4. injection H4 as <-. reflexivity. }
  destruct Hb as [-> Ho].
  unfold run_rest in Hr. unfold bind, the_oqnlp, get, ret, bind in Hr. cbn [fst snd] in Hr.
  assert (Hrf : o_ref (s_o s1) = Some (cp_reference_set cp)) by (rewrite Ho; reflexivity).
  assert (Hpa : o_params (s_o s1) = cp_params cp) by (rewrite Ho; reflexivity).
  assert (Hi : o_iteration (s_o s1) = cp_iteration cp) by (rewrite Ho; reflexivity).
  rewrite Hrf in Hr. set (refs := cp_reference_set cp) in *.
  pose proof (a_stage2 E (candidate E true (s_o s1) refs) None true refs (o_unchanged (s_o s1)) (fun _ _ => True) s1 (fun i p H => H) (fun r s' _ H => I)) as [W _].
  rewrite Hr in W. cbn [fst snd] in W.
  assert (Hrf' : o_ref (s_o s') = Some refs).
  { change (s_o s') with (s_o (ends s' new)). rewrite <- Hrf. eapply acts_ref; [|exact W]. intros p (j & rs & Hx & _). discriminate. }
  assert (Hw : work_bound s' = Nat.min (p_iterations (cp_params cp)) (List.length refs)).
  { unfold work_bound, reference_set. rewrite Hrf'. destruct Hcfg as (-> & _). rewrite Hpa. reflexivity. }
  rewrite Hw in B1, B2.
  assert (F1 : forall i p, In (EvObjective i p) new -> cp_iteration cp <= i).
  { intros i p Hin. destruct (acts_objective _ _ _ _ W i p Hin) as [G|(j & rs & Hj & K1 & _)]; [rewrite Htr in G; destruct G|].
    injection Hj as <-. rewrite <- Hi. auto. }
  assert (F2 : forall i p obj o b, In (EvDecide i p obj o b) new -> cp_iteration cp <= i).
  { intros i p obj o b Hin. destruct (acts_decide _ _ _ _ _ W i p obj o b Hin) as [G|[(j & rs & Hj & K1 & _) _]]; [rewrite Htr in G; destruct G|].
    injection Hj as <-. rewrite <- Hi. auto. }
  destruct (o_stage2 E true refs None (o_unchanged (s_o s1)) s1) as (n2 & M1 & M2). rewrite Hr in M1. cbn [snd] in M1. change (trace (ends s' new)) with new in M1.
  rewrite Htr, app_nil_r in M1. subst n2.
  split; [apply ev1_other; exact M2|]. split; [|split].
  - destruct (stage1_searches new) as [|e l] eqn:He; [reflexivity|]. exfalso.
    assert (Hin : In e (stage1_searches new)) by (rewrite He; left; reflexivity). apply filter_In in Hin as [Hin Hx].
    destruct e as [| | |[j|] q| | | | | | | | | |]; try discriminate Hx.
    revert Hin. change new with (trace (ends s' new)). revert W Htr. generalize (ends s' new). clear. intros s2 W Htr.
    assert (X : forall o sa sb, acts E (candidate E true (s_o s1) refs) o sa sb -> In (EvSearch None q) (trace sb) -> In (EvSearch None q) (trace sa)).
    { intros o sa sb H. induction H as [s|s sm s' H H0 IH]; intros Hin; [auto|]. specialize (IH Hin). clear H0 Hin.
      destruct H; try exact IH; try (destruct IH as [IH|IH]; [discriminate|exact IH]).
      - destruct IH as [IH|IH]; [subst e; discriminate|exact IH].
      - exfalso. destruct H as (j & rs & Hj & _). discriminate.
      - revert IH. destruct (pls_cases E sol s) as [[-> _]|[[_ [_ [-> _]]]|[_ [[_ [-> _]]|
        [cur [rest [_ [[_ [_ [ob ->]]]|[[_ [_ [_ [_ [ob ->]]]]]|[_ [_ [_ ->]]]]]]]]]]]]; intro G; simpl in G;
          repeat (destruct G as [G|G]; [discriminate|]); auto. }
    intro Hin. specialize (X _ _ _ W Hin). rewrite Htr in X. destruct X.
  - apply range_length; [exact B1|]. intros i Hin. apply in_indices in Hin as (e & He & Hx). destruct e; try discriminate Hx. injection Hx as ->. eauto.
  - apply range_length; [exact B2|]. intros i Hin. apply in_indices in Hin as (e & He & Hx).
    destruct e as [| | |[j|] q| | | | | | | | | |]; try discriminate Hx. injection Hx as ->.
    apply in_split in He as (l1 & l2 & Hl). destruct (c29_search E s r s' new l1 l2 i q Hrun Hnew Hl) as (obj & o & l3 & l4 & Hy & _).
    eapply (F2 i q obj o true). rewrite Hl, Hy. apply in_or_app. right. right. apply in_or_app. right. left. reflexivity.
Qed.
End Run.
Theorem c98_fresh : forall E s r s' new, env_ok E -> run E s = (r, s') -> recorded s s' new -> (forall cp, ~ resumes_from E s cp) ->
  let n := first_members (e_problem E) (s_o s) in
  let k := sample_size n in
  let i := p_iterations (o_params (s_o s)) in
  (Z.of_nat n < 2 ^ 52)%Z ->
  List.length (stage1_evaluations new) <= n + 3 * (k * (k - 1)) /\
  List.length (objective_calls new) <= n + 3 * (k * (k - 1)) + Nat.min i n /\
  List.length (objective_calls new) <= 5 * Nat.max n 2 /\
  List.length (search_starts new) <= 1 + Nat.min i n.
Proof.
  intros E s r s' new HE Hrun Hnew Hres n k i Hn. unfold k. rewrite <- (ksel_sqrt n Hn).
  destruct (fresh_cost E HE s r s' new Hrun Hnew Hres) as (H1 & H2 & H3). fold n i in H1, H2, H3.
  destruct (c31_bound E s r s' new HE Hrun Hnew) as (_ & _ & _ & _ & _ & B).
  rewrite calls_split, starts_split. pose proof (k_small n Hn). lia.
Qed.
Theorem c98_resumed : forall E s r s' new cp, env_ok E -> run E s = (r, s') -> recorded s s' new -> resumes_from E s cp ->
  let left := Nat.min (p_iterations (cp_params cp)) (List.length (cp_reference_set cp)) - cp_iteration cp in
  List.length (objective_calls new) <= left /\ List.length (search_starts new) <= left.
Proof.
  intros E s r s' new cp HE Hrun Hnew Hres. destruct (resumed_cost E HE s r s' new cp Hrun Hnew Hres) as (H1 & H2 & H3 & H4).
  rewrite calls_split, starts_split, H1, H2. simpl. auto.
Qed.
Theorem c98_search : forall E p s r s', env_ok E -> built E p s -> ss_run E s = (r, s') ->
  let n := Nat.max (p_population p) (List.length (starting_points (e_problem E) (custom_points s))) in
  let k := sample_size n in
  (Z.of_nat n < 2 ^ 52)%Z ->
  List.length (evaluations (ss_log s')) <= n + 3 * (k * (k - 1)) /\ List.length (evaluations (ss_log s')) <= 4 * Nat.max n 2.
Proof.
  intros E p s r s' HE Hb H n k Hn. unfold k. rewrite <- (ksel_sqrt n Hn).
  pose proof (search_cost E HE p s r s' Hb H) as C. cbv zeta in C. fold n in C. pose proof (k_small n Hn). lia.
Qed.

(** * Running the same optimizer again (C99) *)
From Coq Require Import ZArith NArith List Bool Arith Lia String.
From Verif Require Import F64 Base Builders Types Filters Runner Observer Env EnvSpec ScatterSearch Codec Checkpoint
  Oqnlp Spec SpecStage1 SpecStage2 SpecObserver SpecCost SimP Wp Actions RunP CountP FilterP FrameP EmitsP HoareP Stage1CountP Stage2P LeaderP ResumeP CostP.
Import ListNotations.

(** ** A sequential scatter search does not depend on when it is made *)
Section Search.
Context (E : env).
Definition notes (l : list ss_event) : list ss_event :=
  filter (fun e => match e with SsSample _ | SsEval _ => true | _ => false end) l.
(** two scatter searches that differ in observer and time *)
Definition like (s t : ss) : Prop :=
  ss_params t = ss_params s /\ ss_ref t = ss_ref s /\ ss_objs t = ss_objs s /\ ss_lower t = ss_lower s /\
  ss_upper t = ss_upper s /\ ss_rng t = ss_rng s /\ ss_parallel s = false /\ ss_parallel t = false /\
  ss_custom t = ss_custom s /\ notes (ss_log t) = notes (ss_log s).
Notation sm := (sim like eq).
Lemma like_emit l s t : like s t -> like (ss_emit l s) (ss_emit l t).
Proof.
  intros (H1 & H2 & H3 & H4 & H5 & H6 & H7 & H8 & H9 & H10). unfold like, ss_emit. simpl. repeat (split; [assumption|]).
  unfold notes in *. rewrite !filter_app, H10. reflexivity.
Qed.
Lemma like_rng r s t : like s t -> like (ss_with_rng r s) (ss_with_rng r t).
Proof. unfold like, ss_with_rng. simpl. intuition. Qed.
Lemma like_ref r o s t : like s t -> like (ss_with_ref r o s) (ss_with_ref r o t).
Proof. unfold like, ss_with_ref. simpl. intuition. Qed.
Lemma sm_get A (k k' : ss -> M ss ss_error A) : (forall s t, like s t -> sm (k s) (k' t)) -> sm (bind get k) (bind get k').
Proof. intros H s t L. unfold bind, get. exact (H s t L s t L). Qed.
Ltac s1 :=
  match goal with
  | |- sim _ eq (bind get _) (bind get _) => apply sm_get; intros s t L
  | |- sim _ eq (bind _ _) (bind _ _) => eapply (sim_bind like _ _ _ _ eq eq); [|intros ? ? <-]
  | |- sim _ eq (ret _) (ret _) => apply sim_ret; reflexivity
  | |- sim _ eq (fail _) (fail _) => apply sim_fail
  | |- sim _ eq panic panic => apply sim_panic
  | |- sim _ eq (unwrap _) (unwrap _) => apply sim_unwrap
  | |- sim _ eq (of_result _) (of_result _) => apply sim_of_result, vrel_eq
  | |- sim _ eq (modify (ss_emit _)) (modify (ss_emit _)) => apply sim_modify; intros ? ?; apply like_emit
  | |- sim _ eq (modify (ss_with_rng _)) (modify (ss_with_rng _)) => apply sim_modify; intros ? ?; apply like_rng
  | |- sim _ eq (modify (ss_with_ref _ _)) (modify (ss_with_ref _ _)) => apply sim_modify; intros ? ?; apply like_ref
  | |- sim _ eq (let '(_, _) := ?x in _) _ => destruct x
  | |- sim _ eq (if ?b then _ else _) _ => destruct b
  | |- sim _ eq (match ?x with _ => _ end) _ => destruct x
  end.
Ltac ssim := repeat s1.
Ltac open L := let H := fresh in pose proof L as H; unfold like in H; destruct H as (?L1 & ?L2 & ?L3 & ?L4 & ?L5 & ?L6 & ?L7 & ?L8 & ?L9 & ?L10).
Lemma sm_samples n : sm (generate_stratified_samples E n) (generate_stratified_samples E n).
Proof. unfold generate_stratified_samples. s1. open L. rewrite L6, L4, L5. ssim. Qed.
Lemma sm_refill pop cs fuel : forall a c, sm (refill E pop cs fuel a c) (refill E pop cs fuel a c).
Proof. induction fuel as [|f IH]; intros a c; simpl; [ssim|]. s1; [|ssim]. s1; [apply sm_samples|apply IH]. Qed.
Lemma greedy_false c c' n : forall refs cands ds, greedy E c false n refs cands ds = greedy E c' false n refs cands ds.
Proof.
  induction n as [|n IH]; intros refs cands ds; simpl; [reflexivity|].
  unfold argmax. destruct (option_map fst _); [|reflexivity]. destruct (swap_remove _ _) as [[? ?]|]; [|reflexivity].
  destruct (swap_remove _ _) as [[? ?]|]; [|reflexivity]. apply IH.
Qed.
Lemma sm_diversify refs cs : sm (diversify_reference_set E refs cs) (diversify_reference_set E refs cs).
Proof.
  unfold diversify_reference_set. s1. open L. rewrite L1, L4, L7, L8. s1; [apply sm_samples|]. s1.
  - s1; [s1|]. s1; [apply sm_refill|]. ssim.
  - rewrite (greedy_false (ss_ctx t) (ss_ctx s)). unfold min_distance. s1.
Qed.
Lemma sm_init : sm (initialize_reference_set E) (initialize_reference_set E).
Proof.
  unfold initialize_reference_set. s1. open L. rewrite L4, L5, L9, L7, L8. s1; [apply sm_diversify|].
  cbn [andb]. s1; [s1|]. destruct (collect_seq _); s1.
Qed.
Lemma sm_trials : sm (generate_trial_points E) (generate_trial_points E).
Proof. unfold generate_trial_points. s1. open L. rewrite L2, L4, L5, L6. ssim. Qed.
Lemma sm_update trials : sm (update_reference_set E trials) (update_reference_set E trials).
Proof.
  unfold update_reference_set. s1; [s1|]. s1. open L.
  assert (D : dist_threshold E t = dist_threshold E s) by (unfold dist_threshold; rewrite L2, L7, L8; reflexivity).
  rewrite D, L1, L2, L3. ssim.
Qed.
Lemma sm_best : sm (ss_best_solution E) (ss_best_solution E).
Proof. unfold ss_best_solution. s1. open L. rewrite L2, L3, L7, L8. ssim. Qed.
Lemma sm_obs f g : sm (ss_obs f) (ss_obs g).
Proof. unfold ss_obs. apply sim_modify. unfold like, ss_set_observer. simpl. intuition. Qed.
Lemma notes_none o l : notes (rev (SsCallback o :: map SsPrint l)) = [].
Proof.
  simpl. unfold notes. rewrite filter_app. simpl. rewrite app_nil_r, <- map_rev. induction (rev l); simpl; auto.
Qed.
Lemma call_like s : exists s', ss_callback E s = (Ok tt, s') /\ (forall t, like t s -> like t s') /\ (forall t, like s t -> like s' t).
Proof.
  unfold ss_callback, bind, get. destruct (ss_observer s) as [o|]; [|exists s; auto]. destruct (ob_callback o); [|exists s; auto].
  destruct (invoke_callback (Env.e_callback E) o) as [o' l]. eexists. split; [reflexivity|].
  assert (N : notes (rev (SsCallback o :: map SsPrint l) ++ ss_log s) = notes (ss_log s)).
  { unfold notes. rewrite filter_app. fold (notes (rev (SsCallback o :: map SsPrint l))). rewrite notes_none. reflexivity. }
  split; intros t L; open L; unfold like, ss_emit, ss_set_observer; cbn [ss_params ss_ref ss_objs ss_lower ss_upper ss_rng ss_parallel ss_custom ss_log]; rewrite N; auto 12.
Qed.
Lemma sm_callback : sm (ss_callback E) (ss_callback E).
Proof.
  intros s t L. destruct (call_like s) as (s' & -> & A & B). destruct (call_like t) as (t' & -> & C & D).
  simpl. split; [reflexivity|]. apply C. apply B. exact L.
Qed.
Lemma sm_run : sm (ss_run E) (ss_run E).
Proof.
  unfold ss_run. s1; [apply sm_init|]. s1; [apply sm_obs|]. s1; [apply sm_callback|]. s1. s1; [apply sm_obs|].
  s1; [apply sm_callback|]. s1; [apply sm_trials|]. s1; [apply sm_update|]. clear s t L. s1. s1; [apply sm_obs|]. s1; [apply sm_callback|].
  clear s t L. s1; [apply sm_best|]. s1. open L. rewrite L2, L3. s1.
Qed.
End Search.

(** ** Stage 1 of two runs *)
Lemma evals_notes l : evaluations (notes l) = evaluations l.
Proof.
  unfold evaluations, notes. induction l as [|e l IH]; [reflexivity|]. simpl. rewrite flat_map_app, <- IH.
  destruct e; simpl; rewrite ?flat_map_app, ?app_nil_r; reflexivity.
Qed.
Lemma init_like E o o' t t' : same_config o o' -> o_parallel o = false ->
  match stage1_init E o t, stage1_init E o' t' with
  | Ok s, Ok s' => like s s'
  | Err e, Err e' => e = e'
  | Panic, Panic => True
  | _, _ => False
  end.
Proof.
  intros (Hp & _ & _ & _ & _ & Hpar & _ & _ & _ & Hc & _) H. unfold stage1_init, ss_new. rewrite Hp, Hpar, Hc, H.
  destruct (bad_bound 0 (pb_bounds (e_problem E))); [reflexivity|].
  destruct (o_custom o); destruct (observes1 o), (observes1 o'); unfold like; simpl; repeat split.
Qed.
Section Stage1.
Context (E : env) (HE : env_ok E).
(** the local search that ends Stage 1, given what the scatter search returned *)
Definition ending {e} (res : outcome e (list (point * f64) * point)) : list event :=
  match res with Ok (_, cand) => [EvSearch None cand] | _ => [] end.
Lemma searches_app a b : stage1_searches (a ++ b) = stage1_searches a ++ stage1_searches b.
Proof. unfold stage1_searches. apply filter_app. Qed.
Definition plain (e : event) : Prop := match e with EvStage1 _ | EvSearch None _ | EvIteration _ => False | _ => True end.
Lemma plain_other l : Forall plain l -> Forall other l /\ stage1_searches l = [] /\ begun l = [].
Proof.
  induction 1 as [|e l He H (IH1 & IH2 & IH3)]; [repeat split; constructor|].
  unfold stage1_searches, begun, indices in *. destruct e as [| | |[j|] q| | | | | | | | | |]; try destruct He; simpl;
    (split; [constructor; [exact I|exact IH1]|split; assumption]).
Qed.
Lemma plain_process x : emits plain (process_local_solution E x).
Proof. apply e_process; intros; exact I. Qed.
Lemma plain_callback i : emits plain (callback E i).
Proof. apply EmitsP.e_callback; intros; exact I. Qed.
Lemma plain_end : emits plain (end_stage1 E).
Proof. unfold end_stage1, stage1_enter. em. apply plain_callback. Qed.
Lemma stage1_parts s : exists new, trace (snd (stage1_run E s)) = new ++ trace s /\ begun new = [] /\
  match stage1_init E (s_o s) (w_tick (s_w s)) with
  | Ok s0 => stage1_evaluations new = evaluations (ss_log (snd (ss_run E s0))) /\
             stage1_searches new = ending (fst (ss_run E s0))
  | _ => new = []
  end.
Proof.
  unfold stage1_run. unfold bind at 1. cbn [the_oqnlp bind get ret fst snd s_o]. unfold bind at 1.
  destruct (tick s) as [t0 s1] eqn:Ht. injection Ht as <- <-. cbn [fst snd].
  set (s1 := mk_st (s_o s) (mk_world (w_disk (s_w s)) (S (w_tick (s_w s))) (w_trace (s_w s)))).
  destruct (stage1_init E (s_o s) (w_tick (s_w s))) as [s3|e|] eqn:Hi; [|exists []; auto|exists []; auto].
  destruct (ss_run E s3) as [res sf] eqn:Hrun. cbn [fst snd].
  match goal with |- context [bind ?m ?k s1] => assert (Hm : exists s2, m s1 = (Ok tt, s2) /\ trace s2 = trace s) end.
  { destruct (observes1 (s_o s)); eexists; split; reflexivity. }
  destruct Hm as (s2 & Hm & Ht2). unfold bind at 1. rewrite Hm. unfold bind at 1. cbn [emit modify fst snd].
  match goal with |- context [snd (?m ?s5)] => set (k := m); set (s5' := s5) end.
  assert (T5 : trace s5' = rev (map EvStage1 (rev (ss_log sf))) ++ trace s) by (rewrite <- Ht2; reflexivity).
  clearbody s5'.
  assert (X : exists n1, trace (snd (k s5')) = n1 ++ trace s5' /\ Forall other n1 /\ stage1_searches n1 = ending res /\ begun n1 = []).
  { unfold k. destruct res as [[pts cand]|e|]; [|exists []; repeat split; constructor|exists []; repeat split; constructor].
    assert (Y : forall A B (m : OM A) (c : A -> OM B) s, emits plain m ->
      (exists a, fst (m s) = Ok a) ->
      (forall a s', exists n, trace (snd (c a s')) = n ++ trace s' /\ Forall other n /\ stage1_searches n = ending (@Ok ss_error _ (pts, cand)) /\ begun n = []) ->
      exists n, trace (snd (bind m c s)) = n ++ trace s /\ Forall other n /\ stage1_searches n = ending (@Ok ss_error _ (pts, cand)) /\ begun n = []).
    { intros A B m c sx Hem [a Ha] Hc. destruct (Hem sx) as (n & N1 & N2). unfold bind. destruct (m sx) as [r sy]. cbn [fst snd] in *. subst r.
      destruct (Hc a sy) as (n' & M1 & M2 & M3 & M4). destruct (plain_other n N2) as (P1 & P2 & P3).
      exists (n' ++ n). split; [rewrite M1, N1, app_assoc; reflexivity|]. split; [apply Forall_app; auto|]. split.
      - rewrite searches_app, M3, P2, app_nil_r. reflexivity.
      - unfold begun, indices in *. rewrite flat_map_app, M4, P3. reflexivity. }
    cbv zeta. apply Y; [em|eexists; reflexivity|]. intros _ sa.
    assert (Okc : forall i s', exists a, fst (callback E i s') = Ok a).
    { intros i s'. unfold callback, bind, the_oqnlp, get, ret, bind. destruct (o_observer (s_o s')); [|eexists; reflexivity].
      destruct (ob_callback o); [|eexists; reflexivity]. destruct (invoke_callback _ _). eexists; reflexivity. }
    apply Y; [apply plain_callback|apply Okc|]. intros _ sb.
    apply Y; [unfold stage1_enter; em|eexists; reflexivity|]. intros _ sc.
    apply Y; [em|eexists; reflexivity|]. intros o sd.
    unfold bind at 1. cbn [emit modify fst snd].
    match goal with |- context [snd (?m ?s6)] => assert (Hp : emits plain m) end.
    { unfold stage1_enter, set_threshold; em; try apply plain_callback; try apply plain_process; try apply plain_end; try exact I;
        try (apply Forall_cons; [exact I|apply Forall_nil]). }
    match goal with |- context [snd (?m ?s6)] => destruct (Hp s6) as (n & N1 & N2) end.
    destruct (plain_other n N2) as (P1 & P2 & P3). exists (n ++ [EvSearch None cand]). split; [rewrite N1, <- app_assoc; reflexivity|].
    split; [apply Forall_app; split; [exact P1|repeat constructor]|]. split.
    - rewrite searches_app, P2. reflexivity.
    - unfold begun, indices in *. rewrite flat_map_app, P3. reflexivity. }
  destruct X as (n1 & X1 & X2 & X3 & X4). exists (n1 ++ rev (map EvStage1 (rev (ss_log sf)))).
  assert (L : forall l, stage1_searches (map EvStage1 l) = [] /\ begun (map EvStage1 l) = []).
  { induction l as [|x l [IH1 IH2]]; [split; reflexivity|]. unfold stage1_searches, begun, indices in *. simpl. auto. }
  split; [rewrite X1, T5, app_assoc; reflexivity|]. split; [|split].
  - unfold begun, indices in *. rewrite flat_map_app, X4, <- map_rev. apply L.
  - rewrite ev1_app, (ev1_other _ X2), app_nil_r, ev1_log. reflexivity.
  - rewrite searches_app, X3, <- map_rev. rewrite (proj1 (L _)), app_nil_r. reflexivity.
Qed.
End Stage1.

(** ** Stage 1 of two runs with the same settings *)
Section Twice.
Context (E : env) (HE : env_ok E).
Definition no_resume (o : oqnlp) : Prop := forall c, o_cp o = Some c -> cc_auto_resume c = false.
Lemma no_resume_run s r s' new : run E s = (r, s') -> recorded s s' new -> no_resume (s_o s) ->
  exists s1, s_o s1 = s_o s /\ trace s1 = [] /\ run_rest E false s1 = (r, ends s' new) /\ same_config (s_o s) (s_o s').
Proof.
  intros Hrun Hnew H. pose proof (run_blank E s r s' new Hrun Hnew) as Hb. fold (ends s' new) in Hb.
  assert (Ht : try_resume_from_checkpoint E (blank s) = (Ok false, blank s)).
  { unfold try_resume_from_checkpoint, bind, the_oqnlp, get, ret, bind. cbn [fst snd]. change (s_o (blank s)) with (s_o s).
    destruct (o_cp (s_o s)) as [c|] eqn:Hc; [|reflexivity]. rewrite (H c Hc). reflexivity. }
  unfold run in Hb. unfold bind in Hb at 1. rewrite Ht in Hb.
  change ((if false then _ else _) (blank s)) with (run_rest E false (blank s)) in Hb.
  exists (blank s). split; [reflexivity|]. split; [reflexivity|]. split; [exact Hb|]. exact (rest_config E false (blank s) _ _ Hb).
Qed.
(** what a run that does not resume gets from its scatter search *)
Lemma run_parts s r s' new : run E s = (r, s') -> recorded s s' new -> no_resume (s_o s) -> exists t,
  match stage1_init E (s_o s) t with
  | Ok s0 => stage1_evaluations new = evaluations (ss_log (snd (ss_run E s0))) /\
             stage1_searches new = ending (fst (ss_run E s0)) /\
             (begun new <> [] -> exists pts best, fst (ss_run E s0) = Ok (pts, best) /\ reference_set s' = map fst pts)
  | _ => stage1_evaluations new = [] /\ stage1_searches new = [] /\ begun new = []
  end.
Proof.
  intros Hrun Hnew Hn. destruct (c31_bound E s r s' new HE Hrun Hnew) as (_ & _ & _ & _ & B0).
  destruct (no_resume_run s r s' new Hrun Hnew Hn) as (s1 & Ho & Htr & Hr & _).
  exists (w_tick (s_w s1)). unfold run_rest in Hr. unfold bind in Hr at 1.
  destruct (stage1_parts E s1) as (n1 & T1 & N1 & P1). rewrite Htr, app_nil_r in T1. rewrite Ho in P1.
  pose proof (a_stage1 E (stage1_best E s1) None
    (fun r s2 => forall refs objs, r = Some (refs, objs) -> stage1_result E s1 s2 refs objs) s1
    (fun _ H => H) (fun _ _ _ H => H)) as [_ W].
  destruct (stage1_run E s1) as [r1 s2] eqn:Hs1. cbn [fst snd] in *.
  assert (Stop : forall n2, Forall plain n2 -> new = n2 ++ n1 ->
    match stage1_init E (s_o s) (w_tick (s_w s1)) with
    | Ok s0 => stage1_evaluations new = evaluations (ss_log (snd (ss_run E s0))) /\
               stage1_searches new = ending (fst (ss_run E s0)) /\
               (begun new <> [] -> exists pts best, fst (ss_run E s0) = Ok (pts, best) /\ reference_set s' = map fst pts)
    | _ => stage1_evaluations new = [] /\ stage1_searches new = [] /\ begun new = []
    end).
  { intros n2 H2 ->. destruct (plain_other n2 H2) as (Q1 & Q2 & Q3).
    assert (Q4 : begun (n2 ++ n1) = []) by (unfold begun, indices in *; rewrite flat_map_app, Q3, N1; reflexivity).
    rewrite ev1_app, (ev1_other n2 Q1), app_nil_r, searches_app, Q2, Q4. cbn [app].
    destruct (stage1_init E (s_o s) (w_tick (s_w s1))) as [s0|e|]; [|rewrite P1; repeat split|rewrite P1; repeat split].
    destruct P1 as [P1 P2]. split; [exact P1|]. split; [exact P2|]. intro X. contradiction X. reflexivity. }
  destruct r1 as [[[refs objs]|]|e|].
  - destruct (W refs objs eq_refl) as (s0 & pts & best & sf & G1 & G2 & G3 & G4 & G5).
    rewrite Ho in G1. rewrite G1 in *. clear Stop. destruct P1 as [P1 P2]. rewrite G2 in *. cbn [fst snd ending] in *.
    destruct (o_stage2 E false refs (Some objs) 0 s2) as (n2 & M1 & M2). rewrite Hr in M1. cbn [snd] in M1. change (trace (ends s' new)) with new in M1.
    rewrite T1 in M1. split; [rewrite M1, ev1_app, (ev1_other n2 M2), app_nil_r; exact P1|]. split.
    + rewrite M1, searches_app, P2 in *. rewrite app_length in B0. simpl in B0.
      destruct (stage1_searches n2) as [|e l]; [reflexivity|simpl in B0; lia].
    + intros _. exists pts, best. split; [reflexivity|].
      pose proof (a_stage2 E (candidate E false (s_o s2) refs) (Some objs) false refs 0 (fun _ _ => True) s2 (fun i p H => H) (fun r s' _ H => I)) as [W2 _].
      rewrite Hr in W2. cbn [fst snd] in W2.
      assert (Hrf : o_ref (s_o (ends s' new)) = Some refs).
      { rewrite <- G5. eapply acts_ref; [|exact W2]. intros p (j & rs & Hx & _). discriminate. }
      change (s_o (ends s' new)) with (s_o s') in Hrf. unfold reference_set. rewrite Hrf, G3. reflexivity.
  - assert (M : emits plain final_set) by (unfold final_set; em). destruct (M s2) as (n2 & M1 & M2).
    rewrite Hr in M1. cbn [snd] in M1. change (trace (ends s' new)) with new in M1. rewrite T1 in M1.
    apply (Stop n2 M2 M1).
  - injection Hr as _ Hr. apply (Stop [] (Forall_nil _)). rewrite <- T1, Hr. reflexivity.
  - injection Hr as _ Hr. apply (Stop [] (Forall_nil _)). rewrite <- T1, Hr. reflexivity.
Qed.
Theorem twice sa ra sa' na sb rb sb' nb : run E sa = (ra, sa') -> recorded sa sa' na -> run E sb = (rb, sb') -> recorded sb sb' nb ->
  no_resume (s_o sa) -> same_config (s_o sa) (s_o sb) -> o_parallel (s_o sa) = false ->
  stage1_evaluations nb = stage1_evaluations na /\ stage1_searches nb = stage1_searches na /\
  (begun na <> [] -> begun nb <> [] -> reference_set sb' = reference_set sa').
Proof.
  intros Ha Na Hb Nb Hn Hc Hp.
  assert (Hn' : no_resume (s_o sb)) by (destruct Hc as (_ & _ & _ & _ & _ & _ & _ & _ & Hc & _); unfold no_resume; rewrite Hc; exact Hn).
  destruct (run_parts sa ra sa' na Ha Na Hn) as (t & A). destruct (run_parts sb rb sb' nb Hb Nb Hn') as (t' & B).
  pose proof (init_like E (s_o sa) (s_o sb) t t' Hc Hp) as L.
  destruct (stage1_init E (s_o sa) t) as [xa|e|], (stage1_init E (s_o sb) t') as [xb|e'|]; try contradiction.
  2,3: destruct A as (-> & -> & A), B as (-> & -> & B); repeat split; contradiction.
  pose proof (sm_run E xa xb L) as S. destruct A as (A1 & A2 & A3), B as (B1 & B2 & B3).
  rewrite A1, A2, B1, B2. destruct (ss_run E xa) as [r1 y1], (ss_run E xb) as [r2 y2]. cbn [fst snd] in *.
  destruct S as [S1 S2]. split; [|split].
  - destruct S2 as (_ & _ & _ & _ & _ & _ & _ & _ & _ & S2). rewrite <- (evals_notes (ss_log y2)), S2. apply evals_notes.
  - destruct r1 as [[p1 b1]|e|], r2 as [[p2 b2]|e'|]; try contradiction; try reflexivity. injection S1 as <- <-. reflexivity.
  - intros X Y. destruct (A3 X) as (p1 & b1 & -> & ->), (B3 Y) as (p2 & b2 & -> & ->). cbn in S1. injection S1 as <- <-. reflexivity.
Qed.
End Twice.
Theorem c99_stage1 : forall E sa ra s1 na rb s2 nb, env_ok E -> run E sa = (ra, s1) -> recorded sa s1 na ->
  run E s1 = (rb, s2) -> recorded s1 s2 nb ->
  (forall c, o_cp (s_o sa) = Some c -> cc_auto_resume c = false) -> o_parallel (s_o sa) = false ->
  stage1_evaluations nb = stage1_evaluations na /\ stage1_searches nb = stage1_searches na /\
  (begun na <> [] -> begun nb <> [] -> reference_set s2 = reference_set s1).
Proof.
  intros E sa ra s1 na rb s2 nb HE Ha Na Hb Nb Hn Hp.
  destruct (no_resume_run E sa ra s1 na Ha Na Hn) as (_ & _ & _ & _ & Hc).
  exact (twice E HE sa ra s1 na s1 rb s2 nb Ha Na Hb Nb Hn Hc Hp).
Qed.
Lemma fresh_leader E s r s' new : run E s = (r, s') -> recorded s s' new -> no_resume (s_o s) ->
  tolerances_ok (s_o s) -> (forall s0, o_set (s_o s) = Some s0 -> numeric_set s0) ->
  (forall x, In (EvResult x) new -> number (ls_obj x)) ->
  (forall s0, o_set (s_o s') = Some s0 -> numeric_set s0) /\
  (forall s0 set, o_set (s_o s) = Some s0 -> r = Ok set -> not_worse set s0).
Proof.
  intros Hrun Hnew Hn Ht Hs Hnum. pose proof (proj2 (run_acts E s r s' Hrun)) as Hset.
  destruct (run_from E s r s' Hrun) as [[H H']|(s1 & Hst & Htr & _ & Ha)].
  - rewrite H'. split; [exact Hs|]. intros s0 set _ ->. exfalso. eapply H. reflexivity.
  - destruct Hst as [[Ho _]|(cp & (c & H1 & H2 & _) & _)]; [|rewrite (Hn c H1) in H2; discriminate].
    destruct (acts2_leader E s1 s' new Ha) as [A1 A2 _ _ _]; try (rewrite Ho; assumption); [rewrite Htr; exact Hnew|exact Hnum|].
    split; [exact A1|]. intros s0 set H0 ->. destruct (A2 s0) as (x & Hx & Hw); [congruence|]. rewrite (Hset set eq_refl) in Hx.
    injection Hx as ->. exact Hw.
Qed.
Theorem c99_no_worse : forall E sa setA s1 na setB s2 nb, run E sa = (Ok setA, s1) -> recorded sa s1 na ->
  run E s1 = (Ok setB, s2) -> recorded s1 s2 nb ->
  (forall c, o_cp (s_o sa) = Some c -> cc_auto_resume c = false) -> tolerances_ok (s_o sa) ->
  (forall s0, o_set (s_o sa) = Some s0 -> numeric_set s0) ->
  (forall x, In (EvResult x) na \/ In (EvResult x) nb -> number (ls_obj x)) -> not_worse setB setA.
Proof.
  intros E sa setA s1 na setB s2 nb Ha Na Hb Nb Hn Ht Hs Hnum.
  destruct (no_resume_run E sa _ s1 na Ha Na Hn) as (_ & _ & _ & _ & Hc).
  destruct (fresh_leader E sa _ s1 na Ha Na Hn Ht Hs) as [A1 _]; [intros x Hx; apply Hnum; auto|].
  assert (Hn' : no_resume (s_o s1)) by (destruct Hc as (_ & _ & _ & _ & _ & _ & _ & _ & Hc & _); unfold no_resume; rewrite Hc; exact Hn).
  refine (proj2 (fresh_leader E s1 _ s2 nb Hb Nb Hn' (tol_config _ _ Hc Ht) A1 _) setA setB _ eq_refl).
  - intros x Hx. apply Hnum. auto.
  - exact (proj2 (run_acts E sa _ s1 Ha) setA eq_refl).
Qed.

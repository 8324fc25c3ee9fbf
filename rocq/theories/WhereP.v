(** * Where the optimizer evaluates the objective (C97) *)
From Coq Require Import ZArith NArith List Bool Arith Lia String Permutation.
From Verif Require Import F64 F64Order F64Alg F64Real Base Builders Types Filters Runner Observer Env EnvSpec ScatterSearch Codec Checkpoint
  Oqnlp Spec SpecStage1 SpecStage2 SpecObserver SpecCheckpoint SpecPanic SpecSession SpecWhere
  BasicP DistP GreedyP SampleP Stage1P Stage1Q Wp Actions RunP SetP FrameP CheckpointP ResumeP NoPanicP SessionP ExpandP EmitsP HoareP Stage1CountP StartP.
Import ListNotations.

(** ** Stage 1 *)
Lemma rt_and : forall A (m : M ss ss_error A) s (Q Q' : outcome ss_error A -> ss -> Prop),
  run_to m s Q -> run_to m s Q' -> run_to m s (fun r s' => Q r s' /\ Q' r s').
Proof. unfold run_to. auto. Qed.
Section Search.
Context (E : env) (HE : env_ok E).
Let P := e_problem E.
Let b := pb_bounds P.
Context (Hbd : Forall tame_bound b).
Definition good (q : point) : Prop := in_box b q /\ canonical q /\ feasible P q.

Lemma init_evals s : run_to (initialize_reference_set E) s (fun r s' =>
  exists later, evaluations (ss_log s') = evaluations (ss_log s) ++ later /\ forall q, In q later ->
    In q (initial_points P s) \/ (sampled E (ss_lower s) (ss_upper s) q /\ is_feasible (pb_constraints P) q = true)).
Proof.
  unfold initialize_reference_set. apply rt_bind. unfold run_to at 1, get. cbn [fst snd].
  apply rt_bind.
  replace (match ss_custom s with Some c => filter (is_feasible (pb_constraints (e_problem E))) c | None => [] end)
    with (filter (is_feasible (pb_constraints (e_problem E))) (custom_points s))
    by (unfold custom_points; destruct (ss_custom s); reflexivity).
  fold (initial_points (e_problem E) s). fold P.
  destruct (div_spec E (initial_points P s) (pb_constraints P) s)
    as (rng & l & r & Hd & Hs & Hdiv & _).
  unfold run_to at 1. rewrite Hd. cbn [fst snd].
  assert (No : exists later, evaluations (ss_log (drew rng l s)) = evaluations (ss_log s) ++ later /\ forall q, In q later ->
    In q (initial_points P s) \/ (sampled E (ss_lower s) (ss_upper s) q /\ is_feasible (pb_constraints P) q = true)).
  { exists []. rewrite app_nil_r. split; [apply ev_drew|intros q []]. }
  destruct r as [refs|e|]; [|exact No|exact No].
  assert (Hr : forall q, In q refs -> In q (initial_points P s) \/ (sampled E (ss_lower s) (ss_upper s) q /\ is_feasible (pb_constraints P) q = true)).
  { intros q Hq. inversion Hdiv as [final left cands Hch Hlen Hpop Hne| |]; subst. apply chosen_perm in Hch.
    assert (Hi : In q (initial_points P s ++ cands)) by (eapply Permutation_in; [exact Hch|]; apply in_or_app; auto).
    apply in_app_or in Hi as [Hi|Hi]; auto. right. unfold cands in Hi. apply filter_In in Hi as [Hi Hf].
    rewrite Forall_forall in Hs. auto. }
  apply rt_bind. unfold run_to at 1, modify. cbn [fst snd].
  match goal with |- context [ss_emit (map SsEval ?l) _] => set (evs := l) end.
  assert (Hi : forall q, In q evs -> In q refs).
  { unfold evs. intros q. destruct (ss_parallel s && (20 <=? List.length refs)); [auto|]. clear.
    induction refs as [|x refs IH]; simpl; [auto|]. destruct (pb_objective P x); simpl; intuition auto. }
  clearbody evs.
  assert (Y : exists later, evaluations (ss_log (ss_emit (map SsEval evs) (drew rng l s))) = evaluations (ss_log s) ++ later /\ forall q, In q later ->
    In q (initial_points P s) \/ (sampled E (ss_lower s) (ss_upper s) q /\ is_feasible (pb_constraints P) q = true)).
  { exists evs. rewrite ev_emit, ev_drew. split; [reflexivity|]. intros q Hq. apply Hr. auto. }
  match goal with |- context [match ?x with inl _ => _ | inr _ => _ end] => destruct x end; exact Y.
Qed.
Lemma update_evals trials s : run_to (update_reference_set E trials) s (fun r s' =>
  exists later, evaluations (ss_log s') = evaluations (ss_log s) ++ later /\
    forall q, In q later -> In q trials /\ feasible P q).
Proof.
  unfold update_reference_set.
  assert (No : exists later, evaluations (ss_log s) = evaluations (ss_log s) ++ later /\
    forall q, In q later -> In q trials /\ feasible P q).
  { exists []. rewrite app_nil_r. split; [reflexivity|intros q []]. }
  destruct trials as [|t0 trials]; [exact No|]. set (ts := t0 :: trials) in *.
  apply rt_bind. unfold run_to at 1, get. cbn [fst snd]. apply rt_bind.
  destruct (dist_threshold_spec E s) as (thr & -> & _). unfold run_to at 1, unwrap, ret. cbn [fst snd].
  apply rt_bind. unfold run_to at 1, modify. cbn [fst snd].
  set (res := map (fun p => (p, evaluate_trial E (ss_ref s) (last (ss_objs s) pinf) thr p)) ts).
  set (evs := map fst (filter (fun r => fst (snd r)) res)).
  replace (map (fun r : point * (bool * option (point * f64)) => SsEval (fst r)) (filter (fun r => fst (snd r)) res))
    with (map SsEval evs) by (unfold evs; rewrite map_map; reflexivity).
  assert (Hev : forall q, In q evs -> In q ts /\ feasible P q).
  { intros p Hp. unfold evs in Hp. apply in_map_iff in Hp as ([q x] & <- & Hin).
    apply filter_In in Hin as [Hin Hx]. unfold res in Hin. apply in_map_iff in Hin as (q' & E' & Hq). injection E' as <- <-.
    cbn [fst snd] in *. split; [auto|]. unfold evaluate_trial in Hx. fold P in Hx.
    destruct (is_feasible (pb_constraints P) q') eqn:Hf; [apply feasible_b; exact Hf|discriminate]. }
  generalize (flat_map (fun r : point * (bool * option (point * f64)) => match snd (snd r) with Some x => [x] | None => [] end) res).
  intro accepted. clearbody evs.
  assert (Y : exists later, evaluations (ss_log (ss_emit (map SsEval evs) s)) = evaluations (ss_log s) ++ later /\
    forall q, In q later -> In q ts /\ feasible P q) by (exists evs; rewrite ev_emit; auto).
  destruct accepted as [|a0 accepted]; [exact Y|].
  apply rt_bind. unfold run_to at 1, unwrap, ret, panic.
  destruct (keep_best E _ _) as [kept|]; cbn [fst snd]; exact Y.
Qed.
Lemma start_good p s : built E p s -> Forall (fun c => in_box b c /\ canonical c) (custom_points s) ->
  forall q, In q (initial_points P s) \/ (sampled E (ss_lower s) (ss_upper s) q /\ is_feasible (pb_constraints P) q = true) -> good q.
Proof.
  intros Hb Hc q Hq. destruct (built_view _ _ _ Hb) as (_ & _ & _ & Elo & Ehi & _ & Hnb).
  pose proof (tame_finite _ Hbd) as Hfin. pose proof (not_ge_le _ Hfin Hnb) as Hle.
  destruct Hq as [Hi | [Hs Hf]].
  - unfold P in Hi. rewrite (initial_eq E p s Hb) in Hi. unfold starting_points in Hi. apply filter_In in Hi as [Hi Hf].
    destruct (corners_inside b Hbd Hle) as (A1 & A2 & A3 & A4 & A5 & A6). fold P in Hi, Hf. fold b in Hi.
    apply feasibleb_eq in Hf. unfold good.
    apply in_app_or in Hi as [[<- | [<- | [<- | []]]] | Hi]; auto. rewrite Forall_forall in Hc. destruct (Hc _ Hi); auto.
  - rewrite Elo, Ehi in Hs. destruct (sampled_inside E b q HE Hfin Hs). split; [auto|]. split; [auto|]. apply feasible_b; auto.
Qed.
Lemma search_where p s r s' : built E p s -> Forall (fun c => in_box b c /\ canonical c) (custom_points s) ->
  ss_run E s = (r, s') -> Forall (allowed P) (evaluations (ss_log s')).
Proof.
  intros Hb Hc H.
  destruct (built_view _ _ _ Hb) as (_ & Er & _ & Elo & Ehi & El & Hnb).
  pose proof (start_good p s Hb Hc) as Hg.
  assert (L0 : evaluations (ss_log s) = []) by (rewrite El; reflexivity).
  assert (G : run_to (ss_run E) s (fun _ s' => Forall (allowed P) (evaluations (ss_log s')))).
  2:{ eapply (rt_eq _ _ _ _ _ _ G H). }
  clear H r s'. unfold ss_run. apply rt_bind.
  eapply rt_conseq.
  { exact (rt_and _ _ _ _ _ (init_spec E s) (init_evals s)). }
  cbv beta. intros r s1 [Hi (later & Hl & Hlg)]. rewrite L0 in Hl. cbn [app] in Hl.
  assert (A1 : Forall (allowed P) (evaluations (ss_log s1))).
  { rewrite Hl. apply Forall_forall. intros q Hq. destruct (Hg q (Hlg q Hq)) as (X & _ & Y). split; assumption. }
  destruct r as [[]|e|]; [|exact A1|exact A1].
  assert (Hobs : forall A f (k : unit -> M ss ss_error A) s0 Q,
    (forall s', noisy s0 s' -> run_to (k tt) s' Q) -> run_to (bind (ss_obs f) k) s0 Q).
  { intros A f k s0 Q H. apply rt_bind. destruct (noisy_obs f s0) as [G1 G2]. unfold run_to at 1. rewrite G1. auto. }
  assert (Hcall : forall A (k : unit -> M ss ss_error A) s0 Q,
    (forall s', noisy s0 s' -> run_to (k tt) s' Q) -> run_to (bind (ss_callback E) k) s0 Q).
  { intros A k s0 Q H. apply rt_bind. destruct (noisy_callback E s0) as [G1 G2]. unfold run_to at 1. rewrite G1. auto. }
  apply Hobs. intros a1 N1. apply Hcall. intros a2 N2. apply rt_bind. unfold run_to at 1, get. cbn [fst snd].
  apply Hobs. intros a3 N3. apply Hcall. intros s2 N4.
  assert (N : noisy s1 s2) by (eapply noisy_trans; [eapply noisy_trans; [eapply noisy_trans|]|]; eauto).
  clear a1 N1 a2 N2 a3 N3 N4.
  destruct (init_view _ _ _ Hi) as (I1 & I2 & I3 & I4 & I5). destruct (init_members E HE s s1 Hi) as (Lm & _ & _ & M1).
  assert (R1 : forall q, In q (ss_ref s1) -> good q).
  { intros q Hq. rewrite <- (members_fst s1 Lm) in Hq. apply in_map_iff in Hq as ([q' w] & <- & Hq). apply Hg. apply (M1 _ _ Hq). }
  apply rt_bind. eapply rt_conseq; [apply gen_trials_spec|]. cbv beta.
  intros r s3 [[rng Hs3] Hr]. assert (N3 : noisy s1 s3) by (eapply noisy_trans; [exact N|subst s3; apply noisy_rng]).
  assert (A3 : Forall (allowed P) (evaluations (ss_log s3))).
  { destruct (noisy_view _ _ N3) as (_ & _ & _ & _ & _ & _ & _ & _ & ->). exact A1. }
  destruct (noisy_view _ _ N) as (V1 & V2 & V3 & V4 & V5 & V6 & _).
  rewrite V4, V5, I2, I3, V2, Elo, Ehi in Hr. destruct r as [trials|e|]; [|exact A3|exact A3].
  apply rt_bind. eapply rt_conseq; [apply update_evals|]. cbv beta. intros r s4 (lt & Hlt & Hlg2).
  assert (A4 : Forall (allowed P) (evaluations (ss_log s4))).
  { rewrite Hlt. apply Forall_app. split; [exact A3|]. apply Forall_forall. intros q Hq. destruct (Hlg2 q Hq) as [Hin Hf].
    split; [|exact Hf]. destruct (Stage1Q.trials_in _ _ _ _ _ Hr q Hin) as (a & c & sd & g & Ha & Hcc & Hgg & Hqq).
    destruct (R1 a Ha) as (Ba & Ca & _). destruct (R1 c Hcc) as (Bc & Cc & _).
    destruct (combine_points_spec E b a c sd (in_box_length _ _ Ba) (in_box_length _ _ Bc)) as [G1 _].
    destruct (G1 g Hgg) as (_ & _ & G2). specialize (G2 HE (tame_finite _ Hbd) Ba Bc Ca Cc). rewrite Forall_forall in G2. apply G2; auto. }
  destruct r as [[]|e|]; [|exact A4|exact A4].
  apply rt_bind. unfold run_to at 1, get. cbn [fst snd].
  apply Hobs. intros a1 N1. apply Hcall. intros s5 N2.
  assert (A5 : Forall (allowed P) (evaluations (ss_log s5))).
  { assert (N5 : noisy s4 s5) by (eapply noisy_trans; eauto). destruct (noisy_view _ _ N5) as (_ & _ & _ & _ & _ & _ & _ & _ & ->). exact A4. }
  apply rt_bind. unfold run_to at 1. rewrite best_eq.
  destruct (min_by cmp_snd (enumerate (ss_objs s5))) as [[i v]|]; [|exact A5].
  destruct (nth_error (ss_ref s5) i); exact A5.
Qed.
Lemma search_refs p s pts best s' : built E p s -> Forall (fun c => in_box b c /\ canonical c) (custom_points s) ->
  ss_run E s = (Ok (pts, best), s') -> allowed P best /\ Forall (allowed P) (map fst pts).
Proof.
  intros Hb Hc H. destruct (c08 E p s pts best s' HE Hb Hbd Hc H) as [A1 A2].
  destruct (c11 E p s pts best s' HE Hb H) as [B1 B2]. split; [split; assumption|].
  apply Forall_map. clear -A2 B2. induction A2; inversion B2; subst; constructor; [split; assumption|auto].
Qed.
End Search.

(** ** Stage 1 of a run *)
Section Stage1.
Context (E : env) (HE : env_ok E) (Hbd : Forall tame_bound (pb_bounds (e_problem E))).
Notation P := (e_problem E).
Definition fine (e : event) : Prop := forall q, In q (visited e) -> allowed P q.
Definition unsaved (e : event) : Prop := match e with EvSave _ _ | EvDecide _ _ _ _ _ => False | _ => fine e end.
(** files unchanged, no checkpoint saved, every point visited allowed, and the reference set
    either unchanged or replaced by allowed points *)
Definition quiet (s s' : st) : Prop :=
  d_files (w_disk (s_w s')) = d_files (w_disk (s_w s)) /\
  (exists new, trace s' = new ++ trace s /\ Forall unsaved new) /\
  (o_ref (s_o s') = o_ref (s_o s) \/ exists refs, o_ref (s_o s') = Some refs /\ Forall (allowed P) refs).
Lemma q_refl s : quiet s s.
Proof. split; [reflexivity|]. split; [|left; reflexivity]. exists []. split; [reflexivity|constructor]. Qed.
Lemma q_trans a b c : quiet a b -> quiet b c -> quiet a c.
Proof.
  intros (A1 & (n1 & A2 & A3) & A4) (B1 & (n2 & B2 & B3) & B4). split; [congruence|]. split.
  - exists (n2 ++ n1). split; [rewrite B2, A2, app_assoc; reflexivity|]. apply Forall_app; auto.
  - destruct B4 as [B4|B4]; [rewrite B4; exact A4|right; exact B4].
Qed.
Definition quietly {A} (m : OM A) (s : st) : Prop := quiet s (snd (m s)).
Lemma q_bind A B (m : OM A) (k : A -> OM B) s : quietly m s ->
  (forall a s', m s = (Ok a, s') -> quietly (k a) s') -> quietly (bind m k) s.
Proof.
  unfold quietly, bind. intros H1 H2. destruct (m s) as [[a|e|] s1]; simpl in *; auto.
  eapply q_trans; [exact H1|]. apply H2. reflexivity.
Qed.
Lemma q_same A (m : OM A) s : snd (m s) = s -> quietly m s.
Proof. unfold quietly. intros ->. apply q_refl. Qed.
Lemma q_upd f s : (forall o, o_ref (f o) = o_ref o) -> quietly (upd f) s.
Proof. intros H. split; [reflexivity|]. split; [|left; apply H]. exists []. split; [reflexivity|constructor]. Qed.
Lemma q_ref refs s : Forall (allowed P) refs -> quietly (upd (set_o_ref (Some refs))) s.
Proof. intros H. split; [reflexivity|]. split; [|right; exists refs; auto]. exists []. split; [reflexivity|constructor]. Qed.
Lemma q_emit l s : Forall unsaved l -> quietly (emit l) s.
Proof. intros H. split; [reflexivity|]. split; [|left; reflexivity]. exists (rev l). split; [reflexivity|]. apply Forall_rev; auto. Qed.
Lemma q_tick s : quietly tick s.
Proof. split; [reflexivity|]. split; [|left; reflexivity]. exists []. split; [reflexivity|constructor]. Qed.
Lemma q_unwrap A (o : option A) s : quietly (unwrap o) s.
Proof. destruct o; apply q_same; reflexivity. Qed.
Lemma q_solver A (r : outcome ls_error A) s : quietly (of_solver r) s.
Proof. destruct r; apply q_same; reflexivity. Qed.
Definition silent (e : event) : bool := match e with EvSave _ _ | EvDecide _ _ _ _ _ => false | _ => true end.
Lemma mute e : visited e = [] -> silent e = true -> unsaved e.
Proof. intros H1 H2. unfold unsaved, fine. destruct e; try discriminate; rewrite H1; intros q []. Qed.
Ltac mute := repeat (apply Forall_cons; [apply mute; reflexivity|]); try apply Forall_nil.
Ltac q1 :=
  match goal with
  | |- quietly (bind _ _) _ => apply q_bind; [|intros]
  | |- quietly (ret _) _ => apply q_same; reflexivity
  | |- quietly (fail _) _ => apply q_same; reflexivity
  | |- quietly panic _ => apply q_same; reflexivity
  | |- quietly the_oqnlp _ => apply q_same; reflexivity
  | |- quietly (upd _) _ => apply q_upd; reflexivity
  | |- quietly (obs _) _ => apply q_upd; reflexivity
  | |- quietly tick _ => apply q_tick
  | |- quietly (unwrap _) _ => apply q_unwrap
  | |- quietly (of_solver _) _ => apply q_solver
  | |- quietly (emit (_ :: map _ _)) _ => fail 1
  | |- quietly (emit _) _ => apply q_emit; solve [mute]
  | |- quietly (let '(_, _) := ?x in _) _ => destruct x
  | |- quietly (if ?c then _ else _) _ => destruct c
  | |- quietly (match ?x with _ => _ end) _ => destruct x
  end.
Ltac q := repeat q1.
Lemma q_callback i s : quietly (callback E i) s.
Proof.
  unfold callback. q. apply q_emit. apply Forall_cons; [apply mute; reflexivity|].
  apply Forall_forall. intros e Hx. apply in_map_iff in Hx as (y & <- & _). apply mute; reflexivity.
Qed.
Lemma q_process x s : quietly (process_local_solution E x) s.
Proof. unfold process_local_solution, set_solutions, set_threshold, add_to_filter. q. Qed.
Lemma q_end s : quietly (end_stage1 E) s.
Proof. unfold end_stage1, stage1_enter. q. apply q_callback. Qed.
Definition custom_fine (o : oqnlp) : Prop :=
  forall c, o_custom o = Some c -> Forall (fun x => in_box (pb_bounds P) x /\ canonical x) c.
Lemma init_custom o t s0 : stage1_init E o t = Ok s0 -> custom_fine o ->
  built E (o_params o) s0 /\ Forall (fun x => in_box (pb_bounds P) x /\ canonical x) (custom_points s0).
Proof.
  intros H Hc. destruct (stage1_init_built _ _ _ _ H) as [Hb ->]. split; [exact Hb|].
  unfold custom_fine in Hc. destruct (o_custom o) as [c|]; [apply Hc; reflexivity|constructor].
Qed.
Lemma q_stage1 s : custom_fine (s_o s) -> quietly (stage1_run E) s.
Proof.
  intros Hc. unfold stage1_run. apply q_bind; [q|]. intros o s1 H. injection H as <- <-.
  apply q_bind; [q|]. intros t s1 H. injection H as <- <-.
  destruct (stage1_init E (s_o s) (w_tick (s_w s))) as [s3|e|] eqn:Hi; [|q|q].
  destruct (init_custom _ _ _ Hi Hc) as [Hb Hf]. clear Hi Hc.
  destruct (ss_run E s3) as [res sf] eqn:Hrun.
  pose proof (search_where E HE Hbd _ _ _ _ Hb Hf Hrun) as Hev.
  apply q_bind; [q|]. intros _ s4 _. apply q_bind.
  { apply q_emit. apply Forall_forall. intros e He. apply in_map_iff in He as (x & <- & Hx).
    destruct x; try (apply mute; reflexivity). intros q [<-|[]].
    rewrite Forall_forall in Hev. apply Hev. unfold evaluations. apply in_flat_map. exists (SsEval p). split; [exact Hx|left; reflexivity]. }
  intros _ s5 _. destruct res as [[pts cand]|e|]; [|q|q].
  destruct (search_refs E HE Hbd _ _ _ _ _ Hb Hf Hrun) as [A1 A2].
  q; try apply q_callback; try apply q_process; try apply q_end; unfold stage1_enter, set_threshold; q.
  - apply q_emit. apply Forall_cons; [|constructor]. intros q [<-|[]]. exact A1.
  - apply q_ref. exact A2.
Qed.
End Stage1.

(** ** Sessions *)
Section Sessions.
Context (P : problem) (Hbd : Forall tame_bound (pb_bounds P)).
Definition kept_cp (cp : checkpoint) : Prop := Forall (allowed P) (cp_reference_set cp).
Record placed (s : st) : Prop := {
  pl_ref : forall refs, o_ref (s_o s) = Some refs -> Forall (allowed P) refs;
  pl_custom : forall c, o_custom (s_o s) = Some c -> Forall (fun x => in_box (pb_bounds P) x /\ canonical x) c;
  pl_saves : forall f cp, In (EvSave f cp) (trace s) -> kept_cp cp;
  pl_files : saves_fit s -> checkpoints_hold kept_cp s;
  pl_events : forall e q, In e (trace s) -> In q (visited e) -> allowed P q;
  pl_decide : forall i p obj o c, In (EvDecide i p obj o c) (trace s) -> allowed P p }.
(** an action of Stage 2 *)
Lemma placed_act E (K : option nat -> point -> Prop) objs s s' : (forall it p, K it p -> it <> None /\ allowed P p) ->
  act E K objs s s' -> (forall e, In e (trace s') -> In e (trace s) \/ other e) -> placed s -> placed s'.
Proof.
  intros HK A Ho [G1 G2 G3 G4 G5 G6]. pose proof (act_config _ _ _ _ _ A) as Hc. pose proof (act_trace _ _ _ _ _ A) as [new Ht].
  assert (Fit0 : saves_fit s' -> saves_fit s) by (intros F f cp I'; eapply (fit_back s' new); eauto).
  assert (Hcu : o_custom (s_o s') = o_custom (s_o s)) by apply Hc.
  destruct A; try (constructor; [exact G1|exact G2|exact G3|intros F; exact (G4 (Fit0 F))|exact G5|exact G6]).
  - constructor; try assumption; [|intros F; exact (G4 (Fit0 F))| |].
    + intros f cp [I'|I']; [subst e; discriminate|eauto].
    + intros x q [I'|I']; [|eauto]. subst x. destruct e; try discriminate; try (intros []).
      destruct (Ho (EvStage1 e) (or_introl eq_refl)) as [I'|[]]. intros X. eapply G5; eauto.
    + intros i p obj o c [I'|I']; [subst e; discriminate|eauto].
  - constructor; try assumption; [|intros F; exact (G4 (Fit0 F))| |].
    + intros f cp [I'|I']; [discriminate|eauto].
    + intros x q [<-|I']; [intros []|eauto].
    + intros ? ? ? ? ? [I'|I']; [discriminate|eauto].
  - constructor; try assumption; [|intros F; exact (G4 (Fit0 F))| |].
    + intros f cp [I'|I']; [discriminate|eauto].
    + intros x q [<-|I']; [intros [<-|[]]; apply (HK _ _ H)|eauto].
    + intros ? ? ? ? ? [I'|I']; [discriminate|eauto].
  - constructor; try assumption; [|intros F; exact (G4 (Fit0 F))| |].
    + intros f cp [I'|I']; [discriminate|eauto].
    + intros x q [<-|I']; [intros []|eauto].
    + intros ? ? ? ? ? [I'|I']; [discriminate|eauto].
  - constructor; try assumption; [|intros F; exact (G4 (Fit0 F))| |].
    + intros f cp [I'|I']; [discriminate|eauto].
    + intros x q [<-|I']; [intros []|eauto].
    + intros ? ? ? ? ? [I'|I']; [discriminate|eauto].
  - constructor; try assumption; [|intros F; exact (G4 (Fit0 F))| |].
    + intros f cp [I'|I']; [discriminate|eauto].
    + intros x q [<-|I']; [intros []|eauto].
    + intros ? ? ? ? ? [I'|I']; [injection I'; intros; subst; apply (HK _ _ H)|eauto].
  - destruct (HK _ _ H) as [X _]. congruence.
  - constructor; try assumption; [|intros F; exact (G4 (Fit0 F))| |].
    + intros f cp [I'|I']; [discriminate|eauto].
    + intros x q [<-|I']; [intros [<-|[]]; eauto|eauto].
    + intros ? ? ? ? ? [I'|I']; [discriminate|eauto].
  - pose proof (e_process (fun e => visited e = [] /\ (forall i p obj o c, e <> EvDecide i p obj o c)) E sol
      ltac:(intros; split; [reflexivity|discriminate]) ltac:(intros; split; [reflexivity|discriminate])
      ltac:(intros; split; [reflexivity|discriminate]) s) as (nw & Hnw & Hfine).
    assert (Hr : o_ref (s_o (snd (process_local_solution E sol s))) = o_ref (s_o s)).
    { assert (Kr : keeps o_ref (process_local_solution E sol)) by
        (unfold process_local_solution, set_solutions, set_threshold, add_to_filter; kp). apply Kr. }
    rewrite Forall_forall in Hfine.
    constructor.
    + rewrite Hr. exact G1.
    + rewrite Hcu. exact G2.
    + intros f cp I'. eapply G3. eapply pls_saves; exact I'.
    + intros F f b cp I'. rewrite pls_disk in I'. apply (G4 (Fit0 F) f b cp I').
    + intros e q I' Hq. rewrite Hnw in I'. apply in_app_or in I' as [I'|I']; [|eauto].
      destruct (Hfine e I') as [X _]. rewrite X in Hq. destruct Hq.
    + intros i p0 obj o c I'. rewrite Hnw in I'. apply in_app_or in I' as [I'|I']; [|eauto].
      destruct (Hfine _ I') as [_ X]. destruct (X i p0 obj o c eq_refl).
  - destruct (HK _ _ H) as [X _]. congruence.
  - constructor; try assumption; [|intros F; exact (G4 (Fit0 F))| |].
    + intros f0 cp0 [I'|I']; [|eauto]. injection I'; intros; subst. destruct H as (_ & _ & _ & _ & S5 & _).
      unfold kept_cp. rewrite S5. destruct (o_ref (s_o s)) as [r|] ; [apply G1; reflexivity|constructor].
    + intros x q [<-|I']; [intros []|eauto].
    + intros ? ? ? ? ? [I'|I']; [discriminate|eauto].
  - constructor; try assumption. intros F f b cp0 I' Dec. simpl in I'. pose proof (G4 (Fit0 F)) as K0. subst d.
    destruct (save_files E c cp i (w_disk (s_w s))) as [Sf|[k Sf]]; rewrite Sf in I'; [apply (K0 f b cp0 I' Dec)|].
    unfold put_file in I'. apply in_app_or in I' as [I'|[I'|[]]].
    + unfold remove_file in I'. apply filter_In in I' as [I' _]. apply (K0 f b cp0 I' Dec).
    + inversion I'; subst. destruct (torn cp k (F _ _ H)) as [X|X]; rewrite X in Dec; inversion Dec; subst. eapply G3; eauto.
  - constructor; try assumption. intros F f b cp I'. simpl in I'. rewrite H in I'. apply (G4 (Fit0 F) f b cp I').
Qed.
Lemma placed_acts E (K : option nat -> point -> Prop) objs s s' : (forall it p, K it p -> it <> None /\ allowed P p) ->
  acts E K objs s s' -> (forall e, In e (trace s') -> In e (trace s) \/ other e) -> placed s -> placed s'.
Proof.
  intros HK A. induction A as [s|s s1 s' H A IH]; auto. intros Ho X.
  pose proof (acts_trace _ _ _ _ _ A) as [nw Ht].
  assert (S1 : forall e, In e (trace s1) -> In e (trace s) \/ other e).
  { intros e I'. apply Ho. rewrite Ht. apply in_or_app; auto. }
  apply IH; [|eapply placed_act; eauto]. intros e I'. destruct (Ho e I') as [Y|Y]; [|auto]. left.
  pose proof (act_trace _ _ _ _ _ H) as [n2 Ht2]. rewrite Ht2. apply in_or_app; auto.
Qed.
Lemma placed_quiet E s s' : e_problem E = P -> quiet E s s' -> same_config (s_o s) (s_o s') -> placed s -> placed s'.
Proof.
  intros HP (Q1 & (new & Q2 & Q3) & Q4) Hc [G1 G2 G3 G4 G5 G6]. rewrite Forall_forall in Q3. constructor.
  - intros refs Hr. destruct Q4 as [Q4|(l & Q4 & Q5)]; [rewrite Q4 in Hr; eauto|].
    rewrite Hr in Q4. injection Q4 as ->. rewrite <- HP. exact Q5.
  - destruct Hc as (_ & _ & _ & _ & _ & _ & _ & _ & _ & -> & _). exact G2.
  - intros f cp I'. rewrite Q2 in I'. apply in_app_or in I' as [I'|I']; [destruct (Q3 _ I')|eauto].
  - intros F f b cp I'. rewrite Q1 in I'. refine (G4 _ f b cp I'). intros f' cp' I2. apply (F f' cp'). fold (trace s'). rewrite Q2.
    apply in_or_app; auto.
  - intros e q I' Hq. rewrite Q2 in I'. apply in_app_or in I' as [I'|I']; [|eauto]. specialize (Q3 _ I').
    rewrite <- HP. unfold unsaved, fine in Q3. destruct e; try (destruct Hq; fail); auto.
  - intros i p obj o c I'. rewrite Q2 in I'. apply in_app_or in I' as [I'|I']; [destruct (Q3 _ I')|eauto].
Qed.
(** calls that read the directory *)
Lemma placed_from s (f : checkpoint -> checkpoint -> Prop) s' :
  (forall cp cp', kept_cp cp -> f cp cp' -> kept_cp cp') ->
  (forall e, In e (trace s') -> In e (trace s) \/ (visited e = [] /\ silent e = true)) ->
  calm s s' -> from_file s f (s_o s') -> saves_fit s' -> placed s -> placed s'.
Proof.
  intros Hf He Hc Hfile Fit [G1 G2 G3 G4 G5 G6]. constructor.
  - destruct Hfile as [->|(n & b & cp & cp' & I1 & I2 & I3 & ->)]; [exact G1|].
    simpl. intros refs Hr. injection Hr as <-. eapply Hf; [|exact I3]. eapply (G4 (calm_fit _ _ Hc Fit)); eauto.
  - destruct Hfile as [->|(n & b & cp & cp' & I1 & I2 & I3 & ->)]; exact G2.
  - intros g cp I'. destruct Hc as [_ (new & Ht & Hn)]. unfold trace in *. rewrite Ht in I'. apply in_app_or in I' as [I'|I']; [destruct (Hn _ _ I')|eauto].
  - exact (calm_disk _ _ _ Hc G4).
  - intros e q I' Hq. destruct (He e I') as [X|[X _]]; [eauto|]. rewrite X in Hq. destruct Hq.
  - intros i p obj o c I'. destruct (He _ I') as [X|[_ X]]; [eauto|discriminate X].
Qed.
Lemma placed_start E s b s1 : run_start E s b s1 -> saves_fit s1 -> placed s -> placed s1.
Proof.
  intros R F X. assert (C : calm s s1).
  { inversion R; subst; (split; [assumption|exists []; split; [reflexivity|intros ? ? []]]). }
  assert (Ht : trace s1 = trace s) by (inversion R; subst; reflexivity).
  apply (placed_from s eq s1); auto; [intros cp cp' K <-; exact K|rewrite Ht; auto|]. destruct b.
  - destruct (run_start_file _ _ _ R) as (n & c & cp & H1 & H2 & H3). right. exists n, c, cp, cp. auto.
  - left. eapply run_start_fresh; eauto.
Qed.
Lemma placed_stage2 E resumed refs objs u s r s' : env_ok E -> Forall (allowed P) refs ->
  stage2_run E resumed refs objs u s = (r, s') -> placed s -> placed s'.
Proof.
  intros HE Hrefs H X.
  pose proof (a_stage2 E (candidate E resumed (s_o s) refs) objs resumed refs u (fun _ _ => True) s (fun i p H => H) (fun r s' _ H => I)) as [W _].
  rewrite H in W. cbn [snd] in W. eapply placed_acts; [|exact W| |exact X].
  - intros it p (i & rs & -> & _ & Ho & Hn). split; [discriminate|].
    assert (Hin : In p rs).
    { apply nth_error_In in Hn. rewrite <- (firstn_skipn (p_iterations (o_params (s_o s))) rs). apply in_or_app; auto. }
    rewrite Forall_forall in Hrefs. apply Hrefs. destruct resumed; [congruence|]. destruct Ho as (seed & _ & ->).
    eapply Permutation_in; [|exact Hin]. apply (eo_shuffle E HE).
  - destruct (o_stage2 E resumed refs objs u s) as (new & Ht & Hn). rewrite H in Ht. cbn [snd] in Ht. rewrite Forall_forall in Hn.
    intros e I'. rewrite Ht in I'. apply in_app_or in I' as [I'|I']; auto.
Qed.
Lemma placed_run E s r s' : e_problem E = P -> env_ok E -> run E s = (r, s') -> saves_fit s' -> placed s -> placed s'.
Proof.
  intros HP HE H F X.
  assert (F0 : saves_fit s).
  { apply run_trace in H as [new Ht]. intros f cp I'. apply (F f cp). unfold trace in Ht. rewrite Ht. apply in_or_app; auto. }
  assert (St : forall b s1, run_start E s b s1 -> placed s1).
  { intros b s1 R. eapply placed_start; eauto. intros f cp I'. apply (F0 f cp). inversion R; subst; exact I'. }
  unfold run in H. unfold bind in H at 1. destruct (try_resume_from_checkpoint E s) as [[[|]|e|] s1] eqn:Ht.
  - pose proof (resume_ok _ _ _ _ Ht) as R. pose proof (St _ _ R) as X1.
    unfold bind, the_oqnlp, get, ret, bind in H. simpl in H.
    eapply placed_stage2; [exact HE| |exact H|exact X1].
    destruct (o_ref (s_o s1)) as [refs|] eqn:Hx; [apply (pl_ref _ X1 _ Hx)|constructor].
  - pose proof (resume_ok _ _ _ _ Ht) as R. pose proof (St _ _ R) as X1. unfold bind in H.
    assert (Hc1 : custom_fine E (s_o s1)) by (unfold custom_fine; rewrite HP; apply (pl_custom _ X1)).
    assert (Hb1 : Forall tame_bound (pb_bounds (e_problem E))) by (rewrite HP; exact Hbd).
    pose proof (q_stage1 E HE Hb1 s1 Hc1) as Q1. unfold quietly in Q1.
    pose proof (a_stage1 E (stage1_best E s1) None
        (fun r s2 => forall refs objs, r = Some (refs, objs) -> stage1_result E s1 s2 refs objs) s1 (fun _ H => H) (fun _ _ _ H => H)) as [W1 W2].
    destruct (stage1_run E s1) as [[[[refs objs]|]|e|] s2]; cbn [fst snd] in *.
    + assert (X2 : placed s2) by (eapply placed_quiet; eauto using acts_config).
      eapply placed_stage2; [exact HE| |exact H|exact X2].
      destruct (W2 refs objs eq_refl) as (s0 & pts & best & sf & _ & _ & -> & _ & Hx). apply (pl_ref _ X2 _ Hx).
    + assert (X2 : placed s2) by (eapply placed_quiet; eauto using acts_config).
      assert (s' = s2) as ->; [|exact X2]. revert H. unfold final_set, bind, the_oqnlp, get, ret, bind. simpl.
      destruct (o_set (s_o s2)); simpl; intros H; injection H; auto.
    + injection H as _ <-. eapply placed_quiet; eauto using acts_config.
    + injection H as _ <-. eapply placed_quiet; eauto using acts_config.
  - injection H as _ <-. destruct (resume_fail E s _ _ Ht) as (d & Hd & ->); [discriminate|].
    destruct X as [G1 G2 G3 G4 G5 G6]. constructor; try assumption.
    intros F' f b cp I'. simpl in I'. rewrite Hd in I'. apply (G4 F' f b cp I').
  - injection H as _ <-. destruct (resume_fail E s _ _ Ht) as (d & Hd & ->); [discriminate|].
    destruct X as [G1 G2 G3 G4 G5 G6]. constructor; try assumption.
    intros F' f b cp I'. simpl in I'. rewrite Hd in I'. apply (G4 F' f b cp I').
Qed.
(** a modified checkpoint has the old reference points and allowed new ones *)
Definition grown (np : params) (cp cp' : checkpoint) : Prop :=
  exists added, cp' = cp_with np (cp_reference_set cp ++ added) cp /\ Forall (allowed P) added.
Lemma grown_kept np cp cp' : kept_cp cp -> grown np cp cp' -> kept_cp cp'.
Proof. intros K (added & -> & H). unfold kept_cp in *. simpl. apply Forall_app; auto. Qed.
Lemma quiet_on_disk A (m : DM A) s : trace (snd (on_disk m s)) = trace s.
Proof. unfold on_disk. destruct (m (w_disk (s_w s))) as [[x|x|] d]; reflexivity. Qed.
Lemma expand_events E refs a b s e : In e (trace (snd (expand_reference_set E refs a b s))) ->
  In e (trace s) \/ (visited e = [] /\ silent e = true).
Proof.
  unfold expand_reference_set. destruct (b <=? a); [simpl; auto|].
  unfold bind, the_oqnlp, get, ret, tick, unwrap, bind, panic, fail. cbn [s_o s_w].
  destruct (add_u64 E (o_seed (s_o s)) (N.of_nat (List.length refs))); [|simpl; auto].
  unfold ret. match goal with |- context [ss_new ?x ?y ?z] => destruct (ss_new x y z) as [s0|e0|] eqn:Hn end; [|simpl; auto|simpl; auto].
  assert (L0 : ss_log s0 = []) by (unfold ss_new in Hn; destruct (bad_bound 0 _); [discriminate|]; injection Hn as <-; reflexivity).
  unfold run_ss.
  destruct (div_spec E refs (pb_constraints (e_problem E)) (ss_set_parallel (o_parallel (s_o s)) s0)) as (rng & l & r & Hd & _).
  rewrite Hd. assert (El : ss_log (drew rng l (ss_set_parallel (o_parallel (s_o s)) s0)) = rev (map SsSample l)).
  { simpl. rewrite L0. apply app_nil_r. }
  rewrite El, rev_involutive.
  assert (G : In e (rev (map EvStage1 (map SsSample l)) ++ trace s) -> In e (trace s) \/ (visited e = [] /\ silent e = true)).
  { intros I'. apply in_app_or in I' as [I'|I']; [|auto]. right. apply in_rev in I'. apply in_map_iff in I' as (x & <- & I').
    apply in_map_iff in I' as (y & <- & _). auto. }
  destruct r; exact G.
Qed.
Lemma modified_places E np s r s' : e_problem E = P -> env_ok E -> resume_with_modified_params E np s = (r, s') ->
  calm s s' /\ from_file s (grown np) (s_o s') /\
  forall e, In e (trace s') -> In e (trace s) \/ (visited e = [] /\ silent e = true).
Proof.
  intros HP HE H. split; [apply (modified_effect _ _ _ _ _ H)|]. revert H.
  unfold resume_with_modified_params. intros H. unfold bind at 1 in H. unfold the_oqnlp, bind, get, ret in H.
  destruct (o_cp (s_o s)) as [c|] eqn:Hc; [|injection H as <- <-; split; [left; reflexivity|auto]].
  pose proof (calm_on_disk _ (checkpoint_exists E c) s (reads_exists E c)) as K1.
  pose proof (quiet_on_disk _ (checkpoint_exists E c) s) as T1.
  destruct (on_disk (checkpoint_exists E c) s) as [ex sa] eqn:H1. simpl in K1, T1. pose proof (on_disk_o _ _ _ _ _ H1) as O1.
  destruct ex as [[|]|e|]; try (injection H as <- <-; split; [left; congruence|rewrite T1; auto]).
  pose proof (quiet_on_disk _ (load_latest E c) sa) as T2.
  destruct (on_disk (load_latest E c) sa) as [cpr sb] eqn:H2. simpl in T2. pose proof (on_disk_o _ _ _ _ _ H2) as O2.
  rewrite T1 in T2.
  destruct cpr as [cp|e|]; try (injection H as <- <-; split; [left; congruence|rewrite T2; auto]).
  assert (F : exists n b, In (n, b) (d_files (w_disk (s_w s))) /\ decode_checkpoint b = Some cp).
  { assert (L : fst (load_latest E c (w_disk (s_w sa))) = Ok cp) by (apply on_disk_fst; rewrite H2; reflexivity).
    destruct (load_latest E c (w_disk (s_w sa))) as [x d2] eqn:El. simpl in L. subst x.
    apply load_latest_file in El as (n & b & I1 & I2). exists n, b. destruct K1 as [K1 _]. rewrite K1 in I1. auto. }
  destruct F as (n & b & F1 & F2). cbv zeta in H.
  assert (G : forall rr sc, (forall refs, rr = Ok refs -> exists added, refs = cp_reference_set cp ++ added /\ Forall (allowed P) added) ->
      (forall e, In e (trace sc) -> In e (trace s) \/ (visited e = [] /\ silent e = true)) -> s_o sc = s_o sb ->
      (match rr with Ok refs => bind (restore_from_checkpoint (cp_with np refs cp)) (fun _ => ret true) sc
      | Err e => (Err e, sc) | Panic => (Panic, sc) end = (r, s')) -> from_file s (grown np) (s_o s') /\
      forall e, In e (trace s') -> In e (trace s) \/ (visited e = [] /\ silent e = true)).
  { intros rr sc K3 Tc O3 Hx. destruct rr as [refs|e|]; try (injection Hx as <- <-; split; [left; congruence|exact Tc]).
    unfold bind, restore_from_checkpoint, upd, modify, ret in Hx. cbn in Hx. injection Hx as <- <-. split; [|exact Tc].
    destruct (K3 refs eq_refl) as (added & -> & Ha).
    right. exists n, b, cp, (cp_with np (cp_reference_set cp ++ added) cp). split; [exact F1|]. split; [exact F2|].
    split; [exists added; auto|]. simpl. congruence. }
  destruct (p_population (cp_params cp) <? p_population np) eqn:Hlt.
  - apply Nat.ltb_lt in Hlt.
    pose proof (expand_events E (cp_reference_set cp) (p_population (cp_params cp)) (p_population np) sb) as Te.
    destruct (expand_reference_set E (cp_reference_set cp) (p_population (cp_params cp)) (p_population np) sb) as [rr sc] eqn:He.
    simpl in Te. refine (G rr sc _ _ (expand_o _ _ _ _ _ _ _ He) _); [|rewrite T2 in Te; exact Te|destruct rr; exact H].
    intros refs ->. assert (Hf : Forall finite_bound (pb_bounds (e_problem E))) by (rewrite HP; apply tame_finite; exact Hbd).
    destruct (expand_spec E _ _ _ _ _ _ HE Hf Hlt He) as (added & -> & _ & Ha). exists added. split; [reflexivity|].
    rewrite HP in Ha. exact Ha.
  - refine (G (Ok (cp_reference_set cp)) sb _ _ eq_refl H); [|rewrite T2; auto].
    intros refs Hx. injection Hx as <-. exists []. rewrite app_nil_r. split; [reflexivity|constructor].
Qed.
Lemma file_places E f np s r s' : resume_from_checkpoint_with_params E f np s = (r, s') ->
  from_file s (grown np) (s_o s') /\ trace s' = trace s.
Proof.
  unfold resume_from_checkpoint_with_params. intros H. unfold bind at 1 in H. unfold the_oqnlp, bind, get, ret in H.
  destruct (o_cp (s_o s)) as [c|] eqn:Hc; [|injection H as <- <-; split; [left; reflexivity|reflexivity]].
  pose proof (quiet_on_disk _ (load_from_path E f) s) as T1.
  destruct (on_disk (load_from_path E f) s) as [cpr sa] eqn:H1. simpl in T1. pose proof (on_disk_o _ _ _ _ _ H1) as O1.
  destruct cpr as [cp|e|]; try (injection H as <- <-; split; [left; congruence|exact T1]).
  assert (L : fst (load_from_path E f (w_disk (s_w s))) = Ok cp) by (apply on_disk_fst; rewrite H1; reflexivity).
  destruct (load_from_path E f (w_disk (s_w s))) as [x d2] eqn:El. simpl in L. subst x.
  apply load_path_file in El as (b & I1 & I2).
  unfold restore_from_checkpoint, upd, modify in H. cbn in H. injection H as <- <-. split; [|exact T1].
  right. exists f, b, cp, (cp_with np (cp_reference_set cp) cp). split; [exact I1|]. split; [exact I2|].
  split; [exists []; rewrite app_nil_r; split; [reflexivity|constructor]|]. simpl. congruence.
Qed.
Lemma points_inside b : Forall tame_bound b -> forall l i, Forall canonical l -> Forall (Forall (fun x => is_nan x = false)) l ->
  check_points b i l = Ok tt -> Forall (fun x => in_box b x /\ canonical x) l.
Proof.
  intros Hb l. induction l as [|p l IH]; intros i Hc Hn H; [constructor|]. inversion Hc; inversion Hn; subst.
  cbn [check_points] in H. destruct (List.length p =? List.length b) eqn:Hl; [|discriminate]. apply Nat.eqb_eq in Hl.
  destruct (within_bounds b p) as [[|]|] eqn:Hw; try discriminate. constructor; [split; [|assumption]|eauto].
  apply (within_bounds_spec p b Hl) in Hw. clear -Hb Hw H6. unfold in_box.
  induction Hw as [|lh x b p [W1 W2] W IH]; constructor.
  - inversion H6; inversion Hb; subst. match goal with Ht : tame_bound lh |- _ => destruct Ht as (_ & _ & F1 & F2 & _) end.
    split; apply not_flt_fle; auto using finite_not_nan.
  - inversion H6; inversion Hb; auto.
Qed.
Lemma placed_setting s o : o_ref o = o_ref (s_o s) -> o_custom o = o_custom (s_o s) -> placed s -> placed (mk_st o (s_w s)).
Proof. intros H1 H2 [G1 G2 G3 G4 G5 G6]. constructor; simpl; try assumption; rewrite ?H1, ?H2; assumption. Qed.
Lemma placed_files s s' : s_o s' = s_o s -> w_trace (s_w s') = w_trace (s_w s) ->
  (forall f b cp, In (f, b) (d_files (w_disk (s_w s'))) -> decode_checkpoint b = Some cp -> exists g, In (g, b) (d_files (w_disk (s_w s)))) ->
  placed s -> placed s'.
Proof.
  intros H1 H2 H3 [G1 G2 G3 G4 G5 G6]. unfold trace in *. constructor; unfold trace; rewrite ?H1, ?H2; try assumption.
  intros F f b cp I1 I2. destruct (H3 f b cp I1 I2) as [g I3]. eapply G4; eauto. intros f' cp' I4. apply (F f' cp'). congruence.
Qed.
Lemma placed_step E c s s' : does E c s s' -> for_problem P (E, c) -> numbers (E, c) -> saves_fit s' -> placed s -> placed s'.
Proof.
  intros D (HP & HE & T2) T3 Fit X. simpl in HP, HE. unfold numbers in T3.
  destruct D as [p o s H|ob s|t s|n s|b s|t s|b s|a r s|l o s H|c s r s' H|s r s' H|s r s' H|np s r s' H|f np s r s' H|c n s r s' H|f b s H|f s];
    simpl in T2, T3; try (apply placed_setting; [reflexivity|reflexivity|exact X]).
  - destruct X as [G1 G2 G3 G4 G5 G6]. unfold oq_new in H. repeat match type of H with (if ?b then _ else _) = _ => destruct b; [discriminate|] end.
    destruct (df_new _) as [df|v]; [|discriminate]. inversion H; subst. constructor; simpl; try assumption; discriminate.
  - unfold with_points in H. destruct (check_points (pb_bounds (e_problem E)) 0 l) as [[]|e|] eqn:Hp; try discriminate.
    rewrite HP in Hp. injection H as <-. destruct X as [G1 G2 G3 G4 G5 G6]. constructor; simpl; try assumption.
    intros c Hc. injection Hc as <-. apply (points_inside (pb_bounds P) Hbd l 0); assumption.
  - pose proof (checkpointing_effect _ _ _ _ _ H) as [Hc Ho].
    assert (Ht : trace s' = trace s).
    { revert H. unfold with_checkpointing, manager_new, on_disk, bind, next_io, upd, modify, ret, fail. simpl.
      destruct (e_io E (d_tick (w_disk (s_w s)))); simpl; intros H; injection H as <- <-; reflexivity. }
    destruct X as [G1 G2 G3 G4 G5 G6]. constructor; rewrite ?Ht; try assumption.
    + destruct Ho as [->| ->]; exact G1.
    + destruct Ho as [->| ->]; exact G2.
    + exact (calm_disk _ _ _ Hc G4).
  - eapply placed_run; eauto.
  - pose proof (try_effect _ _ _ _ H) as [H1 H2].
    eapply (placed_from s eq); eauto; [intros cp cp' K <-; exact K|].
    assert (Ht : trace s' = trace s).
    { destruct r as [b|e|].
      - pose proof (resume_ok _ _ _ _ H) as R. inversion R; subst; reflexivity.
      - destruct (resume_fail E s _ _ H) as (d & Hd & ->); [discriminate|reflexivity].
      - destruct (resume_fail E s _ _ H) as (d & Hd & ->); [discriminate|reflexivity]. }
    rewrite Ht; auto.
  - destruct (modified_places _ _ _ _ _ HP HE H) as (H1 & H2 & H3). eapply placed_from; eauto using grown_kept.
  - destruct (file_places _ _ _ _ _ _ H) as [H2 H3]. pose proof (file_effect _ _ _ _ _ _ H) as [H1 _].
    apply (placed_from s (grown np) s'); auto; [apply grown_kept|rewrite H3; auto].
  - apply cleanup_effect in H as (H1 & H2 & H3). eapply placed_files; eauto.
  - eapply (placed_files s); [reflexivity|reflexivity| |exact X]. simpl. intros f' b' cp I1 I2.
    unfold put_file in I1. apply in_app_or in I1 as [I1|[I1|[]]]; [|inversion I1; subst; congruence].
    unfold remove_file in I1. apply filter_In in I1 as [I1 _]. eauto.
  - eapply (placed_files s); [reflexivity|reflexivity| |exact X]. simpl. intros f' b' cp I1 I2.
    unfold remove_file in I1. apply filter_In in I1 as [I1 _]. eauto.
Qed.
Theorem session_placed : forall p l s0 s, begins p s0 -> session l s0 s ->
  Forall (for_problem P) l -> Forall numbers l -> saves_fit s -> placed s.
Proof.
  intros p l s0 s (B1 & B2 & B3) Hs Hl Hn Fit. induction Hs as [s|l E c s s1 s2 Hs IH D].
  - unfold oq_new in B1. repeat match type of B1 with (if ?b then _ else _) = _ => destruct b; [discriminate|] end.
    destruct (df_new _) as [df|v]; [|discriminate]. injection B1 as B1. constructor; unfold trace; rewrite ?B2; rewrite <- ?B1.
    + discriminate.
    + discriminate.
    + intros f cp [].
    + intros _ f b cp I1 I2. destruct (B3 f b cp I1 I2).
    + intros e q [].
    + intros ? ? ? ? ? [].
  - inversion Hl; inversion Hn; subst. eapply placed_step; eauto. apply IH; auto. eapply does_fit; eauto.
Qed.
End Sessions.
Theorem c97 : forall P p l s0 s e q, Forall tame_bound (pb_bounds P) -> begins p s0 -> session l s0 s ->
  Forall (for_problem P) l -> Forall numbers l -> saves_fit s -> In e (trace s) -> In q (visited e) -> allowed P q.
Proof. intros P p l s0 s e q Hb H1 H2 H3 H4 H5. apply (pl_events P s (session_placed P Hb p l s0 s H1 H2 H3 H4 H5)). Qed.

(** * A result is as good as all that the search saw (C105) *)
From Coq Require Import ZArith NArith List Bool Arith Lia String Permutation Sorted.
From Verif Require Import F64 F64Order Base Builders Types Filters Runner Observer Env EnvSpec
  ScatterSearch Codec Checkpoint Oqnlp Spec SpecStage1 SpecStage2 SpecObserver SpecCost SpecBest BasicP SolverP GreedyP Stage1P Stage1Q SqrtP Stage1R
  DistP Wp Actions RunP FrameP EmitsP FilterP CountP HoareP LeaderP Stage1CountP SaveP AgainP CostP FinishP Shown1P StartP SetP.
Import ListNotations.

Section Search.
Context (E : env) (HE : env_ok E).
Lemma noisy_run A (m : M ss ss_error A) s (Q : outcome ss_error A -> ss -> Prop) : run_to m s Q -> forall r s', m s = (r, s') -> Q r s'.
Proof. clear. intros H r s' E1. unfold run_to in H. rewrite E1 in H. exact H. Qed.
Lemma obs_noisy f s : run_to (ss_obs f) s (fun r s' => r = Ok tt /\ noisy s s'). Proof. apply (noisy_obs f s). Qed.
Lemma callback_noisy s : run_to (ss_callback E) s (fun r s' => r = Ok tt /\ noisy s s'). Proof. apply (noisy_callback E s). Qed.
(** the scatter search returns the best of the points it evaluates *)
Lemma ss_covers : forall s, run_to (ss_run E) s (fun r s' => forall pts cand, r = Ok (pts, cand) -> exists evs,
    evaluations (ss_log s') = evaluations (ss_log s) ++ evs /\ covers E evs pts).
Proof.
  intro s. unfold ss_run. apply rt_bind. eapply rt_conseq; [apply init_spec|].
  intros r1 s1 H1. destruct r1 as [[]|err|]; [|intros x y G; discriminate G|intros x y G; discriminate G].
  destruct (init_covers E HE s s1 H1) as (first & _ & I2 & I3 & _). destruct (init_members E HE s s1 H1) as (L1 & _). clear H1.
  apply rt_bind. eapply rt_conseq; [apply (obs_noisy _ s1)|]. intros r2 s2 [-> N2].
  apply rt_bind. eapply rt_conseq; [apply callback_noisy|]. intros r3 s3 [-> N3].
  apply rt_bind. unfold run_to at 1, get. cbn [fst snd].
  apply rt_bind. eapply rt_conseq; [apply (obs_noisy _ s3)|]. intros r4 s4 [-> N4].
  apply rt_bind. eapply rt_conseq; [apply callback_noisy|]. intros r5 s5 [-> N5].
  assert (N : noisy s1 s5) by (eapply noisy_trans; [eapply noisy_trans; [exact N2|exact N3]|eapply noisy_trans; eauto]).
  destruct (noisy_view _ _ N) as (_ & V2 & V3 & _ & _ & _ & _ & _ & W). rewrite I2 in W. rewrite <- (members_view _ _ N) in I3.
  rewrite <- V2, <- V3 in L1. clear N N2 N3 N4 N5 V2 V3 I2.
  apply rt_bind. eapply rt_conseq; [apply gen_trials_spec|]. cbv beta. intros r6 s6 [[rng Hs6] Htr].
  destruct r6 as [trials|err|]; [|intros x y G; discriminate G|intros x y G; discriminate G].
  assert (W6 : evaluations (ss_log s6) = evaluations (ss_log s) ++ first) by (subst s6; exact W).
  assert (C6 : covers E first (members s6)) by (subst s6; exact I3).
  assert (L6 : List.length (ss_ref s6) = List.length (ss_objs s6)) by (subst s6; exact L1).
  assert (Z6 : trials <> [] -> ss_objs s6 <> []).
  { intros Hne Hz. apply trials_len in Htr. subst s6. cbn [ss_objs ss_with_rng] in Hz.
    assert (L0 : List.length (ss_ref s5) = 0) by (rewrite L1; change (List.length (ss_objs s5) = 0); destruct (ss_objs s5); [reflexivity|discriminate Hz]).
    rewrite L0 in Htr. change (ksel 0) with 0 in Htr. destruct trials; [congruence|discriminate Htr]. }
  clear Htr Hs6 W I3 L1.
  apply rt_bind. eapply rt_conseq; [apply (update_covers E HE trials s6 first L6 Z6 C6)|]. cbv beta. intros r7 s7 Hu.
  destruct r7 as [u|err|]; [|intros x y G; discriminate G|intros x y G; discriminate G].
  destruct (Hu u eq_refl) as (_ & later & W7 & C7). rewrite W6 in W7. clear Hu W6.
  apply rt_bind. unfold run_to at 1, get. cbn [fst snd].
  apply rt_bind. eapply rt_conseq; [apply (obs_noisy _ s7)|]. intros r8 s8 [-> N8].
  apply rt_bind. eapply rt_conseq; [apply callback_noisy|]. intros r9 s9 [-> N9].
  assert (N : noisy s7 s9) by (eapply noisy_trans; eauto). destruct (noisy_view _ _ N) as (_ & V2 & V3 & _ & _ & _ & _ & _ & W9).
  rewrite W7 in W9. rewrite <- (members_view _ _ N) in C7. apply rt_bind. unfold run_to at 1. rewrite best_eq.
  destruct (min_by cmp_snd (enumerate (ss_objs s9))) as [[i v]|]; cbn [fst snd]; [|intros x y G; discriminate G].
  destruct (nth_error (ss_ref s9) i); cbn [fst snd]; [|intros x y G; discriminate G].
  apply rt_bind. unfold run_to at 1, get. cbn [fst snd]. unfold run_to, ret. cbn [fst snd].
  intros pts cand G. injection G as <- _. exists (first ++ later).
  split; [rewrite W9, app_assoc; reflexivity|]. exact C7.
Qed.
(** so the value at the candidate is the least of the values *)
Lemma ss_least : forall s pts cand sf, ss_run E s = (Ok (pts, cand), sf) -> exists evs v,
  evaluations (ss_log sf) = evaluations (ss_log s) ++ evs /\ In cand evs /\ pb_objective (e_problem E) cand = inl v /\
  (forall q w, In (q, w) pts -> In q evs) /\
  ((forall p w, In p evs -> pb_objective (e_problem E) p = inl w -> is_nan w = false) ->
   forall p w, In p evs -> pb_objective (e_problem E) p = inl w -> fle v w = true).
Proof.
  intros s pts cand sf H. destruct (noisy_run _ _ _ _ (ss_covers s) _ _ H pts cand eq_refl) as (evs & Hev & C1 & C2).
  destruct (c16 E s pts cand sf HE H) as (v & Hin & Hle). destruct (C1 _ _ Hin) as [Hc Hv].
  exists evs, v. split; [exact Hev|]. split; [exact Hc|]. split; [exact Hv|].
  split; [intros q w Hq; apply (C1 q w Hq)|]. intros Hn p w Hp Hw. assert (Hn' : Forall (number_at E) evs) by (apply Forall_forall; intros q Hq u Hu; exact (Hn q u Hq Hu)).
  destruct (C2 Hn' p w Hp Hw) as (q & u & Hq & Hwu). destruct (C1 _ _ Hq) as [Q1 Q2].
  pose proof (Hn cand v Hc Hv) as Nv. pose proof (Hn q u Q1 Q2) as Nu.
  pose proof (Hn p w Hp Hw) as Nw.
  pose proof (total_le_fle _ _ Nv Nu (Hle _ _ Hq)) as L. eapply fle_trans; [exact L|].
  apply not_flt_fle; auto.
Qed.
End Search.

(** ** Stage 1 *)
Definition setup (o : oqnlp) := ((o_set o, o_exclude o), (o_solver_type o, o_solver_config o)).
Definition any_event (e : event) : Prop := True.
Lemma grows : forall A (m : OM A) s r s', emits any_event m -> m s = (r, s') -> exists l, trace s' = l ++ trace s.
Proof. intros A m s r s' H E1. destruct (H s) as (l & L1 & _). rewrite E1 in L1. exists l. exact L1. Qed.
Lemma any_all : forall l, Forall any_event l.
Proof. intro l. apply Forall_forall. intros; exact I. Qed.
Lemma result_noted : forall E x s b s', process_local_solution E x s = (Ok b, s') ->
  In (EvResult x) (trace s') /\ (o_set (s_o s) = None -> not_excluded E (s_o s) x -> In (EvSolutionSet [x]) (trace s')).
Proof.
  intros E x s b s' H. rewrite <- admissible_iff. pose proof (pls_cases E x s) as C. rewrite H in C. simpl in C.
  destruct C as [(_ & C & _)|[(Hex & Hwb & -> & _)|[_ [(Hn & -> & _)|
    (cur & rest & Hset & [(_ & _ & ob & ->)|[(_ & _ & _ & _ & ob & ->)|(_ & _ & _ & ->)]])]]]]; [discriminate C|..].
  - split; [left; reflexivity|]. intros _ [A|A]; congruence.
  - split; [right; right; left; reflexivity|]. intros _ _. right; left; reflexivity.
  - split; [right; right; left; reflexivity|]. congruence.
  - split; [right; left; reflexivity|]. congruence.
  - split; [left; reflexivity|]. congruence.
Qed.
Lemma stage1_finds : forall E s r s', stage1_run E s = (Ok r, s') -> exists s3 pts cand sf tr x n,
  stage1_init E (s_o s) (w_tick (s_w s)) = Ok s3 /\ ss_run E s3 = (Ok (pts, cand), sf) /\
  solve_tracked E (o_solver_type (s_o s)) (o_solver_config (s_o s)) cand tr = Ok (x, n) /\ In (EvResult x) (trace s') /\
  (o_set (s_o s) = None -> not_excluded E (s_o s) x -> In (EvSolutionSet [x]) (trace s')).
Proof.
  intros E s r s' H. unfold stage1_run in H.
  apply bind_inv in H as (o & s0 & H0 & H). cbn in H0. injection H0 as <- <-.
  apply bind_inv in H as (t & s1 & H1 & H). injection H1 as <- <-.
  assert (S1 : setup (s_o (mk_st (s_o s) (mk_world (w_disk (s_w s)) (S (w_tick (s_w s))) (w_trace (s_w s))))) = setup (s_o s)) by reflexivity.
  match type of S1 with setup (s_o ?x) = _ => change x with x in H; set (s1 := x) in * end.
  match type of H with _ s1 = _ => idtac | _ ?y = _ => change y with s1 in H end.
  clearbody s1.
  destruct (stage1_init E (s_o s) (w_tick (s_w s))) as [s3|e|] eqn:Hi; [|discriminate H|discriminate H].
  destruct (ss_run E s3) as [res sf] eqn:Hr.
  apply bind_inv in H as (u2 & s2 & H2 & H).
  assert (S2 : setup (s_o s2) = setup (s_o s)).
  { rewrite <- S1. clear - H2. destruct (observes1 (s_o s)); injection H2 as _ <-; reflexivity. }
  apply bind_inv in H as (u4 & s4 & H4 & H). assert (S4 : setup (s_o s4) = setup (s_o s)) by (injection H4 as _ <-; exact S2).
  destruct res as [[pts cand]|e|]; [|discriminate H|discriminate H]. cbv zeta in H.
  apply bind_inv in H as (u5 & s5 & H5 & H). assert (S5 : setup (s_o s5) = setup (s_o s)) by (injection H5 as _ <-; exact S4).
  apply bind_inv in H as (u6 & s6 & H6 & H).
  assert (S6 : setup (s_o s6) = setup (s_o s)).
  { pose proof (k_callback E setup (fun _ _ => eq_refl) None s5) as K. rewrite H6 in K. simpl in K. congruence. }
  apply bind_inv in H as (u7 & s7 & H7 & H). assert (S7 : setup (s_o s7) = setup (s_o s)) by (injection H7 as _ <-; exact S6).
  apply bind_inv in H as (o7 & s7' & H7' & H). cbn in H7'. injection H7' as <- <-.
  apply bind_inv in H as (u8 & s8 & H8 & H). assert (S8 : setup (s_o s8) = setup (s_o s)) by (injection H8 as _ <-; exact S7).
  apply bind_inv in H as ([x n] & s9 & H9 & H).
  assert (Hx : solve_tracked E (o_solver_type (s_o s)) (o_solver_config (s_o s)) cand (observes1 (s_o s7)) = Ok (x, n) /\ s9 = s8).
  { pose proof (f_equal snd S7) as X. cbn [snd setup] in X. injection X as X1 X2. rewrite <- X1, <- X2.
    destruct (solve_tracked E (o_solver_type (s_o s7)) (o_solver_config (s_o s7)) cand (observes1 (s_o s7))) as [[y m]|e|]; cbn in H9; [|discriminate H9|discriminate H9].
    injection H9 as <- <- <-. auto. }
  destruct Hx as [Hx ->]. cbn [fst snd] in H.
  apply bind_inv in H as (u10 & s10 & H10 & H).
  assert (S10 : setup (s_o s10) = setup (s_o s)).
  { pose proof (k_threshold setup (fun _ _ => eq_refl) (ls_obj x) s8) as K. rewrite H10 in K. simpl in K. congruence. }
  apply bind_inv in H as (u11 & s11 & H11 & H). assert (S11 : setup (s_o s11) = setup (s_o s)) by (injection H11 as _ <-; exact S10).
  apply bind_inv in H as (u12 & s12 & H12 & H).
  assert (S12 : setup (s_o s12) = setup (s_o s)).
  { pose proof (k_callback E setup (fun _ _ => eq_refl) None s11) as K. rewrite H12 in K. simpl in K. congruence. }
  apply bind_inv in H as (b & s13 & H13 & H). destruct (result_noted E x s12 b s13 H13) as [R1 R2].
  pose proof (f_equal fst S12) as Y. cbn [fst setup] in Y. injection Y as Y1 Y2.
  assert (G : exists l, trace s' = l ++ trace s13).
  { eapply grows; [|exact H]. em; unfold end_stage1, stage1_enter; em; apply e_callback; try apply any_all; intros; exact I. }
  destruct G as [l G].
  exists s3, pts, cand, sf, (observes1 (s_o s7)), x, n. split; [reflexivity|]. split; [exact Hr|]. split; [exact Hx|].
  split; [rewrite G; apply in_or_app; right; exact R1|].
  intros Hn He. rewrite G. apply in_or_app. right. apply R2; [congruence|]. destruct He as [He|He]; [left; congruence|right; exact He].
Qed.

(** ** Runs *)
Lemma calls_app a b : objective_calls (a ++ b) = objective_calls a ++ objective_calls b.
Proof. apply flat_map_app. Qed.
Lemma calls_stage1 l : Forall early l -> forall p, In p (objective_calls l) <-> In p (stage1_evaluations l).
Proof.
  intros H p. unfold stage1_evaluations, objective_calls. rewrite !in_flat_map. split; intros (e & He & Hp).
  - exists e. split; [apply in_rev; rewrite rev_involutive; exact He|]. rewrite Forall_forall in H. specialize (H _ He).
    destruct e; try destruct Hp; auto; destruct H.
  - exists e. apply in_rev in He. split; [exact He|]. destruct e; try destruct Hp; auto.
Qed.
Lemma acts_given E K objs s s' : acts E K (Some objs) s s' -> forall i p, In (EvObjective i p) (trace s') -> In (EvObjective i p) (trace s).
Proof.
  intros H. induction H as [s|s s1 s' H H0 IH]; intros i p Hin; [exact Hin|].
  pose proof (IH _ _ Hin) as G. clear IH H0 Hin.
  destruct H; try exact G; try (destruct G as [G|G]; [discriminate|exact G]); try discriminate.
  - destruct G as [G|G]; [subst e; discriminate|exact G].
  - revert G. destruct (pls_cases E sol s) as [[-> _]|[[_ [_ [-> _]]]|[_ [[_ [-> _]]|
    [cur [rest [_ [[_ [_ [ob ->]]]|[[_ [_ [_ [_ [ob ->]]]]]|[_ [_ [_ ->]]]]]]]]]]]]; intro G; simpl in G;
      repeat (destruct G as [G|G]; [discriminate|]); auto.
Qed.
Lemma calls_quiet l : Forall quiet l -> (forall i p, ~ In (EvObjective i p) l) -> objective_calls l = [].
Proof.
  induction 1 as [|e l He H IH]; intros Hn; [reflexivity|]. unfold objective_calls in *. simpl. rewrite IH.
  - destruct e; try reflexivity; [destruct He|]. exfalso. eapply Hn. left. reflexivity.
  - intros i p Hi. eapply Hn. right. exact Hi.
Qed.
(** what Stage 1 evaluates, and its solution *)
Lemma stage1_known : forall E s1 r s2, env_ok E -> stage1_run E s1 = (Ok r, s2) -> trace s1 = [] ->
  exists cand v tr x n, pb_objective (e_problem E) cand = inl v /\
    solve_tracked E (o_solver_type (s_o s1)) (o_solver_config (s_o s1)) cand tr = Ok (x, n) /\
    In (EvResult x) (trace s2) /\ (o_set (s_o s1) = None -> not_excluded E (s_o s1) x -> In (EvSolutionSet [x]) (trace s2)) /\
    (forall refs objs, stage1_result E s1 s2 refs objs -> forall p, In p refs -> In p (objective_calls (trace s2))) /\
    ((forall w, seen_value E (trace s2) w -> is_nan w = false) -> is_nan v = false /\ forall w, seen_value E (trace s2) w -> fle v w = true).
Proof.
  intros E s1 r s2 HE E1 Htr.
  destruct (stage1_finds E s1 r s2 E1) as (s3 & pts & cand & sf & tr & x & n & G1 & G2 & G3 & G4 & G5).
  destruct (stage1_parts E s1) as (n1 & T1 & _ & T2). rewrite G1, G2 in T2. rewrite E1 in T1. cbn [fst snd] in T1, T2. destruct T2 as [T2 _].
  destruct (early_stage1 E s1) as (n1' & T1' & A1). rewrite E1 in T1'. cbn [snd] in T1'. rewrite T1 in T1'. apply app_inv_tail in T1'. subst n1'.
  rewrite Htr, app_nil_r in T1. destruct (stage1_init_built _ _ _ _ G1) as [Hb _]. destruct (built_view _ _ _ Hb) as (_ & _ & _ & _ & _ & El & _).
  destruct (ss_least E HE s3 pts cand sf G2) as (evs & v & L1 & L2 & L3 & L5 & L4). rewrite El in L1. simpl in L1. rewrite L1 in T2.
  assert (Seen : forall p, In p (objective_calls (trace s2)) <-> In p evs).
  { intro p. rewrite T1, (calls_stage1 n1 A1), T2. reflexivity. }
  exists cand, v, tr, x, n. split; [exact L3|]. split; [exact G3|]. split; [exact G4|]. split; [exact G5|]. split.
  { intros refs objs (z & zp & zb & zf & Z1 & Z2 & Z3 & _) p Hp. rewrite G1 in Z1. injection Z1 as <-. rewrite G2 in Z2. injection Z2 as <- <- <-.
    rewrite Z3 in Hp. apply in_map_iff in Hp as ([q w] & <- & Hp). apply Seen. exact (L5 q w Hp). }
  intros Hn. assert (Hn' : forall p w, In p evs -> pb_objective (e_problem E) p = inl w -> is_nan w = false).
  { intros p w Hp Hw. apply (Hn w). exists p. split; [apply Seen; exact Hp|exact Hw]. }
  split; [exact (Hn' cand v L2 L3)|]. intros w (p & Hp & Hw). apply (L4 Hn' p w); [apply Seen; exact Hp|exact Hw].
Qed.
(** a run that does not resume *)
Lemma fresh_finds : forall E s set s' new, env_ok E -> (forall cp, ~ resumes_from E s cp) -> run E s = (Ok set, s') -> recorded s s' new ->
  exists cand v tr x n, pb_objective (e_problem E) cand = inl v /\
    solve_tracked E (o_solver_type (s_o s)) (o_solver_config (s_o s)) cand tr = Ok (x, n) /\
    In (EvResult x) new /\ (o_set (s_o s) = None -> not_excluded E (s_o s) x -> In (EvSolutionSet [x]) new) /\
    ((forall w, seen_value E new w -> is_nan w = false) -> is_nan v = false /\ forall w, seen_value E new w -> fle v w = true).
Proof.
  intros E s set s' new HE Hres Hrun Hnew.
  destruct (run_cases E s _ s' new Hrun Hnew) as [(-> & _ & Hno)|(b & s1 & Hst & Htr & Hr & Hcfg)].
  { exfalso. eapply Hno; reflexivity. }
  destruct b.
  { exfalso. inversion Hst; subst. eapply Hres. apply resumes_blank. unfold resumes_from. eauto 10. }
  assert (Ho : s_o s1 = s_o s) by (inversion Hst; reflexivity).
  unfold run_rest in Hr. unfold bind in Hr at 1. destruct (stage1_run E s1) as [[r|e|] s2] eqn:E1; [|discriminate Hr|discriminate Hr].
  assert (X : exists new2, new = new2 ++ trace s2 /\ objective_calls new2 = []).
  { destruct r as [[refs objs]|].
    - destruct (q_stage2 E false refs (Some objs) 0 s2) as (new2 & M1 & M2). rewrite Hr in M1. cbn [snd] in M1. change (trace (ends s' new)) with new in M1. exists new2. split; [exact M1|].
      apply calls_quiet; [exact M2|]. intros i p Hi.
      pose proof (a_stage2 E (candidate E false (s_o s2) refs) (Some objs) false refs 0 (fun _ _ => True) s2 (fun i p H => H) (fun r s' _ H => I)) as [W2 _].
      rewrite Hr in W2. cbn [fst snd] in W2.
      destruct (early_stage1 E s1) as (n1 & T1 & A1). rewrite E1 in T1. cbn [snd] in T1. rewrite Htr, app_nil_r in T1.
      rewrite Forall_forall in A1. apply (A1 (EvObjective i p)). rewrite <- T1.
      eapply acts_given; [exact W2|]. change (In (EvObjective i p) new). rewrite M1. apply in_or_app. left. exact Hi.
    - exists []. split; [|reflexivity]. unfold final_set, bind, the_oqnlp, get, ret in Hr. simpl in Hr.
      assert (K : trace s2 = new) by (destruct (o_set (s_o s2)); [|discriminate Hr]; injection Hr as _ Hr; rewrite Hr; reflexivity). symmetry. exact K. }
  destruct X as (new2 & X1 & X2).
  destruct (stage1_known E s1 r s2 HE E1 Htr) as (cand & v & tr & x & n & G1 & G2 & G3 & G4 & _ & G5).
  assert (Seen : forall w, seen_value E new w <-> seen_value E (trace s2) w).
  { intro w. unfold seen_value. rewrite X1, calls_app, X2. reflexivity. }
  exists cand, v, tr, x, n. split; [exact G1|]. rewrite Ho in G2, G4. split; [exact G2|].
  split; [rewrite X1; apply in_or_app; right; exact G3|].
  split; [intros U1 U2; rewrite X1; apply in_or_app; right; apply G4; assumption|].
  intros Hn. destruct (G5 (fun w Hw => Hn w (proj2 (Seen w) Hw))) as [Y1 Y2]. split; [exact Y1|]. intros w Hw. apply Y2, Seen, Hw.
Qed.
Lemma run_same_config : forall E s r s' new, (forall cp, ~ resumes_from E s cp) -> run E s = (r, s') -> recorded s s' new ->
  same_config (s_o s) (s_o s').
Proof.
  intros E s r s' new Hres Hrun Hnew.
  destruct (run_cases E s _ s' new Hrun Hnew) as [(_ & Ho & _)|(b & s1 & Hst & Htr & Hr & Hcfg)].
  { rewrite Ho. unfold same_config. intuition reflexivity. }
  destruct b; [exfalso; inversion Hst; subst; eapply Hres; apply resumes_blank; unfold resumes_from; eauto 10|].
  assert (Ho : s_o s1 = s_o s) by (inversion Hst; reflexivity). rewrite <- Ho. exact Hcfg.
Qed.
Theorem c105 : forall E s set s' new, env_ok E -> (forall cp, ~ resumes_from E s cp) -> run E s = (Ok set, s') -> recorded s s' new ->
  tolerances_ok (s_o s) -> o_set (s_o s) = None \/ (zero_tol (s_o s) /\ forall s0, o_set (s_o s) = Some s0 -> numeric_set s0) ->
  (forall x, In (EvResult x) new -> number (ls_obj x) /\ not_excluded E (s_o s) x) ->
  descends E (s_o s) -> (forall v, seen_value E new v -> is_nan v = false) ->
  forall v, seen_value E new v -> leads_to set v.
Proof.
  intros E s set s' new HE Hres Hrun Hnew Ht Hset Hx Hd Hn v Hv.
  destruct (fresh_finds E s set s' new HE Hres Hrun Hnew) as (cand & u & tr & x & n & F1 & F2 & F3 & F4 & F5).
  destruct (F5 Hn) as [Nu Hle]. pose proof (Hd cand tr x n u F2 F1 Nu) as D.
  destruct (Hx x F3) as [X1 X2].
  assert (Hs0 : forall s0, o_set (s_o s) = Some s0 -> numeric_set s0) by (destruct Hset as [Hset|[_ Hset]]; [congruence|exact Hset]).
  destruct (c25_from E s (Ok set) s' new Hrun Hnew) as (_ & R2 & R3).
  { intros s1 [|] Hst.
    - exfalso. inversion Hst; subst. eapply Hres. unfold resumes_from. eauto 10.
    - rewrite (run_start_fresh _ _ _ Hst). auto. }
  { intros y Hy. apply (Hx y Hy). }
  assert (L : exists w, leads set w /\ fle w (ls_obj x) = true).
  { destruct Hset as [Hset|[Hz _]].
    - destruct (R2 set eq_refl [x] (F4 Hset X2)) as (a & b & A & B & C). destruct B as (y & rest & B1 & B2).
      injection B1 as <- <-. subst b. exists a. auto.
    - pose proof (run_same_config E s (Ok set) s' new Hres Hrun Hnew) as Hc.
      apply (R3 set eq_refl (zero_config _ _ Hc Hz) x F3 (excl_config _ _ _ _ Hc X2)). }
  destruct L as (w & W1 & W2). exists w. split; [exact W1|]. eapply fle_trans; [exact W2|]. eapply fle_trans; [exact D|]. apply Hle. exact Hv.
Qed.

(** ** Checkpoints *)
Definition unsaved (e : event) : Prop := match e with EvSave _ _ => False | _ => True end.
Lemma acts_save : forall E K objs s s', acts E K objs s s' -> forall f cp, In (EvSave f cp) (trace s') ->
  In (EvSave f cp) (trace s) \/ exists m, acts E K objs s m /\ snapshot (s_o m) cp /\ exists l, trace s' = l ++ trace m.
Proof.
  intros E K objs s s' H. induction H as [s|s s1 s' H H0 IH]; intros f cp Hin; [auto|].
  destruct (IH _ _ Hin) as [G|(m & M1 & M2)]; [|right; exists m; split; [econstructor; eauto|exact M2]].
  destruct (acts_trace _ _ _ _ _ (star_step (act E K objs) _ _ _ H H0)) as [l Hl].
  assert (Hs : In (EvSave f cp) (trace s) \/ snapshot (s_o s) cp).
  { clear IH H0 Hin Hl l. destruct H; try (left; exact G); try (destruct G as [G|G]; [discriminate|left; exact G]).
    - destruct G as [G|G]; [subst e; discriminate|left; exact G].
    - left. revert G. destruct (pls_cases E sol s) as [[-> _]|[[_ [_ [-> _]]]|[_ [[_ [-> _]]|
      [cur [rest [_ [[_ [_ [ob ->]]]|[[_ [_ [_ [_ [ob ->]]]]]|[_ [_ [_ ->]]]]]]]]]]]]; intro G; simpl in G;
        repeat (destruct G as [G|G]; [discriminate|]); auto.
    - destruct G as [G|G]; [injection G as -> ->; right; assumption|left; exact G]. }
  destruct Hs as [Hs|Hs]; [left; exact Hs|right]. exists s. split; [constructor|]. split; [exact Hs|]. exists l. exact Hl.
Qed.
(** from a state whose first solution is as good as all reference points, every checkpoint is good *)
Lemma good_saves : forall E K objs s s' new refs set0, acts E K objs s s' -> (forall p, ~ K None p) -> trace s' = new ++ trace s ->
  tolerances_ok (s_o s) -> o_set (s_o s) = Some set0 -> numeric_set set0 -> o_ref (s_o s) = Some refs ->
  (forall x, In (EvResult x) new -> number (ls_obj x)) ->
  (forall p v, In p refs -> pb_objective (e_problem E) p = inl v -> leads_to set0 v) ->
  (exists set, o_set (s_o s') = Some set /\ not_worse set set0) /\
  forall f cp, In (EvSave f cp) new -> ~ In (EvSave f cp) (trace s) -> good_checkpoint E cp.
Proof.
  intros E K objs s s' new refs set0 Ha HK Hnew Ht Hset Hnum Href Hres Hgood.
  assert (Hs : forall s0, o_set (s_o s) = Some s0 -> numeric_set s0) by (intros s0 H; congruence).
  split.
  - destruct (acts_leader _ _ _ _ _ Ha Ht Hs) as (n & T & L). rewrite Hnew in T. apply app_inv_tail in T. subst n.
    apply (lo_mono _ _ _ _ (L Hres) set0 Hset).
  - intros f cp Hin Hno. assert (Hin' : In (EvSave f cp) (trace s')) by (rewrite Hnew; apply in_or_app; left; exact Hin).
    destruct (acts_save _ _ _ _ _ Ha f cp Hin') as [G|(m & M1 & M2 & l & M3)]; [contradiction|].
    destruct (acts_leader _ _ _ _ _ M1 Ht Hs) as (n & T & L). rewrite M3, T, app_assoc in Hnew. apply app_inv_tail in Hnew.
    assert (L' : leader_ok E s m n) by (apply L; intros x Hx; apply Hres; rewrite <- Hnew; apply in_or_app; right; exact Hx).
    destruct (lo_mono _ _ _ _ L' set0 Hset) as (set & S1 & S2).
    destruct M2 as (_ & _ & _ & P4 & P5 & _ & _ & _ & _ & _ & _ & _ & P13 & P14).
    pose proof (tol_config _ _ (acts_config _ _ _ _ _ M1) Ht) as (T1 & T2 & T3).
    unfold good_checkpoint. rewrite P13, P14. split; [exact T1|]. split; [exact T2|]. split; [exact T3|].
    exists set. split; [congruence|]. split; [exact (lo_numeric _ _ _ _ L' set S1)|]. intros p v Hp Hv. rewrite P5 in Hp.
    assert (Hr : o_ref (s_o m) = Some refs) by (rewrite <- Href; exact (CountP.acts_ref _ _ _ _ _ HK M1)).
    rewrite Hr in Hp. destruct (Hgood p v Hp Hv) as (w & W1 & W2). destruct S2 as (a & b & A & B & C).
    rewrite (leads_fun _ _ _ B W1) in C. exists a. split; [exact A|]. eapply fle_trans; eauto.
Qed.
Lemma in_candidates : forall E res o refs it p, env_ok E -> candidate E res o refs it p -> In p refs.
Proof.
  intros E res o refs it p HE (i & rs & _ & _ & Ho & Hn). apply nth_error_In in Hn. apply SetP.firstn_in in Hn.
  destruct res; simpl in Ho; [subst rs; exact Hn|]. destruct Ho as (seed & _ & ->). eapply Permutation_in; [apply (eo_shuffle E HE)|exact Hn].
Qed.
Theorem c105_resumed : forall E s cp r s' new, env_ok E -> resumes_from E s cp -> good_checkpoint E cp -> run E s = (r, s') -> recorded s s' new ->
  (forall x, In (EvResult x) new -> number (ls_obj x)) ->
  (forall set v, r = Ok set -> seen_value E new v -> leads_to set v) /\ (forall f cp', In (EvSave f cp') new -> good_checkpoint E cp').
Proof.
  intros E s cp r s' new HE Hres (C1 & C2 & C3 & set0 & C4 & C5 & C6) Hrun Hnew Hx.
  destruct (run_cases E s _ s' new Hrun Hnew) as [(-> & _ & Hno)|(b & s1 & Hst & Htr & Hr & Hcfg)].
  { split; [intros set v -> _; exfalso; eapply Hno; reflexivity|intros f cp' []]. }
  assert (Hb : b = true /\ s_o s1 = restored cp (s_o s)).
  { destruct Hres as (c & R1 & R2 & R3 & R4). destruct Hst as [d Hd Hn|c' d cp' H1 H2 H3 H4 Hd].
    - exfalso. change (o_cp (s_o (blank s))) with (o_cp (s_o s)) in Hn. specialize (Hn c R1 R2).
      change (w_disk (s_w (blank s))) with (w_disk (s_w s)) in Hn. congruence.
    - split; [reflexivity|]. change (o_cp (s_o (blank s))) with (o_cp (s_o s)) in H1. rewrite R1 in H1. injection H1 as <-.
      change (w_disk (s_w (blank s))) with (w_disk (s_w s)) in H4. rewrite R4 in H4. injection H4 as <-. reflexivity. }
  destruct Hb as [-> Ho].
  unfold run_rest in Hr. unfold bind, the_oqnlp, get, ret, bind in Hr. cbn [fst snd] in Hr.
  assert (Hrf : o_ref (s_o s1) = Some (cp_reference_set cp)) by (rewrite Ho; reflexivity).
  rewrite Hrf in Hr. set (refs := cp_reference_set cp) in *.
  pose proof (a_stage2 E (candidate E true (s_o s1) refs) None true refs (o_unchanged (s_o s1)) (fun _ _ => True) s1 (fun i p H => H) (fun r s' _ H => I)) as [W _].
  rewrite Hr in W. cbn [fst snd] in W.
  assert (Hk : forall p, ~ candidate E true (s_o s1) refs None p) by (intros p (i & rs & Hi & _); discriminate Hi).
  assert (Ht : tolerances_ok (s_o s1)) by (rewrite Ho; repeat split; assumption).
  assert (Hset : o_set (s_o s1) = Some set0) by (rewrite Ho; exact C4).
  assert (Hn : trace (ends s' new) = new ++ trace s1) by (rewrite Htr, app_nil_r; reflexivity).
  destruct (good_saves E _ None s1 (ends s' new) new refs set0 W Hk Hn Ht Hset C5 Hrf Hx C6) as [(setf & S1 & S2) S3].
  split; [|intros f cp' Hin; apply (S3 f cp' Hin); rewrite Htr; intros []].
  intros set v -> (p & Hp & Hv). pose proof (proj2 (run_acts E s _ s' Hrun) set eq_refl) as Hf. change (s_o (ends s' new)) with (s_o s') in S1.
  assert (setf = set) by congruence. subst setf.
  assert (Hin : In p refs).
  { unfold objective_calls in Hp. apply in_flat_map in Hp as (e & He & Hp).
    destruct (q_stage2 E true refs None (o_unchanged (s_o s1)) s1) as (new2 & M1 & M2). rewrite Hr in M1. cbn [snd] in M1.
    change (trace (ends s' new)) with new in M1. rewrite Htr, app_nil_r in M1. subst new2. rewrite Forall_forall in M2. specialize (M2 e He).
    destruct e; try destruct Hp; [destruct M2| |contradiction]. subst p0.
    destruct (acts_objective E _ _ _ _ W iter p He) as [G|G]; [rewrite Htr in G; destruct G|].
    eapply in_candidates; eauto. }
  destruct (C6 p v Hin Hv) as (w & W1 & W2). destruct S2 as (a & b & A & B & C).
  rewrite (leads_fun _ _ _ B W1) in C. exists a. split; [exact A|]. eapply fle_trans; eauto.
Qed.
Lemma unsaved_process E x : emits unsaved (process_local_solution E x).
Proof. apply e_process; intros; exact I. Qed.
Lemma unsaved_end E : emits unsaved (end_stage1 E).
Proof. unfold end_stage1, stage1_enter. em. apply EmitsP.e_callback; intros; exact I. Qed.
Lemma stage1_unsaved E : emits unsaved (stage1_run E).
Proof.
  unfold stage1_run, stage1_enter, set_threshold. em; try (apply EmitsP.e_callback; intros; exact I); try apply unsaved_process; try apply unsaved_end;
    try exact I; try (apply Forall_cons; [exact I|apply Forall_nil]).
  apply Forall_forall. intros e He. apply in_map_iff in He as (y & <- & _). exact I.
Qed.
Theorem c105_saved : forall E s r s' new, env_ok E -> (forall cp, ~ resumes_from E s cp) -> run E s = (r, s') -> recorded s s' new ->
  tolerances_ok (s_o s) -> o_set (s_o s) = None \/ (zero_tol (s_o s) /\ forall s0, o_set (s_o s) = Some s0 -> numeric_set s0) ->
  (forall x, In (EvResult x) new -> number (ls_obj x) /\ not_excluded E (s_o s) x) ->
  descends E (s_o s) -> (forall v, seen_value E new v -> is_nan v = false) ->
  forall f cp, In (EvSave f cp) new -> good_checkpoint E cp.
Proof.
  intros E s r s' new HE Hres Hrun Hnew Ht Hset Hx Hd Hn f cp Hin.
  destruct (run_cases E s _ s' new Hrun Hnew) as [(-> & _ & _)|(b & s1 & Hst & Htr & Hr & Hcfg)]; [destruct Hin|].
  destruct b.
  { exfalso. inversion Hst; subst. eapply Hres. apply resumes_blank. unfold resumes_from. eauto 10. }
  assert (Ho : s_o s1 = s_o s) by (inversion Hst; reflexivity).
  unfold run_rest in Hr. unfold bind in Hr at 1.
  destruct (stage1_unsaved E s1) as (n1 & T1 & U1). rewrite Htr, app_nil_r in T1.
  pose proof (a_stage1 E (stage1_best E s1) None
    (fun r s2 => forall refs objs, r = Some (refs, objs) -> stage1_result E s1 s2 refs objs) s1
    (fun _ H => H) (fun _ _ _ H => H)) as [A1 W].
  assert (Hno : forall l, Forall unsaved l -> ~ In (EvSave f cp) l).
  { intros l Hl Hi. rewrite Forall_forall in Hl. exact (Hl _ Hi). }
  destruct (stage1_run E s1) as [r1 s2] eqn:E1. cbn [fst snd] in T1, A1, W. subst n1.
  destruct r1 as [[[refs objs]|]|e|].
  - specialize (W refs objs eq_refl).
    destruct (stage1_known E s1 _ s2 HE E1 Htr) as (cand & v & tr & x & n & G1 & G2 & G3 & G4 & G6 & G5).
    pose proof (a_stage2 E (candidate E false (s_o s2) refs) (Some objs) false refs 0 (fun _ _ => True) s2 (fun i p H => H) (fun r s' _ H => I)) as [W2 _].
    rewrite Hr in W2. cbn [fst snd] in W2. destruct (acts_trace _ _ _ _ _ W2) as [n2 N2]. change (new = n2 ++ trace s2) in N2.
    assert (Sub : forall w, seen_value E (trace s2) w -> seen_value E new w).
    { intros w (p & Hp & Hw). exists p. split; [|exact Hw]. rewrite N2, calls_app. apply in_or_app. right. exact Hp. }
    destruct (G5 (fun w Hw => Hn w (Sub w Hw))) as [Nv Hle]. rewrite Ho in G2, G4. pose proof (Hd cand tr x n v G2 G1 Nv) as D.
    assert (Hx2 : forall y, In (EvResult y) (trace s2) -> number (ls_obj y) /\ not_excluded E (s_o s) y).
    { intros y Hy. apply Hx. rewrite N2. apply in_or_app. right. exact Hy. }
    assert (Hs0 : forall s0, o_set (s_o s1) = Some s0 -> numeric_set s0).
    { rewrite Ho. destruct Hset as [Hset|[_ Hset]]; [congruence|exact Hset]. }
    assert (Ht1 : tolerances_ok (s_o s1)) by (rewrite Ho; exact Ht).
    destruct (acts_leader _ _ _ _ _ A1 Ht1 Hs0) as (na & Ta & L). rewrite Htr, app_nil_r in Ta. subst na.
    specialize (L (fun y Hy => proj1 (Hx2 y Hy))).
    assert (Lx : exists set2 w, o_set (s_o s2) = Some set2 /\ leads set2 w /\ fle w (ls_obj x) = true).
    { destruct Hset as [Hset|[Hz _]].
      - destruct (lo_last _ _ _ _ L [x] (G4 Hset (proj2 (Hx2 x G3)))) as (_ & (set2 & S1 & a & b & A & B & C) & _).
        destruct B as (y & rest & B1 & B2). injection B1 as <- <-. subst b. exists set2, a. auto.
      - destruct (lo_zero _ _ _ _ L) with (x := x) as (set2 & w & S1 & S2 & S3); [rewrite Ho; exact Hz|exact G3|rewrite Ho; apply (Hx2 x G3)|].
        exists set2, w. auto. }
    destruct Lx as (set2 & w & S1 & S2 & S3).
    assert (Hk : forall p, ~ candidate E false (s_o s2) refs None p) by (intros p (i & rs & Hi & _); discriminate Hi).
    assert (Href : o_ref (s_o s2) = Some refs) by (destruct W as (? & ? & ? & ? & _ & _ & _ & _ & W); exact W).
    refine (proj2 (good_saves E _ (Some objs) s2 (ends s' new) n2 refs set2 W2 Hk N2 (tol_config _ _ (acts_config _ _ _ _ _ A1) Ht1) S1
      (lo_numeric _ _ _ _ L set2 S1) Href _ _) f cp _ (Hno _ U1)).
    + intros y Hy. apply (Hx y). rewrite N2. apply in_or_app. left. exact Hy.
    + intros p u Hp Hu. exists w. split; [exact S2|]. eapply fle_trans; [exact S3|]. eapply fle_trans; [exact D|].
      apply Hle. exists p. split; [exact (G6 refs objs W p Hp)|exact Hu].
    + rewrite N2 in Hin. apply in_app_or in Hin as [Hin|Hin]; [exact Hin|]. destruct (Hno _ U1 Hin).
  - exfalso. assert (K : trace s2 = new).
    { unfold final_set, bind, the_oqnlp, get, ret in Hr. simpl in Hr. destruct (o_set (s_o s2)); injection Hr as _ Hr; rewrite Hr; reflexivity. }
    rewrite <- K in Hin. exact (Hno _ U1 Hin).
  - exfalso. injection Hr as _ Hr. rewrite Hr in U1. exact (Hno _ U1 Hin).
  - exfalso. injection Hr as _ Hr. rewrite Hr in U1. exact (Hno _ U1 Hin).
Qed.

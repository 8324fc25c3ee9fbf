(** * A concrete session, and a checker for the checkpoints it saves *)
From Coq Require Import ZArith NArith List Bool Arith Lia String Ascii.
From Verif Require Import F64 Base Builders Types Filters Runner Observer Env EnvSpec ScatterSearch Codec
  Checkpoint Oqnlp Spec SpecStage1 SpecStage2 SpecObserver SpecCheckpoint SpecPanic SpecSession Demo Demo2 CheckpointP DemoCp.
Import ListNotations.

Definition u64_okb (n : N) : bool := (n <? 2 ^ 64)%N.
Definition usize_okb (n : nat) : bool := u64_okb (N.of_nat n).
Definition opt_okb {A} (f : A -> bool) (o : option A) : bool := match o with Some a => f a | None => true end.
Definition listb {A} (f : A -> bool) (l : list A) : bool := usize_okb (List.length l) && forallb f l.
Definition ls_okb (l : line_search) : bool :=
  match l with
  | MoreThuente c1 c2 w b => wf c1 && wf c2 && wf w && point_okb b
  | HagerZhang d s e t g n b => wf d && wf s && wf e && wf t && wf g && wf n && point_okb b
  end.
Definition config_okb (c : solver_config) : bool :=
  match c with
  | CfgLBFGS it tg tc h l1 ls => u64_okb it && wf tg && wf tc && usize_okb h && opt_okb wf l1 && ls_okb ls
  | CfgNelderMead de sd it al ga rh si => wf de && wf sd && u64_okb it && wf al && wf ga && wf rh && wf si
  | CfgSteepestDescent it ls => u64_okb it && ls_okb ls
  | CfgTrustRegion _ it r mr eta => u64_okb it && wf r && wf mr && wf eta
  | CfgNewtonCG it cu to ls => u64_okb it && wf cu && wf to && ls_okb ls
  | CfgCOBYLA it st fr fa xr xa => u64_okb it && wf st && wf fr && wf fa && wf xr && point_okb xa
  end.
Definition params_okb (p : params) : bool :=
  usize_okb (p_iterations p) && usize_okb (p_population p) && usize_okb (p_wait_cycle p) &&
  wf (p_threshold_factor p) && wf (p_distance_factor p) && config_okb (p_solver_config p) && u64_okb (p_seed p).
Definition string_okb (s : string) : bool := usize_okb (String.length s) && valid_utf8 (str_bytes s).
Definition checkpoint_okb (c : checkpoint) : bool :=
  params_okb (cp_params c) && usize_okb (cp_iteration c) && wf (cp_threshold c) &&
  opt_okb (listb lsol_okb) (cp_solution_set c) && listb point_okb (cp_reference_set c) &&
  usize_okb (cp_unchanged c) && wf (cp_elapsed c) && listb lsol_okb (cp_df_solutions c) &&
  u64_okb (cp_seed c) && opt_okb wf (cp_target c) && opt_okb usize_okb (cp_batch c) &&
  wf (cp_abs_tol c) && wf (cp_rel_tol c) && string_okb (cp_timestamp c).
Ltac ands := repeat match goal with H : _ && _ = true |- _ => apply andb_prop in H; destruct H end.
Lemma opt_okb_ok A (f : A -> bool) (P : A -> Prop) o : (forall a, f a = true -> P a) -> opt_okb f o = true -> option_ok P o.
Proof. intros H. destruct o; [apply H|intros _; exact I]. Qed.
Lemma listb_ok A (f : A -> bool) (P : A -> Prop) l : (forall a, f a = true -> P a) -> listb f l = true -> list_ok P l.
Proof. intros H. apply list_okb. exact H. Qed.
Lemma ls_okb_ok l : ls_okb l = true -> ls_ok l.
Proof.
  destruct l; cbn [ls_okb ls_ok]; intros H; ands; repeat (split; [assumption|]); apply point_okb_ok; assumption.
Qed.
Lemma config_okb_ok c : config_okb c = true -> config_ok c.
Proof.
  destruct c; cbn [config_okb config_ok]; intros H; ands;
    repeat split; auto using ls_okb_ok, point_okb_ok, small, small_n;
    try (apply (opt_okb_ok _ wf); auto); try (apply point_okb_ok; assumption).
Qed.
Lemma params_okb_ok p : params_okb p = true -> params_ok p.
Proof.
  unfold params_okb, params_ok. intros H. ands. split; [apply small; assumption|]. split; [apply small; assumption|].
  split; [apply small; assumption|]. split; [assumption|]. split; [assumption|]. split; [apply config_okb_ok; assumption|apply small_n; assumption].
Qed.
Lemma checkpoint_okb_ok c : checkpoint_okb c = true -> checkpoint_ok c.
Proof.
  unfold checkpoint_okb, checkpoint_ok. intros H. ands.
  split; [apply params_okb_ok; assumption|]. split; [apply small; assumption|]. split; [assumption|].
  split; [apply (opt_okb_ok _ (listb lsol_okb)); [intros a; apply listb_ok; exact lsol_okb_ok|assumption]|].
  split; [apply (listb_ok _ point_okb); [exact point_okb_ok|assumption]|]. split; [apply small; assumption|]. split; [assumption|].
  split; [apply (listb_ok _ lsol_okb); [exact lsol_okb_ok|assumption]|]. split; [apply small_n; assumption|].
  split; [apply (opt_okb_ok _ wf); auto|]. split; [apply (opt_okb_ok _ usize_okb); [exact small|assumption]|].
  split; [assumption|]. split; [assumption|].
  match goal with H : string_okb _ = true |- _ => unfold string_okb in H; apply andb_prop in H as [Ha Hb] end.
  split; [apply small; exact Ha|exact Hb].
Qed.
Definition saves_okb (s : st) : bool :=
  forallb (fun e => match e with EvSave _ cp => checkpoint_okb cp | _ => true end) (w_trace (s_w s)).
Lemma saves_okb_fit s : saves_okb s = true -> saves_fit s.
Proof.
  intros H f cp I'. unfold saves_okb in H. rewrite forallb_forall in H. specialize (H _ I'). apply checkpoint_okb_ok. exact H.
Qed.

(** ** The session: a run that saves each iteration, a second optimizer that resumes with a
    larger population, more iterations and another wait cycle, and its run *)
Definition more_params : params := mk_params 8 10 2 (of_Z 20) (p_distance_factor demo_params) COBYLA (cb_build cb_default) 3.
Definition st_b : st := snd (with_checkpointing wells_env (mk_cpc "demo" 1 true false) (start_state (with_tolerance f0 lit_1e_8 (sequential demo_oqnlp)))).
Definition st_c : st := snd (run wells_env st_b).
Definition st_d : st := snd (with_checkpointing wells_env (mk_cpc "demo" 1 true false) (mk_st demo_oqnlp (s_w st_c))).
Definition st_e : st := snd (resume_with_modified_params wells_env more_params st_d).
Definition st_f : st := snd (run wells_env st_e).
Definition demo_calls : list (env * call) :=
  map (fun c => (wells_env, c))
    [CRun; CResumeWith more_params; CCheckpointing (mk_cpc "demo" 1 true false);
     CNew demo_params; CRun; CCheckpointing (mk_cpc "demo" 1 true false); CTolerance false f0 lit_1e_8; CParallel false].
Lemma demo_session : session demo_calls (start_state demo_oqnlp) st_f.
Proof.
  unfold demo_calls, map.
  apply SStep with (s1 := st_e); [|eapply DRun, surjective_pairing].
  apply SStep with (s1 := st_d); [|eapply DResumeWith, surjective_pairing].
  apply SStep with (s1 := mk_st demo_oqnlp (s_w st_c)); [|eapply DCheckpointing, surjective_pairing].
  apply SStep with (s1 := st_c); [|apply DNew; reflexivity].
  apply SStep with (s1 := st_b); [|eapply DRun, surjective_pairing].
  apply SStep with (s1 := start_state (with_tolerance f0 lit_1e_8 (sequential demo_oqnlp))); [|eapply DCheckpointing, surjective_pairing].
  apply SStep with (s1 := start_state (sequential demo_oqnlp)); [|exact (DTolerance wells_env f0 lit_1e_8 (start_state (sequential demo_oqnlp)))].
  apply SStep with (s1 := start_state demo_oqnlp); [apply SNil|exact (DParallel wells_env false (start_state demo_oqnlp))].
Qed.
Lemma demo_begins : begins demo_params (start_state demo_oqnlp).
Proof. split; [reflexivity|]. split; [reflexivity|]. intros f b cp []. Qed.
Lemma demo_fit : saves_fit st_f.
Proof. apply saves_okb_fit. vm_compute. reflexivity. Qed.
Lemma wells_tame : tame_env two_wells wells_env.
Proof.
  split; [reflexivity|]. split; [apply demo_env_ok|]. split; [intros n o; split; reflexivity|]. split.
  - intros j x c n H. discriminate H.
  - intros j x c n H. change (cobyla_run to_well j = XDone x c n) in H. unfold to_well in H. cbn [cobyla_run] in H.
    destruct (cj_x0 j) as [|y [|z q]]; [discriminate H| |discriminate H]. inversion H. reflexivity.
Qed.
Lemma wells_finite : Forall finite_bound (pb_bounds two_wells).
Proof. constructor; [|constructor]. repeat split. Qed.
(** ** Witnesses *)
(** a line search with one bound *)
Definition one_bound : solver_config :=
  CfgLBFGS 100 (lit 1 10000) (lit 1 10000) 5 None (MoreThuente (lit 1 10000) (lit 9 10) (lit 1 10000000000) [f0]).
Definition one_bound_params : params := mk_params 6 6 1 (of_Z 20) (lit 75 100) LBFGS one_bound 3.
(** a local solver that finds a minimum that is higher by 1e-8 on the right side *)
Definition uneven : ext :=
  mk_ext (fun _ => true) (fun _ _ => XFail 1%N)
    (fun j => match cj_x0 j with
              | [x] => if flt x f0 then XDone [of_Z (-2)] f0 3%N else XDone [of_Z 2] lit_1e_8 3%N
              | _ => XFail 2%N
              end).
Definition uneven_env : env := demo_env two_wells uneven.
Definition wide_params : params := mk_params 6 6 1 (of_Z 20) (of_Z 5) COBYLA (cb_build cb_default) 3.
Lemma does_tolerance E a r s b : has_set (s_o s) = b ->
  does E (CTolerance b a r) s (mk_st (with_tolerance a r (s_o s)) (s_w s)).
Proof. intros <-. apply DTolerance. Qed.
(** a run, and tighter tolerances afterwards *)
Definition tight_calls : list (env * call) := [(uneven_env, CTolerance true f0 f0); (uneven_env, CRun)].
Definition tight_before : st := snd (run uneven_env (start_state demo_oqnlp)).
Definition tight_st : st := mk_st (with_tolerance f0 f0 (s_o tight_before)) (s_w tight_before).
Lemma tight_session : session tight_calls (start_state demo_oqnlp) tight_st.
Proof.
  apply SStep with (s1 := tight_before).
  - apply SStep with (s1 := start_state demo_oqnlp); [apply SNil|eapply DRun, surjective_pairing].
  - apply does_tolerance. vm_compute. reflexivity.
Qed.
Lemma tight_facts : saves_fit tight_st /\ o_set (s_o tight_st) = Some [sol1 (of_Z (-2)) f0; sol1 f2 lit_1e_8] /\
  o_abs_tol (s_o tight_st) = f0 /\ o_rel_tol (s_o tight_st) = f0.
Proof. split; [apply saves_okb_fit; vm_compute; reflexivity|]. split; [vm_compute; reflexivity|]. split; reflexivity. Qed.
(** a run, and a resumption with a larger distance factor *)
Definition keep_files : cp_config := mk_cpc "demo" 1 true false.
Definition wide_calls : list (env * call) := map (fun x => (wells_env, x)) [CResumeWith wide_params; CRun; CCheckpointing keep_files].
Definition wide_1 : st := snd (with_checkpointing wells_env keep_files (start_state demo_oqnlp)).
Definition wide_2 : st := snd (run wells_env wide_1).
Definition wide_st : st := snd (resume_with_modified_params wells_env wide_params wide_2).
Lemma wide_session : session wide_calls (start_state demo_oqnlp) wide_st.
Proof.
  apply SStep with (s1 := wide_2); [|eapply DResumeWith, surjective_pairing].
  apply SStep with (s1 := wide_1); [|eapply DRun, surjective_pairing].
  apply SStep with (s1 := start_state demo_oqnlp); [apply SNil|eapply DCheckpointing, surjective_pairing].
Qed.
Lemma wide_facts : saves_fit wide_st /\ o_set (s_o wide_st) = Some [sol1 (of_Z (-2)) f0; sol1 f2 f0] /\
  p_distance_factor (o_params (s_o wide_st)) = of_Z 5.
Proof. split; [apply saves_okb_fit; vm_compute; reflexivity|]. split; vm_compute; reflexivity. Qed.

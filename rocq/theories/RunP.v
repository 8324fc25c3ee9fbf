(** * Executions of the driver as sequences of actions *)
From Coq Require Import ZArith NArith List Bool Arith Lia String.
From Verif Require Import F64 Base Builders Types Filters Runner Observer Env ScatterSearch
  Codec Checkpoint Oqnlp Wp Actions.
Import ListNotations.

(** ** What no action changes *)
Definition same_config (o o' : oqnlp) : Prop :=
  o_params o' = o_params o /\ o_solver_type o' = o_solver_type o /\
  o_solver_config o' = o_solver_config o /\ o_max_time o' = o_max_time o /\
  o_batch o' = o_batch o /\ o_parallel o' = o_parallel o /\ o_target o' = o_target o /\
  o_exclude o' = o_exclude o /\ o_cp o' = o_cp o /\ o_custom o' = o_custom o /\
  o_abs_tol o' = o_abs_tol o /\ o_rel_tol o' = o_rel_tol o /\
  df_params (o_df o') = df_params (o_df o).
Lemma same_config_refl : forall o, same_config o o.
Proof. repeat split. Qed.
Lemma same_config_trans : forall a b c, same_config a b -> same_config b c -> same_config a c.
Proof. unfold same_config; intuition congruence. Qed.

(** the possible effects of processing a local solution *)
Lemma pls_cases : forall E sol s,
  let o := s_o s in
  let s' := snd (process_local_solution E sol s) in
  let filtered o := set_o_df (df_add (o_df o) sol) o in
  let b := pb_bounds (e_problem E) in
  (* stopped by a panic *)
  (s' = s /\ fst (process_local_solution E sol s) = Panic /\
   ((o_exclude o = true /\ within_bounds b (ls_point sol) = None) \/ o_set o = Some []))
  (* rejected: out of bounds *)
  \/ (o_exclude o = true /\ within_bounds b (ls_point sol) = Some false /\
      s' = mk_st (filtered o) (s_w (noted (EvResult sol) s)) /\
      fst (process_local_solution E sol s) = Ok false)
  \/ ((o_exclude o = false \/ within_bounds b (ls_point sol) = Some true) /\
      (* first solution *)
      ((o_set o = None /\
        s' = changed filtered (noted (EvThreshold (ls_obj sol)) (changed (fun o => set_o_merit (mf_update (o_merit o) (ls_obj sol)) o)
               (noted (EvSolutionSet [sol]) (changed (set_o_set (Some [sol])) (noted (EvResult sol) s))))) /\
        fst (process_local_solution E sol s) = Ok true)
       \/ exists cur rest, o_set o = Some (cur :: rest) /\
          let tol := tol_of (o_abs_tol o) (o_rel_tol o) (ls_obj sol) (ls_obj cur) in
          (* better: replaces the set *)
          ((flt (ls_obj sol) (fsub (ls_obj cur) tol) = true /\
            fst (process_local_solution E sol s) = Ok false /\
            exists ob,
            s' = changed filtered (changed (set_o_observer ob) (noted (EvThreshold (ls_obj sol))
                   (changed (fun o => set_o_merit (mf_update (o_merit o) (ls_obj sol)) o)
                   (noted (EvSolutionSet [sol]) (changed (set_o_set (Some [sol])) (noted (EvResult sol) s)))))))
           (* similar: appended *)
           \/ (flt (ls_obj sol) (fsub (ls_obj cur) tol) = false /\
               fle (fabs (fsub (ls_obj sol) (ls_obj cur))) tol = true /\
               is_duplicate (p_distance_factor (o_params o)) (ls_point sol) (cur :: rest) = false /\
               fst (process_local_solution E sol s) = Ok true /\
               exists ob,
               s' = changed filtered (changed (set_o_observer ob)
                      (noted (EvSolutionSet ((cur :: rest) ++ [sol]))
                        (changed (set_o_set (Some ((cur :: rest) ++ [sol]))) (noted (EvResult sol) s)))))
           (* dropped *)
           \/ (flt (ls_obj sol) (fsub (ls_obj cur) tol) = false /\
               (fle (fabs (fsub (ls_obj sol) (ls_obj cur))) tol = false \/
                is_duplicate (p_distance_factor (o_params o)) (ls_point sol) (cur :: rest) = true) /\
               fst (process_local_solution E sol s) = Ok false /\
               s' = changed filtered (noted (EvResult sol) s))))).
Proof.
  intros E sol [o [d t tr]]. cbv zeta. cbn [s_o].
  unfold process_local_solution, bind, the_oqnlp, get, ret, emit, modify, unwrap, add_to_filter,
    upd, panic, set_solutions, set_threshold, obs, noted, changed, trace, bind, modify, emit, upd.
  cbn [s_o s_w fst snd w_disk w_tick w_trace rev app].
  destruct (o_exclude o) eqn:Ex.
  1: destruct (within_bounds (pb_bounds (e_problem E)) (ls_point sol)) as [[|]|] eqn:Wb;
     cbn [negb fst snd s_o s_w]; [| right; left; auto | left; auto].
  all: cbn [negb fst snd s_o s_w]; (destruct (o_set o) as [[|cur rest]|] eqn:Es;
     cbn [fst snd s_o s_w rev app w_disk w_tick w_trace]; [left; auto | | right; right; auto]).
  all: right; right; split; auto; right; exists cur, rest; split; auto.
  all: destruct (flt _ _) eqn:Hl; cbn [negb fst snd s_o s_w w_disk w_tick w_trace];
    [left; split; [auto|split;[auto|eexists; reflexivity]]|].
  all: destruct (fle (fabs (fsub (ls_obj sol) (ls_obj cur)))
                     (tol_of (o_abs_tol o) (o_rel_tol o) (ls_obj sol) (ls_obj cur))) eqn:Hd; cbn [andb];
    [|right; right; auto 10].
  all: destruct (is_duplicate (p_distance_factor (o_params o)) (ls_point sol) (cur :: rest)) eqn:Hu;
    cbn [negb fst snd s_o s_w w_disk w_tick w_trace]; [right; right; auto 10|].
  all: right; left; split; [auto|split;[auto|split;[auto|split;[auto|eexists; reflexivity]]]].
Qed.

Lemma act_config : forall E K objs s s', act E K objs s s' -> same_config (s_o s) (s_o s').
Proof.
  intros E K objs s s' H; destruct H; try (repeat split; fail).
  destruct (pls_cases E sol s) as [[-> _]|[[_ [_ [-> _]]]|[_ [[_ [-> _]]|
    [cur [rest [_ [[_ [_ [ob ->]]]|[[_ [_ [_ [_ [ob ->]]]]]|[_ [_ [_ ->]]]]]]]]]]]];
  repeat split.
Qed.
Lemma acts_config : forall E K objs s s', acts E K objs s s' -> same_config (s_o s) (s_o s').
Proof.
  intros E K objs s s' H; induction H; [apply same_config_refl|].
  eapply same_config_trans; eauto using act_config.
Qed.

(** ** Parallel collect *)
Lemma par_collect_ok : forall A pick (l : list (outcome oq_error A)) vs,
  par_collect pick l = Ok vs -> l = map Ok vs.
Proof.
  intros A pick l vs. unfold par_collect. destruct (existsb oc_panic l) eqn:Hp; [discriminate|].
  destruct (oc_errs l) eqn:He; [|discriminate]. intro H; injection H as <-.
  induction l as [|[a|e|] l IH]; simpl in *; auto; try discriminate.
  f_equal; auto.
Qed.

Ltac tr :=
  first [ eassumption | apply Rrefl
        | multimatch goal with
          | H : acts _ _ _ ?a ?b |- acts _ _ _ _ ?b => eapply Rtrans; [|exact H]; clear H; tr
          end ].

Section Run.
Context (E : env) (K : option nat -> point -> Prop) (objs : option (list f64)).
Notation R := (acts E K objs).

Lemma sr_acts : forall s s' p sol, R s s' -> solver_result E (s_o s) p sol -> solver_result E (s_o s') p sol.
Proof.
  intros s s' p sol H (ty & cfg & track & n & H1 & H2). apply acts_config in H.
  destruct H as (Hp & Ht & Hc & _). exists ty, cfg, track, n. split; auto. rewrite Hp, Ht, Hc. auto.
Qed.


Lemma a_callback : forall iter (Q : unit -> st -> Prop) s,
  (forall s', R s s' -> Q tt s') -> wpa E K objs (callback E iter) Q s.
Proof.
  intros iter Q s H. unfold callback. go. destruct (o_observer (s_o s)) as [ob|]; go; try (apply H; tr).
  destruct (ob_callback ob); go; try (apply H; tr).
  destruct (invoke_callback (e_callback E) ob) as [ob' msgs]. go.
  apply a_notes; [simpl; rewrite forallb_forall; intros x Hx; apply in_map_iff in Hx as [? [<- _]]; reflexivity|].
  intros s' H1 _ _. go.
  assert (R s' (snd (upd (set_o_observer (Some ob')) s'))) by (apply star_one, ActObserver).
  split; auto. apply H. tr.
Qed.
Lemma a_callback_at : forall iter (Q : unit -> st -> Prop) s,
  (forall s', R s s' -> Q tt s') -> wpa E K objs (callback_at E iter) Q s.
Proof.
  intros iter Q s H. unfold callback_at. go. destruct (o_observer (s_o s)) as [ob|]; go; try (apply H; tr).
  destruct (should_invoke_callback ob iter) as [[|]|]; go; try (apply H; tr).
  apply a_callback; auto.
Qed.

(** disk operations that do not change the files *)
Definition reads {A} (m : DM A) : Prop := forall d, d_files (snd (m d)) = d_files d.
Lemma reads_ret : forall A (a : A), reads (ret a). Proof. repeat intro; reflexivity. Qed.
Lemma reads_fail : forall A e, reads (@fail _ _ A e). Proof. repeat intro; reflexivity. Qed.
Lemma reads_bind : forall A B (m : DM A) (k : A -> DM B),
  reads m -> (forall a, reads (k a)) -> reads (bind m k).
Proof.
  intros A B m k H1 H2 d. unfold bind. specialize (H1 d). destruct (m d) as [[a|e|] d'] eqn:Em; simpl in *; auto.
  rewrite (H2 a d'). auto.
Qed.
Lemma reads_next : reads (next_io E). Proof. repeat intro; reflexivity. Qed.
Lemma reads_get : reads get. Proof. repeat intro; reflexivity. Qed.
Lemma reads_of_result : forall A r, @reads A (of_result r). Proof. repeat intro; reflexivity. Qed.
Lemma reads_find : forall c, reads (find_latest E c).
Proof.
  intro c. unfold find_latest, fs_read_dir. apply reads_bind; [|intro].
  - apply reads_bind; [apply reads_next|]. intros [| |]; try apply reads_fail.
    apply reads_bind; [apply reads_get|]. intro. apply reads_ret.
  - apply reads_bind; [apply reads_of_result|]. intros [f|]; [apply reads_ret | apply reads_fail].
Qed.
Lemma reads_load : forall f, reads (load_from_path E f).
Proof.
  intro f. unfold load_from_path. apply reads_bind; [apply reads_get|]. intro d.
  destruct (lookup f (d_files d)); [|apply reads_fail]. apply reads_bind; [apply reads_next|].
  intros [| |]; try apply reads_fail. destruct (decode_checkpoint b); [apply reads_ret|apply reads_fail].
Qed.
Lemma reads_exists : forall c, reads (checkpoint_exists E c).
Proof.
  intros c d. unfold checkpoint_exists. destruct (cc_keep_all c); [|reflexivity].
  pose proof (reads_find c d) as H. destruct (find_latest E c d) as [[a|e|] d']; auto.
Qed.
Lemma reads_load_latest : forall c, reads (load_latest E c).
Proof.
  intro c. unfold load_latest. apply reads_bind; [|intro; apply reads_load].
  destruct (cc_keep_all c); [apply reads_find | apply reads_ret].
Qed.
Lemma on_disk_state : forall A (m : DM A) s, snd (on_disk m s) = with_disk (snd (m (w_disk (s_w s)))) s.
Proof. intros A m s. unfold on_disk. destruct (m (w_disk (s_w s))) as [[a|e|] d]; reflexivity. Qed.
Lemma a_read : forall A (m : DM A) (Q : A -> st -> Prop) s, reads m ->
  (forall a s', R s s' -> s_o s' = s_o s -> s' = with_disk (snd (m (w_disk (s_w s)))) s ->
     fst (m (w_disk (s_w s))) = Ok a -> Q a s') ->
  wpa E K objs (on_disk m) Q s.
Proof.
  intros A m Q s Hr H.
  assert (HR : R s (snd (on_disk m s))) by (rewrite on_disk_state; apply star_one, ActIo, Hr).
  pose proof (on_disk_state A m s) as Hs.
  split; auto. unfold on_disk in *. destruct (m (w_disk (s_w s))) as [[a|e|] d] eqn:Em; simpl; auto.
Qed.

Lemma a_create : forall (Q : checkpoint -> st -> Prop) s,
  (forall cp s', R s s' -> s_o s' = s_o s -> snapshot (s_o s') cp -> trace s' = trace s -> Q cp s') ->
  wpa E K objs (create_checkpoint E) Q s.
Proof.
  intros Q s H. unfold create_checkpoint. go. apply H; auto. repeat split.
Qed.
Lemma a_save : forall c (Q : unit -> st -> Prop) s, o_cp (s_o s) = Some c ->
  (forall s', R s s' -> Q tt s') -> wpa E K objs (save_now E c) Q s.
Proof.
  intros c Q s Hc H. unfold save_now. go. apply a_create. intros cp s1 R1 O1 Sn T1. go.
  apply a_emit.
  - intros e s2 [<-|[]] O2 _. apply ActSave. rewrite O2. auto.
  - intros s2 R2 O2 T2. go.
    assert (HW : R s2 (snd (on_disk (save_checkpoint E c cp (o_iteration (s_o s1))) s2))).
    { rewrite on_disk_state. apply star_one. eapply ActWrite; [| |reflexivity].
      - rewrite T2. left; auto.
      - rewrite O2, O1. exact Hc. }
    split; auto. destruct (fst _); auto. intros _ _. go.
    apply H. tr.
Qed.
Lemma a_maybe_save : forall (Q : unit -> st -> Prop) s,
  (forall s', R s s' -> Q tt s') -> wpa E K objs (maybe_save_checkpoint E) Q s.
Proof.
  intros Q s H. unfold maybe_save_checkpoint. go. destruct (o_cp (s_o s)) as [c|] eqn:Hc; go; try (apply H; tr).
  destruct (cc_save_frequency c); go. destruct (_ =? 0); go; try (apply H; tr). apply a_save; auto.
Qed.
Lemma a_final_save : forall (Q : unit -> st -> Prop) s,
  (forall s', R s s' -> Q tt s') -> wpa E K objs (maybe_save_final_checkpoint E) Q s.
Proof.
  intros Q s H. unfold maybe_save_final_checkpoint. go. destruct (o_cp (s_o s)) as [c|] eqn:Hc; go; try (apply H; tr).
  apply a_save; auto.
Qed.

(** an update of progress fields *)
Lemma a_upd : forall f (Q : unit -> st -> Prop) s, act E K objs s (changed f s) ->
  (forall s', R s s' -> s_o s' = f (s_o s) -> Q tt s') -> wpa E K objs (upd f) Q s.
Proof.
  intros f Q s Ha H. assert (R s (snd (upd f s))) by (apply star_one; exact Ha).
  split; auto. apply H; auto.
Qed.
Lemma progress_unchanged : forall iter u o,
  set_o_unchanged u (set_o_iteration iter o) = set_o_seed (o_seed o) (set_o_unchanged u (set_o_iteration iter o)).
Proof. intros iter u []; reflexivity. Qed.
Lemma progress_seed : forall sd o,
  set_o_seed sd o = set_o_seed sd (set_o_unchanged (o_unchanged o) (set_o_iteration (o_iteration o) o)).
Proof. intros iter []; reflexivity. Qed.
Lemma a_begin : forall iter p u (Q : unit -> st -> Prop) s, K (Some iter) p ->
  (forall s', R s s' -> Q tt s') -> wpa E K objs (begin_iteration E iter u) Q s.
Proof.
  intros iter p u Q s Hk H. unfold begin_iteration. go. apply a_upd.
  { unfold changed. rewrite progress_unchanged. apply (ActProgress E K objs s iter u (o_seed (s_o s))). }
  intros s1 R1 O1. go. apply a_upd.
  { unfold changed. rewrite progress_seed. apply (ActProgress E K objs s1). }
  intros s2 R2 O2. go. apply a_emit; [intros e s3 [<-|[]] _ _; eapply ActIteration; eauto|].
  intros s3 R3 _ _. apply H. tr.
Qed.
Lemma a_obs_iteration : forall iter u (Q : unit -> st -> Prop) s,
  (forall s', R s s' -> Q tt s') -> wpa E K objs (obs_iteration iter u) Q s.
Proof. intros iter u Q s H. unfold obs_iteration. go. auto. Qed.
Lemma a_obs_search : forall a n (Q : unit -> st -> Prop) s,
  (forall s', R s s' -> Q tt s') -> wpa E K objs (obs_search a n) Q s.
Proof. intros a n Q s H. unfold obs_search. go. auto. Qed.
Lemma a_count : forall u (Q : nat -> st -> Prop) s,
  (forall u s', R s s' -> Q u s') -> wpa E K objs (count_unchanged u) Q s.
Proof. intros u Q s H. unfold count_unchanged. go. destruct (_ <=? _); go; apply H; tr. Qed.

Ltac go2 :=
  repeat first
   [ go1
   | match goal with
     | |- wpa _ _ _ (callback _ _) _ _ => apply a_callback; intros
     | |- wpa _ _ _ (callback_at _ _) _ _ => apply a_callback_at; intros
     | |- wpa _ _ _ (maybe_save_checkpoint _) _ _ => apply a_maybe_save; intros
     | |- wpa _ _ _ (maybe_save_final_checkpoint _) _ _ => apply a_final_save; intros
     | Hk : K (Some ?iter) ?p |- wpa _ _ _ (begin_iteration _ ?iter _) _ _ => apply (a_begin _ _ _ _ _ Hk); intros
     | |- wpa _ _ _ (obs_iteration _ _) _ _ => apply a_obs_iteration; intros
     | |- wpa _ _ _ (obs_search _ _) _ _ => apply a_obs_search; intros
     | |- wpa _ _ _ (count_unchanged _) _ _ => apply a_count; intros
     end ].

Lemma a_emit_eval : forall iter p (Q : unit -> st -> Prop) s, K (Some iter) p ->
  (forall s', R s s' -> Q tt s') -> wpa E K objs (emit_eval objs iter p) Q s.
Proof.
  intros iter p Q s Hk H. unfold emit_eval. destruct objs as [l|] eqn:Ho; go; [apply H; constructor|].
  apply a_emit; [intros e s3 [<-|[]] _ _; apply ActObjective; auto|]. auto.
Qed.

Lemma a_count_eval : forall n (Q : unit -> st -> Prop) s,
  (forall s', R s s' -> Q tt s') ->
  wpa E K objs (match objs with None => obs (upd_stage2 (s2_add_evals n)) | Some _ => ret tt end) Q s.
Proof. intros n Q s H. destruct objs; go; apply H; tr. Qed.

Lemma a_one_seq : forall iter p u (Q : nat * bool -> st -> Prop) s, K (Some iter) p ->
  (forall r s', R s s' -> Q r s') -> wpa E K objs (process_one_seq E objs iter p u) Q s.
Proof.
  intros iter p u Q s Hk H. unfold process_one_seq. go2.
  apply a_emit_eval; auto; intros s2 R2. go2.
  apply a_count_eval; intros s3 R3. go2.
  apply a_emit.
  { intros e s4 [<-|[]] O4 _. rewrite <- O4. apply ActDecide; auto. }
  intros s4 R4 O4 T4. go2.
  apply a_conseq with (Q := fun _ s' => R s4 s'); [|].
  - destruct (should_start_local (s_o s3) p a) eqn:Hgo; go2.
    + apply a_emit.
      { intros e s6 [<-|[]] O6 [n6 T6]. eapply ActSearch2. rewrite T6. apply in_or_app; right.
        eapply acts_in; [eassumption|]. rewrite T4. left; reflexivity. }
      intros s6 R6 O6 T6. go2.
      eapply a_process; [eassumption|..].
      { rewrite T6. left; reflexivity. }
      { exists (o_solver_type (s_o s3)), (o_solver_config (s_o s3)), (observes2 (s_o s3)), (snd a0).
        split; [match goal with Hs : solve_tracked _ _ _ _ _ = Ok _ |- _ => rewrite Hs end;
                destruct a0; reflexivity|]. left.
        assert (C : same_config (s_o s3) (s_o s6)).
        { eapply same_config_trans; [|apply (acts_config E K objs s4 s6); tr].
          rewrite O4. apply same_config_refl. }
        destruct C as (_ & -> & -> & _). auto. }
      intros b s7 R7. go2. tr.
    + tr.
  - intros [u' stop] s8 R8 R8'. go2. destruct stop; go2; apply H; tr.
Qed.

Lemma a_batch_seq : forall start resumed batch u (Q : nat -> st -> Prop) s,
  Forall (fun b => K (Some (fst b)) (snd b)) batch ->
  (forall r s', R s s' -> Q r s') -> wpa E K objs (process_batch_sequential E start resumed objs batch u) Q s.
Proof.
  intros start resumed batch; induction batch as [|[iter p] rest IH]; intros u Q s Hb H; simpl; go.
  - apply H; tr.
  - pose proof (Forall_inv Hb) as Hk; apply Forall_inv_tail in Hb; simpl in Hk.
    destruct (resumed && (iter <? start)); [apply IH; auto|]. go. apply a_one_seq; auto. intros [u' stop] s' R1. go.
    destruct stop; go; [apply H; tr|]. apply IH; auto. intros. apply H; tr.
Qed.
Lemma a_quicks : forall l u (Q : nat -> st -> Prop) s,
  Forall (fun c => K (Some (fst (fst c))) (snd (fst c))) l ->
  (forall r s', R s s' -> Q r s') -> wpa E K objs (process_quicks E l u) Q s.
Proof.
  induction l as [|[[iter p] obj] l IH]; intros u Q s Hl H; simpl; go; [apply H; tr|].
  pose proof (Forall_inv Hl) as Hk; apply Forall_inv_tail in Hl; simpl in Hk.
  unfold process_quick. go2. apply IH; auto. intros. apply H; tr.
Qed.
Lemma a_par_results : forall l u (Q : unit -> st -> Prop) s,
  Forall (fun r => match r with (iter, p, _, (sol, _)) => K (Some iter) p /\
            In (EvSearch (Some iter) p) (trace s) /\ solver_result E (s_o s) p sol end) l ->
  (forall r s', R s s' -> Q r s') -> wpa E K objs (process_par_results E l u) Q s.
Proof.
  induction l as [|[[[iter p] obj] [sol n]] l IH]; intros u Q s Hl H; simpl; go; [apply H; tr|].
  pose proof (Forall_inv Hl) as [Hk [Hi Hs]]; pose proof (Forall_inv_tail Hl) as Hl'.
  unfold process_par_result. go2.
  match goal with |- wpa _ _ _ _ _ ?x => assert (Rx : R s x) by tr end.
  eapply a_process; [eassumption | eapply acts_in; [exact Rx | exact Hi] | eapply sr_acts; [exact Rx | exact Hs] |].
  intros b s2 R2. go2.
  destruct a; go2; [apply H; tr|]. apply IH; [|intros; apply H; tr].
  match goal with |- Forall _ l => rename Hl' into Hf end.
  eapply Forall_impl; [|exact Hf]. intros [[[i2 p2] o2] [sol2 n2]] [A0 [A B]]. split; [exact A0|].
  match goal with |- In _ (trace ?x) /\ _ => assert (Ry : R s x) by tr end.
  split; [eapply acts_in; [exact Ry|exact A] | eapply sr_acts; [exact Ry|exact B]].
Qed.
Lemma a_singles : forall l u (Q : unit -> st -> Prop) s,
  Forall (fun c => match c with (iter, p, _) => K (Some iter) p /\ exists obj o, In (EvDecide iter p obj o true) (trace s) end) l ->
  (forall r s', R s s' -> Q r s') -> wpa E K objs (process_singles E l u) Q s.
Proof.
  induction l as [|[[iter p] obj] l IH]; intros u Q s Hl H; simpl; go; [apply H; tr|].
  pose proof (Forall_inv Hl) as (Hk & ob & o & Hi); pose proof (Forall_inv_tail Hl) as Hl'.
  unfold process_single. go2.
  match goal with |- wpa _ _ _ _ _ ?x => assert (Rx : R s x) by tr; set (s1 := x) in * end.
  apply a_emit.
  { intros e s2 [<-|[]] O2 [n2 T2]. eapply ActSearch2. rewrite T2. apply in_or_app; right.
    eapply acts_in; [exact Rx|exact Hi]. }
  intros s2 R2 O2 T2. go2. eapply a_process.
  { eassumption. }
  { rewrite T2. left; reflexivity. }
  { exists (o_solver_type (s_o s1)), (o_solver_config (s_o s1)), (observes2 (s_o s1)), (snd a).
    split; [match goal with Hs : solve_tracked _ _ _ _ _ = Ok _ |- _ => rewrite Hs end;
            destruct a; reflexivity|]. left. rewrite O2. auto. }
  intros b s3 R3. go2. destruct a0; go2; [apply H; tr|]. apply IH; [|intros; apply H; tr].
  eapply Forall_impl; [|exact Hl']. intros [[i2 p2] o2'] (A0 & ob2 & o2 & A). split; [exact A0|]. exists ob2, o2.
  match goal with |- In _ (trace ?x) => assert (Ry : R s x) by tr end.
  eapply acts_in; [exact Ry|exact A].
Qed.
Lemma partition_filter : forall A (f : A -> bool) l,
  partition f l = (filter f l, filter (fun x => negb (f x)) l).
Proof.
  induction l as [|a l IH]; simpl; auto. rewrite IH. destruct (f a); reflexivity.
Qed.
Lemma a_batch_par : forall start resumed batch u (Q : nat -> st -> Prop) s,
  Forall (fun b => K (Some (fst b)) (snd b)) batch ->
  (forall r s', R s s' -> Q r s') -> wpa E K objs (process_batch_parallel E start resumed objs batch u) Q s.
Proof.
  intros start resumed batch u Q s Hb H. unfold process_batch_parallel.
  set (fb := if resumed then _ else batch).
  assert (Hfb : Forall (fun b => K (Some (fst b)) (snd b)) fb).
  { unfold fb. destruct resumed; auto. apply Forall_forall. intros x Hx. apply filter_In in Hx as [Hx _].
    rewrite Forall_forall in Hb; auto. }
  clearbody fb. rewrite Forall_forall in Hfb.
  destruct (match fb with [] => true | _ => false end); go; [apply H; tr|].
  apply a_conseq with (Q := fun _ s' => R s s').
  { destruct objs as [l|] eqn:Ho; go; [tr|]. apply a_emit; [|intros; auto].
    intros x s1 Hx _ _. apply in_map_iff in Hx as [? [<- Hx]]. apply ActObjective; auto. }
  intros [] s1 _ R1. go2. apply a_count_eval. intros s2 R2. go2.
  set (passes := fun c : nat * point * f64 => should_start_local (s_o s2) (snd (fst c)) (snd c)).
  rewrite partition_filter. go2.
  assert (Ha : forall c, In c a -> K (Some (fst (fst c))) (snd (fst c)) /\
                 cand_objective E objs (fst (fst c)) (snd (fst c)) = Ok (snd c)).
  { match goal with Hc : par_collect _ _ = Ok a |- _ => apply par_collect_ok in Hc; rename Hc into HC end.
    intros [[iter p] obj] I. apply (in_map (@Ok oq_error _)) in I. rewrite <- HC in I.
    apply in_map_iff in I as [[i' p'] [Hs I]]. cbn [fst snd] in *.
    destruct (cand_objective E objs i' p') eqn:Hc; try discriminate. injection Hs as -> -> ->.
    split; auto. apply (Hfb (iter, p)); auto. }
  apply a_emit.
  { intros e s3 I O3 _. apply in_map_iff in I as [c [<- I]]. unfold passes. rewrite <- O3.
    apply ActDecide; apply Ha; auto. }
  intros s3 R3 O3 T3. go2. apply a_quicks.
  { apply Forall_forall. intros c I. apply filter_In in I as [I _]. apply Ha; auto. }
  intros u' s4 R4. go2.
  assert (Hd : Forall (fun c => match c with (iter, p, _) => K (Some iter) p /\
            exists obj o, In (EvDecide iter p obj o true) (trace s4) end) (filter passes a)).
  { apply Forall_forall. intros [[iter p] obj] I. apply filter_In in I as [I P].
    split; [apply (Ha (iter, p, obj)); auto|]. exists obj, (s_o s2). eapply acts_in; [exact R4|]. rewrite T3. apply in_or_app; left.
    rewrite <- in_rev. apply in_map_iff. exists (iter, p, obj). split; [cbn [fst snd]; f_equal; exact P | exact I]. }
  apply a_conseq with (Q := fun _ s' => R s s').
  - destruct (_ && _); go2.
    + apply a_emit.
      { intros e s5 I O5 [n5 T5]. apply in_map_iff in I as [[[iter p] obj] [<- I]].
        rewrite Forall_forall in Hd. apply Hd in I as (_ & ob & o & I). eapply ActSearch2. rewrite T5.
        apply in_or_app; right; exact I. }
      intros s5 R5 O5 T5. go2. apply a_par_results; [|intros; tr].
      match goal with Hc : par_collect _ _ = Ok _ |- _ => apply par_collect_ok in Hc; rename Hc into HC end.
      apply Forall_forall. intros [[[iter p] obj] [sol n]] I.
      apply (in_map (@Ok oq_error _)) in I. rewrite <- HC in I. apply in_map_iff in I as [[[i' p'] ob'] [Hs I]].
      cbn [fst snd] in Hs.
      destruct (solve_tracked E (p_solver_type (o_params (s_o s4))) (p_solver_config (o_params (s_o s4))) p'
                  (observes2 (s_o s4))) as [[sol' n']|e|] eqn:Hst; simpl in Hs; try discriminate.
      injection Hs as -> -> -> -> ->. split.
      { apply filter_In in I as [I _]. apply (Ha (iter, p, obj)); auto. }
      split.
      * rewrite T5. apply in_or_app; left. rewrite <- in_rev. apply in_map_iff.
        exists (iter, p, obj). auto.
      * exists (p_solver_type (o_params (s_o s4))), (p_solver_config (o_params (s_o s4))), (observes2 (s_o s4)), n.
        split; auto. right. rewrite O5. auto.
    + apply a_singles; auto. intros; tr.
  - intros [] s6 R6 R6'. go2. apply H; tr.
Qed.
Lemma a_loop : forall size start resumed batches u (Q : unit -> st -> Prop) s,
  Forall (Forall (fun b => K (Some (fst b)) (snd b))) batches ->
  (forall r s', R s s' -> Q r s') -> wpa E K objs (stage2_loop E size start resumed objs batches u) Q s.
Proof.
  intros size start resumed batches; induction batches as [|b rest IH]; intros u Q s Hb H; simpl; go2.
  - apply H; tr.
  - apply a_conseq with (Q := fun _ s' => R s s').
    { destruct (o_max_time (s_o s)); go2; [|tr]. apply a_notes; auto. intros. go2. tr. }
    intros to s1 R1 _. go2. destruct to; go2; [apply H; tr|].
    apply a_notes; auto. intros s2 R2 _ _. go2.
    apply a_conseq with (Q := fun _ s' => R s2 s').
    { destruct (1 <? size); [apply a_batch_par | apply a_batch_seq]; auto; apply (Forall_inv Hb). }
    intros u' s3 R3 _. go2. destruct a; go2; [apply H; tr|]. apply IH; [apply (Forall_inv_tail Hb)|]. intros. apply H; tr.
Qed.
Lemma a_final : forall (Q : solset -> st -> Prop) s,
  (forall r s', R s s' -> o_set (s_o s') = Some r -> Q r s') -> wpa E K objs final_set Q s.
Proof.
  intros Q s H. unfold final_set. go. destruct (o_set (s_o s)) eqn:Hs; go. apply H; auto.
Qed.
Lemma chunks_fuel_in : forall A f n (l : list A) b x, In b (chunks_fuel f n l) -> In x b -> In x l.
Proof.
  induction f as [|f IH]; intros n l b x Hb Hx; destruct l as [|y l]; simpl in Hb; try contradiction.
  destruct Hb as [<-|Hb].
  - rewrite <- (firstn_skipn n (y :: l)). apply in_or_app; auto.
  - rewrite <- (firstn_skipn n (y :: l)). apply in_or_app; right. eapply IH; eauto.
Qed.
Lemma enumerate_from_nth : forall A (l : list A) n i x,
  In (i, x) (enumerate_from n l) <-> n <= i /\ nth_error l (i - n) = Some x.
Proof.
  induction l as [|y l IH]; intros n i x; simpl.
  - split; [intros []|]. intros [_ H]. destruct (i - n); discriminate.
  - rewrite IH. split.
    + intros [H|[H1 H2]].
      * injection H as <- <-. rewrite Nat.sub_diag. auto.
      * split; [lia|]. replace (i - n) with (S (i - S n)) by lia. auto.
    + intros [H1 H2]. destruct (Nat.eq_dec n i) as [<-|Hn].
      * rewrite Nat.sub_diag in H2. simpl in H2. left; congruence.
      * right. split; [lia|]. replace (i - n) with (S (i - S n)) in H2 by lia. auto.
Qed.
Lemma enumerate_nth : forall A (l : list A) i x, In (i, x) (enumerate l) <-> nth_error l i = Some x.
Proof.
  intros. unfold enumerate. rewrite enumerate_from_nth, Nat.sub_0_r. intuition lia.
Qed.
Lemma in_skipn : forall A n (l : list A) x, In x (skipn n l) -> In x l.
Proof. intros. rewrite <- (firstn_skipn n l). apply in_or_app; auto. Qed.

(** the candidates of Stage 2: the reference points in order (resumed), or shuffled *)
Definition order_of (resumed : bool) (o : oqnlp) (refs rs : list point) : Prop :=
  if resumed then rs = refs
  else exists seed, add_u64 E (p_seed (o_params o)) (N.of_nat (o_iteration o)) = Some seed /\
                    rs = e_shuffle E (e_seed_from E seed) refs.
Definition candidate (resumed : bool) (o : oqnlp) (refs : list point) (it : option nat) (p : point) : Prop :=
  exists i rs, it = Some i /\ (resumed = true -> o_iteration o <= i) /\
    order_of resumed o refs rs /\ nth_error (firstn (p_iterations (o_params o)) rs) i = Some p.
(** the start of the local search that ends Stage 1 *)
Definition stage1_best (s : st) (it : option nat) (p : point) : Prop :=
  it = None /\ exists s0 pts sf,
    stage1_init E (s_o s) (w_tick (s_w s)) = Ok s0 /\ ss_run E s0 = (Ok (pts, p), sf).

Lemma skipn_enum : forall A n (l : list A) m i x,
  In (i, x) (skipn n (enumerate_from m l)) -> m + n <= i.
Proof.
  induction n as [|n IH]; intros l m i x H.
  - simpl in H. apply enumerate_from_nth in H. lia.
  - destruct l as [|y l]; simpl in H; [contradiction|]. apply IH in H. lia.
Qed.
Lemma a_stage2 : forall resumed refs u (Q : solset -> st -> Prop) s,
  (forall i p, candidate resumed (s_o s) refs i p -> K i p) ->
  (forall r s', R s s' -> o_set (s_o s') = Some r -> Q r s') -> wpa E K objs (stage2_run E resumed refs objs u) Q s.
Proof.
  intros resumed refs u Q s HK H. unfold stage2_run, begin_stage2. go2.
  match goal with |- wpa _ _ _ _ _ ?x => set (s0 := x) in *;
    apply a_conseq with (Q := fun rs s' => R s0 s' /\ order_of resumed (s_o s) refs rs) end.
  { destruct resumed; go2; [split; [tr|reflexivity]|]. apply a_upd.
    { unfold changed. rewrite progress_seed. apply (ActProgress E K objs). }
    intros s1 R1 _. go2. split; auto. exists a. split; auto.
    repeat match goal with Hx : exists ob, _ = set_o_observer ob _ |- _ => destruct Hx as [? Hx] end.
    match goal with Ha : add_u64 _ _ _ = Some a |- _ => rewrite <- Ha end.
    match goal with Hx : s_o s0 = _, Hy : s_o ?z = _ |- _ => rewrite Hx, Hy end. reflexivity. }
  intros rs s1 R1 [_ Hord]. go2.
  apply a_conseq with (Q := fun _ s' => R s1 s').
  { destruct (_ =? 0); go2. apply a_loop; [|auto].
    apply Forall_forall. intros b Hb. apply Forall_forall. intros [i p] Hx. apply HK.
    pose proof (chunks_fuel_in _ _ _ _ _ _ Hb Hx) as Hin.
    assert (Ho : exists ob1 ob2, s_o s0 = set_o_observer ob1 (set_o_observer ob2 (s_o s))).
    { repeat match goal with Hx : exists ob, _ = set_o_observer ob _ |- _ => destruct Hx as [? Hx] end.
      match goal with Hx : s_o s0 = _, Hy : s_o ?z = _ |- _ => rewrite Hx, Hy end. eauto. }
    destruct Ho as (ob1 & ob2 & Ho). rewrite Ho in Hin. cbn [o_params o_iteration set_o_observer] in Hin.
    exists i, rs. split; [auto|split; [|split; [auto|]]].
    - intros ->. apply skipn_enum in Hin. exact Hin.
    - apply in_skipn, enumerate_nth in Hin. exact Hin. }
  intros [] s2 R2 _. go2. apply a_final. intros. apply H; auto. tr.
Qed.
Lemma a_enter : forall n (Q : unit -> st -> Prop) s,
  (forall s', R s s' -> Q tt s') -> wpa E K objs (stage1_enter n) Q s.
Proof. intros n Q s H. unfold stage1_enter. go. auto. Qed.
Lemma a_end1 : forall (Q : unit -> st -> Prop) s,
  (forall s', R s s' -> Q tt s') -> wpa E K objs (end_stage1 E) Q s.
Proof. intros Q s H. unfold end_stage1. go2. apply a_enter. intros. go2. apply H; tr. Qed.
(** what Stage 1 returns: the reference set and its objectives, as left by the scatter search *)
Definition stage1_result (s s' : st) (refs : list point) (objs : list f64) : Prop :=
  exists s0 pts best sf, stage1_init E (s_o s) (w_tick (s_w s)) = Ok s0 /\
    ss_run E s0 = (Ok (pts, best), sf) /\ refs = map fst pts /\ objs = map snd pts /\
    o_ref (s_o s') = Some refs.
Lemma callback_ref : forall it s, o_ref (s_o (snd (callback E it s))) = o_ref (s_o s).
Proof.
  intros it s. unfold callback, bind, the_oqnlp, get, ret, bind. simpl.
  destruct (o_observer (s_o s)) as [ob|]; [|reflexivity]. destruct (ob_callback ob); [|reflexivity].
  destruct (invoke_callback (e_callback E) ob). reflexivity.
Qed.
Lemma end1_ref : forall s s', end_stage1 E s = (Ok tt, s') -> o_ref (s_o s') = o_ref (s_o s).
Proof.
  intros s s'. unfold end_stage1, bind. destruct (stage1_enter "stage1_complete" s) as [r s1] eqn:H1.
  injection H1 as <- <-. pose proof (callback_ref None (snd (stage1_enter "stage1_complete" s))) as Hc.
  unfold obs, upd, modify, stage1_enter, obs, upd, modify in *. simpl in *.
  destruct (callback E None _) as [[a|e|] s2]; try discriminate. intro H; injection H as <-.
  simpl in *. exact Hc.
Qed.
Lemma a_stage1 : forall (Q : option (list point * list f64) -> st -> Prop) s,
  (forall p, stage1_best s None p -> K None p) ->
  (forall r s', R s s' -> (forall refs objs, r = Some (refs, objs) -> stage1_result s s' refs objs) -> Q r s') ->
  wpa E K objs (stage1_run E) Q s.
Proof.
  intros Q s HK H. unfold stage1_run. go2.
  destruct (stage1_init E (s_o s) (w_tick (s_w s))) as [s0|e|] eqn:Hi; go2.
  match goal with |- wpa _ _ _ (let '(_, _) := ss_run E ?z in _) _ _ =>
    destruct (ss_run E z) as [res sf] eqn:Hrun end.
  go2. apply a_conseq with (Q := fun _ s' => R s' s').
  { destruct (observes1 (s_o s)); go2; [|tr]. apply a_upd; [apply ActObserver|]. intros; tr. }
  intros [] s1 R1 _. go2. apply a_notes.
  { apply forallb_forall. intros x Hx. apply in_map_iff in Hx as [? [<- _]]; reflexivity. }
  intros s2 R2 _ _. go2. destruct res as [[pts cand]|e|]; go2. apply a_enter. intros s3 R3. go2.
  apply a_emit.
  { intros e s4 [<-|[]] _ _; apply ActSearch1. apply HK. split; auto. exists s0, pts, sf. auto. }
  intros s4 R4 O4 T4. go2.
  match goal with |- wpa _ _ _ _ _ ?x => assert (Rx : R s4 x) by tr; set (s5 := x) in * end.
  eapply a_process.
  { apply HK. split; [reflexivity|]. exists s0, pts, sf. split; [exact Hi|exact Hrun]. }
  { eapply acts_in; [exact Rx|]. rewrite T4. left; reflexivity. }
  { eapply sr_acts; [exact Rx|]. rewrite O4.
    exists (o_solver_type (s_o s3)), (o_solver_config (s_o s3)), (observes1 (s_o s3)), (snd a).
    split; [match goal with Hs : solve_tracked _ _ _ _ _ = Ok _ |- _ => rewrite Hs end;
            destruct a; reflexivity|]. left. auto. }
  intros b s6 R6. go2. destruct a0; go2.
  - apply a_end1. intros. go2. apply H; [tr|discriminate].
  - apply a_upd; [apply ActRef with (p := cand); apply HK; split; auto; exists s0, pts, sf; auto|]. intros s7 R7 O7. go2. apply a_end1. intros s8 R8. go2. apply H; [tr|].
    intros refs objs' Heq. injection Heq as <- <-. exists s0, pts, cand, sf. repeat split; auto.
    match goal with Hx : end_stage1 E _ = (Ok ?u, _) |- _ => destruct u; rewrite (end1_ref _ _ Hx) end.
    rewrite O7. reflexivity.
Qed.

(** ** The whole run *)
(** How a run starts: from scratch, or from the latest loadable checkpoint *)
Inductive run_start (s : st) : bool -> st -> Prop :=
| StartFresh : forall d, d_files d = d_files (w_disk (s_w s)) ->
    (forall c, o_cp (s_o s) = Some c -> cc_auto_resume c = true ->
       fst (checkpoint_exists E c (w_disk (s_w s))) = Ok false) ->
    run_start s false (with_disk d s)
| StartResumed : forall c d cp, o_cp (s_o s) = Some c -> cc_auto_resume c = true ->
    fst (checkpoint_exists E c (w_disk (s_w s))) = Ok true ->
    fst (load_latest E c (snd (checkpoint_exists E c (w_disk (s_w s))))) = Ok cp ->
    d_files d = d_files (w_disk (s_w s)) ->
    run_start s true (changed (restored cp) (with_disk d s)).

Lemma resume_ok : forall s b s', try_resume_from_checkpoint E s = (Ok b, s') -> run_start s b s'.
Proof.
  intros s b s'. unfold try_resume_from_checkpoint, bind, the_oqnlp, get, ret, bind. simpl.
  assert (Hw : s = with_disk (w_disk (s_w s)) s) by (destruct s as [o [? ? ?]]; reflexivity).
  destruct (o_cp (s_o s)) as [c|] eqn:Hc; simpl.
  - destruct (cc_auto_resume c) eqn:Ha.
    + unfold on_disk at 1. pose proof (reads_exists c (w_disk (s_w s))) as Hr.
      destruct (checkpoint_exists E c (w_disk (s_w s))) as [[[|]|e|] d] eqn:He; simpl; try discriminate.
      * unfold on_disk at 1. simpl. pose proof (reads_load_latest c d) as Hr2.
        destruct (load_latest E c d) as [[cp|e|] d2] eqn:Hl; simpl; try discriminate.
        intro H; injection H as <- <-. simpl in *.
        assert (X : run_start s true (changed (restored cp) (with_disk d2 s))).
        { eapply StartResumed; eauto; rewrite ?He; simpl; auto; rewrite ?Hl; auto. congruence. }
        exact X.
      * intro H; injection H as <- <-. simpl in *. 
        apply (StartFresh s d); auto. intros c' Hc' _. rewrite Hc in Hc'. injection Hc' as <-. rewrite He; auto.
    + intro H; injection H as <- <-. rewrite Hw at 2. apply StartFresh; auto. intros; congruence.
  - intro H; injection H as <- <-. rewrite Hw at 2. apply StartFresh; auto. intros; congruence.
Qed.
Lemma resume_fail : forall s r s', try_resume_from_checkpoint E s = (r, s') ->
  (forall b, r <> Ok b) -> exists d, d_files d = d_files (w_disk (s_w s)) /\ s' = with_disk d s.
Proof.
  intros s r s'. unfold try_resume_from_checkpoint, bind, the_oqnlp, get, ret, bind. simpl.
  destruct (o_cp (s_o s)) as [c|] eqn:Hc; simpl.
  - destruct (cc_auto_resume c) eqn:Ha.
    + unfold on_disk at 1. pose proof (reads_exists c (w_disk (s_w s))) as Hr.
      destruct (checkpoint_exists E c (w_disk (s_w s))) as [[[|]|e|] d] eqn:He; simpl in *.
      * unfold on_disk at 1. simpl. pose proof (reads_load_latest c d) as Hr2.
        destruct (load_latest E c d) as [[cp|e|] d2] eqn:Hl; simpl in *.
        -- intro H; injection H as <- <-. intro H; exfalso; eapply H; reflexivity.
        -- intro H; injection H as <- <-. exists d2. split; [congruence|reflexivity].
        -- intro H; injection H as <- <-. exists d2. split; [congruence|reflexivity].
      * intro H; injection H as <- <-. intro H; exfalso; eapply H; reflexivity.
      * intro H; injection H as <- <-. exists d; auto.
      * intro H; injection H as <- <-. exists d; auto.
    + intro H; injection H as <- <-. intro H; exfalso; eapply H; reflexivity.
  - intro H; injection H as <- <-. intro H; exfalso; eapply H; reflexivity.
Qed.
End Run.

Lemma act_mono : forall E (K K' : option nat -> point -> Prop) o o' s s', (forall i p, K i p -> K' i p) ->
  (forall i p, K i p -> o = o') ->
  act E K o s s' -> act E K' o' s s'.
Proof.
  intros E K K' o o' s s' HK Ho H; destruct H; try (econstructor; eauto; fail).
  - eapply ActObjective; eauto. rewrite <- (Ho (Some iter) p); auto.
  - eapply ActDecide; eauto. rewrite <- (Ho (Some iter) p); auto.
Qed.
Lemma acts_mono : forall E (K K' : option nat -> point -> Prop) o o' s s', (forall i p, K i p -> K' i p) ->
  (forall i p, K i p -> o = o') -> acts E K o s s' -> acts E K' o' s s'.
Proof. intros E K K' o o' s s' HK Ho H. induction H; econstructor; eauto using act_mono. Qed.

(** An execution of [run]: Stage 1 actions (no candidates), then Stage 2 actions *)
Inductive run_shape (E : env) (s s' : st) : Prop :=
| RunNoStart : forall d, d_files d = d_files (w_disk (s_w s)) -> s' = with_disk d s ->
    (forall x, fst (run E s) <> Ok x) -> run_shape E s s'
| RunStage1 : forall s1, run_start E s false s1 -> acts E (stage1_best E s1) None s1 s' -> run_shape E s s'
| RunBoth : forall s1 s2 refs objs, run_start E s false s1 ->
    stage1_result E s1 s2 refs objs -> acts E (stage1_best E s1) None s1 s2 ->
    acts E (candidate E false (s_o s2) refs) (Some objs) s2 s' -> run_shape E s s'
| RunResumed : forall s1 refs, run_start E s true s1 -> o_ref (s_o s1) = Some refs ->
    acts E (candidate E true (s_o s1) refs) None s1 s' -> run_shape E s s'.

Theorem run_acts : forall E s r s', run E s = (r, s') ->
  run_shape E s s' /\ (forall set, r = Ok set -> o_set (s_o s') = Some set).
Proof.
  intros E s r s' Hrun. pose proof Hrun as Hrun0. unfold run in Hrun. unfold bind in Hrun at 1.
  destruct (try_resume_from_checkpoint E s) as [[resumed|e|] s1] eqn:Ht.
  - pose proof (resume_ok E s resumed s1 Ht) as Hst. destruct resumed.
    + assert (Href : exists refs, o_ref (s_o s1) = Some refs).
      { inversion Hst; subst. simpl. eauto. }
      destruct Href as [refs Href].
      unfold bind, the_oqnlp, get, ret, bind in Hrun. simpl in Hrun. rewrite Href in Hrun.
      pose proof (a_stage2 E (candidate E true (s_o s1) refs) None true refs (o_unchanged (s_o s1))
                    (fun r s' => o_set (s_o s') = Some r) s1 (fun i p H => H) (fun r s' _ H => H)) as [W1 W2].
      rewrite Hrun in W1, W2. split; [eapply RunResumed; eauto|]. intros set ->. exact W2.
    + unfold bind in Hrun at 1.
      pose proof (a_stage1 E (stage1_best E s1) None
        (fun r s2 => forall refs objs, r = Some (refs, objs) -> stage1_result E s1 s2 refs objs) s1
        (fun _ H => H) (fun _ _ _ H => H)) as [W1 W0].
      destruct (stage1_run E s1) as [[[[refs objs]|]|e|] s2] eqn:E1; simpl in W1, W0.
      * pose proof (a_stage2 E (candidate E false (s_o s2) refs) (Some objs) false refs 0
                    (fun r s' => o_set (s_o s') = Some r) s2 (fun i p H => H) (fun r s' _ H => H)) as [W2 W3].
        rewrite Hrun in W2, W3. split; [eapply RunBoth; eauto|]. intros set ->. exact W3.
      * pose proof (a_final E (stage1_best E s1) None (fun r s' => o_set (s_o s') = Some r) s2 (fun r s' _ H => H)) as [W2 W3].
        rewrite Hrun in W2, W3. simpl in *. split; [eapply RunStage1; eauto using star_trans|].
        { eapply star_trans; eauto. }
        intros set ->. exact W3.
      * injection Hrun as <- <-. split; [eapply RunStage1; eauto|]. congruence.
      * injection Hrun as <- <-. split; [eapply RunStage1; eauto|]. congruence.
  - injection Hrun as <- <-. destruct (resume_fail E s _ _ Ht) as [d [? ?]]; [congruence|].
    split; [|congruence]. eapply RunNoStart; eauto. rewrite Hrun0. simpl. congruence.
  - injection Hrun as <- <-. destruct (resume_fail E s _ _ Ht) as [d [? ?]]; [congruence|].
    split; [|congruence]. eapply RunNoStart; eauto. rewrite Hrun0. simpl. congruence.
Qed.

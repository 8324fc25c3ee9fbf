(** * Every execution of [run] is a sequence of elementary actions

    [act E] lists the elementary state changes with the facts known when they happen;
    [run_acts] shows that every execution of the driver is, after an optional restore, a
    sequence of them.  Invariants of runs are then proved action by action. *)
From Coq Require Import ZArith NArith List Bool Arith Lia String.
From Verif Require Import F64 Base Builders Types Filters Runner Observer Env ScatterSearch
  Codec Checkpoint Oqnlp Wp.
Import ListNotations.

Definition trace (s : st) : list event := w_trace (s_w s).
Definition noted (e : event) (s : st) : st :=
  mk_st (s_o s) (mk_world (w_disk (s_w s)) (w_tick (s_w s)) (e :: trace s)).
Definition changed (f : oqnlp -> oqnlp) (s : st) : st := mk_st (f (s_o s)) (s_w s).
Definition with_disk (d : disk) (s : st) : st :=
  mk_st (s_o s) (mk_world d (w_tick (s_w s)) (trace s)).

(** events that only record something *)
Definition is_note (e : event) : bool :=
  match e with
  | EvStage1 _ | EvCallback _ _ | EvPrint _ | EvClock _ | EvBatch => true
  | _ => false
  end.
(** a checkpoint that records the optimizer's state *)
Definition snapshot (o : oqnlp) (cp : checkpoint) : Prop :=
  cp_params cp = o_params o /\ cp_iteration cp = o_iteration o /\
  cp_threshold cp = mf_threshold (o_merit o) /\ cp_solution_set cp = o_set o /\
  cp_reference_set cp = (match o_ref o with Some r => r | None => [] end) /\
  cp_unchanged cp = o_unchanged o /\ cp_df_solutions cp = df_solutions (o_df o) /\
  cp_seed cp = o_seed o /\ cp_target cp = o_target o /\ cp_exclude_oob cp = o_exclude o /\
  cp_batch cp = o_batch o /\ cp_parallel cp = o_parallel o /\
  cp_abs_tol cp = o_abs_tol o /\ cp_rel_tol cp = o_rel_tol o.
(** [sol] is what the local solver returns for [p], with the optimizer's solver fields or
    with those of its parameters *)
Definition solver_result (E : env) (o : oqnlp) (p : point) (sol : lsol) : Prop :=
  exists ty cfg track n, solve_tracked E ty cfg p track = Ok (sol, n) /\
    ((ty = o_solver_type o /\ cfg = o_solver_config o) \/
     (ty = p_solver_type (o_params o) /\ cfg = p_solver_config (o_params o))).

(** [K (Some iter) p]: p is the candidate of iteration iter; [K None p]: p is the start of the
    local search that ends Stage 1; [objs]: the cached objective values *)
Inductive act (E : env) (K : option nat -> point -> Prop) (objs : option (list f64)) : st -> st -> Prop :=
| ActObserver : forall s ob, act E K objs s (changed (set_o_observer ob) s)
| ActNote : forall s e, is_note e = true -> act E K objs s (noted e s)
| ActIteration : forall s iter p, K (Some iter) p -> act E K objs s (noted (EvIteration iter) s)
| ActObjective : forall s iter p, K (Some iter) p -> objs = None -> act E K objs s (noted (EvObjective iter p) s)
| ActTick : forall s,
    act E K objs s (mk_st (s_o s) (mk_world (w_disk (s_w s)) (S (w_tick (s_w s))) (trace s)))
| ActThreshold : forall s v,
    act E K objs s (noted (EvThreshold v) (changed (fun o => set_o_merit (mf_update (o_merit o) v) o) s))
| ActRelax : forall s,
    let v := relaxed (p_threshold_factor (o_params (s_o s))) (mf_threshold (o_merit (s_o s))) in
    act E K objs s (noted (EvRelax v) (changed (fun o => set_o_merit (mf_update (o_merit o) v) o) s))
| ActDecide : forall s iter p obj, K (Some iter) p -> cand_objective E objs iter p = Ok obj ->
    act E K objs s (noted (EvDecide iter p obj (s_o s) (should_start_local (s_o s) p obj)) s)
| ActSearch1 : forall s p, K None p -> act E K objs s (noted (EvSearch None p) s)
| ActSearch2 : forall s iter p obj o, In (EvDecide iter p obj o true) (trace s) ->
    act E K objs s (noted (EvSearch (Some iter) p) s)
| ActProcess : forall s it p sol, K it p -> In (EvSearch it p) (trace s) -> solver_result E (s_o s) p sol ->
    act E K objs s (snd (process_local_solution E sol s))
| ActProgress : forall s i u sd,
    act E K objs s (changed (fun o => set_o_seed sd (set_o_unchanged u (set_o_iteration i o))) s)
| ActRef : forall s r p, K None p -> act E K objs s (changed (set_o_ref r) s)
| ActSave : forall s f cp, snapshot (s_o s) cp -> act E K objs s (noted (EvSave f cp) s)
| ActWrite : forall s c cp i d, In (EvSave (file_name c i) cp) (trace s) -> o_cp (s_o s) = Some c ->
    d = snd (save_checkpoint E c cp i (w_disk (s_w s))) -> act E K objs s (with_disk d s)
| ActIo : forall s d, d_files d = d_files (w_disk (s_w s)) -> act E K objs s (with_disk d s).

Definition acts (E : env) K objs := star (act E K objs).

Lemma st_eta : forall s, mk_st (s_o s) (mk_world (w_disk (s_w s)) (w_tick (s_w s)) (trace s)) = s.
Proof. intros [o [d t tr]]; reflexivity. Qed.
Lemma oq_eta_observer : forall o, set_o_observer (o_observer o) o = o.
Proof. intros []; reflexivity. Qed.

(** ** The trace only grows *)
Lemma pls_trace : forall E sol s, exists new,
  trace (snd (process_local_solution E sol s)) = new ++ trace s.
Proof.
  intros E sol [o [d t tr]]. unfold process_local_solution, bind, the_oqnlp, get, ret. simpl.
  unfold emit, modify, unwrap, add_to_filter, upd, ret, panic, set_solutions, set_threshold, obs, bind, modify, emit, upd. simpl.
  destruct (o_exclude o).
  - destruct (within_bounds (pb_bounds (e_problem E)) (ls_point sol)) as [[|]|]; simpl.
    + destruct (o_set o) as [[|c l]|]; simpl.
      * exists []; reflexivity.
      * destruct (flt _ _); simpl; [eexists (_ :: _ :: [EvResult sol]); reflexivity|].
        destruct (_ && _); simpl; [eexists (_ :: [EvResult sol])|eexists [EvResult sol]]; reflexivity.
      * eexists (_ :: _ :: [EvResult sol]); reflexivity.
    + exists [EvResult sol]; reflexivity.
    + exists []; reflexivity.
  - destruct (o_set o) as [[|c l]|]; simpl.
    + exists []; reflexivity.
    + destruct (flt _ _); simpl; [eexists (_ :: _ :: [EvResult sol]); reflexivity|].
      destruct (_ && _); simpl; [eexists (_ :: [EvResult sol])|eexists [EvResult sol]]; reflexivity.
    + eexists (_ :: _ :: [EvResult sol]); reflexivity.
Qed.
Lemma act_trace : forall E K objs s s', act E K objs s s' -> exists new, trace s' = new ++ trace s.
Proof.
  intros E K objs s s' H; destruct H; try (exists []; reflexivity); try (eexists [_]; reflexivity).
  apply pls_trace.
Qed.
Lemma acts_trace : forall E K objs s s', acts E K objs s s' -> exists new, trace s' = new ++ trace s.
Proof.
  intros E K objs s s' H; induction H; [exists []; reflexivity|].
  apply act_trace in H as [n1 H1]. destruct IHstar as [n2 H2].
  exists (n2 ++ n1). rewrite H2, H1, app_assoc. reflexivity.
Qed.
Lemma acts_in : forall E K objs s s' e, acts E K objs s s' -> In e (trace s) -> In e (trace s').
Proof. intros E K objs s s' e H I. apply acts_trace in H as [n ->]. apply in_or_app; auto. Qed.

(** ** Rules *)
Section Rules.
Context (E : env) (K : option nat -> point -> Prop) (objs : option (list f64)).
Notation R := (acts E K objs).
Notation F := (fun (_ : option oq_error) (_ : st) => True).
Definition wpa {A} (m : OM A) (Q : A -> st -> Prop) (s : st) : Prop := wp R F m Q s.

Lemma Rrefl : forall s, R s s. Proof. constructor. Qed.
Lemma Rtrans : forall a b c, R a b -> R b c -> R a c. Proof. apply star_trans. Qed.
Lemma a_ret : forall A (a : A) (Q : A -> st -> Prop) s, Q a s -> wpa (ret a) Q s.
Proof. intros; apply wp_ret; auto using Rrefl. Qed.
Lemma a_fail : forall A e (Q : A -> st -> Prop) s, wpa (fail e) Q s.
Proof. intros; apply wp_fail; auto using Rrefl. Qed.
Lemma a_panic : forall A (Q : A -> st -> Prop) s, wpa panic Q s.
Proof. intros; apply wp_panic; auto using Rrefl. Qed.
Lemma a_bind : forall A B (m : OM A) (k : A -> OM B) Q s,
  wpa m (fun a s' => R s s' -> m s = (Ok a, s') -> wpa (k a) Q s') s -> wpa (bind m k) Q s.
Proof. intros; apply wp_bind; auto. exact Rtrans. Qed.
Lemma a_unwrap : forall A (o : option A) (Q : A -> st -> Prop) s,
  (forall a, o = Some a -> Q a s) -> wpa (unwrap o) Q s.
Proof. intros A [a|] Q s H; [apply a_ret; auto | apply a_panic]. Qed.
Lemma a_of_result : forall A (r : outcome oq_error A) (Q : A -> st -> Prop) s,
  (forall a, r = Ok a -> Q a s) -> wpa (of_result r) Q s.
Proof. intros A [a|e|] Q s H; split; simpl; auto using Rrefl. Qed.
Lemma a_of_solver : forall A (r : outcome ls_error A) (Q : A -> st -> Prop) s,
  (forall a, r = Ok a -> Q a s) -> wpa (of_solver r) Q s.
Proof. intros A [a|e|] Q s H; split; simpl; auto using Rrefl. Qed.
Lemma a_conseq : forall A (m : OM A) (Q Q' : A -> st -> Prop) s,
  wpa m Q s -> (forall a s', R s s' -> Q a s' -> Q' a s') -> wpa m Q' s.
Proof. intros. eapply wp_conseq; eauto. Qed.
Lemma a_oqnlp : forall (Q : oqnlp -> st -> Prop) s, Q (s_o s) s -> wpa the_oqnlp Q s.
Proof. intros; split; simpl; auto using Rrefl. Qed.
Lemma a_tick : forall (Q : nat -> st -> Prop) s,
  (forall s', R s s' -> s_o s' = s_o s -> trace s' = trace s -> Q (w_tick (s_w s)) s') -> wpa tick Q s.
Proof. intros Q s H; split; simpl; [|apply H]; auto; apply star_one, ActTick. Qed.

(** emitting a list of events one by one *)
Lemma emit_snd : forall l s, snd (emit l s) =
  mk_st (s_o s) (mk_world (w_disk (s_w s)) (w_tick (s_w s)) (rev l ++ trace s)).
Proof. reflexivity. Qed.
Lemma emit_all : forall l s,
  (forall e s1, In e l -> s_o s1 = s_o s -> (exists n, trace s1 = n ++ trace s) -> act E K objs s1 (noted e s1)) ->
  R s (snd (emit l s)).
Proof.
  induction l as [|e l IH]; intros s H; rewrite emit_snd.
  - simpl. rewrite st_eta. apply Rrefl.
  - eapply star_step; [apply (H e s); [left; auto | auto | exists []; auto]|].
    replace (mk_st _ _) with (snd (emit l (noted e s))).
    + apply IH. intros e' s1 I Ho [n Hn]. apply H; [right; auto | auto |].
      exists (n ++ [e]). rewrite Hn. simpl. rewrite <- app_assoc. reflexivity.
    + rewrite emit_snd. simpl. f_equal. f_equal. unfold trace at 1. simpl.
      rewrite <- app_assoc. reflexivity.
Qed.
Lemma a_emit : forall l (Q : unit -> st -> Prop) s,
  (forall e s1, In e l -> s_o s1 = s_o s -> (exists n, trace s1 = n ++ trace s) -> act E K objs s1 (noted e s1)) ->
  (forall s', R s s' -> s_o s' = s_o s -> trace s' = rev l ++ trace s -> Q tt s') ->
  wpa (emit l) Q s.
Proof.
  intros l Q s H1 H2. pose proof (emit_all l s H1). split; auto. simpl fst. apply H2; auto.
Qed.
Lemma a_notes : forall l (Q : unit -> st -> Prop) s,
  forallb is_note l = true ->
  (forall s', R s s' -> s_o s' = s_o s -> trace s' = rev l ++ trace s -> Q tt s') ->
  wpa (emit l) Q s.
Proof.
  intros l Q s H. apply a_emit. intros. apply ActNote. rewrite forallb_forall in H; auto.
Qed.
Lemma a_obs : forall f (Q : unit -> st -> Prop) s,
  (forall s', R s s' -> trace s' = trace s -> (exists ob, s_o s' = set_o_observer ob (s_o s)) -> Q tt s') ->
  wpa (obs f) Q s.
Proof.
  intros f Q s H. assert (R s (snd (obs f s))) by (apply star_one, ActObserver).
  split; auto. apply H; auto. simpl. eauto.
Qed.
Lemma a_set_threshold : forall v (Q : unit -> st -> Prop) s,
  (forall s', R s s' -> Q tt s') -> wpa (set_threshold v) Q s.
Proof.
  intros v Q s H. assert (R s (snd (set_threshold v s))) by (apply star_one, ActThreshold).
  split; auto. apply H; auto.
Qed.
Lemma a_adjust : forall (Q : unit -> st -> Prop) s,
  (forall s', R s s' -> Q tt s') -> wpa adjust_threshold Q s.
Proof.
  intros Q s H. assert (R s (snd (adjust_threshold s))) by (apply star_one, ActRelax).
  split; auto. apply H; auto.
Qed.
Lemma a_process : forall it p sol (Q : bool -> st -> Prop) s, K it p ->
  In (EvSearch it p) (trace s) -> solver_result E (s_o s) p sol ->
  (forall b s', R s s' -> Q b s') -> wpa (process_local_solution E sol) Q s.
Proof.
  intros it p sol Q s H0 H1 H2 H.
  assert (R s (snd (process_local_solution E sol s))) by (eapply star_one, ActProcess; eauto).
  split; auto. destruct (fst _); auto.
Qed.
End Rules.

(** symbolic execution *)
Ltac go1 :=
  match goal with
  | |- wpa _ _ _ (bind _ _) _ _ => apply a_bind
  | |- wpa _ _ _ (ret _) _ _ => apply a_ret
  | |- wpa _ _ _ (fail _) _ _ => apply a_fail
  | |- wpa _ _ _ panic _ _ => apply a_panic
  | |- wpa _ _ _ the_oqnlp _ _ => apply a_oqnlp
  | |- wpa _ _ _ tick _ _ => apply a_tick; intros
  | |- wpa _ _ _ (unwrap _) _ _ => apply a_unwrap; intros
  | |- wpa _ _ _ (of_result _) _ _ => apply a_of_result; intros
  | |- wpa _ _ _ (of_solver _) _ _ => apply a_of_solver; intros
  | |- wpa _ _ _ (obs _) _ _ => apply a_obs; intros
  | |- wpa _ _ _ (set_threshold _) _ _ => apply a_set_threshold; intros
  | |- wpa _ _ _ adjust_threshold _ _ => apply a_adjust; intros
  | |- acts _ _ _ _ _ -> _ => let H := fresh "HR" in intro H
  | |- (_ = (Ok _, _)) -> _ => let H := fresh "HE" in intro H
  end.
Ltac go := repeat go1.

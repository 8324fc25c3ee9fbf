(** * What the result of a run says about failures (C94) *)
From Coq Require Import ZArith NArith List Bool Arith Lia String Permutation.
From Verif Require Import F64 Base Builders Types Filters Runner Observer Env EnvSpec ScatterSearch Codec Checkpoint
  Oqnlp Spec SpecStage2 SpecErrors SpecStage1 BasicP SolverP Wp Actions RunP SetP GreedyP Stage1P Stage1Q StartP SpecCheckpoint CheckpointP.
Import ListNotations.
Local Open Scope monad_scope.

Section Ends.
Context (E : env) (o0 : oqnlp).
Notation P := (e_problem E).
Definition fine (e : event) : Prop :=
  match e with
  | EvSearch _ p => exists x, local_result E o0 p x
  | EvObjective _ p => exists v, pb_objective P p = inl v
  | _ => True
  end.
Definition dt (s : st) : nat := d_tick (w_disk (s_w s)).
Definition io_fine (s s' : st) : Prop := forall n, disk_operation s s' n -> e_io E n = IoOk.
Definition why (s s' : st) (new : list event) (e : oq_error) : Prop :=
  match e with
  | LocalSolverError le => exists i p, In (EvSearch i p) new /\ local_fails E o0 p le
  | ObjectiveFunctionEvaluationFailed => exists i p n, In (EvObjective i p) new /\ pb_objective P p = inr n
  | ScatterSearchRunError (EvaluationError n) => exists p, In (EvStage1 (SsEval p)) new /\ pb_objective P p = inr n
  | ScatterSearchRunError (NoFeasibleCandidates _ _) => pb_constraints P <> []
  | ScatterSearchRunError NoCandidates => p_population (o_params o0) = 0
  | ScatterSearchError (InvalidBounds i lo hi) => nth_error (pb_bounds P) i = Some (lo, hi) /\ fge lo hi = true
  | NoFeasibleSolution => o_set (s_o s') = None
  | CheckpointError (CpIo _) => o_cp o0 <> None /\ exists n, disk_operation s s' n /\ e_io E n <> IoOk
  | _ => False
  end.
Definition outside (e : event) : Prop :=
  match e with
  | EvResult x => o_exclude o0 = true /\ within_bounds (pb_bounds P) (ls_point x) = Some false
  | _ => True
  end.
Definition ends {A} (m : OM A) : Prop := forall s, same_config o0 (s_o s) ->
  same_config o0 (s_o (snd (m s))) /\ dt s <= dt (snd (m s)) /\
  exists new, trace (snd (m s)) = new ++ trace s /\
    (o_set (s_o (snd (m s))) = None -> o_set (s_o s) = None /\ Forall outside new) /\
    match fst (m s) with
    | Ok _ => Forall fine new /\ io_fine s (snd (m s))
    | Err e => why s (snd (m s)) new e
    | Panic => True
    end.
Lemma why_more s s1 s2 n1 n2 e : dt s <= dt s1 -> why s1 s2 n2 e -> why s s2 (n2 ++ n1) e.
Proof.
  intros Hd. unfold why. destruct e as [le| | |[]|[]| | | | | | |[]]; auto.
  - intros (i & p & H & K). exists i, p. split; [apply in_or_app; auto|exact K].
  - intros (i & p & n & H & K). exists i, p, n. split; [apply in_or_app; auto|exact K].
  - intros (p & H & K). exists p. split; [apply in_or_app; auto|exact K].
  - intros (Hc & n & [H1 H2] & K). split; [exact Hc|]. exists n. split; [unfold disk_operation, dt in *; lia|exact K].
Qed.
Lemma n_bind A B (m : OM A) (k : A -> OM B) : ends m -> (forall a, ends (k a)) -> ends (bind m k).
Proof.
  intros H1 H2 s Hs. unfold bind. destruct (H1 s Hs) as (C1 & D1 & n1 & T1 & O1 & R1).
  destruct (m s) as [[a|e|] s1]; cbn [fst snd] in *;
    [|split; [exact C1|split; [exact D1|exists n1; split; [exact T1|split; [exact O1|exact R1]]]]..].
  destruct R1 as [F1 I1].
  destruct (H2 a s1 C1) as (C2 & D2 & n2 & T2 & O2 & R2). split; [exact C2|]. split; [unfold dt in *; lia|].
  exists (n2 ++ n1). split; [rewrite T2, T1, app_assoc; reflexivity|].
  split. { intros Hn. destruct (O2 Hn) as [G1 G2]. destruct (O1 G1) as [G3 G4]. split; [exact G3|]. apply Forall_app; auto. }
  destruct (fst (k a s1)) as [b|e|]; [|eapply why_more; eauto|exact I].
  destruct R2 as [F2 I2]. split; [apply Forall_app; auto|].
  intros n [Ha Hb]. destruct (Nat.lt_ge_cases n (dt s1)); [apply I1|apply I2]; unfold disk_operation, dt in *; lia.
Qed.
Lemma io_same s s' : dt s' = dt s -> io_fine s s'.
Proof. intros H n [H1 H2]. unfold dt in *. lia. Qed.
Lemma n_read A (k : oqnlp -> OM A) : (forall o, same_config o0 o -> ends (k o)) -> ends (bind the_oqnlp k).
Proof. intros H s Hs. apply (H (s_o s) Hs s Hs). Qed.
Lemma n_ret A (a : A) : ends (ret a).
Proof.
  intros s Hs. split; [exact Hs|]. split; [unfold dt; simpl; lia|]. exists []. split; [reflexivity|]. split; [auto|].
  split; [constructor|apply io_same; reflexivity].
Qed.
Lemma n_panic A : ends (@panic st oq_error A).
Proof. intros s Hs. split; [exact Hs|]. split; [unfold dt; simpl; lia|]. exists []. split; [reflexivity|]. split; [auto|exact I]. Qed.
Lemma n_unwrap A (o : option A) : ends (unwrap o).
Proof. destruct o; [apply n_ret|apply n_panic]. Qed.
Lemma n_upd f : (forall o, same_config o (f o)) -> (forall o, o_set (f o) = None -> o_set o = None) -> ends (upd f).
Proof.
  intros H G s Hs. split; [exact (same_config_trans _ _ _ Hs (H (s_o s)))|]. split; [unfold dt; simpl; lia|]. exists [].
  split; [reflexivity|]. split; [intros K; split; [exact (G _ K)|constructor]|]. split; [constructor|apply io_same; reflexivity].
Qed.
Lemma n_emit l : Forall fine l -> Forall outside l -> ends (emit l).
Proof.
  intros H G s Hs. split; [exact Hs|]. split; [unfold dt; simpl; lia|]. exists (rev l). split; [reflexivity|].
  split; [intros K; split; [exact K|apply Forall_rev; exact G]|].
  split; [apply Forall_rev; exact H|apply io_same; reflexivity].
Qed.
Lemma n_tick : ends tick.
Proof.
  intros s Hs. split; [exact Hs|]. split; [unfold dt; simpl; lia|]. exists []. split; [reflexivity|]. split; [auto|].
  split; [constructor|apply io_same; reflexivity].
Qed.
Lemma n_emit_map A (f : A -> event) l : (forall x, fine (f x) /\ outside (f x)) -> ends (emit (map f l)).
Proof. intros H. apply n_emit; apply Forall_forall; intros x Hx; apply in_map_iff in Hx as (y & <- & Hy); apply H. Qed.
(** events followed by the result they are about *)
Definition about_result {A} (l : list event) (r : outcome oq_error A) : Prop :=
  match r with
  | Ok _ => Forall fine l
  | Err (LocalSolverError le) => exists i p, In (EvSearch i p) l /\ local_fails E o0 p le
  | Err ObjectiveFunctionEvaluationFailed => exists i p n, In (EvObjective i p) l /\ pb_objective P p = inr n
  | Err _ => False
  | Panic => True
  end.
Lemma about_why A l (r : outcome oq_error A) s s' e : about_result l r -> r = Err e -> why s s' (rev l) e.
Proof.
  intros H ->. unfold about_result in H. unfold why. destruct e as [le| | |[]|[]| | | | | | |[]]; try contradiction.
  - destruct H as (i & p & H & K). exists i, p. split; [apply in_rev in H; exact H|exact K].
  - destruct H as (i & p & n & H & K). exists i, p, n. split; [apply in_rev in H; exact H|exact K].
Qed.
Lemma n_step A B l (r : outcome oq_error A) (k : A -> OM B) : Forall outside l -> about_result l r -> (forall a, r = Ok a -> ends (k a)) ->
  ends (emit l ;;; bind (of_result r) k).
Proof.
  intros O H K s Hs. unfold bind at 1. unfold emit, modify. unfold bind. unfold of_result.
  destruct r as [a|e|].
  - exact (n_bind _ _ _ _ (n_emit l H O) (fun _ => K a eq_refl) s Hs).
  - cbn [fst snd]. split; [exact Hs|]. split; [unfold dt; simpl; lia|]. exists (rev l). split; [reflexivity|].
    split; [intros G; split; [exact G|apply Forall_rev; exact O]|]. eapply about_why; eauto.
  - cbn [fst snd]. split; [exact Hs|]. split; [unfold dt; simpl; lia|]. exists (rev l). split; [reflexivity|].
    split; [intros G; split; [exact G|apply Forall_rev; exact O]|]. exact I.
Qed.
Lemma n_step_tick A B l (r : nat -> outcome oq_error A) (k : nat -> A -> OM B) : Forall outside l -> (forall t, about_result l (r t)) ->
  (forall t a, r t = Ok a -> ends (k t a)) -> ends (emit l ;;; t <- tick ;; bind (of_result (r t)) (k t)).
Proof.
  intros O H K s Hs. set (s1 := mk_st (s_o s) (mk_world (w_disk (s_w s)) (S (w_tick (s_w s))) (w_trace (s_w s)))).
  assert (X : (emit l ;;; t <- tick ;; bind (of_result (r t)) (k t)) s =
              (emit l ;;; bind (of_result (r (w_tick (s_w s)))) (k (w_tick (s_w s)))) s1) by reflexivity.
  rewrite X. exact (n_step _ _ l _ _ O (H _) (K _) s1 Hs).
Qed.
End Ends.
Ltac cfg := solve [ intros; repeat split | intros; discriminate | intros ? ?; assumption ].
Ltac en1 :=
  match goal with
  | |- ends _ _ (bind the_oqnlp _) => apply n_read; intros ? ?
  | |- ends _ _ (bind _ _) => apply n_bind; [|intro]
  | |- ends _ _ (ret _) => apply n_ret
  | |- ends _ _ panic => apply n_panic
  | |- ends _ _ (upd _) => apply n_upd; cfg
  | |- ends _ _ (obs _) => apply n_upd; cfg
  | |- ends _ _ (emit (map _ _)) => apply n_emit_map; intros; split; exact I
  | |- ends _ _ (emit _) => apply n_emit; repeat (apply Forall_cons; [exact I|]); try apply Forall_nil
  | |- ends _ _ tick => apply n_tick
  | |- ends _ _ (unwrap _) => apply n_unwrap
  | |- ends _ _ (let '(_, _) := ?x in _) => destruct x
  | |- ends _ _ (if ?b then _ else _) => destruct b
  | |- ends _ _ (match ?x with _ => _ end) => destruct x
  end.
Ltac en := repeat en1.

Section Driver.
Context (E : env) (o0 : oqnlp).
Notation ends := (ends E o0).
Notation P := (e_problem E).
Lemma n_callback i : ends (callback E i).
Proof.
  unfold callback. en; apply Forall_forall; intros ev Hx; apply in_map_iff in Hx as (y & <- & _); exact I.
Qed.
Lemma n_callback_at i : ends (callback_at E i).
Proof. unfold callback_at. en. apply n_callback. Qed.
Lemma n_save_now c : o_cp o0 = Some c -> ends (save_now E c).
Proof.
  intros Hc. unfold save_now, create_checkpoint. en.
  intros s Hs. unfold on_disk, save_checkpoint, fs_write, next_io, set_files, modify, bind, ret, fail.
  destruct (e_io E (d_tick (w_disk (s_w s)))) eqn:Hio; cbn; (split; [exact Hs|]); (split; [unfold dt; simpl; lia|]);
    exists []; (split; [reflexivity|]); (split; [auto|]).
  - split; [constructor|]. intros n [H1 H2]. simpl in H2. assert (n = d_tick (w_disk (s_w s))) as -> by lia. exact Hio.
  - split; [congruence|]. exists (d_tick (w_disk (s_w s))). split; [split; simpl; lia|congruence].
  - split; [congruence|]. exists (d_tick (w_disk (s_w s))). split; [split; simpl; lia|congruence].
Qed.
Lemma cp_of o c : same_config o0 o -> o_cp o = Some c -> o_cp o0 = Some c.
Proof. intros (_ & _ & _ & _ & _ & _ & _ & _ & H & _) G. congruence. Qed.
Lemma n_maybe_save : ends (maybe_save_checkpoint E).
Proof.
  unfold maybe_save_checkpoint. apply n_read. intros o Ho. destruct (o_cp o) as [c|] eqn:Hc; en. apply n_save_now. eapply cp_of; eauto.
Qed.
Lemma n_final_save : ends (maybe_save_final_checkpoint E).
Proof.
  unfold maybe_save_final_checkpoint. apply n_read. intros o Ho. destruct (o_cp o) as [c|] eqn:Hc; en. apply n_save_now. eapply cp_of; eauto.
Qed.
Lemma n_process x : ends (process_local_solution E x).
Proof.
  intros s Hs. pose proof (pls_cases E x s) as C. cbv zeta in C.
  assert (Hx : o_exclude (s_o s) = o_exclude o0) by apply Hs.
  destruct (process_local_solution E x s) as [r s'] eqn:Hp. cbn [fst snd] in *. clear Hp.
  destruct C as [(-> & -> & _)|[(X1 & X2 & -> & ->)|(_ & [(_ & -> & ->)|(cur & rest & Hset & [(_ & -> & ob & ->)|[(_ & _ & _ & -> & ob & ->)|(_ & _ & -> & ->)]])])]].
  - split; [exact Hs|]. split; [auto|]. exists []. split; [reflexivity|]. split; [auto|exact I].
  - split; [exact Hs|]. split; [unfold dt; simpl; lia|]. exists [EvResult x]. split; [reflexivity|].
    split; [intros K; split; [exact K|constructor; [split; [congruence|exact X2]|constructor]]|].
    split; [repeat constructor|apply io_same; reflexivity].
  - split; [exact Hs|]. split; [unfold dt; simpl; lia|]. exists [EvThreshold (ls_obj x); EvSolutionSet [x]; EvResult x]. split; [reflexivity|].
    split; [intros K; discriminate K|]. split; [repeat constructor|apply io_same; reflexivity].
  - split; [exact Hs|]. split; [unfold dt; simpl; lia|]. exists [EvThreshold (ls_obj x); EvSolutionSet [x]; EvResult x]. split; [reflexivity|].
    split; [intros K; discriminate K|]. split; [repeat constructor|apply io_same; reflexivity].
  - split; [exact Hs|]. split; [unfold dt; simpl; lia|]. exists [EvSolutionSet ((cur :: rest) ++ [x]); EvResult x]. split; [reflexivity|].
    split; [intros K; discriminate K|]. split; [repeat constructor|apply io_same; reflexivity].
  - split; [exact Hs|]. split; [unfold dt; simpl; lia|]. exists [EvResult x]. split; [reflexivity|].
    split; [intros K; cbn in K; congruence|]. split; [repeat constructor|apply io_same; reflexivity].
Qed.
Lemma n_count u : ends (count_unchanged u).
Proof. unfold count_unchanged, adjust_threshold. en. Qed.
Lemma n_threshold v : ends (set_threshold v).
Proof. unfold set_threshold. en. Qed.
Lemma n_begin i u : ends (begin_iteration E i u).
Proof. unfold begin_iteration. en. Qed.
Lemma n_obs_iteration i u : ends (obs_iteration i u).
Proof. unfold obs_iteration. en. Qed.
Lemma n_obs_search a n : ends (obs_search a n).
Proof. unfold obs_search. en. Qed.
Lemma n_begin2 : ends begin_stage2.
Proof. unfold begin_stage2. en. Qed.
Lemma n_end1 : ends (end_stage1 E).
Proof. unfold end_stage1, stage1_enter. en. apply n_callback. Qed.
Lemma n_final : ends final_set.
Proof.
  unfold final_set. intros s Hs. unfold bind, the_oqnlp, get, ret, bind, fail. simpl. destruct (o_set (s_o s)) as [l|] eqn:Ho; simpl;
    (split; [exact Hs|]); (split; [unfold dt; simpl; lia|]); exists []; (split; [reflexivity|]); (split; [intros K; split; [congruence|constructor]|]).
  - split; [constructor|apply io_same; reflexivity].
  - exact Ho.
Qed.
(** *** Local searches and evaluations *)
Lemma tracked_any ty cfg p t : match solve_tracked E ty cfg p t with
  | Ok (x, _) => solve (e_ext E) P ty cfg p = Ok x
  | Err e => solve (e_ext E) P ty cfg p = Err e
  | Panic => True
  end.
Proof.
  unfold solve_tracked. pose proof (track_irrelevant (e_ext E) P ty cfg p true false) as H. unfold solve. destruct t.
  - destruct (solve_with_tracking (e_ext E) P ty cfg p true) as [[x n]|e|], (solve_with_tracking (e_ext E) P ty cfg p false) as [[y m]|e'|];
      simpl in H; try discriminate; try exact I; congruence.
  - destruct (solve_with_tracking (e_ext E) P ty cfg p false) as [[y m]|e'|]; reflexivity || exact I.
Qed.
Definition configured (o : oqnlp) (ty : solver_type) (cfg : solver_config) : Prop :=
  (ty = o_solver_type o /\ cfg = o_solver_config o) \/ (ty = p_solver_type (o_params o) /\ cfg = p_solver_config (o_params o)).
Lemma configured_same o ty cfg : same_config o0 o -> configured o ty cfg -> configured o0 ty cfg.
Proof. intros (H1 & H2 & H3 & _). unfold configured. rewrite H1, H2, H3. auto. Qed.
Lemma of_solver_result A (r : outcome ls_error A) : of_solver r = of_result (lift_solver r).
Proof. destruct r; reflexivity. Qed.
Lemma search_about i p ty cfg t : configured o0 ty cfg -> about_result E o0 [EvSearch i p] (lift_solver (solve_tracked E ty cfg p t)).
Proof.
  intros H. pose proof (tracked_any ty cfg p t) as G. destruct (solve_tracked E ty cfg p t) as [[x n]|e|]; simpl.
  - constructor; [|constructor]. exists x, ty, cfg. split; [exact G|exact H].
  - exists i, p. split; [left; reflexivity|]. exists ty, cfg. split; [exact G|exact H].
  - exact I.
Qed.
Lemma n_search B o i p t (k : lsol * N -> OM B) : same_config o0 o -> (forall r, ends (k r)) ->
  ends (emit [EvSearch i p] ;;; bind (of_solver (solve_tracked E (o_solver_type o) (o_solver_config o) p t)) k).
Proof.
  intros Ho K. rewrite of_solver_result. apply n_step; [repeat constructor| |intros a _; apply K].
  apply search_about. eapply configured_same; [exact Ho|left; auto].
Qed.
Lemma n_eval B objs i p (k : f64 -> OM B) : (forall v, ends (k v)) -> ends (emit_eval objs i p ;;; bind (of_result (cand_objective E objs i p)) k).
Proof.
  intros K. unfold emit_eval, cand_objective. destruct objs as [l|].
  - apply n_bind; [apply n_ret|intros _]. destruct (List.length l); [|destruct (nth_error _ _)]; [apply n_panic|apply K|apply n_panic].
  - apply n_step; [repeat constructor| |intros a _; apply K]. destruct (pb_objective P p) as [v|n] eqn:H; simpl.
    + constructor; [exists v; exact H|constructor].
    + exists i, p, n. split; [left; reflexivity|exact H].
Qed.
Lemma collect_members A pick (l : list (outcome oq_error A)) : match par_collect pick l with
  | Ok _ => forall r, In r l -> exists a, r = Ok a
  | Err e => In (Err e) l
  | Panic => True
  end.
Proof.
  destruct (par_collect pick l) as [vs|e|] eqn:H; [| |exact I].
  - apply par_collect_ok in H. subst l. intros r Hr. apply in_map_iff in Hr as (a & <- & _). eauto.
  - unfold par_collect in H. destruct (existsb oc_panic l); [discriminate|]. destruct (oc_errs l) as [|e1 es] eqn:He; [discriminate|].
    assert (Hn : forall k, In (nth (k mod List.length (e1 :: es)) (e1 :: es) e1) (e1 :: es))
      by (intro; apply nth_In, Nat.mod_upper_bound; discriminate).
    specialize (Hn pick). set (y := nth _ _ _) in *. clearbody y. injection H as <-. rewrite <- He in Hn. rename Hn into X.
    unfold oc_errs in X. apply in_flat_map in X as (r & Hr & X). destruct r as [a|e'|]; simpl in X; [contradiction| |contradiction].
    destruct X as [<-|[]]. exact Hr.
Qed.
Lemma par_about A B (f : A -> event) (g : A -> outcome oq_error B) pick l : (forall x, In x l -> about_result E o0 [f x] (g x)) ->
  about_result E o0 (map f l) (par_collect pick (map g l)).
Proof.
  intros H. pose proof (collect_members B pick (map g l)) as C. destruct (par_collect pick (map g l)) as [vs|e|]; [| |exact I].
  - apply Forall_forall. intros ev Hev. apply in_map_iff in Hev as (x & <- & Hx). destruct (C (g x) (in_map g _ _ Hx)) as [b Hb].
    specialize (H x Hx). rewrite Hb in H. inversion H; assumption.
  - apply in_map_iff in C as (x & Hg & Hx). specialize (H x Hx). rewrite Hg in H. unfold about_result in *.
    destruct e; try contradiction.
    + destruct H as (i & p & [G|[]] & K). exists i, p. split; [rewrite <- G; apply in_map; exact Hx|exact K].
    + destruct H as (i & p & n & [G|[]] & K). exists i, p, n. split; [rewrite <- G; apply in_map; exact Hx|exact K].
Qed.
(** *** Stage 2 *)
Lemma n_one_seq objs i p u : ends (process_one_seq E objs i p u).
Proof.
  unfold process_one_seq. apply n_bind; [apply n_begin|intros _]. apply n_bind; [apply n_obs_iteration|intros _].
  apply n_eval. intros v. apply n_bind; [en|intros _]. apply n_read. intros o Ho. apply n_bind; [en|intros _].
  apply n_bind.
  - destruct (should_start_local o p v); [|en; apply n_count].
    apply n_bind; [apply n_threshold|intros _]. apply n_search; [exact Ho|]. intros r.
    apply n_bind; [apply n_process|intros added]. apply n_bind; [apply n_obs_search|intros _]. en.
  - intros [u' stop]. destruct stop; en; [apply n_callback_at|apply n_maybe_save].
Qed.
Lemma n_batch_seq start resumed objs b : forall u, ends (process_batch_sequential E start resumed objs b u).
Proof.
  induction b as [|[i p] b IH]; intros u; [apply n_ret|]. simpl. destruct (resumed && (i <? start)); [apply IH|].
  apply n_bind; [apply n_one_seq|]. intros [u' stop]. destruct stop; [apply n_ret|apply IH].
Qed.
Lemma n_quick i u : ends (process_quick E i u).
Proof.
  unfold process_quick. apply n_bind; [apply n_begin|intros _]. apply n_bind; [apply n_count|intros u'].
  apply n_bind; [apply n_obs_iteration|intros _]. apply n_bind; [apply n_callback_at|intros _]. apply n_bind; [apply n_maybe_save|intros _]. apply n_ret.
Qed.
Lemma n_quicks l : forall u, ends (process_quicks E l u).
Proof. induction l as [|[[i p] v] l IH]; intros u; [apply n_ret|]. simpl. apply n_bind; [apply n_quick|intros u'; apply IH]. Qed.
Lemma n_par_result i v x n u : ends (process_par_result E i v x n u).
Proof.
  unfold process_par_result. apply n_bind; [apply n_begin|intros _]. apply n_bind; [apply n_threshold|intros _].
  apply n_bind; [apply n_process|intros added]. apply n_bind; [apply n_obs_search|intros _]. apply n_bind; [apply n_obs_iteration|intros _].
  apply n_bind; [apply n_callback_at|intros _]. apply n_read. intros o Ho. apply n_bind; [apply n_unwrap|intros stop].
  destruct stop; [apply n_ret|]. apply n_bind; [apply n_maybe_save|intros _; apply n_ret].
Qed.
Lemma n_par_results l : forall u, ends (process_par_results E l u).
Proof.
  induction l as [|[[[i p] v] [x n]] l IH]; intros u; [apply n_ret|]. simpl. apply n_bind; [apply n_par_result|].
  intros stop. destruct stop; [apply n_ret|apply IH].
Qed.
Lemma n_single i p v u : ends (process_single E i p v u).
Proof.
  unfold process_single. apply n_bind; [apply n_begin|intros _]. apply n_bind; [apply n_threshold|intros _]. apply n_read. intros o Ho.
  apply n_search; [exact Ho|]. intros r.
  apply n_bind; [apply n_process|intros added]. apply n_bind; [apply n_obs_search|intros _]. apply n_bind; [apply n_obs_iteration|intros _].
  apply n_bind; [apply n_callback|intros _]. apply n_read. intros o2 Ho2. apply n_bind; [apply n_unwrap|intros stop].
  destruct stop; [apply n_ret|]. apply n_bind; [apply n_maybe_save|intros _; apply n_ret].
Qed.
Lemma n_singles l : forall u, ends (process_singles E l u).
Proof.
  induction l as [|[[i p] v] l IH]; intros u; [apply n_ret|]. simpl. apply n_bind; [apply n_single|]. intros stop. destruct stop; [apply n_ret|apply IH].
Qed.
Lemma out_map A (f : A -> event) l : (forall x, outside E o0 (f x)) -> Forall (outside E o0) (map f l).
Proof. intros H. apply Forall_forall. intros e He. apply in_map_iff in He as (x & <- & _). apply H. Qed.
Lemma n_batch_par start resumed objs b u : ends (process_batch_parallel E start resumed objs b u).
Proof.
  unfold process_batch_parallel. set (fb := if resumed then _ else _). cbv zeta. destruct (match fb with [] => true | _ => false end); [apply n_ret|].
  match goal with |- ends (bind ?e (fun _ => bind tick (fun t => bind (of_result (@?r t)) (@?k t)))) => set (K := k); set (R := r) end.
  assert (HK : forall t a, ends (K t a)).
  { intros t results. unfold K. apply n_bind; [en|intros _]. apply n_read. intros o Ho.
    destruct (partition _ results) as [local quick]. apply n_bind; [apply n_emit_map; intros; split; exact I|intros _].
    apply n_bind; [apply n_quicks|intros u']. apply n_read. intros o2 Ho2. apply n_bind; [|intros _; apply n_ret].
    destruct ((2 <=? List.length local) && o_parallel o2); [|apply n_singles].
    apply n_step; [apply out_map; intros; exact I| |intros a _; apply n_par_results].
    apply par_about. intros [[i p] v] _. cbn [fst snd].
    pose proof (search_about (Some i) p (p_solver_type (o_params o2)) (p_solver_config (o_params o2)) (observes2 o2)
                  (configured_same o2 _ _ Ho2 (or_intror (conj eq_refl eq_refl)))) as G.
    destruct (lift_solver _) as [r|e|]; [inversion G; constructor; auto|exact G|exact I]. }
  destruct objs as [l|].
  - apply n_bind; [apply n_ret|intros _]. apply n_bind; [apply n_tick|intros t]. apply n_bind; [|apply HK].
    unfold R. pose proof (collect_members _ (e_err_pick E [t; 1]) (map (fun b0 : nat * point => match cand_objective E (Some l) (fst b0) (snd b0) with
                                | Ok v => Ok (fst b0, snd b0, v)
                                | Err e => Err e
                                | Panic => Panic
                                end) fb)) as C.
    destruct (par_collect _ _) as [vs|e|]; [apply n_ret| |apply n_panic]. exfalso. apply in_map_iff in C as ([i p] & Hc & _).
    unfold cand_objective in Hc. destruct (List.length l); [discriminate|]. destruct (nth_error _ _); discriminate.
  - apply (n_step_tick E o0 _ _ (map (fun b0 => EvObjective (fst b0) (snd b0)) fb) R K); [apply out_map; intros; exact I| |intros t a _; apply HK].
    intros t. unfold R. apply par_about. intros [i p] _. cbn [fst snd]. unfold cand_objective.
    destruct (pb_objective P p) as [v|n] eqn:H; simpl.
    + constructor; [exists v; exact H|constructor].
    + exists i, p, n. split; [left; reflexivity|exact H].
Qed.
Lemma n_loop size start resumed objs bs : forall u, ends (stage2_loop E size start resumed objs bs u).
Proof.
  induction bs as [|b bs IH]; intros u; [apply n_ret|]. simpl. apply n_read. intros o Ho. apply n_bind; [en|intros timeout].
  destruct timeout; [apply n_ret|]. apply n_bind; [en|intros _]. apply n_bind; [destruct (1 <? size); [apply n_batch_par|apply n_batch_seq]|].
  intros u'. apply n_read. intros o2 Ho2. apply n_bind; [apply n_unwrap|intros stop]. destruct stop; [apply n_ret|apply IH].
Qed.
Lemma n_stage2 resumed refs objs u : ends (stage2_run E resumed refs objs u).
Proof.
  unfold stage2_run. apply n_bind; [apply n_begin2|intros _]. apply n_read. intros o Ho. apply n_bind; [en|intros refs'].
  cbv zeta. apply n_bind; [destruct (_ =? 0); [apply n_panic|apply n_loop]|intros _]. apply n_bind; [apply n_final_save|intros _; apply n_final].
Qed.
End Driver.

(** ** Stage 1 *)
Definition never {A} (m : M ss ss_error A) : Prop := forall s n, fst (m s) <> Err (EvaluationError n).
Lemma never_bind A B (m : M ss ss_error A) (k : A -> M ss ss_error B) : never m -> (forall a, never (k a)) -> never (bind m k).
Proof. intros H K s n. unfold bind. specialize (H s n). destruct (m s) as [[a|e|] s1]; simpl in *; [apply K|congruence|discriminate]. Qed.
Lemma never_ret A (a : A) : never (ret a). Proof. intros s n. discriminate. Qed.
Lemma never_get : never get. Proof. intros s n. discriminate. Qed.
Lemma never_modify f : never (modify f). Proof. intros s n. discriminate. Qed.
Lemma never_unwrap A (o : option A) : never (unwrap o). Proof. destruct o; intros s n; discriminate. Qed.
Ltac nv := repeat match goal with
  | |- never (bind _ _) => apply never_bind; [|intro]
  | |- never (ret _) => apply never_ret
  | |- never get => apply never_get
  | |- never (modify _) => apply never_modify
  | |- never (unwrap _) => apply never_unwrap
  | |- never (let '(_, _) := ?x in _) => destruct x
  | |- never (match ?x with _ => _ end) => destruct x
  end.
Lemma never_update E l : never (update_reference_set E l).
Proof. unfold update_reference_set. nv. Qed.
Lemma never_trials E : never (generate_trial_points E).
Proof. unfold generate_trial_points. nv. Qed.
Lemma never_callback E : never (ss_callback E).
Proof. unfold ss_callback. nv. Qed.
Lemma never_best E : never (ss_best_solution E).
Proof. unfold ss_best_solution. nv. intros s n. discriminate. Qed.
Lemma never_diversify E refs cs s n : fst (diversify_reference_set E refs cs s) <> Err (EvaluationError n).
Proof.
  destruct (div_spec E refs cs s) as (rng & l & r & Hd & _ & Hdiv & _). rewrite Hd. cbn [fst]. intros ->. inversion Hdiv.
Qed.
Lemma upto_fails (f : point -> f64 + N) l e : collect_seq (map f l) = inr e -> exists p, In p (upto_error f l) /\ f p = inr e.
Proof.
  induction l as [|p l IH]; [discriminate|]. unfold collect_seq in *. simpl. destruct (f p) as [v|n] eqn:Hf; simpl.
  - intros H. destruct (errors_of (map f l)) as [|x xs]; [discriminate|]. destruct (IH H) as (q & Hq & G). exists q. split; [right; exact Hq|exact G].
  - intros H. injection H as <-. exists p. split; [left; reflexivity|exact Hf].
Qed.
Lemma init_evaluated E s n s' : initialize_reference_set E s = (Err (EvaluationError n), s') ->
  exists p, In (SsEval p) (ss_log s') /\ pb_objective (e_problem E) p = inr n.
Proof.
  unfold initialize_reference_set. unfold bind at 1. unfold get at 1. cbv zeta. unfold bind at 1.
  match goal with |- context [diversify_reference_set E ?r ?c s] => pose proof (never_diversify E r c s n) as D; destruct (diversify_reference_set E r c s) as [[refs|e|] s1] end;
    cbn [fst] in D; [|congruence|discriminate].
  unfold bind, modify. set (par := ss_parallel s && (20 <=? List.length refs)).
  destruct (if par then _ else _) as [objs|e] eqn:Hc; [intros X; injection X; discriminate|]. unfold fail. intros H. injection H as -> <-.
  cbn [ss_log ss_emit].
  assert (X : exists p, In p (if par then refs else upto_error (pb_objective (e_problem E)) refs) /\ pb_objective (e_problem E) p = inr n).
  { destruct par.
    - apply (collect_err _ true) in Hc. apply in_map_iff in Hc as (p & Hp & Hin). eauto.
    - apply upto_fails. exact Hc. }
  destruct X as (p & Hp & Ho). exists p. split; [|exact Ho]. apply in_or_app. left. apply in_rev. rewrite rev_involutive. apply in_map. exact Hp.
Qed.
Lemma run_evaluated E s n s' : ss_run E s = (Err (EvaluationError n), s') ->
  exists p, In (SsEval p) (ss_log s') /\ pb_objective (e_problem E) p = inr n.
Proof.
  unfold ss_run. unfold bind at 1. destruct (initialize_reference_set E s) as [[a|e|] s1] eqn:Hi.
  - intros H. exfalso. revert H.
    match goal with |- (?m s1 = _) -> _ => assert (K : never m) end.
    { unfold ss_obs. nv; auto using never_callback, never_trials, never_update, never_best. }
    intros H. apply (K s1 n). rewrite H. reflexivity.
  - intros H. injection H as -> ->. eapply init_evaluated. exact Hi.
  - discriminate.
Qed.
Lemma run_error E s e s' p : env_ok E -> built E p s -> ss_run E s = (Err e, s') ->
  match e with
  | EvaluationError n => exists q, In (SsEval q) (ss_log s') /\ pb_objective (e_problem E) q = inr n
  | NoFeasibleCandidates _ _ => pb_constraints (e_problem E) <> []
  | NoCandidates => p_population p = 0
  | InvalidBounds _ _ _ => False
  end.
Proof.
  intros HE Hb H. destruct (p_population p) as [|k] eqn:Hp.
  - destruct e as [| |n|]; [reflexivity| |apply (run_evaluated E s); exact H|];
      pose proof (rt_eq _ _ _ _ _ _ (run_ends E s) H) as He;
      inversion He as [e s1 Hi| | | |s1 s2 tr s3 s4 r Hi N1 Ht Hu N2 Hend]; subst.
    1,3: inversion Hi as [| |rng l e Hs Hd|]; subst; inversion Hd; subst; auto.
    all: destruct (min_by cmp_snd _) as [[]|]; [destruct (nth_error _ _)|]; discriminate.
  - destruct e as [| |n|]; [| |apply (run_evaluated E s); exact H|];
      destruct (c12_errors E p s _ s' HE Hb ltac:(lia) H) as [(x & q & G & _)|(G & a & d & X)]; try discriminate; exact G.
Qed.

Section Stage1.
Context (E : env) (o0 : oqnlp) (HE : env_ok E).
Notation ends := (ends E o0).
Lemma n_fail A e : (forall s s', why E o0 s s' [] e) -> ends (@fail st oq_error A e).
Proof. intros H s Hs. split; [exact Hs|]. split; [unfold dt; simpl; lia|]. exists []. split; [reflexivity|]. split; [auto|apply H]. Qed.
Lemma n_emit_fail A l e : Forall (outside E o0) l -> (forall s s', why E o0 s s' (rev l) e) -> ends (emit l ;;; @fail st oq_error A e).
Proof.
  intros O H s Hs. split; [exact Hs|]. split; [unfold dt; simpl; lia|]. exists (rev l). split; [reflexivity|].
  split; [intros G; split; [exact G|apply Forall_rev; exact O]|]. apply H.
Qed.
Lemma init_error o t e : stage1_init E o t = Err e -> exists i lo hi, e = InvalidBounds i lo hi /\
  nth_error (pb_bounds (e_problem E)) i = Some (lo, hi) /\ fge lo hi = true.
Proof.
  unfold stage1_init, ss_new. pose proof (bad_bound_spec (pb_bounds (e_problem E)) 0) as B.
  destruct (bad_bound 0 (pb_bounds (e_problem E))) as [x|]; [|discriminate]. intros H. injection H as <-.
  destruct B as (i & lo & hi & (H1 & H2 & _) & ->). exists i, lo, hi. split; [reflexivity|]. split; [exact H1|exact H2].
Qed.
Lemma n_stage1 : ends (stage1_run E).
Proof.
  unfold stage1_run. apply n_read. intros o Ho. apply n_bind; [apply n_tick|intros t].
  destruct (stage1_init E o t) as [s3|e|] eqn:Hi; [| |apply n_panic].
  2:{ destruct (init_error o t e Hi) as (i & lo & hi & -> & H1 & H2). apply n_fail. intros s s'. split; assumption. }
  destruct (stage1_init_built _ _ _ _ Hi) as [Hb _]. destruct (ss_run E s3) as [res sf] eqn:Hr.
  apply n_bind; [en|intros _]. destruct res as [[pts cand]|e|].
  - apply n_bind; [en|intros _]. cbv zeta. apply n_bind; [en|intros _]. apply n_bind; [apply n_callback|intros _].
    apply n_bind; [unfold stage1_enter; en|intros _]. apply n_read. intros o2 Ho2. apply n_search; [exact Ho2|]. intros r.
    apply n_bind; [apply n_threshold|intros _]. apply n_bind; [en|intros _]. apply n_bind; [apply n_callback|intros _].
    apply n_bind; [apply n_process|intros _]. apply n_read. intros o3 Ho3. apply n_bind; [apply n_unwrap|intros stop].
    destruct stop; en; apply n_end1.
  - apply n_emit_fail; [apply out_map; intros; exact I|]. intros s s'. pose proof (run_error E s3 e sf _ HE Hb Hr) as X.
    destruct e as [|a d|n|]; cbn [why].
    + destruct Ho as [H _]. congruence.
    + exact X.
    + destruct X as (q & Hq & Hv). exists q. split; [|exact Hv]. apply in_rev. rewrite rev_involutive.
      apply in_map. apply in_rev. rewrite rev_involutive. exact Hq.
    + contradiction.
  - apply n_bind; [en|intros _; apply n_panic].
Qed.
Lemma n_fresh : ends (bind (stage1_run E) (fun r => match r with
    | None => final_set
    | Some (refs, objs) => stage2_run E false refs (Some objs) 0
    end)).
Proof. apply n_bind; [apply n_stage1|]. intros [[refs objs]|]; [apply n_stage2|apply n_final]. Qed.
End Stage1.

(** ** Resumption *)
Lemma dir_any E d : env_ok E -> exists r, fs_read_dir E d = (r, next d) /\
  match r with
  | Ok l => e_io E (d_tick d) = IoOk /\ Permutation l (map fst (d_files d))
  | Err e => e_io E (d_tick d) <> IoOk /\ e = CpIo "read_directory"
  | Panic => False
  end.
Proof.
  intros HE. unfold fs_read_dir, next_io, bind, get, ret, fail. destruct (e_io E (d_tick d)) eqn:Hio; cbn;
    (eexists; split; [reflexivity|]); cbn; [split; [reflexivity|]|split; [discriminate|reflexivity]..].
  etransitivity; [apply Permutation_map, (eo_dir_order E HE)|]. rewrite map_map.
  erewrite map_ext; [reflexivity|]. intros [k v]. cbn. unfold str_bytes. apply list_ascii_of_string_of_list_ascii.
Qed.
Definition counted (c : cp_config) (n : N) (l : list fname) : Prop :=
  exists f i, In f l /\ entry_iteration (cc_name c) f = Ok (Some i) /\ (n < i)%N.
Lemma loop_any c l : forall n path, exists p, latest_loop (cc_name c) l n path = Ok p /\
  (p = path /\ ~ counted c n l \/ (exists f, p = Some f /\ In f l) /\ counted c n l).
Proof.
  induction l as [|f l IH]; intros n path.
  - exists path. split; [reflexivity|]. left. split; [reflexivity|]. intros (g & i & [] & _).
  - cbn [latest_loop]. destruct (entry_total (cc_name c) f) as [o Ho]. rewrite Ho.
    assert (Hk : ~ counted c n l -> (forall i, o = Some i -> (i <= n)%N) -> ~ counted c n (f :: l)).
    { intros H G (g & i & [<-|Hg] & He & Hi); [|apply H; exists g, i; auto]. rewrite Ho in He. injection He as ->.
      specialize (G i eq_refl). lia. }
    assert (Hc : forall m, counted c m l -> (n <= m)%N -> counted c n (f :: l)).
    { intros m (g & i & Hg & He & Hi) Hm. exists g, i. split; [right; exact Hg|]. split; [exact He|lia]. }
    destruct o as [i|].
    + destruct (N.ltb_spec n i) as [Lt|Ge].
      * destruct (IH i (Some f)) as (p & Hp & H). exists p. split; [exact Hp|]. right.
        assert (X : counted c n (f :: l)) by (exists f, i; split; [left; reflexivity|auto]).
        destruct H as [[-> _]|[(g & -> & Hg) _]]; (split; [|exact X]); eexists; (split; [reflexivity|]); [left; reflexivity|right; exact Hg].
      * destruct (IH n path) as (p & Hp & H). exists p. split; [exact Hp|]. destruct H as [[-> H]|[(g & -> & Hg) H]]; [left|right].
        -- split; [reflexivity|]. apply Hk; [exact H|]. intros j J. injection J as <-. exact Ge.
        -- split; [exists g; split; [reflexivity|right; exact Hg]|]. apply (Hc n H). lia.
    + destruct (IH n path) as (p & Hp & H). exists p. split; [exact Hp|]. destruct H as [[-> H]|[(g & -> & Hg) H]]; [left|right].
      * split; [reflexivity|]. apply Hk; [exact H|]. discriminate.
      * split; [exists g; split; [reflexivity|right; exact Hg]|]. apply (Hc n H). lia.
Qed.
Lemma find_any E c d : env_ok E -> exists r, find_latest E c d = (r, next d) /\
  match r with
  | Ok f => e_io E (d_tick d) = IoOk /\ In f (map fst (d_files d)) /\ counted c 0 (map fst (d_files d))
  | Err (CpIo _) => e_io E (d_tick d) <> IoOk
  | Err CpNotFound => e_io E (d_tick d) = IoOk /\ ~ counted c 0 (map fst (d_files d))
  | _ => False
  end.
Proof.
  intros HE. unfold find_latest. destruct (dir_any E d HE) as (r & Hr & H). unfold bind. rewrite Hr. clear Hr.
  destruct r as [l|e|]; [| |contradiction].
  - destruct H as [Hio Hp]. destruct (loop_any c l 0 None) as (p & Hp2 & H). rewrite Hp2.
    assert (T : counted c 0 l <-> counted c 0 (map fst (d_files d))).
    { split; intros (f & i & Hf & G); exists f, i; (split; [|exact G]); (eapply Permutation_in; [|exact Hf]); [exact Hp|symmetry; exact Hp]. }
    destruct H as [[-> H]|[(f & -> & Hf) H]]; (eexists; split; [reflexivity|]); cbn beta iota.
    + split; [exact Hio|]. rewrite <- T. exact H.
    + split; [exact Hio|]. split; [eapply Permutation_in; eauto|]. apply T. exact H.
  - destruct H as [Hio ->]. eexists. split; [reflexivity|]. exact Hio.
Qed.
Lemma load_any E f d : In f (map fst (d_files d)) -> exists r, load_from_path E f d = (r, next d) /\
  match r with
  | Ok _ => e_io E (d_tick d) = IoOk
  | Err (CpIo _) => e_io E (d_tick d) <> IoOk
  | Err CpSerialization => exists b, In (f, b) (d_files d) /\ decode_checkpoint b = None
  | _ => False
  end.
Proof.
  intros Hf. unfold load_from_path, bind, get.
  assert (L : exists b, lookup f (d_files d) = Some b /\ In (f, b) (d_files d)).
  { clear -Hf. induction (d_files d) as [|[k v] l IH]; [destruct Hf|]. simpl. destruct (bytes_eqb k f) eqn:Hk.
    - apply bytes_eqb_eq in Hk. subst k. exists v. auto.
    - destruct Hf as [<-|Hf]; [simpl in Hk; rewrite bytes_eqb_refl in Hk; discriminate|]. destruct (IH Hf) as (b & H1 & H2). exists b. auto. }
  destruct L as (b & -> & Hb). unfold next_io. destruct (e_io E (d_tick d)) eqn:Hio.
  - destruct (decode_checkpoint b) eqn:Hd; (eexists; split; [reflexivity|]); cbn beta iota; eauto.
  - eexists. split; [reflexivity|]. cbn beta iota. discriminate.
  - eexists. split; [reflexivity|]. cbn beta iota. discriminate.
Qed.
Lemma latest_any E c d : env_ok E -> (if cc_keep_all c then counted c 0 (map fst (d_files d)) else In (file_name c 0) (map fst (d_files d))) ->
  exists r d', load_latest E c d = (r, d') /\ d_files d' = d_files d /\ d_tick d < d_tick d' /\
  match r with
  | Ok _ => forall n, d_tick d <= n < d_tick d' -> e_io E n = IoOk
  | Err (CpIo _) => exists n, d_tick d <= n < d_tick d' /\ e_io E n <> IoOk
  | Err CpSerialization => exists f b, In (f, b) (d_files d) /\ decode_checkpoint b = None
  | _ => False
  end.
Proof.
  intros HE H. unfold load_latest. destruct (cc_keep_all c).
  - destruct (find_any E c d HE) as (r & Hr & G). unfold bind. rewrite Hr. destruct r as [f|[]|]; try contradiction.
    + destruct G as (G1 & G2 & _). destruct (load_any E f (next d) G2) as (r & -> & K). exists r, (next (next d)).
      split; [reflexivity|]. split; [reflexivity|]. split; [simpl; lia|]. destruct r as [cp|[]|]; try contradiction.
      * intros n Hn. simpl in Hn. simpl in K. assert (n = d_tick d \/ n = S (d_tick d)) as [->| ->] by lia; assumption.
      * exists (S (d_tick d)). split; [simpl; lia|exact K].
      * destruct K as (b & K). exists f, b. exact K.
    + eexists _, (next d). split; [reflexivity|]. split; [reflexivity|]. split; [simpl; lia|]. exists (d_tick d). split; [simpl; lia|exact G].
    + destruct G as [_ G]. contradiction.
  - unfold bind, ret. destruct (load_any E _ d H) as (r & -> & K). exists r, (next d). split; [reflexivity|]. split; [reflexivity|].
    split; [simpl; lia|]. destruct r as [cp|[]|]; try contradiction.
    + intros n Hn. simpl in Hn. assert (n = d_tick d) as -> by lia. exact K.
    + exists (d_tick d). split; [simpl; lia|exact K].
    + destruct K as (b & K). exists (file_name c 0), b. exact K.
Qed.
Lemma lookup_in f l : match lookup f l with Some _ => true | None => false end = true -> In f (map fst l).
Proof.
  induction l as [|[k v] l IH]; [discriminate|]. simpl. destruct (bytes_eqb k f) eqn:H; [|auto]. apply bytes_eqb_eq in H. auto.
Qed.
Lemma try_any E s : env_ok E -> exists r s1, try_resume_from_checkpoint E s = (r, s1) /\ trace s1 = trace s /\ o_cp (s_o s1) = o_cp (s_o s) /\
  dt s <= dt s1 /\
  match r with
  | Ok true => io_fine E s s1
  | Ok false => forall n, disk_operation s s1 n -> e_io E n = IoOk \/ n = dt s /\ lists_directory (s_o s)
  | Err (CheckpointError (CpIo _)) => o_cp (s_o s) <> None /\ exists n, disk_operation s s1 n /\ e_io E n <> IoOk
  | Err (CheckpointError CpSerialization) => o_cp (s_o s) <> None /\
      exists f b, In (f, b) (d_files (w_disk (s_w s))) /\ decode_checkpoint b = None
  | _ => False
  end.
Proof.
  intros HE. unfold try_resume_from_checkpoint, the_oqnlp, bind, get, ret. destruct (o_cp (s_o s)) as [c|] eqn:Hc.
  2:{ exists (Ok false), s. repeat (split; [solve [auto]|]). intros n [H1 H2]. lia. }
  destruct (cc_auto_resume c) eqn:Ha.
  2:{ exists (Ok false), s. repeat (split; [solve [auto]|]). intros n [H1 H2]. lia. }
  unfold on_disk. set (d := w_disk (s_w s)).
  assert (X : exists b d1, checkpoint_exists E c d = (Ok b, d1) /\ d_files d1 = d_files d /\ d_tick d <= d_tick d1 /\
    if (b : bool) then (if cc_keep_all c then counted c 0 (map fst (d_files d)) else In (file_name c 0) (map fst (d_files d))) /\
                       (forall n, d_tick d <= n < d_tick d1 -> e_io E n = IoOk)
    else forall n, d_tick d <= n < d_tick d1 -> e_io E n = IoOk \/ n = d_tick d /\ cc_keep_all c = true).
  { unfold checkpoint_exists. destruct (cc_keep_all c).
    - destruct (find_any E c d HE) as (r & -> & G). destruct r as [f|e|]; [| |contradiction].
      + exists true, (next d). split; [reflexivity|]. split; [reflexivity|]. split; [simpl; lia|]. split; [apply G|].
        intros n Hn. simpl in Hn. assert (n = d_tick d) as -> by lia. apply G.
      + exists false, (next d). split; [reflexivity|]. split; [reflexivity|]. split; [simpl; lia|].
        intros n Hn. simpl in Hn. right. split; [lia|reflexivity].
    - unfold bind, get, ret. eexists _, d. split; [reflexivity|]. split; [reflexivity|]. split; [auto|].
      destruct (match lookup _ _ with Some _ => true | None => false end) eqn:Hl.
      + split; [apply lookup_in; exact Hl|]. intros n Hn. lia.
      + intros n Hn. lia. }
  destruct X as (b & d1 & -> & Hf & Ht & X). destruct b.
  - destruct X as [X1 X2]. cbn [s_w w_disk].
    assert (X1' : if cc_keep_all c then counted c 0 (map fst (d_files d1)) else In (file_name c 0) (map fst (d_files d1)))
      by (rewrite Hf; exact X1).
    destruct (latest_any E c d1 HE X1') as (r & d2 & -> & Hf2 & Ht2 & K). destruct r as [cp|[]|]; try contradiction.
    + eexists (Ok true), _. split; [reflexivity|]. split; [reflexivity|]. split; [exact Hc|].
      split; [unfold dt; cbn; fold d; lia|]. intros n [H1 H2]. cbn in H1, H2. fold d in H1.
      destruct (Nat.lt_ge_cases n (d_tick d1)); [apply X2|apply K]; lia.
    + eexists _, _. split; [reflexivity|]. split; [reflexivity|]. split; [exact Hc|]. split; [unfold dt; cbn; fold d; lia|].
      split; [discriminate|]. destruct K as (n & Hn & K). exists n. split; [split; cbn; fold d; lia|exact K].
    + eexists _, _. split; [reflexivity|]. split; [reflexivity|]. split; [exact Hc|]. split; [unfold dt; cbn; fold d; lia|].
      split; [discriminate|]. rewrite Hf in K. exact K.
  - eexists _, _. split; [reflexivity|]. split; [reflexivity|]. split; [exact Hc|]. split; [unfold dt; cbn; fold d; lia|].
    intros n [H1 H2]. cbn in H1, H2. fold d in H1. destruct (X n ltac:(lia)) as [G|[-> G]]; [left; exact G|right].
    split; [reflexivity|]. exists c. auto.
Qed.

(** ** Runs *)
Lemma result_same E o o' p x : same_config o o' -> local_result E o p x -> local_result E o' p x.
Proof. intros (H1 & H2 & H3 & _) (ty & cfg & H & G). exists ty, cfg. split; [exact H|]. rewrite H1, H2, H3. exact G. Qed.
Lemma fails_same E o o' p e : same_config o o' -> local_fails E o p e -> local_fails E o' p e.
Proof. intros (H1 & H2 & H3 & _) (ty & cfg & H & G). exists ty, cfg. split; [exact H|]. rewrite H1, H2, H3. exact G. Qed.
Lemma ends_run E s s1 (m : OM solset) r s' : ends E (s_o s1) m -> m s1 = (r, s') -> trace s1 = trace s -> o_cp (s_o s1) = o_cp (s_o s) -> dt s <= dt s1 ->
  exists new, trace s' = new ++ trace s /\
    (forall e, r = Err e -> met E s s' new e) /\
    (forall set, r = Ok set -> Forall (fine E (s_o s')) new /\ io_fine E s1 s').
Proof.
  intros H Hm Ht Hc Hd. destruct (H s1 (same_config_refl _)) as (C & D & new & T & O & R). rewrite Hm in *. cbn [fst snd] in *.
  exists new. split; [congruence|]. split.
  - intros e ->. destruct e as [le| | |[]|[]| | | | | | |[]]; cbn [why met] in *; try contradiction; auto.
    + destruct R as (i & p & G & K). exists i, p. split; [exact G|]. eapply fails_same; eauto.
    + destruct (O R) as [_ K]. split; [exact R|]. intros x Hx. rewrite Forall_forall in K.
      destruct C as (_ & _ & _ & _ & _ & _ & _ & -> & _). exact (K _ Hx).
    + destruct C as [C _]. rewrite C. exact R.
    + destruct R as (G & n & [K1 K2] & K3). split; [congruence|]. exists n. split; [unfold disk_operation, dt in *; lia|exact K3].
  - intros set ->. destruct R as [F I]. split; [|exact I]. eapply Forall_impl; [|exact F]. intros ev.
    destruct ev; cbn [fine]; auto. intros [x Hx]. exists x. eapply result_same; eauto.
Qed.
Lemma run_errors E s r s' : env_ok E -> run E s = (r, s') -> exists new, trace s' = new ++ trace s /\
  (forall e, r = Err e -> met E s s' new e) /\
  (forall set, r = Ok set -> Forall (fine E (s_o s')) new /\
     forall n, disk_operation s s' n -> e_io E n = IoOk \/ n = dt s /\ lists_directory (s_o s)).
Proof.
  intros HE Hr. unfold run in Hr. destruct (try_any E s HE) as (r0 & s1 & H0 & Ht & Hc & Hd & X).
  destruct r0 as [b|e|]; [| |contradiction].
  - unfold bind at 1 in Hr. rewrite H0 in Hr.
    assert (G : exists new, trace s' = new ++ trace s /\ (forall e, r = Err e -> met E s s' new e) /\
      (forall set, r = Ok set -> Forall (fine E (s_o s')) new /\ io_fine E s1 s')).
    { destruct b.
      - eapply ends_run; [|exact Hr|exact Ht|exact Hc|exact Hd]. apply n_read. intros o Ho. apply n_stage2.
      - eapply ends_run; [|exact Hr|exact Ht|exact Hc|exact Hd]. apply n_fresh. exact HE. }
    destruct G as (new & T & Ge & Go). exists new. split; [exact T|]. split; [exact Ge|]. intros set Hs.
    destruct (Go set Hs) as [F I]. split; [exact F|]. intros n [H1 H2]. destruct (Nat.lt_ge_cases n (dt s1)) as [Lt|Ge'].
    + destruct b; [left; apply X; split; assumption|apply X; split; assumption].
    + left. apply I. split; assumption.
  - unfold bind in Hr. rewrite H0 in Hr. injection Hr as <- <-. exists []. split; [exact Ht|]. split; [|discriminate].
    intros e' He. injection He as <-. destruct e as [| | | | | | | | | | |[]]; try contradiction; exact X.
Qed.

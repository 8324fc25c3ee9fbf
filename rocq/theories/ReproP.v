(** * Runs on two machines (C96) *)
From Coq Require Import ZArith NArith List Bool Arith Lia String Permutation.
From Verif Require Import F64 Base Builders Types Filters Runner Observer Env EnvSpec ScatterSearch Codec Checkpoint
  Oqnlp Spec SpecStage1 SpecRepro RunP HoareP Stage1R StartP.
Import ListNotations.
Local Open Scope monad_scope.

Section Agree.
Context (E : env) (th : nat) (sched : list nat -> stree) (pick : list nat -> nat) (clock : nat -> f64) (stamp : nat -> string).
Notation E' := (elsewhere th sched pick clock stamp E).
Context (strict : bool) (o0 : oqnlp).
(** equal but for the files and the record, which the driver does not read after its start *)
Definition alike (s t : st) : Prop :=
  s_o s = s_o t /\ d_tick (w_disk (s_w s)) = d_tick (w_disk (s_w t)) /\ w_tick (s_w s) = w_tick (s_w t).
Definition counts {A} (r : outcome oq_error A) : Prop := strict = true \/ exists a, r = Ok a.
Definition agree {A} (m m' : OM A) : Prop := forall s t, alike s t -> same_config o0 (s_o s) ->
  same_config o0 (s_o (snd (m s))) /\ (counts (fst (m s)) -> fst (m' t) = fst (m s) /\ alike (snd (m s)) (snd (m' t))).
Lemma g_bind A B (m m' : OM A) (k k' : A -> OM B) : agree m m' -> (forall a, agree (k a) (k' a)) -> agree (bind m k) (bind m' k').
Proof.
  intros H K s t Hst Hs. unfold bind. destruct (H s t Hst Hs) as [C G]. destruct (m s) as [[a|e|] s1]; cbn [fst snd] in *.
  - destruct (G (or_intror (ex_intro _ a eq_refl))) as [G1 G2]. destruct (m' t) as [r t1]. cbn [fst snd] in *. subst r.
    apply K; assumption.
  - split; [exact C|]. intros [X|[a X]]; [|discriminate]. destruct (G (or_introl X)) as [G1 G2]. destruct (m' t) as [r t1].
    cbn [fst snd] in *. subst r. auto.
  - split; [exact C|]. intros [X|[a X]]; [|discriminate]. destruct (G (or_introl X)) as [G1 G2]. destruct (m' t) as [r t1].
    cbn [fst snd] in *. subst r. auto.
Qed.
Lemma g_read A (k k' : oqnlp -> OM A) : (forall o, same_config o0 o -> agree (k o) (k' o)) -> agree (bind the_oqnlp k) (bind the_oqnlp k').
Proof.
  intros H s t Hst Hs. pose proof (H (s_o s) Hs s t Hst Hs) as G. destruct Hst as [Ho _].
  change (bind the_oqnlp k s) with (k (s_o s) s). change (bind the_oqnlp k' t) with (k' (s_o t) t). rewrite <- Ho. exact G.
Qed.
Lemma g_ret A (a : A) : agree (ret a) (ret a).
Proof. intros s t Hst Hs. split; [exact Hs|]. auto. Qed.
Lemma g_panic A : agree (@panic st oq_error A) panic.
Proof. intros s t Hst Hs. split; [exact Hs|]. auto. Qed.
Lemma g_fail A e : agree (@fail st oq_error A e) (fail e).
Proof. intros s t Hst Hs. split; [exact Hs|]. auto. Qed.
Lemma g_result A (r r' : outcome oq_error A) : (counts r -> r' = r) -> agree (of_result r) (of_result r').
Proof. intros H s t Hst Hs. split; [exact Hs|]. cbn. intros G. split; [auto|exact Hst]. Qed.
Lemma g_unwrap A (o : option A) : agree (unwrap o) (unwrap o).
Proof. destruct o; [apply g_ret|apply g_panic]. Qed.
Lemma g_upd f : (forall o, same_config o (f o)) -> agree (upd f) (upd f).
Proof.
  intros H s t (H1 & H2 & H3) Hs. split; [exact (same_config_trans _ _ _ Hs (H (s_o s)))|]. intros _. split; [reflexivity|].
  split; [cbn; rewrite H1; reflexivity|split; assumption].
Qed.
Lemma g_emit l l' : agree (emit l) (emit l').
Proof. intros s t (H1 & H2 & H3) Hs. split; [exact Hs|]. intros _. split; [reflexivity|]. split; [exact H1|split; assumption]. Qed.
Lemma g_tick : agree tick tick.
Proof.
  intros s t (H1 & H2 & H3) Hs. split; [exact Hs|]. intros _. split; [cbn; rewrite H3; reflexivity|].
  split; [exact H1|split; [exact H2|cbn; rewrite H3; reflexivity]].
Qed.
Lemma g_solver A (r : outcome ls_error A) : agree (of_solver r) (of_solver r).
Proof. destruct r; [apply g_ret|apply g_fail|apply g_panic]. Qed.
End Agree.
Ltac cfg := solve [ intros; repeat split ].
Ltac ag1 :=
  match goal with
  | |- agree _ _ (bind the_oqnlp _) _ => apply g_read; intros ? ?
  | |- agree _ _ (bind _ _) _ => apply g_bind; [|intro]
  | |- agree _ _ (ret _) _ => apply g_ret
  | |- agree _ _ panic _ => apply g_panic
  | |- agree _ _ (fail _) _ => apply g_fail
  | |- agree _ _ (upd _) _ => apply g_upd; cfg
  | |- agree _ _ (obs _) _ => apply g_upd; cfg
  | |- agree _ _ (emit _) _ => apply g_emit
  | |- agree _ _ tick _ => apply g_tick
  | |- agree _ _ (unwrap _) _ => apply g_unwrap
  | |- agree _ _ (of_solver _) _ => apply g_solver
  | |- agree _ _ (let '(_, _) := ?x in _) _ => destruct x
  | |- agree _ _ (if ?b then _ else _) _ => destruct b
  | |- agree _ _ (match ?x with _ => _ end) _ => destruct x
  end.
Ltac ag := repeat ag1.

Section Driver.
Context (E : env) (th : nat) (sched : list nat -> stree) (pick : list nat -> nat) (clock : nat -> f64) (stamp : nat -> string).
Notation E' := (elsewhere th sched pick clock stamp E).
Context (strict : bool) (o0 : oqnlp).
Notation agree := (agree strict o0).
Lemma g_callback i : agree (callback E i) (callback E' i).
Proof.
  unfold callback. change (Env.e_callback E') with (Env.e_callback E). apply g_read. intros o _.
  destruct (o_observer o) as [ob|]; [|ag]. destruct (ob_callback ob); [|ag].
  destruct (invoke_callback (Env.e_callback E) ob). ag.
Qed.
Lemma g_callback_at i : agree (callback_at E i) (callback_at E' i).
Proof. unfold callback_at. ag. apply g_callback. Qed.
Lemma g_write c cp cp' i : agree (on_disk (save_checkpoint E c cp i)) (on_disk (save_checkpoint E' c cp' i)).
Proof.
  intros s t (H1 & H2 & H3) Hs. unfold on_disk, save_checkpoint, fs_write, next_io, bind.
  change (e_io E') with (e_io E). rewrite <- H2.
  destruct (e_io E (d_tick (w_disk (s_w s)))); cbn -[enc_checkpoint file_name put_file firstn];
    (split; [exact Hs|]; intros _; split; [reflexivity|]; split; [exact H1|]; split; [exact eq_refl || (cbn; congruence)|exact H3]).
Qed.
Lemma g_any A B (m m' : OM A) (k k' : A -> OM B) :
  (forall s t, alike s t -> exists a a' s1 t1, m s = (Ok a, s1) /\ m' t = (Ok a', t1) /\ alike s1 t1 /\ s_o s1 = s_o s) ->
  (forall a a', agree (k a) (k' a')) -> agree (bind m k) (bind m' k').
Proof.
  intros H K s t Hst Hs. destruct (H s t Hst) as (a & a' & s1 & t1 & H1 & H2 & H3 & H4). unfold bind. rewrite H1, H2.
  apply K; [exact H3|]. rewrite H4. exact Hs.
Qed.
Lemma g_save c : agree (save_now E c) (save_now E' c).
Proof.
  unfold save_now. apply g_any.
  - intros s t (H1 & H2 & H3). unfold create_checkpoint. do 4 eexists. split; [reflexivity|]. split; [reflexivity|].
    split; [|reflexivity]. split; [exact H1|]. split; [exact H2|]. cbn. congruence.
  - intros cp cp'. apply g_read. intros o _. apply g_bind; [apply g_emit|intros _]. apply g_bind; [apply g_write|intros _; apply g_ret].
Qed.
Lemma g_maybe_save : agree (maybe_save_checkpoint E) (maybe_save_checkpoint E').
Proof. unfold maybe_save_checkpoint. ag. apply g_save. Qed.
Lemma g_final_save : agree (maybe_save_final_checkpoint E) (maybe_save_final_checkpoint E').
Proof. unfold maybe_save_final_checkpoint. ag. apply g_save. Qed.
Lemma g_process sol : agree (process_local_solution E sol) (process_local_solution E' sol).
Proof.
  change (process_local_solution E' sol) with (process_local_solution E sol).
  unfold process_local_solution, set_solutions, set_threshold, add_to_filter. ag.
Qed.
Lemma g_begin i u : agree (begin_iteration E i u) (begin_iteration E' i u).
Proof. change (begin_iteration E' i u) with (begin_iteration E i u). unfold begin_iteration. ag. Qed.
Lemma g_obs_iteration i u : agree (obs_iteration i u) (obs_iteration i u).
Proof. unfold obs_iteration. ag. Qed.
Lemma g_obs_search a n : agree (obs_search a n) (obs_search a n).
Proof. unfold obs_search. ag. Qed.
Lemma g_count u : agree (count_unchanged u) (count_unchanged u).
Proof. unfold count_unchanged, adjust_threshold. ag. Qed.
Lemma g_threshold v : agree (set_threshold v) (set_threshold v).
Proof. unfold set_threshold. ag. Qed.
Lemma g_same A (r : outcome oq_error A) : agree (of_result r) (of_result r).
Proof. apply g_result. auto. Qed.
Ltac ag2 := repeat match goal with
  | |- ReproP.agree _ _ (callback _ _) _ => apply g_callback
  | |- ReproP.agree _ _ (callback_at _ _) _ => apply g_callback_at
  | |- ReproP.agree _ _ (maybe_save_checkpoint _) _ => apply g_maybe_save
  | |- ReproP.agree _ _ (maybe_save_final_checkpoint _) _ => apply g_final_save
  | |- ReproP.agree _ _ (process_local_solution _ _) _ => apply g_process
  | |- ReproP.agree _ _ (begin_iteration _ _ _) _ => apply g_begin
  | |- ReproP.agree _ _ (obs_iteration _ _) _ => apply g_obs_iteration
  | |- ReproP.agree _ _ (obs_search _ _) _ => apply g_obs_search
  | |- ReproP.agree _ _ (count_unchanged _) _ => apply g_count
  | |- ReproP.agree _ _ (set_threshold _) _ => apply g_threshold
  | |- ReproP.agree _ _ (of_result _) _ => apply g_same
  | _ => ag1
  end.
Lemma g_one objs i p u : agree (process_one_seq E objs i p u) (process_one_seq E' objs i p u).
Proof. unfold process_one_seq, emit_eval. change (solve_tracked E') with (solve_tracked E). change (target_reached E') with (target_reached E). ag2. Qed.
Lemma g_seq start resumed objs b : forall u, agree (process_batch_sequential E start resumed objs b u) (process_batch_sequential E' start resumed objs b u).
Proof.
  induction b as [|[i p] b IH]; intro u; cbn [process_batch_sequential]; [apply g_ret|].
  destruct (resumed && (i <? start)); [apply IH|]. apply g_bind; [apply g_one|]. intros [v stop]. destruct stop; [apply g_ret|apply IH].
Qed.
Lemma g_quicks l : forall u, agree (process_quicks E l u) (process_quicks E' l u).
Proof.
  induction l as [|[[i p] v] l IH]; intro u; cbn [process_quicks]; [apply g_ret|]. apply g_bind; [|intro; apply IH].
  unfold process_quick. ag2.
Qed.
Lemma g_par_results l : forall u, agree (process_par_results E l u) (process_par_results E' l u).
Proof.
  induction l as [|[[[i p] v] [sol n]] l IH]; intro u; cbn [process_par_results]; [apply g_ret|].
  apply g_bind; [|intro; ag2; apply IH]. unfold process_par_result. change (target_reached E') with (target_reached E). ag2.
Qed.
Lemma g_singles l : forall u, agree (process_singles E l u) (process_singles E' l u).
Proof.
  induction l as [|[[i p] v] l IH]; intro u; cbn [process_singles]; [apply g_ret|].
  apply g_bind; [|intro; ag2; apply IH]. unfold process_single. change (solve_tracked E') with (solve_tracked E).
  change (target_reached E') with (target_reached E). ag2.
Qed.
Lemma collect_any A k k' (l : list (outcome oq_error A)) : (exists v, par_collect k l = Ok v) -> par_collect k' l = par_collect k l.
Proof. unfold par_collect. destruct (existsb oc_panic l); [reflexivity|]. destruct (oc_errs l); [reflexivity|]. intros [v H]. discriminate. Qed.
Lemma g_collect A k k' (l : list (outcome oq_error A)) : strict = false -> agree (of_result (par_collect k l)) (of_result (par_collect k' l)).
Proof.
  intro Hs. apply g_result. intros [X|X]; [congruence|]. apply collect_any. exact X.
Qed.
Lemma g_par start resumed objs b u : strict = false ->
  agree (process_batch_parallel E start resumed objs b u) (process_batch_parallel E' start resumed objs b u).
Proof.
  intro Hs. unfold process_batch_parallel. change (solve_tracked E') with (solve_tracked E). change (cand_objective E') with (cand_objective E).
  cbv zeta. set (fb := if resumed then _ else _). clearbody fb. destruct (match fb with [] => true | _ => false end); [apply g_ret|].
  apply g_bind; [ag|intros _]. apply g_bind; [apply g_tick|intro t].
  apply g_bind; [apply g_collect; exact Hs|intro results]. apply g_bind; [ag|intros _]. apply g_read. intros o Ho.
  destruct (partition _ results) as [local quick]. apply g_bind; [apply g_emit|intros _].
  apply g_bind; [apply g_quicks|intro v]. apply g_read. intros o2 Ho2. apply g_bind; [|intros _; apply g_ret].
  destruct ((2 <=? List.length local) && o_parallel o2); [|apply g_singles]. apply g_bind; [apply g_emit|intros _].
  apply g_bind; [apply g_collect; exact Hs|intro rs; apply g_par_results].
Qed.
Lemma g_loop size start resumed objs l : o_max_time o0 = None -> (strict = true -> size <= 1) -> forall u,
  agree (stage2_loop E size start resumed objs l u) (stage2_loop E' size start resumed objs l u).
Proof.
  intros Hm Hz. induction l as [|b l IH]; intro u; cbn [stage2_loop]; [apply g_ret|].
  apply g_read. intros o Ho. assert (o_max_time o = None) as -> by (destruct Ho as (_ & _ & _ & -> & _); exact Hm).
  apply g_bind; [apply g_ret|]. intro a. destruct a; [apply g_ret|]. apply g_bind; [apply g_emit|intros _].
  apply g_bind.
  - destruct (1 <? size) eqn:Hl; [|apply g_seq]. apply g_par. apply Nat.ltb_lt in Hl. destruct strict; [|reflexivity].
    specialize (Hz eq_refl). lia.
  - intro v. apply g_read. intros o2 _. change (target_reached E') with (target_reached E). apply g_bind; [apply g_unwrap|].
    intro stop. destruct stop; [apply g_ret|apply IH].
Qed.
Lemma g_stage2 resumed refs objs u : o_max_time o0 = None ->
  (o_parallel o0 = false \/ (strict = false /\ (o_batch o0 <> None \/ th = e_threads E))) ->
  agree (stage2_run E resumed refs objs u) (stage2_run E' resumed refs objs u).
Proof.
  intros Hm Hp. unfold stage2_run. apply g_bind; [unfold begin_stage2; ag2|intros _]. apply g_read. intros o Ho.
  apply g_bind; [ag2|]. intro refs'. cbv zeta.
  assert (Ho' : o_parallel o = o_parallel o0 /\ o_batch o = o_batch o0) by (destruct Ho as (_ & _ & _ & _ & ? & ? & _); auto).
  assert (Z : batch_size E' o (if resumed then o_iteration o else 0) = batch_size E o (if resumed then o_iteration o else 0)).
  { unfold batch_size. destruct Ho' as [-> ->]. destruct Hp as [->|[_ [Hb|Ht]]]; [reflexivity| |].
    - destruct (o_batch o0); [reflexivity|congruence].
    - change (e_threads E') with th. rewrite Ht. reflexivity. }
  rewrite Z. set (size := batch_size E o _). apply g_bind; [|intros _; unfold final_set; ag2].
  destruct (size =? 0); [apply g_panic|]. apply g_loop; [exact Hm|]. intro Hs. subst size. unfold batch_size.
  destruct Hp as [Hp|[? _]]; [|congruence]. destruct Ho' as [-> _]. rewrite Hp. cbn. lia.
Qed.
Lemma g_stage1 : (forall o t s3, same_config o0 o -> stage1_init E o t = Ok s3 -> ss_run E' s3 = ss_run E s3) ->
  agree (stage1_run E) (stage1_run E').
Proof.
  intro Hss. unfold stage1_run, end_stage1, stage1_enter. apply g_read. intros o Ho. apply g_bind; [apply g_tick|]. intro t.
  change (stage1_init E' o t) with (stage1_init E o t). destruct (stage1_init E o t) as [s3|e|] eqn:Hi; [|ag2|ag2].
  rewrite (Hss _ _ _ Ho Hi). destruct (ss_run E s3) as [[[pts cand]|e|] sf]; [|ag2|ag2].
  change (solve_tracked E') with (solve_tracked E). change (target_reached E') with (target_reached E). cbv zeta. ag2.
Qed.
End Driver.

(** ** The three cases *)
Section Runs.
Context (E : env) (th : nat) (sched : list nat -> stree) (pick : list nat -> nat) (clock : nat -> f64) (stamp : nat -> string).
Notation E' := (elsewhere th sched pick clock stamp E).
Lemma alike_refl s : alike s s.
Proof. repeat split. Qed.
(** a run is the attempt to resume and the rest *)
Lemma run_split strict s : 
  (forall b s1, try_resume_from_checkpoint E s = (Ok b, s1) -> same_config (s_o s1) (s_o (snd (run E s))) ->
     agree strict (s_o s1) (run_rest E b) (run_rest E' b)) ->
  (strict = true \/ exists set, fst (run E s) = Ok set) ->
  fst (run E' s) = fst (run E s) /\ s_o (snd (run E' s)) = s_o (snd (run E s)).
Proof.
  intros H C. 
  assert (R : forall X, run X s = match try_resume_from_checkpoint X s with
    | (Ok b, s1) => run_rest X b s1 | (Err e, s1) => (Err e, s1) | (Panic, s1) => (Panic, s1) end).
  { intro X. unfold run, bind at 1. destruct (try_resume_from_checkpoint X s) as [[[|]|e|] s1]; reflexivity. }
  rewrite (R E), (R E') in *. change (try_resume_from_checkpoint E' s) with (try_resume_from_checkpoint E s).
  destruct (try_resume_from_checkpoint E s) as [[b|e|] s1]; [|split; reflexivity|split; reflexivity].
  assert (K : same_config (s_o s1) (s_o (snd (run_rest E b s1)))).
  { destruct (run_rest E b s1) as [r s2] eqn:Hr. exact (rest_config _ _ _ _ _ Hr). }
  destruct (H b s1 eq_refl K s1 s1 (alike_refl _) (same_config_refl _)) as [_ G]. destruct (G C) as [G1 (G2 & _)].
  split; [exact G1|symmetry; exact G2].
Qed.
Lemma rest_agree strict o0 b : o_max_time o0 = None ->
  (o_parallel o0 = false \/ (strict = false /\ (o_batch o0 <> None \/ th = e_threads E))) ->
  (b = false -> forall o t s3, same_config o0 o -> stage1_init E o t = Ok s3 -> ss_run E' s3 = ss_run E s3) ->
  agree strict o0 (run_rest E b) (run_rest E' b).
Proof.
  intros Hm Hp Hs. unfold run_rest. destruct b; cbv iota.
  - apply g_read. intros o Ho. apply g_stage2; assumption.
  - apply (g_bind strict o0 _ _ (stage1_run E) (stage1_run E')); [apply g_stage1; exact (Hs eq_refl)|]. intros [[refs objs]|]; [apply g_stage2; assumption|]. unfold final_set. ag.
Qed.
Lemma init_parallel o t s3 : stage1_init E o t = Ok s3 -> ss_parallel s3 = o_parallel o.
Proof.
  unfold stage1_init. destruct (ss_new E (o_params o) t) as [s0|e|]; [|discriminate|discriminate]. intro H. injection H as <-.
  destruct (observes1 o), (o_custom o); reflexivity.
Qed.
Lemma repro_sequential s : env_ok E -> o_max_time (s_o (snd (run E s))) = None -> o_parallel (s_o (snd (run E s))) = false ->
  fst (run E' s) = fst (run E s) /\ s_o (snd (run E' s)) = s_o (snd (run E s)).
Proof.
  intros HE Hm Hp. apply (run_split true); [|left; reflexivity]. intros b s1 _ K.
  assert (M : o_max_time (s_o s1) = None) by (destruct K as (_ & _ & _ & <- & _); exact Hm).
  assert (P : o_parallel (s_o s1) = false) by (destruct K as (_ & _ & _ & _ & _ & <- & _); exact Hp).
  apply rest_agree; auto. intros _ o t s3 Ho Hi. apply elsewhere_sequential; [exact HE|]. rewrite (init_parallel _ _ _ Hi).
  destruct Ho as (_ & _ & _ & _ & _ & -> & _). exact P.
Qed.
Lemma repro_parallel s set : env_ok E -> o_max_time (s_o (snd (run E s))) = None ->
  (o_batch (s_o (snd (run E s))) <> None \/ th = e_threads E) ->
  (fst (try_resume_from_checkpoint E s) = Ok true \/
   p_population (o_params (s_o (snd (run E s)))) <= 8 /\
   List.length (match o_custom (s_o (snd (run E s))) with Some c => c | None => [] end) <= 5) ->
  fst (run E s) = Ok set ->
  fst (run E' s) = Ok set /\ s_o (snd (run E' s)) = s_o (snd (run E s)).
Proof.
  intros HE Hm Hb Hs Hr. rewrite <- Hr. apply (run_split false); [|right; eauto]. intros b s1 Ht K.
  assert (M : o_max_time (s_o s1) = None) by (destruct K as (_ & _ & _ & <- & _); exact Hm).
  apply rest_agree; [exact M|right; split; [reflexivity|]; destruct K as (_ & _ & _ & _ & <- & _); exact Hb|].
  intros Hf o t s3 Ho Hi. destruct Hs as [Hs|[Hs1 Hs2]]; [rewrite Ht in Hs; cbn in Hs; congruence|].
  destruct (stage1_init_built _ _ _ _ Hi) as [B C]. apply (elsewhere_small E _ _ th sched pick clock stamp HE B).
  - destruct Ho as (-> & _). destruct K as (<- & _). exact Hs1.
  - rewrite C. destruct Ho as (_ & _ & _ & _ & _ & _ & _ & _ & _ & -> & _). destruct K as (_ & _ & _ & _ & _ & _ & _ & _ & _ & <- & _). exact Hs2.
Qed.
End Runs.

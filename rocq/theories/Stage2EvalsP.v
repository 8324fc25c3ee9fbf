(** * What the evaluation counter of Stage 2 counts (C81) *)
From Coq Require Import ZArith NArith List Bool Arith Lia String Permutation.
From Verif Require Import F64 Base Builders Types Filters Runner Observer Env EnvSpec
  ScatterSearch Codec Checkpoint Oqnlp Spec SpecStage2 SpecObserver SolverP Wp Actions RunP SetP FrameP EmitsP FilterP CountP HoareP SeqP SeqP3 AllP CallsP.
Import ListNotations.

Definition g3 (ob : observer) : obs_mode * option nat := (ob_mode ob, option_map s2_evals (ob_stage2 ob)).
(** the settings that Stage 2 keeps *)
Definition kept (o : oqnlp) : solver_type * solver_config * params * option f64 * bool :=
  (o_solver_type o, o_solver_config o, o_params o, o_target o, o_parallel o).
Definition tally3 (o : oqnlp) : option (obs_mode * option nat) := option_map g3 (o_observer o).
Definition view3 (o : oqnlp) := (tally3 o, kept o).

Section Evals.
Context (E : env) (Hcb : callbacks_keep_stage2 E).
Lemma g3_of : forall a b, h2 a = h2 b -> g3 a = g3 b.
Proof. clear. intros a b H. unfold h2 in H. injection H as H1 H2. unfold g3. rewrite H1, H2. reflexivity. Qed.
Lemma g3_upd2 : forall f ob, (forall s, s2_evals (f s) = s2_evals s) -> g3 (upd_stage2 f ob) = g3 ob.
Proof.
  clear. intros f ob H. unfold upd_stage2. destruct (should_observe_stage2 ob); auto. destruct (ob_stage2 ob) as [s|] eqn:Hs; auto.
  unfold g3. simpl. rewrite Hs. simpl. rewrite H. reflexivity.
Qed.
Lemma g3_any2 : forall f ob, (forall s, s2_evals (f s) = s2_evals s) -> g3 (upd_stage2_any f ob) = g3 ob.
Proof.
  clear. intros f ob H. unfold upd_stage2_any. destruct (ob_stage2 ob) as [s|] eqn:Hs; auto.
  unfold g3. simpl. rewrite Hs. simpl. rewrite H. reflexivity.
Qed.
(** ** Steps that keep the counter *)
Lemma v_obs : forall f, (forall ob, g3 (f ob) = g3 ob) -> keeps view3 (obs f).
Proof. clear. intros f H s. unfold view3, tally3. simpl. destruct (o_observer (s_o s)); simpl; [rewrite H|]; reflexivity. Qed.
Lemma v_callback : forall i, keeps view3 (callback E i).
Proof.
  intros i s. unfold callback, bind, the_oqnlp, get, ret, bind. simpl. destruct (o_observer (s_o s)) as [ob|] eqn:Ho; [|reflexivity].
  destruct (ob_callback ob) as [cb|] eqn:Hc; [|reflexivity]. pose proof (g3_of _ _ (h_invoke E Hcb ob)) as C.
  destruct (invoke_callback (Env.e_callback E) ob) as [ob' m]. simpl in *. unfold view3, tally3. simpl. rewrite Ho. simpl.
  rewrite C. reflexivity.
Qed.
Ltac vk := repeat match goal with
  | |- keeps _ (obs (upd_stage1 _)) => apply v_obs; intro; apply g3_of, h_upd1
  | |- keeps _ (obs (upd_stage2 _)) => apply v_obs; intro; apply g3_upd2; intro; simpl; auto
  | |- keeps _ (obs (upd_stage2_any _)) => apply v_obs; intro; apply g3_any2; intro; simpl; auto
  | |- keeps _ (obs _) => apply v_obs; reflexivity
  | |- keeps _ (callback _ _) => apply v_callback
  | _ => kp1
  end.
Lemma v_iter : forall i u, keeps view3 (obs_iteration i u). Proof. intros. unfold obs_iteration. vk. Qed.
Lemma v_callback_at : forall i, keeps view3 (callback_at E i). Proof. intro. unfold callback_at. vk. Qed.
Lemma v_save_now : forall c, keeps view3 (save_now E c). Proof. intro. unfold save_now, create_checkpoint. vk. Qed.
Lemma v_maybe_save : keeps view3 (maybe_save_checkpoint E). Proof. unfold maybe_save_checkpoint. vk. apply v_save_now. Qed.
Lemma v_final_save : keeps view3 (maybe_save_final_checkpoint E). Proof. unfold maybe_save_final_checkpoint. vk. apply v_save_now. Qed.
Lemma v_count : forall u, keeps view3 (count_unchanged u). Proof. intro. unfold count_unchanged, adjust_threshold. vk. Qed.
Lemma v_threshold : forall v, keeps view3 (set_threshold v). Proof. intro. unfold set_threshold. vk. Qed.
Lemma v_begin : forall i u, keeps view3 (begin_iteration E i u). Proof. intros. unfold begin_iteration. vk. Qed.
Lemma v_process : forall x, keeps view3 (process_local_solution E x).
Proof. intro. unfold process_local_solution, set_solutions, set_threshold, add_to_filter. vk. Qed.
Lemma v_begin_stage2 : keeps view3 begin_stage2.
Proof.
  unfold begin_stage2. apply k_bind; [apply k_oqnlp|intro o]. apply k_bind; [apply v_obs|intro; apply v_obs; reflexivity].
  intro ob. apply g3_upd2. intro s. simpl. destruct (o_set o) as [set|]; [|auto]. simpl. destruct (best_solution set); [|auto].
  unfold s2_set_best_solution. destruct (_ || _); auto.
Qed.
Lemma v_end_stage1 : keeps view3 (end_stage1 E). Proof. unfold end_stage1, stage1_enter. vk. Qed.
Lemma v_stage1 : keeps view3 (stage1_run E).
Proof.
  intro s. unfold stage1_run. unfold bind at 1. simpl. unfold bind at 1. simpl.
  set (s1 := mk_st (s_o s) (mk_world (w_disk (s_w s)) (S (w_tick (s_w s))) (w_trace (s_w s)))).
  change (s_o s) with (s_o s1). clearbody s1. generalize (w_tick (s_w s)). clear s. intro t. rename s1 into s.
  destruct (stage1_init E (s_o s) t) as [s3|e|] eqn:Hi; [|reflexivity|reflexivity].
  assert (Ho : observes1 (s_o s) = true -> ss_observer s3 = o_observer (s_o s)).
  { intro H. unfold stage1_init in Hi. destruct (ss_new E (o_params (s_o s)) t); try discriminate Hi. rewrite H in Hi. injection Hi as <-. reflexivity. }
  pose proof (sg_run E Hcb s3) as Hk. destruct (ss_run E s3) as [res sf] eqn:Hr. simpl in Hk.
  set (s' := if observes1 (s_o s) then changed (set_o_observer (ss_observer sf)) s else s).
  assert (F : view3 (s_o s') = view3 (s_o s)).
  { unfold s'. destruct (observes1 (s_o s)); [|reflexivity]. unfold view3, tally3. simpl. rewrite (Ho eq_refl) in Hk.
    change (kept (set_o_observer (ss_observer sf) (s_o s))) with (kept (s_o s)). f_equal.
    destruct (ss_observer sf) as [a|], (o_observer (s_o s)) as [b|]; try discriminate Hk; [|reflexivity].
    simpl in *. f_equal. apply g3_of. congruence. }
  assert (X : (if observes1 (s_o s) then upd (set_o_observer (ss_observer sf)) else ret tt) s = (Ok tt, s')).
  { unfold s'. destruct (observes1 (s_o s)); reflexivity. }
  rewrite (bind_ok _ _ _ _ _ _ _ X). rewrite <- F. clear X F Hk Ho Hi. generalize s'. clear s' s s3 Hr t.
  match goal with |- forall s, view3 (s_o (snd (?m s))) = _ => change (keeps view3 m) end.
  apply k_bind; [apply k_emit|intro]. destruct res as [[pts cand]|e|]; [|apply k_fail|apply k_panic]. cbv zeta. unfold stage1_enter.
  repeat (apply k_bind; [first [apply v_process|apply v_threshold|vk]|intro]).
  match goal with |- keeps _ (if ?b then _ else _) => destruct b end.
  - apply k_bind; [apply v_end_stage1|intro; apply k_ret].
  - apply k_bind; [apply k_upd; reflexivity|intro]. apply k_bind; [apply v_end_stage1|intro; apply k_ret].
Qed.
(** ** Work recorded and work counted *)
Context (o0 : oqnlp) (md : obs_mode) (e0 : nat) (ex : bool) (Hmd : md <> Stage1Only).
Definition idle (e : event) : Prop := match e with EvObjective _ _ | EvSearch (Some _) _ => False | _ => True end.
Lemma work_idle : forall new l n, Forall idle new -> stage2_work E o0 l n -> stage2_work E o0 (new ++ l) n.
Proof.
  clear. intros new l n H Hw. induction H as [|e new He H IH]; [exact Hw|]. simpl. apply work_other; [| |exact IH].
  - intros i p ->. exact He.
  - intros i p ->. exact He.
Qed.
(** [C k]: all but [k] of the recorded evaluations are counted, or (unless exact) fewer *)
Definition C (k : nat) (s : st) : Prop := exists m n, stage2_work E o0 (trace s) n /\
  tally3 (s_o s) = Some (md, Some (e0 + m)) /\ kept (s_o s) = kept o0 /\ (if ex then m + k = n else m + k <= n).
Lemma c_keep : forall A (m : OM A) k, emits idle m -> keeps view3 m -> spec any (C k) m (fun _ => C k).
Proof.
  intros A m k He Hk s (a & n & H1 & H2 & H3 & H4). destruct (He s) as (new & Hn & Hp). specialize (Hk s). unfold view3 in Hk. injection Hk as K1 K2.
  assert (X : C k (snd (m s))).
  { exists a, n. split; [rewrite Hn; apply work_idle; auto|]. split; [congruence|]. split; [|exact H4].
    unfold kept in *. congruence. }
  destruct (m s) as [[x|e|] s']; simpl in *; try exact I. exact X.
Qed.
Lemma c_read : forall A (K : oqnlp -> OM A) k Q,
  (forall o, observes2 o = true -> kept o = kept o0 -> spec any (C k) (K o) Q) -> spec any (C k) (bind the_oqnlp K) Q.
Proof.
  intros A K k Q H s Hs. unfold bind, the_oqnlp, get, ret, bind. simpl. apply H; [| |exact Hs].
  - destruct Hs as (a & n & _ & Ht & _). unfold tally3 in Ht. unfold observes2. destruct (o_observer (s_o s)) as [ob|]; [|discriminate Ht].
    simpl in Ht. unfold g3 in Ht. unfold should_observe_stage2. destruct (ob_stage2 ob); [|discriminate Ht]. injection Ht as -> _.
    destruct md; congruence.
  - destruct Hs as (a & n & _ & _ & Hk & _). exact Hk.
Qed.
(** counting [a] evaluations *)
Lemma c_count : forall f a k, (forall s, s2_evals (f s) = s2_evals s + a) ->
  spec any (C (a + k)) (obs (upd_stage2 f)) (fun _ => C k).
Proof.
  intros f a k Hf s (m & n & H1 & H2 & H3 & H4). simpl. exists (m + a), n. split; [exact H1|]. split; [|split; [exact H3|destruct ex; lia]].
  unfold tally3 in *. simpl. destruct (o_observer (s_o s)) as [ob|]; [|discriminate H2]. simpl in *. f_equal.
  unfold g3 in H2. unfold upd_stage2, should_observe_stage2. destruct (ob_stage2 ob) as [x|] eqn:Hx; [|discriminate H2].
  simpl in H2. injection H2 as Hm He. rewrite Hm.
  assert (G : g3 (set_stage2 (Some (f x)) ob) = (md, Some (e0 + (m + a)))) by (unfold g3; simpl; rewrite Hm, Hf, He; f_equal; f_equal; lia).
  destruct md; [congruence|exact G|exact G].
Qed.
Lemma c_search : forall b n k, spec any (C (N.to_nat n + k)) (obs_search b n) (fun _ => C k).
Proof.
  intros b n k. unfold obs_search. apply c_read. intros o _ _. apply c_count. intro s. cbv zeta.
  destruct (o_set o) as [set|]; [|reflexivity]. simpl. destruct (best_solution set) as [x|]; [|reflexivity].
  unfold s2_set_best_solution. destruct (_ || _); reflexivity.
Qed.
(** recording the evaluation of candidates *)
Lemma c_objective : forall A (f : A -> nat * point) l k, spec any (C k) (emit (map (fun x => EvObjective (fst (f x)) (snd (f x))) l)) (fun _ => C (List.length l + k)).
Proof.
  clear Hcb Hmd. intros A f l k s (m & n & H1 & H2 & H3 & H4). simpl. exists m, (List.length l + n). split; [|split; [exact H2|split; [exact H3|destruct ex; lia]]].
  unfold trace. simpl. rewrite <- map_rev, <- rev_length. induction (rev l) as [|x r IH]; simpl; [exact H1|]. apply work_candidate. exact IH.
Qed.
(** recording the searches of candidates *)
Fixpoint reports (rs : list (nat * point * f64 * (lsol * N))) : nat :=
  match rs with [] => 0 | (_, (_, n)) :: r => N.to_nat n + reports r end.
Definition answers (c : nat * point * f64) (r : nat * point * f64 * (lsol * N)) : Prop :=
  fst r = c /\ tracked_search E o0 (snd (fst c)) (N.to_nat (snd (snd r))).
Lemma work_app : forall a b m n, stage2_work E o0 a m -> stage2_work E o0 b n -> stage2_work E o0 (a ++ b) (m + n).
Proof.
  clear. intros a b m n H Hb. induction H as [|i p l n' H IH|i p k l n' Hk H IH|e l n' H1 H2 H IH]; simpl.
  - exact Hb.
  - apply work_candidate. exact IH.
  - rewrite <- Nat.add_assoc. apply work_search; [exact Hk|exact IH].
  - apply work_other; auto.
Qed.
Lemma c_searches : forall local rs k, Forall2 answers local rs ->
  spec any (C k) (emit (map (fun c : nat * point * f64 => EvSearch (Some (fst (fst c))) (snd (fst c))) local)) (fun _ => C (reports rs + k)).
Proof.
  clear Hcb Hmd. intros local rs k H s (m & n & H1 & H2 & H3 & H4). simpl. exists m, (reports rs + n). split; [|split; [exact H2|split; [exact H3|destruct ex; lia]]].
  unfold trace. simpl. apply work_app; [|exact H1].
  clear -H. induction H as [|[[i p] v] [c [x n]] l r [A B] H IH]; simpl; [constructor|].
  rewrite Nat.add_comm. apply work_app; [exact IH|]. rewrite <- (Nat.add_0_r (N.to_nat n)). apply work_search; [exact B|constructor].
Qed.
Lemma c_weak : forall k k' s, ex = false -> k <= k' -> C k' s -> C k s.
Proof.
  clear. intros k k' s He H (m & n & H1 & H2 & H3 & H4). exists m, n. split; [auto|]. split; [auto|]. split; [auto|].
  destruct ex; [discriminate He|lia].
Qed.
Ltac pe := repeat match goal with |- Forall idle _ => constructor | |- idle _ => exact I end.
Ltac fe := first [ apply e_callback_at; side | apply e_maybe_save; side | apply e_final_save; side | apply e_obs_iteration
  | apply EmitsP.e_callback; side | apply e_count; side | apply e_threshold; exact I | apply e_begin; exact I
  | apply e_process; intros; exact I | apply e_emit; solve [pe] | apply e_emit_map; intro; exact I ].
Ltac ge := repeat first [ fe | em1 ].
Ltac vt := repeat match goal with
  | |- keeps _ (callback_at _ _) => apply v_callback_at
  | |- keeps _ (maybe_save_checkpoint _) => apply v_maybe_save
  | |- keeps _ (count_unchanged _) => apply v_count
  | |- keeps _ (set_threshold _) => apply v_threshold
  | |- keeps _ (begin_iteration _ _ _) => apply v_begin
  | |- keeps _ (obs_iteration _ _) => apply v_iter
  | |- keeps _ (process_local_solution _ _) => apply v_process
  | _ => progress vk
  end.
Ltac ck := eapply sp_bind; [apply c_keep; [ge|vt]|intro; cbv beta].
Lemma kept_solver : forall o, kept o = kept o0 -> o_solver_type o = o_solver_type o0 /\ o_solver_config o = o_solver_config o0 /\
  o_params o = o_params o0 /\ o_target o = o_target o0 /\ o_parallel o = o_parallel o0.
Proof. clear. unfold kept. intros o H. injection H. auto 6. Qed.
Lemma c_result : forall A k (r : outcome oq_error A), spec any (C k) (of_result r) (fun _ => C k).
Proof. clear. intros A k r s H. unfold of_result. destruct r; simpl; try exact I. exact H. Qed.
(** a search of one candidate *)
Lemma c_solve : forall A i p o k (K : lsol * N -> OM A) Q, observes2 o = true -> kept o = kept o0 ->
  (forall r, spec any (C (N.to_nat (snd r) + k)) (K r) Q) ->
  spec any (C k) (bind (emit [EvSearch (Some i) p]) (fun _ => bind (of_solver (solve_tracked E (o_solver_type o) (o_solver_config o) p (observes2 o))) K)) Q.
Proof.
  intros A i p o k K Q Ho Hk HK s Hs. unfold bind at 1. cbn [emit modify].
  unfold solve_tracked. rewrite Ho. destruct (kept_solver o Hk) as (-> & -> & _). unfold bind at 1.
  destruct (solve_with_tracking (e_ext E) (e_problem E) (o_solver_type o0) (o_solver_config o0) p true) as [[x n]|er|] eqn:Hsv; try exact I.
  cbn [of_solver ret]. apply (HK (x, n)). destruct Hs as (m & w & H1 & H2 & H3 & H4). exists m, (N.to_nat n + w).
  split; [|split; [exact H2|split; [exact H3|simpl; destruct ex; lia]]].
  unfold trace. simpl. apply work_search; [|exact H1]. exists (o_solver_type o0), (o_solver_config o0), x, n. auto.
Qed.
Lemma c_one : forall objs i p u, spec any (C 0) (process_one_seq E objs i p u) (fun _ => C 0).
Proof.
  intros objs i p u. unfold process_one_seq, emit_eval. ck. ck.
  set (k := match objs with Some _ => 0 | None => 1 end).
  eapply sp_bind with (Q := fun _ => C k).
  { destruct objs as [v|]; [apply sp_ret; auto|]. unfold k. exact (c_objective _ (fun x => x) [(i, p)] 0). }
  intros _. eapply sp_bind; [apply c_result|intro obj; cbv beta].
  eapply sp_bind with (Q := fun _ => C 0).
  { unfold k. destruct objs as [v|]; [apply sp_ret; auto|]. apply (c_count (s2_add_evals 1) 1 0). reflexivity. }
  intros _. clear k. apply c_read. intros o Ho Hk. cbv zeta. ck.
  eapply sp_bind with (Q := fun _ => C 0).
  - destruct (should_start_local o p obj).
    + ck. apply c_solve; auto. intro r. ck. eapply sp_bind; [apply c_search|intro; cbv beta]. ck. ck. apply sp_ret; auto.
    + ck. apply sp_ret; auto.
  - intros [u' stop]. destruct stop; [apply sp_ret; auto|]. ck. ck. apply sp_ret; auto.
Qed.
Lemma c_seq : forall start res objs b u, spec any (C 0) (process_batch_sequential E start res objs b u) (fun _ => C 0).
Proof.
  intros start res objs b. induction b as [|[i p] b IH]; intro u; [apply sp_ret; auto|]. simpl.
  destruct (res && (i <? start)); [apply IH|]. eapply sp_bind; [apply c_one|intros [u' stop]; cbv beta]. simpl.
  destruct stop; [apply sp_ret; auto|apply IH].
Qed.
Lemma c_singles : forall l u, spec any (C 0) (process_singles E l u) (fun _ => C 0).
Proof.
  induction l as [|[[i p] v] l IH]; intro u; [apply sp_ret; auto|]. simpl.
  eapply sp_bind with (Q := fun _ => C 0); [|intros [|]; [apply sp_ret; auto|apply IH]].
  unfold process_single. ck. ck. apply c_read. intros o Ho Hk. apply c_solve; auto. intro r. ck.
  eapply sp_bind; [apply c_search|intro; cbv beta]. ck. ck. ck. ck.
  match goal with |- spec _ _ (if ?c then _ else _) _ => destruct c end; [apply sp_ret; auto|]. ck. apply sp_ret; auto.
Qed.
(** the searches of a batch: the results after the target is reached are lost *)
Definition nothing_lost : Prop := ex = true -> o_target o0 = None.
Lemma c_results : nothing_lost -> forall l u, spec any (C (reports l)) (process_par_results E l u) (fun _ => C 0).
Proof.
  intro Hex. induction l as [|[[[i p] v] [x n]] l IH]; intro u; [apply sp_ret; auto|]. simpl.
  eapply sp_bind with (Q := fun b s => C (reports l) s /\ (b = true -> ex = false)).
  - unfold process_par_result. ck. ck. ck. eapply sp_bind; [apply c_search|intro; cbv beta]. ck. ck. apply c_read. intros o Ho Hk.
    destruct (kept_solver o Hk) as (_ & _ & _ & Ht & _).
    assert (X : target_reached E o = Some true -> ex = false).
    { intro X. destruct ex eqn:Hx; [|reflexivity]. unfold target_reached in X. rewrite Ht, (Hex Hx) in X. discriminate X. }
    destruct (target_reached E o) as [[|]|]; cbn [unwrap].
    + intros s Hs. simpl. auto.
    + eapply sp_bind with (Q := fun b s => b = false /\ C (reports l) s); [intros s Hs; simpl; auto|]. intros b s [-> Hs]. revert s Hs.
      match goal with |- forall s, C _ s -> _ => idtac end.
      enough (Y : spec any (C (reports l)) (maybe_save_checkpoint E ;;; ret false)%monad (fun b s => C (reports l) s /\ (b = true -> ex = false))) by exact Y.
      ck. intros s Hs. simpl. split; [exact Hs|discriminate].
    + intros s Hs. exact I.
  - intros [|].
    + intros s [Hs He]. simpl. apply (c_weak 0 (reports l)); auto. lia.
    + eapply sp_weak; [apply IH|intros s [Hs _]; exact Hs|auto].
Qed.
Lemma answers_of : forall pick o local rs, observes2 o = true -> kept o = kept o0 ->
  par_collect pick (map (fun c : nat * point * f64 => match lift_solver (solve_tracked E (p_solver_type (o_params o))
     (p_solver_config (o_params o)) (snd (fst c)) (observes2 o)) with Ok r => Ok (c, r) | Err e => Err e | Panic => Panic end) local) = Ok rs ->
  Forall2 answers local rs.
Proof.
  intros pick o local rs Ho Hk H. apply par_collect_ok in H. destruct (kept_solver o Hk) as (_ & _ & Hp & _ & _). rewrite Ho, Hp in H. clear Ho Hp Hk.
  revert rs H. induction local as [|c l IH]; intros [|r rs] H; simpl in H; try discriminate H; [constructor|].
  injection H as H1 H2. constructor; [|apply IH; exact H2].
  unfold solve_tracked in H1. destruct (solve_with_tracking _ _ _ _ _ _) as [[x n]|e|] eqn:Hs; simpl in H1; try discriminate H1.
  injection H1 as <-. split; [reflexivity|]. simpl. eexists _, _, x, n. split; [exact Hs|]. auto.
Qed.
Lemma c_par : nothing_lost -> forall start res objs b u, spec any (C 0) (process_batch_parallel E start res objs b u) (fun _ => C 0).
Proof.
  intros Hex start res objs b u. unfold process_batch_parallel. cbv zeta.
  set (fb := if res then _ else _). destruct (match fb with [] => true | _ => false end); [apply sp_ret; auto|].
  set (k := match objs with Some _ => 0 | None => List.length fb end).
  eapply sp_bind with (Q := fun _ => C k).
  { destruct objs as [v|]; [apply sp_ret; auto|]. unfold k. rewrite <- (Nat.add_0_r (List.length fb)). exact (c_objective _ (fun x => x) fb 0). }
  intros _. ck.
  match goal with |- spec _ _ (bind (of_result ?x) _) _ => destruct x as [results|e|] eqn:Hr end; [|intros s Hs; exact I|intros s Hs; exact I].
  unfold bind at 1. cbn [of_result].
  match goal with |- spec _ _ (fun s => match (Ok results, s) with _ => _ end) _ => idtac | |- spec _ ?P ?m ?Q => change (spec any P m Q) end.
  assert (L : List.length results = List.length fb).
  { apply par_collect_ok in Hr. apply (f_equal (@List.length _)) in Hr. rewrite !map_length in Hr. auto. }
  match goal with |- spec _ _ (fun s => ?m s) ?Q => change (spec any (C k) m Q) | _ => idtac end.
  eapply sp_bind with (Q := fun _ => C 0).
  { unfold k. destruct objs as [v|]; [apply sp_ret; auto|]. rewrite <- L.
    pose proof (c_count (s2_add_evals (List.length results)) (List.length results) 0 (fun _ => eq_refl)) as Y. rewrite Nat.add_0_r in Y. exact Y. }
  intros _. apply c_read. intros o Ho Hk. destruct (partition _ _) as [local quick]. ck.
  eapply sp_bind with (Q := fun _ => C 0).
  { generalize u. induction quick as [|[[i p] obj] q IH]; intro w; simpl; [apply sp_ret; auto|].
    eapply sp_bind; [apply c_keep; [unfold process_quick; ge|unfold process_quick; vt]|intro w'; cbv beta; apply IH]. }
  intro w. apply c_read. intros o2 Ho2 Hk2.
  eapply sp_bind with (Q := fun _ => C 0); [|intro; apply sp_ret; auto].
  match goal with |- spec _ _ (if ?c then _ else _) _ => destruct c end; [|apply c_singles].
  match goal with |- spec _ _ (bind (emit ?l) (fun _ => bind (of_result ?x) _)) _ => destruct x as [rs|e|] eqn:Hrs end.
  - eapply sp_bind with (Q := fun _ => C (reports rs)).
    + rewrite <- (Nat.add_0_r (reports rs)). apply c_searches. eapply answers_of; eauto.
    + intros _. unfold bind, of_result. simpl. exact (c_results Hex rs w).
  - intros s Hs. exact I.
  - intros s Hs. exact I.
Qed.
Lemma c_loop : forall size start res objs bs u, (1 < size -> nothing_lost) ->
  spec any (C 0) (stage2_loop E size start res objs bs u) (fun _ => C 0).
Proof.
  intros size start res objs bs u Hex. revert u. induction bs as [|b bs IH]; intro u; [apply sp_ret; auto|]. simpl.
  apply c_read. intros o _ _. ck. match goal with |- spec _ _ (if ?c then _ else _) _ => destruct c end; [apply sp_ret; auto|]. ck.
  eapply sp_bind with (Q := fun _ => C 0).
  { destruct (1 <? size) eqn:Hs; [apply c_par, Hex, Nat.ltb_lt, Hs|apply c_seq]. }
  intro u'. cbv beta. ck. ck. match goal with |- spec _ _ (if ?c then _ else _) _ => destruct c end; [apply sp_ret; auto|]. apply IH.
Qed.
Lemma c_stage2 : (o_parallel o0 = true -> nothing_lost) -> forall res refs objs u,
  spec any (C 0) (stage2_run E res refs objs u) (fun _ => C 0).
Proof.
  intros Hex res refs objs u. unfold stage2_run.
  eapply sp_bind; [apply c_keep; [unfold begin_stage2; ge|apply v_begin_stage2]|intro; cbv beta].
  apply c_read. intros o _ Hk. ck. cbv zeta.
  eapply sp_bind with (Q := fun _ => C 0).
  { match goal with |- spec _ _ (if ?c then _ else _) _ => destruct c end; [intros s Hs; exact I|]. apply c_loop. intro Hs. apply Hex.
    destruct (kept_solver o Hk) as (_ & _ & _ & _ & Hp). rewrite <- Hp. unfold batch_size in Hs. destruct (o_parallel o); [reflexivity|simpl in Hs; lia]. }
  intro. eapply sp_bind; [apply c_keep; [ge|apply v_final_save]|intro; cbv beta].
  apply c_keep; [unfold final_set; ge|unfold final_set; vt].
Qed.
End Evals.
(** ** Whole runs *)
Lemma early_idle : forall l, Forall early l -> Forall idle l.
Proof. intros l H. eapply Forall_impl; [|exact H]. intros [] He; simpl in *; auto. Qed.
Lemma kept_of : forall a b, same_config a b -> kept a = kept b.
Proof. intros a b (H1 & H2 & H3 & _ & _ & H4 & H5 & _). unfold kept. congruence. Qed.
Lemma c81 : forall E ex s st0 set s' new, callbacks_keep_stage2 E -> tracks2 (s_o s) st0 ->
  run E s = (Ok set, s') -> recorded s s' new ->
  (o_parallel (s_o s') = true -> nothing_lost (s_o s') ex) ->
  exists st m n, tracks2 (s_o s') st /\ stage2_work E (s_o s') new n /\ s2_evals st = s2_evals st0 + m /\
    (if ex then m = n else m <= n).
Proof.
  intros E ex s st0 set s' new Hcb (ob & Ho & Hm & Hst0) Hrun Hnew Hex.
  destruct (run_cases E s _ s' new Hrun Hnew) as [(-> & _ & Hno)|(b & s1 & Hst & Ht & Hr & Hcfg)].
  { exfalso. eapply Hno; reflexivity. }
  set (o0 := s_o s') in *.
  assert (H1 : C E o0 (ob_mode ob) (s2_evals st0) ex 0 s1).
  { exists 0, 0. rewrite Ht. split; [constructor|]. split; [|split; [apply kept_of; exact Hcfg|destruct ex; lia]].
    assert (X : o_observer (s_o s1) = o_observer (s_o s)) by (inversion Hst; reflexivity).
    unfold tally3. rewrite X, Ho. simpl. unfold g3. rewrite Hst0. simpl. rewrite Nat.add_0_r. reflexivity. }
  assert (Fin : C E o0 (ob_mode ob) (s2_evals st0) ex 0 (ends s' new)).
  { destruct b; unfold run_rest in Hr.
    - unfold bind, the_oqnlp, get, ret, bind in Hr. simpl in Hr.
      pose proof (c_stage2 E Hcb o0 _ (s2_evals st0) ex Hm Hex true (match o_ref (s_o s1) with Some r => r | None => [] end) None (o_unchanged (s_o s1)) s1 H1) as X. rewrite Hr in X. exact X.
    - assert (X : spec any (C E o0 (ob_mode ob) (s2_evals st0) ex 0) (stage1_run E) (fun _ => C E o0 (ob_mode ob) (s2_evals st0) ex 0)).
      { apply c_keep; [|apply v_stage1; exact Hcb]. intro x. destruct (em_stage1 E x) as (pre & P1 & P2). exists pre. split; [exact P1|apply early_idle, P2]. }
      specialize (X s1 H1). unfold bind in Hr at 1. destruct (stage1_run E s1) as [[[[refs objs]|]|e|] s2]; [| |discriminate Hr..]; simpl in X.
      + pose proof (c_stage2 E Hcb o0 _ (s2_evals st0) ex Hm Hex false refs (Some objs) 0 s2 X) as Y. rewrite Hr in Y. exact Y.
      + unfold final_set, bind, the_oqnlp, get, ret, fail, bind in Hr. simpl in Hr. destruct (o_set (s_o s2)); [|discriminate Hr].
        injection Hr as _ Hr. rewrite <- Hr. exact X. }
  destruct Fin as (m & n & F1 & F2 & _ & F4). change (s_o (ends s' new)) with o0 in F2. unfold tally3 in F2.
  destruct (o_observer o0) as [ob'|] eqn:Ho'; [|discriminate F2]. simpl in F2. unfold g3 in F2.
  destruct (ob_stage2 ob') as [st|] eqn:Hs'; [|discriminate F2]. injection F2 as F2 F3.
  exists st, m, n. split; [exists ob'; rewrite F2; auto|]. split; [exact F1|]. split; [exact F3|]. rewrite Nat.add_0_r in F4. exact F4.
Qed.
Theorem c81_counted : forall E s st0 set s' new, callbacks_keep_stage2 E -> tracks2 (s_o s) st0 ->
  run E s = (Ok set, s') -> recorded s s' new -> (o_parallel (s_o s') = false \/ o_target (s_o s') = None) ->
  exists st n, tracks2 (s_o s') st /\ stage2_work E (s_o s') new n /\ s2_evals st = s2_evals st0 + n.
Proof.
  intros E s st0 set s' new H1 H2 H3 H4 H5. destruct (c81 E true s st0 set s' new H1 H2 H3 H4) as (st & m & n & X & Y & Z & W).
  - intros Hp _. destruct H5; congruence.
  - exists st, n. subst m. auto.
Qed.
Theorem c81_never_more : forall E s st0 set s' new, callbacks_keep_stage2 E -> tracks2 (s_o s) st0 ->
  run E s = (Ok set, s') -> recorded s s' new ->
  exists st n, tracks2 (s_o s') st /\ stage2_work E (s_o s') new n /\ s2_evals st <= s2_evals st0 + n.
Proof.
  intros E s st0 set s' new H1 H2 H3 H4. destruct (c81 E false s st0 set s' new H1 H2 H3 H4) as (st & m & n & X & Y & Z & W).
  - intros _ H. discriminate H.
  - exists st, n. split; [auto|]. split; [auto|]. lia.
Qed.

(** * What the Stage 2 counters of the observer count (C42) *)
From Coq Require Import ZArith NArith List Bool Arith Lia String Permutation.
From Verif Require Import F64 Base Builders Types Filters Runner Observer Env EnvSpec
  ScatterSearch Codec Checkpoint Oqnlp Spec SpecStage2 SpecObserver SolverP Wp Actions RunP SetP FrameP EmitsP FilterP CountP HoareP SeqP SeqP3 AllP.
Import ListNotations.

(** the mode and the Stage 2 state *)
Definition h2 (ob : observer) : obs_mode * option stage2 := (ob_mode ob, ob_stage2 ob).
(** the mode and the Stage 2 counters *)
Definition g2 (ob : observer) : obs_mode * option (nat * nat) :=
  (ob_mode ob, option_map (fun s => (s2_calls s, s2_improved s)) (ob_stage2 ob)).
Definition tally (o : oqnlp) : option (obs_mode * option (nat * nat)) := option_map g2 (o_observer o).

Section Calls.
Context (E : env) (Hcb : callbacks_keep_stage2 E).
Lemma h_invoke : forall ob, h2 (fst (invoke_callback (Env.e_callback E) ob)) = h2 ob.
Proof.
  intro ob. unfold invoke_callback, h2. destruct (ob_callback ob) as [[n| | |]|] eqn:Hc; simpl; auto.
  - destruct (Hcb n ob) as [-> ->]. auto.
  - unfold default_callback. destruct (match obs_stage1 ob with Some s => _ | None => _ end); [auto|].
    destruct (obs_stage2 ob) as [s2|]; [|auto]. destruct (0 <? s2_iteration s2); [|auto]. destruct (ob_filter ob); auto.
Qed.
Lemma g_of : forall a b, h2 a = h2 b -> g2 a = g2 b.
Proof. clear Hcb. intros a b H. unfold h2 in H. injection H as H1 H2. unfold g2. rewrite H1, H2. reflexivity. Qed.
Lemma g_invoke : forall ob, g2 (fst (invoke_callback (Env.e_callback E) ob)) = g2 ob.
Proof. intro ob. apply g_of, h_invoke. Qed.
Lemma h_upd1 : forall f ob, h2 (upd_stage1 f ob) = h2 ob.
Proof. clear Hcb. intros f ob. unfold upd_stage1. destruct (should_observe_stage1 ob); auto. destruct (ob_stage1 ob); auto. Qed.
Lemma g_upd1 : forall f ob, g2 (upd_stage1 f ob) = g2 ob.
Proof. clear Hcb. intros f ob. apply g_of, h_upd1. Qed.
Lemma g_upd2 : forall f ob, (forall s, s2_calls (f s) = s2_calls s /\ s2_improved (f s) = s2_improved s) -> g2 (upd_stage2 f ob) = g2 ob.
Proof.
  intros f ob H. unfold upd_stage2. destruct (should_observe_stage2 ob); auto. destruct (ob_stage2 ob) as [s|] eqn:Hs; auto.
  unfold g2. simpl. rewrite Hs. simpl. destruct (H s) as [-> ->]. reflexivity.
Qed.
Lemma g_any2 : forall f ob, (forall s, s2_calls (f s) = s2_calls s /\ s2_improved (f s) = s2_improved s) -> g2 (upd_stage2_any f ob) = g2 ob.
Proof.
  intros f ob H. unfold upd_stage2_any. destruct (ob_stage2 ob) as [s|] eqn:Hs; auto.
  unfold g2. simpl. rewrite Hs. simpl. destruct (H s) as [-> ->]. reflexivity.
Qed.
(** ** The scatter search *)
Definition sg {A} (m : M ss ss_error A) : Prop := forall s, option_map h2 (ss_observer (snd (m s))) = option_map h2 (ss_observer s).
Lemma sg_bind : forall A B (m : M ss ss_error A) (k : A -> M ss ss_error B), sg m -> (forall a, sg (k a)) -> sg (bind m k).
Proof.
  intros A B m k H1 H2 s. unfold bind. specialize (H1 s). destruct (m s) as [[a|e|] s1]; simpl in *; auto. rewrite H2. auto.
Qed.
Lemma sg_id : forall A (m : M ss ss_error A), (forall s, ss_observer (snd (m s)) = ss_observer s) -> sg m.
Proof. intros A m H s. rewrite H. reflexivity. Qed.
Lemma sg_strat : forall n, sg (generate_stratified_samples E n).
Proof.
  intro n. apply sg_id. intro s. unfold generate_stratified_samples, bind, get, ret. simpl.
  destruct (draw_seeds E n (ss_rng s)). simpl. unfold unwrap, ret, panic. destruct (all_some _); reflexivity.
Qed.
Lemma sg_ret : forall A (a : A), sg (ret a). Proof. intros A a s. reflexivity. Qed.
Lemma sg_get : sg get. Proof. intro s. reflexivity. Qed.
Lemma sg_fail : forall A e, @sg A (fail e). Proof. intros A e s. reflexivity. Qed.
Lemma sg_result : forall A r, @sg A (of_result r). Proof. intros A r s. reflexivity. Qed.
Lemma sg_unwrap : forall A (o : option A), sg (unwrap o). Proof. intros A [a|] s; reflexivity. Qed.
Lemma sg_refill : forall pop cs f a c, sg (refill E pop cs f a c).
Proof.
  intros pop cs f. induction f as [|f IH]; intros a c; simpl; [apply sg_ret|]. destruct (_ <? _); [|apply sg_ret].
  apply sg_bind; [apply sg_strat|intro; apply IH].
Qed.
Lemma sg_div : forall refs cs, sg (diversify_reference_set E refs cs).
Proof.
  intros refs cs. unfold diversify_reference_set. apply sg_bind; [apply sg_get|intro s]. apply sg_bind; [apply sg_strat|intro c0].
  apply sg_bind; [|intro; apply sg_result]. destruct cs; [apply sg_ret|]. apply sg_bind; [apply sg_refill|intros [c1 n]].
  destruct c1; [apply sg_fail|]. destruct (_ <? _); [apply sg_fail|apply sg_ret].
Qed.
Lemma sg_init : sg (initialize_reference_set E).
Proof.
  unfold initialize_reference_set. apply sg_bind; [apply sg_get|intro s]. apply sg_bind; [apply sg_div|intro refs]. cbv zeta.
  apply sg_bind; [apply sg_id; reflexivity|intro]. match goal with |- sg (match ?x with _ => _ end) => destruct x end; [apply sg_id; reflexivity|apply sg_fail].
Qed.
Lemma sg_trials : sg (generate_trial_points E).
Proof.
  unfold generate_trial_points. apply sg_bind; [apply sg_get|intro s]. cbv zeta. destruct (draw_seeds _ _ _).
  apply sg_bind; [apply sg_id; reflexivity|intro]. apply sg_bind; [apply sg_unwrap|intro; apply sg_ret].
Qed.
Lemma sg_update : forall t, sg (update_reference_set E t).
Proof.
  intro t. unfold update_reference_set. destruct t; [apply sg_ret|]. apply sg_bind; [apply sg_get|intro s]. cbv zeta.
  apply sg_bind; [apply sg_unwrap|intro thr]. apply sg_bind; [apply sg_id; reflexivity|intro].
  destruct (flat_map _ _); [apply sg_ret|]. apply sg_bind; [apply sg_unwrap|intro]. apply sg_id; reflexivity.
Qed.
Lemma sg_obs : forall f, sg (ss_obs (upd_stage1 f)).
Proof. intros f s. simpl. destruct (ss_observer s) as [ob|]; [|reflexivity]. simpl. rewrite h_upd1. reflexivity. Qed.
Lemma sg_callback : sg (ss_callback E).
Proof.
  intro s. unfold ss_callback, bind, get. destruct (ss_observer s) as [ob|] eqn:Ho; simpl; [|rewrite Ho; reflexivity].
  destruct (ob_callback ob) as [cb|] eqn:Hc; [|simpl; rewrite Ho; reflexivity].
  pose proof (h_invoke ob) as C1. destruct (invoke_callback (Env.e_callback E) ob) as [ob' m]. simpl in *. rewrite C1. reflexivity.
Qed.
Lemma sg_best : sg (ss_best_solution E).
Proof.
  unfold ss_best_solution. apply sg_bind; [apply sg_get|intro s]. cbv zeta. match goal with |- sg (match ?x with _ => _ end) => destruct x as [[? ?]|] end; [apply sg_unwrap|apply sg_fail].
Qed.
Lemma sg_run : sg (ss_run E).
Proof.
  unfold ss_run. apply sg_bind; [apply sg_init|intro]. apply sg_bind; [apply sg_obs|intro]. apply sg_bind; [apply sg_callback|intro].
  apply sg_bind; [apply sg_get|intro]. apply sg_bind; [apply sg_obs|intro]. apply sg_bind; [apply sg_callback|intro].
  apply sg_bind; [apply sg_trials|intro]. apply sg_bind; [apply sg_update|intro]. apply sg_bind; [apply sg_get|intro].
  apply sg_bind; [apply sg_obs|intro]. apply sg_bind; [apply sg_callback|intro]. apply sg_bind; [apply sg_best|intro].
  apply sg_bind; [apply sg_get|intro]. apply sg_ret.
Qed.
(** ** Steps that keep the counters *)
Lemma t_obs : forall f, (forall ob, g2 (f ob) = g2 ob) -> keeps tally (obs f).
Proof. intros f H s. unfold tally. simpl. destruct (o_observer (s_o s)); simpl; [rewrite H|]; reflexivity. Qed.
Lemma t_callback : forall i, keeps tally (callback E i).
Proof.
  intros i s. unfold callback, bind, the_oqnlp, get, ret, bind. simpl. destruct (o_observer (s_o s)) as [ob|] eqn:Ho; [|reflexivity].
  destruct (ob_callback ob) as [cb|] eqn:Hc; [|reflexivity]. pose proof (g_invoke ob) as C.
  destruct (invoke_callback (Env.e_callback E) ob) as [ob' m]. simpl in *. unfold tally. simpl. rewrite Ho. simpl. congruence.
Qed.
Lemma t_iter : forall i u, keeps tally (obs_iteration i u).
Proof. intros. unfold obs_iteration. apply k_bind; [apply k_oqnlp|intro]. apply t_obs. intro. apply g_upd2. auto. Qed.
Ltac tk := repeat match goal with
  | |- keeps _ (obs (upd_stage1 _)) => apply t_obs, g_upd1
  | |- keeps _ (obs (upd_stage2 _)) => apply t_obs; intro; apply g_upd2; intro; simpl; auto
  | |- keeps _ (obs (upd_stage2_any _)) => apply t_obs; intro; apply g_any2; intro; simpl; auto
  | |- keeps _ (obs _) => apply t_obs; reflexivity
  | |- keeps _ (callback _ _) => apply t_callback
  | |- keeps _ (obs_iteration _ _) => apply t_iter
  | _ => kp1
  end.
Lemma t_callback_at : forall i, keeps tally (callback_at E i). Proof. intro. unfold callback_at. tk. Qed.
Lemma t_save_now : forall c, keeps tally (save_now E c). Proof. intro. unfold save_now, create_checkpoint. tk. Qed.
Lemma t_maybe_save : keeps tally (maybe_save_checkpoint E). Proof. unfold maybe_save_checkpoint. tk. apply t_save_now. Qed.
Lemma t_final_save : keeps tally (maybe_save_final_checkpoint E). Proof. unfold maybe_save_final_checkpoint. tk. apply t_save_now. Qed.
Lemma t_count : forall u, keeps tally (count_unchanged u). Proof. intro. unfold count_unchanged, adjust_threshold. tk. Qed.
Lemma t_threshold : forall v, keeps tally (set_threshold v). Proof. intro. unfold set_threshold. tk. Qed.
Lemma t_begin : forall i u, keeps tally (begin_iteration E i u). Proof. intros. unfold begin_iteration. tk. Qed.
Lemma t_process : forall x, keeps tally (process_local_solution E x).
Proof. intro. unfold process_local_solution, set_solutions, set_threshold, add_to_filter. tk. Qed.
Lemma t_begin_stage2 : keeps tally begin_stage2.
Proof.
  unfold begin_stage2. apply k_bind; [apply k_oqnlp|intro o]. apply k_bind; [apply t_obs|intro; apply t_obs; reflexivity].
  intro ob. apply g_upd2. intro s. simpl. destruct (o_set o) as [set|]; [|auto]. simpl. destruct (best_solution set); [|auto].
  unfold s2_set_best_solution. destruct (_ || _); auto.
Qed.
Lemma t_end_stage1 : keeps tally (end_stage1 E). Proof. unfold end_stage1, stage1_enter. tk. Qed.
Lemma t_stage1 : keeps tally (stage1_run E).
Proof.
  intro s. unfold stage1_run. unfold bind at 1. simpl. unfold bind at 1. simpl.
  set (s1 := mk_st (s_o s) (mk_world (w_disk (s_w s)) (S (w_tick (s_w s))) (w_trace (s_w s)))).
  change (s_o s) with (s_o s1). clearbody s1. generalize (w_tick (s_w s)). clear s. intro t. rename s1 into s.
  destruct (stage1_init E (s_o s) t) as [s3|e|] eqn:Hi; [|reflexivity|reflexivity].
  assert (Ho : observes1 (s_o s) = true -> ss_observer s3 = o_observer (s_o s)).
  { intro H. unfold stage1_init in Hi. destruct (ss_new E (o_params (s_o s)) t); try discriminate Hi. rewrite H in Hi. injection Hi as <-. reflexivity. }
  pose proof (sg_run s3) as Hk. destruct (ss_run E s3) as [res sf] eqn:Hr. simpl in Hk.
  set (s' := if observes1 (s_o s) then changed (set_o_observer (ss_observer sf)) s else s).
  assert (F : tally (s_o s') = tally (s_o s)).
  { unfold s'. destruct (observes1 (s_o s)); [|reflexivity]. unfold tally. simpl. rewrite (Ho eq_refl) in Hk.
    destruct (ss_observer sf) as [a|], (o_observer (s_o s)) as [b|]; try discriminate Hk; [|reflexivity].
    simpl in *. f_equal. apply g_of. congruence. }
  assert (X : (if observes1 (s_o s) then upd (set_o_observer (ss_observer sf)) else ret tt) s = (Ok tt, s')).
  { unfold s'. destruct (observes1 (s_o s)); reflexivity. }
  rewrite (bind_ok _ _ _ _ _ _ _ X). rewrite <- F. clear X F Hk Ho Hi. generalize s'. clear s' s s3 Hr t. 
  match goal with |- forall s, tally (s_o (snd (?m s))) = _ => change (keeps tally m) end.
  apply k_bind; [apply k_emit|intro]. destruct res as [[pts cand]|e|]; [|apply k_fail|apply k_panic]. cbv zeta. unfold stage1_enter.
  repeat (apply k_bind; [first [apply t_process|apply t_threshold|tk]|intro]).
  match goal with |- keeps _ (if ?b then _ else _) => destruct b end.
  - apply k_bind; [apply t_end_stage1|intro; apply k_ret].
  - apply k_bind; [apply k_upd; reflexivity|intro]. apply k_bind; [apply t_end_stage1|intro; apply k_ret].
Qed.
(** ** Counting *)
Context (c0 i0 n0 : nat) (had : bool).
Definition has_set (o : oqnlp) : bool := match o_set o with Some _ => true | None => false end.
Definition counts (c i : nat) (b : bool) (s : st) : Prop :=
  exists md, tally (s_o s) = Some (md, Some (c, i)) /\ md <> Stage1Only /\ has_set (s_o s) = b.
(** the improvements that a piece of the record has counted *)
Definition gain (l : list event) : nat := joins l + if had then 0 else Nat.min 1 (stores l).
Definition counted (s : st) : Prop := exists l before, trace s = l ++ EvBatch :: before /\ (~ In EvBatch before /\ stores before = n0) /\ gain l <= stores l /\
  counts (c0 + results l) (i0 + gain l) (had || (0 <? stores l)) s.
Definition uncounted (s : st) : Prop := (~ In EvBatch (trace s) /\ stores (trace s) = n0) /\ counts c0 i0 had s.
Definition plain (e : event) : Prop := match e with EvResult _ | EvSolutionSet _ => False | _ => True end.
Lemma results_app : forall a b, results (a ++ b) = results a + results b.
Proof. intros. unfold results. rewrite filter_app, app_length. reflexivity. Qed.
Lemma stores_app : forall a b, stores (a ++ b) = stores a + stores b.
Proof. intros. unfold stores. rewrite filter_app, app_length. reflexivity. Qed.
Lemma joins_app : forall a b, joins (a ++ b) = joins a + joins b.
Proof. intros. unfold joins. rewrite filter_app, app_length. reflexivity. Qed.
Lemma plain_results : forall l, Forall plain l -> results l = 0 /\ stores l = 0 /\ joins l = 0.
Proof.
  intros l H. induction H as [|e l He H IH]; [auto|]. destruct e; simpl in *; try exact IH; destruct He.
Qed.
Lemma plain_app : forall new l, Forall plain new ->
  results (new ++ l) = results l /\ gain (new ++ l) = gain l /\ stores (new ++ l) = stores l.
Proof.
  intros new l H. destruct (plain_results _ H) as (A & B & C). unfold gain. rewrite results_app, stores_app, joins_app, A, B, C. auto.
Qed.
Lemma sp_keep : forall A (m : OM A), emits plain m -> keeps tally m -> keeps has_set m -> spec any counted m (fun _ => counted).
Proof.
  intros A m He Hk Hh s (l & b & Ht & Hb & Hg & md & H1 & H2 & H3). destruct (He s) as (new & Hn & Hp). specialize (Hk s). specialize (Hh s).
  assert (X : counted (snd (m s))).
  { exists (new ++ l), b. rewrite <- app_assoc, <- Ht. split; [auto|]. split; [auto|]. unfold counts.
    destruct (plain_app new l Hp) as (-> & -> & ->). split; [exact Hg|]. exists md. rewrite Hk, Hh. auto. }
  destruct (m s) as [[a|e|] s']; simpl in *; try exact I. exact X.
Qed.
Lemma pls_counts : forall x s b s', process_local_solution E x s = (Ok b, s') ->
  exists new, trace s' = new ++ trace s /\ results new = 1 /\
    (has_set (s_o s') = has_set (s_o s) || (0 <? stores new)) /\
    (if b then stores new = 1 /\ joins new = (if has_set (s_o s) then 1 else 0)
     else joins new = 0 /\ (has_set (s_o s) = true \/ stores new = 0)).
Proof.
  intros x s b s' H. pose proof (pls_cases E x s) as Hc. rewrite H in Hc. simpl in Hc.
  destruct Hc as [[-> G]|[[_ [_ [-> G]]]|[_ [[Q [-> G]]|
    [cur [rest [Q [[_ [G [ob ->]]]|[[_ [_ [_ [G [ob ->]]]]]|[_ [_ [G ->]]]]]]]]]]]]; cbv [changed noted trace s_o s_w w_trace w_disk w_tick] in *;
    unfold has_set; try rewrite Q.
  - destruct G as [G _]. discriminate G.
  - exists [EvResult x]. injection G as ->. simpl. split; [reflexivity|]. split; [reflexivity|]. rewrite orb_false_r. auto.
  - exists [EvThreshold (ls_obj x); EvSolutionSet [x]; EvResult x]. injection G as ->. simpl. auto 6.
  - exists [EvThreshold (ls_obj x); EvSolutionSet [x]; EvResult x]. injection G as ->. simpl. auto 6.
  - exists [EvSolutionSet ((cur :: rest) ++ [x]); EvResult x]. injection G as ->. simpl. split; [reflexivity|]. split; [reflexivity|].
    split; [reflexivity|]. split; [reflexivity|]. unfold joins. simpl. rewrite app_length, Nat.add_comm. reflexivity.
  - exists [EvResult x]. injection G as ->. simpl. rewrite Q. split; [reflexivity|]. split; [reflexivity|]. auto.
Qed.
Lemma search_counts : forall x b n s s1 s2, process_local_solution E x s = (Ok b, s1) -> obs_search b n s1 = (Ok tt, s2) ->
  counted s -> counted s2.
Proof.
  intros x b n s s1 s2 H1 H2 (l & bf & Ht & Hb & Hg & md & T1 & T2 & T3). simpl in *.
  destruct (pls_counts _ _ _ _ H1) as (new & N1 & N2 & N3 & N4). pose proof (t_process x s) as T. rewrite H1 in T. simpl in T.
  unfold obs_search, bind, the_oqnlp, get, ret, bind in H2. simpl in H2. injection H2 as <-.
  exists (new ++ l), bf. rewrite <- app_assoc, <- Ht. split; [exact N1|]. split; [auto|].
  set (i := i0 + gain l) in *. set (c := c0 + results l) in *.
  assert (R : c0 + results (new ++ l) = S c) by (rewrite results_app, N2; unfold c; lia).
  assert (I : i0 + gain (new ++ l) = if b then S i else i).
  { unfold i, gain. rewrite stores_app, joins_app. rewrite T3 in N4. destruct b.
    - destruct N4 as [-> ->]. destruct had; simpl; [lia|]. destruct (stores l); simpl; lia.
    - destruct N4 as [-> N4]. destruct had; simpl; [lia|]. simpl in N4. destruct (stores l); simpl in *; [|rewrite ?Nat.add_succ_r; simpl; lia].
      destruct N4 as [N4|N4]; [discriminate N4|]. rewrite N4. simpl. lia. }
  assert (S : has_set (s_o s1) = had || (0 <? stores (new ++ l))).
  { rewrite N3, T3, stores_app, <- orb_assoc. f_equal. destruct (stores new), (stores l); reflexivity. }
  assert (L : gain (new ++ l) <= stores (new ++ l)).
  { unfold gain in *. rewrite stores_app, joins_app. rewrite T3 in N4. destruct b.
    - destruct N4 as [-> ->]. destruct had; simpl in *; [lia|]. destruct (stores l); simpl in *; lia.
    - destruct N4 as [-> N4]. destruct had; simpl in *; [lia|]. destruct (stores l), (stores new); simpl in *; lia. }
  split; [exact L|]. rewrite R, I. exists md. split; [|split; [exact T2|exact S]]. clear N1 N2 N3 N4 R I S T3 L Hg. clearbody i c. rewrite T1 in T.
  unfold tally in *. simpl. destruct (o_observer (s_o s1)) as [ob|]; [|discriminate T]. simpl in *. injection T as Tm Ts. f_equal.
  unfold upd_stage2, should_observe_stage2. destruct (ob_stage2 ob) as [st|] eqn:Hs; [|discriminate Ts]. simpl in Ts. injection Ts as Ts1 Ts2.
  rewrite Tm. assert (X : g2 (set_stage2 (Some (match o_set (s_o s1) with
    | Some set => s2_set_set_size (List.length set) (match best_solution set with Some b0 => s2_set_best_solution (ls_obj b0) (ls_point b0) (s2_add_evals (N.to_nat n) (s2_add_call b st)) | None => s2_add_evals (N.to_nat n) (s2_add_call b st) end)
    | None => s2_add_evals (N.to_nat n) (s2_add_call b st) end)) ob) = (md, Some (S c, if b then S i else i))).
  { unfold g2. simpl. rewrite Tm. f_equal. f_equal.
    assert (Y : forall st', s2_calls st' = S c -> s2_improved st' = (if b then S i else i) -> forall v p, 
      (s2_calls (s2_set_best_solution v p st'), s2_improved (s2_set_best_solution v p st')) = (S c, if b then S i else i)).
    { intros st' Y1 Y2 v p. unfold s2_set_best_solution. destruct (_ || _); simpl; congruence. }
    assert (Y1 : s2_calls (s2_add_evals (N.to_nat n) (s2_add_call b st)) = S c) by (simpl; congruence).
    assert (Y2 : s2_improved (s2_add_evals (N.to_nat n) (s2_add_call b st)) = if b then S i else i) by (destruct b; simpl; congruence).
    destruct (o_set (s_o s1)) as [set|]; [|rewrite Y1, Y2; reflexivity]. simpl. destruct (best_solution set) as [x1|]; [apply Y; auto|rewrite Y1, Y2; reflexivity]. }
  destruct md; [congruence|exact X|exact X].
Qed.
Lemma sp_search : forall A x n (k : bool -> OM A) Q, (forall b, spec any counted (k b) Q) ->
  spec any counted (bind (process_local_solution E x) (fun b => bind (obs_search b n) (fun _ => k b))) Q.
Proof.
  intros A x n k Q Hk s Hs. unfold bind at 1. destruct (process_local_solution E x s) as [[b|e|] s1] eqn:H1; try exact I.
  unfold bind at 1. destruct (obs_search b n s1) as [[[]|e|] s2] eqn:H2; try exact I.
  apply Hk. eapply search_counts; eauto.
Qed.
Ltac ct := repeat match goal with
  | |- keeps _ (callback_at _ _) => apply t_callback_at
  | |- keeps _ (maybe_save_checkpoint _) => apply t_maybe_save
  | |- keeps _ (count_unchanged _) => apply t_count
  | |- keeps _ (set_threshold _) => apply t_threshold
  | |- keeps _ (begin_iteration _ _ _) => apply t_begin
  | _ => progress tk
  end.
Ltac pe := repeat match goal with |- Forall plain _ => constructor | |- plain _ => exact I end.
Ltac fe := first [ apply e_callback_at; side | apply e_maybe_save; side | apply e_obs_iteration
  | apply EmitsP.e_callback; side | apply e_count; side | apply e_threshold; side | apply e_begin; side
  | apply e_emit; solve [pe] | apply e_emit_map; intro; exact I ].
Ltac ge := repeat first [ fe | em1 ].
Ltac hk := repeat first [ apply k_callback_at; side | apply k_maybe_save; side | apply k_obs_iteration; side
  | apply EmitsP.k_callback; side | apply k_count; side | apply k_threshold; side | apply k_begin; side | kp1 ].
Ltac sk1 := eapply sp_bind; [apply sp_keep; [ge|ct|hk]|intro; cbv beta].
Ltac same := eapply sp_weak with (P' := counted); [|intros ? ?; tauto|intros ? ? X; exact X].
Lemma one_counted : forall objs i p u, spec any counted (process_one_seq E objs i p u) (fun _ => counted).
Proof.
  intros. unfold process_one_seq, emit_eval. sk1. sk1. sk1. sk1. sk1. eapply sp_bind; [apply sp_oqnlp|intro o; cbv beta zeta]. same. sk1.
  eapply sp_bind with (Q := fun _ => counted).
  - destruct (should_start_local o p _).
    + sk1. sk1. sk1. apply sp_search. intro b. sk1. sk1. apply sp_ret. auto.
    + sk1. apply sp_ret. auto.
  - intros [u' stop]. destruct stop; [apply sp_ret; auto|]. sk1. sk1. apply sp_ret; auto.
Qed.
Lemma seq_counted : forall start res objs b u, spec any counted (process_batch_sequential E start res objs b u) (fun _ => counted).
Proof.
  intros start res objs b. induction b as [|[i p] b IH]; intro u; [apply sp_ret; auto|]. simpl.
  destruct (res && (i <? start)); [apply IH|]. eapply sp_bind; [apply one_counted|intros [u' stop]; cbv beta]. simpl.
  destruct stop; [apply sp_ret; auto|apply IH].
Qed.
Lemma par_counted : forall start res objs b u, spec any counted (process_batch_parallel E start res objs b u) (fun _ => counted).
Proof.
  intros start res objs b u. unfold process_batch_parallel. cbv zeta.
  destruct (if res then _ else _) as [|b0 b1]; [apply sp_ret; auto|].
  sk1. sk1. sk1. sk1. eapply sp_bind; [apply sp_oqnlp|intro o; cbv beta]. same. destruct (partition _ _) as [local quick].
  sk1. eapply sp_bind with (Q := fun _ => counted).
  { generalize u. induction quick as [|[[i p] obj] q IH]; intro w; simpl; [apply sp_ret; auto|].
    eapply sp_bind; [apply sp_keep; [unfold process_quick; ge|unfold process_quick; ct|unfold process_quick; hk]|intro w'; cbv beta; apply IH]. }
  intro w. eapply sp_bind; [apply sp_oqnlp|intro o2; cbv beta]. same.
  eapply sp_bind with (Q := fun _ => counted); [|intro; apply sp_ret; auto].
  match goal with |- spec _ _ (if ?c then _ else _) _ => destruct c end.
  - sk1. sk1. match goal with |- spec _ _ (process_par_results _ ?l _) _ => induction l as [|[[[i p] obj] [sol ev]] l IH] end; [apply sp_ret; auto|].
    simpl. eapply sp_bind with (Q := fun _ => counted); [|intros [|]; [apply sp_ret; auto|exact IH]].
    unfold process_par_result. sk1. sk1. apply sp_search. intro. sk1. sk1. sk1. sk1. match goal with |- spec _ _ (if ?c then _ else _) _ => destruct c end; [apply sp_ret; auto|]. sk1. apply sp_ret; auto.
  - induction local as [|[[i p] obj] l IH]; [apply sp_ret; auto|].
    simpl. eapply sp_bind with (Q := fun _ => counted); [|intros [|]; [apply sp_ret; auto|exact IH]].
    unfold process_single. sk1. sk1. eapply sp_bind; [apply sp_oqnlp|intro o3; cbv beta]. same. sk1. sk1. apply sp_search. intro. sk1. sk1. sk1. sk1. match goal with |- spec _ _ (if ?c then _ else _) _ => destruct c end; [apply sp_ret; auto|]. sk1. apply sp_ret; auto.
Qed.
Lemma loop_counted : forall size start res objs bs u,
  spec any (fun s => uncounted s \/ counted s) (stage2_loop E size start res objs bs u) (fun _ s => uncounted s \/ counted s).
Proof.
  intros size start res objs bs. induction bs as [|b bs IH]; intro u; [apply sp_ret; auto|]. simpl.
  assert (Q : forall e s s', plain e -> e <> EvBatch -> trace s' = e :: trace s -> s_o s' = s_o s -> uncounted s \/ counted s -> uncounted s' \/ counted s').
  { intros e s s' Hp He Ht Ho [[[G1 G0] G2]|(l & b' & G1 & G2 & G6 & G3)].
    - left. split; [rewrite Ht; split; [intros [G|G]; [congruence|exact (G1 G)]|rewrite <- G0; destruct e; try reflexivity; destruct Hp]|]. destruct G2 as (md & G2). exists md. rewrite Ho. exact G2.
    - right. exists (e :: l), b'. rewrite Ht, G1. split; [reflexivity|]. split; [auto|]. destruct G3 as (md & G3). unfold counts. rewrite Ho.
      destruct (plain_app [e] l (Forall_cons _ Hp (Forall_nil _))) as (X1 & X2 & X3). simpl app in X1, X2, X3. rewrite X1, X2, X3. split; [exact G6|]. exists md. exact G3. }
  eapply sp_bind; [apply sp_oqnlp|intro o; cbv beta].
  apply sp_bind with (Q := fun _ s => uncounted s \/ counted s).
  { intros s [Hs ->]. destruct (o_max_time (s_o s)) as [m|]; simpl; [|exact Hs].
    eapply (Q (EvClock (e_clock E (w_tick (s_w s)))) s); [exact I|discriminate|reflexivity|reflexivity|exact Hs]. }
  intros [|]; [apply sp_ret; auto|].
  apply sp_bind with (Q := fun _ => counted).
  { intros s [[G1 G2]|(l & b' & G1 & G2 & G6 & G3)]; simpl.
    - exists [], (trace s). split; [reflexivity|]. split; [auto|]. split; [unfold gain; simpl; destruct had; lia|]. destruct G2 as (md & G2). exists md. unfold gain. simpl. rewrite orb_false_r.
      replace (i0 + (if had then 0 else 0)) with i0 by (destruct had; lia). rewrite Nat.add_0_r. exact G2.
    - exists (EvBatch :: l), b'. split; [unfold trace in *; simpl; rewrite G1; reflexivity|]. split; [auto|]. split; [exact G6|]. exact G3. }
  intro. apply sp_bind with (Q := fun _ => counted).
  { destruct (1 <? size); [apply par_counted|apply seq_counted]. }
  intro u'. sk1. sk1. match goal with |- spec _ _ (if ?c then _ else _) _ => destruct c end; [apply sp_ret; auto|].
  eapply sp_weak; [apply IH|intros ? X; right; exact X|intros ? ? X; exact X].
Qed.
Lemma after_loop : forall A (m : OM A), emits (fun e => plain e /\ e <> EvBatch) m -> keeps tally m -> keeps has_set m ->
  spec any (fun s => uncounted s \/ counted s) m (fun _ s => uncounted s \/ counted s).
Proof.
  intros A m He Hk Hh s Hs. destruct (He s) as (new & Hn & Hp). specialize (Hk s). specialize (Hh s).
  assert (X : uncounted (snd (m s)) \/ counted (snd (m s))).
  { destruct Hs as [[[G1 G0] G2]|(l & b' & G1 & G2 & G6 & G3)].
    - left. split; [rewrite Hn; split; [intro G; apply in_app_or in G as [G|G]; [|exact (G1 G)]; rewrite Forall_forall in Hp; apply Hp in G; tauto|]|].
      { rewrite stores_app, G0. destruct (plain_results new) as (_ & -> & _); [eapply Forall_impl; [|exact Hp]; intros ? Y; apply Y|reflexivity]. }
      destruct G2 as (md & G2). exists md. rewrite Hk, Hh. exact G2.
    - right. exists (new ++ l), b'. rewrite Hn, G1, app_assoc. split; [reflexivity|]. split; [auto|]. destruct G3 as (md & G3). unfold counts.
      rewrite Hk, Hh. destruct (plain_app new l) as (-> & -> & ->); [eapply Forall_impl; [|exact Hp]; intros ? Y; apply Y|]. split; [exact G6|]. exists md. exact G3. }
  destruct (m s) as [[a|e|] s']; simpl in *; try exact I. exact X.
Qed.
Lemma stage2_counted : forall res refs objs u s set s', uncounted s -> stage2_run E res refs objs u s = (Ok set, s') -> uncounted s' \/ counted s'.
Proof.
  intros res refs objs u s set s' Hs H.
  assert (X : spec any (fun s => uncounted s \/ counted s) (stage2_run E res refs objs u) (fun _ s => uncounted s \/ counted s)).
  { unfold stage2_run. eapply sp_bind; [apply after_loop; [unfold begin_stage2; em|apply t_begin_stage2|apply k_begin_stage2; side]|intro; cbv beta].
    eapply sp_bind; [apply after_loop; [em|kp|kp]|intro o; cbv beta]. eapply sp_bind; [apply after_loop; [em|kp|kp]|intro rs; cbv beta zeta].
    eapply sp_bind with (Q := fun _ s => uncounted s \/ counted s).
    { match goal with |- spec _ _ (if ?c then _ else _) _ => destruct c end; [intros x Hx; exact I|apply loop_counted]. }
    intro. eapply sp_bind; [apply after_loop; [apply e_final_save; split; [exact I|discriminate]|apply t_final_save|apply k_final_save; side]|intro; cbv beta].
    apply after_loop; [unfold final_set; em|unfold final_set; kp|unfold final_set; kp]. }
  specialize (X s (or_introl Hs)). rewrite H in X. exact X.
Qed.
Lemma counts_tracks : forall c i b s, counts c i b s -> exists st, tracks2 (s_o s) st /\ s2_calls st = c /\ s2_improved st = i.
Proof.
  intros c i b s (md & H1 & H2 & _). unfold tally in H1. destruct (o_observer (s_o s)) as [ob|] eqn:Ho; [|discriminate H1].
  simpl in H1. unfold g2 in H1. destruct (ob_stage2 ob) as [st|] eqn:Hs; [|discriminate H1]. injection H1 as <- K1 K2.
  exists st. split; [exists ob; auto|]. auto.
Qed.
(** in Stage 1 an optimizer has a solution set when it had one or has stored one *)
Definition kept (b : bool) (s : st) : Prop := has_set (s_o s) = b || (0 <? stores (trace s)).
Lemma sp_kept : forall b A (m : OM A), emits plain m -> keeps has_set m -> spec any (kept b) m (fun _ => kept b).
Proof.
  intros b A m He Hh s Hs. destruct (He s) as (new & Hn & Hp). specialize (Hh s).
  assert (X : kept b (snd (m s))).
  { unfold kept. rewrite Hn, Hh, Hs, stores_app. destruct (plain_results _ Hp) as (_ & -> & _). reflexivity. }
  destruct (m s) as [[a|e|] s']; simpl in *; try exact I. exact X.
Qed.
Lemma process_kept : forall b x, spec any (kept b) (process_local_solution E x) (fun _ => kept b).
Proof.
  intros b x s Hs. destruct (process_local_solution E x s) as [[c|e|] s'] eqn:H; try exact I.
  destruct (pls_counts _ _ _ _ H) as (new & N1 & _ & N3 & _). unfold kept in *. rewrite N1, N3, Hs, stores_app, <- orb_assoc. f_equal.
  destruct (stores new), (stores (trace s)); reflexivity.
Qed.
Lemma stage1_kept : forall b, spec any (kept b) (stage1_run E) (fun _ => kept b).
Proof.
  intro b. assert (Hc : forall i, spec any (kept b) (callback E i) (fun _ => kept b)).
  { intro. apply sp_kept; [apply EmitsP.e_callback; side|apply EmitsP.k_callback; side]. }
  assert (He : spec any (kept b) (end_stage1 E) (fun _ => kept b)).
  { unfold end_stage1, stage1_enter. eapply sp_bind; [apply sp_kept; [em|kp]|intro]. eapply sp_bind; [apply Hc|intro]. apply sp_kept; [em|kp]. }
  unfold stage1_run, stage1_enter. eapply sp_bind; [apply sp_kept; [em|kp]|intro o]. eapply sp_bind; [apply sp_kept; [em|kp]|intro t].
  destruct (stage1_init E o t); [|intros s _; exact I..]. destruct (ss_run E a) as [res sf]. eapply sp_bind; [apply sp_kept; [em|kp]|intro].
  eapply sp_bind; [apply sp_kept; [apply e_emit_map; intro; exact I|kp]|intro]. destruct res as [[pts cand]|e|]; [|intros s _; exact I..]. cbv zeta.
  repeat (eapply sp_bind; [first [apply Hc|apply process_kept|apply sp_kept; [first [apply e_threshold; exact I|apply e_emit; repeat constructor|em]|first [apply k_threshold; side|kp]]]|intro; cbv beta]).
  match goal with |- spec _ _ (if ?c then _ else _) _ => destruct c end; 
  repeat (eapply sp_bind; [first [apply He|apply sp_kept; [em|kp]]|intro; cbv beta]); apply sp_ret; auto.
Qed.
Lemma part_unique : forall l l' b b', l ++ EvBatch :: b = l' ++ EvBatch :: b' -> ~ In EvBatch b -> ~ In EvBatch b' -> l = l'.
Proof.
  induction l as [|e l IH]; intros [|e' l'] b b' H H1 H2; simpl in H.
  - reflexivity.
  - injection H as _ ->. exfalso. apply H1. apply in_or_app. right. left. reflexivity.
  - injection H as _ <-. exfalso. apply H2. apply in_or_app. right. left. reflexivity.
  - injection H as -> H. f_equal. eapply IH; eauto.
Qed.
End Calls.
Lemma begins : forall E s b s1, run_start E (blank s) b s1 -> has_set (s_o s1) = true <-> begins_with_set E s.
Proof.
  intros E s b s1 H. assert (U : forall o, has_set o = true <-> o_set o <> None).
  { intro o. unfold has_set. destruct (o_set o); split; intro G; congruence. }
  inversion H as [d Hd Hn|c d cp H1 H2 H3 H4 Hd]; subst.
  - assert (N : forall cp, ~ resumes_from E s cp).
    { intros cp (c & Hc & Ha & He & _). specialize (Hn c Hc Ha). simpl in Hn. congruence. }
    rewrite U. simpl. split; [intro G; right; auto|intros [(cp & G & _)|[_ G]]; [destruct (N cp G)|exact G]].
  - assert (R : resumes_from E s cp) by (exists c; auto).
    rewrite U. simpl. split; [intro G; left; exists cp; auto|intros [(cp' & (c' & Hc & Ha & He & Hl) & G)|[G _]]; [|destruct (G cp R)]].
    simpl in H1. rewrite H1 in Hc. injection Hc as <-. simpl in H4. rewrite H4 in Hl. injection Hl as <-. exact G.
Qed.
Theorem c42_improved : forall E s st0 set s' new l before, callbacks_keep_stage2 E -> tracks2 (s_o s) st0 ->
  run E s = (Ok set, s') -> recorded s s' new -> new = l ++ EvBatch :: before -> ~ In EvBatch before ->
  exists st, tracks2 (s_o s') st /\ s2_calls st = s2_calls st0 + results l /\ s2_improved st <= s2_improved st0 + stores l /\
    (begins_with_set E s \/ 0 < stores before -> s2_improved st = s2_improved st0 + joins l) /\
    (~ begins_with_set E s -> stores before = 0 -> s2_improved st = s2_improved st0 + joins l + Nat.min 1 (stores l)).
Proof.
  intros E s st0 set s' new l before Hcb (ob & Ho & Hm & Hst0) Hrun Hnew Hl Hbf.
  destruct (run_cases E s _ s' new Hrun Hnew) as [(-> & _ & Hno)|(b & s1 & Hst & Ht & Hr & Hcfg)].
  { exfalso. eapply Hno; reflexivity. }
  pose proof (begins _ _ _ _ Hst) as HB. set (b1 := has_set (s_o s1)) in *.
  assert (H1 : uncounted (s2_calls st0) (s2_improved st0) 0 b1 s1).
  { split; [rewrite Ht; split; [intros []|reflexivity]|]. exists (ob_mode ob). split; [|auto].
    assert (X : o_observer (s_o s1) = o_observer (s_o s)) by (inversion Hst; reflexivity).
    unfold tally. rewrite X, Ho. simpl. unfold g2. rewrite Hst0. reflexivity. }
  assert (Fin : forall sx n0 had, trace sx = new -> s_o sx = s_o s' -> had = b1 || (0 <? n0) ->
    uncounted (s2_calls st0) (s2_improved st0) n0 had sx \/ counted (s2_calls st0) (s2_improved st0) n0 had sx ->
    exists st, tracks2 (s_o s') st /\ s2_calls st = s2_calls st0 + results l /\ s2_improved st <= s2_improved st0 + stores l /\
    (begins_with_set E s \/ 0 < stores before -> s2_improved st = s2_improved st0 + joins l) /\
    (~ begins_with_set E s -> stores before = 0 -> s2_improved st = s2_improved st0 + joins l + Nat.min 1 (stores l))).
  { intros sx n0 had Hx Hy Hh [[[G _] _]|(l' & b' & G1 & [G2 G4] & G6 & G3)].
    - exfalso. apply G. rewrite Hx, Hl. apply in_or_app. right. left. reflexivity.
    - rewrite Hx, Hl in G1. pose proof G1 as G5. apply part_unique in G1; auto. subst l'. apply app_inv_head in G5. injection G5 as <-.
      rewrite <- Hy. destruct (counts_tracks _ _ _ _ G3) as (st & T1 & T2 & T3). exists st. split; [exact T1|]. split; [exact T2|].
      split; [lia|]. unfold gain in T3. split.
      + intro G. replace had with true in T3; [rewrite T3; lia|]. rewrite Hh, <- G4. destruct G as [G|G].
        * apply HB in G. rewrite G. reflexivity.
        * apply Nat.ltb_lt in G. rewrite G. symmetry. apply orb_true_r.
      + intros G G0. replace had with false in T3; [rewrite T3; lia|]. rewrite Hh, <- G4, G0. destruct b1; [destruct (G (proj1 HB eq_refl))|reflexivity]. }
  destruct b; unfold run_rest in Hr.
  - apply (Fin (ends s' new) 0 b1 eq_refl eq_refl); [rewrite orb_false_r; reflexivity|].
    unfold bind, the_oqnlp, get, ret, bind in Hr. simpl in Hr. eapply stage2_counted; eauto.
  - unfold bind in Hr at 1. pose proof (t_stage1 E Hcb s1) as T. pose proof (em_stage1 E s1) as (pre & P1 & P2).
    assert (K : kept b1 s1) by (unfold kept; rewrite Ht, orb_false_r; reflexivity). apply (stage1_kept E b1 s1) in K.
    destruct (stage1_run E s1) as [r2 s2] eqn:E1. simpl in *. rewrite Ht, app_nil_r in P1.
    destruct r2 as [o2|e|]; [|discriminate Hr..].
    assert (H2 : uncounted (s2_calls st0) (s2_improved st0) (stores pre) (b1 || (0 <? stores pre)) s2).
    { split; [rewrite P1; split; [intro G; rewrite Forall_forall in P2; exact (P2 _ G)|reflexivity]|]. destruct H1 as [_ (md & H1 & H2 & _)]. exists md. rewrite T.
      split; [exact H1|]. split; [exact H2|]. rewrite <- P1. exact K. }
    apply (Fin (ends s' new) (stores pre) (b1 || (0 <? stores pre)) eq_refl eq_refl eq_refl).
    destruct o2 as [[refs objs]|].
    + eapply stage2_counted; eauto.
    + left. unfold final_set, bind, the_oqnlp, get, ret, fail, bind in Hr. simpl in Hr. destruct (o_set (s_o s2)); [|discriminate Hr].
      injection Hr as _ Hr. rewrite <- Hr. exact H2.
Qed.

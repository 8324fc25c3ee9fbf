(** * Running without checkpoints (C109) *)
From Coq Require Import ZArith NArith List Bool Arith Lia String.
From Verif Require Import F64 F64Order Base Builders Types Filters Runner Observer Env EnvSpec
  ScatterSearch Codec Checkpoint Oqnlp Spec SpecStage2 SpecObserver SpecUnsaved Wp Actions RunP SetP SimP ClockFreeP LeaderP FrameP SeqP3 ResumeP AgainP FinishP MoreP.
Import ListNotations.
Local Open Scope monad_scope.

Section Unsaved.
Context (E : env) (c0 : cp_config) (par : bool) (free : Prop).
Notation non := (set_o_cp None).
Definition chks (s t : st) : Prop :=
  o_cp (s_o s) = Some c0 /\ (o_max_time (s_o s) = None /\ o_parallel (s_o s) = par) /\ s_o t = non (s_o s) /\
  (free \/ w_tick (s_w t) = w_tick (s_w s)) /\ doings (trace t) = doings (trace s).
Notation sim := (sim chks).
Lemma doings_app l l' : doings (l ++ l') = doings l ++ doings l'. Proof. apply flat_map_app. Qed.
Lemma m_oqnlp : sim (fun o o' => o' = non o /\ o_cp o = Some c0 /\ (o_max_time o = None /\ o_parallel o = par)) the_oqnlp the_oqnlp.
Proof. intros s t H. pose proof H as H'. destruct H' as (H0 & H1 & H2 & _). simpl. auto. Qed.
Lemma m_upd f : (forall o, f (non o) = non (f o)) -> (forall o, o_cp (f o) = o_cp o) -> (forall o, o_max_time (f o) = o_max_time o) -> (forall o, o_parallel (f o) = o_parallel o) -> sim eq (upd f) (upd f).
Proof.
  intros H G K K'. apply sim_modify. intros s t (H0 & H1 & H2 & H3). split; [simpl; rewrite G; exact H0|].
  split; [simpl; rewrite K, K'; exact H1|]. split; [simpl; rewrite H2; apply H|exact H3].
Qed.
Lemma m_obs f : sim eq (obs f) (obs f). Proof. apply m_upd; reflexivity. Qed.
Lemma m_emit l l' : doings (rev l') = doings (rev l) -> sim eq (emit l) (emit l').
Proof.
  intros H. apply sim_modify. intros s t (H0 & H1 & H2 & H3 & H4). unfold chks, trace in *. simpl.
  rewrite !doings_app, H, H4. auto 10.
Qed.
Lemma m_tick : ~ free -> sim eq tick tick.
Proof.
  intros N s t (H0 & H1 & H2 & H3 & H4). destruct H3 as [H3|H3]; [contradiction|]. simpl. rewrite H3. split; [reflexivity|].
  unfold chks, trace in *. simpl. auto 10.
Qed.
Lemma m_of_solver A (r : outcome ls_error A) : sim eq (of_solver r) (of_solver r).
Proof. destruct r as [a|e|]; [apply sim_ret|apply sim_fail|apply sim_panic]; auto. Qed.
Ltac cs1 :=
  match goal with
  | |- SimP.sim _ _ (bind the_oqnlp _) _ => eapply sim_bind; [apply m_oqnlp|]; let o := fresh "o" in let o' := fresh "o'" in intros o o' (-> & ? & ?);
      repeat match goal with
      | |- context [should_start_local (non o)] => change (should_start_local (non o)) with (should_start_local o)
      | |- context [observes1 (non o)] => change (observes1 (non o)) with (observes1 o)
      | |- context [observes2 (non o)] => change (observes2 (non o)) with (observes2 o)
      end
  | |- SimP.sim _ _ (bind _ _) _ => eapply sim_bind with (V := eq); [|intros ? ? <-]
  | |- SimP.sim _ _ (ret _) _ => apply sim_ret; auto
  | |- SimP.sim _ _ (fail _) _ => apply sim_fail
  | |- SimP.sim _ _ panic _ => apply sim_panic
  | |- SimP.sim _ _ (upd _) _ => apply m_upd; reflexivity
  | |- SimP.sim _ _ (obs _) _ => apply m_obs
  | |- SimP.sim _ _ (emit _) _ => apply m_emit; reflexivity
  | |- SimP.sim _ _ (unwrap _) _ => apply sim_unwrap
  | |- SimP.sim _ _ (of_result _) _ => apply sim_of_result; apply vrel_eq
  | |- SimP.sim _ _ (of_solver _) _ => apply m_of_solver
  | |- SimP.sim _ _ (let '(_, _) := ?x in _) _ => destruct x
  | |- SimP.sim _ _ (if ?b then _ else _) (if ?c then _ else _) => change c with b; destruct b
  | |- SimP.sim _ _ (match ?x with _ => _ end) (match ?y with _ => _ end) => change y with x; destruct x
  end.
Ltac cs := repeat cs1.
Lemma m_process sol : sim eq (process_local_solution E sol) (process_local_solution E sol).
Proof. unfold process_local_solution, set_solutions, set_threshold, add_to_filter. cs. Qed.
Lemma m_callback i : sim eq (callback E i) (callback E i).
Proof. unfold callback. cs. Qed.
Lemma m_callback_at i : sim eq (callback_at E i) (callback_at E i).
Proof. unfold callback_at. cs. apply m_callback. Qed.
Lemma m_begin i u : sim eq (begin_iteration E i u) (begin_iteration E i u).
Proof. unfold begin_iteration. cs. Qed.
Lemma m_obs_iteration i u : sim eq (obs_iteration i u) (obs_iteration i u).
Proof. unfold obs_iteration. cs. Qed.
Lemma m_obs_search a k : sim eq (obs_search a k) (obs_search a k).
Proof. unfold obs_search. cs. Qed.
Lemma m_count u : sim eq (count_unchanged u) (count_unchanged u).
Proof. unfold count_unchanged, adjust_threshold. cs. Qed.
Lemma m_threshold v : sim eq (set_threshold v) (set_threshold v).
Proof. unfold set_threshold. cs. Qed.
Lemma m_begin2 : sim eq begin_stage2 begin_stage2.
Proof. unfold begin_stage2. cs. Qed.
Ltac cs3 := repeat first [ apply m_process | apply m_callback | apply m_callback_at
  | apply m_begin | apply m_obs_iteration | apply m_obs_search | apply m_count | apply m_threshold
  | match goal with |- SimP.sim _ _ (let _ := _ in _) _ => cbv zeta end | cs1 ].
Lemma doings_decide o (f : nat * point * f64 -> bool) l :
  doings (rev (map (fun c => EvDecide (fst (fst c)) (snd (fst c)) (snd c) (non o) (f c)) l)) =
  doings (rev (map (fun c => EvDecide (fst (fst c)) (snd (fst c)) (snd c) o (f c)) l)).
Proof. induction l as [|c l IH]; [reflexivity|]. simpl. rewrite !doings_app, IH. reflexivity. Qed.

(** ** Failing to save *)
Definition picks : Prop := forall i j, e_err_pick E i = e_err_pick E j.
Lemma m_tick_pick : picks -> sim (fun i j => forall l, e_err_pick E (j :: l) = e_err_pick E (i :: l)) tick tick.
Proof.
  intros Hp s t (H0 & H1 & H2 & H3 & H4). simpl. split.
  - intro l. destruct H3 as [H3|H3]; [apply Hp|rewrite H3; reflexivity].
  - unfold chks, trace in *. simpl. split; [exact H0|]. split; [exact H1|]. split; [exact H2|]. split; [destruct H3 as [H3|H3]; auto|]. exact H4.
Qed.

Definition ahead (s t : st) : Prop := exists x, doings (trace t) = x ++ doings (trace s).
(** [m'] does what [m] does, unless [m] fails to save *)
Definition cut {A} (m m' : OM A) : Prop := forall s t, chks s t ->
  (vrel eq (fst (m s)) (fst (m' t)) /\ chks (snd (m s)) (snd (m' t))) \/
  (save_failed c0 (fst (m s)) /\ ahead (snd (m s)) (snd (m' t))).
Lemma cut_sim A (m m' : OM A) : sim eq m m' -> cut m m'.
Proof. intros H s t L. left. exact (H s t L). Qed.
Lemma ahead_more A (m : OM A) s t : FrameP.frame m -> ahead s t -> ahead s (snd (m t)).
Proof.
  intros Hf [x H]. destruct (grows _ m Hf t) as [new Hn]. exists (doings new ++ x). rewrite Hn, doings_app, H, app_assoc. reflexivity.
Qed.
Lemma cut_bind_sim A B V (m m' : OM A) (k k' : A -> OM B) : sim V m m' -> (forall a b, V a b -> cut (k a) (k' b)) -> cut (bind m k) (bind m' k').
Proof.
  intros H1 H2 s t L. unfold bind. destruct (H1 s t L) as [G1 G2].
  destruct (m s) as [[a|e|] s1], (m' t) as [[b|e'|] t2]; cbn [fst snd vrel] in *; try contradiction.
  - exact (H2 a b G1 s1 t2 G2).
  - left. split; [exact G1|exact G2].
  - left. split; [exact I|exact G2].
Qed.
Lemma cut_bind A B (m m' : OM A) (k : A -> OM B) : cut m m' -> (forall a, cut (k a) (k a)) -> (forall a, FrameP.frame (k a)) -> cut (bind m k) (bind m' k).
Proof.
  intros H1 H2 Hf s t L. unfold bind. destruct (H1 s t L) as [[G1 G2]|[G1 G2]].
  - destruct (m s) as [[a|e|] s1], (m' t) as [[b|e'|] t2]; cbn [fst snd vrel] in *; try contradiction.
    + subst b. exact (H2 a s1 t2 G2).
    + left. split; [exact G1|exact G2].
    + left. split; [exact I|exact G2].
  - right. assert (K : ahead (snd (m s)) (snd (let '(r, t2) := m' t in match r with Ok a => k a t2 | Err e => (Err e, t2) | Panic => (Panic, t2) end))).
    { destruct (m' t) as [[b|e|] t2]; cbn [snd] in *; [apply ahead_more; [apply Hf|exact G2]|exact G2|exact G2]. }
    destruct (m s) as [[a|e|] s1]; cbn [fst snd] in *.
    + exfalso. destruct G1 as [[e G1]|[G1 _]]; discriminate.
    + split; [|exact K]. destruct G1 as [[e' G1]|[G1 _]]; [|discriminate]. injection G1 as ->. left. exists e'. reflexivity.
    + split; [|exact K]. destruct G1 as [[e' G1]|[_ G1]]; [discriminate|]. right. auto.
Qed.
Lemma cut_ret A (a : A) : cut (ret a) (ret a).
Proof. apply cut_sim, sim_ret. reflexivity. Qed.
Lemma save_out s : exists cp, s_o (snd (save_now E c0 s)) = s_o s /\
  trace (snd (save_now E c0 s)) = EvSave (file_name c0 (o_iteration (s_o s))) cp :: trace s /\
  (fst (save_now E c0 s) = Ok tt \/ exists e, fst (save_now E c0 s) = Err (CheckpointError e)).
Proof.
  unfold save_now, create_checkpoint, bind, tick, the_oqnlp, get, ret, bind, emit, modify, on_disk, save_checkpoint, fs_write, next_io, set_files, bind, modify, fail, ret.
  destruct s as [o [[fs k] m tr]]. simpl. destruct (e_io E k); simpl; eexists; (split; [reflexivity|]); (split; [reflexivity|]); eauto.
Qed.
Lemma m_stage1 : ~ free -> sim eq (stage1_run E) (stage1_run E).
Proof.
  intro N. unfold stage1_run, end_stage1, stage1_enter. cs1. cs1; [apply m_tick, N|].
  change (stage1_init E (non o) a) with (stage1_init E o a).
  destruct (stage1_init E o a) as [x|e|]; [|apply sim_fail|apply sim_panic]. destruct (ss_run E x) as [res sf]. cs3.
Qed.
Context (Hfree : free).
Lemma c_saved s t : chks s t ->
  (vrel eq (fst (save_now E c0 s)) (Ok tt) /\ chks (snd (save_now E c0 s)) t) \/
  (save_failed c0 (fst (save_now E c0 s)) /\ ahead (snd (save_now E c0 s)) t).
Proof.
  intros (H0 & H1 & H2 & H3 & H4). destruct (save_out s) as (cp & K1 & K2 & K3).
  assert (K4 : doings (trace t) = doings (trace (snd (save_now E c0 s)))) by (rewrite K2; exact H4).
  destruct K3 as [K3|[e K3]]; rewrite K3.
  - left. split; [reflexivity|]. unfold chks. rewrite K1. auto 10.
  - right. split; [left; exists e; reflexivity|]. exists []. exact K4.
Qed.
Lemma c_maybe_save : cut (maybe_save_checkpoint E) (maybe_save_checkpoint E).
Proof.
  intros s t L. pose proof L as L'. destruct L' as (H0 & H1 & H2 & H3 & H4).
  unfold maybe_save_checkpoint, bind, the_oqnlp, get, ret, bind. cbn [fst snd]. rewrite H2, H0. cbn [set_o_cp o_cp fst snd].
  destruct (cc_save_frequency c0) eqn:Hc.
  - right. split; [right; split; [reflexivity|exact Hc]|]. exists []. exact H4.
  - destruct (o_iteration (s_o s) mod S n =? 0); [exact (c_saved s t L)|]. left. split; [reflexivity|exact L].
Qed.
Lemma c_final_save : cut (maybe_save_final_checkpoint E) (maybe_save_final_checkpoint E).
Proof.
  intros s t L. pose proof L as L'. destruct L' as (H0 & H1 & H2 & H3 & H4).
  unfold maybe_save_final_checkpoint, bind, the_oqnlp, get, ret, bind. cbn [fst snd]. rewrite H2, H0. cbn [set_o_cp o_cp fst snd].
  exact (c_saved s t L).
Qed.
Ltac bs := eapply cut_bind_sim with (V := eq); [solve [cs3]|intros ? ? <-].
Ltac bo := eapply cut_bind_sim; [apply m_oqnlp|]; let o := fresh "o" in let o' := fresh "o'" in intros o o' (-> & ? & ?).
Ltac fr3 := repeat first [ apply fr_process | apply fr_callback_at | apply fr_callback | apply fr_maybe_save | apply fr_begin | apply fr_obs_iteration
  | apply fr_obs_search | apply fr_count | apply fr_threshold | fr1 ].
Ltac bc L := apply cut_bind; [apply L|intro|intro].
Lemma c_one objs i p u : cut (process_one_seq E objs i p u) (process_one_seq E objs i p u).
Proof.
  unfold process_one_seq, emit_eval. do 5 bs. bo.
  change (should_start_local (non o)) with (should_start_local o). cbv zeta.
  eapply cut_bind_sim with (V := eq); [apply m_emit; reflexivity|intros ? ? _].
  change (o_solver_type (non o)) with (o_solver_type o). change (o_solver_config (non o)) with (o_solver_config o). change (observes2 (non o)) with (observes2 o).
  eapply cut_bind_sim with (V := eq).
  { match goal with |- SimP.sim _ _ (if ?b then _ else _) (if ?c then _ else _) => change c with b; destruct b end; cs3. }
  intros [u' [|]] ? <-; [apply cut_ret|]. bs. bc c_maybe_save; [apply cut_ret|fr3].
Qed.
Lemma c_batch_seq start res objs b : forall u, cut (process_batch_sequential E start res objs b u) (process_batch_sequential E start res objs b u).
Proof.
  induction b as [|[i p] b IH]; intros u; simpl; [apply cut_ret|].
  destruct (res && (i <? start)); [apply IH|]. bc c_one.
  - destruct a as [u' [|]]; [apply cut_ret|apply IH].
  - destruct a as [u' [|]]; [fr3|apply fr_batch_seq].
Qed.
Lemma c_quicks : forall l u, cut (process_quicks E l u) (process_quicks E l u).
Proof.
  induction l as [|[[i p] v] l IH]; intros u; simpl; [apply cut_ret|]. apply cut_bind.
  - unfold process_quick. do 4 bs. bc c_maybe_save; [apply cut_ret|fr3].
  - intro. apply IH.
  - intro. apply fr_quicks.
Qed.
Lemma c_par_results : forall l u, cut (process_par_results E l u) (process_par_results E l u).
Proof.
  induction l as [|[[[i p] v] [x k]] l IH]; intros u; simpl; [apply cut_ret|]. apply cut_bind.
  - unfold process_par_result. do 6 bs. bo. bs. match goal with |- cut (if ?b then _ else _) _ => destruct b end; [apply cut_ret|]. bc c_maybe_save; [apply cut_ret|fr3].
  - intros [|]; [apply cut_ret|apply IH].
  - intros [|]; [fr3|apply fr_par_results].
Qed.
Lemma c_singles : forall l u, cut (process_singles E l u) (process_singles E l u).
Proof.
  induction l as [|[[i p] v] l IH]; intros u; simpl; [apply cut_ret|]. apply cut_bind.
  - unfold process_single. do 2 bs. bo. do 6 bs. bo. bs. match goal with |- cut (if ?b then _ else _) _ => destruct b end; [apply cut_ret|]. bc c_maybe_save; [apply cut_ret|fr3].
  - intros [|]; [apply cut_ret|apply IH].
  - intros [|]; [fr3|apply fr_singles].
Qed.
Lemma c_batch_par start res objs b u : picks -> cut (process_batch_parallel E start res objs b u) (process_batch_parallel E start res objs b u).
Proof.
  intro Hp. unfold process_batch_parallel. set (fb := if res then _ else _). clearbody fb.
  destruct (match fb with [] => true | _ => false end); [apply cut_ret|].
  bs. eapply cut_bind_sim; [apply m_tick_pick, Hp|]. intros t t' Ht. rewrite (Ht [1]). do 2 bs. bo. cbv zeta.
  change (should_start_local (non o)) with (should_start_local o).
  destruct (partition _ _) as [local quick].
  eapply cut_bind_sim with (V := eq); [apply m_emit, doings_decide|intros ? ? _].
  match goal with |- cut (bind _ ?k1) (bind _ ?k2) => assert (Hk : forall w, FrameP.frame (k2 w)); [|assert (Hc : forall w, cut (k1 w) (k2 w))] end.
  { intro w. repeat first [apply fr_par_results|apply fr_singles|fr1]. }
  { intro w. rewrite (Ht [2]). bo. apply cut_bind; [|intro; apply cut_ret|intro; fr3].
    change (o_parallel (non o0)) with (o_parallel o0). destruct ((2 <=? List.length local) && o_parallel o0); [|apply c_singles].
    eapply cut_bind_sim with (V := eq); [apply m_emit; reflexivity|intros ? ? _].
    eapply cut_bind_sim with (V := eq); [apply sim_of_result, vrel_eq|intros rs ? <-]. apply c_par_results. }
  rewrite (Ht [2]) in *. apply cut_bind; [apply c_quicks|exact Hc|exact Hk].
Qed.
Lemma c_loop size start res objs : (1 <? size = true -> picks) -> forall bs u, cut (stage2_loop E size start res objs bs u) (stage2_loop E size start res objs bs u).
Proof.
  intro Hp. induction bs as [|b bs IH]; intros u; simpl; [apply cut_ret|]. eapply cut_bind_sim; [apply m_oqnlp|]. intros o o' (-> & _ & Hm & _).
  change (o_max_time (non o)) with (o_max_time o). rewrite Hm. eapply cut_bind_sim with (V := eq); [apply sim_ret; reflexivity|intros ? ? <-].
  match goal with |- cut (if ?b then _ else _) _ => destruct b end; [apply cut_ret|].
  eapply cut_bind_sim with (V := eq); [apply m_emit; reflexivity|intros ? ? _]. apply cut_bind.
  - destruct (1 <? size); [apply c_batch_par; auto|apply c_batch_seq].
  - intro u'. bo. change (target_reached E (non o0)) with (target_reached E o0).
    eapply cut_bind_sim with (V := eq); [apply sim_unwrap|intros [|] ? <-; [apply cut_ret|apply IH]].
  - intro u'. fr3. apply fr_loop.
Qed.
Lemma m_final : sim eq final_set final_set.
Proof. unfold final_set. cs. Qed.
Lemma c_stage2 refs objs u : (par = true -> picks) -> cut (stage2_run E false refs objs u) (stage2_run E false refs objs u).
Proof.
  intro Hp. unfold stage2_run. eapply cut_bind_sim with (V := eq); [apply m_begin2|intros ? ? _].
  eapply cut_bind_sim; [apply m_oqnlp|]. intros o o' (-> & _ & _ & Hpar).
  change (o_params (non o)) with (o_params o). change (o_iteration (non o)) with (o_iteration o).
  eapply cut_bind_sim with (V := eq); [cs|intros rs ? <-]. cbv zeta iota.
  change (batch_size E (non o)) with (batch_size E o).
  apply cut_bind; [|intro|intro].
  - destruct (batch_size E o 0 =? 0); [apply cut_sim, sim_panic|apply c_loop].
    intro Hs. apply Hp. unfold batch_size in Hs. rewrite Hpar in Hs. destruct par; [reflexivity|discriminate].
  - bc c_final_save; [apply cut_sim, m_final|unfold final_set; fr3].
  - apply fr_bind; [apply fr_final_save|intro]. unfold final_set. fr3.
Qed.
End Unsaved.

Lemma chks_weaken c par (p q : Prop) s t : (p -> q) -> chks c par p s t -> chks c par q s t.
Proof. intros H (H0 & H1 & H2 & H3 & H4). split; [exact H0|]. split; [exact H1|]. split; [exact H2|]. split; [destruct H3; auto|exact H4]. Qed.
Lemma nothing_start E c s : o_cp (s_o s) = Some c -> nothing_to_resume E c s ->
  exists s1, try_resume_from_checkpoint E s = (Ok false, s1) /\ s_o s1 = s_o s /\ w_trace (s_w s1) = w_trace (s_w s) /\ w_tick (s_w s1) = w_tick (s_w s).
Proof.
  intros Hc Hr. unfold try_resume_from_checkpoint, bind, the_oqnlp, get, ret, bind, on_disk. cbn [fst snd]. rewrite Hc.
  unfold nothing_to_resume in Hr. destruct (cc_auto_resume c); [|exists s; auto].
  specialize (Hr eq_refl). destruct (checkpoint_exists E c (w_disk (s_w s))) as [r d]. cbn [fst] in Hr. subst r.
  eexists. split; [reflexivity|]. auto.
Qed.
Theorem c109_same : forall E c s rA sA na rB sB nb,
  run E s = (rA, sA) -> recorded s sA na -> run E (unsaved_state s) = (rB, sB) -> recorded (unsaved_state s) sB nb ->
  o_cp (s_o s) = Some c -> nothing_to_resume E c s -> o_max_time (s_o s) = None ->
  (o_parallel (s_o s) = true -> forall i j, e_err_pick E i = e_err_pick E j) ->
  (rB = rA /\ doings nb = doings na) \/ (save_failed c rA /\ exists more, doings nb = more ++ doings na).
Proof.
  intros E c s rA sA na rB sB nb Ha Na Hb Nb Hc Hr Hm Hp.
  destruct (nothing_start _ _ _ Hc Hr) as (s1 & Es & Eo & Et & Ew).
  assert (Nu : no_resume (s_o (unsaved_state s))) by (intros c' Hc'; discriminate).
  unfold run in Ha, Hb. unfold bind at 1 in Ha. unfold bind at 1 in Hb. rewrite Es in Ha. rewrite (no_resume_start E _ Nu) in Hb.
  set (par := o_parallel (s_o s)) in *.
  assert (L : chks c par False s1 (unsaved_state s)) by (unfold chks, trace; rewrite Eo, Et, Ew; repeat (split; [auto|]); reflexivity).
  assert (W : forall s t, chks c par False s t -> chks c par True s t) by (intros ? ?; apply chks_weaken; auto).
  assert (G : (vrel eq rA rB /\ chks c par True sA sB) \/ (save_failed c rA /\ ahead sA sB)).
  { unfold bind in Ha, Hb. destruct (m_stage1 E c par False (fun H => H) _ _ L) as [K1 K2].
    destruct (stage1_run E s1) as [[r|e|] s3], (stage1_run E (unsaved_state s)) as [[r'|e'|] t3]; cbn [fst snd vrel] in *; try contradiction.
    - subst r'. destruct r as [[refs objs]|].
      + pose proof (c_stage2 E c par True I refs (Some objs) 0 Hp _ _ (W _ _ K2)) as G. rewrite Ha, Hb in G. exact G.
      + left. pose proof (m_final c par True _ _ (W _ _ K2)) as G. rewrite Ha, Hb in G. exact G.
    - left. injection Ha as <- <-. injection Hb as <- <-. split; [exact K1|apply W, K2].
    - left. injection Ha as <- <-. injection Hb as <- <-. split; [exact I|apply W, K2]. }
  unfold recorded in Na, Nb. change (w_trace (s_w (unsaved_state s))) with (w_trace (s_w s)) in Nb.
  destruct G as [[G1 G2]|[G1 [z G2]]].
  - left. destruct G2 as (_ & _ & _ & _ & G2). unfold trace in G2. rewrite Na, Nb, !doings_app in G2. apply app_inv_tail in G2.
    split; [apply vrel_eq_inv in G1; auto|exact G2].
  - right. unfold trace in G2. rewrite Na, Nb, !doings_app, app_assoc in G2. apply app_inv_tail in G2. split; [exact G1|exists z; exact G2].
Qed.

(** * What a crash costs (C103) *)
From Coq Require Import ZArith NArith List Bool Arith Lia String.
From Verif Require Import F64 Base Builders Types Filters Runner Observer Env EnvSpec ScatterSearch Codec Checkpoint
  Oqnlp Spec SpecStage1 SpecStage2 SpecObserver SpecSave SpecCheckpoint SpecTiming SpecCost SpecLoss CodecP CheckpointP
  Actions RunP CountP FrameP FilterP HoareP SaveP Stage2P SeqP SeqP2 SeqP3 SeqP4 TargetP ResumeP CostP FinishP.
Import ListNotations.
Local Open Scope monad_scope.

(** ** The checkpoint file after a run *)
Section File.
Context (E : env) (c : cp_config) (T : no_torn_write E) (K : cc_keep_all c = false) (old : option bytes).
Definition F : fname := file_name c 0.
(** the file's content according to the record *)
Fixpoint tops (l : list event) : option bytes :=
  match l with
  | [] => old
  | EvSave _ cp :: _ => Some (enc_checkpoint cp)
  | _ :: l => tops l
  end.
Definition now (s : st) : option bytes := lookup F (d_files (w_disk (s_w s))).
Definition good (s : st) : Prop := o_cp (s_o s) = Some c /\ now s = tops (trace s).
Definition okay (s : st) : Prop := now s = tops (trace s) \/ exists f cp l, trace s = EvSave f cp :: l /\ now s = tops l.
Lemma name_any i : file_name c i = F. Proof. unfold F, file_name. rewrite K. reflexivity. Qed.
Notation hold m := (HoareP.hoare okay good m (fun _ => good)).
Lemma good_okay s : good s -> okay s. Proof. intros [_ H]. left. exact H. Qed.
Lemma d_bind A B (m : OM A) (k : A -> OM B) : hold m -> (forall a, hold (k a)) -> hold (bind m k).
Proof. intros H1 H2. eapply HoareP.h_bind; [exact H1|exact H2]. Qed.
Lemma d_ret A (a : A) : hold (ret a). Proof. apply HoareP.h_ret. auto using good_okay. Qed.
Lemma d_panic A : hold (@panic st oq_error A). Proof. apply HoareP.h_panic. apply good_okay. Qed.
Lemma d_fail A e : hold (@fail st oq_error A e). Proof. apply HoareP.h_fail. apply good_okay. Qed.
Lemma d_same A (m : OM A) : (forall s, good s -> good (snd (m s))) -> hold m.
Proof. intros H s Hs. split; [apply good_okay; auto|]. intros a s' Hx. specialize (H s Hs). rewrite Hx in H. exact H. Qed.
Lemma d_oqnlp : hold the_oqnlp. Proof. apply d_same. intros s H. exact H. Qed.
Lemma d_upd f : (forall o, o_cp (f o) = o_cp o) -> hold (upd f).
Proof. intros H. apply d_same. intros s [H1 H2]. split; [cbn; rewrite H; exact H1|exact H2]. Qed.
Lemma d_obs f : hold (obs f). Proof. apply d_upd. intros o. reflexivity. Qed.
Lemma d_ticked : hold tick. Proof. apply d_same. intros s H. exact H. Qed.
Lemma d_unwrap A (o : option A) : hold (unwrap o). Proof. destruct o; [apply d_ret|apply d_panic]. Qed.
Lemma d_result A (r : outcome oq_error A) : hold (of_result r). Proof. apply d_same. intros s H. exact H. Qed.
Lemma d_solver A (r : outcome ls_error A) : hold (of_solver r). Proof. destruct r; [apply d_ret|apply d_fail|apply d_panic]. Qed.
Lemma tops_app l t : Forall (fun e => match e with EvSave _ _ => False | _ => True end) l -> tops (l ++ t) = tops t.
Proof. intros H. induction H as [|e l He _ IH]; [reflexivity|]. destruct e; try exact IH. destruct He. Qed.
Lemma d_emit l : Forall (fun e => match e with EvSave _ _ => False | _ => True end) l -> hold (emit l).
Proof.
  intros H. apply d_same. intros s [H1 H2]. split; [exact H1|].
  change (now s = tops (rev l ++ trace s)). rewrite tops_app; [exact H2|]. apply Forall_rev. exact H.
Qed.
Lemma noted_map A (f : A -> event) l : (forall a, match f a with EvSave _ _ => False | _ => True end) ->
  Forall (fun e => match e with EvSave _ _ => False | _ => True end) (map f l).
Proof. intros H. rewrite Forall_map. apply Forall_forall. intros a _. exact (H a). Qed.
Ltac da1 :=
  match goal with
  | |- HoareP.hoare _ _ (bind _ _) _ => apply d_bind; [|intro]
  | |- HoareP.hoare _ _ (ret _) _ => apply d_ret
  | |- HoareP.hoare _ _ panic _ => apply d_panic
  | |- HoareP.hoare _ _ (fail _) _ => apply d_fail
  | |- HoareP.hoare _ _ the_oqnlp _ => apply d_oqnlp
  | |- HoareP.hoare _ _ (upd _) _ => apply d_upd; reflexivity
  | |- HoareP.hoare _ _ (obs _) _ => apply d_obs
  | |- HoareP.hoare _ _ (emit (map _ _)) _ => apply d_emit, noted_map; intro; exact I
  | |- HoareP.hoare _ _ (emit _) _ => apply d_emit; constructor; [exact I|first [apply Forall_nil | apply noted_map; intro; exact I]]
  | |- HoareP.hoare _ _ tick _ => apply d_ticked
  | |- HoareP.hoare _ _ (unwrap _) _ => apply d_unwrap
  | |- HoareP.hoare _ _ (of_result _) _ => apply d_result
  | |- HoareP.hoare _ _ (of_solver _) _ => apply d_solver
  | |- HoareP.hoare _ _ (let '(_, _) := ?x in _) _ => destruct x
  | |- HoareP.hoare _ _ (if ?b then _ else _) _ => destruct b
  | |- HoareP.hoare _ _ (match ?x with _ => _ end) _ => destruct x
  end.
Ltac da := repeat da1.
Lemma d_callback i : hold (callback E i).
Proof. unfold callback. da. Qed.
Lemma d_callback_at i : hold (callback_at E i).
Proof. unfold callback_at. da. apply d_callback. Qed.
Lemma save_effect cp i d r d' : Checkpoint.save_checkpoint E c cp i d = (r, d') ->
  (exists f, r = Ok f) /\ lookup F (d_files d') = Some (enc_checkpoint cp) \/
  (forall f, r <> Ok f) /\ d_files d' = d_files d.
Proof.
  intro H. destruct r as [f|e|] eqn:Hr.
  - left. split; [eauto|]. apply save_ok in H. rewrite (name_any i) in H. exact H.
  - right. split; [discriminate|]. unfold save_checkpoint, fs_write, next_io, bind in H. destruct (e_io E (d_tick d)) as [| |n] eqn:Hio; cbn in H.
    + discriminate H.
    + injection H as _ <-. reflexivity.
    + exfalso. exact (T _ _ Hio).
  - right. split; [discriminate|]. unfold save_checkpoint, fs_write, next_io, bind in H. destruct (e_io E (d_tick d)) as [| |n] eqn:Hio; cbn in H; discriminate H.
Qed.
Lemma d_save_now : hold (save_now E c).
Proof.
  unfold save_now. apply d_bind; [unfold create_checkpoint; da|]. intro cp. apply d_bind; [apply d_oqnlp|]. intro o.
  intros s [H1 H2]. set (s1 := fun d => mk_st (s_o s) (mk_world d (w_tick (s_w s)) (EvSave (file_name c (o_iteration o)) cp :: w_trace (s_w s)))).
  assert (Q : (emit [EvSave (file_name c (o_iteration o)) cp] ;;; on_disk (save_checkpoint E c cp (o_iteration o)) ;;; ret tt) s =
    let '(r, d) := save_checkpoint E c cp (o_iteration o) (w_disk (s_w s)) in
    (match r with Ok _ => Ok tt | Err e => Err (CheckpointError e) | Panic => Panic end, s1 d)).
  { unfold bind at 1. unfold emit, modify. cbv beta iota. unfold bind, on_disk. cbv beta. cbn [w_disk s_w].
    destruct (save_checkpoint E c cp (o_iteration o) (w_disk (s_w s))) as [[f|e|] d]; reflexivity. }
  rewrite Q. clear Q.
  destruct (save_checkpoint E c cp (o_iteration o) (w_disk (s_w s))) as [r d] eqn:Hs. apply save_effect in Hs as [[[f ->] L]|[Hr L]].
  - assert (G : good (s1 d)) by (split; [exact H1|exact L]).
    cbn [fst snd]. split; [apply good_okay; exact G|]. intros a s' Hx. injection Hx as _ <-. exact G.
  - assert (G : okay (s1 d)).
    { right. exists (file_name c (o_iteration o)), cp, (trace s). split; [reflexivity|]. unfold now. cbn [w_disk s_w s1]. rewrite L. exact H2. }
    destruct r as [f|e|]; [destruct (Hr f eq_refl)| |]; cbn [fst snd]; (split; [exact G|discriminate]).
Qed.
Lemma with_cp A (g : oqnlp -> OM A) :
  (forall o, o_cp o = Some c -> hold (g o)) -> hold (bind the_oqnlp g).
Proof. intros H s Hs. exact (H (s_o s) (proj1 Hs) s Hs). Qed.
Lemma d_maybe_save : hold (maybe_save_checkpoint E).
Proof.
  unfold maybe_save_checkpoint. apply with_cp. intros o ->. destruct (cc_save_frequency c); [apply d_panic|].
  destruct (_ =? 0); [apply d_save_now|apply d_ret].
Qed.
Lemma d_final_save : hold (maybe_save_final_checkpoint E).
Proof. unfold maybe_save_final_checkpoint. apply with_cp. intros o ->. apply d_save_now. Qed.
Lemma d_process x : hold (process_local_solution E x).
Proof. unfold process_local_solution, set_solutions, set_threshold, add_to_filter. da. Qed.
Lemma d_begin i u : hold (begin_iteration E i u).
Proof. unfold begin_iteration. da. Qed.
Lemma d_obs_iteration i u : hold (obs_iteration i u).
Proof. unfold obs_iteration. da. Qed.
Lemma d_obs_search a n : hold (obs_search a n).
Proof. unfold obs_search. da. Qed.
Lemma d_count u : hold (count_unchanged u).
Proof. unfold count_unchanged, adjust_threshold, set_threshold. da. Qed.
Lemma d_one objs i p u : hold (process_one_seq E objs i p u).
Proof.
  unfold process_one_seq, emit_eval, set_threshold. da;
    auto using d_begin, d_obs_iteration, d_process, d_obs_search, d_count, d_callback_at, d_maybe_save.
Qed.
Lemma d_seq start res objs b : forall u, hold (process_batch_sequential E start res objs b u).
Proof.
  induction b as [|[i p] b IH]; intros u; cbn [process_batch_sequential]; [apply d_ret|].
  destruct (res && (i <? start)); [apply IH|]. da; auto using d_one.
Qed.
Lemma d_quicks l : forall u, hold (process_quicks E l u).
Proof.
  induction l as [|[[i p] v] l IH]; intros u; cbn [process_quicks]; [apply d_ret|]. apply d_bind; [|intro; apply IH].
  unfold process_quick. da; auto using d_begin, d_obs_iteration, d_count, d_callback_at, d_maybe_save.
Qed.
Lemma d_par_results l : forall u, hold (process_par_results E l u).
Proof.
  induction l as [|[[[i p] v] [x n]] l IH]; intros u; cbn [process_par_results]; [apply d_ret|]. apply d_bind; [|intro; destruct a; [apply d_ret|apply IH]].
  unfold process_par_result, set_threshold. da; auto using d_begin, d_obs_iteration, d_process, d_obs_search, d_callback_at, d_maybe_save.
Qed.
Lemma d_singles l : forall u, hold (process_singles E l u).
Proof.
  induction l as [|[[i p] v] l IH]; intros u; cbn [process_singles]; [apply d_ret|]. apply d_bind; [|intro; destruct a; [apply d_ret|apply IH]].
  unfold process_single, set_threshold. da; auto using d_begin, d_obs_iteration, d_process, d_obs_search, d_callback, d_maybe_save.
Qed.
Lemma d_par start res objs b u : hold (process_batch_parallel E start res objs b u).
Proof.
  unfold process_batch_parallel. da; auto using d_quicks, d_par_results, d_singles.
Qed.
Lemma d_loop size start res objs bs : forall u, hold (stage2_loop E size start res objs bs u).
Proof.
  induction bs as [|b bs IH]; intros u; cbn [stage2_loop]; [apply d_ret|]. da; auto using d_par, d_seq.
Qed.
Lemma d_stage2 res refs objs u : hold (stage2_run E res refs objs u).
Proof.
  unfold stage2_run, begin_stage2, final_set. da; auto using d_loop, d_final_save.
Qed.
Lemma d_stage1 : hold (stage1_run E).
Proof.
  unfold stage1_run, end_stage1, stage1_enter, set_threshold. da; auto using d_callback, d_process.
Qed.
Lemma d_rest b : hold (run_rest E b).
Proof.
  unfold run_rest, final_set. destruct b; da; auto using d_stage1, d_stage2.
Qed.
Lemma file_after s r s' new : run E s = (r, s') -> recorded s s' new -> new <> [] -> o_cp (s_o s') = Some c -> old = lookup F (d_files (w_disk (s_w s))) ->
  now s' = tops new \/ exists f cp l, new = EvSave f cp :: l /\ now s' = tops l.
Proof.
  intros Hrun Hnew Hne Hc Hold. destruct (HoareP.run_cases E s r s' new Hrun Hnew) as [(-> & _)|(b & s1 & Hst & Htr & Hr & Hcfg)]; [congruence|].
  assert (G : good s1).
  { split; [destruct Hcfg as (_ & _ & _ & _ & _ & _ & _ & _ & <- & _); exact Hc|]. unfold now. rewrite Htr. cbn [tops]. rewrite Hold.
    destruct Hst as [d Hd _|c' d cp _ _ _ _ Hd]; cbn; rewrite Hd; reflexivity. }
  destruct (d_rest b s1 G) as [O _]. rewrite Hr in O. exact O.
Qed.
Lemma tops_cases l : (exists a f cp b, l = a ++ EvSave f cp :: b /\ saved a = [] /\ tops l = Some (enc_checkpoint cp)) \/ (saved l = [] /\ tops l = old).
Proof.
  induction l as [|e l IH]; [right; split; reflexivity|].
  assert (X : (exists f cp, e = EvSave f cp) \/ (saved (e :: l) = saved l /\ tops (e :: l) = tops l /\ forall a, saved (e :: a) = saved a))
    by (destruct e; eauto; right; repeat split; reflexivity).
  destruct X as [(f & cp & ->)|(X1 & X2 & X3)].
  - left. exists [], f, cp, l. repeat split.
  - rewrite X1, X2. destruct IH as [(a & f & cp & b & -> & Ha & Hb)|IH]; [left|right; exact IH].
    exists (e :: a), f, cp, b. rewrite X3. auto.
Qed.
End File.

(** ** What was begun, and what was saved last *)
Lemma newest l j : In (EvIteration j) l -> exists l1 m l2, l = l1 ++ EvIteration m :: l2 /\ begun l1 = [].
Proof.
  induction l as [|e l IH]; intro H; [destruct H|].
  assert (X : (exists i, e = EvIteration i) \/ ((forall a, begun (e :: a) = begun a) /\ In (EvIteration j) l)).
  { destruct H as [->|H]; [left; eexists; reflexivity|]. destruct e; first [left; eexists; reflexivity|right; split; [intros; reflexivity|exact H]]. }
  destruct X as [(i & ->)|[X1 X2]]; [exists [], i, l; split; reflexivity|].
  destruct (IH X2) as (l1 & m & l2 & -> & G). exists (e :: l1), m, l2. rewrite X1. auto.
Qed.
Section Saves.
Context (E : env) (fr : option nat * option cp_config * params * (solver_type * solver_config * option f64 * option nat * bool)).
Notation q := (fst (fst (fst fr))).
Notation c := (snd (fst (fst fr))).
Lemma shape_last is e l : shape E fr is e l -> forall l1 f cp l2, l = l1 ++ EvSave f cp :: l2 -> exists rest, indices f_begun l2 = cp_iteration cp :: rest.
Proof.
  assert (B : forall cbs mid i l is0 e0, Forall quiet mid -> indices f_begun cbs = [] -> shape E fr is0 e0 l ->
    indices f_begun (cbs ++ mid ++ EvIteration i :: l) = i :: is0).
  { intros cbs mid i l0 is0 e0 Hm Hc Hs. rewrite !indices_app, indices_cons, Hc, (indices_none _ _ _ (proj1 plain_quiet) Hm), (shape_begun _ _ _ _ _ Hs). reflexivity. }
  assert (W : forall i mid l0 tail l1 f cp l2 is0 e0, Forall quiet mid -> whole_tail q c i tail -> shape E fr is0 e0 l0 ->
    tail ++ mid ++ EvIteration i :: l0 = l1 ++ EvSave f cp :: l2 ->
    (exists rest, indices f_begun l2 = cp_iteration cp :: rest) \/ exists b, l0 = b ++ EvSave f cp :: l2).
  { intros i mid l0 tail l1 f cp l2 is0 e0 Hm Hw Hs Heq. pose proof (proj1 (wt_indices _ _ _ _ Hw)) as Hb0.
    destruct (SeqP4.wt_save fr _ _ _ _ _ _ _ _ Hm Hw Heq) as [[Hi (cbs & ->)]|G]; [left|right; exact G].
    exists is0. rewrite Hi. eapply B; eauto.
    assert (L : exists x, tail = x ++ cbs).
    { apply (f_equal (@rev event)) in Heq. exists (l1 ++ [EvSave f cp]).
      apply (app_inv_tail (mid ++ EvIteration i :: l0)). rewrite <- !app_assoc. simpl. apply (f_equal (@rev event)) in Heq. rewrite !rev_involutive in Heq. exact Heq. }
    destruct L as [x ->]. rewrite indices_app in Hb0. apply app_eq_nil in Hb0. apply Hb0. }
  intro H. induction H; intros l1 f cp l2 Heq.
  - destruct l1; discriminate.
  - destruct l1 as [|e1 l1]; injection Heq as -> Heq; [destruct H|]. eapply IHshape; eauto.
  - destruct (W _ _ _ _ _ _ _ _ _ _ H0 H2 H3 Heq) as [G|[b Hb]]; [exact G|eauto].
  - apply in_split_r in Heq as (b & -> & Heq); [|apply not_quiet; auto]. destruct b as [|e0 b]; [discriminate Heq|injection Heq as _ Heq]. eauto.
  - destruct H0 as [->|[(o & Ho & Hfin) [H0|H0]]].
    + simpl in Heq. apply in_split_r in Heq as (b & -> & Heq); [|apply not_quiet; auto]. destruct b as [|e0 b]; [discriminate Heq|injection Heq as _ Heq]. eauto.
    + apply in_split_r in Heq as (b & -> & Heq); [|eapply SeqP4.cb_no_save; eauto].
      apply in_split_r in Heq as (b' & -> & Heq); [|apply not_quiet; auto]. destruct b' as [|e0 b']; [discriminate Heq|injection Heq as _ Heq]. eauto.
    + destruct (W _ _ _ _ _ _ _ _ _ _ H H0 H1 Heq) as [G|[b Hb]]; [exact G|eauto].
Qed.
End Saves.
Lemma firstn_seq k : forall start n, firstn k (seq start n) = seq start (Nat.min k n).
Proof. induction k as [|k IH]; intros start [|n]; simpl; try reflexivity. rewrite IH. reflexivity. Qed.
Section Record.
Context (E : env) (Hok : env_ok E) (Hcb : callbacks_keep_settings E) (s s' : st) (r : outcome oq_error solset) (new : list event).
Hypothesis Hrun : run E s = (r, s').
Hypothesis Hnew : recorded s s' new.
Hypothesis Hpar : o_parallel (s_o s') = false.
Lemma record_facts j : In (EvIteration j) new ->
  (exists start k, first_index E s start /\ begun new = rev (seq start k)) /\
  forall l1 f cp l2, new = l1 ++ EvSave f cp :: l2 -> begun l2 <> [] -> exists rest, begun l2 = cp_iteration cp :: rest.
Proof.
  intro Hin. destruct (record_parts E Hok Hcb s s' r new Hrun Hnew Hpar) as (b & [(Hp & _)|(start & it0 & l & pre & Hp & -> & Hs & Hst & _)] & _).
  { exfalso. eapply early_no_iter; eassumption. }
  assert (Bp : indices f_begun pre = []) by (eapply indices_none; [apply plain_early|exact Hp]).
  assert (X : exists k e lx fin, l = fin ++ lx /\ shape E (frame (s_o s')) (rev (firstn k (seq start (work_bound s' - start)))) e lx /\
    (fin = [] \/ final_record (o_cp (s_o s')) (hd it0 (rev (firstn k (seq start (work_bound s' - start))))) fin)).
  { destruct Hs as [k e lx fin Hsh _ _ _ Hf|k e lx Hsh]; [exists k, e, lx, fin|exists k, e, lx, []]; auto. }
  destruct X as (k & e & lx & fin & -> & Hsh & Hf).
  assert (Bf : indices f_begun fin = []) by (destruct Hf as [->|Hf]; [reflexivity|eapply final_indices; exact Hf]).
  split.
  - exists start, (Nat.min k (work_bound s' - start)). split; [exact Hst|]. change (begun ((fin ++ lx) ++ pre)) with (indices f_begun ((fin ++ lx) ++ pre)).
    rewrite !indices_app, Bp, Bf, (shape_begun _ _ _ _ _ Hsh), app_nil_r, firstn_seq. reflexivity.
  - intros l1 f cp l2 Heq Hb.
    apply in_split_l in Heq as (a2 & Ha & ->); [|intro G; rewrite Forall_forall in Hp; exact (Hp _ G)].
    change (begun (a2 ++ pre)) with (indices f_begun (a2 ++ pre)) in *. rewrite indices_app, Bp, app_nil_r in *.
    destruct (app_cons_inv _ _ _ _ _ _ Ha) as [(f2 & -> & ->)|(b1 & -> & ->)].
    + destruct Hf as [Hf|Hf]; [destruct l1; discriminate|]. unfold final_record in Hf. destruct (o_cp (s_o s')); [|destruct l1; discriminate].
      destruct Hf as (cp' & Hf & Hi). destruct l1 as [|e1 l1]; [|destruct l1; discriminate]. injection Hf as _ -> ->. simpl app in *.
      rewrite (shape_begun _ _ _ _ _ Hsh) in *. rewrite Hi. destruct (rev (firstn k (seq start (work_bound s' - start)))) as [|m rest]; [congruence|]. exists rest. reflexivity.
    + destruct (shape_last E _ _ _ _ Hsh _ _ _ _ eq_refl) as [rest G]. exists rest. exact G.
Qed.
End Record.
(** ** Arithmetic of saving every f iterations *)
Lemma seq_snoc start k : rev (seq start (S k)) = (start + k) :: rev (seq start k).
Proof. rewrite seq_S, rev_app_distr. reflexivity. Qed.
Lemma due_next f start k : 0 < f -> match filter (multiple f) (rev (seq start k)) with [] => k < f | i :: _ => multiple f i = true /\ start + k <= i + f end.
Proof.
  intro Hf. induction k as [|k IH]; [simpl; exact Hf|]. rewrite seq_snoc. cbn [filter]. destruct (multiple f (start + k)) eqn:Hm.
  - split; [exact Hm|lia].
  - destruct (filter (multiple f) (rev (seq start k))) as [|i l] eqn:Hl.
    + destruct (Nat.eq_dec (S k) f) as [He|He]; [exfalso|lia].
      (* f numbers in a row without a multiple of f *)
      set (x := f * ((start + k) / f)). assert (Hx : start <= x /\ x <= start + k).
      { unfold x. pose proof (Nat.div_mod (start + k) f ltac:(lia)). pose proof (Nat.mod_upper_bound (start + k) f ltac:(lia)). lia. }
      assert (Mx : multiple f x = true) by (unfold multiple, x; rewrite Nat.mul_comm, Nat.mod_mul by lia; reflexivity).
      destruct (Nat.eq_dec x (start + k)) as [e|n]; [congruence|].
      assert (Hin : In x (filter (multiple f) (rev (seq start k)))) by (apply filter_In; split; [apply -> in_rev; apply in_seq; lia|exact Mx]).
      rewrite Hl in Hin. destruct Hin.
    + destruct IH as [I1 I2]. split; [exact I1|]. destruct (Nat.eq_dec (start + k) (i + f)) as [e|n]; [exfalso|lia].
      unfold multiple in *. apply Nat.eqb_eq in I1. rewrite e in Hm. replace (i + f) with (i + 1 * f) in Hm by lia. rewrite Nat.mod_add, I1 in Hm by lia. discriminate.
Qed.
(** ** The bound of the work, in a checkpoint *)
Lemma resumed_bound E s r s' new cp : run E s = (r, s') -> recorded s s' new -> new <> [] -> resumes_from E s cp ->
  Nat.min (p_iterations (cp_params cp)) (List.length (cp_reference_set cp)) = work_bound s'.
Proof.
  intros Hrun Hnew Hne Hres. destruct (HoareP.run_cases E s _ s' new Hrun Hnew) as [(-> & _ & _)|(b & s1 & Hst & Htr & Hr & Hcfg)]; [congruence|].
  assert (Hb : b = true /\ s_o s1 = restored cp (s_o s)).
  { destruct Hres as (c & R1 & R2 & R3 & R4). destruct Hst as [d Hd Hn|c' d cp' H1 H2 H3 H4 Hd].
    - exfalso. change (o_cp (s_o (blank s))) with (o_cp (s_o s)) in Hn. specialize (Hn c R1 R2).
      change (w_disk (s_w (blank s))) with (w_disk (s_w s)) in Hn. congruence.
    - split; [reflexivity|]. change (o_cp (s_o (blank s))) with (o_cp (s_o s)) in H1. rewrite R1 in H1. injection H1 as <-.
      change (w_disk (s_w (blank s))) with (w_disk (s_w s)) in H4. rewrite R4 in H4. injection H4 as <-. reflexivity. }
  destruct Hb as [-> Ho]. unfold HoareP.run_rest in Hr. unfold bind, the_oqnlp, get, ret, bind in Hr. cbn [fst snd] in Hr.
  assert (Hrf : o_ref (s_o s1) = Some (cp_reference_set cp)) by (rewrite Ho; reflexivity).
  assert (Hpa : o_params (s_o s1) = cp_params cp) by (rewrite Ho; reflexivity).
  rewrite Hrf in Hr. set (refs := cp_reference_set cp) in *.
  pose proof (a_stage2 E (candidate E true (s_o s1) refs) None true refs (o_unchanged (s_o s1)) (fun _ _ => True) s1 (fun i p H => H) (fun r s' _ H => I)) as [W _].
  rewrite Hr in W. cbn [fst snd] in W.
  assert (Hrf' : o_ref (s_o s') = Some refs).
  { change (s_o s') with (s_o (ends s' new)). rewrite <- Hrf. eapply acts_ref; [|exact W]. intros p (j & rs & Hx & _). discriminate. }
  unfold work_bound, reference_set. rewrite Hrf'. destruct Hcfg as (-> & _). rewrite Hpa. reflexivity.
Qed.
Lemma saved_bound E s r s' new l1 f cp l2 : run E s = (r, s') -> recorded s s' new -> new = l1 ++ EvSave f cp :: l2 ->
  Nat.min (p_iterations (cp_params cp)) (List.length (cp_reference_set cp)) = work_bound s'.
Proof.
  intros Hrun Hnew Heq. destruct (run_saves E s r s' new Hrun Hnew) as (o & Ho & H).
  destruct (H _ _ _ _ Heq) as (_ & _ & _ & -> & Hp & _).
  assert (Hq : o_params o = o_params (s_o s')).
  { destruct (HoareP.run_cases E s _ s' new Hrun Hnew) as [(Hx & _ & _)|(b & s1 & Hst & Htr & Hr & Hcfg)]; [rewrite Hx in Heq; destruct l1; discriminate|].
    destruct Hcfg as (-> & _). destruct Hst as [d Hd Hn|c' d cp' H1 H2 H3 H4 Hd].
    - destruct Ho as [[-> _]|(cp0 & (c0 & A1 & A2 & A3 & _) & _)]; [reflexivity|]. exfalso. specialize (Hn c0 A1 A2).
      change (w_disk (s_w (blank s))) with (w_disk (s_w s)) in Hn. congruence.
    - destruct Ho as [[_ Hno]|(cp0 & (c0 & A1 & A2 & A3 & A4) & Hag)]; [exfalso; apply (Hno cp'); exists c'; auto|].
      change (o_cp (s_o (blank s))) with (o_cp (s_o s)) in H1. change (w_disk (s_w (blank s))) with (w_disk (s_w s)) in H4.
      rewrite A1 in H1. injection H1 as <-. rewrite A4 in H4. injection H4 as <-. destruct Hag as (-> & _). reflexivity. }
  rewrite Hp, Hq. reflexivity.
Qed.
(** ** The theorem *)
Theorem c103_resume : forall E E2 s r s1 new j c c2 o2, env_ok E -> callbacks_keep_settings E -> no_torn_write E -> io_works E2 ->
  run E s = (r, s1) -> recorded s s1 new -> o_parallel (s_o s1) = false ->
  o_cp (s_o s1) = Some c -> cc_keep_all c = false -> 0 < cc_save_frequency c ->
  (forall f cp, In (EvSave f cp) new -> checkpoint_ok cp) ->
  In (EvIteration j) new -> 0 < j ->
  o_cp o2 = Some c2 -> cc_name c2 = cc_name c -> cc_keep_all c2 = false -> cc_auto_resume c2 = true ->
  exists cp, resumes_from E2 (next_process s1 o2) cp /\ j <= cp_iteration cp + cc_save_frequency c /\
    Nat.min (p_iterations (cp_params cp)) (List.length (cp_reference_set cp)) = work_bound s1.
Proof.
  intros E E2 s r s1 new j c c2 o2 Hok Hcb Htorn Hio Hrun Hnew Hpar Hc Hk Hf Hfit Hin Hj Hc2 Hnm Hk2 Ha2.
  assert (Hne : new <> []) by (intros ->; destruct Hin).
  assert (HF : file_name c2 0 = F c) by (unfold F, file_name; rewrite Hk, Hk2, Hnm; reflexivity).
  destruct (record_facts E Hok Hcb s s1 r new Hrun Hnew Hpar j Hin) as [(start & k & Hst & Hb) Hlast].
  destruct (newest _ _ Hin) as (l1 & m & l2 & Heq & Hl1).
  pose proof (proj2 (before_iteration E Hok Hcb s s1 r new Hrun Hnew Hpar l1 m l2 Heq)) as Hsv. rewrite Hc in Hsv.
  assert (Bapp : forall a b, begun (a ++ b) = begun a ++ begun b) by (intros; apply indices_app).
  assert (Hb2 : exists k', k = S k' /\ m = start + k' /\ begun l2 = rev (seq start k')).
  { rewrite Heq, Bapp, Hl1 in Hb. change (begun (EvIteration m :: l2)) with (m :: begun l2) in Hb. simpl in Hb.
    destruct k as [|k]; [discriminate|]. rewrite seq_snoc in Hb. injection Hb as -> Hb. exists k. auto. }
  destruct Hb2 as (k' & -> & Hm & Hb2).
  assert (Hjm : j <= m).
  { assert (G : In j (begun new)) by (apply iter_begun; exact Hin). rewrite Hb in G. apply in_rev, in_seq in G. lia. }
  set (old := lookup (F c) (d_files (w_disk (s_w s)))).
  (* what is on disk *)
  assert (Hdisk : exists l1', now c s1 = tops old (l1' ++ EvIteration m :: l2) /\ begun l1' = [] /\ exists x, new = x ++ l1' ++ EvIteration m :: l2).
  { destruct (file_after E c Htorn Hk old s r s1 new Hrun Hnew Hne Hc eq_refl) as [G|(f & cp & l & Hl & G)].
    - exists l1. rewrite <- Heq. split; [exact G|]. split; [exact Hl1|]. exists []. reflexivity.
    - rewrite Hl in Heq. destruct l1 as [|e l1]; [discriminate Heq|]. injection Heq as <- ->. exists l1. split; [exact G|]. split; [exact Hl1|].
      exists [EvSave f cp]. exact Hl. }
  destruct Hdisk as (l1' & Hnow & Hl1' & x & Hx).
  assert (Fin : forall cp b y, new = y ++ b -> (exists a f b', b = a ++ EvSave f cp :: b') -> now c s1 = Some (enc_checkpoint cp) ->
    m <= cp_iteration cp + cc_save_frequency c ->
    exists cp, resumes_from E2 (next_process s1 o2) cp /\ j <= cp_iteration cp + cc_save_frequency c /\
      Nat.min (p_iterations (cp_params cp)) (List.length (cp_reference_set cp)) = work_bound s1).
  { intros cp b y Hy (a & f & b' & ->) Hn Hle. exists cp. rewrite app_assoc in Hy. split; [|split; [lia|eapply saved_bound; eassumption]].
    refine (next_resumes E2 c2 o2 s1 cp Hc2 Ha2 Hk2 Hio (Hfit f cp _) _).
    - rewrite Hy. apply in_or_app. right. left. reflexivity.
    - replace (file_name c2 (cp_iteration cp)) with (F c); [exact Hn|]. rewrite <- HF. unfold file_name. rewrite Hk2. reflexivity. }
  destruct (tops_cases old (l1' ++ EvIteration m :: l2)) as [(a & f & cp & b & Hab & Hsa & Ht)|[Hs0 Ht]]; rewrite Ht in Hnow.
  - refine (Fin cp _ x Hx _ Hnow _); [exists a, f, b; exact Hab|].
    destruct (app_cons_inv _ _ _ _ _ _ Hab) as [(a2 & -> & ->)|(b1 & -> & Hb1)].
    + (* saved after the last iteration began *)
      rewrite <- app_assoc in Hx. cbn [app] in Hx. rewrite app_assoc in Hx.
      assert (Z : begun a2 = []).
      { rewrite Bapp in Hl1'. apply app_eq_nil in Hl1' as [_ G]. exact G. }
      assert (Hbl : begun (a2 ++ EvIteration m :: l2) = m :: begun l2) by (rewrite Bapp, Z; reflexivity).
      destruct (Hlast _ _ _ _ Hx) as [rest G]; [rewrite Hbl; discriminate|]. rewrite Hbl in G. injection G as <- _. lia.
    + destruct b1 as [|e b1]; [discriminate Hb1|]. injection Hb1 as <- ->.
      assert (Sb : saved b1 = []).
      { unfold saved in *. rewrite indices_app in Hsa. apply app_eq_nil in Hsa as [_ G]. exact G. }
      assert (Sv : saved (b1 ++ EvSave f cp :: b) = cp_iteration cp :: saved b) by (unfold saved in *; rewrite indices_app, Sb; reflexivity).
      rewrite Sv, Hb2 in Hsv. pose proof (due_next (cc_save_frequency c) start k' Hf) as D.
      change (due_save (Some c)) with (multiple (cc_save_frequency c)) in Hsv.
      rewrite <- Hsv in D. lia.
  - assert (Sl : saved l2 = []).
    { unfold saved in *. rewrite indices_app in Hs0. apply app_eq_nil in Hs0 as [_ G]. exact G. }
    rewrite Sl, Hb2 in Hsv.
    change (due_save (Some c)) with (multiple (cc_save_frequency c)) in Hsv.
    pose proof (due_next (cc_save_frequency c) start k' Hf) as D. rewrite <- Hsv in D.
    destruct Hst as [[-> Hno]|(cp & Hres & ->)].
    + exfalso. destruct k' as [|k']; [lia|].
      assert (G : In 0 (filter (multiple (cc_save_frequency c)) (rev (seq 0 (S k'))))).
      { apply filter_In. split; [apply -> in_rev; left; reflexivity|]. unfold multiple. rewrite Nat.mod_0_l by lia. reflexivity. }
      rewrite <- Hsv in G. destruct G.
    + exists cp. split; [|split; [lia|eapply resumed_bound; eassumption]].
      destruct Hres as (c0 & R1 & R2 & R3 & R4).
      assert (c0 = c).
      { destruct (HoareP.run_cases E s _ s1 new Hrun Hnew) as [(Hz & _ & _)|(bb & sx & Hst & Htr & Hr & Hcfg)]; [congruence|].
        destruct Hcfg as (_ & _ & _ & _ & _ & _ & _ & _ & Hcc & _).
        destruct Hst as [d Hd Hn|c' d cp' H1 H2 H3 H4 Hd]; rewrite Hc in Hcc; change (Some c = o_cp (s_o s)) in Hcc; congruence. }
      subst c0. exists c2. split; [exact Hc2|]. split; [exact Ha2|]. change (w_disk (s_w (next_process s1 o2))) with (w_disk (s_w s1)).
      revert R3 R4. unfold checkpoint_exists, load_latest. rewrite Hk, Hk2. unfold bind, get, ret, bind. cbn [fst snd].
      rewrite HF. change (file_name c 0) with (F c). unfold now in Hnow. rewrite Hnow. fold old. destruct old as [bs|] eqn:Ho; [|intro R3; discriminate R3]. intros _ R4. split; [reflexivity|].
      revert R4. unfold load_from_path, bind, get, ret, bind. cbn [fst snd]. rewrite Hnow. unfold old in Ho. rewrite Ho. unfold next_io. cbv beta iota. rewrite Hio.
      destruct (e_io E (d_tick (w_disk (s_w s)))), (decode_checkpoint bs); cbn [fst snd]; intro R4; first [discriminate R4|exact R4].
Qed.
Theorem c103_cost : forall E E2 s r s1 new j c c2 o2 r2 s2 new2, env_ok E -> env_ok E2 -> callbacks_keep_settings E -> no_torn_write E -> io_works E2 ->
  run E s = (r, s1) -> recorded s s1 new -> o_parallel (s_o s1) = false ->
  o_cp (s_o s1) = Some c -> cc_keep_all c = false -> 0 < cc_save_frequency c ->
  (forall f cp, In (EvSave f cp) new -> checkpoint_ok cp) ->
  In (EvIteration j) new -> 0 < j ->
  o_cp o2 = Some c2 -> cc_name c2 = cc_name c -> cc_keep_all c2 = false -> cc_auto_resume c2 = true ->
  run E2 (next_process s1 o2) = (r2, s2) -> recorded (next_process s1 o2) s2 new2 ->
  List.length (objective_calls new2) <= work_bound s1 - j + cc_save_frequency c /\
  List.length (search_starts new2) <= work_bound s1 - j + cc_save_frequency c.
Proof.
  intros E E2 s r s1 new j c c2 o2 r2 s2 new2 Hok Hok2 Hcb Htorn Hio Hrun Hnew Hpar Hc Hk Hf Hfit Hin Hj Hc2 Hnm Hk2 Ha2 Hrun2 Hnew2.
  destruct (c103_resume E E2 s r s1 new j c c2 o2) as (cp & Hres & Hle & Hw); try assumption.
  destruct (c98_resumed E2 _ _ _ _ cp Hok2 Hrun2 Hnew2 Hres) as [B1 B2]. rewrite Hw in B1, B2. lia.
Qed.

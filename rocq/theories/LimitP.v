(** * A longer time limit (C108) *)
From Coq Require Import ZArith NArith List Bool Arith Lia String.
From Verif Require Import F64 F64Order Base Builders Types Filters Runner Observer Env EnvSpec
  ScatterSearch Codec Checkpoint Oqnlp Spec SpecStage2 SpecObserver SpecLimit Wp Actions RunP SetP SimP ClockFreeP LeaderP FrameP SeqP3 ResumeP AgainP FinishP MoreP.
Import ListNotations.
Local Open Scope monad_scope.

Section Limit.
Context (E : env) (g : option f64) (m0 : f64) (T0 : list event) (Hg : at_least g m0) (free : Prop) (Hfr : free -> g = None) (Hno : g = None -> free)
  (Hp : free -> forall i j, e_err_pick E i = e_err_pick E j).
Notation lim := (set_o_max_time g).
(** the clock is read equally often, unless there is no limit *)
Definition lims (s t : st) : Prop :=
  o_max_time (s_o s) = Some m0 /\ s_o t = lim (s_o s) /\ (free \/ w_tick (s_w t) = w_tick (s_w s)) /\
  d_tick (w_disk (s_w t)) = d_tick (w_disk (s_w s)) /\
  map fst (d_files (w_disk (s_w t))) = map fst (d_files (w_disk (s_w s))) /\
  deeds (trace t) = deeds (trace s) /\ exists l, trace s = l ++ T0.
Notation sim := (sim lims).
Lemma deeds_app l l' : deeds (l ++ l') = deeds l ++ deeds l'. Proof. apply flat_map_app. Qed.
Lemma m_oqnlp : sim (fun o o' => o' = lim o /\ o_max_time o = Some m0) the_oqnlp the_oqnlp.
Proof. intros s t H. pose proof H as H'. destruct H' as (H0 & H1 & _). simpl. auto. Qed.
Lemma m_upd f : (forall o, f (lim o) = lim (f o)) -> (forall o, o_max_time (f o) = o_max_time o) -> sim eq (upd f) (upd f).
Proof.
  intros H G. apply sim_modify. intros s t (H0 & H1 & H2). split; [simpl; rewrite G; exact H0|].
  split; [simpl; rewrite H1; apply H|exact H2].
Qed.
Lemma m_obs f : sim eq (obs f) (obs f). Proof. apply m_upd; reflexivity. Qed.
Lemma m_emit l l' : deeds (rev l') = deeds (rev l) -> sim eq (emit l) (emit l').
Proof.
  intros H. apply sim_modify. intros s t (H0 & H1 & H2 & H3 & H4 & H5 & k & H6). unfold lims, trace in *. simpl.
  rewrite !deeds_app, H, H5, H6. repeat (split; [auto|]). exists (rev l ++ k). apply app_assoc.
Qed.
Lemma m_tick0 : sim (fun _ _ => True) tick tick.
Proof.
  intros s t (H0 & H1 & H2 & H3 & H4 & H5). simpl. split; [exact I|]. unfold lims, trace in *. simpl.
  split; [exact H0|]. split; [exact H1|]. split; [destruct H2 as [H2|H2]; auto|]. auto.
Qed.
Lemma m_tick : ~ free -> sim eq tick tick.
Proof.
  intros N s t (H0 & H1 & H2 & H3 & H4 & H5). destruct H2 as [H2|H2]; [contradiction|]. simpl. rewrite H2. split; [reflexivity|]. unfold lims, trace in *. simpl.
  split; [exact H0|]. split; [exact H1|]. split; [auto|]. auto.
Qed.
Lemma m_tick_pick : sim (fun i j => forall l, e_err_pick E (j :: l) = e_err_pick E (i :: l)) tick tick.
Proof.
  intros s t (H0 & H1 & H2 & H3 & H4 & H5). simpl. split.
  - intro l. destruct H2 as [H2|H2]; [apply Hp, H2|rewrite H2; reflexivity].
  - unfold lims, trace in *. simpl. split; [exact H0|]. split; [exact H1|]. split; [destruct H2 as [H2|H2]; auto|]. auto.
Qed.
Lemma m_of_solver A (r : outcome ls_error A) : sim eq (of_solver r) (of_solver r).
Proof. destruct r as [a|e|]; [apply sim_ret|apply sim_fail|apply sim_panic]; auto. Qed.
Ltac cs1 :=
  match goal with
  | |- SimP.sim _ _ (bind the_oqnlp _) _ => eapply sim_bind; [apply m_oqnlp|]; let o := fresh "o" in let o' := fresh "o'" in intros o o' [-> ?];
      repeat match goal with
      | |- context [should_start_local (lim o)] => change (should_start_local (lim o)) with (should_start_local o)
      | |- context [observes1 (lim o)] => change (observes1 (lim o)) with (observes1 o)
      | |- context [observes2 (lim o)] => change (observes2 (lim o)) with (observes2 o)
      end
  | |- SimP.sim _ _ (bind _ _) _ => eapply sim_bind with (V := eq); [|intros ? ? <-]
  | |- SimP.sim _ _ (ret _) _ => apply sim_ret; auto
  | |- SimP.sim _ _ (fail _) _ => apply sim_fail
  | |- SimP.sim _ _ panic _ => apply sim_panic
  | |- SimP.sim _ _ (upd _) _ => apply m_upd; reflexivity
  | |- SimP.sim _ _ (obs _) _ => apply m_obs
  | |- SimP.sim _ _ (emit _) _ => apply m_emit; reflexivity
  | |- SimP.sim _ _ (unwrap _) _ => apply sim_unwrap
  | |- SimP.sim _ _ (of_result _) _ => apply sim_of_result; apply vrel_eq
  | |- SimP.sim _ _ (of_solver _) _ => apply m_of_solver
  | |- SimP.sim _ _ (let '(_, _) := ?x in _) _ => destruct x
  | |- SimP.sim _ _ (if ?b then _ else _) (if ?c then _ else _) => change c with b; destruct b
  | |- SimP.sim _ _ (match ?x with _ => _ end) (match ?y with _ => _ end) => change y with x; destruct x
  end.
Ltac cs := repeat cs1.
Lemma m_process sol : sim eq (process_local_solution E sol) (process_local_solution E sol).
Proof. unfold process_local_solution, set_solutions, set_threshold, add_to_filter. cs. Qed.
Lemma m_callback i : sim eq (callback E i) (callback E i).
Proof. unfold callback. cs. Qed.
Lemma m_callback_at i : sim eq (callback_at E i) (callback_at E i).
Proof. unfold callback_at. cs. apply m_callback. Qed.
Lemma m_save_disk cc cp cp' i : sim eq (on_disk (save_checkpoint E cc cp i)) (on_disk (save_checkpoint E cc cp' i)).
Proof.
  intros s t (H0 & H1 & H2 & H3 & H4 & H5 & H6).
  destruct s as [o [[fs k] m tr]], t as [o' [[fs' k'] m' tr']]. cbn [s_o s_w w_tick w_disk d_tick d_files] in *. subst o' k'.
  unfold trace in H5, H6. cbn [s_w w_trace] in H5, H6.
  unfold on_disk, save_checkpoint, fs_write, next_io, set_files, bind, modify, fail, ret. simpl.
  destruct (e_io E k); simpl; (split; [reflexivity|]); unfold lims, trace; simpl;
    (split; [exact H0|]); (split; [reflexivity|]); (split; [exact H2|]); (split; [reflexivity|]); (split; [|split; [exact H5|exact H6]]); try exact H4; apply put_names; exact H4.
Qed.
Lemma m_save_now cc : sim eq (save_now E cc) (save_now E cc).
Proof.
  unfold save_now. eapply sim_bind with (V := fun _ _ => True).
  - unfold create_checkpoint. eapply sim_bind; [apply m_tick0|intros ? ? _]. cs1. apply sim_ret. exact I.
  - intros cp cp' _. cs1. eapply sim_bind; [apply m_emit; reflexivity|intros ? ? _]. eapply sim_bind; [apply m_save_disk|intros ? ? _]. cs.
Qed.
Lemma m_maybe_save : sim eq (maybe_save_checkpoint E) (maybe_save_checkpoint E).
Proof. unfold maybe_save_checkpoint. cs; apply m_save_now. Qed.
Lemma m_final : sim eq (maybe_save_final_checkpoint E ;;; final_set) (maybe_save_final_checkpoint E ;;; final_set).
Proof. unfold maybe_save_final_checkpoint, final_set. cs; apply m_save_now. Qed.
Lemma m_begin i u : sim eq (begin_iteration E i u) (begin_iteration E i u).
Proof. unfold begin_iteration. cs. Qed.
Lemma m_obs_iteration i u : sim eq (obs_iteration i u) (obs_iteration i u).
Proof. unfold obs_iteration. cs. Qed.
Lemma m_obs_search a k : sim eq (obs_search a k) (obs_search a k).
Proof. unfold obs_search. cs. Qed.
Lemma m_count u : sim eq (count_unchanged u) (count_unchanged u).
Proof. unfold count_unchanged, adjust_threshold. cs. Qed.
Lemma m_threshold v : sim eq (set_threshold v) (set_threshold v).
Proof. unfold set_threshold. cs. Qed.
Lemma m_begin2 : sim eq begin_stage2 begin_stage2.
Proof. unfold begin_stage2. cs. Qed.
Ltac cs3 := repeat first [ apply m_process | apply m_callback | apply m_callback_at | apply m_maybe_save
  | apply m_begin | apply m_obs_iteration | apply m_obs_search | apply m_count | apply m_threshold
  | match goal with |- SimP.sim _ _ (let _ := _ in _) _ => cbv zeta end | cs1 ].
Lemma m_quicks : forall l u, sim eq (process_quicks E l u) (process_quicks E l u).
Proof. induction l as [|[[i p] v] l IH]; intros u; simpl; unfold process_quick; cs3; apply IH. Qed.

Lemma m_one objs i p u : sim eq (process_one_seq E objs i p u) (process_one_seq E objs i p u).
Proof. unfold process_one_seq, emit_eval. cs3. Qed.
Lemma m_batch_seq start res objs b : forall u,
  sim eq (process_batch_sequential E start res objs b u) (process_batch_sequential E start res objs b u).
Proof.
  induction b as [|[i p] b IH]; intros u; simpl; [cs|].
  destruct (res && (i <? start)); [apply IH|]. eapply sim_bind; [apply m_one|]. intros [u' stop] ? <-.
  destruct stop; [cs|apply IH].
Qed.
Lemma m_par_results : forall l u, sim eq (process_par_results E l u) (process_par_results E l u).
Proof. induction l as [|[[[i p] v] [x k]] l IH]; intros u; simpl; unfold process_par_result; [cs|]. cs3; apply IH. Qed.
Lemma m_singles : forall l u, sim eq (process_singles E l u) (process_singles E l u).
Proof. induction l as [|[[i p] v] l IH]; intros u; simpl; unfold process_single; [cs|]. cs3; apply IH. Qed.
Lemma deeds_decide o (f : nat * point * f64 -> bool) l :
  deeds (rev (map (fun c => EvDecide (fst (fst c)) (snd (fst c)) (snd c) (lim o) (f c)) l)) =
  deeds (rev (map (fun c => EvDecide (fst (fst c)) (snd (fst c)) (snd c) o (f c)) l)).
Proof. induction l as [|c l IH]; [reflexivity|]. simpl. rewrite !deeds_app, IH. reflexivity. Qed.
Lemma m_batch_par start res objs b u :
  sim eq (process_batch_parallel E start res objs b u) (process_batch_parallel E start res objs b u).
Proof.
  unfold process_batch_parallel. set (fb := if res then _ else _). clearbody fb.
  destruct (match fb with [] => true | _ => false end); [cs|].
  cs1; [solve [cs3]|]. eapply sim_bind; [apply m_tick_pick|]. intros t t' Ht.
  rewrite (Ht [1]). do 2 (cs1; [solve [cs3]|]). cs1. cbv zeta.
  destruct (partition _ _) as [local quick].
  eapply sim_bind with (V := eq); [apply m_emit, deeds_decide|intros ? ? _].
  eapply sim_bind with (V := eq); [apply m_quicks|intros w ? <-]. rewrite (Ht [2]).
  cs3; first [apply m_quicks|apply m_par_results|apply m_singles].
Qed.

(** ** Stopping earlier *)
Definition ahead (s t : st) : Prop := exists x, deeds (trace t) = x ++ deeds (trace s).
Definition late (s : st) : Prop := exists l v, trace s = l ++ T0 /\ In (EvClock v) l /\ fgt v m0 = true.
(** [m'] does what [m] does, until [m] runs out of time *)
Definition cut {A} (m m' : OM A) : Prop := forall s t, lims s t ->
  (vrel eq (fst (m s)) (fst (m' t)) /\ lims (snd (m s)) (snd (m' t))) \/
  (late (snd (m s)) /\ ahead (snd (m s)) (snd (m' t))).
Lemma cut_sim A (m m' : OM A) : sim eq m m' -> cut m m'.
Proof. intros H s t L. left. exact (H s t L). Qed.
Lemma ahead_more A (m : OM A) s t : FrameP.frame m -> ahead s t -> ahead s (snd (m t)).
Proof.
  intros Hf [x H]. destruct (grows _ m Hf t) as [new Hn]. exists (deeds new ++ x). rewrite Hn, deeds_app, H, app_assoc. reflexivity.
Qed.
Lemma cut_bind_sim A B V (m m' : OM A) (k k' : A -> OM B) : sim V m m' -> (forall a b, V a b -> cut (k a) (k' b)) -> cut (bind m k) (bind m' k').
Proof.
  intros H1 H2 s t L. unfold bind. destruct (H1 s t L) as [G1 G2].
  destruct (m s) as [[a|e|] s1], (m' t) as [[b|e'|] t2]; cbn [fst snd vrel] in *; try contradiction.
  - exact (H2 a b G1 s1 t2 G2).
  - left. split; [exact G1|exact G2].
  - left. split; [exact I|exact G2].
Qed.
Lemma cut_ret A (a : A) : cut (ret a) (ret a).
Proof. apply cut_sim, sim_ret. reflexivity. Qed.
(** one round of [stage2_loop] after the clock has been read (oqnlp.rs 973-1012) *)
Definition body size start res objs b u (go : nat -> OM unit) : OM unit :=
  emit [EvBatch] ;;;
  u <- (if 1 <? size then process_batch_parallel E start res objs b u else process_batch_sequential E start res objs b u) ;;
  o2 <- the_oqnlp ;; stop <- unwrap (target_reached E o2) ;; if (stop : bool) then ret tt else go u.
Lemma c_body size start res objs b u go : (forall u, cut (go u) (go u)) -> cut (body size start res objs b u go) (body size start res objs b u go).
Proof.
  intro IH. unfold body. eapply cut_bind_sim with (V := eq); [apply m_emit; reflexivity|intros ? ? _].
  eapply cut_bind_sim with (V := eq); [destruct (1 <? size); [apply m_batch_par|apply m_batch_seq]|intros u' ? <-].
  eapply cut_bind_sim; [apply m_oqnlp|]. intros o o' [-> _]. change (target_reached E (lim o)) with (target_reached E o).
  eapply cut_bind_sim with (V := eq); [apply sim_unwrap|intros [|] ? <-; [apply cut_ret|apply IH]].
Qed.
Lemma fr_body size start res objs b u go : (forall u, FrameP.frame (go u)) -> FrameP.frame (body size start res objs b u go).
Proof.
  intro H. unfold body. apply fr_bind; [repeat fr1|intro]. apply fr_bind; [destruct (1 <? size); [apply fr_batch_par|apply fr_batch_seq]|intro].
  repeat fr1. apply H.
Qed.
(** the clock has been read (oqnlp.rs 963-971) *)
Definition read_clock (s : st) : st :=
  mk_st (s_o s) (mk_world (w_disk (s_w s)) (S (w_tick (s_w s))) (EvClock (e_clock E (w_tick (s_w s))) :: w_trace (s_w s))).
Lemma loop_step size start res objs b bs u s : stage2_loop E size start res objs (b :: bs) u s =
  match o_max_time (s_o s) with
  | Some m => if fgt (e_clock E (w_tick (s_w s))) m then (Ok tt, read_clock s)
              else body size start res objs b u (fun u => stage2_loop E size start res objs bs u) (read_clock s)
  | None => body size start res objs b u (fun u => stage2_loop E size start res objs bs u) s
  end.
Proof.
  cbn [stage2_loop]. fold (body size start res objs b u (fun u => stage2_loop E size start res objs bs u)).
  set (B := body _ _ _ _ _ _ _). clearbody B.
  unfold bind, the_oqnlp, get, ret, bind. cbn [fst snd]. destruct (o_max_time (s_o s)) as [m|]; [|reflexivity].
  unfold read_clock. destruct s as [o [d k tr]]. simpl. destruct (fgt (e_clock E k) m); reflexivity.
Qed.
Lemma c_loop size start res objs : forall bs u, cut (stage2_loop E size start res objs bs u) (stage2_loop E size start res objs bs u).
Proof.
  induction bs as [|b bs IH]; intros u; [apply cut_ret|]. intros s t L. rewrite !loop_step.
  set (B := body _ _ _ _ _ _ _). assert (CB : cut B B) by (apply c_body, IH). assert (FB : FrameP.frame B) by (apply fr_body; intro; apply fr_loop).
  clearbody B. pose proof L as L'. destruct L' as (L0 & L1 & L2 & L3 & L4 & L5 & l & L6).
  rewrite L1, L0. cbn [set_o_max_time o_max_time]. set (v := e_clock E (w_tick (s_w s))).
  assert (Q1 : fgt v m0 = true -> late (read_clock s)).
  { intro Hv. exists (EvClock v :: l), v. split; [unfold trace in *; cbn [read_clock s_w w_trace]; rewrite L6; reflexivity|]. split; [left; reflexivity|exact Hv]. }
  assert (Q2 : exists l', trace (read_clock s) = l' ++ T0).
  { exists (EvClock v :: l). unfold trace in *. cbn [read_clock s_w w_trace]. rewrite L6. reflexivity. }
  destruct Hg as [Hg'|(m' & Hg' & Hle)]; rewrite Hg'.
  - assert (L7 : lims (read_clock s) t).
    { unfold lims. split; [exact L0|]. split; [exact L1|]. split; [left; apply Hno, Hg'|]. repeat (split; [assumption|]). exact Q2. }
    destruct (fgt v m0) eqn:Hv; [|exact (CB _ t L7)].
    right. cbn [snd]. split; [apply Q1; reflexivity|]. apply ahead_more; [exact FB|]. exists []. exact L5.
  - destruct L2 as [L2|L2]; [rewrite (Hfr L2) in Hg'; discriminate|]. rewrite L2. fold v.
    assert (L8 : deeds (trace (read_clock t)) = deeds (trace (read_clock s))) by exact L5.
    assert (L7 : lims (read_clock s) (read_clock t)).
    { unfold lims. split; [exact L0|]. split; [exact L1|]. split; [right; simpl; rewrite L2; reflexivity|]. repeat (split; [assumption|]). exact Q2. }
    destruct (fgt v m') eqn:Hv'.
    + rewrite (fle_lt_trans _ _ _ Hle Hv' : fgt v m0 = true). left. split; [reflexivity|exact L7].
    + destruct (fgt v m0) eqn:Hv; [|exact (CB _ _ L7)].
      right. cbn [snd]. split; [apply Q1; reflexivity|]. apply ahead_more; [exact FB|]. exists []. exact L8.
Qed.
Lemma fr_end : FrameP.frame (maybe_save_final_checkpoint E ;;; final_set).
Proof. apply fr_bind; [apply fr_final_save|intro]. unfold final_set. repeat fr1. Qed.
Lemma quiet_end s : exists fin, trace (snd ((maybe_save_final_checkpoint E ;;; final_set) s)) = fin ++ trace s /\ deeds fin = [].
Proof.
  unfold bind. destruct (maybe_save_final_checkpoint E s) as [r s'] eqn:Hf.
  destruct (final_save_spec E s r s' Hf) as (_ & fin & F1 & F2). exists fin. split.
  - destruct r as [[]|e|]; cbn [snd]; [|exact F1..]. unfold final_set, bind, the_oqnlp, get, ret, fail, bind. cbn [fst snd].
    destruct (o_set (s_o s')); exact F1.
  - unfold final_record in F2. destruct (o_cp (s_o s)); [|subst; reflexivity]. destruct F2 as [cp F2]; destruct F2 as [F2 _]; rewrite F2; reflexivity.
Qed.
Lemma cut_bind_quiet A B (m m' : OM A) (F : OM B) : cut m m' -> sim eq F F -> FrameP.frame F ->
  (forall s, exists fin, trace (snd (F s)) = fin ++ trace s /\ deeds fin = []) -> cut (m ;;; F) (m' ;;; F).
Proof.
  intros H HF1 HF2 HF3 s t L. unfold bind. destruct (H s t L) as [[G1 G2]|[G1 G2]].
  - destruct (m s) as [[a|e|] s1], (m' t) as [[b|e'|] t2]; cbn [fst snd vrel] in *; try contradiction.
    + left. apply HF1, G2.
    + left. split; [exact G1|exact G2].
    + left. split; [exact I|exact G2].
  - right. assert (K : exists sf, snd (let '(r, s1) := m s in match r with Ok _ => F s1 | Err e => (Err e, s1) | Panic => (Panic, s1) end) = sf /\
      late sf /\ deeds (trace sf) = deeds (trace (snd (m s)))).
    { eexists. split; [reflexivity|]. destruct (m s) as [[a|e|] s1]; cbn [snd] in *; [|split; [exact G1|reflexivity]..].
      destruct (HF3 s1) as (fin & F1 & F2). unfold late. rewrite F1, deeds_app, F2. split; [|reflexivity].
      destruct G1 as (l & v & K1 & K2 & K3). exists (fin ++ l), v. rewrite K1, app_assoc. split; [reflexivity|]. split; [apply in_or_app; auto|exact K3]. }
    destruct K as (sf & -> & K1 & K2). split; [exact K1|].
    assert (K3 : ahead sf (snd (m' t))) by (destruct G2 as [x G2]; exists x; rewrite K2; exact G2).
    destruct (m' t) as [[b|e'|] t2]; cbn [snd] in *; [apply ahead_more; [exact HF2|exact K3]|exact K3..].
Qed.
Lemma c_stage2 res refs objs u : cut (stage2_run E res refs objs u) (stage2_run E res refs objs u).
Proof.
  unfold stage2_run. eapply cut_bind_sim with (V := eq); [apply m_begin2|intros ? ? _].
  eapply cut_bind_sim; [apply m_oqnlp|]. intros o o' [-> Ho].
  change (o_params (lim o)) with (o_params o). change (o_iteration (lim o)) with (o_iteration o).
  eapply cut_bind_sim with (V := eq); [destruct res; cs|intros rs ? <-]. cbv zeta.
  change (batch_size E (lim o)) with (batch_size E o).
  apply cut_bind_quiet; [|apply m_final|apply fr_end|apply quiet_end]. match goal with |- cut (if ?x then _ else _) _ => destruct x end; [apply cut_sim, sim_panic|apply c_loop].
Qed.
Lemma m_stage1 : ~ free -> sim eq (stage1_run E) (stage1_run E).
Proof.
  intro N. unfold stage1_run, end_stage1, stage1_enter. cs1. cs1; [apply m_tick, N|].
  change (stage1_init E (lim o) a) with (stage1_init E o a).
  destruct (stage1_init E o a) as [x|e|]; [|apply sim_fail|apply sim_panic]. destruct (ss_run E x) as [res sf]. cs3.
Qed.
End Limit.

Lemma lims_weaken g m0 T0 (p q : Prop) s t : (p -> q) -> lims g m0 T0 p s t -> lims g m0 T0 q s t.
Proof. intros H (H0 & H1 & H2 & H3). split; [exact H0|]. split; [exact H1|]. split; [destruct H2; auto|exact H3]. Qed.
(** the first step: another limit is of no effect on whether the program resumes *)
Lemma resume_limited E g s : let x := try_resume_from_checkpoint E s in let y := try_resume_from_checkpoint E (limited_state g s) in
  fst y = fst x /\ trace (snd x) = trace s /\ snd y = limited_state g (snd x) /\ o_max_time (s_o (snd x)) = o_max_time (s_o s).
Proof.
  cbv zeta. unfold try_resume_from_checkpoint, restore_from_checkpoint, upd, modify, on_disk, bind, the_oqnlp, get, ret, bind.
  cbn [fst snd s_o s_w limited_state]. change (o_cp (set_o_max_time g (s_o s))) with (o_cp (s_o s)).
  destruct (o_cp (s_o s)) as [c|]; cbn [fst snd]; [|auto].
  destruct (cc_auto_resume c); cbn [fst snd]; [|auto].
  change (w_disk (s_w (limited_state g s))) with (w_disk (s_w s)).
  destruct (checkpoint_exists E c (w_disk (s_w s))) as [[[|]|e|] d]; cbn [fst snd s_o s_w w_disk]; try (repeat split; reflexivity).
  destruct (load_latest E c d) as [[cp|e|] d2]; cbn [fst snd s_o s_w w_disk]; repeat split; reflexivity.
Qed.
Lemma c108_both E g m s rA sA na rB sB nb :
  run E s = (rA, sA) -> recorded s sA na -> run E (limited_state g s) = (rB, sB) -> recorded (limited_state g s) sB nb ->
  o_max_time (s_o s) = Some m -> at_least g m -> (g = None -> forall i j, e_err_pick E i = e_err_pick E j) ->
  (exists more, deeds nb = more ++ deeds na) /\
  ((rB = rA /\ deeds nb = deeds na) \/ (exists v, In (EvClock v) na /\ fgt v m = true)).
Proof.
  intros Ha Na Hb Nb Ht Hg Hp.
  unfold recorded in Na, Nb. change (w_trace (s_w (limited_state g s))) with (w_trace (s_w s)) in Nb.
  set (T0 := w_trace (s_w s)) in *.
  pose proof (resume_limited E g s) as X. cbv zeta in X. unfold run in Ha, Hb. unfold bind at 1 in Ha. unfold bind at 1 in Hb.
  destruct (try_resume_from_checkpoint E s) as [x s1], (try_resume_from_checkpoint E (limited_state g s)) as [y s2].
  cbn [fst snd] in X. destruct X as (-> & X1 & -> & X2). rewrite Ht in X2. unfold trace in X1. fold T0 in X1.
  assert (L : lims g m T0 False s1 (limited_state g s1)).
  { unfold lims. split; [exact X2|]. repeat (split; [auto|]). exists []. exact X1. }
  assert (G : (vrel eq rA rB /\ lims g m T0 (g = None) sA sB) \/ (late m T0 sA /\ ahead sA sB)).
  { assert (C2 : forall res refs objs u, cut g m T0 (g = None) (stage2_run E res refs objs u) (stage2_run E res refs objs u)).
    { intros. apply c_stage2; auto. }
    assert (W : forall s t, lims g m T0 False s t -> lims g m T0 (g = None) s t) by (intros ? ?; apply lims_weaken; intros []).
    destruct x as [[|]|e|].
    - specialize (C2 true (match o_ref (s_o s1) with Some r => r | None => [] end) None (o_unchanged (s_o s1)) _ _ (W _ _ L)).
      change (stage2_run E true (match o_ref (s_o s1) with Some r => r | None => [] end) None (o_unchanged (s_o s1)) s1 = (rA, sA)) in Ha.
      change (stage2_run E true (match o_ref (s_o s1) with Some r => r | None => [] end) None (o_unchanged (s_o s1)) (limited_state g s1) = (rB, sB)) in Hb.
      rewrite Ha, Hb in C2. exact C2.
    - unfold bind in Ha, Hb.
      destruct (m_stage1 E g m T0 False (fun H => H) s1 (limited_state g s1) L) as [K1 K2].
      destruct (stage1_run E s1) as [[r|e|] s3], (stage1_run E (limited_state g s1)) as [[r'|e'|] t3]; cbn [fst snd vrel] in *; try contradiction.
      + subst r'. destruct r as [[refs objs]|].
        * specialize (C2 false refs (Some objs) 0 _ _ (W _ _ K2)). rewrite Ha, Hb in C2. exact C2.
        * left. pose proof K2 as (_ & K3 & _). unfold final_set, bind, the_oqnlp, get, ret, fail, bind in Ha, Hb. cbn [fst snd] in Ha, Hb.
          rewrite K3 in Hb. cbn [set_o_max_time o_set] in Hb.
          destruct (o_set (s_o s3)); injection Ha as <- <-; injection Hb as <- <-; (split; [reflexivity|apply W, K2]).
      + left. injection Ha as <- <-. injection Hb as <- <-. split; [exact K1|apply W, K2].
      + left. injection Ha as <- <-. injection Hb as <- <-. split; [exact I|apply W, K2].
    - left. injection Ha as <- <-. injection Hb as <- <-. split; [reflexivity|apply W, L].
    - left. injection Ha as <- <-. injection Hb as <- <-. split; [reflexivity|apply W, L]. }
  destruct G as [[G1 G2]|[G1 [z G2]]].
  - destruct G2 as (_ & _ & _ & _ & _ & G2 & _). unfold trace in G2. rewrite Na, Nb, !deeds_app in G2. apply app_inv_tail in G2.
    split; [exists []; exact G2|]. left. split; [|exact G2]. apply vrel_eq_inv in G1. auto.
  - unfold trace in G2. rewrite Na, Nb, !deeds_app, app_assoc in G2. apply app_inv_tail in G2. split; [exists z; exact G2|]. right.
    destruct G1 as (l & v & K1 & K2 & K3). unfold trace in K1. rewrite Na in K1. apply app_inv_tail in K1. subst l. exists v. auto.
Qed.
Lemma deeds_set set l : In (EvSolutionSet set) (deeds l) <-> In (EvSolutionSet set) l.
Proof.
  unfold deeds. rewrite in_flat_map. split.
  - intros (e & H1 & H2). destruct e; simpl in H2; try (destruct H2 as [H2|[]]; try discriminate; injection H2 as <-; exact H1); contradiction.
  - intro H. exists (EvSolutionSet set). split; [exact H|left; reflexivity].
Qed.
Theorem c108_deeds : forall E g m s rA sA na rB sB nb,
  run E s = (rA, sA) -> recorded s sA na -> run E (limited_state g s) = (rB, sB) -> recorded (limited_state g s) sB nb ->
  o_max_time (s_o s) = Some m -> at_least g m -> (g = None -> forall i j, e_err_pick E i = e_err_pick E j) ->
  exists more, deeds nb = more ++ deeds na.
Proof. intros E g m s rA sA na rB sB nb Ha Na Hb Nb Ht Hg Hp. exact (proj1 (c108_both _ _ _ _ _ _ _ _ _ _ Ha Na Hb Nb Ht Hg Hp)). Qed.
Theorem c108_same : forall E g m s rA sA na rB sB nb,
  run E s = (rA, sA) -> recorded s sA na -> run E (limited_state g s) = (rB, sB) -> recorded (limited_state g s) sB nb ->
  o_max_time (s_o s) = Some m -> at_least g m -> (g = None -> forall i j, e_err_pick E i = e_err_pick E j) ->
  (exists v, In (EvClock v) na /\ fgt v m = true) \/ (rB = rA /\ deeds nb = deeds na).
Proof. intros E g m s rA sA na rB sB nb Ha Na Hb Nb Ht Hg Hp. destruct (proj2 (c108_both _ _ _ _ _ _ _ _ _ _ Ha Na Hb Nb Ht Hg Hp)); auto. Qed.
Theorem c108_no_worse : forall E g m s setA sA na setB sB nb,
  run E s = (Ok setA, sA) -> recorded s sA na -> run E (limited_state g s) = (Ok setB, sB) -> recorded (limited_state g s) sB nb ->
  (forall c, o_cp (s_o s) = Some c -> cc_auto_resume c = false) ->
  o_max_time (s_o s) = Some m -> at_least g m -> (g = None -> forall i j, e_err_pick E i = e_err_pick E j) ->
  tolerances_ok (s_o s) -> (forall s0, o_set (s_o s) = Some s0 -> numeric_set s0) ->
  (forall x, In (EvResult x) nb -> number (ls_obj x)) -> not_worse setB setA.
Proof.
  intros E g m s setA sA na setB sB nb Ha Na Hb Nb Hr Hg0 Hg Hp Ht Hs Hnum.
  destruct (run_last E s setA sA na Ha Na Hr) as [H|H].
  - exact (proj2 (fresh_leader E (limited_state g s) _ sB nb Hb Nb Hr Ht Hs Hnum) setA setB H eq_refl).
  - destruct (c108_deeds E g m s _ sA na _ sB nb Ha Na Hb Nb Hg0 Hg Hp) as [more M].
    assert (Hin : In (EvSolutionSet setA) nb) by (apply deeds_set; rewrite M; apply in_or_app; right; apply deeds_set; exact H).
    refine (proj1 (proj2 (c25_from E (limited_state g s) _ sB nb Hb Nb _ Hnum)) setB eq_refl setA Hin).
    intros s1 res Hst. destruct Hst as [d _ _|c d cp H1 H2 _ _ _]; [split; [exact Ht|exact Hs]|].
    rewrite (Hr c H1) in H2. discriminate.
Qed.

(** * Excluding out-of-bounds solutions (C110) *)
From Coq Require Import ZArith NArith List Bool Arith Lia String.
From Verif Require Import F64 F64Order Base Builders Types Filters Runner Observer Env EnvSpec
  ScatterSearch Codec Checkpoint Oqnlp Spec SpecStage2 SpecObserver SpecExcluding Wp Actions RunP SetP SimP ClockFreeP LeaderP FrameP SeqP3 ResumeP AgainP FinishP BasicP MoreP.
Import ListNotations.
Local Open Scope monad_scope.

Section Excluding.
Context (E : env) (T0 : list event).
Notation exc := (set_o_exclude true).
Notation inside := (solution_inside (pb_bounds (e_problem E))).
Definition good (o : oqnlp) : Prop := forall l, o_set o = Some l -> l <> [] /\ forall x, In x l -> inside x.
Definition excs (s t : st) : Prop :=
  (o_exclude (s_o s) = false /\ good (s_o s)) /\ s_o t = exc (s_o s) /\ w_tick (s_w t) = w_tick (s_w s) /\
  d_tick (w_disk (s_w t)) = d_tick (w_disk (s_w s)) /\
  map fst (d_files (w_disk (s_w t))) = map fst (d_files (w_disk (s_w s))) /\
  effects (trace t) = effects (trace s) /\ exists l, trace s = l ++ T0.
Notation sim := (sim excs).
Lemma effects_app l l' : effects (l ++ l') = effects l ++ effects l'. Proof. apply flat_map_app. Qed.
Lemma m_oqnlp : sim (fun o o' => o' = exc o /\ o_exclude o = false /\ good o) the_oqnlp the_oqnlp.
Proof. intros s t H. pose proof H as H'. destruct H' as (H0 & H1 & _). simpl. auto. Qed.
Lemma m_upd f : (forall o, f (exc o) = exc (f o)) -> (forall o, o_exclude (f o) = o_exclude o) -> (forall o, o_set (f o) = o_set o) -> sim eq (upd f) (upd f).
Proof.
  intros H G K. apply sim_modify. intros s t (H0 & H1 & H2). split; [simpl; unfold good; rewrite G, K; exact H0|].
  split; [simpl; rewrite H1; apply H|exact H2].
Qed.
Lemma m_obs f : sim eq (obs f) (obs f). Proof. apply m_upd; reflexivity. Qed.
Lemma m_emit l l' : effects (rev l') = effects (rev l) -> sim eq (emit l) (emit l').
Proof.
  intros H. apply sim_modify. intros s t (H0 & H1 & H2 & H3 & H4 & H5 & k & H6). unfold excs, trace in *. simpl.
  rewrite !effects_app, H, H5, H6. repeat (split; [auto|]). exists (rev l ++ k). apply app_assoc.
Qed.
Lemma m_tick : sim eq tick tick.
Proof. intros s t (H0 & H1 & H2 & H3 & H4 & H5). simpl. rewrite H2. split; [reflexivity|]. unfold excs, trace in *. simpl. auto 10. Qed.
Lemma m_of_solver A (r : outcome ls_error A) : sim eq (of_solver r) (of_solver r).
Proof. destruct r as [a|e|]; [apply sim_ret|apply sim_fail|apply sim_panic]; auto. Qed.
Ltac cs1 :=
  match goal with
  | |- SimP.sim _ _ (bind the_oqnlp _) _ => eapply sim_bind; [apply m_oqnlp|]; let o := fresh "o" in let o' := fresh "o'" in intros o o' (-> & ? & ?);
      repeat match goal with
      | |- context [should_start_local (exc o)] => change (should_start_local (exc o)) with (should_start_local o)
      | |- context [observes1 (exc o)] => change (observes1 (exc o)) with (observes1 o)
      | |- context [observes2 (exc o)] => change (observes2 (exc o)) with (observes2 o)
      end
  | |- SimP.sim _ _ (bind _ _) _ => eapply sim_bind with (V := eq); [|intros ? ? <-]
  | |- SimP.sim _ _ (ret _) _ => apply sim_ret; auto
  | |- SimP.sim _ _ (fail _) _ => apply sim_fail
  | |- SimP.sim _ _ panic _ => apply sim_panic
  | |- SimP.sim _ _ (upd _) _ => apply m_upd; reflexivity
  | |- SimP.sim _ _ (obs _) _ => apply m_obs
  | |- SimP.sim _ _ (emit _) _ => apply m_emit; reflexivity
  | |- SimP.sim _ _ tick _ => apply m_tick
  | |- SimP.sim _ _ (unwrap _) _ => apply sim_unwrap
  | |- SimP.sim _ _ (of_result _) _ => apply sim_of_result; apply vrel_eq
  | |- SimP.sim _ _ (of_solver _) _ => apply m_of_solver
  | |- SimP.sim _ _ (let '(_, _) := ?x in _) _ => destruct x
  | |- SimP.sim _ _ (if ?b then _ else _) (if ?c then _ else _) => change c with b; destruct b
  | |- SimP.sim _ _ (match ?x with _ => _ end) (match ?y with _ => _ end) => change y with x; destruct x
  end.
Ltac cs := repeat cs1.
Lemma m_callback i : sim eq (callback E i) (callback E i).
Proof. unfold callback. cs. Qed.
Lemma m_callback_at i : sim eq (callback_at E i) (callback_at E i).
Proof. unfold callback_at. cs. apply m_callback. Qed.
Lemma m_save_disk cc cp cp' i : sim eq (on_disk (save_checkpoint E cc cp i)) (on_disk (save_checkpoint E cc cp' i)).
Proof.
  intros s t (H0 & H1 & H2 & H3 & H4 & H5 & H6).
  destruct s as [o [[fs k] m tr]], t as [o' [[fs' k'] m' tr']]. cbn [s_o s_w w_tick w_disk d_tick d_files] in *. subst o' m' k'.
  unfold trace in H5, H6. cbn [s_w w_trace] in H5, H6.
  unfold on_disk, save_checkpoint, fs_write, next_io, set_files, bind, modify, fail, ret. simpl.
  destruct (e_io E k); simpl; (split; [reflexivity|]); unfold excs, trace; simpl;
    (split; [exact H0|]); (split; [reflexivity|]); (split; [reflexivity|]); (split; [reflexivity|]); (split; [|split; [exact H5|exact H6]]); try exact H4; apply put_names; exact H4.
Qed.
Lemma m_save_now cc : sim eq (save_now E cc) (save_now E cc).
Proof.
  unfold save_now. eapply sim_bind with (V := fun _ _ => True).
  - unfold create_checkpoint. eapply sim_bind; [apply m_tick|intros ? ? _]. cs1. apply sim_ret. exact I.
  - intros cp cp' _. cs1. eapply sim_bind; [apply m_emit; reflexivity|intros ? ? _]. eapply sim_bind; [apply m_save_disk|intros ? ? _]. cs.
Qed.
Lemma m_maybe_save : sim eq (maybe_save_checkpoint E) (maybe_save_checkpoint E).
Proof. unfold maybe_save_checkpoint. cs; apply m_save_now. Qed.
Lemma m_final : sim eq (maybe_save_final_checkpoint E ;;; final_set) (maybe_save_final_checkpoint E ;;; final_set).
Proof. unfold maybe_save_final_checkpoint, final_set. cs; apply m_save_now. Qed.
Lemma m_begin i u : sim eq (begin_iteration E i u) (begin_iteration E i u).
Proof. unfold begin_iteration. cs. Qed.
Lemma m_obs_iteration i u : sim eq (obs_iteration i u) (obs_iteration i u).
Proof. unfold obs_iteration. cs. Qed.
Lemma m_obs_search a k : sim eq (obs_search a k) (obs_search a k).
Proof. unfold obs_search. cs. Qed.
Lemma m_count u : sim eq (count_unchanged u) (count_unchanged u).
Proof. unfold count_unchanged, adjust_threshold. cs. Qed.
Lemma m_threshold v : sim eq (set_threshold v) (set_threshold v).
Proof. unfold set_threshold. cs. Qed.
Lemma m_begin2 : sim eq begin_stage2 begin_stage2.
Proof. unfold begin_stage2. cs. Qed.
Ltac cs3 := repeat first [ apply m_callback | apply m_callback_at | apply m_maybe_save
  | apply m_begin | apply m_obs_iteration | apply m_obs_search | apply m_count | apply m_threshold
  | match goal with |- SimP.sim _ _ (let _ := _ in _) _ => cbv zeta end | cs1 ].
Lemma m_quicks : forall l u, sim eq (process_quicks E l u) (process_quicks E l u).
Proof. induction l as [|[[i p] v] l IH]; intros u; simpl; unfold process_quick; cs3; apply IH. Qed.

Lemma effects_decide o (f : nat * point * f64 -> bool) l :
  effects (rev (map (fun c => EvDecide (fst (fst c)) (snd (fst c)) (snd c) (exc o) (f c)) l)) =
  effects (rev (map (fun c => EvDecide (fst (fst c)) (snd (fst c)) (snd c) o (f c)) l)).
Proof. induction l as [|c l IH]; [reflexivity|]. simpl. rewrite !effects_app, IH. reflexivity. Qed.

(** ** A result outside the bounds *)
Definition strayed (s t : st) : Prop := exists after x before after', trace s = after ++ EvResult x :: before ++ T0 /\ ~ inside x /\
  effects (trace t) = after' ++ effects (before ++ T0).
(** [m'] does what [m] does, up to a result of [m] that is outside the bounds if there is one *)
Definition cut {A} (m m' : OM A) : Prop := forall s t, excs s t ->
  (vrel eq (fst (m s)) (fst (m' t)) /\ excs (snd (m s)) (snd (m' t))) \/ strayed (snd (m s)) (snd (m' t)).
Lemma cut_sim A (m m' : OM A) : sim eq m m' -> cut m m'.
Proof. intros H s t L. left. exact (H s t L). Qed.
Lemma strayed_left A (m : OM A) s t : FrameP.frame m -> strayed s t -> strayed (snd (m s)) t.
Proof.
  intros Hf (l & x & c & l' & H1 & H2 & H3). destruct (grows _ m Hf s) as [new Hn]. exists (new ++ l), x, c, l'.
  rewrite Hn, H1, <- app_assoc. auto.
Qed.
Lemma strayed_right A (m : OM A) s t : FrameP.frame m -> strayed s t -> strayed s (snd (m t)).
Proof.
  intros Hf (l & x & c & l' & H1 & H2 & H3). destruct (grows _ m Hf t) as [new Hn]. exists l, x, c, (effects new ++ l').
  rewrite Hn, effects_app, H3, <- app_assoc. auto.
Qed.
Lemma cut_bind_sim A B V (m m' : OM A) (k k' : A -> OM B) : sim V m m' -> (forall a b, V a b -> cut (k a) (k' b)) -> cut (bind m k) (bind m' k').
Proof.
  intros H1 H2 s t L. unfold bind. destruct (H1 s t L) as [G1 G2].
  destruct (m s) as [[a|e|] s1], (m' t) as [[b|e'|] t2]; cbn [fst snd vrel] in *; try contradiction.
  - exact (H2 a b G1 s1 t2 G2).
  - left. split; [exact G1|exact G2].
  - left. split; [exact I|exact G2].
Qed.
Lemma cut_bind A B (m m' : OM A) (k : A -> OM B) : cut m m' -> (forall a, cut (k a) (k a)) -> (forall a, FrameP.frame (k a)) -> cut (bind m k) (bind m' k).
Proof.
  intros H1 H2 Hf s t L. unfold bind. destruct (H1 s t L) as [[G1 G2]|G].
  - destruct (m s) as [[a|e|] s1], (m' t) as [[b|e'|] t2]; cbn [fst snd vrel] in *; try contradiction.
    + subst b. exact (H2 a s1 t2 G2).
    + left. split; [exact G1|exact G2].
    + left. split; [exact I|exact G2].
  - right. destruct (m s) as [[a|e|] s1], (m' t) as [[b|e'|] t2]; cbn [snd] in *;
      repeat first [exact G | apply strayed_left; [apply Hf|] | apply strayed_right; [apply Hf|]].
Qed.
Lemma cut_ret A (a : A) : cut (ret a) (ret a).
Proof. apply cut_sim, sim_ret. reflexivity. Qed.
Lemma tr o : o_exclude o = false -> good o -> target_reached E (exc o) = target_reached E o.
Proof.
  intros Hx Hgd. unfold target_reached. cbn [set_o_exclude o_target o_set o_exclude]. rewrite Hx.
  destruct (o_target o) as [t|]; [|reflexivity]. destruct (o_set o) as [l|] eqn:Hl; [|reflexivity].
  destruct (best_solution l) as [b|] eqn:Hb; [|reflexivity]. cbn [andb]. destruct (fle (ls_obj b) t); [|reflexivity].
  pose proof (BasicP.best_solution_spec l) as S. rewrite Hb in S. destruct S as (n & S & _). apply nth_error_In in S.
  apply inside_within, (proj2 (Hgd l Hl) b S).
Qed.
(** storing a set of solutions that are inside *)
Lemma m_store l : l <> [] -> (forall x, In x l -> inside x) -> sim eq (set_solutions l) (set_solutions l).
Proof.
  intros H1 H2. unfold set_solutions. eapply sim_bind with (V := eq); [|intros ? ? _; apply m_emit; reflexivity].
  apply sim_modify. intros s t (H0 & H3 & H4). split; [split; [apply H0|]|].
  - intros l' Hl. simpl in Hl. injection Hl as <-. auto.
  - split; [simpl; rewrite H3; reflexivity|exact H4].
Qed.
Lemma at_oqnlp A (k : oqnlp -> OM A) s : bind the_oqnlp k s = k (s_o s) s. Proof. reflexivity. Qed.
Lemma at_ret A B (a : A) (k : A -> OM B) s : bind (ret a) k s = k a s. Proof. reflexivity. Qed.
Ltac fr3 := repeat first [ apply fr_process | apply fr_callback_at | apply fr_callback | apply fr_maybe_save | apply fr_begin | apply fr_obs_iteration
  | apply fr_obs_search | apply fr_count | apply fr_threshold | fr1 ].
Lemma c_process x : cut (process_local_solution E x) (process_local_solution E x).
Proof.
  assert (D : inside x \/ ~ inside x).
  { destruct (within_bounds (pb_bounds (e_problem E)) (ls_point x)) as [[|]|] eqn:W; [left; apply within_bounds_inside, W|right..]; intros K; apply inside_within in K; congruence. }
  destruct D as [D|D].
  - apply cut_sim. unfold process_local_solution. eapply sim_bind; [apply m_oqnlp|]. intros o o' (-> & Hx & Hgd).
    cbn [set_o_exclude o_exclude o_set]. rewrite Hx. rewrite (inside_within _ _ D).
    eapply sim_bind with (V := fun a b => a = true /\ b = true); [intros s t L; simpl; auto|]. intros a b [-> ->]. cbn [negb].
    change (o_params (exc o)) with (o_params o). change (o_abs_tol (exc o)) with (o_abs_tol o). change (o_rel_tol (exc o)) with (o_rel_tol o).
    destruct (o_set o) as [[|cur sols]|] eqn:Hs; [apply sim_panic| |].
    + destruct (Hgd _ Hs) as [_ Hin]. unfold add_to_filter, set_threshold. cbv zeta.
      eapply sim_bind with (V := eq); [apply m_emit; reflexivity|intros ? ? _].
      eapply sim_bind with (V := eq); [|intros ? ? <-; cs].
      destruct (flt _ _); [eapply sim_bind with (V := eq); [apply m_store; [discriminate|intros y [<-|[]]; exact D]|intros ? ? _; cs]|].
      destruct (_ && _)%bool; [|cs]. eapply sim_bind with (V := eq); [apply m_store|intros ? ? _; cs].
      * discriminate.
      * intros y Hy. apply in_app_or in Hy as [Hy|[<-|[]]]; [apply Hin, Hy|exact D].
    + unfold add_to_filter, set_threshold. eapply sim_bind with (V := eq); [apply m_emit; reflexivity|intros ? ? _].
      eapply sim_bind with (V := eq); [apply m_store; [discriminate|intros y [<-|[]]; exact D]|intros ? ? _]. cs.
  - intros s t ((Hx & Hgd) & _ & _ & _ & _ & He & l & Hl). right.
    assert (K : exists new, trace (snd (process_local_solution E x s)) = new ++ EvResult x :: trace s).
    { assert (EM : forall A (k : unit -> OM A), (forall u, FrameP.frame (k u)) -> exists new, trace (snd (bind (emit [EvResult x]) k s)) = new ++ EvResult x :: trace s).
      { intros A k Hk. destruct (grows _ (k tt) (Hk tt) (snd (emit [EvResult x] s))) as [new Hn]. exists new. exact Hn. }
      unfold process_local_solution. rewrite at_oqnlp, Hx, at_ret. cbn [negb].
      destruct (o_set (s_o s)) as [[|cur sols]|] eqn:Hs; [exfalso; exact (proj1 (Hgd _ Hs) eq_refl)|cbv zeta|]; apply EM; intro; unfold set_solutions, set_threshold, add_to_filter; fr3. }
    destruct K as [new K]. destruct (grows _ (process_local_solution E x) (fr_process E x) t) as [new' K'].
    exists new, x, l, (effects new'). rewrite K, K', effects_app, He, Hl. auto.
Qed.
Lemma cut_check A (k : bool -> OM A) : (forall b, cut (k b) (k b)) ->
  cut (o <- the_oqnlp ;; b <- unwrap (target_reached E o) ;; k b) (o <- the_oqnlp ;; b <- unwrap (target_reached E o) ;; k b).
Proof.
  intro H. eapply cut_bind_sim; [apply m_oqnlp|]. intros o o' (-> & Hx & Hgd). rewrite (tr o Hx Hgd).
  eapply cut_bind_sim with (V := eq); [|intros b ? <-; apply H].
  intros s t L. destruct (target_reached E o); simpl; auto.
Qed.
Ltac bs := eapply cut_bind_sim with (V := eq); [solve [cs3]|intros ? ? <-].
Ltac bo := eapply cut_bind_sim; [apply m_oqnlp|]; let o := fresh "o" in let o' := fresh "o'" in intros o o' (-> & ? & ?).
Lemma c_one objs i p u : cut (process_one_seq E objs i p u) (process_one_seq E objs i p u).
Proof.
  unfold process_one_seq, emit_eval. do 5 bs. bo.
  change (should_start_local (exc o)) with (should_start_local o). cbv zeta.
  eapply cut_bind_sim with (V := eq); [apply m_emit; reflexivity|intros ? ? _].
  apply cut_bind.
  - change (o_solver_type (exc o)) with (o_solver_type o). change (o_solver_config (exc o)) with (o_solver_config o). change (observes2 (exc o)) with (observes2 o).
    destruct (should_start_local o p a2); [|apply cut_sim; cs3].
    repeat bs. apply cut_bind; [apply c_process|intro|intro; fr3]. repeat bs. apply cut_check. intro. apply cut_ret.
  - intros [u' [|]]; [apply cut_ret|apply cut_sim; cs3].
  - intros [u' [|]]; fr3.
Qed.
Lemma c_batch_seq start res objs b : forall u, cut (process_batch_sequential E start res objs b u) (process_batch_sequential E start res objs b u).
Proof.
  induction b as [|[i p] b IH]; intros u; simpl; [apply cut_ret|].
  destruct (res && (i <? start)); [apply IH|]. apply cut_bind.
  - apply c_one.
  - intros [u' [|]]; [apply cut_ret|apply IH].
  - intros [u' [|]]; [fr3|apply fr_batch_seq].
Qed.
Lemma c_par_result i v x k u : cut (process_par_result E i v x k u) (process_par_result E i v x k u).
Proof.
  unfold process_par_result. repeat bs. apply cut_bind; [apply c_process|intro|intro; fr3]. repeat bs.
  apply cut_check. intros [|]; [apply cut_ret|apply cut_sim; cs3].
Qed.
Lemma c_par_results : forall l u, cut (process_par_results E l u) (process_par_results E l u).
Proof.
  induction l as [|[[[i p] v] [x k]] l IH]; intros u; simpl; [apply cut_ret|]. apply cut_bind.
  - apply c_par_result.
  - intros [|]; [apply cut_ret|apply IH].
  - intros [|]; [fr3|apply fr_par_results].
Qed.
Lemma c_single i p v u : cut (process_single E i p v u) (process_single E i p v u).
Proof.
  unfold process_single. do 2 bs. bo. repeat bs. apply cut_bind; [apply c_process|intro|intro; fr3]. repeat bs.
  apply cut_check. intros [|]; [apply cut_ret|apply cut_sim; cs3].
Qed.
Lemma c_singles : forall l u, cut (process_singles E l u) (process_singles E l u).
Proof.
  induction l as [|[[i p] v] l IH]; intros u; simpl; [apply cut_ret|]. apply cut_bind.
  - apply c_single.
  - intros [|]; [apply cut_ret|apply IH].
  - intros [|]; [fr3|apply fr_singles].
Qed.
Lemma c_batch_par start res objs b u : cut (process_batch_parallel E start res objs b u) (process_batch_parallel E start res objs b u).
Proof.
  unfold process_batch_parallel. set (fb := if res then _ else _). clearbody fb.
  destruct (match fb with [] => true | _ => false end); [apply cut_ret|].
  do 4 bs. bo. cbv zeta. change (should_start_local (exc o)) with (should_start_local o).
  destruct (partition _ _) as [local quick].
  eapply cut_bind_sim with (V := eq); [apply m_emit, effects_decide|intros ? ? _].
  eapply cut_bind_sim with (V := eq); [apply m_quicks|intros w ? <-]. bo.
  apply cut_bind.
  - change (o_parallel (exc o0)) with (o_parallel o0). destruct ((2 <=? List.length local) && o_parallel o0); [|apply c_singles].
    eapply cut_bind_sim with (V := eq); [apply m_emit; reflexivity|intros ? ? _].
    eapply cut_bind_sim with (V := eq); [apply sim_of_result, vrel_eq|intros rs ? <-]. apply c_par_results.
  - intro. apply cut_ret.
  - intro. fr3.
Qed.
Lemma c_loop size start res objs : forall bs u, cut (stage2_loop E size start res objs bs u) (stage2_loop E size start res objs bs u).
Proof.
  induction bs as [|b bs IH]; intros u; simpl; [apply cut_ret|]. bo. change (o_max_time (exc o)) with (o_max_time o). bs.
  destruct a; [apply cut_ret|]. bs. apply cut_bind.
  - destruct (1 <? size); [apply c_batch_par|apply c_batch_seq].
  - intro u'. apply cut_check. intros [|]; [apply cut_ret|apply IH].
  - intro u'. fr3. apply fr_loop.
Qed.
Lemma fr_end : FrameP.frame (maybe_save_final_checkpoint E ;;; final_set).
Proof. apply fr_bind; [apply fr_final_save|intro]. unfold final_set. repeat fr1. Qed.
Lemma c_stage2 refs objs u : cut (stage2_run E false refs objs u) (stage2_run E false refs objs u).
Proof.
  unfold stage2_run. eapply cut_bind_sim with (V := eq); [apply m_begin2|intros ? ? _]. bo.
  change (o_params (exc o)) with (o_params o). change (o_iteration (exc o)) with (o_iteration o). bs. cbv zeta iota.
  change (batch_size E (exc o) 0) with (batch_size E o 0).
  apply cut_bind.
  - destruct (batch_size E o 0 =? 0); [apply cut_sim, sim_panic|apply c_loop].
  - intros _. apply cut_sim, m_final.
  - intros _. apply fr_end.
Qed.
Lemma c_stage1 : cut (stage1_run E) (stage1_run E).
Proof.
  unfold stage1_run. bo. eapply cut_bind_sim with (V := eq); [apply m_tick|intros a ? <-].
  change (stage1_init E (exc o) a) with (stage1_init E o a). change (observes1 (exc o)) with (observes1 o).
  destruct (stage1_init E o a) as [x|e|]; [|apply cut_sim, sim_fail|apply cut_sim, sim_panic].
  destruct (ss_run E x) as [res sf]. do 2 bs. destruct res as [[pts cand]|e|]; [|apply cut_sim, sim_fail|apply cut_sim, sim_panic]. cbv zeta.
  do 2 bs. eapply cut_bind_sim with (V := eq); [unfold stage1_enter; solve [cs3]|intros ? ? _]. bo.
  repeat bs. apply cut_bind; [apply c_process|intro|intro; unfold end_stage1, stage1_enter; fr3]. repeat bs.
  apply cut_check. intros [|]; apply cut_sim; unfold end_stage1, stage1_enter; cs3.
Qed.
Definition fresh_run : OM solset :=
  r <- stage1_run E ;; match r with None => final_set | Some (refs, objs) => stage2_run E false refs (Some objs) 0 end.
Lemma c_run : cut fresh_run fresh_run.
Proof.
  unfold fresh_run. apply cut_bind.
  - apply c_stage1.
  - intros [[refs objs]|]; [apply c_stage2|]. apply cut_sim. unfold final_set. cs.
  - intros [[refs objs]|]; [apply fr_stage2|]. unfold final_set. fr3.
Qed.
End Excluding.

(** the first step: the option is of no effect on whether the program resumes, and none at all
    when it does *)
Lemma resume_excluding E s : let x := try_resume_from_checkpoint E s in let y := try_resume_from_checkpoint E (excluding_state s) in
  fst y = fst x /\ trace (snd x) = trace s /\
  ((fst x = Ok true /\ snd y = snd x) \/ (fst x <> Ok true /\ snd y = excluding_state (snd x) /\ s_o (snd x) = s_o s)).
Proof.
  cbv zeta. unfold try_resume_from_checkpoint, restore_from_checkpoint, upd, modify, on_disk, bind, the_oqnlp, get, ret, bind.
  cbn [fst snd s_o s_w excluding_state]. change (o_cp (set_o_exclude true (s_o s))) with (o_cp (s_o s)).
  destruct (o_cp (s_o s)) as [c|]; cbn [fst snd]; [|split; [reflexivity|split; [reflexivity|right; split; [discriminate|split; reflexivity]]]].
  destruct (cc_auto_resume c); cbn [fst snd]; [|split; [reflexivity|split; [reflexivity|right; split; [discriminate|split; reflexivity]]]].
  change (w_disk (s_w (excluding_state s))) with (w_disk (s_w s)).
  destruct (checkpoint_exists E c (w_disk (s_w s))) as [[[|]|e|] d]; cbn [fst snd s_o s_w w_disk];
    try (split; [reflexivity|split; [reflexivity|right; split; [discriminate|split; reflexivity]]]).
  destruct (load_latest E c d) as [[cp|e|] d2]; cbn [fst snd s_o s_w w_disk];
    try (split; [reflexivity|split; [reflexivity|right; split; [discriminate|split; reflexivity]]]).
  split; [reflexivity|]. split; [reflexivity|]. left. split; [reflexivity|]. reflexivity.
Qed.
Theorem c110_until : forall E s rA sA na rB sB nb,
  run E s = (rA, sA) -> recorded s sA na -> run E (excluding_state s) = (rB, sB) -> recorded (excluding_state s) sB nb ->
  o_exclude (s_o s) = false ->
  (forall l, o_set (s_o s) = Some l -> l <> [] /\ forall x, In x l -> solution_inside (pb_bounds (e_problem E)) x) ->
  (rB = rA /\ effects nb = effects na) \/
  (exists after x before after', na = after ++ EvResult x :: before /\ ~ solution_inside (pb_bounds (e_problem E)) x /\ effects nb = after' ++ effects before).
Proof.
  intros E s rA sA na rB sB nb Ha Na Hb Nb Hx Hgd.
  unfold recorded in Na, Nb. change (w_trace (s_w (excluding_state s))) with (w_trace (s_w s)) in Nb.
  assert (Same : rB = rA -> effects (w_trace (s_w sB)) = effects (w_trace (s_w sA)) -> rB = rA /\ effects nb = effects na).
  { intros H1 H2. rewrite Na, Nb, !effects_app in H2. apply app_inv_tail in H2. auto. }
  pose proof (resume_excluding E s) as X. cbv zeta in X. unfold run in Ha, Hb. unfold bind at 1 in Ha. unfold bind at 1 in Hb.
  destruct (try_resume_from_checkpoint E s) as [x s1], (try_resume_from_checkpoint E (excluding_state s)) as [y s2].
  cbn [fst snd] in X. destruct X as (-> & X1 & X2). destruct x as [[|]|e|].
  - left. destruct X2 as [[_ ->]|[X2 _]]; [|contradiction X2; reflexivity]. rewrite Ha in Hb. injection Hb as <- <-. apply Same; reflexivity.
  - destruct X2 as [[X2 _]|(_ & -> & X2)]; [discriminate|].
    assert (L : excs E (trace s) s1 (excluding_state s1)).
    { unfold excs, good. rewrite X2. split; [split; [exact Hx|exact Hgd]|]. cbn [excluding_state s_o s_w]. rewrite X2.
      repeat (split; [reflexivity|]). exists []. exact X1. }
    pose proof (c_run E (trace s) _ _ L) as G. unfold fresh_run in G. rewrite Ha, Hb in G. cbn [fst snd] in G.
    destruct G as [[G1 G2]|(l & z & c & l' & G1 & G2 & G3)].
    + left. destruct G2 as (_ & _ & _ & _ & _ & G2 & _). apply Same; [apply vrel_eq_inv in G1; auto|exact G2].
    + right. unfold trace in G1, G3. rewrite Na in G1. rewrite Nb, !effects_app, app_assoc in G3. apply app_inv_tail in G3.
      rewrite app_comm_cons, app_assoc in G1. apply app_inv_tail in G1. exists l, z, c, l'. auto.
  - left. destruct X2 as [[X2 _]|(_ & -> & X2)]; [discriminate|]. injection Ha as <- <-. injection Hb as <- <-. apply Same; reflexivity.
  - left. destruct X2 as [[X2 _]|(_ & -> & X2)]; [discriminate|]. injection Ha as <- <-. injection Hb as <- <-. apply Same; reflexivity.
Qed.
Theorem c110_same : forall E s rA sA na rB sB nb,
  run E s = (rA, sA) -> recorded s sA na -> run E (excluding_state s) = (rB, sB) -> recorded (excluding_state s) sB nb ->
  o_exclude (s_o s) = false ->
  (forall l, o_set (s_o s) = Some l -> l <> [] /\ forall x, In x l -> solution_inside (pb_bounds (e_problem E)) x) ->
  (forall x, In (EvResult x) na -> solution_inside (pb_bounds (e_problem E)) x) ->
  rB = rA /\ effects nb = effects na.
Proof.
  intros E s rA sA na rB sB nb Ha Na Hb Nb Hx Hgd Hres.
  destruct (c110_until E s rA sA na rB sB nb Ha Na Hb Nb Hx Hgd) as [H|(l & x & c & l' & H1 & H2 & _)]; [exact H|].
  contradiction H2. apply Hres. rewrite H1. apply in_or_app. right. left. reflexivity.
Qed.

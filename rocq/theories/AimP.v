(** * A lower target (C107) *)
From Coq Require Import ZArith NArith List Bool Arith Lia String.
From Verif Require Import F64 F64Order Base Builders Types Filters Runner Observer Env EnvSpec
  ScatterSearch Codec Checkpoint Oqnlp Spec SpecStage2 SpecObserver SpecAim Wp Actions RunP SetP SimP ClockFreeP LeaderP FrameP SeqP3 ResumeP AgainP FinishP BasicP MoreP.
Import ListNotations.
Local Open Scope monad_scope.

Section Aim.
Context (E : env) (g : option f64) (t1 : f64) (Hg : at_most g t1).
Notation aim := (set_o_target g).
Definition aims (s t : st) : Prop :=
  o_target (s_o s) = Some t1 /\ s_o t = aim (s_o s) /\ w_tick (s_w t) = w_tick (s_w s) /\
  d_tick (w_disk (s_w t)) = d_tick (w_disk (s_w s)) /\
  map fst (d_files (w_disk (s_w t))) = map fst (d_files (w_disk (s_w s))) /\
  moves (trace t) = moves (trace s).
Notation sim := (sim aims).
Lemma moves_app l l' : moves (l ++ l') = moves l ++ moves l'. Proof. apply flat_map_app. Qed.
Lemma m_oqnlp : sim (fun o o' => o' = aim o /\ o_target o = Some t1) the_oqnlp the_oqnlp.
Proof. intros s t H. pose proof H as H'. destruct H' as (H0 & H1 & _). simpl. auto. Qed.
Lemma m_upd f : (forall o, f (aim o) = aim (f o)) -> (forall o, o_target (f o) = o_target o) -> sim eq (upd f) (upd f).
Proof.
  intros H G. apply sim_modify. intros s t (H0 & H1 & H2). split; [simpl; rewrite G; exact H0|].
  split; [simpl; rewrite H1; apply H|exact H2].
Qed.
Lemma m_obs f : sim eq (obs f) (obs f). Proof. apply m_upd; reflexivity. Qed.
Lemma m_emit l l' : moves (rev l') = moves (rev l) -> sim eq (emit l) (emit l').
Proof.
  intros H. apply sim_modify. intros s t (H0 & H1 & H2 & H3 & H4 & H5). unfold aims, trace in *. simpl.
  rewrite !moves_app, H, H5. auto 10.
Qed.
Lemma m_tick : sim eq tick tick.
Proof. intros s t (H0 & H1 & H2 & H3 & H4 & H5). simpl. rewrite H2. split; [reflexivity|]. unfold aims, trace in *. simpl. auto 10. Qed.
Lemma m_of_solver A (r : outcome ls_error A) : sim eq (of_solver r) (of_solver r).
Proof. destruct r as [a|e|]; [apply sim_ret|apply sim_fail|apply sim_panic]; auto. Qed.
Ltac cs1 :=
  match goal with
  | |- SimP.sim _ _ (bind the_oqnlp _) _ => eapply sim_bind; [apply m_oqnlp|]; let o := fresh "o" in let o' := fresh "o'" in intros o o' [-> ?];
      repeat match goal with
      | |- context [should_start_local (aim o)] => change (should_start_local (aim o)) with (should_start_local o)
      | |- context [observes1 (aim o)] => change (observes1 (aim o)) with (observes1 o)
      | |- context [observes2 (aim o)] => change (observes2 (aim o)) with (observes2 o)
      end
  | |- SimP.sim _ _ (bind _ _) _ => eapply sim_bind with (V := eq); [|intros ? ? <-]
  | |- SimP.sim _ _ (ret _) _ => apply sim_ret; auto
  | |- SimP.sim _ _ (fail _) _ => apply sim_fail
  | |- SimP.sim _ _ panic _ => apply sim_panic
  | |- SimP.sim _ _ (upd _) _ => apply m_upd; reflexivity
  | |- SimP.sim _ _ (obs _) _ => apply m_obs
  | |- SimP.sim _ _ (emit _) _ => apply m_emit; reflexivity
  | |- SimP.sim _ _ tick _ => apply m_tick
  | |- SimP.sim _ _ (unwrap _) _ => apply sim_unwrap
  | |- SimP.sim _ _ (of_result _) _ => apply sim_of_result; apply vrel_eq
  | |- SimP.sim _ _ (of_solver _) _ => apply m_of_solver
  | |- SimP.sim _ _ (let '(_, _) := ?x in _) _ => destruct x
  | |- SimP.sim _ _ (if ?b then _ else _) (if ?c then _ else _) => change c with b; destruct b
  | |- SimP.sim _ _ (match ?x with _ => _ end) (match ?y with _ => _ end) => change y with x; destruct x
  end.
Ltac cs := repeat cs1.
Lemma m_process sol : sim eq (process_local_solution E sol) (process_local_solution E sol).
Proof. unfold process_local_solution, set_solutions, set_threshold, add_to_filter. cs. Qed.
Lemma m_callback i : sim eq (callback E i) (callback E i).
Proof. unfold callback. cs. Qed.
Lemma m_callback_at i : sim eq (callback_at E i) (callback_at E i).
Proof. unfold callback_at. cs. apply m_callback. Qed.
Lemma m_save_disk cc cp cp' i : sim eq (on_disk (save_checkpoint E cc cp i)) (on_disk (save_checkpoint E cc cp' i)).
Proof.
  intros s t (H0 & H1 & H2 & H3 & H4 & H5).
  destruct s as [o [[fs k] m tr]], t as [o' [[fs' k'] m' tr']]. cbn [s_o s_w w_tick w_disk d_tick d_files] in *. subst o' m' k'.
  unfold trace in H5. cbn [s_w w_trace] in H5.
  unfold on_disk, save_checkpoint, fs_write, next_io, set_files, bind, modify, fail, ret. simpl.
  destruct (e_io E k); simpl; (split; [reflexivity|]); unfold aims, trace; simpl;
    (split; [exact H0|]); (split; [reflexivity|]); (split; [reflexivity|]); (split; [reflexivity|]); (split; [|exact H5]); try exact H4; apply put_names; exact H4.
Qed.
Lemma m_save_now cc : sim eq (save_now E cc) (save_now E cc).
Proof.
  unfold save_now. eapply sim_bind with (V := fun _ _ => True).
  - unfold create_checkpoint. eapply sim_bind; [apply m_tick|intros ? ? _]. cs1. apply sim_ret. exact I.
  - intros cp cp' _. cs1. eapply sim_bind; [apply m_emit; reflexivity|intros ? ? _]. eapply sim_bind; [apply m_save_disk|intros ? ? _]. cs.
Qed.
Lemma m_maybe_save : sim eq (maybe_save_checkpoint E) (maybe_save_checkpoint E).
Proof. unfold maybe_save_checkpoint. cs; apply m_save_now. Qed.
Lemma m_final : sim eq (maybe_save_final_checkpoint E ;;; final_set) (maybe_save_final_checkpoint E ;;; final_set).
Proof. unfold maybe_save_final_checkpoint, final_set. cs; apply m_save_now. Qed.
Lemma m_begin i u : sim eq (begin_iteration E i u) (begin_iteration E i u).
Proof. unfold begin_iteration. cs. Qed.
Lemma m_obs_iteration i u : sim eq (obs_iteration i u) (obs_iteration i u).
Proof. unfold obs_iteration. cs. Qed.
Lemma m_obs_search a k : sim eq (obs_search a k) (obs_search a k).
Proof. unfold obs_search. cs. Qed.
Lemma m_count u : sim eq (count_unchanged u) (count_unchanged u).
Proof. unfold count_unchanged, adjust_threshold. cs. Qed.
Lemma m_threshold v : sim eq (set_threshold v) (set_threshold v).
Proof. unfold set_threshold. cs. Qed.
Lemma m_begin2 : sim eq begin_stage2 begin_stage2.
Proof. unfold begin_stage2. cs. Qed.
Ltac cs3 := repeat first [ apply m_process | apply m_callback | apply m_callback_at | apply m_maybe_save
  | apply m_begin | apply m_obs_iteration | apply m_obs_search | apply m_count | apply m_threshold
  | match goal with |- SimP.sim _ _ (let _ := _ in _) _ => cbv zeta end | cs1 ].
Lemma m_quicks : forall l u, sim eq (process_quicks E l u) (process_quicks E l u).
Proof. induction l as [|[[i p] v] l IH]; intros u; simpl; unfold process_quick; cs3; apply IH. Qed.

(** ** Stopping earlier *)
Definition ahead (s t : st) : Prop := exists x, moves (trace t) = x ++ moves (trace s).
Definition reached (s : st) : Prop := o_target (s_o s) = Some t1 /\ target_reached E (s_o s) = Some true.
Definition stopped {A} (D : A -> st -> Prop) (x : outcome oq_error A * st) : Prop :=
  match fst x with Ok a => D a (snd x) | _ => True end.
(** [m'] does what [m] does, until [m] stops *)
Definition cut {A} (D : A -> st -> Prop) (m m' : OM A) : Prop := forall s t, aims s t ->
  (vrel eq (fst (m s)) (fst (m' t)) /\ aims (snd (m s)) (snd (m' t))) \/
  (stopped D (m s) /\ ahead (snd (m s)) (snd (m' t))).
Lemma cut_sim A D (m m' : OM A) : sim eq m m' -> cut D m m'.
Proof. intros H s t L. left. exact (H s t L). Qed.
Lemma ahead_more A (m : OM A) s t : FrameP.frame m -> ahead s t -> ahead s (snd (m t)).
Proof.
  intros Hf [x H]. destruct (grows _ m Hf t) as [new Hn]. exists (moves new ++ x). rewrite Hn, moves_app, H, app_assoc. reflexivity.
Qed.
Lemma cut_bind A B D D' (m m' : OM A) (k k' : A -> OM B) : cut D m m' -> (forall a, cut D' (k a) (k' a)) ->
  (forall a, FrameP.frame (k' a)) ->
  (forall a s, D a s -> stopped D' (k a s) /\ moves (trace (snd (k a s))) = moves (trace s)) -> cut D' (bind m k) (bind m' k').
Proof.
  intros H1 H2 Hf H3 s t L. unfold bind. destruct (H1 s t L) as [[G1 G2]|[G1 G2]].
  - destruct (m s) as [[a|e|] s1], (m' t) as [[b|e'|] t2]; cbn [fst snd vrel] in *; try contradiction.
    + subst b. exact (H2 a s1 t2 G2).
    + left. split; [exact G1|exact G2].
    + left. split; [exact I|exact G2].
  - right. assert (K : forall s2, moves (trace s2) = moves (trace (snd (m s))) ->
      ahead s2 (snd (let '(r, t2) := m' t in match r with Ok a => k' a t2 | Err e => (Err e, t2) | Panic => (Panic, t2) end))).
    { intros s2 E2. assert (G3 : ahead s2 (snd (m' t))) by (destruct G2 as [x G2]; exists x; rewrite E2; exact G2).
      destruct (m' t) as [[b|e|] t2]; cbn [snd] in *; [apply ahead_more; [apply Hf|exact G3]|exact G3|exact G3]. }
    destruct (m s) as [[a|e|] s1]; unfold stopped in G1; cbn [fst snd] in *; [|split; [exact I|apply K; reflexivity]..].
    destruct (H3 a s1 G1) as [H4 H5]. split; [exact H4|apply K; exact H5].
Qed.
Lemma cut_bind_sim A B V D' (m m' : OM A) (k k' : A -> OM B) : sim V m m' -> (forall a b, V a b -> cut D' (k a) (k' b)) -> cut D' (bind m k) (bind m' k').
Proof.
  intros H1 H2 s t L. unfold bind. destruct (H1 s t L) as [G1 G2].
  destruct (m s) as [[a|e|] s1], (m' t) as [[b|e'|] t2]; cbn [fst snd vrel] in *; try contradiction.
  - exact (H2 a b G1 s1 t2 G2).
  - left. split; [exact G1|exact G2].
  - left. split; [exact I|exact G2].
Qed.
(** a lower target is not reached before *)
Lemma reached_before o : o_target o = Some t1 ->
  match target_reached E o with
  | Some true => target_reached E (aim o) = Some true \/ target_reached E (aim o) = Some false
  | Some false => target_reached E (aim o) = Some false
  | None => True
  end.
Proof.
  intro Ht. unfold target_reached. cbn [set_o_target o_target o_set o_exclude]. rewrite Ht.
  destruct (o_set o) as [l|]; [|destruct g; reflexivity].
  destruct (best_solution l) as [b|]; [|destruct g; reflexivity].
  destruct Hg as [->|(t' & -> & Hle)].
  - destruct (fle (ls_obj b) t1); rewrite ?andb_true_r, ?andb_false_r; [|reflexivity].
    destruct (o_exclude o); [destruct (within_bounds _ _) as [[|]|]; auto|auto].
  - destruct (fle (ls_obj b) t') eqn:H'.
    + rewrite (fle_trans _ _ _ H' Hle), !andb_true_r. destruct (o_exclude o); [destruct (within_bounds _ _) as [[|]|]; auto|auto].
    + rewrite andb_false_r. destruct (fle (ls_obj b) t1); rewrite ?andb_true_r, ?andb_false_r; [|reflexivity].
      destruct (o_exclude o); [destruct (within_bounds _ _) as [[|]|]; auto|auto].
Qed.
Lemma cut_check A D (k k' : bool -> OM A) :
  (forall b, cut D (k b) (k' b)) -> (forall b, FrameP.frame (k' b)) ->
  (forall s t, aims s t -> reached s -> stopped D (k true s) /\ ahead (snd (k true s)) (snd (k' false t))) ->
  cut D (o <- the_oqnlp ;; b <- unwrap (target_reached E o) ;; k b) (o <- the_oqnlp ;; b <- unwrap (target_reached E o) ;; k' b).
Proof.
  intros H1 Hf H2 s t L. pose proof L as L'. destruct L' as (H0 & Ho & _).
  unfold bind, the_oqnlp, get, ret, bind. cbn [fst snd]. rewrite Ho.
  assert (P : ahead s t) by (exists []; simpl; exact (proj2 (proj2 (proj2 (proj2 (proj2 L)))))).
  pose proof (reached_before (s_o s) H0) as R.
  destruct (target_reached E (s_o s)) as [[|]|] eqn:Hr.
    + destruct R as [->| ->]; cbn [unwrap ret].
      * exact (H1 true s t L).
      * right. exact (H2 s t L (conj H0 Hr)).
    + rewrite R. cbn [unwrap ret]. exact (H1 false s t L).
    + right. cbn [unwrap panic]. split; [exact I|]. cbn [snd].
      destruct (target_reached E (aim (s_o s))) as [b|]; cbn [unwrap ret panic snd]; [apply ahead_more; [apply Hf|exact P]|exact P].
Qed.
Lemma cut_ret A D (a : A) : cut D (ret a) (ret a).
Proof. apply cut_sim, sim_ret. reflexivity. Qed.
Lemma ahead_now s t : aims s t -> ahead s t.
Proof. intro L. exists []. simpl. exact (proj2 (proj2 (proj2 (proj2 (proj2 L))))). Qed.
Ltac bs := eapply cut_bind_sim with (V := eq); [solve [cs3]|intros ? ? <-].
Ltac bo := eapply cut_bind_sim; [apply m_oqnlp|]; let o := fresh "o" in let o' := fresh "o'" in intros o o' [-> ?].
Definition by_stop {A} (x : A * bool) (s : st) : Prop := snd x = true /\ reached s.
Lemma frame_one : forall objs i p u, FrameP.frame (process_one_seq E objs i p u). Proof. apply fr_one_seq. Qed.
Ltac fr3 := repeat first [ apply fr_process | apply fr_callback_at | apply fr_callback | apply fr_maybe_save | apply fr_begin | apply fr_obs_iteration
  | apply fr_obs_search | apply fr_count | apply fr_threshold | fr1 ].
Lemma c_one objs i p u : cut by_stop (process_one_seq E objs i p u) (process_one_seq E objs i p u).
Proof.
  unfold process_one_seq, emit_eval. do 5 bs. bo.
  change (should_start_local (aim o)) with (should_start_local o). cbv zeta.
  eapply cut_bind_sim with (V := eq); [apply m_emit; reflexivity|intros ? ? _].
  apply (cut_bind _ _ by_stop).
  - change (o_solver_type (aim o)) with (o_solver_type o). change (o_solver_config (aim o)) with (o_solver_config o). change (observes2 (aim o)) with (observes2 o).
    destruct (should_start_local o p a2); [|apply cut_sim; cs3].
    do 5 bs. apply (cut_check _ by_stop (fun stop => ret (u, stop)) (fun stop => ret (u, stop))).
    + intro. apply cut_ret.
    + intro. fr3.
    + intros s t L R. split; [split; [reflexivity|exact R]|apply ahead_now, L].
  - intros [u' [|]]; [apply cut_ret|apply cut_sim; cs3].
  - intros [u' [|]]; fr3.
  - intros [u2 c2] s [Hb Hr]. cbn [snd] in Hb. subst c2. split; [split; [reflexivity|exact Hr]|reflexivity].
Qed.
Definition at_target {A} (_ : A) (s : st) : Prop := reached s.
Lemma c_batch_seq start res objs b : forall u, cut at_target (process_batch_sequential E start res objs b u) (process_batch_sequential E start res objs b u).
Proof.
  induction b as [|[i p] b IH]; intros u; simpl; [apply cut_ret|].
  destruct (res && (i <? start)); [apply IH|]. apply (cut_bind _ _ by_stop).
  - apply c_one.
  - intros [u' [|]]; [apply cut_ret|apply IH].
  - intros [u' [|]]; [fr3|apply fr_batch_seq].
  - intros [u' c] s [Hb Hr]. cbn [snd] in Hb. subst c. split; [exact Hr|reflexivity].
Qed.
Definition stop_at (b : bool) (s : st) : Prop := b = true /\ reached s.
Lemma c_par_result i v x k u : cut stop_at (process_par_result E i v x k u) (process_par_result E i v x k u).
Proof.
  unfold process_par_result. do 6 bs.
  apply (cut_check _ stop_at (fun stop : bool => if stop then ret true else maybe_save_checkpoint E ;;; ret false) (fun stop : bool => if stop then ret true else maybe_save_checkpoint E ;;; ret false)).
  - intros [|]; [apply cut_ret|apply cut_sim; cs3].
  - intros [|]; fr3.
  - intros s t L R. split; [split; [reflexivity|exact R]|]. cbn [ret snd]. apply ahead_more; [fr3|apply ahead_now, L].
Qed.
Lemma c_par_results : forall l u, cut at_target (process_par_results E l u) (process_par_results E l u).
Proof.
  induction l as [|[[[i p] v] [x k]] l IH]; intros u; simpl; [apply cut_ret|]. apply (cut_bind _ _ stop_at).
  - apply c_par_result.
  - intros [|]; [apply cut_ret|apply IH].
  - intros [|]; [fr3|apply fr_par_results].
  - intros b s [-> Hr]. split; [exact Hr|reflexivity].
Qed.
Lemma c_single i p v u : cut stop_at (process_single E i p v u) (process_single E i p v u).
Proof.
  unfold process_single. do 2 bs. bo. do 6 bs.
  apply (cut_check _ stop_at (fun stop : bool => if stop then ret true else maybe_save_checkpoint E ;;; ret false) (fun stop : bool => if stop then ret true else maybe_save_checkpoint E ;;; ret false)).
  - intros [|]; [apply cut_ret|apply cut_sim; cs3].
  - intros [|]; fr3.
  - intros s t L R. split; [split; [reflexivity|exact R]|]. cbn [ret snd]. apply ahead_more; [fr3|apply ahead_now, L].
Qed.
Lemma c_singles : forall l u, cut at_target (process_singles E l u) (process_singles E l u).
Proof.
  induction l as [|[[i p] v] l IH]; intros u; simpl; [apply cut_ret|]. apply (cut_bind _ _ stop_at).
  - apply c_single.
  - intros [|]; [apply cut_ret|apply IH].
  - intros [|]; [fr3|apply fr_singles].
  - intros b s [-> Hr]. split; [exact Hr|reflexivity].
Qed.
Lemma moves_decide o (f : nat * point * f64 -> bool) l :
  moves (rev (map (fun c => EvDecide (fst (fst c)) (snd (fst c)) (snd c) (aim o) (f c)) l)) =
  moves (rev (map (fun c => EvDecide (fst (fst c)) (snd (fst c)) (snd c) o (f c)) l)).
Proof. induction l as [|c l IH]; [reflexivity|]. simpl. rewrite !moves_app, IH. reflexivity. Qed.
Lemma c_batch_par start res objs b u : cut at_target (process_batch_parallel E start res objs b u) (process_batch_parallel E start res objs b u).
Proof.
  unfold process_batch_parallel. set (fb := if res then _ else _). clearbody fb.
  destruct (match fb with [] => true | _ => false end); [apply cut_ret|].
  do 4 bs. bo. cbv zeta. change (should_start_local (aim o)) with (should_start_local o).
  destruct (partition _ _) as [local quick].
  eapply cut_bind_sim with (V := eq); [apply m_emit, moves_decide|intros ? ? _].
  eapply cut_bind_sim with (V := eq); [apply m_quicks|intros w ? <-]. bo.
  apply (cut_bind _ _ at_target).
  - change (o_parallel (aim o0)) with (o_parallel o0). destruct ((2 <=? List.length local) && o_parallel o0); [|apply c_singles].
    eapply cut_bind_sim with (V := eq); [apply m_emit; reflexivity|intros ? ? _].
    eapply cut_bind_sim with (V := eq); [apply sim_of_result, vrel_eq|intros rs ? <-]. apply c_par_results.
  - intro. apply cut_ret.
  - intro. fr3.
  - intros [] s Hr. split; [exact Hr|reflexivity].
Qed.
Lemma c_loop size start res objs : forall bs u, cut at_target (stage2_loop E size start res objs bs u) (stage2_loop E size start res objs bs u).
Proof.
  induction bs as [|b bs IH]; intros u; simpl; [apply cut_ret|]. bo. change (o_max_time (aim o)) with (o_max_time o). bs.
  destruct a; [apply cut_ret|]. bs. apply (cut_bind _ _ at_target).
  - destruct (1 <? size); [apply c_batch_par|apply c_batch_seq].
  - intro u'. apply (cut_check _ at_target (fun stop : bool => if stop then ret tt else stage2_loop E size start res objs bs u') (fun stop : bool => if stop then ret tt else stage2_loop E size start res objs bs u')).
    + intros [|]; [apply cut_ret|apply IH].
    + intros [|]; [fr3|apply fr_loop].
    + intros s t L R. split; [exact R|]. cbn [ret snd]. apply ahead_more; [apply fr_loop|apply ahead_now, L].
  - intro u'. fr3. apply fr_loop.
  - intros u' s Hr. unfold at_target, reached in Hr. unfold bind, the_oqnlp, get, ret, bind. cbn [fst snd]. rewrite (proj2 Hr). split; [exact Hr|reflexivity].
Qed.
Lemma c_final s : reached s -> stopped (fun set s' => o_set (s_o s') = Some set /\ reached s') ((maybe_save_final_checkpoint E ;;; final_set) s) /\
  moves (trace (snd ((maybe_save_final_checkpoint E ;;; final_set) s))) = moves (trace s).
Proof.
  intro Hr. unfold bind. destruct (maybe_save_final_checkpoint E s) as [r s'] eqn:Hf.
  destruct (final_save_spec E s r s' Hf) as (F0 & fin & F1 & F2).
  assert (F3 : moves (trace s') = moves (trace s)).
  { rewrite F1, moves_app. replace (moves fin) with (@nil event); [reflexivity|].
    unfold final_record in F2. destruct (o_cp (s_o s)); [|subst; reflexivity]. destruct F2 as [cp F2]; destruct F2 as [F2 _]; rewrite F2; reflexivity. }
  assert (F4 : reached s') by (unfold reached; rewrite F0; exact Hr).
  destruct r as [[]|e|]; [|split; [exact I|exact F3]..].
  unfold final_set, bind, the_oqnlp, get, ret, fail, bind. cbn [fst snd].
  destruct (o_set (s_o s')) eqn:Hs; (split; [|exact F3]); [|exact I]. split; [exact Hs|exact F4].
Qed.
Definition returned (set : solset) (s : st) : Prop := o_set (s_o s) = Some set /\ reached s.
Lemma fr_end : FrameP.frame (maybe_save_final_checkpoint E ;;; final_set).
Proof. apply fr_bind; [apply fr_final_save|intro]. unfold final_set. repeat fr1. Qed.
Lemma c_stage2 refs objs u : cut returned (stage2_run E false refs objs u) (stage2_run E false refs objs u).
Proof.
  unfold stage2_run. eapply cut_bind_sim with (V := eq); [apply m_begin2|intros ? ? _]. bo.
  change (o_params (aim o)) with (o_params o). change (o_iteration (aim o)) with (o_iteration o). bs. cbv zeta iota.
  change (batch_size E (aim o) 0) with (batch_size E o 0).
  apply (cut_bind _ _ at_target).
  - destruct (batch_size E o 0 =? 0); [apply cut_sim, sim_panic|apply c_loop].
  - intros _. apply cut_sim, m_final.
  - intros _. apply fr_end.
  - intros ? s Hr. apply c_final, Hr.
Qed.
(** the end of stage 1 depends on the observer only *)
Lemma end_moves s t : o_observer (s_o t) = o_observer (s_o s) -> moves (trace t) = moves (trace s) ->
  fst (end_stage1 E s) = Ok tt /\ fst (end_stage1 E t) = Ok tt /\
  moves (trace (snd (end_stage1 E t))) = moves (trace (snd (end_stage1 E s))) /\
  (reached s -> reached (snd (end_stage1 E s))).
Proof.
  intros Ho Hm. unfold end_stage1, stage1_enter, callback, obs. set (f := upd_stage1 _). clearbody f.
  set (h := mark_stage1_complete). clearbody h.
  destruct s as [o [d k tr]], t as [o' [d' k' tr']]. unfold trace in *. cbn [s_o s_w w_trace] in Ho, Hm.
  unfold upd, modify, emit, bind, the_oqnlp, get, ret, bind. cbn [fst snd s_o s_w w_trace set_o_observer o_observer]. rewrite Ho.
  destruct (o_observer o) as [ob|]; cbn [option_map fst snd s_o s_w w_trace]; [|auto].
  destruct (ob_callback (f ob)) eqn:Hcb; [|cbn [fst snd s_o s_w w_trace]; auto].
  destruct (invoke_callback (e_callback E) (f ob)) as [ob' msgs]. cbn [fst snd s_o s_w w_trace w_disk w_tick].
  split; [reflexivity|]. split; [reflexivity|]. split; [|auto].
  change (moves (rev (EvCallback None (f ob) :: map EvPrint msgs) ++ tr') = moves (rev (EvCallback None (f ob) :: map EvPrint msgs) ++ tr)).
  rewrite !moves_app, Hm. reflexivity.
Qed.
Definition stop1 (r : option (list point * list f64)) (s : st) : Prop := r = None /\ reached s.
Lemma c_stage1 : cut stop1 (stage1_run E) (stage1_run E).
Proof.
  unfold stage1_run. bo. eapply cut_bind_sim with (V := eq); [apply m_tick|intros a ? <-].
  change (stage1_init E (aim o) a) with (stage1_init E o a). change (observes1 (aim o)) with (observes1 o).
  destruct (stage1_init E o a) as [x|e|]; [|apply cut_sim, sim_fail|apply cut_sim, sim_panic].
  destruct (ss_run E x) as [res sf]. do 2 bs. destruct res as [[pts cand]|e|]; [|apply cut_sim, sim_fail|apply cut_sim, sim_panic]. cbv zeta.
  do 2 bs. eapply cut_bind_sim with (V := eq); [unfold stage1_enter; solve [cs3]|intros ? ? _]. bo.
  do 6 bs.
  apply (cut_check _ stop1 (fun stop : bool => if stop then end_stage1 E ;;; ret None else upd (set_o_ref (Some (map fst pts))) ;;; end_stage1 E ;;; ret (Some (map fst pts, map snd pts)))
     (fun stop : bool => if stop then end_stage1 E ;;; ret None else upd (set_o_ref (Some (map fst pts))) ;;; end_stage1 E ;;; ret (Some (map fst pts, map snd pts)))).
  - intros [|]; apply cut_sim; unfold end_stage1, stage1_enter; cs3.
  - intros [|]; unfold end_stage1, stage1_enter; fr3.
  - intros s t L R. pose proof L as L'. destruct L' as (L0 & L1 & _ & _ & _ & L2).
    set (t2 := mk_st (set_o_ref (Some (map fst pts)) (s_o t)) (s_w t)).
    destruct (end_moves s t2) as (K1 & K2 & K3 & K4).
    { unfold t2. cbn [s_o]. rewrite L1. reflexivity. }
    { exact L2. }
    assert (Q : forall A (b : A), (upd (set_o_ref (Some (map fst pts))) ;;; end_stage1 E ;;; ret b) t = (end_stage1 E ;;; ret b) t2) by reflexivity.
    rewrite Q. unfold bind, ret. destruct (end_stage1 E s) as [r1 s1], (end_stage1 E t2) as [r2 t3]. cbn [fst snd] in *. subst r1 r2.
    split; [split; [reflexivity|apply K4, R]|]. exists []. exact K3.
Qed.
Definition fresh_run : OM solset :=
  r <- stage1_run E ;; match r with None => final_set | Some (refs, objs) => stage2_run E false refs (Some objs) 0 end.
Lemma c_run : cut returned fresh_run fresh_run.
Proof.
  unfold fresh_run. apply (cut_bind _ _ stop1).
  - apply c_stage1.
  - intros [[refs objs]|]; [apply c_stage2|]. apply cut_sim. unfold final_set. cs.
  - intros [[refs objs]|]; [apply fr_stage2|]. unfold final_set. fr3.
  - intros r s [-> Hr]. unfold final_set, bind, the_oqnlp, get, ret, fail, bind. cbn [fst snd].
    destruct (o_set (s_o s)) eqn:Hs; (split; [|reflexivity]); [|exact I]. split; [exact Hs|exact Hr].
Qed.
End Aim.

(** the first step: another target is of no effect on whether the program resumes, and none
    at all when it does *)
Lemma resume_aiming E g s : let x := try_resume_from_checkpoint E s in let y := try_resume_from_checkpoint E (aiming_state g s) in
  fst y = fst x /\ trace (snd x) = trace s /\
  ((fst x = Ok true /\ snd y = snd x) \/ (fst x <> Ok true /\ snd y = aiming_state g (snd x) /\ s_o (snd x) = s_o s)).
Proof.
  cbv zeta. unfold try_resume_from_checkpoint, restore_from_checkpoint, upd, modify, on_disk, bind, the_oqnlp, get, ret, bind.
  cbn [fst snd s_o s_w aiming_state]. change (o_cp (set_o_target g (s_o s))) with (o_cp (s_o s)).
  destruct (o_cp (s_o s)) as [c|]; cbn [fst snd]; [|split; [reflexivity|split; [reflexivity|right; split; [discriminate|split; reflexivity]]]].
  destruct (cc_auto_resume c); cbn [fst snd]; [|split; [reflexivity|split; [reflexivity|right; split; [discriminate|split; reflexivity]]]].
  change (w_disk (s_w (aiming_state g s))) with (w_disk (s_w s)).
  destruct (checkpoint_exists E c (w_disk (s_w s))) as [[[|]|e|] d]; cbn [fst snd s_o s_w w_disk];
    try (split; [reflexivity|split; [reflexivity|right; split; [discriminate|split; reflexivity]]]).
  destruct (load_latest E c d) as [[cp|e|] d2]; cbn [fst snd s_o s_w w_disk];
    try (split; [reflexivity|split; [reflexivity|right; split; [discriminate|split; reflexivity]]]).
  split; [reflexivity|]. split; [reflexivity|]. left. split; [reflexivity|]. reflexivity.
Qed.
Lemma c107_both E g t s rA sA na rB sB nb :
  run E s = (rA, sA) -> recorded s sA na -> run E (aiming_state g s) = (rB, sB) -> recorded (aiming_state g s) sB nb ->
  o_target (s_o s) = Some t -> at_most g t ->
  (exists more, moves nb = more ++ moves na) /\
  ((rB = rA /\ moves nb = moves na) \/ (forall set, rA = Ok set -> o_set (s_o sA) = Some set /\ target_reached E (s_o sA) = Some true /\ o_target (s_o sA) = Some t)).
Proof.
  intros Ha Na Hb Nb Ht Hg.
  unfold recorded in Na, Nb. change (w_trace (s_w (aiming_state g s))) with (w_trace (s_w s)) in Nb.
  assert (Same : rB = rA -> moves (w_trace (s_w sB)) = moves (w_trace (s_w sA)) -> (exists more, moves nb = more ++ moves na) /\
    ((rB = rA /\ moves nb = moves na) \/ (forall set, rA = Ok set -> o_set (s_o sA) = Some set /\ target_reached E (s_o sA) = Some true /\ o_target (s_o sA) = Some t))).
  { intros H1 H2. rewrite Na, Nb, !moves_app in H2. apply app_inv_tail in H2. split; [exists []; exact H2|left; auto]. }
  pose proof (resume_aiming E g s) as X. cbv zeta in X. unfold run in Ha, Hb. unfold bind at 1 in Ha. unfold bind at 1 in Hb.
  destruct (try_resume_from_checkpoint E s) as [x s1], (try_resume_from_checkpoint E (aiming_state g s)) as [y s2].
  cbn [fst snd] in X. destruct X as (-> & X1 & X2). destruct x as [[|]|e|].
  - destruct X2 as [[_ ->]|[X2 _]]; [|contradiction X2; reflexivity]. rewrite Ha in Hb. injection Hb as <- <-. apply Same; reflexivity.
  - destruct X2 as [[X2 _]|(_ & -> & X2)]; [discriminate|].
    assert (L : aims g t s1 (aiming_state g s1)) by (unfold aims; repeat split; rewrite ?X2; assumption).
    pose proof (c_run E g t Hg _ _ L) as G. unfold fresh_run in G. rewrite Ha, Hb in G. cbn [fst snd] in G.
    destruct G as [[G1 G2]|[G1 [z G2]]].
    + destruct G2 as (_ & _ & _ & _ & _ & G2). apply Same; [apply vrel_eq_inv in G1; auto|exact G2].
    + unfold trace in G2. rewrite Na, Nb, !moves_app, app_assoc in G2. apply app_inv_tail in G2.
      split; [exists z; exact G2|]. right. intros set ->. destruct G1 as (K1 & K2 & K3). auto.
  - destruct X2 as [[X2 _]|(_ & -> & X2)]; [discriminate|]. injection Ha as <- <-. injection Hb as <- <-. apply Same; reflexivity.
  - destruct X2 as [[X2 _]|(_ & -> & X2)]; [discriminate|]. injection Ha as <- <-. injection Hb as <- <-. apply Same; reflexivity.
Qed.
Lemma moves_set set l : In (EvSolutionSet set) (moves l) <-> In (EvSolutionSet set) l.
Proof.
  unfold moves. rewrite in_flat_map. split.
  - intros (e & H1 & H2). destruct e; simpl in H2; try (destruct H2 as [H2|[]]; try discriminate; injection H2 as <-; exact H1). contradiction.
  - intro H. exists (EvSolutionSet set). split; [exact H|left; reflexivity].
Qed.
Theorem c107_moves : forall E g t s rA sA na rB sB nb,
  run E s = (rA, sA) -> recorded s sA na -> run E (aiming_state g s) = (rB, sB) -> recorded (aiming_state g s) sB nb ->
  o_target (s_o s) = Some t -> at_most g t -> exists more, moves nb = more ++ moves na.
Proof. intros E g t s rA sA na rB sB nb Ha Na Hb Nb Ht Hg. exact (proj1 (c107_both _ _ _ _ _ _ _ _ _ _ Ha Na Hb Nb Ht Hg)). Qed.
Theorem c107_same : forall E g t s set sA na rB sB nb,
  run E s = (Ok set, sA) -> recorded s sA na -> run E (aiming_state g s) = (rB, sB) -> recorded (aiming_state g s) sB nb ->
  o_target (s_o s) = Some t -> at_most g t ->
  (exists x, In x set /\ fle (ls_obj x) t = true) \/ (rB = Ok set /\ moves nb = moves na).
Proof.
  intros E g t s set sA na rB sB nb Ha Na Hb Nb Ht Hg.
  destruct (proj2 (c107_both _ _ _ _ _ _ _ _ _ _ Ha Na Hb Nb Ht Hg)) as [[K1 K2]|K]; [right; auto|].
  left. destruct (K set eq_refl) as (K1 & K2 & K3). unfold target_reached in K2. rewrite K1, K3 in K2.
  destruct (best_solution set) as [b|] eqn:Hb2; [|discriminate]. exists b. split.
  { pose proof (BasicP.best_solution_spec set) as S. rewrite Hb2 in S. destruct S as (n & S & _). exact (nth_error_In _ _ S). }
  destruct (fle (ls_obj b) t); [reflexivity|]. rewrite andb_false_r in K2. discriminate.
Qed.
Theorem c107_no_worse : forall E g t s setA sA na setB sB nb,
  run E s = (Ok setA, sA) -> recorded s sA na -> run E (aiming_state g s) = (Ok setB, sB) -> recorded (aiming_state g s) sB nb ->
  (forall c, o_cp (s_o s) = Some c -> cc_auto_resume c = false) ->
  o_target (s_o s) = Some t -> at_most g t ->
  tolerances_ok (s_o s) -> (forall s0, o_set (s_o s) = Some s0 -> numeric_set s0) ->
  (forall x, In (EvResult x) nb -> number (ls_obj x)) -> not_worse setB setA.
Proof.
  intros E g t s setA sA na setB sB nb Ha Na Hb Nb Hr Hg0 Hg Ht Hs Hnum.
  destruct (run_last E s setA sA na Ha Na Hr) as [H|H].
  - exact (proj2 (fresh_leader E (aiming_state g s) _ sB nb Hb Nb Hr Ht Hs Hnum) setA setB H eq_refl).
  - destruct (c107_moves E g t s _ sA na _ sB nb Ha Na Hb Nb Hg0 Hg) as [more M].
    assert (Hin : In (EvSolutionSet setA) nb) by (apply moves_set; rewrite M; apply in_or_app; right; apply moves_set; exact H).
    refine (proj1 (proj2 (c25_from E (aiming_state g s) _ sB nb Hb Nb _ Hnum)) setB eq_refl setA Hin).
    intros s1 res Hst. destruct Hst as [d _ _|c d cp H1 H2 _ _ _]; [split; [exact Ht|exact Hs]|].
    rewrite (Hr c H1) in H2. discriminate.
Qed.

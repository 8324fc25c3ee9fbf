(** * Without a time limit the clock has no influence (C33) *)
From Coq Require Import ZArith NArith List Bool Arith Lia String.
From Verif Require Import F64 Base Builders Types Filters Runner Observer Env EnvSpec
  ScatterSearch Codec Checkpoint Oqnlp Spec SpecStage2 Wp Actions RunP SimP.
Import ListNotations.
Local Open Scope monad_scope.

Section Clock.
Context (E : env) (c : nat -> f64).
Notation E' := (with_clock c E).
Definition same_but_clock (s t : st) : Prop :=
  s_o t = s_o s /\ o_max_time (s_o s) = None /\ w_tick (s_w t) = w_tick (s_w s) /\
  d_tick (w_disk (s_w t)) = d_tick (w_disk (s_w s)) /\
  map fst (d_files (w_disk (s_w t))) = map fst (d_files (w_disk (s_w s))).
Notation R := same_but_clock.
Notation sim := (sim R).
Lemma c_oqnlp : sim (fun o o' => o' = o /\ o_max_time o = None) the_oqnlp the_oqnlp.
Proof. intros s t (H1 & H2 & H). simpl. repeat split; auto; tauto. Qed.
Lemma c_upd : forall f, (forall o, o_max_time (f o) = o_max_time o) -> sim eq (upd f) (upd f).
Proof.
  intros f H. apply sim_modify. intros s t (H1 & H2 & H3). unfold R in *. simpl. rewrite H1, H. auto.
Qed.
Lemma c_obs : forall f, sim eq (obs f) (obs f). Proof. intro f. apply c_upd. reflexivity. Qed.
Lemma c_emit : forall l l', sim eq (emit l) (emit l').
Proof. intros l l'. apply sim_modify. intros s t H. exact H. Qed.
Lemma c_tick : sim eq tick tick.
Proof. intros s t (H1 & H2 & H3 & H4 & H5). simpl. rewrite H3. repeat split; simpl; auto. Qed.
Lemma c_of_solver : forall A (r : outcome ls_error A), sim eq (of_solver r) (of_solver r).
Proof. intros A [a|e|]; [apply sim_ret|apply sim_fail|apply sim_panic]; auto. Qed.
Ltac cs1 :=
  match goal with
  | |- SimP.sim _ _ (bind the_oqnlp _) _ => eapply sim_bind; [apply c_oqnlp|]; let o := fresh "o" in let o' := fresh "o'" in intros o o' [-> ?]
  | |- SimP.sim _ _ (bind _ _) _ => eapply sim_bind with (V := eq); [|intros ? ? <-]
  | |- SimP.sim _ _ (ret _) _ => apply sim_ret; auto
  | |- SimP.sim _ _ (fail _) _ => apply sim_fail
  | |- SimP.sim _ _ panic _ => apply sim_panic
  | |- SimP.sim _ _ (upd _) _ => apply c_upd; reflexivity
  | |- SimP.sim _ _ (obs _) _ => apply c_obs
  | |- SimP.sim _ _ (emit _) _ => apply c_emit
  | |- SimP.sim _ _ tick _ => apply c_tick
  | |- SimP.sim _ _ (unwrap _) _ => apply sim_unwrap
  | |- SimP.sim _ _ (of_result _) _ => apply sim_of_result; apply vrel_eq
  | |- SimP.sim _ _ (of_solver _) _ => apply c_of_solver
  | |- SimP.sim _ _ (let '(_, _) := ?x in _) _ => destruct x
  | |- SimP.sim _ _ (if ?b then _ else _) _ => destruct b
  | |- SimP.sim _ _ (match ?x with _ => _ end) _ => destruct x
  end.
Ltac cs := repeat cs1.
Lemma c_process : forall sol, sim eq (process_local_solution E sol) (process_local_solution E' sol).
Proof. intro sol. unfold process_local_solution, set_solutions, set_threshold, add_to_filter. cs. Qed.
Lemma c_callback : forall i, sim eq (callback E i) (callback E' i).
Proof. intro i. unfold callback. cbn [e_callback with_clock]. cs. Qed.
Lemma c_callback_at : forall i, sim eq (callback_at E i) (callback_at E' i).
Proof. intro i. unfold callback_at. cs. apply c_callback. Qed.
Lemma put_names : forall n a b l l', map fst l = map fst l' ->
  map fst (put_file n a l) = map fst (put_file n b l').
Proof.
  intros n a b l l' H. unfold put_file. rewrite !map_app. simpl. f_equal. unfold remove_file.
  revert l' H. induction l as [|[k v] l IH]; intros [|[k' v'] l'] H; simpl in *; try discriminate; auto.
  injection H as <- H. destruct (negb (bytes_eqb k n)); simpl; [f_equal|]; auto.
Qed.
Lemma c_save_disk : forall cc cp cp' i,
  sim eq (on_disk (save_checkpoint E cc cp i)) (on_disk (save_checkpoint E' cc cp' i)).
Proof.
  intros cc cp cp' i s t (H1 & H2 & H3 & H4 & H5).
  destruct s as [o [[fs k] n tr]], t as [o' [[fs' k'] n' tr']]. cbn [s_o s_w w_tick w_disk d_tick d_files] in *. subst o' n' k'.
  unfold on_disk, save_checkpoint, fs_write, next_io, set_files, bind, modify, fail, ret. simpl.
  destruct (e_io E k); simpl; (split; [reflexivity|]); unfold R; simpl; repeat split; auto; apply put_names; auto.
Qed.
Lemma c_save_now : forall cc, sim eq (save_now E cc) (save_now E' cc).
Proof.
  intros cc. unfold save_now. eapply sim_bind with (V := fun _ _ => True).
  - unfold create_checkpoint. eapply sim_bind; [apply c_tick|intros ? ? _]. cs1. apply sim_ret. exact I.
  - intros cp cp' _. cs1. eapply sim_bind; [apply c_emit|intros ? ? _]. eapply sim_bind; [apply c_save_disk|intros ? ? _]. cs.
Qed.
Lemma c_maybe_save : sim eq (maybe_save_checkpoint E) (maybe_save_checkpoint E').
Proof. unfold maybe_save_checkpoint. cs. apply c_save_now. Qed.
Lemma c_final_save : sim eq (maybe_save_final_checkpoint E) (maybe_save_final_checkpoint E').
Proof. unfold maybe_save_final_checkpoint. cs. apply c_save_now. Qed.
Ltac cs2 := repeat first [ apply c_process | apply c_callback | apply c_callback_at | apply c_maybe_save | apply c_final_save | cs1 ].
Lemma c_begin : forall i u, sim eq (begin_iteration E i u) (begin_iteration E' i u).
Proof. intros. unfold begin_iteration. change (add_u64 E') with (add_u64 E). cs2. Qed.
Lemma c_obs_iteration : forall i u, sim eq (obs_iteration i u) (obs_iteration i u).
Proof. intros. unfold obs_iteration. cs2. Qed.
Lemma c_obs_search : forall a n, sim eq (obs_search a n) (obs_search a n).
Proof. intros. unfold obs_search. cs2. Qed.
Lemma c_count : forall u, sim eq (count_unchanged u) (count_unchanged u).
Proof. intros. unfold count_unchanged, adjust_threshold. cs2. Qed.
Lemma c_threshold : forall v, sim eq (set_threshold v) (set_threshold v).
Proof. intros. unfold set_threshold. cs2. Qed.
Ltac cs3 := repeat first [ apply c_process | apply c_callback | apply c_callback_at | apply c_maybe_save | apply c_final_save
  | apply c_begin | apply c_obs_iteration | apply c_obs_search | apply c_count | apply c_threshold
  | match goal with |- SimP.sim _ _ (let _ := _ in _) _ => cbv zeta end | cs1 ].
Lemma c_one : forall objs i p u, sim eq (process_one_seq E objs i p u) (process_one_seq E' objs i p u).
Proof.
  intros. unfold process_one_seq, emit_eval.
  change (cand_objective E') with (cand_objective E). change (solve_tracked E') with (solve_tracked E).
  change (target_reached E') with (target_reached E). cs3.
Qed.
Lemma c_batch_seq : forall start res objs b u,
  sim eq (process_batch_sequential E start res objs b u) (process_batch_sequential E' start res objs b u).
Proof.
  intros start res objs b; induction b as [|[i p] b IH]; intros u; simpl; [cs|].
  destruct (res && (i <? start)); [apply IH|]. eapply sim_bind; [apply c_one|]. intros [u' stop] ? <-.
  destruct stop; [cs|apply IH].
Qed.
Lemma c_quicks : forall l u, sim eq (process_quicks E l u) (process_quicks E' l u).
Proof. induction l as [|[[i p] v] l IH]; intros u; simpl; unfold process_quick; cs3; apply IH. Qed.
Lemma c_par_results : forall l u, sim eq (process_par_results E l u) (process_par_results E' l u).
Proof.
  induction l as [|[[[i p] v] [x n]] l IH]; intros u; simpl; unfold process_par_result; [cs|].
  change (target_reached E') with (target_reached E). cs3; apply IH.
Qed.
Lemma c_singles : forall l u, sim eq (process_singles E l u) (process_singles E' l u).
Proof.
  induction l as [|[[i p] v] l IH]; intros u; simpl; unfold process_single; [cs|].
  change (target_reached E') with (target_reached E). change (solve_tracked E') with (solve_tracked E). cs3; apply IH.
Qed.
Lemma c_batch_par : forall start res objs b u,
  sim eq (process_batch_parallel E start res objs b u) (process_batch_parallel E' start res objs b u).
Proof.
  intros. unfold process_batch_parallel. set (fb := if res then _ else _). clearbody fb.
  change (cand_objective E') with (cand_objective E). change (solve_tracked E') with (solve_tracked E).
  change (e_err_pick E') with (e_err_pick E).
  destruct (match fb with [] => true | _ => false end); [cs|].
  cs3; first [apply c_quicks|apply c_par_results|apply c_singles].
Qed.
Lemma c_loop : forall size start res objs l u,
  sim eq (stage2_loop E size start res objs l u) (stage2_loop E' size start res objs l u).
Proof.
  intros size start res objs l; induction l as [|b l IH]; intros u; simpl; [cs|].
  eapply sim_bind; [apply c_oqnlp|]. intros o o' [-> Hm]. rewrite Hm.
  eapply sim_bind with (V := eq); [cs|intros ? ? <-]. destruct a; [cs|].
  eapply sim_bind with (V := eq); [cs|intros ? ? <-].
  eapply sim_bind with (V := eq); [destruct (1 <? size); [apply c_batch_par|apply c_batch_seq]|intros u' ? <-].
  change (target_reached E') with (target_reached E). cs; apply IH.
Qed.
Lemma c_stage2 : forall res refs objs u, sim eq (stage2_run E res refs objs u) (stage2_run E' res refs objs u).
Proof.
  intros. unfold stage2_run, begin_stage2, final_set. change (add_u64 E') with (add_u64 E).
  change (e_shuffle E') with (e_shuffle E). change (e_seed_from E') with (e_seed_from E).
  change (batch_size E') with (batch_size E). cs3; apply c_loop.
Qed.
(** the scatter search does not read the clock *)
Lemma x_draw : forall n r, draw_seeds E' n r = draw_seeds E n r.
Proof. induction n as [|n IH]; intro r; simpl; [reflexivity|]. destruct (e_next E r). rewrite IH. reflexivity. Qed.
Lemma x_sample : forall lo hi r, sample_point E' r lo hi = sample_point E r lo hi.
Proof. induction lo as [|l lo IH]; intros [|h hi] r; simpl; try reflexivity. destruct (e_uniform E r l h) as [[x r1]|]; [rewrite IH|]; reflexivity. Qed.
Lemma x_stratified : forall n s, generate_stratified_samples E' n s = generate_stratified_samples E n s.
Proof.
  intros n s. unfold generate_stratified_samples, bind, get. rewrite x_draw. destruct (draw_seeds E n (ss_rng s)) as [l r].
  erewrite map_ext; [reflexivity|]. intro sd. cbn [e_seed_from with_clock]. apply x_sample.
Qed.
Lemma x_refill : forall pop cs fuel a l s, refill E' pop cs fuel a l s = refill E pop cs fuel a l s.
Proof.
  intros pop cs. induction fuel as [|fuel IH]; intros a l s; simpl; [reflexivity|]. destruct (_ <? _); [|reflexivity].
  unfold bind. change (pop + (pop + 0)) with (2 * pop). rewrite x_stratified. destruct (generate_stratified_samples E _ s) as [[b|e|] s1]; auto.
Qed.
Lemma x_greedy : forall ctx par n refs cands ds, greedy E' ctx par n refs cands ds = greedy E ctx par n refs cands ds.
Proof.
  intros ctx par. induction n as [|n IH]; intros; simpl; [reflexivity|]. destruct (argmax par _ ds); [|reflexivity].
  destruct (swap_remove n0 cands) as [[? ?]|]; [|reflexivity]. destruct (swap_remove n0 ds) as [[? ?]|]; auto.
Qed.
Lemma x_perturb : forall p lo hi r, perturb E' r lo hi p = perturb E r lo hi p.
Proof.
  induction p as [|x p IH]; intros [|l lo] [|h hi] r; simpl; try reflexivity. destruct (e_perturb E r). rewrite IH. reflexivity.
Qed.
Lemma x_combine : forall lo hi a b sd, combine_points E' lo hi a b sd = combine_points E lo hi a b sd.
Proof.
  intros. unfold combine_points. rewrite x_perturb. cbn [e_seed_from with_clock].
  destruct (perturb E (e_seed_from E sd) lo hi _) as [[p1 r1]|]; [|reflexivity]. rewrite x_perturb. reflexivity.
Qed.
Lemma bind_ext : forall S X A B (m m' : M S X A) (k k' : A -> M S X B) s,
  m s = m' s -> (forall a s1, k a s1 = k' a s1) -> bind m k s = bind m' k' s.
Proof. intros S X A B m m' k k' s H1 H2. unfold bind. rewrite H1. destruct (m' s) as [[a|e|] s1]; auto. Qed.
Lemma x_diversify : forall refs cs s, diversify_reference_set E' refs cs s = diversify_reference_set E refs cs s.
Proof.
  intros. unfold diversify_reference_set. apply bind_ext; [reflexivity|]. intros s0 s1. cbv zeta.
  apply bind_ext; [apply x_stratified|]. intros cd s2. apply bind_ext.
  - destruct (match cs with [] => true | _ => false end); [reflexivity|]. apply bind_ext; [apply x_refill|reflexivity].
  - intros cd2 s3. unfold of_result. rewrite x_greedy. reflexivity.
Qed.
Lemma x_init : forall s, initialize_reference_set E' s = initialize_reference_set E s.
Proof.
  intros. unfold initialize_reference_set. apply bind_ext; [reflexivity|]. intros s0 s1. cbv zeta.
  apply bind_ext; [apply x_diversify|]. reflexivity.
Qed.
Lemma x_trials : forall s, generate_trial_points E' s = generate_trial_points E s.
Proof.
  intros. unfold generate_trial_points. apply bind_ext; [reflexivity|]. intros s0 s1. cbv zeta. rewrite x_draw.
  destruct (draw_seeds E _ _) as [l r]. apply bind_ext; [reflexivity|]. intros u s2.
  erewrite map_ext; [reflexivity|]. intros [[i j] sd]. destruct (nth_error _ _); [|reflexivity]. destruct (nth_error _ _); [|reflexivity]. apply x_combine.
Qed.
Lemma x_run : forall s, ss_run E' s = ss_run E s.
Proof.
  intros. unfold ss_run. apply bind_ext; [apply x_init|]. intros ? ?.
  do 5 (apply bind_ext; [reflexivity|intros ? ?]). apply bind_ext; [apply x_trials|intros ? ?]. reflexivity.
Qed.
Lemma c_stage1 : sim eq (stage1_run E) (stage1_run E').
Proof.
  unfold stage1_run, end_stage1, stage1_enter. change (stage1_init E') with (stage1_init E).
  change (solve_tracked E') with (solve_tracked E). change (target_reached E') with (target_reached E).
  cs1. cs1; [apply c_tick|]. destruct (stage1_init E o a); [|cs..]. rewrite x_run. cs3.
Qed.
Lemma c_run : forall s r s' r' t', o_max_time (s_o s) = None -> run E s = (r, s') -> run E' s = (r', t') ->
  r' = r /\ same_but_clock s' t'.
Proof.
  intros s r s' r' t' Hm H1 H2. unfold run in *. unfold bind in H1 at 1. unfold bind in H2 at 1.
  change (try_resume_from_checkpoint E') with (try_resume_from_checkpoint E) in H2.
  destruct (try_resume_from_checkpoint E s) as [[b|e|] s1] eqn:Hr.
  - assert (Hs : same_but_clock s1 s1).
    { split; [auto|split; [|auto]]. apply resume_ok in Hr. inversion Hr; subst; exact Hm. }
    assert (G : sim eq
      (if b then bind the_oqnlp (fun o => stage2_run E true (match o_ref o with Some r => r | None => [] end) None (o_unchanged o))
       else bind (stage1_run E) (fun r => match r with None => final_set | Some (refs, objs) => stage2_run E false refs (Some objs) 0 end))
      (if b then bind the_oqnlp (fun o => stage2_run E' true (match o_ref o with Some r => r | None => [] end) None (o_unchanged o))
       else bind (stage1_run E') (fun r => match r with None => final_set | Some (refs, objs) => stage2_run E' false refs (Some objs) 0 end))).
    { destruct b.
      - eapply sim_bind; [apply c_oqnlp|]. intros o o' [-> _]. apply c_stage2.
      - eapply sim_bind; [apply c_stage1|]. intros [[refs objs]|] ? <-; [apply c_stage2|]. unfold final_set. cs. }
    destruct (G s1 s1 Hs) as [G1 G2]. rewrite H1, H2 in G1, G2. simpl in *. apply vrel_eq_inv in G1. auto.
  - injection H1 as <- <-. injection H2 as <- <-. destruct (resume_fail E s _ _ Hr) as (d & _ & ->); [congruence|].
    split; [auto|]. split; [auto|split; [exact Hm|auto]].
  - injection H1 as <- <-. injection H2 as <- <-. destruct (resume_fail E s _ _ Hr) as (d & _ & ->); [congruence|].
    split; [auto|]. split; [auto|split; [exact Hm|auto]].
Qed.
End Clock.

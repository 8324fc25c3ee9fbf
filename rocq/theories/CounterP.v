(** * The counter of rejected candidates as decisions and callbacks see it (C36) *)
From Coq Require Import ZArith NArith List Bool Arith Lia String.
From Verif Require Import F64 Base Builders Types Filters Runner Observer Env EnvSpec
  ScatterSearch Codec Checkpoint Oqnlp Spec SpecStage2 SpecObserver BasicP Wp Actions RunP SetP LeaderP FrameP FilterP CountP EmitsP HoareP WaitP.
Import ListNotations.

Lemma begun_app : forall a b, begun (a ++ b) = begun a ++ begun b.
Proof. intros. unfold begun, indices. apply flat_map_app. Qed.

Section Counter.
Context (E : env) (u0 wc : nat).
Definition right (u : nat) (l : list event) : Prop := u < w wc /\ balanced u0 wc u l.
(** what an event shows of the counter *)
Definition shown (e : event) (l : list event) : Prop :=
  match e with
  | EvDecide _ _ _ o _ => right (o_unchanged o) l
  | EvCallback (Some i) ob => forall st, ob_mode ob <> Stage1Only -> ob_stage2 ob = Some st ->
      exists m l3, l = m ++ EvIteration i :: l3 /\ begun m = [] /\ right (s2_unchanged st) l3
  | _ => True
  end.
Definition all_shown (s : st) : Prop := forall l1 e l2, trace s = l1 ++ e :: l2 -> shown e l2.
(** the count, and the candidates rejected but not yet counted, between iterations *)
Definition between (u n : nat) (s : st) : Prop :=
  all_shown s /\ u < w wc /\ balanced u0 wc (u + n) (trace s) /\ p_wait_cycle (o_params (s_o s)) = wc /\ o_parallel (s_o s) = false.
Definition h2 (ob : observer) : obs_mode * option nat := (ob_mode ob, option_map s2_unchanged (ob_stage2 ob)).
Definition view2 (o : oqnlp) : option (obs_mode * option nat) := option_map h2 (o_observer o).
Definition seen (u : nat) (o : oqnlp) : Prop := forall md v, view2 o = Some (md, Some v) -> md <> Stage1Only -> v = u.
(** and in iteration [i], which began with the count [u] *)
Definition started (u i : nat) (s : st) : Prop :=
  o_unchanged (s_o s) = u /\ exists m l3, trace s = m ++ EvIteration i :: l3 /\ begun m = [] /\ right u l3.
Definition inside (u i v n : nat) (s : st) : Prop := between v n s /\ started u i s /\ seen u (s_o s).
Notation hoare := (hoare all_shown).
Definition calm2 (e : event) : Prop :=
  match e with EvRelax _ | EvDecide _ _ _ _ _ | EvCallback (Some _) _ | EvIteration _ => False | _ => True end.
Lemma between_all : forall u n s, between u n s -> all_shown s. Proof. intros u n s H; apply H. Qed.
Lemma inside_all : forall u i v n s, inside u i v n s -> all_shown s. Proof. intros u i v n s H; apply H. Qed.
Lemma calm_shown : forall e l, calm2 e -> shown e l.
Proof. intros [] l H; simpl in *; auto; try contradiction. destruct iter; auto; contradiction. Qed.
Lemma all_app : forall s s' new, trace s' = new ++ trace s -> all_shown s -> Forall calm2 new -> all_shown s'.
Proof.
  intros s s' new Ht H Hn l1 e l2 Heq. rewrite Ht in Heq. apply app_split2 in Heq as [(r & Hx & Hy)|(r & Hx & Hy)].
  - apply calm_shown. rewrite Forall_forall in Hn. apply Hn. rewrite Hx. apply in_or_app; right; left; reflexivity.
  - eapply H; eauto.
Qed.
Lemma calm_zero : forall new, Forall calm2 new -> rejections new = 0 /\ relaxations new = 0 /\ begun new = [].
Proof.
  induction new as [|e new IH]; intro H; [auto|]. pose proof (Forall_inv H) as He. specialize (IH (Forall_inv_tail H)).
  unfold rejections, relaxations, begun, indices in *. destruct e; simpl in *; auto; contradiction.
Qed.
Definition keptA (o : oqnlp) := (p_wait_cycle (o_params o), o_parallel o).
Definition keptB (o : oqnlp) := (p_wait_cycle (o_params o), o_parallel o, o_unchanged o, view2 o).
Lemma between_stable : forall u n, stable calm2 keptA (between u n).
Proof.
  intros u n s s' new (H1 & H2 & H3 & H4 & H5) Ht Hn Hf. injection Hf as F1 F2. destruct (calm_zero new Hn) as (Z1 & Z2 & _).
  split; [eapply all_app; eauto|]. split; [auto|]. split; [|split; congruence].
  unfold balanced in *. rewrite Ht, rejections_app, relaxations_app, Z1, Z2. exact H3.
Qed.
Lemma inside_stable : forall u i v n, stable calm2 keptB (inside u i v n).
Proof.
  intros u i v n s s' new (H1 & (H2 & m & l3 & H3 & H4 & H5) & H6) Ht Hn Hf.
  assert (F : keptA (s_o s') = keptA (s_o s)) by (unfold keptA, keptB in *; congruence).
  assert (Fu : o_unchanged (s_o s') = o_unchanged (s_o s)) by (unfold keptB in Hf; congruence).
  assert (Fv : view2 (s_o s') = view2 (s_o s)) by (unfold keptB in Hf; congruence).
  split; [eapply between_stable; eauto|]. split.
  - split; [congruence|]. exists (new ++ m), l3. split; [rewrite Ht, H3, app_assoc; reflexivity|]. split; [|exact H5].
    rewrite begun_app, H4, app_nil_r. apply calm_zero; auto.
  - intros md x Hx. rewrite Fv in Hx. eauto.
Qed.
Lemma b_calm : forall u n A (m : OM A), emits calm2 m -> keeps keptA m -> hoare (between u n) m (fun _ => between u n).
Proof. intros. eapply h_stable; eauto using between_stable, between_all. Qed.
Lemma i_calm : forall u i v n A (m : OM A), emits calm2 m -> keeps keptB m -> hoare (inside u i v n) m (fun _ => inside u i v n).
Proof. intros. eapply h_stable; eauto using inside_stable, inside_all. Qed.
Lemma kB_obs : forall f, (forall ob, h2 (f ob) = h2 ob) -> keeps keptB (obs f).
Proof. intros f H s. unfold keptB, view2. simpl. destruct (o_observer (s_o s)); simpl; [rewrite H|]; reflexivity. Qed.
Lemma h2_upd2 : forall f ob, (forall x, s2_unchanged (f x) = s2_unchanged x) -> h2 (upd_stage2 f ob) = h2 ob.
Proof.
  intros f ob H. unfold upd_stage2. destruct (should_observe_stage2 ob); auto.
  destruct (ob_stage2 ob) eqn:Hs; auto. unfold h2. simpl. rewrite H, Hs. reflexivity.
Qed.
Lemma h2_any : forall f ob, (forall x, s2_unchanged (f x) = s2_unchanged x) -> h2 (upd_stage2_any f ob) = h2 ob.
Proof. intros f ob H. unfold upd_stage2_any. destruct (ob_stage2 ob) eqn:Hs; auto. unfold h2. simpl. rewrite H, Hs. reflexivity. Qed.
Lemma best_unchanged : forall v p x, s2_unchanged (s2_set_best_solution v p x) = s2_unchanged x.
Proof. intros. unfold s2_set_best_solution. destruct (is_nan _ || _); reflexivity. Qed.
Ltac unch := intro; cbv zeta; repeat match goal with
  | |- context [match ?x with Some _ => _ | None => _ end] => destruct x
  end; simpl; rewrite ?best_unchanged; try reflexivity.
Ltac kb := repeat match goal with
  | |- keeps _ (obs (upd_stage2 _)) => apply kB_obs; intro; apply h2_upd2; unch
  | |- keeps _ (obs (upd_stage2_any _)) => apply kB_obs; intro; apply h2_any; unch
  | _ => kp1
  end.
Lemma kB_search : forall b n, keeps keptB (obs_search b n). Proof. intros. unfold obs_search. kb. Qed.
Lemma kB_process : forall x, keeps keptB (process_local_solution E x).
Proof. intro. unfold process_local_solution, set_solutions, set_threshold, add_to_filter. kb. Qed.
Ltac kbm := repeat match goal with
  | |- keeps _ (obs_search _ _) => apply kB_search
  | |- keeps _ (process_local_solution _ _) => apply kB_process
  | |- keeps _ (set_threshold _) => apply k_threshold; reflexivity
  | _ => progress kb
  end.
Ltac ic := apply i_calm; [parts|kbm].
Ltac is := eapply h_bind; [ic|intro].
Ltac bc := apply b_calm; [parts|parts].
Ltac bs := eapply h_bind; [bc|intro].
Lemma b_ret : forall u n A (a : A) (Q : A -> st -> Prop), (forall s, between u n s -> Q a s) -> hoare (between u n) (ret a) Q.
Proof. intros. apply h_ret. eauto using between_all. Qed.

Definition opened (u i : nat) (s : st) : Prop := between u 0 s /\ started u i s.
Lemma c_begin2 : forall u i, hoare (between u 0) (begin_iteration E i u) (fun _ => opened u i).
Proof.
  intros u i s (H1 & H2 & H3 & H4 & H5). unfold begin_iteration, bind, upd, modify, the_oqnlp, get, ret, bind. simpl.
  destruct (add_u64 _ _ _) as [sd|]; simpl; [|split; [exact H1|discriminate]].
  match goal with |- all_shown ?s2 /\ _ => assert (G : opened u i s2) end.
  { split.
    - split; [|split; [exact H2|split; [exact H3|split; [exact H4|exact H5]]]].
      intros [|a l1] e l2 Heq; simpl in Heq; [injection Heq as <- _; exact I|injection Heq as _ Hb; eapply H1; exact Hb].
    - split; [reflexivity|]. exists [], (trace s). split; [reflexivity|]. split; [reflexivity|]. split; [exact H2|].
      rewrite Nat.add_0_r in H3. exact H3. }
  split; [apply G|]. intros a s' Hx. injection Hx as _ <-. exact G.
Qed.
Lemma c_iter2 : forall u i, hoare (opened u i) (obs_iteration i u) (fun _ => inside u i u 0).
Proof.
  intros u i s (H1 & H2). unfold obs_iteration, bind, the_oqnlp, get, ret, bind. simpl.
  match goal with |- all_shown ?s2 /\ _ => assert (G : inside u i u 0 s2) end.
  { split; [exact H1|]. split; [exact H2|]. intros md v. unfold view2. simpl.
    destruct (o_observer (s_o s)) as [ob|]; [|discriminate]. simpl. unfold upd_stage2, should_observe_stage2, h2.
    destruct (ob_mode ob) eqn:Hm; destruct (ob_stage2 ob) as [x|] eqn:Hs; simpl; rewrite ?Hm, ?Hs; simpl; intros Hx Hy; injection Hx; congruence. }
  split; [apply G|]. intros a s' Hx. injection Hx as _ <-. exact G.
Qed.
Lemma c_decide : forall u i p v o b, o_unchanged o = u ->
  hoare (inside u i u 0) (emit [EvDecide i p v o b]) (fun _ => inside u i u (if b then 0 else 1)).
Proof.
  intros u i p v o b Ho s ((H1 & H2 & H3 & H4 & H5) & (H6 & m & l3 & H7 & H8 & H9) & H10).
  match goal with |- all_shown ?s2 /\ _ => assert (G : inside u i u (if b then 0 else 1) s2) end.
  { split; [|split].
    - split; [|split; [exact H2|split; [|split; [exact H4|exact H5]]]].
      + intros [|a l1] e l2 Heq; simpl in Heq; [injection Heq as <- <-|injection Heq as _ Hb; eapply H1; exact Hb].
        simpl. rewrite Ho. split; [exact H2|]. rewrite Nat.add_0_r in H3. exact H3.
      + unfold balanced, rejections, relaxations in *. destruct b; simpl; unfold trace in *; simpl; lia.
    - split; [exact H6|]. exists (EvDecide i p v o b :: m), l3. split; [simpl; unfold trace in *; simpl; rewrite H7; reflexivity|]. auto.
    - exact H10. }
  split; [apply G|]. intros a s' Hx. injection Hx as _ <-. exact G.
Qed.
Lemma c_count2 : forall u i, hoare (inside u i u 1) (count_unchanged u) (fun v => inside u i v 0).
Proof.
  intros u i s ((H1 & H2 & H3 & H4 & H5) & (H6 & m & l3 & H7 & H8 & H9) & H10).
  unfold count_unchanged, adjust_threshold, bind, the_oqnlp, get, ret, bind, upd, modify, emit. simpl. rewrite H4.
  destruct (wc <=? S u) eqn:Hc; simpl.
  - apply Nat.leb_le in Hc.
    match goal with |- all_shown ?s2 /\ _ => assert (G : inside u i 0 0 s2) end.
    { split; [|split; [|exact H10]].
      - split; [|split; [unfold w; lia|split; [|split; [exact H4|exact H5]]]].
        + intros [|a l1] e l2 Heq; simpl in Heq; [injection Heq as <- _; exact I|injection Heq as _ Hb; eapply H1; exact Hb].
        + unfold balanced, rejections, relaxations in *. simpl. unfold trace in *. simpl.
          assert (w wc = S u) by (unfold w in *; lia). nia.
      - split; [exact H6|]. eexists (EvRelax _ :: m), l3. split; [simpl; unfold trace in *; simpl; rewrite H7; reflexivity|]. auto. }
    split; [apply G|]. intros a s' Hx. injection Hx as <- <-. exact G.
  - apply Nat.leb_gt in Hc.
    assert (G : inside u i (S u) 0 s).
    { split; [|split; [|exact H10]].
      - split; [exact H1|]. split; [unfold w; lia|]. split; [|auto]. unfold balanced in *. lia.
      - split; [exact H6|]. exists m, l3. auto. }
    split; [apply G|]. intros a s' Hx. injection Hx as <- <-. exact G.
Qed.
Lemma c_callback2 : forall u i v, hoare (inside u i v 0) (callback_at E i) (fun _ => between v 0).
Proof.
  intros u i v s ((H1 & H2 & H3 & H4 & H5) & (H6 & m & l3 & H7 & H8 & H9) & H10).
  assert (B : between v 0 s) by (split; auto).
  unfold callback_at, callback, bind, the_oqnlp, get, ret, bind. simpl.
  destruct (o_observer (s_o s)) as [ob|] eqn:Ho; [|split; [exact H1|intros a s' Hx; injection Hx as _ <-; exact B]].
  destruct (should_invoke_callback ob i) as [[|]|]; simpl;
    [|split; [exact H1|intros a s' Hx; injection Hx as _ <-; exact B]|split; [exact H1|discriminate]].
  rewrite Ho. destruct (ob_callback ob) as [cb|] eqn:Hc; [|split; [exact H1|intros a s' Hx; injection Hx as _ <-; exact B]].
  destruct (invoke_callback (Env.e_callback E) ob) as [ob' ms]. simpl.
  match goal with |- all_shown ?s2 /\ _ => assert (G : between v 0 s2) end.
  { set (sm := snd (emit [EvCallback (Some i) ob] s)).
    assert (Bm : between v 0 sm).
    { split; [|split; [exact H2|split; [exact H3|split; [exact H4|exact H5]]]].
      intros [|a l1] e l2 Heq; simpl in Heq; [injection Heq as <- <-|injection Heq as _ Hb; eapply H1; exact Hb].
      simpl. intros st Hmd Hst. exists m, l3. split; [exact H7|]. split; [exact H8|].
      replace (s2_unchanged st) with u; [exact H9|]. symmetry.
      apply (H10 (ob_mode ob)); [|exact Hmd]. unfold view2, h2. rewrite Ho. simpl. rewrite Hst. reflexivity. }
    eapply (between_stable v 0 sm _ (rev (map EvPrint ms)) Bm).
    - simpl. unfold trace, sm. simpl. rewrite <- app_assoc. reflexivity.
    - apply Forall_rev, Forall_forall. intros x Hx. apply in_map_iff in Hx as (y & <- & _). exact I.
    - reflexivity. }
  split; [apply G|]. intros a s' Hx. injection Hx as _ <-. exact G.
Qed.
Lemma c_one2 : forall objs i p u, hoare (between u 0) (process_one_seq E objs i p u) (fun r => between (fst r) 0).
Proof.
  intros. unfold process_one_seq. eapply h_bind; [apply c_begin2|intro z1]. eapply h_bind; [apply c_iter2|intro z2].
  eapply h_bind with (Q := fun _ => inside u i u 0). { unfold emit_eval. destruct objs; ic. } intros _.
  is. eapply h_bind with (Q := fun _ => inside u i u 0). { destruct objs; ic. } intros _.
  eapply h_bind with (Q := fun o s => inside u i u 0 s /\ o_unchanged o = u).
  { intros s Hs. split; [eapply inside_all, Hs|]. intros x s' Hx. injection Hx as <- <-. split; [exact Hs|apply Hs]. }
  intro o. cbv zeta. apply h_pre with (X := o_unchanged o = u); [intros s Hs; apply Hs|intro Hou].
  eapply h_weak; [|intros s Hs; exact (proj1 Hs)|intros x s Hx; exact Hx].
  eapply h_bind; [apply c_decide; exact Hou|intro z3].
  eapply h_bind with (Q := fun r => inside u i (fst r) 0).
  - destruct (should_start_local o p a).
    + do 7 is. apply h_ret. eauto using inside_all.
    + eapply h_bind; [apply c_count2|intro v]. apply h_ret. eauto using inside_all.
  - intros [v [|]]; simpl; [apply h_ret; intros s Hs; split; [eapply inside_all, Hs|apply Hs]|].
    eapply h_bind; [apply c_callback2|intro z4]. bs. apply b_ret; auto.
Qed.
Lemma c_seq2 : forall start res objs b u, hoare (between u 0) (process_batch_sequential E start res objs b u) (fun v => between v 0).
Proof.
  intros start res objs b; induction b as [|[i p] b IH]; intros u; simpl; [apply b_ret; auto|].
  destruct (res && (i <? start)); [apply IH|]. eapply h_bind; [apply c_one2|].
  intros [v [|]]; [apply b_ret; auto|apply IH].
Qed.
Definition ended (s : st) : Prop := exists v, between v 0 s.
Lemma c_loop2 : forall size start res objs l u, size <= 1 ->
  hoare (between u 0) (stage2_loop E size start res objs l u) (fun _ => ended).
Proof.
  assert (R : forall u A (a : A), hoare (between u 0) (ret a) (fun _ => ended)) by (intros; apply b_ret; intros; eexists; eauto).
  intros size start res objs l u Hz. revert u. induction l as [|b l IH]; intros u; simpl; [apply R|].
  bs. eapply h_bind with (Q := fun _ => between u 0).
  { destruct (o_max_time a); [|apply b_ret; auto]. do 2 bs. apply b_ret; auto. }
  intros [|]; [apply R|]. bs. eapply h_bind with (Q := fun v => between v 0).
  { rewrite (proj2 (Nat.ltb_ge 1 size) Hz). apply c_seq2. }
  intro v. do 2 bs. match goal with |- HoareP.hoare _ _ (if ?x then _ else _) _ => destruct x end; [apply R|apply IH].
Qed.
Lemma c_stage2' : forall res refs objs u, hoare (between u 0) (stage2_run E res refs objs u) (fun _ => ended).
Proof.
  intros. unfold stage2_run.
  eapply h_bind with (Q := fun _ => between u 0).
  { apply b_calm; [unfold begin_stage2; em|apply k_begin_stage2; auto]. } intros _.
  eapply h_bind with (Q := fun o s => between u 0 s /\ o_parallel o = false).
  { intros s Hs. split; [eapply between_all, Hs|]. intros x s' Hx. injection Hx as <- <-. split; [exact Hs|apply Hs]. }
  intro o. apply h_pre with (X := o_parallel o = false); [intros s Hs; apply Hs|intro Hp].
  eapply h_weak; [|intros s Hs; exact (proj1 Hs)|intros x s Hx; exact Hx].
  eapply h_bind with (Q := fun _ => between u 0).
  { destruct res; [apply b_ret; auto|]. do 2 bs. apply b_ret; auto. }
  intro rs. cbv zeta. eapply h_bind with (Q := fun _ => ended).
  { destruct (_ =? 0); [apply h_panic; intro; apply between_all|apply c_loop2]. unfold batch_size. rewrite Hp. simpl. lia. }
  intros _. intros s (v & Hv).
  assert (G : hoare (between v 0) (bind (maybe_save_final_checkpoint E) (fun _ => final_set)) (fun _ => between v 0)).
  { bs. unfold final_set. bc. }
  destruct (G s Hv) as [G1 G2]. split; [exact G1|]. intros x s' Hx. exists v. eapply G2; eauto.
Qed.
Lemma e_callback_none : emits calm2 (callback E None).
Proof.
  unfold callback. em; try exact I. apply Forall_forall. intros ev [<-|Hx]; [exact I|]. apply in_map_iff in Hx as (y & <- & _). exact I.
Qed.
Lemma c_stage1' : forall u n, hoare (between u n) (stage1_run E) (fun _ => between u n).
Proof.
  intros. apply b_calm; unfold stage1_run, end_stage1, stage1_enter.
  - repeat match goal with |- emits _ (callback _ None) => apply e_callback_none | _ => em1 end; try parts; try side.
  - kp; try parts.
Qed.
End Counter.

Lemma balanced_mod : forall u0 wc u l, u < w wc -> balanced u0 wc u l -> u = (u0 + rejections l) mod w wc.
Proof.
  intros u0 wc u l H1 H2. rewrite H2, Nat.add_comm, Nat.mod_add; [|unfold w; lia]. symmetry. apply Nat.mod_small. exact H1.
Qed.
Theorem c36 : forall E s r s' new, run E s = (r, s') -> recorded s s' new -> o_parallel (s_o s') = false ->
  checkpoints_hold (fun cp => cp_unchanged cp < Nat.max 1 (p_wait_cycle (cp_params cp))) s ->
  exists u0, initial_counter s u0 /\
    (forall l1 i q v o b l2, new = l1 ++ EvDecide i q v o b :: l2 -> o_unchanged o = (u0 + rejections l2) mod cycle (s_o s')) /\
    (forall l1 i ob st l2, new = l1 ++ EvCallback (Some i) ob :: l2 -> ob_mode ob <> Stage1Only -> ob_stage2 ob = Some st ->
       exists m l3, l2 = m ++ EvIteration i :: l3 /\ begun m = [] /\ s2_unchanged st = (u0 + rejections l3) mod cycle (s_o s')).
Proof.
  intros E s r s' new Hrun Hnew Hpar Hcp.
  destruct (run_cases E s r s' new Hrun Hnew) as [(-> & Ho & Hr)|(b & s1 & Ht & Htr & Hb & Hc)].
  { exists 0. split; [left; auto|]. split; intros [|? ?]; intros; discriminate. }
  set (wc := p_wait_cycle (o_params (s_o s1))).
  assert (Hcy : cycle (s_o s') = w wc). { unfold cycle, w, wc. rewrite (proj1 Hc). reflexivity. }
  assert (Hp1 : o_parallel (s_o s1) = false). { destruct Hc as (_ & Hc). revert Hc Hpar. clear. intros. intuition congruence. }
  rewrite Hcy. set (u0 := if b then o_unchanged (s_o s1) else 0).
  assert (Hi : initial_counter s u0 /\ u0 < w wc).
  { destruct b.
    - destruct (run_start_file E _ _ Ht) as (f & content & cp & F1 & F2 & F3).
      split; [right; exists f, content, cp; split; [exact F1|split; [exact F2|]]; unfold u0; rewrite F3; reflexivity|].
      specialize (Hcp f content cp F1 F2). unfold u0, wc. rewrite F3. simpl. auto.
    - split; [left; auto|]. unfold u0, w. lia. }
  destruct Hi as (I1 & I2).
  assert (C : between u0 wc u0 0 s1).
  { split; [|split; [exact I2|split; [|split; [reflexivity|exact Hp1]]]].
    - intros l1 e l2 Hx. rewrite Htr in Hx. destruct l1; discriminate.
    - unfold balanced. rewrite Htr. simpl. unfold relaxations, rejections. simpl. lia. }
  assert (W : all_shown u0 wc (ends s' new)).
  { destruct b; unfold run_rest in Hb.
    - unfold bind, the_oqnlp, get, ret, bind in Hb. simpl in Hb.
      destruct (c_stage2' E u0 wc true (match o_ref (s_o s1) with Some r => r | None => [] end) None (o_unchanged (s_o s1)) s1 C) as [W1 _].
      rewrite Hb in W1. exact W1.
    - assert (W : HoareP.hoare (all_shown u0 wc) (between u0 wc 0 0)
        (bind (stage1_run E) (fun r => match r with None => final_set | Some (refs, objs) => stage2_run E false refs (Some objs) 0 end))
        (fun _ => ended u0 wc)).
      { eapply h_bind; [apply c_stage1'|].
        intros [[refs objs]|]; [apply c_stage2'|]. unfold final_set.
        eapply h_post; [apply b_calm; [em|kp]|intros x y H; eexists; exact H]. }
      destruct (W s1 C) as [W1 _]; rewrite Hb in W1. exact W1. }
  exists u0. split; [exact I1|]. split.
  - intros l1 i q v o bb l2 Hx. destruct (W l1 _ l2 Hx) as [W1 W2]. apply balanced_mod; auto.
  - intros l1 i ob st l2 Hx Hm Hs. destruct (W l1 _ l2 Hx st Hm Hs) as (m & l3 & W1 & W2 & W3 & W4).
    exists m, l3. split; [exact W1|]. split; [exact W2|]. apply balanced_mod; auto.
Qed.

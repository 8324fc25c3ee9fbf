(** * Resuming (C53, C55) *)
From Coq Require Import ZArith NArith List Bool Arith Lia String.
From Verif Require Import F64 F64Order F64Alg F64Real Base Builders Types Filters Runner Observer Env EnvSpec
  ScatterSearch Codec Checkpoint Oqnlp Spec SpecStage2 SpecObserver SpecCheckpoint SpecSave BasicP Wp Actions
  RunP SetP LeaderP FrameP FilterP EmitsP CountP SaveP.
Import ListNotations.

Lemma resumes_fun : forall E s a b, resumes_from E s a -> resumes_from E s b -> a = b.
Proof.
  intros E s a b (c & C1 & C2 & C3 & C4) (d & D1 & D2 & D3 & D4). assert (c = d) by congruence. subst d. congruence.
Qed.
(** the state after the start of a run, and the actions from it *)
Lemma run_from : forall E s r s', run E s = (r, s') ->
  ((forall set, r <> Ok set) /\ s_o s' = s_o s) \/
  exists s1, starts_as E s (s_o s1) /\ trace s1 = trace s /\ same_config (s_o s1) (s_o s') /\
    ((exists K objs, acts E K objs s1 s') \/ (exists K objs s2 K2 objs2, acts E K objs s1 s2 /\ acts E K2 objs2 s2 s')).
Proof.
  intros E s r s' Hrun. destruct (run_acts E s r s' Hrun) as [Hsh _].
  destruct Hsh as [d Hd -> Hr | s1 Hs1 Ha | s1 s2 refs objs Hs1 _ Ha1 Ha2 | s1 refs Hs1 _ Ha].
  - left. rewrite Hrun in Hr. split; [exact Hr|reflexivity].
  - right. exists s1. split; [eapply start_as; eauto|]. split; [inversion Hs1; reflexivity|].
    split; [eapply acts_config; eauto|eauto].
  - right. exists s1. split; [eapply start_as; eauto|]. split; [inversion Hs1; reflexivity|].
    split; [eapply same_config_trans; eapply acts_config; eauto|eauto 10].
  - right. exists s1. split; [eapply start_as; eauto|]. split; [inversion Hs1; reflexivity|].
    split; [eapply acts_config; eauto|eauto].
Qed.
Lemma acts2_leader : forall E s1 s' new, 
  (exists K objs, acts E K objs s1 s') \/ (exists K objs s2 K2 objs2, acts E K objs s1 s2 /\ acts E K2 objs2 s2 s') ->
  trace s' = new ++ trace s1 -> tolerances_ok (s_o s1) -> (forall s0, o_set (s_o s1) = Some s0 -> numeric_set s0) ->
  (forall x, In (EvResult x) new -> number (ls_obj x)) -> leader_ok E s1 s' new.
Proof.
  intros E s1 s' new Ha Hnew Ht1 Hs1 Hnum.
  destruct Ha as [(K & objs & Ha)|(K & objs & s2 & K2 & objs2 & Ha & Ha2)].
  - destruct (acts_leader _ _ _ _ _ Ha Ht1 Hs1) as (n & T & L).
    assert (n = new) by (apply (app_inv_tail (trace s1)); congruence). subst n. auto.
  - destruct (acts_leader _ _ _ _ _ Ha Ht1 Hs1) as (n & T & L).
    destruct (acts_trace _ _ _ _ _ Ha2) as [n2 T2].
    assert (Hn : n2 ++ n = new) by (apply (app_inv_tail (trace s1)); rewrite <- app_assoc; congruence).
    assert (L' : leader_ok E s1 s2 n) by (apply L; intros; apply Hnum; rewrite <- Hn; apply in_or_app; auto).
    pose proof (acts_config _ _ _ _ _ Ha) as Hc.
    destruct (acts_leader _ _ _ _ _ Ha2 (tol_config _ _ Hc Ht1) (lo_numeric _ _ _ _ L')) as (n2' & T2' & L2).
    rewrite T2 in T2'. apply app_inv_tail in T2'. subst n2'.
    rewrite <- Hn. eapply leader_trans; eauto.
    apply L2; intros; apply Hnum; rewrite <- Hn; apply in_or_app; auto.
Qed.
Theorem resumed_no_worse : forall E s set s' new cp s0, run E s = (Ok set, s') -> recorded s s' new ->
  resumes_from E s cp -> wf (cp_abs_tol cp) = true -> wf (cp_rel_tol cp) = true -> fle f0 (cp_abs_tol cp) = true ->
  cp_solution_set cp = Some s0 -> numeric_set s0 -> (forall x, In (EvResult x) new -> number (ls_obj x)) ->
  not_worse set s0.
Proof.
  intros E s set s' new cp s0 Hrun Hnew Hr T1 T2 T3 H0 Hnum0 Hnum.
  pose proof (proj2 (run_acts E s _ s' Hrun) set eq_refl) as Hset.
  destruct (run_from E s _ s' Hrun) as [[H _]|(s1 & Hst & Htr & _ & Ha)]; [exfalso; eapply H; reflexivity|].
  destruct Hst as [[_ Hn]|(cp' & Hr' & Hag)]; [exfalso; eapply Hn; eauto|].
  rewrite (resumes_fun _ _ _ _ Hr' Hr) in Hag. unfold agrees in Hag. decompose [and] Hag.
  assert (Hs : o_set (s_o s1) = Some s0) by congruence.
  destruct (acts2_leader E s1 s' new Ha) as [_ A2 _ _ _].
  - rewrite Htr. exact Hnew.
  - unfold tolerances_ok. repeat split; congruence.
  - intros x Hx. congruence.
  - exact Hnum.
  - destruct (A2 s0 Hs) as (x & Hx & Hw). congruence.
Qed.
(** without auto_resume the settings of a run are those of its start *)
Theorem run_config : forall E s r s', run E s = (r, s') -> (forall c, o_cp (s_o s) = Some c -> cc_auto_resume c = false) ->
  same_config (s_o s) (s_o s').
Proof.
  intros E s r s' Hrun Hc. destruct (run_from E s r s' Hrun) as [[_ ->]|(s1 & Hst & _ & Hcfg & _)]; [apply same_config_refl|].
  destruct Hst as [[Ho _]|(cp & (c & H1 & H2 & _) & _)]; [rewrite <- Ho; exact Hcfg|].
  rewrite (Hc c H1) in H2. discriminate.
Qed.
Lemma on_disk_o : forall A (m : DM A) s r s', on_disk m s = (r, s') -> s_o s' = s_o s.
Proof.
  intros A m s r s' H. unfold on_disk in H. destruct (m (w_disk (s_w s))) as [[x|x|] d]; injection H; intros; subst; reflexivity.
Qed.
Lemma expand_o : forall E refs a b s r s', expand_reference_set E refs a b s = (r, s') -> s_o s' = s_o s.
Proof.
  intros E refs a b s r s' H. unfold expand_reference_set in H.
  destruct (b <=? a); [unfold ret in H; injection H; intros; subst; reflexivity|].
  unfold bind, the_oqnlp, get, ret, tick, unwrap, bind, panic, fail in H. cbn [s_o s_w] in H.
  destruct (add_u64 E (o_seed (s_o s)) (N.of_nat (List.length refs))); [|injection H; intros; subst; reflexivity].
  unfold ret in H. match type of H with context [ss_new ?x ?y ?z] => destruct (ss_new x y z) as [s0|e|] end; try (injection H; intros; subst; reflexivity).
  unfold run_ss in H. match type of H with context [diversify_reference_set ?x ?y ?z ?w] => destruct (diversify_reference_set x y z w) as [[x1|e1|] s2] end;
    unfold bind, emit, modify, ret, fail, panic in H; cbn in H; injection H; intros; subst; reflexivity.
Qed.
Theorem modified_spec : forall E np s s1, resume_with_modified_params E np s = (Ok true, s1) ->
  exists c cp refs, o_cp (s_o s) = Some c /\ fst (checkpoint_exists E c (w_disk (s_w s))) = Ok true /\
    fst (load_latest E c (snd (checkpoint_exists E c (w_disk (s_w s))))) = Ok cp /\
    s_o s1 = restored (cp_with np refs cp) (s_o s).
Proof.
  intros E np s s1 H. unfold resume_with_modified_params in H. unfold bind at 1 in H. unfold the_oqnlp, bind, get, ret in H.
  destruct (o_cp (s_o s)) as [c|] eqn:Hc; [|discriminate]. exists c.
  destruct (on_disk (checkpoint_exists E c) s) as [[ex|e|] sa] eqn:H1; try discriminate.
  destruct ex; [|discriminate].
  destruct (on_disk (load_latest E c) sa) as [[cp|e|] sb] eqn:H2; try discriminate.
  pose proof (on_disk_o _ _ _ _ _ H1) as O1. pose proof (on_disk_o _ _ _ _ _ H2) as O2.
  assert (X1 : fst (checkpoint_exists E c (w_disk (s_w s))) = Ok true /\ w_disk (s_w sa) = snd (checkpoint_exists E c (w_disk (s_w s)))).
  { unfold on_disk in H1. destruct (checkpoint_exists E c (w_disk (s_w s))) as [[x|x|] d]; try discriminate.
    injection H1; intros; subst; split; reflexivity. }
  destruct X1 as [X1 X2].
  assert (X3 : fst (load_latest E c (w_disk (s_w sa))) = Ok cp).
  { unfold on_disk in H2. destruct (load_latest E c (w_disk (s_w sa))) as [[x|x|] d]; try discriminate.
    injection H2; intros; subst; reflexivity. }
  cbv zeta in H.
  assert (G : forall m sc rr, m sb = (rr, sc) -> s_o sc = s_o sb -> (match rr with Ok refs => bind (restore_from_checkpoint (cp_with np refs cp)) (fun _ => ret true) sc
      | Err e => (Err e, sc) | Panic => (Panic, sc) end = (Ok true, s1)) ->
      exists refs, s_o s1 = restored (cp_with np refs cp) (s_o s)).
  { intros m sc rr _ Ho Hx. destruct rr as [refs|e|]; try discriminate.
    unfold bind, restore_from_checkpoint, upd, modify, ret in Hx. cbn in Hx. injection Hx as <-. exists refs. cbn. congruence. }
  destruct (p_population (cp_params cp) <? p_population np).
  - destruct (expand_reference_set E (cp_reference_set cp) (p_population (cp_params cp)) (p_population np) sb) as [rr sc] eqn:He.
    destruct (G _ sc rr He (expand_o _ _ _ _ _ _ _ He)) as [refs Hr]; [|exists cp, refs; rewrite <- X2; auto].
    destruct rr; exact H.
  - destruct (G (ret (cp_reference_set cp)) sb (Ok (cp_reference_set cp)) eq_refl eq_refl) as [refs Hr]; [|exists cp, refs; rewrite <- X2; auto].
    exact H.
Qed.
Theorem modified_run : forall E np s s1 r s', resume_with_modified_params E np s = (Ok true, s1) ->
  (forall c, o_cp (s_o s) = Some c -> cc_auto_resume c = false) -> run E s1 = (r, s') -> o_params (s_o s') = np.
Proof.
  intros E np s s1 r s' H Hc Hrun. destruct (modified_spec E np s s1 H) as (c & cp & refs & _ & _ & _ & Ho).
  assert (Hcfg : same_config (s_o s1) (s_o s')).
  { eapply run_config; eauto. rewrite Ho. exact Hc. }
  destruct Hcfg as [-> _]. rewrite Ho. reflexivity.
Qed.

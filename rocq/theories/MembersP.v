(** * Facts about the members of every stored solution set, over whole sessions

    [G]: a fact that holds of every result of a local search with a solver type in [T]; then
    it holds of every member of every set that is stored, saved or returned. *)
From Coq Require Import ZArith NArith List Bool Arith Lia String.
From Verif Require Import F64 Base Builders Types Filters Runner Observer Env EnvSpec ScatterSearch Codec Checkpoint
  Oqnlp Spec SpecStage1 SpecStage2 SpecObserver SpecCheckpoint SpecPanic SpecSession Wp Actions RunP SetP FrameP CheckpointP ResumeP NoPanicP SessionP.
Import ListNotations.

Section Members.
Context (T : solver_type -> Prop) (G : lsol -> Prop).
Definition results_hold (E : env) : Prop :=
  forall ty cfg p track sol n, T ty -> solve_tracked E ty cfg p track = Ok (sol, n) -> G sol.
Definition fits (ec : env * call) : Prop :=
  match snd ec with
  | CRun => results_hold (fst ec)
  | CNew p | CResumeWith p | CResumeFile _ p => T (p_solver_type p)
  | _ => True
  end.
Definition kept (o : oqnlp) : Prop :=
  T (o_solver_type o) /\ T (p_solver_type (o_params o)) /\ forall set, o_set o = Some set -> Forall G set.
Definition kept_cp (cp : checkpoint) : Prop :=
  T (p_solver_type (cp_params cp)) /\ forall set, cp_solution_set cp = Some set -> Forall G set.
Lemma kept_snapshot o cp : kept o -> snapshot o cp -> kept_cp cp.
Proof. intros (G1 & G2 & G3) (S1 & _ & _ & S4 & _). unfold kept_cp. rewrite S1, S4. auto. Qed.
Lemma kept_restore o cp : T (o_solver_type o) -> kept_cp cp -> kept (restored cp o).
Proof. intros H [K1 K2]. split; [exact H|]. split; [exact K1|exact K2]. Qed.
Lemma kept_config o o' : same_config o o' -> o_set o' = o_set o -> kept o -> kept o'.
Proof.
  intros H Hs (G1 & G2 & G3). destruct H as (H1 & H2 & H3 & _). unfold kept. rewrite Hs. split; [congruence|]. split; [congruence|auto].
Qed.
Definition kept_st (s : st) : Prop :=
  kept (s_o s) /\ (forall f cp, In (EvSave f cp) (w_trace (s_w s)) -> kept_cp cp) /\ (saves_fit s -> checkpoints_hold kept_cp s).
Lemma kept_act E K objs s s' : results_hold E -> act E K objs s s' -> kept_st s -> kept_st s'.
Proof.
  intros HE A (G1 & G2 & G3). pose proof (act_config _ _ _ _ _ A) as Hc. pose proof (act_trace _ _ _ _ _ A) as [new Ht].
  assert (G1' : kept (s_o s')).
  { destruct (act_set _ _ _ _ _ A) as (nw & _ & [[H _]|(sol & it & p & set & Q1 & Q2 & Q3 & H & _ & _ & _ & Tr)]).
    - eapply kept_config; eauto.
    - destruct G1 as (T1 & T2 & G1). destruct Hc as (H1 & H2 & _). split; [congruence|]. split; [congruence|].
      intros x Hx. rewrite H in Hx. injection Hx as <-.
      assert (Gs : G sol) by (destruct Q3 as (ty & cfg & tr & n & Hs & [[-> ->]|[-> ->]]); [exact (HE _ _ _ _ _ _ T1 Hs)|exact (HE _ _ _ _ _ _ T2 Hs)]).
      destruct Tr; [constructor; auto|constructor; auto|]. apply Forall_app. split; [apply G1; assumption|constructor; auto]. }
  assert (Fit0 : saves_fit s' -> saves_fit s) by (intros F f cp I'; eapply (fit_back s' new); eauto).
  split; [exact G1'|].
  destruct A; try (split; [exact G2|intros F; exact (G3 (Fit0 F))]);
    try (split; [intros f cp [I'|I']; [discriminate I'|eapply G2; exact I']|intros F; exact (G3 (Fit0 F))]).
  - split; [intros f cp [I'|I']; [subst e; discriminate|eapply G2; exact I']|intros F; exact (G3 (Fit0 F))].
  - split; [intros f cp I'; eapply G2; eapply pls_saves; exact I'|]. intros F f b cp I'. rewrite pls_disk in I'. apply (G3 (Fit0 F) f b cp I').
  - split; [|intros F; exact (G3 (Fit0 F))]. intros f0 cp0 [I'|I']; [|eapply G2; exact I']. inversion I'; subst. eapply kept_snapshot; eauto.
  - split; [exact G2|]. intros F f b cp0 I' Dec. simpl in I'. pose proof (G3 (Fit0 F)) as K0. subst d.
    destruct (save_files E c cp i (w_disk (s_w s))) as [Sf|[k Sf]]; rewrite Sf in I'; [apply (K0 f b cp0 I' Dec)|].
    unfold put_file in I'. apply in_app_or in I' as [I'|[I'|[]]].
    + unfold remove_file in I'. apply filter_In in I' as [I' _]. apply (K0 f b cp0 I' Dec).
    + inversion I'; subst. destruct (torn cp k (F _ _ H)) as [X|X]; rewrite X in Dec; inversion Dec; subst. eapply G2; eauto.
  - split; [exact G2|]. intros F f b cp I'. simpl in I'. rewrite H in I'. apply (G3 (Fit0 F) f b cp I').
Qed.

Lemma kept_acts E K objs s s' : results_hold E -> acts E K objs s s' -> kept_st s -> kept_st s'.
Proof. intros HE A. induction A as [s|s s1 s' H _ IH]; auto. intros X. apply IH. eapply kept_act; eauto. Qed.
Lemma kept_from s (f : checkpoint -> checkpoint -> Prop) s' :
  (forall cp cp', kept_cp cp -> f cp cp' -> kept_cp cp') -> kept_st s -> calm s s' -> from_file s f (s_o s') -> saves_fit s' -> kept_st s'.
Proof.
  intros Hf (G1 & G2 & G3) Hc Hfile Fit. split; [|split].
  - destruct Hfile as [->|(n & b & cp & cp' & I1 & I2 & I3 & ->)]; [exact G1|]. apply kept_restore; [apply G1|].
    eapply Hf; [|exact I3]. eapply (G3 (calm_fit _ _ Hc Fit)); eauto.
  - intros g cp I'. destruct Hc as [_ (new & Ht & Hn)]. rewrite Ht in I'. apply in_app_or in I' as [I'|I']; [destruct (Hn _ _ I')|eauto].
  - exact (calm_disk _ _ _ Hc G3).
Qed.
Lemma kept_start E s b s1 : run_start E s b s1 -> saves_fit s1 -> kept_st s -> kept_st s1.
Proof.
  intros R F X. assert (C : calm s s1).
  { inversion R; subst; (split; [assumption|exists []; split; [reflexivity|intros ? ? []]]). }
  apply (kept_from s eq s1); auto; [intros cp cp' K <-; exact K|]. destruct b.
  - destruct (run_start_file _ _ _ R) as (n & c & cp & H1 & H2 & H3). right. exists n, c, cp, cp. auto.
  - left. eapply run_start_fresh; eauto.
Qed.
Lemma kept_run E s r s' : results_hold E -> run E s = (r, s') -> saves_fit s' -> kept_st s -> kept_st s'.
Proof.
  intros HE H F X. destruct (run_acts E s r s' H) as [Hsh _].
  assert (Back : forall K objs a b, acts E K objs a b -> saves_fit b -> saves_fit a).
  { intros K objs a b A Fb f cp I'. destruct (acts_trace _ _ _ _ _ A) as [new Ht]. eapply (fit_back b new); eauto. }
  destruct Hsh as [dd Hd -> _ | s1 Hs1 Ha | s1 s2 refs objs Hs1 _ Ha1 Ha2 | s1 refs Hs1 _ Ha].
  - destruct X as (G1 & G2 & G3). split; [exact G1|]. split; [exact G2|]. intros F' f b cp I'. simpl in I'. rewrite Hd in I'. apply (G3 F' f b cp I').
  - eapply kept_acts; [eassumption|eassumption|]. eapply kept_start; eauto.
  - eapply kept_acts; [eassumption|eassumption|]. eapply kept_acts; [eassumption|eassumption|]. eapply kept_start; eauto.
  - eapply kept_acts; [eassumption|eassumption|]. eapply kept_start; eauto.
Qed.
Lemma kept_change np cp cp' : T (p_solver_type np) -> kept_cp cp -> changed_to np cp cp' -> kept_cp cp'.
Proof. intros H [G1 G2] [refs ->]. split; [exact H|exact G2]. Qed.
Lemma kept_files s s' : s_o s' = s_o s -> w_trace (s_w s') = w_trace (s_w s) ->
  (forall f b cp, In (f, b) (d_files (w_disk (s_w s'))) -> decode_checkpoint b = Some cp -> exists g, In (g, b) (d_files (w_disk (s_w s)))) ->
  kept_st s -> kept_st s'.
Proof.
  intros H1 H2 H3 (G1 & G2 & G3). split; [rewrite H1; exact G1|]. split; [rewrite H2; exact G2|].
  intros F f b cp I1 I2. destruct (H3 f b cp I1 I2) as [g I3]. eapply G3; eauto. intros f' cp' I4. apply (F f' cp'). congruence.
Qed.
Lemma kept_fresh p o : oq_new p = Ok o -> T (p_solver_type p) -> kept o.
Proof.
  intros H Hd. unfold oq_new in H. repeat match type of H with (if ?b then _ else _) = _ => destruct b; [discriminate|] end.
  destruct (df_new _) as [df|v]; [|discriminate]. inversion H; subst. split; [exact Hd|]. split; [exact Hd|]. intros set Hs. discriminate Hs.
Qed.
Lemma kept_step E c s s' : does E c s s' -> fits (E, c) -> saves_fit s' -> kept_st s -> kept_st s'.
Proof.
  intros D T2 Fit X. unfold fits in T2. destruct D as [p o s H|ob s|t s|n s|b s|t s|b s|a r s|l o s H|c s r s' H|s r s' H|s r s' H|np s r s' H|f np s r s' H|c n s r s' H|f b s H|f s];
    simpl in T2; try exact X.
  - destruct X as [_ X]. split; [eapply kept_fresh; eauto|exact X].
  - unfold with_points in H. destruct (check_points (pb_bounds (e_problem E)) 0 l) as [[]|e|] eqn:Hp; try discriminate.
    inversion H; subst. exact X.
  - apply checkpointing_effect in H as [Hc Ho]. destruct X as (G1 & G2 & G3). split; [destruct Ho as [->| ->]; exact G1|].
    split; [|exact (calm_disk _ _ _ Hc G3)]. intros g cp I'. destruct Hc as [_ (new & Ht & Hn)]. rewrite Ht in I'.
    apply in_app_or in I' as [I'|I']; [destruct (Hn _ _ I')|eauto].
  - eapply kept_run; eauto.
  - apply try_effect in H as [H1 H2]. eapply kept_from; eauto. intros cp cp' K <-. exact K.
  - apply modified_effect in H as [H1 H2]. eapply kept_from; eauto. intros cp cp' K. apply kept_change; assumption.
  - apply file_effect in H as [H1 H2]. eapply kept_from; eauto. intros cp cp' K. apply kept_change; assumption.
  - apply cleanup_effect in H as (H1 & H2 & H3). eapply kept_files; eauto.
  - eapply (kept_files s); [reflexivity|reflexivity| |exact X]. simpl. intros f' b' cp I1 I2.
    unfold put_file in I1. apply in_app_or in I1 as [I1|[I1|[]]]; [|inversion I1; subst; congruence].
    unfold remove_file in I1. apply filter_In in I1 as [I1 _]. eauto.
  - eapply (kept_files s); [reflexivity|reflexivity| |exact X]. simpl. intros f' b' cp I1 I2.
    unfold remove_file in I1. apply filter_In in I1 as [I1 _]. eauto.
Qed.
Theorem session_members : forall p l s0 s, begins p s0 -> T (p_solver_type p) -> session l s0 s ->
  Forall fits l -> saves_fit s -> kept_st s.
Proof.
  intros p l s0 s (B1 & B2 & B3) Hd Hs Hl Fit. induction Hs as [s|l E c s s1 s2 Hs IH D].
  - split; [eapply kept_fresh; eauto|]. split; [rewrite B2; intros f cp []|]. intros _ f b cp I1 I2. destruct (B3 f b cp I1 I2).
  - inversion Hl; subst. eapply kept_step; eauto. apply IH; auto. eapply does_fit; eauto.
Qed.
End Members.

(** * Lemmas about observers (C38, C39, C41, C65) *)
From Coq Require Import ZArith NArith List Bool Arith Lia String.
From Verif Require Import F64 F64Order Base Builders Types Filters Runner Observer Env EnvSpec
  ScatterSearch Codec Checkpoint Oqnlp Spec SpecStage2 SpecObserver SimP ObsFreeP.
Import ListNotations.

(** ** C38 *)
Lemma c38 : forall E s ob r s' r' t', callbacks_ok E ->
  (forall o, o_observer (s_o s) = Some o -> ob_frequency o <> 0) ->
  (forall o, ob = Some o -> ob_frequency o <> 0) ->
  run E s = (r, s') -> run E (observed_by ob s) = (r', t') ->
  r' = r /\ set_o_observer None (s_o t') = set_o_observer None (s_o s') /\ w_disk (s_w t') = w_disk (s_w s').
Proof.
  intros E s ob r s' r' t' Hc H1 H2 R1 R2.
  destruct (b_run E Hc s (observed_by ob s)) as [G1 ((ob' & G2) & _ & _ & G3 & _)].
  { split; [exists ob; reflexivity|]. repeat split; auto. }
  rewrite R1, R2 in *. simpl in *. apply vrel_eq_inv in G1. subst. split; [auto|]. split; [|auto]. rewrite G2.
  destruct (s_o s'); reflexivity.
Qed.

(** ** C39 *)
Lemma counters1 : forall h s, s1_evals s <= s1_evals (fold_left do1 h s) /\ s1_trials s <= s1_trials (fold_left do1 h s).
Proof.
  induction h as [|c h IH]; intro s; [simpl; lia|]. simpl. destruct (IH (do1 s c)) as [G1 G2].
  assert (s1_evals s <= s1_evals (do1 s c) /\ s1_trials s <= s1_trials (do1 s c)); [|lia].
  destruct c; simpl; unfold s1_set_best_objective, s1_set_best_solution; try destruct (_ || _); simpl; lia.
Qed.
Lemma counters2 : forall h s, let s' := fold_left do2 h s in
  s2_evals s <= s2_evals s' /\ s2_calls s <= s2_calls s' /\ s2_improved s <= s2_improved s' /\
  s2_improved s' + s2_calls s <= s2_improved s + s2_calls s'.
Proof.
  induction h as [|c h IH]; intro s; [simpl; lia|]. simpl. destruct (IH (do2 s c)) as (G1 & G2 & G3 & G4).
  assert (s2_evals s <= s2_evals (do2 s c) /\ s2_calls s <= s2_calls (do2 s c) /\ s2_improved s <= s2_improved (do2 s c) /\
    s2_improved (do2 s c) + s2_calls s <= s2_improved s + s2_calls (do2 s c)); [|lia].
  destruct c as [?|v|v ?|?|?|[|]|?|?|?]; simpl; unfold s2_set_best_objective, s2_set_best_solution; try (destruct (is_nan (s2_best s) || flt v (s2_best s))); simpl; lia.
Qed.
(** keeping the least value *)
Definition keep (b v : f64) : f64 := if is_nan b || flt v b then v else b.
Lemma keep1 : forall h s, s1_best (fold_left do1 h s) = fold_left keep (reported1 h) (s1_best s).
Proof.
  induction h as [|c h IH]; intro s; [reflexivity|]. simpl. rewrite IH.
  destruct c; simpl; auto; unfold s1_set_best_objective, s1_set_best_solution, keep; destruct (_ || _); reflexivity.
Qed.
Lemma keep2 : forall h s, s2_best (fold_left do2 h s) = fold_left keep (reported2 h) (s2_best s).
Proof.
  induction h as [|c h IH]; intro s; [reflexivity|]. simpl. rewrite IH.
  destruct c; simpl; auto; unfold s2_set_best_objective, s2_set_best_solution, keep; destruct (_ || _); reflexivity.
Qed.
Lemma keep_step : forall vs b v, best_of vs b -> best_of (vs ++ [v]) (keep b v).
Proof.
  intros vs b v H. unfold keep. destruct (is_nan b || flt v b) eqn:Hc.
  - destruct (is_nan v) eqn:Hv.
    + left. split; [auto|]. destruct H as [[H1 H2]|[H1 _]].
      * intros w Hw. apply in_app_or in Hw as [Hw|[<-|[]]]; auto.
      * rewrite H1 in Hc. simpl in Hc. apply flt_nan_l in Hc. congruence.
    + right. split; [auto|]. split; [apply in_or_app; simpl; auto|]. intros w Hw. apply in_app_or in Hw as [Hw|[<-|[]]]; [|apply flt_irrefl].
      destruct (flt w v) eqn:Hwv; [|auto]. destruct H as [[H1 H2]|(H1 & _ & H3)].
      * apply flt_nan_l in Hwv. rewrite (H2 w Hw) in Hwv. discriminate.
      * rewrite H1 in Hc. simpl in Hc. rewrite <- (H3 w Hw). symmetry. eapply flt_trans; eauto.
  - apply orb_false_iff in Hc as [H1 H2]. destruct H as [[H3 _]|(H3 & H4 & H5)]; [congruence|].
    right. split; [auto|]. split; [apply in_or_app; auto|]. intros w Hw. apply in_app_or in Hw as [Hw|[<-|[]]]; auto.
Qed.
Lemma keep_all : forall vs, best_of vs (fold_left keep vs (NaN false)).
Proof.
  assert (G : forall vs pre b, best_of pre b -> best_of (pre ++ vs) (fold_left keep vs b)).
  { induction vs as [|v vs IH]; intros pre b H; simpl; [rewrite app_nil_r; auto|].
    replace (pre ++ v :: vs) with ((pre ++ [v]) ++ vs) by (rewrite <- app_assoc; reflexivity). apply IH, keep_step, H. }
  intro vs. apply (G vs [] (NaN false)). left. split; [reflexivity|]. intros v [].
Qed.
Lemma keep_down : forall vs b, is_nan b = false -> fle (fold_left keep vs b) b = true.
Proof.
  induction vs as [|v vs IH]; intros b H; simpl; [apply fle_refl; auto|].
  assert (Hk : is_nan (keep b v) = false /\ fle (keep b v) b = true).
  { unfold keep. rewrite H. simpl. destruct (flt v b) eqn:Hv; [|auto using fle_refl].
    split; [eapply flt_nan_l; eauto|apply flt_fle; auto]. }
  destruct Hk as [K1 K2]. eapply fle_trans; [apply IH; auto|auto].
Qed.
Lemma best1 : forall h, best_of (reported1 h) (s1_best (fold_left do1 h s1_new)).
Proof. intro h. rewrite keep1. apply keep_all. Qed.
Lemma best2 : forall h, best_of (reported2 h) (s2_best (fold_left do2 h s2_new)).
Proof. intro h. rewrite keep2. apply keep_all. Qed.
Lemma down1 : forall h s, is_nan (s1_best s) = false -> fle (s1_best (fold_left do1 h s)) (s1_best s) = true.
Proof. intros h s. rewrite keep1. apply keep_down. Qed.
Lemma down2 : forall h s, is_nan (s2_best s) = false -> fle (s2_best (fold_left do2 h s)) (s2_best s) = true.
Proof. intros h s. rewrite keep2. apply keep_down. Qed.

(** ** C41 *)
Definition traits (o : observer) : bool * bool * bool * bool :=
  (match ob_stage1 o with Some _ => true | None => false end, match ob_stage2 o with Some _ => true | None => false end,
   ob_stage1_completed o, ob_stage2_started o).
Lemma traits_step : forall user o c, only_looks user -> traits (odo user o c) =
  match traits o, c with
  | (_, b, d, e), TrackStage1 => (true, b, d, e)
  | (a, _, d, e), TrackStage2 => (a, true, d, e)
  | (a, b, _, e), Stage1Complete => (a, b, true, e)
  | (a, b, d, _), Stage2Started => (a, b, d, true)
  | t, _ => t
  end.
Proof.
  intros user o c Hu. unfold traits. destruct c; simpl; try reflexivity.
  - unfold with_callback_frequency. destruct (ob_callback o); reflexivity.
  - unfold upd_stage1, should_observe_stage1. destruct o as [m s1 s2 ? ? ? ? ? ? ?]; simpl. destruct m, s1; reflexivity.
  - unfold upd_stage2, should_observe_stage2. destruct o as [m s1 s2 ? ? ? ? ? ? ?]; simpl. destruct m, s2; reflexivity.
  - unfold invoke_callback. destruct (ob_callback o) as [[n| | |]|] eqn:Hc; simpl; try reflexivity.
    + rewrite Hu. reflexivity.
    + unfold default_callback. destruct (match obs_stage1 o with Some s => _ | None => _ end); [reflexivity|].
      destruct (obs_stage2 o); [|reflexivity]. destruct (0 <? s2_iteration s); [|reflexivity].
      destruct (ob_filter o); reflexivity.
Qed.
Definition has (c : ocall) (h : list ocall) : Prop := In c h.
Lemma traits_all : forall user h o a b d e, only_looks user -> traits o = (a, b, d, e) ->
  exists a' b' d' e', traits (fold_left (odo user) h o) = (a', b', d', e') /\
    (a' = true <-> a = true \/ In TrackStage1 h) /\ (b' = true <-> b = true \/ In TrackStage2 h) /\
    (d' = true <-> d = true \/ In Stage1Complete h) /\ (e' = true <-> e = true \/ In Stage2Started h).
Proof.
  intros user h. induction h as [|c h IH]; intros o a b d e Hu Ht.
  - exists a, b, d, e. simpl. repeat split; auto; intros [G|[]]; auto.
  - simpl. pose proof (traits_step user o c Hu) as Hs. rewrite Ht in Hs.
    destruct (traits (odo user o c)) as [[[a1 b1] d1] e1] eqn:Ht1.
    destruct (IH _ _ _ _ _ Hu Ht1) as (a' & b' & d' & e' & Hf & Ha & Hb & Hd & He).
    exists a', b', d', e'. split; [auto|]. rewrite Ha, Hb, Hd, He.
    destruct c; injection Hs as -> -> -> ->; repeat split; (intros [G|G]; [auto|try destruct G as [G|G]; auto; try discriminate G]).
Qed.
Lemma c41 : forall user h, only_looks user -> let o := after user h in
  ((exists s, obs_stage1 o = Some s) <-> In TrackStage1 h /\ ~ In Stage1Complete h) /\
  ((exists s, obs_stage1_final o = Some s) <-> In TrackStage1 h) /\
  ((exists s, obs_stage2 o = Some s) <-> In TrackStage2 h /\ In Stage2Started h).
Proof.
  intros user h Hu o. destruct (traits_all user h obs_new false false false false Hu eq_refl) as (a & b & d & e & Ht & Ha & Hb & Hd & He).
  fold o in Ht. change (fold_left (odo user) h obs_new) with o in Ht. unfold traits in Ht. injection Ht as T1 T2 T3 T4.
  assert (F : forall (x : bool) P, (x = true <-> false = true \/ P) -> (x = true <-> P)).
  { intros x P H. rewrite H. split; [intros [G|G]; [discriminate G|auto]|auto]. }
  apply F in Ha, Hb, Hd, He. unfold obs_stage1, obs_stage1_final, obs_stage2. rewrite T3, T4.
  split; [split|split; [split|split]].
  - intros [s Hs]. destruct d; [discriminate|]. split.
    + apply Ha. rewrite <- T1, Hs. reflexivity.
    + intro G. apply Hd in G. discriminate.
  - intros [G1 G2]. apply Ha in G1. destruct d; [exfalso; apply G2, Hd; reflexivity|]. rewrite G1 in T1.
    destruct (ob_stage1 o); [eauto|discriminate].
  - intros [s Hs]. apply Ha. rewrite <- T1, Hs. reflexivity.
  - intro G1. apply Ha in G1. rewrite G1 in T1. destruct (ob_stage1 o); [eauto|discriminate].
  - intros [s Hs]. destruct e; [|discriminate]. split; [apply Hb; rewrite <- T2, Hs|apply He]; reflexivity.
  - intros [G1 G2]. apply He in G2. apply Hb in G1. subst. rewrite G2. destruct (ob_stage2 o); [eauto|discriminate].
Qed.

(** ** C65 *)
Lemma changed_iff : forall p s, has_changed (prev_of p) s = false <-> same_line p s.
Proof.
  intros p s. unfold has_changed, prev_of, same_line. simpl.
  rewrite !orb_false_iff, !negb_false_iff, !Nat.eqb_eq. tauto.
Qed.
Lemma c65_lines : forall user states o, ob_callback o = Some CbDefault -> ob_filter o = true -> ob_stage2_started o = true ->
  obs_stage1 o = None -> forall prev, ob_previous o = option_map prev_of prev ->
  exists out, lines prev states out /\ shown user o states = map MsgStage2 out.
Proof.
  intros user states. induction states as [|s r IH]; intros o Hc Hf H2 H1 prev Hp; [exists []; split; [constructor|reflexivity]|].
  simpl. unfold invoke_callback. cbn [set_stage2 ob_callback]. rewrite Hc. unfold default_callback.
  assert (Q1 : obs_stage1 (set_stage2 (Some s) o) = None) by exact H1. rewrite Q1.
  assert (Q2 : obs_stage2 (set_stage2 (Some s) o) = Some s) by (unfold obs_stage2; simpl; rewrite H2; reflexivity). rewrite Q2.
  assert (Q3 : stage1_callback (set_stage2 (Some s) o) = []) by (unfold stage1_callback; rewrite Q1; reflexivity). rewrite Q3.
  destruct (0 <? s2_iteration s) eqn:Hi.
  - apply Nat.ltb_lt in Hi. cbn [set_stage2 ob_filter ob_previous]. rewrite Hf, Hp.
    destruct (IH (set_previous (prev_of s) (set_stage2 (Some s) o)) Hc Hf H2 H1 (Some s) eq_refl) as (out & L & Sh).
    simpl. rewrite Sh. destruct prev as [p|]; simpl.
    + destruct (has_changed (prev_of p) s) eqn:Hh.
      * exists (s :: out). split; [|reflexivity]. apply LnNew; auto. intros p' Hp' G. injection Hp' as <-. apply changed_iff in G. congruence.
      * exists out. split; [|reflexivity]. apply LnSame; auto. apply changed_iff; auto.
    + exists (s :: out). split; [|reflexivity]. apply LnNew; auto. intros p' Hp'. discriminate.
  - apply Nat.ltb_ge in Hi. destruct (IH (set_stage2 (Some s) o) Hc Hf H2 H1 prev Hp) as (out & L & Sh).
    exists out. split; [apply LnZero; [lia|auto]|]. simpl. exact Sh.
Qed.

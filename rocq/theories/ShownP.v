(** * The Stage 2 state of the observer follows the run (C90) *)
From Coq Require Import ZArith NArith List Bool Arith Lia String.
From Verif Require Import F64 Base Builders Types Filters Runner Observer Env EnvSpec
  ScatterSearch Codec Checkpoint Oqnlp Spec SpecStage2 SpecObserver SpecVerbose SpecShown SolverP Wp Actions RunP SetP FrameP EmitsP FilterP CountP HoareP SeqP SeqP3 AllP CallsP ObserverP.
Import ListNotations.

Section Shown.
Context (E : env) (Hcb : callbacks_keep_stage2 E) (b : option solset) (t0 : f64) (md : obs_mode) (st0 : stage2) (Hmd : md <> Stage1Only) (q : bool).
(** the set in force *)
Fixpoint current (l : list event) : option solset :=
  match l with [] => b | EvSolutionSet x :: _ => Some x | _ :: r => current r end.
Definition watched (o : oqnlp) : option (obs_mode * option stage2) := option_map (fun ob => (ob_mode ob, ob_stage2 ob)) (o_observer o).
Definition vw (o : oqnlp) := (o_set o, mf_threshold (o_merit o), watched o).
Definition still (e : event) : Prop :=
  match e with EvCallback (Some _) _ | EvSolutionSet _ | EvThreshold _ | EvRelax _ | EvIteration _ | EvBatch => False | _ => True end.
Lemma still_all : forall new t, Forall still new ->
  current (new ++ t) = current t /\ threshold_after t0 (new ++ t) = threshold_after t0 t /\ sets_in_stage2 b (new ++ t) = sets_in_stage2 b t /\
  (forall p0, last_added b p0 (new ++ t) = last_added b p0 t) /\ before_iteration (new ++ t) = before_iteration t /\ existsb is_batch (new ++ t) = existsb is_batch t.
Proof.
  clear. intros new t H. induction H as [|e new He H IH]; [repeat split|]. destruct IH as (I1 & I2 & I3 & I4 & I5 & I6).
  destruct e; simpl in *; try contradiction; repeat split; auto.
Qed.
(** what a callback is to see *)
Definition thr_ok (st : stage2) (l : list event) : Prop :=
  s2_threshold st = threshold_after t0 (if q then l else before_iteration l).
Definition right (i : nat) (st : stage2) (l : list event) : Prop :=
  shows_sets st0 st (sets_in_stage2 b l) /\ s2_last_added st = last_added b (s2_last_added st0) l /\ s2_iteration st = i /\ thr_ok st l.
Definition Good (t : list event) : Prop := forall l1 i ob l2, t = l1 ++ EvCallback (Some i) ob :: l2 -> exists st, ob_stage2 ob = Some st /\ right i st l2.
Definition good (s : st) : Prop := Good (trace s).
Definition speechless (e : event) : Prop := match e with EvCallback (Some _) _ => False | _ => True end.
Lemma good_app : forall new t, Forall speechless new -> Good t -> Good (new ++ t).
Proof.
  clear. intros new t H G. induction H as [|e new He H IH]; [exact G|].
  intros [|e' l1] i ob l2 X; simpl in X; injection X as -> X; [destruct He|]. eapply IH; eauto.
Qed.
Lemma still_speechless : forall l, Forall still l -> Forall speechless l.
Proof. clear. intros l H. eapply Forall_impl; [|exact H]. intros [] X; simpl in *; auto. Qed.
(** the invariant: [Z] relates the state shown and the record *)
Definition Inv (Z : stage2 -> list event -> Prop) (s : st) : Prop :=
  good s /\ o_set (s_o s) = current (trace s) /\ mf_threshold (o_merit (s_o s)) = threshold_after t0 (trace s) /\
  exists st, watched (s_o s) = Some (md, Some st) /\ s2_last_added st = last_added b (s2_last_added st0) (trace s) /\ Z st (trace s).
Lemma inv_good : forall Z s, Inv Z s -> good s. Proof. clear. intros Z s H. apply H. Qed.
Lemma inv_weak : forall (Z Z' : stage2 -> list event -> Prop) s, (forall st t, Z st t -> Z' st t) -> Inv Z s -> Inv Z' s.
Proof. clear. intros Z Z' s H (A & B & C & st & D & F & G). split; [exact A|]. split; [exact B|]. split; [exact C|]. exists st. auto. Qed.
(** [Z] ignores events that say nothing about sets, thresholds and iterations *)
Definition calmly (Z : stage2 -> list event -> Prop) : Prop := forall st new t, Forall still new -> Z st t -> Z st (new ++ t).
Lemma inv_stable : forall Z, calmly Z -> stable still vw (Inv Z).
Proof.
  intros Z HZ s s' new (A & B & C & st & D & F & G) Ht Hn Hv. unfold vw in Hv. injection Hv as V1 V2 V3.
  destruct (still_all new (trace s) Hn) as (I1 & I2 & I3 & I4 & I5 & I6).
  split; [unfold good; rewrite Ht; apply good_app; [apply still_speechless, Hn|exact A]|].
  split; [rewrite V1, Ht, I1; exact B|]. split; [rewrite V2, Ht, I2; exact C|]. exists st. rewrite V3, Ht, I4. split; [exact D|]. split; [exact F|]. apply HZ; auto.
Qed.
Lemma calm : forall Z A (m : OM A), calmly Z -> emits still m -> keeps vw m -> hoare good (Inv Z) m (fun _ => Inv Z).
Proof. intros Z A m HZ He Hk. eapply h_stable; [apply inv_stable, HZ|intros; eapply inv_good; eauto|exact He|exact Hk]. Qed.
(** ** Steps of the observer *)
Lemma w_obs : forall f, (forall ob, h2 (f ob) = h2 ob) -> keeps vw (obs f).
Proof.
  clear. intros f H s. unfold vw, watched. simpl. destruct (o_observer (s_o s)) as [ob|]; simpl; [|reflexivity].
  specialize (H ob). unfold h2 in H. injection H as H1 H2. rewrite H1, H2. reflexivity.
Qed.
Lemma w_callback : forall i, keeps vw (callback E i).
Proof.
  intros i s. unfold callback, bind, the_oqnlp, get, ret, bind. simpl. destruct (o_observer (s_o s)) as [ob|] eqn:Ho; [|reflexivity].
  destruct (ob_callback ob) as [cb|] eqn:Hc; [|reflexivity]. pose proof (h_invoke E Hcb ob) as C. unfold h2 in C. injection C as C1 C2.
  destruct (invoke_callback (Env.e_callback E) ob) as [ob' m]. simpl in *. unfold vw, watched. simpl. rewrite Ho. simpl.
  rewrite C1, C2. reflexivity.
Qed.
Ltac vk := repeat match goal with
  | |- keeps _ (obs (upd_stage1 _)) => apply w_obs; intro; apply h_upd1
  | |- keeps _ (obs _) => apply w_obs; reflexivity
  | |- keeps _ (callback _ _) => apply w_callback
  | _ => kp1
  end.
Lemma w_callback_at : forall i, keeps vw (callback_at E i). Proof. intro. unfold callback_at. vk. Qed.
Lemma w_save_now : forall c, keeps vw (save_now E c). Proof. intro. unfold save_now, create_checkpoint. vk. Qed.
Lemma w_maybe_save : keeps vw (maybe_save_checkpoint E). Proof. unfold maybe_save_checkpoint. vk. apply w_save_now. Qed.
Lemma w_final_save : keeps vw (maybe_save_final_checkpoint E). Proof. unfold maybe_save_final_checkpoint. vk. apply w_save_now. Qed.
Lemma w_end_stage1 : keeps vw (end_stage1 E). Proof. unfold end_stage1, stage1_enter. vk. Qed.
(** an update of the Stage 2 state *)
Lemma i_obs : forall (Z Z' : stage2 -> list event -> Prop) (f : oqnlp -> stage2 -> stage2),
  (forall o st t, o_set o = current t -> mf_threshold (o_merit o) = threshold_after t0 t -> Z st t -> s2_last_added (f o st) = s2_last_added st /\ Z' (f o st) t) ->
  hoare good (Inv Z) (bind the_oqnlp (fun o => obs (upd_stage2 (f o)))) (fun _ => Inv Z').
Proof.
  intros Z Z' f Hf s (A & B & C & st & D & F & G). unfold bind, the_oqnlp, get, ret, bind. simpl. unfold obs, upd, modify.
  split; [exact A|]. intros a s' X. injection X as <- <-. split; [exact A|].
  destruct (Hf (s_o s) st (trace s) B C G) as [X1 X2].
  simpl. unfold watched in D. destruct (o_observer (s_o s)) as [ob|] eqn:Ho; [|discriminate D]. simpl in D. injection D as D1 D2.
  split; [exact B|]. split; [exact C|]. exists (f (s_o s) st). unfold watched. simpl. unfold upd_stage2, should_observe_stage2.
  rewrite D1, D2. split; [destruct md; [congruence| |]; simpl; rewrite D1; reflexivity|]. split; [rewrite X1; exact F|exact X2].
Qed.
(** ** Phases *)
(** before Stage 2 *)
Definition pre (st : stage2) (t : list event) : Prop :=
  s2_set_size st = s2_set_size st0 /\ s2_best st = s2_best st0 /\ s2_best_point st = s2_best_point st0 /\ existsb is_batch t = false.
(** in Stage 2, with what is known about the iteration and the threshold *)
Definition on (Y : stage2 -> list event -> Prop) (st : stage2) (t : list event) : Prop := shows_sets st0 st (sets_in_stage2 b t) /\ Y st t.
Definition began (Y : stage2 -> list event -> Prop) (st : stage2) (t : list event) : Prop := existsb is_batch t = true /\ on Y st t.
(** a new set that is not shown yet *)
Definition shows_best (st : stage2) (sets : list solset) : Prop :=
  best_of (s2_best st0 :: map ls_obj (leaders sets)) (s2_best st) /\
  ((s2_best st = s2_best st0 /\ s2_best_point st = s2_best_point st0) \/
   exists x, In x (leaders sets) /\ s2_best st = ls_obj x /\ s2_best_point st = Some (ls_point x)).
Definition lag (Y : stage2 -> list event -> Prop) (st : stage2) (t : list event) : Prop :=
  existsb is_batch t = true /\ Y st t /\ (exists old, shows_best st old /\ (sets_in_stage2 b t = old \/ exists x, sets_in_stage2 b t = x :: old)) /\
  (sets_in_stage2 b t = [] -> s2_set_size st = s2_set_size st0).
Definition free2 (st : stage2) (t : list event) : Prop := True.
Definition fresh_i (st : stage2) (t : list event) : Prop := threshold_after t0 (before_iteration t) = threshold_after t0 t.
Definition from_start (i : nat) (st : stage2) (t : list event) : Prop := s2_iteration st = i /\ s2_threshold st = threshold_after t0 (before_iteration t).
Definition right_now (i : nat) (st : stage2) (t : list event) : Prop := s2_iteration st = i /\ s2_threshold st = threshold_after t0 t.
Lemma y_free : calmly free2. Proof. intros st new t _ _. exact I. Qed.
Lemma y_fresh : calmly fresh_i.
Proof. intros st new t H Y. destruct (still_all new t H) as (I1 & I2 & I3 & I4 & I5 & I6). unfold fresh_i. rewrite I5, I2. exact Y. Qed.
Lemma y_start : forall i, calmly (from_start i).
Proof. intros i st new t H Y. destruct (still_all new t H) as (I1 & I2 & I3 & I4 & I5 & I6). unfold from_start. rewrite I5. exact Y. Qed.
Lemma y_now : forall i, calmly (right_now i).
Proof. intros i st new t H Y. destruct (still_all new t H) as (I1 & I2 & I3 & I4 & I5 & I6). unfold right_now. rewrite I2. exact Y. Qed.
Lemma y_pre : calmly pre.
Proof. intros st new t H Y. destruct (still_all new t H) as (I1 & I2 & I3 & I4 & I5 & I6). unfold pre. rewrite I6. exact Y. Qed.
Lemma y_on : forall Y, calmly Y -> calmly (on Y).
Proof. intros Y HY st new t H [A B]. destruct (still_all new t H) as (I1 & I2 & I3 & I4 & I5 & I6). split; [rewrite I3; exact A|apply HY; auto]. Qed.
Lemma y_began : forall Y, calmly Y -> calmly (began Y).
Proof. intros Y HY st new t H [A B]. destruct (still_all new t H) as (I1 & I2 & I3 & I4 & I5 & I6). split; [rewrite I6; exact A|apply y_on; auto]. Qed.
(** ** Reports of the best solution *)
Lemma best_equiv : forall vs ws v, (forall x, In x vs <-> In x ws) -> best_of vs v -> best_of ws v.
Proof.
  clear. intros vs ws v H [[A B]|(A & B & C)]; [left|right].
  - split; [exact A|]. intros x Hx. apply B, H, Hx.
  - split; [exact A|]. split; [apply H, B|]. intros x Hx. apply C, H, Hx.
Qed.
Lemma best_grow : forall st old sets x, shows_best st old -> (forall y, In y (leaders sets) <-> y = x \/ In y (leaders old)) ->
  shows_best (s2_set_best_solution (ls_obj x) (ls_point x) st) sets.
Proof.
  clear. intros st old sets x [A B] H. split.
  - replace (s2_best (s2_set_best_solution (ls_obj x) (ls_point x) st)) with (keep (s2_best st) (ls_obj x)).
    2: { unfold keep, s2_set_best_solution. destruct (_ || _); reflexivity. }
    eapply best_equiv; [|apply keep_step; exact A]. intro v. simpl. rewrite in_app_iff. simpl. split.
    + intros [X|[X|[X|[]]]]; [left; exact X| |].
      * right. apply in_map_iff in X as (y & <- & Hy). apply in_map, H. right. exact Hy.
      * right. subst v. apply in_map, H. left. reflexivity.
    + intros [X|X]; [left; exact X|]. apply in_map_iff in X as (y & <- & Hy). apply H in Hy as [->|Hy]; [right; right; left; reflexivity|].
      right. left. apply in_map, Hy.
  - unfold s2_set_best_solution. destruct (_ || _); simpl.
    + right. exists x. split; [apply H; left; reflexivity|]. auto.
    + destruct B as [B|(y & By & B)]; [left; exact B|]. right. exists y. split; [apply H; right; exact By|exact B].
Qed.
Lemma shows_split : forall st sets, shows_sets st0 st sets <->
  (s2_set_size st = match sets with x :: _ => List.length x | [] => s2_set_size st0 end /\ shows_best st sets).
Proof. clear. intros. unfold shows_sets, shows_best. tauto. Qed.
Lemma lead : forall x r, leaders (x :: r) = (match best_solution x with Some y => [y] | None => [] end) ++ leaders r.
Proof. reflexivity. Qed.
(** the report of the set in force *)
Definition told (set : option solset) (st : stage2) : stage2 :=
  match set with
  | None => st
  | Some set => s2_set_set_size (List.length set)
      (match best_solution set with Some y => s2_set_best_solution (ls_obj y) (ls_point y) st | None => st end)
  end.
Lemma told_shows : forall st old sets, shows_best st old -> (sets = old \/ exists x, sets = x :: old) ->
  (sets = [] -> s2_set_size st = s2_set_size st0) -> shows_sets st0 (told (hd_error sets) st) sets.
Proof.
  clear. intros st old sets H S0 S1. apply shows_split.
  assert (K : forall n st', shows_best (s2_set_set_size n st') sets <-> shows_best st' sets) by (intros; reflexivity).
  destruct S0 as [->|(x & ->)].
  - destruct old as [|x r]; [split; [apply S1; reflexivity|exact H]|]. cbn [hd_error told]. split; [reflexivity|]. apply K.
    destruct (best_solution x) as [y|] eqn:Hy; [|exact H]. apply best_grow with (old := x :: r); [exact H|].
    intro z. rewrite lead, Hy. simpl. intuition congruence.
  - cbn [hd_error told]. split; [reflexivity|]. apply K. destruct (best_solution x) as [y|] eqn:Hy.
    + apply best_grow with (old := old); [exact H|]. intro z. rewrite lead, Hy. simpl. intuition congruence.
    + destruct H as [A B]. unfold shows_best. rewrite lead, Hy. exact (conj A B).
Qed.
Lemma current_hd : forall t, current t = hd_error (sets_in_stage2 b t).
Proof.
  clear. induction t as [|e t IH]; simpl; [destruct b; reflexivity|]. destruct e; try exact IH. destruct (existsb is_batch t); reflexivity.
Qed.
Lemma current_one : forall t, existsb is_batch t = false -> sets_in_stage2 b t = match current t with Some x => [x] | None => [] end.
Proof.
  clear. induction t as [|e t IH]; simpl; [destruct b; reflexivity|]. destruct e; intro H; simpl in *; auto; try discriminate H. rewrite H. reflexivity.
Qed.
Lemma current_some : forall t, existsb is_set t || match b with Some _ => true | None => false end = match current t with Some _ => true | None => false end.
Proof. clear. induction t as [|e t IH]; simpl; [destruct b; reflexivity|]. destruct e; simpl; auto. Qed.
Lemma la_some : forall p0 x set t y, current t = Some y -> last_added b p0 (EvSolutionSet set :: EvResult x :: t) = newest set.
Proof. clear. intros p0 x set t y H. cbn [last_added existsb is_set orb]. rewrite current_some, H. reflexivity. Qed.
Lemma la_none : forall p0 x set t, current t = None -> last_added b p0 (EvSolutionSet set :: EvResult x :: t) = last_added b p0 t.
Proof.
  clear. intros p0 x set t H. cbn [last_added existsb is_set orb]. pose proof (current_some t) as Hcs. rewrite H in Hcs. rewrite Hcs.
  apply orb_false_iff in Hcs as [Hcs _]. clear H. induction t as [|e t IH]; [reflexivity|]. simpl in *. destruct e; auto; discriminate Hcs.
Qed.
(** ** A local solution *)
Definition stored (x : lsol) (set : solset) (new : list event) : Prop :=
  new = [EvThreshold (ls_obj x); EvSolutionSet set; EvResult x] \/ new = [EvSolutionSet set; EvResult x].
Lemma i_pls : forall (Z Z' : stage2 -> list event -> Prop) x,
  (forall st t, Z st t -> Z' st (EvResult x :: t)) ->
  (forall st st' t set new, Z st t -> (st' = st \/ st' = s2_set_last_added (ls_point x) st) -> stored x set new -> Z' st' (new ++ t)) ->
  hoare good (Inv Z) (process_local_solution E x) (fun _ => Inv Z').
Proof.
  intros Z Z' x H1 H2 s (A & B & C & st & D & F & G).
  assert (Gn : forall new, Forall speechless new -> Good (new ++ trace s)) by (intros; apply good_app; auto).
  unfold process_local_solution. rewrite (bind_ok _ _ _ _ _ _ _ (eq_refl : the_oqnlp s = (Ok (s_o s), s))).
  match goal with |- context [if o_exclude ?a then ?m else ?n] => set (inside := if o_exclude a then m else n) end. assert (HI : forall s, snd (inside s) = s).
  { intro s'. unfold inside. destruct (o_exclude (s_o s)); [|reflexivity]. destruct (within_bounds _ _); reflexivity. }
  specialize (HI s). destruct (inside s) as [[i|e|] s1] eqn:Hin; cbn [snd] in HI; subst s1; [rewrite (bind_ok _ _ _ _ _ _ _ Hin)|unfold bind; rewrite Hin; split; [exact A|intros a s' X; discriminate X]..].
  unfold bind.
  destruct i; cbn [negb].
  - destruct (o_set (s_o s)) as [[|cur rest]|] eqn:Hs.
    + split; [exact A|intros a s' X; discriminate X].
    + unfold watched in D. destruct (o_observer (s_o s)) as [ob|] eqn:Ho; [|discriminate D]. simpl in D. injection D as D1 D2.
      cbn [emit modify]. destruct (flt (ls_obj x) _).
      * split; [apply (Gn [EvThreshold (ls_obj x); EvSolutionSet [x]; EvResult x]); repeat constructor|]. intros a s' X. injection X as <- <-.
        split; [apply (Gn [EvThreshold (ls_obj x); EvSolutionSet [x]; EvResult x]); repeat constructor|]. split; [reflexivity|]. split; [reflexivity|].
        exists (s2_set_last_added (ls_point x) st). unfold watched. simpl. rewrite Ho. simpl. unfold upd_stage2_any. rewrite D2. simpl. rewrite D1. split; [reflexivity|].
        split; [exact (eq_sym (la_some _ x [x] (trace s) _ (eq_sym B)))|]. apply (H2 st _ (trace s) [x] [EvThreshold (ls_obj x); EvSolutionSet [x]; EvResult x] G (or_intror eq_refl)). left. reflexivity.
      * destruct (fle _ _ && negb _).
        -- split; [apply (Gn [EvSolutionSet ((cur :: rest) ++ [x]); EvResult x]); repeat constructor|]. intros a s' X. injection X as <- <-.
           split; [apply (Gn [EvSolutionSet ((cur :: rest) ++ [x]); EvResult x]); repeat constructor|]. split; [reflexivity|]. split; [exact C|].
           exists (s2_set_last_added (ls_point x) st). unfold watched. simpl. rewrite Ho. simpl. unfold upd_stage2_any. rewrite D2. simpl. rewrite D1. split; [reflexivity|].
           split; [|].
           { transitivity (newest ((cur :: rest) ++ [x])); [unfold newest; rewrite rev_unit; reflexivity|exact (eq_sym (la_some _ x ((cur :: rest) ++ [x]) (trace s) _ (eq_sym B)))]. }
           apply (H2 st _ (trace s) ((cur :: rest) ++ [x]) [EvSolutionSet ((cur :: rest) ++ [x]); EvResult x] G (or_intror eq_refl)). right. reflexivity.
        -- split; [apply (Gn [EvResult x]); repeat constructor|]. intros a s' X. injection X as <- <-.
           split; [apply (Gn [EvResult x]); repeat constructor|]. split; [simpl; rewrite Hs; exact B|]. split; [exact C|].
           exists st. unfold watched. simpl. rewrite Ho. simpl. rewrite D1, D2. split; [reflexivity|]. split; [exact F|]. apply H1, G.
    + split; [apply (Gn [EvThreshold (ls_obj x); EvSolutionSet [x]; EvResult x]); repeat constructor|]. intros a s' X. injection X as <- <-.
      split; [apply (Gn [EvThreshold (ls_obj x); EvSolutionSet [x]; EvResult x]); repeat constructor|]. split; [reflexivity|]. split; [reflexivity|].
      exists st. split; [exact D|]. split; [exact (eq_trans F (eq_sym (la_none _ x [x] (trace s) (eq_sym B))))|].
      apply (H2 st _ (trace s) [x] [EvThreshold (ls_obj x); EvSolutionSet [x]; EvResult x] G (or_introl eq_refl)). left. reflexivity.
  - split; [apply (Gn [EvResult x]); repeat constructor|]. intros a s' X. injection X as <- <-.
    split; [apply (Gn [EvResult x]); repeat constructor|]. split; [exact B|]. split; [exact C|].
    exists st. split; [exact D|]. split; [exact F|]. apply H1, G.
Qed.
(** ** The other steps *)
Definition moving (e : event) : Prop := match e with EvIteration _ => False | _ => True end.
Lemma moving_app : forall new t, Forall moving new -> before_iteration (new ++ t) = before_iteration t.
Proof. clear. intros new t H. induction H as [|e new He H IH]; [reflexivity|]. destruct e; simpl in *; auto; destruct He. Qed.
Definition easy (Y : stage2 -> list event -> Prop) : Prop := forall st st' new t,
  s2_iteration st' = s2_iteration st -> s2_threshold st' = s2_threshold st -> Forall moving new -> Y st t -> Y st' (new ++ t).
Lemma e_free : easy free2. Proof. intros st st' new t _ _ _ _. exact I. Qed.
Lemma e_start : forall i, easy (from_start i).
Proof. intros i st st' new t H1 H2 H [A B]. unfold from_start. rewrite H1, H2, moving_app by exact H. auto. Qed.
Lemma easy_calm : forall Y, easy Y -> calmly Y.
Proof. clear. intros Y H st new t Hn HY. apply (H st); auto. eapply Forall_impl; [|exact Hn]. intros [] X; simpl in *; auto. Qed.
Lemma i_threshold : forall (Z : stage2 -> list event -> Prop) v, (forall st t, Z st t -> Z st (EvThreshold v :: t)) ->
  hoare good (Inv Z) (set_threshold v) (fun _ => Inv Z).
Proof.
  intros Z v H s (A & B & C & st & D & F & G).
  assert (X : good (snd (set_threshold v s))) by (apply (good_app [EvThreshold v]); [repeat constructor|exact A]).
  split; [exact X|]. intros a s' Hs. rewrite Hs in X. simpl in X. split; [exact X|]. injection Hs as _ <-. split; [exact B|]. split; [reflexivity|]. exists st. split; [exact D|]. split; [exact F|]. apply H, G.
Qed.
Lemma i_count : forall (Z : stage2 -> list event -> Prop) u, (forall v st t, Z st t -> Z st (EvRelax v :: t)) ->
  hoare good (Inv Z) (count_unchanged u) (fun _ => Inv Z).
Proof.
  intros Z u H. unfold count_unchanged. eapply h_bind; [apply h_oqnlp; intros; eapply inv_good; eauto|]. intro o. cbv beta.
  destruct (_ <=? _); [|apply h_ret; intros s [Hs _]; split; [eapply inv_good; eauto|exact Hs]].
  eapply h_bind with (Q := fun _ => Inv Z); [|intro; apply h_ret; intros s Hs; split; [eapply inv_good; eauto|exact Hs]].
  intros s [(A & B & C & st & D & F & G) _]. set (v := relaxed (p_threshold_factor (o_params (s_o s))) (mf_threshold (o_merit (s_o s)))).
  assert (X : good (snd (adjust_threshold s))) by (apply (good_app [EvRelax v]); [repeat constructor|exact A]).
  split; [exact X|]. intros a s' Hs. rewrite Hs in X. simpl in X. split; [exact X|]. injection Hs as _ <-. split; [exact B|]. split; [reflexivity|]. exists st. split; [exact D|]. split; [exact F|]. apply (H v), G.
Qed.
Lemma i_begin : forall (Z Z' : stage2 -> list event -> Prop) i u, (forall st t, Z st t -> Z' st (EvIteration i :: t)) ->
  hoare good (Inv Z) (begin_iteration E i u) (fun _ => Inv Z').
Proof.
  intros Z Z' i u H s (A & B & C & st & D & F & G). unfold begin_iteration, bind, upd, modify, the_oqnlp, get, ret, bind. cbn [s_o s_w].
  destruct (add_u64 _ _ _) as [seed|]; cbn [unwrap ret panic]; [|split; [exact A|intros a s' X; discriminate X]].
  assert (X : Good (EvIteration i :: trace s)) by (apply (good_app [EvIteration i]); [repeat constructor|exact A]).
  split; [exact X|]. intros a s' Hs. injection Hs as _ <-. split; [exact X|]. split; [exact B|]. split; [exact C|]. exists st. split; [exact D|]. split; [exact F|]. apply H, G.
Qed.
Lemma on_state : forall st st' t (Y Y' : stage2 -> list event -> Prop), s2_set_size st' = s2_set_size st -> s2_best st' = s2_best st -> s2_best_point st' = s2_best_point st ->
  Y' st' t -> on Y st t -> on Y' st' t.
Proof. intros st st' t Y Y' H1 H2 H3 H4 [X _]. split; [|exact H4]. unfold shows_sets in *. rewrite H1, H2, H3. exact X. Qed.
Lemma i_iter_start : forall i u, hoare good (Inv (began fresh_i)) (obs_iteration i u) (fun _ => Inv (began (from_start i))).
Proof.
  intros i u. unfold obs_iteration. apply i_obs with (f := fun o st => s2_set_threshold (mf_threshold (o_merit o)) (s2_set_unchanged u (s2_set_iteration i st))).
  intros o st t _ Hm [H1 H2]. split; [reflexivity|]. split; [exact H1|]. apply on_state with (5 := H2); try reflexivity.
  destruct H2 as [_ H2]. split; [reflexivity|]. simpl. rewrite Hm. symmetry. exact H2.
Qed.
Lemma i_iter_now : forall i u, hoare good (Inv (began free2)) (obs_iteration i u) (fun _ => Inv (began (right_now i))).
Proof.
  intros i u. unfold obs_iteration. apply i_obs with (f := fun o st => s2_set_threshold (mf_threshold (o_merit o)) (s2_set_unchanged u (s2_set_iteration i st))).
  intros o st t _ Hm [H1 H2]. split; [reflexivity|]. split; [exact H1|]. apply on_state with (5 := H2); try reflexivity.
  split; [reflexivity|]. simpl. exact Hm.
Qed.
Lemma i_evals : forall Y n, easy Y -> hoare good (Inv (began Y)) (obs (upd_stage2 (s2_add_evals n))) (fun _ => Inv (began Y)).
Proof.
  intros Y n HY. apply (i_obs (began Y) (began Y) (fun _ => s2_add_evals n)).
  intros o st t _ Hm [H1 H2]. split; [reflexivity|]. split; [exact H1|]. apply on_state with (5 := H2); try reflexivity.
  destruct H2 as [_ H2]. apply (HY st _ []); auto.
Qed.
Definition cb_ready (i : nat) : stage2 -> list event -> Prop := if q then right_now i else from_start i.
Lemma i_callback : forall i, hoare good (Inv (began (cb_ready i))) (callback E (Some i)) (fun _ => Inv (began free2)).
Proof.
  intros i s Hi. pose proof Hi as (A & B & C & st & D & F & G1 & G2). pose proof (w_callback (Some i) s) as V.
  unfold callback, bind, the_oqnlp, get, ret, bind in *. simpl in *. unfold watched in D.
  assert (Y0 : Inv (began free2) s).
  { apply inv_weak with (2 := Hi). intros st' t [X1 [X2 _]]. split; [exact X1|]. split; [exact X2|exact I]. }
  destruct (o_observer (s_o s)) as [ob|] eqn:Ho; [|discriminate D]. simpl in D. injection D as D1 D2.
  destruct (ob_callback ob) as [cb|] eqn:Hc; [|split; [exact A|]; intros a s' X; injection X as _ <-; exact Y0].
  destruct (invoke_callback (Env.e_callback E) ob) as [ob' m]. simpl in *.
  assert (Gn : Good (rev (map EvPrint m) ++ EvCallback (Some i) ob :: trace s)).
  { apply good_app.
    - apply Forall_rev. apply Forall_forall. intros e He. apply in_map_iff in He as (x & <- & _). exact I.
    - intros [|e l1] j ob2 l2 X; simpl in X.
      + injection X as <- <- <-. exists st. split; [exact D2|]. destruct G2 as [G2 G3]. split; [exact G2|]. split; [exact F|].
        unfold cb_ready in G3. unfold thr_ok. destruct q; destruct G3 as [-> ->]; auto.
      + injection X as _ X. eapply A; exact X. }
  rewrite <- app_assoc. simpl. split; [exact Gn|]. intros a s' X. injection X as _ <-. split; [exact Gn|]. pose proof (f_equal snd V) as V3. simpl in V3. clear V.
  assert (Q : Forall still (rev (map EvPrint m))).
  { apply Forall_rev. apply Forall_forall. intros e He. apply in_map_iff in He as (x & <- & _). exact I. }
  destruct (still_all _ (EvCallback (Some i) ob :: trace s) Q) as (I1 & I2 & I3 & I4 & I5 & I6). unfold trace in *. simpl in *.
  split; [rewrite I1; exact B|]. split; [rewrite I2; exact C|]. exists st. rewrite I4. split; [rewrite V3; unfold watched; rewrite Ho; simpl; congruence|]. split; [exact F|].
  unfold began, on, free2. rewrite I3, I6. split; [exact G1|]. split; [apply G2|exact I].
Qed.
Lemma i_callback_at : forall i, hoare good (Inv (began (cb_ready i))) (callback_at E i) (fun _ => Inv (began free2)).
Proof.
  intros i s Hi. assert (Y0 : Inv (began free2) s).
  { apply inv_weak with (2 := Hi). intros st' t [X1 [X2 _]]. split; [exact X1|]. split; [exact X2|exact I]. }
  pose proof (i_callback i s Hi) as K. pose proof (inv_good _ _ Hi) as A.
  assert (R : callback_at E i s = callback E (Some i) s \/ callback_at E i s = (Panic, s) \/ callback_at E i s = (Ok tt, s)).
  { unfold callback_at. rewrite (bind_ok _ _ _ _ _ _ _ (eq_refl : the_oqnlp s = (Ok (s_o s), s))). destruct (o_observer (s_o s)) as [ob|]; [|auto]. destruct (should_invoke_callback ob i) as [[|]|]; auto. }
  destruct R as [R|[R|R]]; rewrite R; [exact K| |]; simpl; (split; [exact A|]); intros a s' X; [discriminate X|injection X as _ <-; exact Y0].
Qed.
Lemma i_batch : hoare good (Inv (on free2)) (emit [EvBatch]) (fun _ => Inv (began free2)).
Proof.
  intros s (A & B & C & st & D & F & G).
  assert (X : Good (EvBatch :: trace s)) by (apply (good_app [EvBatch]); [repeat constructor|exact A]).
  split; [exact X|]. intros a s' Hs. injection Hs as _ <-. split; [exact X|]. split; [exact B|]. split; [exact C|]. exists st. split; [exact D|]. split; [exact F|].
  split; [reflexivity|]. exact G.
Qed.
Lemma told_fields : forall set st, s2_last_added (told set st) = s2_last_added st /\ s2_iteration (told set st) = s2_iteration st /\ s2_threshold (told set st) = s2_threshold st.
Proof. clear. intros [set|] st; [|auto]. simpl. destruct (best_solution set); [|auto]. unfold s2_set_best_solution. destruct (_ || _); auto. Qed.
Lemma told_evals : forall set b' n st, told set (s2_add_evals n (s2_add_call b' st)) = s2_add_evals n (s2_add_call b' (told set st)).
Proof. clear. intros [set|] b' n st; [|reflexivity]. simpl. destruct (best_solution set); [|reflexivity]. unfold s2_set_best_solution. simpl. destruct (_ || _); reflexivity. Qed.
Lemma i_search : forall Y A x n (k : bool -> OM A) Q, easy Y -> (forall b', hoare good (Inv (began Y)) (k b') Q) ->
  hoare good (Inv (began Y)) (bind (process_local_solution E x) (fun b' => bind (obs_search b' n) (fun _ => k b'))) Q.
Proof.
  intros Y A x n k Q HY Hk. eapply h_bind with (Q := fun _ => Inv (lag Y)).
  - apply i_pls.
    + intros st t [H1 [H2 H3]]. split; [exact H1|]. split; [apply (HY st st [EvResult x]); auto; repeat constructor|]. apply shows_split in H2 as [H2 H4].
      split; [exists (sets_in_stage2 b t); split; [exact H4|left; reflexivity]|]. intro H5. simpl in H5. rewrite H5 in H2. exact H2.
    + intros st st' t set new [H1 [H2 H3]] Hst Hnew. apply shows_split in H2 as [H2 H4].
      assert (S1 : s2_set_size st' = s2_set_size st /\ s2_best st' = s2_best st /\ s2_best_point st' = s2_best_point st /\ s2_iteration st' = s2_iteration st /\ s2_threshold st' = s2_threshold st) by (destruct Hst as [->| ->]; auto).
      destruct S1 as (S1 & S2 & S3 & S4 & S5).
      assert (N : existsb is_batch (new ++ t) = true /\ sets_in_stage2 b (new ++ t) = set :: sets_in_stage2 b t /\ Forall moving new).
      { destruct Hnew as [->| ->]; simpl; rewrite H1; repeat split; repeat constructor. }
      destruct N as (N1 & N2 & N3). split; [exact N1|]. split; [apply (HY st); auto|].
      split; [exists (sets_in_stage2 b t); split; [unfold shows_best; rewrite S2, S3; exact H4|right; exists set; exact N2]|].
      intro H5. rewrite N2 in H5. discriminate H5.
  - intro b'. cbv beta. eapply h_bind with (Q := fun _ => Inv (began Y)); [|intro; apply Hk]. unfold obs_search.
    apply i_obs with (f := fun o st => told (o_set o) (s2_add_evals (N.to_nat n) (s2_add_call b' st))).
    intros o st t Hs _ (H1 & H2 & (old & H3 & H4) & H5). destruct (told_fields (o_set o) (s2_add_evals (N.to_nat n) (s2_add_call b' st))) as (T1 & T2 & T3).
    split; [rewrite T1; reflexivity|]. split; [exact H1|]. split; [|apply (HY st _ []); auto].
    rewrite Hs, current_hd. apply told_shows with (old := old); [exact H3|exact H4|exact H5].
Qed.
Lemma i_begin_stage2 : hoare good (Inv pre) begin_stage2 (fun _ => Inv (on free2)).
Proof.
  unfold begin_stage2.
  enough (X : hoare good (Inv pre) (bind (bind the_oqnlp (fun o => obs (upd_stage2 (fun st => s2_set_threshold (mf_threshold (o_merit o)) (told (o_set o) st)))))
    (fun _ => obs mark_stage2_started)) (fun _ => Inv (on free2))).
  { intros s Hs. specialize (X s Hs). unfold bind, the_oqnlp, get, ret, bind in *. exact X. }
  eapply h_bind; [apply i_obs with (f := fun o st => s2_set_threshold (mf_threshold (o_merit o)) (told (o_set o) st)) (Z' := on free2)|].
  - intros o st t Hs _ (H1 & H2 & H3 & H4). destruct (told_fields (o_set o) st) as (T1 & T2 & T3). split; [exact T1|]. split; [|exact I].
    rewrite Hs, current_hd, current_one by exact H4.
    assert (B0 : shows_best st []).
    { split; [|left; auto]. rewrite H2. simpl. destruct (is_nan (s2_best st0)) eqn:Hn; [left|right]; (split; [first [exact Hn|reflexivity]|]).
      - intros v [<-|[]]. exact Hn.
      - split; [left; reflexivity|]. intros v [<-|[]]. apply F64Order.flt_irrefl. }
    assert (X : shows_sets st0 (told (hd_error (match current t with Some x => [x] | None => [] end)) st) (match current t with Some x => [x] | None => [] end)).
    { apply told_shows with (old := []); [exact B0| |intros _; exact H1]. destruct (current t) as [x|]; [right; exists x; reflexivity|left; reflexivity]. }
    unfold shows_sets in *. exact X.
  - intro. apply calm; [apply y_on, y_free|em|vk].
Qed.
(** ** Stage 2 *)
Ltac pe := repeat match goal with |- Forall still _ => constructor | |- still _ => exact I end.
Ltac fe := first [ apply e_maybe_save; side | apply e_final_save; side | apply e_emit; solve [pe] | apply e_emit_map; intro; exact I ].
Ltac ge := repeat first [ fe | em1 ].
Ltac vt := repeat match goal with
  | |- keeps _ (maybe_save_checkpoint _) => apply w_maybe_save
  | |- keeps _ (maybe_save_final_checkpoint _) => apply w_final_save
  | _ => progress vk
  end.
Ltac cal := solve [apply y_began, easy_calm; auto using e_free, e_start | apply y_began; auto using y_free, y_now, y_fresh | apply y_on; auto using y_free | apply y_pre].
Ltac ck := eapply h_bind; [apply calm; [cal|ge|vt]|intro; cbv beta].
Ltac done := apply h_ret; intros ? ?; split; [eapply inv_good; eauto|assumption].
Lemma rd : forall A Z (k : oqnlp -> OM A) Q, (forall o, hoare good (Inv Z) (k o) Q) -> hoare good (Inv Z) (bind the_oqnlp k) Q.
Proof.
  intros A Z k Q H. eapply h_bind; [apply h_oqnlp; intros; eapply inv_good; eauto|intro o; cbv beta].
  eapply h_weak; [apply H|intros s [X _]; exact X|auto].
Qed.
Lemma rs : forall A Z B (r : outcome oq_error B) (k : B -> OM A) Q, (forall a, r = Ok a -> hoare good (Inv Z) (k a) Q) -> hoare good (Inv Z) (bind (of_result r) k) Q.
Proof.
  intros A Z B r k Q H. eapply h_bind; [apply h_of_result; intros; eapply inv_good; eauto|intro o; cbv beta].
  intros s [X Hr]. exact (H o Hr s X).
Qed.
Lemma slv : forall A Z B (r : outcome ls_error B) (k : B -> OM A) Q, (forall a, hoare good (Inv Z) (k a) Q) -> hoare good (Inv Z) (bind (of_solver r) k) Q.
Proof.
  intros A Z B r k Q H. eapply h_bind; [apply h_of_solver; intros; eapply inv_good; eauto|intro o; cbv beta].
  intros s [X Hr]. exact (H o s X).
Qed.
Lemma uw : forall A Z B (r : option B) (k : B -> OM A) Q, (forall a, hoare good (Inv Z) (k a) Q) -> hoare good (Inv Z) (bind (unwrap r) k) Q.
Proof.
  intros A Z B r k Q H. eapply h_bind; [apply h_unwrap; intros; eapply inv_good; eauto|intro o; cbv beta].
  intros s [X Hr]. exact (H o s X).
Qed.
Lemma on_event : forall e st t (Y : stage2 -> list event -> Prop), sets_in_stage2 b (e :: t) = sets_in_stage2 b t -> existsb is_batch (e :: t) = existsb is_batch t -> (Y st t -> Y st (e :: t)) ->
  began Y st t -> began Y st (e :: t).
Proof. intros e st t Y H1 H2 H3 [A [B C]]. split; [rewrite H2; exact A|]. split; [rewrite H1; exact B|auto]. Qed.
Lemma easy_event : forall e st t (Y : stage2 -> list event -> Prop), easy Y -> moving e -> Y st t -> Y st (e :: t).
Proof. intros e st t Y H Hm HY. apply (H st st [e]); auto. Qed.
Lemma began_free : forall Y s, Inv (began Y) s -> Inv (began free2) s.
Proof. intros Y s. apply inv_weak. intros st t [A [B _]]. split; [exact A|]. split; [exact B|exact I]. Qed.
Lemma one_shown : q = false -> forall objs i p u, hoare good (Inv (began free2)) (process_one_seq E objs i p u) (fun _ => Inv (began free2)).
Proof.
  intros Hq objs i p u. unfold process_one_seq, emit_eval.
  eapply h_bind; [apply i_begin with (Z' := began fresh_i)|intro; cbv beta].
  { intros st t [A [B _]]. split; [exact A|]. split; [exact B|reflexivity]. }
  eapply h_bind; [apply i_iter_start|intro; cbv beta]. ck.
  apply rs. intros obj _. eapply h_bind with (Q := fun _ => Inv (began (from_start i))).
  { destruct objs; [done|apply i_evals, e_start]. }
  intro. cbv beta. apply rd. intro o. cbv zeta. ck.
  eapply h_bind with (Q := fun _ => Inv (began (from_start i))).
  - destruct (should_start_local o p obj).
    + eapply h_bind; [apply i_threshold|intro; cbv beta].
      { intros st t H. apply on_event; auto; intro Y; apply easy_event; simpl; auto using e_start. }
      ck. apply slv. intro r. apply i_search; [apply e_start|]. intro b'. apply rd. intro o2. apply uw. intro stop. done.
    + eapply h_bind; [apply i_count|intro; cbv beta; done].
      intros v st t H. apply on_event; auto; intro Y; apply easy_event; simpl; auto using e_start.
  - intros [u' stop]. destruct stop; [apply h_ret; intros s Hs; split; [eapply inv_good; eauto|eapply began_free; eauto]|].
    eapply h_bind with (Q := fun _ => Inv (began free2)); [|intro; cbv beta; ck; done].
    pose proof (i_callback_at i) as K. unfold cb_ready in K. rewrite Hq in K. exact K.
Qed.
Lemma seq_shown : q = false -> forall start res objs l u, hoare good (Inv (began free2)) (process_batch_sequential E start res objs l u) (fun _ => Inv (began free2)).
Proof.
  intros Hq start res objs l. induction l as [|[i p] l IH]; intro u; [done|]. simpl.
  destruct (res && (i <? start)); [apply IH|]. eapply h_bind; [apply one_shown, Hq|intros [u' stop]; cbv beta]. simpl.
  destruct stop; [done|apply IH].
Qed.
Lemma begin_free : forall i u, hoare good (Inv (began free2)) (begin_iteration E i u) (fun _ => Inv (began free2)).
Proof. intros i u. apply i_begin. intros st t H. apply on_event; auto. Qed.
Lemma thr_free : forall v, hoare good (Inv (began free2)) (set_threshold v) (fun _ => Inv (began free2)).
Proof. intro v. apply i_threshold. intros st t H. apply on_event; auto. Qed.
Lemma cb_now : q = true -> forall i, hoare good (Inv (began (right_now i))) (callback E (Some i)) (fun _ => Inv (began free2)).
Proof. intros Hq i. pose proof (i_callback i) as K. unfold cb_ready in K. rewrite Hq in K. exact K. Qed.
Lemma cb_now_at : q = true -> forall i, hoare good (Inv (began (right_now i))) (callback_at E i) (fun _ => Inv (began free2)).
Proof. intros Hq i. pose proof (i_callback_at i) as K. unfold cb_ready in K. rewrite Hq in K. exact K. Qed.
Lemma quick_shown : q = true -> forall i u, hoare good (Inv (began free2)) (process_quick E i u) (fun _ => Inv (began free2)).
Proof.
  intros Hq i u. unfold process_quick. eapply h_bind; [apply begin_free|intro; cbv beta].
  eapply h_bind; [apply i_count; intros v st t H; apply on_event; auto|intro u'; cbv beta].
  eapply h_bind; [apply i_iter_now|intro; cbv beta]. eapply h_bind; [apply cb_now_at, Hq|intro; cbv beta]. ck. done.
Qed.
Lemma quicks_shown : q = true -> forall l u, hoare good (Inv (began free2)) (process_quicks E l u) (fun _ => Inv (began free2)).
Proof.
  intros Hq l. induction l as [|[[i p] v] l IH]; intro u; simpl; [done|]. eapply h_bind; [apply quick_shown, Hq|intro; apply IH].
Qed.
Lemma results_shown : q = true -> forall l u, hoare good (Inv (began free2)) (process_par_results E l u) (fun _ => Inv (began free2)).
Proof.
  intros Hq l. induction l as [|[[[i p] v] [x n]] l IH]; intro u; simpl; [done|].
  eapply h_bind with (Q := fun _ => Inv (began free2)); [|intros [|]; [done|apply IH]].
  unfold process_par_result. eapply h_bind; [apply begin_free|intro; cbv beta]. eapply h_bind; [apply thr_free|intro; cbv beta].
  apply i_search; [apply e_free|]. intro b'. eapply h_bind; [apply i_iter_now|intro; cbv beta]. eapply h_bind; [apply cb_now_at, Hq|intro; cbv beta].
  apply rd. intro o. apply uw. intro stop. destruct stop; [done|]. ck. done.
Qed.
Lemma singles_shown : q = true -> forall l u, hoare good (Inv (began free2)) (process_singles E l u) (fun _ => Inv (began free2)).
Proof.
  intros Hq l. induction l as [|[[i p] v] l IH]; intro u; simpl; [done|].
  eapply h_bind with (Q := fun _ => Inv (began free2)); [|intros [|]; [done|apply IH]].
  unfold process_single. eapply h_bind; [apply begin_free|intro; cbv beta]. eapply h_bind; [apply thr_free|intro; cbv beta].
  apply rd. intro o. ck. apply slv. intro r.
  apply i_search; [apply e_free|]. intro b'. eapply h_bind; [apply i_iter_now|intro; cbv beta]. eapply h_bind; [apply cb_now, Hq|intro; cbv beta].
  apply rd. intro o2. apply uw. intro stop. destruct stop; [done|]. ck. done.
Qed.
Lemma par_shown : q = true -> forall start res objs l u, hoare good (Inv (began free2)) (process_batch_parallel E start res objs l u) (fun _ => Inv (began free2)).
Proof.
  intros Hq start res objs l u. unfold process_batch_parallel. cbv zeta.
  set (fb := if res then _ else _). destruct (match fb with [] => true | _ => false end); [done|].
  ck. ck. apply rs. intros results _. eapply h_bind with (Q := fun _ => Inv (began free2)).
  { destruct objs; [done|apply i_evals, e_free]. }
  intro. cbv beta. apply rd. intro o. destruct (partition _ _) as [local quick]. ck.
  eapply h_bind; [apply quicks_shown, Hq|intro w; cbv beta]. apply rd. intro o2.
  eapply h_bind with (Q := fun _ => Inv (began free2)); [|intro; done].
  match goal with |- hoare _ _ (if ?c then _ else _) _ => destruct c end; [|apply singles_shown, Hq].
  ck. apply rs. intros rs _. apply results_shown, Hq.
Qed.
Lemma loop_shown : forall size start res objs bs u, (if q then 1 < size else size <= 1) ->
  hoare good (Inv (on free2)) (stage2_loop E size start res objs bs u) (fun _ => Inv (on free2)).
Proof.
  intros size start res objs bs u Hq. revert u. induction bs as [|l bs IH]; intro u; [done|]. simpl.
  apply rd. intro o. ck. match goal with |- hoare _ _ (if ?c then _ else _) _ => destruct c end; [done|].
  eapply h_bind; [apply i_batch|intro; cbv beta].
  eapply h_bind with (Q := fun _ => Inv (began free2)).
  { destruct (1 <? size) eqn:Hs; [apply par_shown|apply seq_shown]; destruct q; auto; [apply Nat.ltb_lt in Hs|apply Nat.ltb_ge in Hs]; lia. }
  intro u'. cbv beta. apply rd. intro o2. apply uw. intro stop.
  eapply h_weak with (P' := Inv (on free2)); [|intros s; apply inv_weak; intros st t [_ X]; exact X|intros ? ? X; exact X].
  destruct stop; [done|apply IH].
Qed.
Lemma stage2_shown : forall res refs objs u s, Inv pre s -> (let start := if res : bool then o_iteration (s_o s) else 0 in if q then 1 < batch_size E (s_o s) start else batch_size E (s_o s) start <= 1) ->
  good (snd (stage2_run E res refs objs u s)) /\ (forall a s', stage2_run E res refs objs u s = (Ok a, s') -> Inv (on free2) s' /\ o_set (s_o s') = Some a).
Proof.
  intros res refs objs u s Hs Hsize.
  assert (K : hoare good (fun x => Inv pre x /\ (o_parallel (s_o x), o_batch (s_o x), o_params (s_o x), o_iteration (s_o x)) = (o_parallel (s_o s), o_batch (s_o s), o_params (s_o s), o_iteration (s_o s)))
    (stage2_run E res refs objs u) (fun a x => Inv (on free2) x /\ o_set (s_o x) = Some a)).
  { unfold stage2_run. eapply h_bind with (Q := fun _ x => Inv (on free2) x /\ (o_parallel (s_o x), o_batch (s_o x), o_params (s_o x), o_iteration (s_o x)) = (o_parallel (s_o s), o_batch (s_o s), o_params (s_o s), o_iteration (s_o s))).
    - intros x [Hx Hc]. destruct (i_begin_stage2 x Hx) as [G1 G2]. split; [exact G1|]. intros a x' Hr. split; [eapply G2; exact Hr|]. rewrite <- Hc.
      assert (KK : keeps (fun o => (o_parallel o, o_batch o, o_params o, o_iteration o)) begin_stage2) by (unfold begin_stage2; kp).
      specialize (KK x). rewrite Hr in KK. exact KK.
    - intro. cbv beta. eapply h_bind; [apply h_oqnlp; intros x [X _]; eapply inv_good; eauto|intro o; cbv beta].
      eapply h_weak with (P' := fun x => Inv (on free2) x /\ (o_parallel o, o_batch o, o_params o, o_iteration o) = (o_parallel (s_o s), o_batch (s_o s), o_params (s_o s), o_iteration (s_o s)));
        [|intros x [[X1 X2] ->]; exact (conj X1 X2)|intros ? ? X; exact X].
      apply h_pre with (X := (o_parallel o, o_batch o, o_params o, o_iteration o) = (o_parallel (s_o s), o_batch (s_o s), o_params (s_o s), o_iteration (s_o s))); [intros x [_ X]; exact X|intro Hc].
      eapply h_weak with (P' := Inv (on free2)); [|intros x [X _]; exact X|intros ? ? X; exact X].
      ck. cbv zeta.
      match goal with |- context [batch_size E o ?k] => set (start := k) end.
      assert (Hb : batch_size E o start = batch_size E (s_o s) start) by (injection Hc as C1 C2 C3 C4; unfold batch_size; rewrite C1, C2, C3; reflexivity).
      assert (Hs0 : start = if res then o_iteration (s_o s) else 0) by (injection Hc as C1 C2 C3 C4; unfold start; rewrite C4; reflexivity).
      eapply h_bind with (Q := fun _ => Inv (on free2)).
      { destruct (_ =? 0); [apply h_panic; intros; eapply inv_good; eauto|]. apply loop_shown. rewrite Hb, Hs0. exact Hsize. }
      intro. cbv beta. ck. unfold final_set. eapply h_bind; [apply h_oqnlp; intros; eapply inv_good; eauto|intro o3; cbv beta].
      destruct (o_set o3) as [set|] eqn:Ho3; [|apply h_fail; intros x [X _]; eapply inv_good; eauto].
      apply h_ret. intros x [X ->]. split; [eapply inv_good; eauto|auto]. }
  destruct (K s (conj Hs eq_refl)) as [K1 K2]. split; [exact K1|exact K2].
Qed.
(** ** Stage 1 *)
Lemma still_none : emits still (callback E None).
Proof.
  unfold callback. em; try exact I. apply Forall_forall. intros ev Hx. destruct Hx as [<-|Hx]; [exact I|]. apply in_map_iff in Hx as (y & <- & _). exact I.
Qed.
Lemma pls_pre : forall x, hoare good (Inv pre) (process_local_solution E x) (fun _ => Inv pre).
Proof.
  intro x. apply i_pls.
  - intros st t H. exact H.
  - intros st st' t set new (H1 & H2 & H3 & H4) Hst Hnew. unfold pre.
    assert (N : existsb is_batch (new ++ t) = existsb is_batch t) by (destruct Hnew as [->| ->]; reflexivity). rewrite N.
    destruct Hst as [->| ->]; auto.
Qed.
Lemma stage1_shown : hoare good (Inv pre) (stage1_run E) (fun _ => Inv pre).
Proof.
  intros s Hs. unfold stage1_run. rewrite (bind_ok _ _ _ _ _ _ _ (eq_refl : the_oqnlp s = (Ok (s_o s), s))).
  set (s1 := mk_st (s_o s) (mk_world (w_disk (s_w s)) (S (w_tick (s_w s))) (w_trace (s_w s)))).
  rewrite (bind_ok _ _ _ _ _ _ _ (eq_refl : tick s = (Ok (w_tick (s_w s)), s1))).
  assert (H1 : Inv pre s1) by (apply (inv_stable pre y_pre s s1 [] Hs); [reflexivity|constructor|reflexivity]).
  change (s_o s) with (s_o s1). clearbody s1. generalize (w_tick (s_w s)). clear s Hs. intro t. rename s1 into s, H1 into Hs.
  destruct (stage1_init E (s_o s) t) as [s3|e|] eqn:Hi; [|split; [eapply inv_good; eauto|intros a s' X; discriminate X]..].
  assert (Ho : observes1 (s_o s) = true -> ss_observer s3 = o_observer (s_o s)).
  { intro H. unfold stage1_init in Hi. destruct (ss_new E (o_params (s_o s)) t); try discriminate Hi. rewrite H in Hi. injection Hi as <-. reflexivity. }
  pose proof (sg_run E Hcb s3) as Hk. destruct (ss_run E s3) as [res sf] eqn:Hr. simpl in Hk.
  set (s' := if observes1 (s_o s) then changed (set_o_observer (ss_observer sf)) s else s).
  assert (F : vw (s_o s') = vw (s_o s)).
  { unfold s'. destruct (observes1 (s_o s)); [|reflexivity]. unfold vw, watched. simpl. rewrite (Ho eq_refl) in Hk.
    f_equal. destruct (ss_observer sf) as [a|], (o_observer (s_o s)) as [c|]; try discriminate Hk; [|reflexivity].
    simpl in *. injection Hk as K1 K2. rewrite K1, K2. reflexivity. }
  assert (H2 : Inv pre s').
  { apply (inv_stable pre y_pre s s' [] Hs); [unfold s'; destruct (observes1 (s_o s)); reflexivity|constructor|exact F]. }
  assert (X : (if observes1 (s_o s) then upd (set_o_observer (ss_observer sf)) else ret tt) s = (Ok tt, s')).
  { unfold s'. destruct (observes1 (s_o s)); reflexivity. }
  rewrite (bind_ok _ _ _ _ _ _ _ X). clearbody s'. clear X F Hk Ho Hi Hs. revert s' H2.
  match goal with |- forall s', Inv pre s' -> good (snd (?m s')) /\ _ => enough (K : hoare good (Inv pre) m (fun _ => Inv pre)) by exact K end.
  ck. destruct res as [[pts cand]|e|]; [|apply h_fail; intros; eapply inv_good; eauto|apply h_panic; intros; eapply inv_good; eauto]. cbv zeta. unfold stage1_enter.
  ck. eapply h_bind; [apply calm; [cal|apply still_none|vt]|intro; cbv beta]. ck. apply rd. intro o. ck. apply slv. intro r.
  eapply h_bind; [apply i_threshold; intros st t1 H; exact H|intro; cbv beta]. ck.
  eapply h_bind; [apply calm; [cal|apply still_none|vt]|intro; cbv beta].
  eapply h_bind; [apply pls_pre|intro; cbv beta]. apply rd. intro o2. apply uw. intro stop.
  assert (KE : hoare good (Inv pre) (end_stage1 E) (fun _ => Inv pre)).
  { apply calm; [cal| |apply w_end_stage1]. unfold end_stage1, stage1_enter. apply e_bind; [ge|intro]. apply e_bind; [apply still_none|intro; ge]. }
  destruct stop.
  - eapply h_bind; [exact KE|intro; cbv beta; done].
  - ck. eapply h_bind; [exact KE|intro; cbv beta; done].
Qed.
End Shown.
(** ** Whole runs *)
Lemma run_shown : forall E b t0 s st0 r s' new, callbacks_keep_stage2 E -> tracks2 (s_o s) st0 -> set_before E s b -> threshold_before E s t0 ->
  run E s = (r, s') -> recorded s s' new ->
  (exists start, Good b t0 st0 (1 <? batch_size E (s_o s') start) new) /\
  (forall set, r = Ok set -> In EvBatch new -> exists st, tracks2 (s_o s') st /\ s2_set_size st = List.length set /\ shows_sets st0 st (sets_in_stage2 b new) /\
     s2_last_added st = last_added b (s2_last_added st0) new).
Proof.
  intros E b t0 s st0 r s' new Hcb (ob & Ho & Hm & Hst0) Hb Ht0 Hrun Hnew.
  destruct (run_cases E s _ s' new Hrun Hnew) as [(-> & _ & Hno)|(rs & s1 & Hst & Ht & Hr & Hcfg)].
  { split; [exists 0; intros l1 i o l2 X; destruct l1; discriminate X|intros set ->]. exfalso. eapply Hno; reflexivity. }
  set (md := ob_mode ob). set (start := if rs then o_iteration (s_o s1) else 0). set (q := 1 <? batch_size E (s_o s') start).
  assert (H1 : Inv b t0 md st0 q (pre st0) s1).
  { split; [unfold good; rewrite Ht; intros l1 i o l2 X; destruct l1; discriminate X|]. rewrite Ht. cbn [current threshold_after last_added].
    assert (X : o_observer (s_o s1) = o_observer (s_o s) /\ o_set (s_o s1) = b /\ mf_threshold (o_merit (s_o s1)) = t0).
    { inversion Hst as [d Hd Hf|c d cp C1 C2 C3 C4 C5]; subst; cbn [changed with_disk s_o] in *.
      - assert (N : forall cp, ~ resumes_from E s cp).
        { intros cp (c & A1 & A2 & A3 & _). specialize (Hf c A1 A2). change (w_disk (s_w (blank s))) with (w_disk (s_w s)) in Hf. congruence. }
        split; [reflexivity|]. destruct Hb as [[-> _]|(cp & X & _)]; [|destruct (N cp X)]. destruct Ht0 as [[-> _]|(cp & X & _)]; [|destruct (N cp X)]. auto.
      - change (w_disk (s_w (blank s))) with (w_disk (s_w s)) in C3, C4. change (s_o (blank s)) with (s_o s) in C1.
        assert (R : resumes_from E s cp) by (exists c; auto).
        assert (N : forall cp', resumes_from E s cp' -> cp' = cp).
        { intros cp' (c' & A1 & A2 & A3 & A4). rewrite C1 in A1. injection A1 as <-. rewrite C4 in A4. injection A4 as ->. reflexivity. }
        split; [reflexivity|]. destruct Hb as [[_ X]|(cp' & X & ->)]; [destruct (X cp R)|]. apply N in X. subst cp'.
        destruct Ht0 as [[_ X]|(cp' & X & ->)]; [destruct (X cp R)|]. apply N in X. subst cp'. auto. }
    destruct X as (X1 & X2 & X3). split; [exact X2|]. split; [exact X3|]. exists st0. unfold watched. rewrite X1, Ho. simpl. rewrite Hst0. repeat split. }
  assert (Q2 : forall s2, same_config (s_o s2) (s_o s') -> if q then 1 < batch_size E (s_o s2) start else batch_size E (s_o s2) start <= 1).
  { intros s2 (C1 & _ & _ & _ & C2 & C3 & _). assert (X : batch_size E (s_o s2) start = batch_size E (s_o s') start) by (unfold batch_size; rewrite <- C1, <- C2, <- C3; reflexivity).
    rewrite X. unfold q. destruct (1 <? batch_size E (s_o s') start) eqn:Hq; [apply Nat.ltb_lt, Hq|apply Nat.ltb_ge, Hq]. }
  assert (Last : forall set, Inv b t0 md st0 q (on b st0 (free2)) (ends s' new) /\ o_set (s_o (ends s' new)) = Some set ->
    exists st, tracks2 (s_o s') st /\ s2_set_size st = List.length set /\ shows_sets st0 st (sets_in_stage2 b new) /\ s2_last_added st = last_added b (s2_last_added st0) new).
  { intros set [(_ & B & _ & st & D & F & G & _) Hs]. change (trace (ends s' new)) with new in *. change (s_o (ends s' new)) with (s_o s') in *.
    unfold watched in D. destruct (o_observer (s_o s')) as [ob'|] eqn:Ho'; [|discriminate D]. simpl in D. injection D as D1 D2.
    exists st. split; [exists ob'; rewrite D1; auto|]. split; [|auto]. destruct G as [G _]. rewrite G. rewrite Hs, current_hd in B. destruct (sets_in_stage2 b new); [discriminate B|].
    injection B as ->. reflexivity. }
  destruct rs; unfold run_rest in Hr.
  - rewrite (bind_ok _ _ _ _ _ _ _ (eq_refl : the_oqnlp s1 = (Ok (s_o s1), s1))) in Hr.
    destruct (stage2_shown E Hcb b t0 md st0 Hm q true (match o_ref (s_o s1) with Some x => x | None => [] end) None (o_unchanged (s_o s1)) s1 H1 (Q2 s1 Hcfg)) as [G1 G2].
    rewrite Hr in G1, G2. split; [exists start; exact G1|]. intros set -> _. apply Last, G2. reflexivity.
  - destruct (stage1_shown E Hcb b t0 md st0 q s1 H1) as [G1 G2]. unfold bind in Hr at 1.
    pose proof (em_stage1 E s1) as (pre1 & P1 & P2).
    destruct (stage1_run E s1) as [[[[refs objs]|]|e|] s2] eqn:H1r; cbn [snd] in *.
    + specialize (G2 _ _ eq_refl).
      assert (Hc2 : same_config (s_o s2) (s_o s')).
      { pose proof (a_stage2 E (candidate E false (s_o s2) refs) (Some objs) false refs 0 (fun _ _ => True) s2 (fun i p H => H) (fun _ _ _ _ => I)) as [W2 _].
        rewrite Hr in W2. exact (acts_config _ _ _ _ _ W2). }
      destruct (stage2_shown E Hcb b t0 md st0 Hm q false refs (Some objs) 0 s2 G2 (Q2 s2 Hc2)) as [G3 G4].
      rewrite Hr in G3, G4. split; [exists start; exact G3|]. intros set -> _. apply Last, G4. reflexivity.
    + assert (Hn : new = trace s2).
      { unfold final_set, bind, the_oqnlp, get, ret, fail, bind in Hr. simpl in Hr. destruct (o_set (s_o s2)); injection Hr as _ X; rewrite X; reflexivity. }
      split; [exists start; rewrite Hn; exact G1|]. intros set _ Hin. exfalso. rewrite Hn, P1, Ht, app_nil_r in Hin.
      rewrite Forall_forall in P2. exact (P2 _ Hin).
    + injection Hr as <- Hr. split; [|discriminate]. exists start. rewrite Hr in G1. exact G1.
    + injection Hr as <- Hr. split; [|discriminate]. exists start. rewrite Hr in G1. exact G1.
Qed.
Lemma shown_callbacks : forall E s st0 b r s' new l1 i ob l, callbacks_keep_stage2 E -> tracks2 (s_o s) st0 -> set_before E s b ->
  run E s = (r, s') -> recorded s s' new -> new = l1 ++ EvCallback (Some i) ob :: l ->
  exists st, ob_stage2 ob = Some st /\ s2_iteration st = i /\ shows_sets st0 st (sets_in_stage2 b l) /\
    s2_last_added st = last_added b (s2_last_added st0) l.
Proof.
  intros E s st0 b r s' new l1 i ob l Hcb Htr Hb Hrun Hnew Hl.
  assert (T : exists t0, threshold_before E s t0).
  { destruct Hb as [[_ X]|(cp & X & _)]; [exists (mf_threshold (o_merit (s_o s))); left; auto|exists (cp_threshold cp); right; eauto]. }
  destruct T as [t0 Ht]. destruct (run_shown E b t0 s st0 r s' new Hcb Htr Hb Ht Hrun Hnew) as [(start & G) _].
  destruct (G l1 i ob l Hl) as (st & H1 & H2 & H3 & H4 & _). exists st. auto.
Qed.
Lemma shown_sequential : forall E s st0 b t0 r s' new l1 i ob l, callbacks_keep_stage2 E -> tracks2 (s_o s) st0 ->
  set_before E s b -> threshold_before E s t0 -> run E s = (r, s') -> recorded s s' new -> o_parallel (s_o s') = false ->
  new = l1 ++ EvCallback (Some i) ob :: l ->
  exists st, ob_stage2 ob = Some st /\ s2_threshold st = threshold_after t0 (before_iteration l).
Proof.
  intros E s st0 b t0 r s' new l1 i ob l Hcb Htr Hb Ht Hrun Hnew Hp Hl.
  destruct (run_shown E b t0 s st0 r s' new Hcb Htr Hb Ht Hrun Hnew) as [(start & G) _].
  destruct (G l1 i ob l Hl) as (st & H1 & _ & _ & _ & H2). exists st. split; [exact H1|].
  unfold thr_ok, batch_size in H2. rewrite Hp in H2. exact H2.
Qed.
Lemma shown_batches : forall E s st0 b t0 r s' new l1 i ob l n, callbacks_keep_stage2 E -> tracks2 (s_o s) st0 ->
  set_before E s b -> threshold_before E s t0 -> run E s = (r, s') -> recorded s s' new ->
  o_parallel (s_o s') = true -> o_batch (s_o s') = Some n -> 2 <= n ->
  new = l1 ++ EvCallback (Some i) ob :: l ->
  exists st, ob_stage2 ob = Some st /\ s2_threshold st = threshold_after t0 l.
Proof.
  intros E s st0 b t0 r s' new l1 i ob l n Hcb Htr Hb Ht Hrun Hnew Hp Hn Hn2 Hl.
  destruct (run_shown E b t0 s st0 r s' new Hcb Htr Hb Ht Hrun Hnew) as [(start & G) _].
  destruct (G l1 i ob l Hl) as (st & H1 & _ & _ & _ & H2). exists st. split; [exact H1|].
  unfold thr_ok, batch_size in H2. rewrite Hp, Hn in H2. cbn [negb] in H2. rewrite (proj2 (Nat.ltb_lt 1 n)) in H2 by lia. exact H2.
Qed.
Lemma shown_final : forall E s st0 b set s' new, callbacks_keep_stage2 E -> tracks2 (s_o s) st0 -> set_before E s b ->
  run E s = (Ok set, s') -> recorded s s' new -> In EvBatch new ->
  exists st, tracks2 (s_o s') st /\ s2_set_size st = List.length set /\ shows_sets st0 st (sets_in_stage2 b new) /\
    s2_last_added st = last_added b (s2_last_added st0) new.
Proof.
  intros E s st0 b set s' new Hcb Htr Hb Hrun Hnew Hin.
  assert (T : exists t0, threshold_before E s t0).
  { destruct Hb as [[_ X]|(cp & X & _)]; [exists (mf_threshold (o_merit (s_o s))); left; auto|exists (cp_threshold cp); right; eauto]. }
  destruct T as [t0 Ht]. destruct (run_shown E b t0 s st0 _ s' new Hcb Htr Hb Ht Hrun Hnew) as [_ G]. exact (G set eq_refl Hin).
Qed.

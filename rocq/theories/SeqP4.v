(** * Sequential runs: what the record says about callbacks, saves and resuming (C40, C52, C54) *)
From Coq Require Import ZArith NArith List Bool Arith Lia String Permutation.
From Verif Require Import F64 Base Builders Types Filters Runner Observer Env EnvSpec
  ScatterSearch Codec Checkpoint Oqnlp Spec SpecStage2 SpecObserver SolverP Wp Actions RunP SetP FrameP EmitsP FilterP CountP TargetP HoareP SeqP SeqP2 SeqP3.
Import ListNotations.

Lemma app_cons_inv : forall A (a b l1 l2 : list A) x, a ++ b = l1 ++ x :: l2 ->
  (exists a2, a = l1 ++ x :: a2 /\ l2 = a2 ++ b) \/ (exists b1, l1 = a ++ b1 /\ b = b1 ++ x :: l2).
Proof.
  intros A a. induction a as [|y a IH]; intros b l1 l2 x H; [right; exists l1; auto|].
  destruct l1 as [|z l1]; simpl in H; injection H as -> H.
  - left. exists a. auto.
  - destruct (IH b l1 l2 x H) as [(a2 & -> & ->)|(b1 & -> & ->)]; [left; exists a2; auto|right; exists b1; auto].
Qed.
Lemma in_split_r : forall A (a b l1 l2 : list A) x, ~ In x a -> a ++ b = l1 ++ x :: l2 -> exists b1, l1 = a ++ b1 /\ b = b1 ++ x :: l2.
Proof.
  intros A a b l1 l2 x Hx H. destruct (app_cons_inv _ _ _ _ _ _ H) as [(a2 & -> & _)|G]; [|exact G].
  exfalso. apply Hx. apply in_or_app; simpl; auto.
Qed.
Lemma in_split_l : forall A (a b l1 l2 : list A) x, ~ In x b -> a ++ b = l1 ++ x :: l2 -> exists a2, a = l1 ++ x :: a2 /\ l2 = a2 ++ b.
Proof.
  intros A a b l1 l2 x Hx H. destruct (app_cons_inv _ _ _ _ _ _ H) as [G|(b1 & _ & ->)]; [exact G|].
  exfalso. apply Hx. apply in_or_app; simpl; auto.
Qed.
(** ** The pieces of a record *)
Definition plain (P : event -> Prop) (f : event -> option nat) : Prop := forall e, P e -> f e = None.
Lemma indices_none : forall (P : event -> Prop) f l, plain P f -> Forall P l -> indices f l = [].
Proof.
  intros P f l H G. induction G as [|e l He _ IH]; [reflexivity|]. unfold indices in *. simpl. rewrite (H e He), IH. reflexivity.
Qed.
Definition f_begun : event -> option nat := fun e => match e with EvIteration i => Some i | _ => None end.
Definition f_called : event -> option nat := fun e => match e with EvCallback (Some i) _ => Some i | _ => None end.
Definition f_saved : event -> option nat := fun e => match e with EvSave _ cp => Some (cp_iteration cp) | _ => None end.
Lemma plain_quiet : plain quiet f_begun /\ plain quiet f_called /\ plain quiet f_saved.
Proof. repeat split; intros []; simpl; intros []; reflexivity. Qed.
Lemma plain_early : plain early f_begun /\ plain early f_called /\ plain early f_saved.
Proof. split; [|split]; intros [| | | | | | | |[]| | | | |]; simpl; intro H; try destruct H; reflexivity. Qed.
Lemma plain_header : plain header f_begun /\ plain header f_called /\ plain header f_saved.
Proof. repeat split; intros []; simpl; intros []; reflexivity. Qed.
Lemma cb_begun : forall q i l, callback_record q i l -> indices f_begun l = [].
Proof.
  intros q i l H. unfold callback_record in H. destruct (due q i); [|subst; reflexivity]. destruct H as (prints & ob & ->).
  rewrite indices_app. simpl. rewrite app_nil_r. induction prints; auto.
Qed.
Lemma cb_saved : forall q i l, callback_record q i l -> indices f_saved l = [].
Proof.
  intros q i l H. unfold callback_record in H. destruct (due q i); [|subst; reflexivity]. destruct H as (prints & ob & ->).
  rewrite indices_app. simpl. rewrite app_nil_r. induction prints; auto.
Qed.
Lemma cb_called : forall q i l, callback_record q i l -> indices f_called l = filter (due q) [i].
Proof.
  intros q i l H. unfold callback_record in H. simpl. destruct (due q i); [|subst; reflexivity]. destruct H as (prints & ob & ->).
  rewrite indices_app. replace (indices f_called (map EvPrint prints)) with (@nil nat) by (induction prints; auto). reflexivity.
Qed.
Lemma sv_begun : forall c i l, save_record c i l -> indices f_begun l = [].
Proof. intros c i l H. unfold save_record in H. destruct (due_save c i); [|subst; reflexivity]. destruct H as (? & ? & _ & -> & _). reflexivity. Qed.
Lemma sv_called : forall c i l, save_record c i l -> indices f_called l = [].
Proof. intros c i l H. unfold save_record in H. destruct (due_save c i); [|subst; reflexivity]. destruct H as (? & ? & _ & -> & _). reflexivity. Qed.
Lemma sv_saved : forall c i l, save_record c i l -> indices f_saved l = filter (due_save c) [i].
Proof.
  intros c i l H. unfold save_record in H. simpl. destruct (due_save c i); [|subst; reflexivity].
  destruct H as (? & cp & _ & -> & Hc). unfold indices. simpl. rewrite Hc. reflexivity.
Qed.
Lemma wt_indices : forall q c i l, whole_tail q c i l ->
  indices f_begun l = [] /\ indices f_called l = filter (due q) [i] /\ indices f_saved l = filter (due_save c) [i].
Proof.
  intros q c i l (cbs & svs & -> & H1 & H2). rewrite !indices_app.
  rewrite (cb_begun _ _ _ H1), (sv_begun _ _ _ H2), (cb_called _ _ _ H1), (sv_called _ _ _ H2), (cb_saved _ _ _ H1), (sv_saved _ _ _ H2), !app_nil_r.
  repeat split; reflexivity.
Qed.
Lemma pt_begun : forall D q c i l, part_tail D q c i l -> indices f_begun l = [].
Proof. intros D q c i l [->|[_ [H|H]]]; [reflexivity|eapply cb_begun; eauto|apply wt_indices in H; apply H]. Qed.
Lemma indices_cons : forall f e l, indices f (e :: l) = (match f e with Some i => [i] | None => [] end) ++ indices f l.
Proof. reflexivity. Qed.
Lemma filter_cons : forall (f : nat -> bool) i l, filter f (i :: l) = filter f [i] ++ filter f l.
Proof. intros. simpl. destruct (f i); reflexivity. Qed.
Section Shapes.
Context (E : env) (fr : option nat * option cp_config * params * (solver_type * solver_config * option f64 * option nat * bool)).
Notation q := (fst (fst (fst fr))).
Notation c := (snd (fst (fst fr))).
Lemma shape_begun : forall is e l, shape E fr is e l -> indices f_begun l = is.
Proof.
  destruct plain_quiet as (Q & _ & _). destruct plain_header as (Hd & _ & _).
  intros is e l H. induction H; [reflexivity|..].
  - rewrite indices_cons, (Hd _ H). exact IHshape.
  - rewrite !indices_app, indices_cons, (indices_none _ _ _ Q H0), IHshape. apply wt_indices in H2. destruct H2 as [-> _]. reflexivity.
  - rewrite !indices_app, indices_cons, (indices_none _ _ _ Q H0), IHshape. reflexivity.
  - rewrite !indices_app, indices_cons, (indices_none _ _ _ Q H), IHshape, (pt_begun _ _ _ _ _ H0). reflexivity.
Qed.
Lemma shape_whole : forall is e l, shape E fr is e l -> e = Whole ->
  indices f_called l = filter (due q) is /\ indices f_saved l = filter (due_save c) is.
Proof.
  destruct plain_quiet as (_ & Q1 & Q2). destruct plain_header as (_ & Hd1 & Hd2).
  intros is e l H He. induction H; try discriminate He; [auto|..].
  - rewrite !indices_cons, (Hd1 _ H), (Hd2 _ H). exact (IHshape He).
  - destruct (IHshape He) as [I1 I2]. rewrite !indices_app, !indices_cons, (indices_none _ _ _ Q1 H0), (indices_none _ _ _ Q2 H0), I1, I2.
    apply wt_indices in H2. destruct H2 as (_ & -> & ->). rewrite (filter_cons (due q) i is), (filter_cons (due_save c) i is). auto.
Qed.
Lemma shape_hit : forall is l, shape E fr is Hit l ->
  indices f_called l = filter (due q) (tl is) /\ indices f_saved l = filter (due_save c) (tl is).
Proof.
  destruct plain_quiet as (_ & Q1 & Q2). intros is l H. remember Hit as e eqn:He. destruct H as [| | |i is0 o mid l0 K1 K2 K3 K4|]; try discriminate He. destruct (shape_whole _ _ _ K4 eq_refl) as [I1 I2].
  rewrite !indices_app, !indices_cons, (indices_none _ _ _ Q1 K2), (indices_none _ _ _ Q2 K2). auto.
Qed.
Lemma not_quiet : forall e l, ~ quiet e -> Forall quiet l -> ~ In e l.
Proof. intros e l H G Hin. rewrite Forall_forall in G. apply H, G, Hin. Qed.
Lemma iter_begun : forall i l, In (EvIteration i) l -> In i (indices f_begun l).
Proof. intros i l H. apply in_flat_map. exists (EvIteration i). split; [auto|left; reflexivity]. Qed.
Lemma not_begun : forall i l, indices f_begun l = [] -> ~ In (EvIteration i) l.
Proof. intros i l H G. apply iter_begun in G. rewrite H in G. destruct G. Qed.
Lemma split_iter : forall tail mid i l l1 j l2, indices f_begun tail = [] -> Forall quiet mid ->
  tail ++ mid ++ EvIteration i :: l = l1 ++ EvIteration j :: l2 ->
  (i = j /\ l = l2) \/ exists b, l = b ++ EvIteration j :: l2.
Proof.
  intros tail mid i l l1 j l2 Ht Hm H.
  apply in_split_r in H as (b1 & -> & H); [|apply not_begun; auto].
  apply in_split_r in H as (b2 & -> & H); [|apply not_quiet; auto].
  destruct b2 as [|e b2]; injection H as H1 H2; [left; auto|right; eauto].
Qed.
Lemma shape_split : forall is e l, shape E fr is e l -> forall l1 i l2, l = l1 ++ EvIteration i :: l2 ->
  exists is1 is2, is = is1 ++ i :: is2 /\ shape E fr is2 Whole l2.
Proof.
  intros is e l H. induction H; intros l1 j l2 Heq.
  - destruct l1; discriminate.
  - destruct l1 as [|e1 l1]; injection Heq as -> Heq; [destruct H|]. eapply IHshape; eauto.
  - destruct (split_iter _ _ _ _ _ _ _ (proj1 (wt_indices _ _ _ _ H2)) H0 Heq) as [[-> ->]|[b Hb]].
    + exists [], is. auto.
    + destruct (IHshape _ _ _ Hb) as (is1 & is2 & -> & G). exists (i :: is1), is2. auto.
  - change (mid ++ EvIteration i :: l) with ([] ++ mid ++ EvIteration i :: l) in Heq.
    destruct (split_iter [] _ _ _ _ _ _ eq_refl H0 Heq) as [[-> ->]|[b Hb]].
    + exists [], is. auto.
    + destruct (IHshape _ _ _ Hb) as (is1 & is2 & -> & G). exists (i :: is1), is2. auto.
  - destruct (split_iter _ _ _ _ _ _ _ (pt_begun _ _ _ _ _ H0) H Heq) as [[-> ->]|[b Hb]].
    + exists [], is. auto.
    + destruct (IHshape _ _ _ Hb) as (is1 & is2 & -> & G). exists (i :: is1), is2. auto.
Qed.
(** every begun candidate was finished *)
Definition done (i : nat) (l : list event) : Prop := exists o, frame o = fr /\ finished E o i l.
Lemma done_app : forall a b i l, done i l -> done i (a ++ l ++ b).
Proof.
  intros a b i l (o & Ho & [(p & obj & o' & H)|(p & obj & o' & x & l1 & l2 & -> & H1 & H2)]); exists o; (split; [auto|]).
  - left. exists p, obj, o'. apply in_or_app. right. apply in_or_app. auto.
  - right. exists p, obj, o', x, (a ++ l1), (l2 ++ b). split; [rewrite <- !app_assoc; reflexivity|]. split; [auto|apply in_or_app; auto].
Qed.
Lemma done_pre : forall a i l, done i l -> done i (a ++ l).
Proof. intros a i l H. rewrite <- (app_nil_r l). apply done_app. exact H. Qed.
Lemma done_post : forall b i l, done i l -> done i (l ++ b).
Proof. intros b i l H. exact (done_app [] b i l H). Qed.
Lemma shape_done : forall is e l, shape E fr is e l -> e <> Cut -> forall j, In j is -> done j l.
Proof.
  intros is e l H He. induction H; intros j Hj; try congruence; [destruct Hj|..].
  - change (e :: l) with ([e] ++ l). apply done_pre. apply IHshape; [discriminate|auto].
  - destruct Hj as [<-|Hj].
    + apply done_app. exists o. auto.
    + change (EvIteration i :: l) with ([EvIteration i] ++ l). do 3 apply done_pre. apply IHshape; [discriminate|auto].
  - destruct Hj as [<-|Hj].
    + apply done_post. exists o. auto.
    + change (EvIteration i :: l) with ([EvIteration i] ++ l). do 2 apply done_pre. apply IHshape; [discriminate|auto].
Qed.
Definition all_done (is : list nat) (l : list event) : Prop := forall j, In j is -> done j l.
Lemma cb_no_save : forall q i f cp l, callback_record q i l -> ~ In (EvSave f cp) l.
Proof.
  intros q i f cp l H G. assert (K : In (cp_iteration cp) (indices f_saved l)).
  { apply in_flat_map. exists (EvSave f cp). split; [auto|left; reflexivity]. }
  rewrite (cb_saved _ _ _ H) in K. destruct K.
Qed.
Lemma wt_save : forall i mid l tail l1 f cp l2, Forall quiet mid -> whole_tail q c i tail ->
  tail ++ mid ++ EvIteration i :: l = l1 ++ EvSave f cp :: l2 ->
  (cp_iteration cp = i /\ exists cbs, l2 = cbs ++ mid ++ EvIteration i :: l) \/ exists b, l = b ++ EvSave f cp :: l2.
Proof.
  intros i mid l tail l1 f cp l2 Hm (cbs & svs & -> & H1 & H2) H. rewrite <- app_assoc in H.
  assert (R : forall b1, cbs ++ mid ++ EvIteration i :: l = b1 ++ EvSave f cp :: l2 -> exists b, l = b ++ EvSave f cp :: l2).
  { intros b1 G. apply in_split_r in G as (b2 & -> & G); [|eapply cb_no_save; eauto].
    apply in_split_r in G as (b3 & -> & G); [|apply not_quiet; auto].
    destruct b3 as [|e b3]; [discriminate G|]. injection G as _ G. eauto. }
  unfold save_record in H2. destruct (due_save c i).
  - destruct H2 as (cfg & cp' & _ & -> & Hi). destruct l1 as [|e l1]; injection H as H3 H.
    + left. subst cp'. split; [auto|]. exists cbs. auto.
    + right. eapply R; eauto.
  - subst svs. right. eapply R; eauto.
Qed.
Lemma shape_save : forall is e l, shape E fr is e l -> forall l1 f cp l2, l = l1 ++ EvSave f cp :: l2 ->
  exists is1 is2, is = is1 ++ cp_iteration cp :: is2 /\ all_done (cp_iteration cp :: is2) l2.
Proof.
  intros is e l H. induction H; intros l1 f cp l2 Heq.
  - destruct l1; discriminate.
  - destruct l1 as [|e1 l1]; injection Heq as -> Heq; [destruct H|]. eapply IHshape; eauto.
  - destruct (wt_save _ _ _ _ _ _ _ _ H0 H2 Heq) as [[Hi (cbs & ->)]|[b Hb]].
    + exists [], is. rewrite Hi. split; [reflexivity|]. intros j [<-|Hj].
      * apply done_app. exists o. auto.
      * change (EvIteration i :: l) with ([EvIteration i] ++ l). do 3 apply done_pre. eapply shape_done; eauto. discriminate.
    + destruct (IHshape _ _ _ _ Hb) as (is1 & is2 & -> & G). exists (i :: is1), is2. auto.
  - apply in_split_r in Heq as (b & -> & Heq); [|apply not_quiet; auto]. destruct b as [|e0 b]; [discriminate Heq|injection Heq as _ Heq].
    destruct (IHshape _ _ _ _ Heq) as (is1 & is2 & -> & G). exists (i :: is1), is2. auto.
  - destruct H0 as [->|[(o & Ho & Hfin) [H0|H0]]].
    + simpl in Heq. apply in_split_r in Heq as (b & -> & Heq); [|apply not_quiet; auto]. destruct b as [|e0 b]; [discriminate Heq|injection Heq as _ Heq].
      destruct (IHshape _ _ _ _ Heq) as (is1 & is2 & -> & G). exists (i :: is1), is2. auto.
    + apply in_split_r in Heq as (b & -> & Heq); [|eapply cb_no_save; eauto].
      apply in_split_r in Heq as (b' & -> & Heq); [|apply not_quiet; auto]. destruct b' as [|e0 b']; [discriminate Heq|injection Heq as _ Heq].
      destruct (IHshape _ _ _ _ Heq) as (is1 & is2 & -> & G). exists (i :: is1), is2. auto.
    + destruct (wt_save _ _ _ _ _ _ _ _ H H0 Heq) as [[Hi (cbs & ->)]|[b Hb]].
      * exists [], is. rewrite Hi. split; [reflexivity|]. intros j [<-|Hj].
        -- apply done_app. exists o. auto.
        -- change (EvIteration i :: l) with ([EvIteration i] ++ l). do 3 apply done_pre. eapply shape_done; eauto. discriminate.
      * destruct (IHshape _ _ _ _ Hb) as (is1 & is2 & -> & G). exists (i :: is1), is2. auto.
Qed.
End Shapes.
Lemma final_indices : forall c it l, final_record c it l -> indices f_begun l = [] /\ indices f_called l = [].
Proof. intros [c|] it l H; [destruct H as (cp & -> & _)|simpl in H; subst]; auto. Qed.
Lemma final_saves : forall c it l, final_record c it l -> indices f_saved l = match c with Some _ => [it] | None => [] end.
Proof. intros [c|] it l H; [destruct H as (cp & -> & H)|simpl in H; subst]; [unfold indices; simpl; rewrite H|]; reflexivity. Qed.

Section Conclusions.
Context (E : env) (Hok : env_ok E) (Hcb : callbacks_keep_settings E) (s s' : st) (r : outcome oq_error solset) (new : list event).
Hypothesis Hrun : run E s = (r, s').
Hypothesis Hnew : recorded s s' new.
Hypothesis Hpar : o_parallel (s_o s') = false.
Notation q := (callback_frequency (s_o s')).
Notation c := (o_cp (s_o s')).
(** the record: Stage 2 after [pre] *)
Lemma record_parts : exists b, (Forall early new /\ (b = true -> target_reached E (s_o s') = Some true) \/
  exists start it0 l pre, Forall early pre /\ new = l ++ pre /\
    stage2_record E (s_o s') it0 (seq start (work_bound s' - start)) s' b l /\
    first_index E s start /\ (start = it0 \/ it0 = o_iteration (s_o s))) /\ (some_ok r = true -> b = true).
Proof.
  destruct (run_seq E Hok Hcb s r s' new Hrun Hnew Hpar) as (b & H & Hb). exists b. split; [|auto].
  destruct H as [b pre H1 H2|b l pre H1 H0 H2|b l cp H1 H2].
  - left. auto.
  - right. exists 0, (o_iteration (s_o s)), l, pre. rewrite Nat.sub_0_r. split; [auto|]. split; [auto|]. split; [auto|]. split; [left; auto|right; auto].
  - right. exists (cp_iteration cp), (cp_iteration cp), l, []. rewrite app_nil_r. split; [auto|]. split; [auto|]. split; [auto|]. split; [right; exists cp; auto|left; auto].
Qed.
Lemma early_indices : forall f pre, plain early f -> Forall early pre -> indices f pre = [].
Proof. intros. eapply indices_none; eauto. Qed.
Lemma early_no_iter : forall i pre, Forall early pre -> ~ In (EvIteration i) pre.
Proof. intros i pre H G. rewrite Forall_forall in H. exact (H _ G). Qed.
Lemma before_iteration : forall l1 i l2, new = l1 ++ EvIteration i :: l2 ->
  called l2 = filter (due q) (begun l2) /\ saved l2 = filter (due_save c) (begun l2).
Proof.
  intros l1 i l2 H. destruct record_parts as (b & [(Hp & _)|(start & it0 & l & pre & Hp & -> & Hs & _)] & _).
  { exfalso. eapply early_no_iter; [exact Hp|]. rewrite H. apply in_or_app. right. left. reflexivity. }
  assert (exists l0, shape E (frame (s_o s')) l0 Whole l2 \/ exists l3, l2 = l3 ++ pre /\ shape E (frame (s_o s')) l0 Whole l3).
  { apply in_split_l in H as (a2 & Ha & ->); [|apply early_no_iter; auto].
    destruct Hs as [k e lx fin Hsh _ _ _ Hf|k e lx Hsh].
    - apply in_split_r in Ha as (b1 & -> & Ha); [|apply not_begun; eapply final_indices; eauto].
      destruct (shape_split _ _ _ _ _ Hsh _ _ _ Ha) as (is1 & is2 & _ & G). exists is2. right. eauto.
    - destruct (shape_split _ _ _ _ _ Hsh _ _ _ Ha) as (is1 & is2 & _ & G). exists is2. right. eauto. }
  destruct H0 as (is2 & [G|(l3 & -> & G)]).
  - destruct (shape_whole _ _ _ _ _ G eq_refl) as [G1 G2]. pose proof (shape_begun _ _ _ _ _ G) as G3.
    change (called l2) with (indices f_called l2). change (saved l2) with (indices f_saved l2). change (begun l2) with (indices f_begun l2).
    rewrite G1, G2, G3. auto.
  - destruct (shape_whole _ _ _ _ _ G eq_refl) as [G1 G2]. pose proof (shape_begun _ _ _ _ _ G) as G3.
    destruct plain_early as (P1 & P2 & P3).
    change (called (l3 ++ pre)) with (indices f_called (l3 ++ pre)). change (saved (l3 ++ pre)) with (indices f_saved (l3 ++ pre)).
    change (begun (l3 ++ pre)) with (indices f_begun (l3 ++ pre)).
    rewrite !indices_app, (early_indices _ _ P1 Hp), (early_indices _ _ P2 Hp), (early_indices _ _ P3 Hp), !app_nil_r, G1, G2, G3. auto.
Qed.
(** the end of a successful run *)
Lemma at_end : forall set, r = Ok set ->
  (begun new = [] /\ called new = [] /\ saved new = [] /\ target_hit E (s_o s') set) \/
  exists fin l it, new = fin ++ l /\ final_record c it fin /\ (forall i rest, begun new = i :: rest -> it = i) /\ begun new = begun l /\
    ((called new = filter (due q) (begun new) /\ saved l = filter (due_save c) (begun new)) \/
     (target_hit E (s_o s') set /\ called new = filter (due q) (tl (begun new)) /\ saved l = filter (due_save c) (tl (begun new)))).
Proof.
  intros set Hr. assert (Hset : o_set (s_o s') = Some set) by (eapply (run_acts E); eauto).
  assert (Hh : target_reached E (s_o s') = Some true -> target_hit E (s_o s') set).
  { intro H. apply reached_iff in H as (set' & H1 & H2). congruence. }
  destruct plain_early as (P1 & P2 & P3).
  destruct record_parts as (b & [(Hp & Hb)|(start & it0 & l & pre & Hp & -> & Hs & _)] & Hbt); rewrite Hr in Hbt; specialize (Hbt eq_refl); subst b.
  { left. split; [exact (early_indices _ _ P1 Hp)|]. split; [exact (early_indices _ _ P2 Hp)|]. split; [exact (early_indices _ _ P3 Hp)|auto]. }
  right. inversion Hs as [k e lx fin Hsh He1 He2 _ Hf Hb Hl|]; subst.
  exists fin, (lx ++ pre), (hd it0 (rev (firstn k (seq start (work_bound s' - start))))).
  destruct (final_indices _ _ _ Hf) as [F1 F2]. pose proof (shape_begun _ _ _ _ _ Hsh) as Gb.
  change (called ((fin ++ lx) ++ pre)) with (indices f_called ((fin ++ lx) ++ pre)). change (saved (lx ++ pre)) with (indices f_saved (lx ++ pre)).
  change (begun ((fin ++ lx) ++ pre)) with (indices f_begun ((fin ++ lx) ++ pre)). change (begun (lx ++ pre)) with (indices f_begun (lx ++ pre)).
  rewrite !indices_app, (early_indices _ _ P1 Hp), (early_indices _ _ P2 Hp), (early_indices _ _ P3 Hp), !app_nil_r, F1, F2, Gb. simpl app.
  split; [rewrite <- app_assoc; reflexivity|]. split; [auto|]. split; [intros i rest Hi; rewrite Hi; reflexivity|]. split; [reflexivity|].
  destruct e; [left; exact (shape_whole _ _ _ _ _ Hsh eq_refl)|right; split; [auto|exact (shape_hit _ _ _ _ Hsh)]|congruence].
Qed.
(** every save: the candidates from the start of the run to the saved iteration are finished *)
Lemma done_of : forall j l, done E (frame (s_o s')) j l -> finished E (s_o s') j l.
Proof.
  intros j l (o & Ho & [H|(p & obj & o' & x & l1 & l2 & -> & (ty & cfg & H1 & H2) & H3)]); [left; exact H|].
  right. exists p, obj, o', x, l1, l2. split; [reflexivity|]. split; [|exact H3]. exists ty, cfg. split; [auto|].
  unfold frame in Ho. injection Ho as _ _ Hp Hty Hcfg _ _ _. rewrite <- Hp, <- Hty, <- Hcfg. exact H2.
Qed.
Lemma seq_prefix : forall k start n j m is1 is2, rev (firstn k (seq start n)) = is1 ++ m :: is2 -> start <= j -> j < m -> In j is2.
Proof.
  intros k start n j m is1 is2 H H1 H2. apply (f_equal (@rev nat)) in H. rewrite rev_involutive, rev_app_distr in H. simpl in H. rewrite <- app_assoc in H. simpl in H.
  assert (Hf : firstn k (seq start n) = seq start (Nat.min k n)).
  { clear. revert start n. induction k as [|k IH]; intros start [|n]; simpl; try reflexivity. rewrite IH. reflexivity. }
  rewrite Hf in H. apply in_rev.
  assert (Hl : seq start (List.length (rev is2)) = rev is2 /\ m = start + List.length (rev is2)).
  { clear - H. revert start H. generalize (Nat.min k n). induction (rev is2) as [|x l IH]; intros a start H; simpl in *.
    - destruct a; simpl in H; [discriminate|]. injection H as <- _. split; [reflexivity|lia].
    - destruct a; simpl in H; [discriminate|]. injection H as <- H. destruct (IH _ _ H) as [G1 G2]. rewrite G1. split; [reflexivity|lia]. }
  destruct Hl as [Hl ->]. rewrite <- Hl. apply in_seq. lia.
Qed.
Lemma at_save : o_iteration (s_o s) = 0 -> exists start, first_index E s start /\ (forall j, In j (begun new) -> start <= j) /\
  forall l1 f cp l2, new = l1 ++ EvSave f cp :: l2 ->
    (forall j, start <= j -> j < cp_iteration cp -> finished E (s_o s') j l2) /\
    (In (cp_iteration cp) (begun l2) -> finished E (s_o s') (cp_iteration cp) l2).
Proof.
  intro Hz. destruct record_parts as (b & [(Hp & _)|(start & it0 & l & pre & Hp & -> & Hs & Hst)] & _).
  { destruct (first_index_some E s) as [start Hst]. exists start. split; [exact Hst|]. split.
    - intros j Hj. change (In j (indices f_begun new)) in Hj. rewrite (early_indices _ _ (proj1 plain_early) Hp) in Hj. destruct Hj.
    - intros l1 f cp l2 H. exfalso. rewrite H, Forall_forall in Hp. apply (Hp (EvSave f cp)). apply in_or_app; simpl; auto. }
  destruct Hst as [Hst Hit'].
  assert (Hit : it0 <= start) by (destruct Hit'; lia).
  exists start. split; [exact Hst|]. split.
  { intros j Hj. change (In j (indices f_begun (l ++ pre))) in Hj.
    rewrite indices_app, (early_indices _ _ (proj1 plain_early) Hp), app_nil_r in Hj.
    assert (X : exists k e lx, shape E (frame (s_o s')) (rev (firstn k (seq start (work_bound s' - start)))) e lx /\ indices f_begun l = indices f_begun lx).
    { destruct Hs as [k e lx fin Hsh _ _ _ Hf|k e lx Hsh]; exists k, e, lx; (split; [auto|]); [|reflexivity].
      rewrite indices_app. destruct (final_indices _ _ _ Hf) as [-> _]. reflexivity. }
    destruct X as (k & e & lx & Hsh & Hl). rewrite Hl, (shape_begun _ _ _ _ _ Hsh) in Hj. apply in_rev in Hj.
    assert (Hin : In j (seq start (work_bound s' - start))) by (rewrite <- (firstn_skipn k); apply in_or_app; auto).
    apply in_seq in Hin. lia. }
  intros l1 f cp l2 H.
  apply in_split_l in H as (a2 & Ha & ->); [|intro G; rewrite Forall_forall in Hp; exact (Hp _ G)].
  assert (X : forall k e lx lx1, shape E (frame (s_o s')) (rev (firstn k (seq start (work_bound s' - start)))) e lx -> lx = lx1 ++ EvSave f cp :: a2 ->
    (forall j, start <= j -> j < cp_iteration cp -> finished E (s_o s') j (a2 ++ pre)) /\
    (In (cp_iteration cp) (begun (a2 ++ pre)) -> finished E (s_o s') (cp_iteration cp) (a2 ++ pre))).
  { intros k e lx lx1 Hsh Hlx. destruct (shape_save _ _ _ _ _ Hsh _ _ _ _ Hlx) as (is1 & is2 & Hi & G). split.
    - intros j H1 H2. apply done_of, done_post, G. right. eapply seq_prefix; eauto.
    - intros _. apply done_of, done_post, G. left. reflexivity. }
  destruct Hs as [k e lx fin Hsh He _ _ Hf|k e lx Hsh]; [|eapply X; eauto].
  destruct (app_cons_inv _ _ _ _ _ _ Ha) as [(f2 & -> & ->)|(b1 & -> & ->)]; [|eapply X; eauto].
  (* the final save *)
  unfold final_record in Hf. destruct (o_cp (s_o s')) as [cfg|]; [|destruct l1; discriminate].
  destruct Hf as (cp' & Hf & Hi). destruct l1 as [|e1 l1]; [|destruct l1; discriminate]. injection Hf as _ -> ->. simpl app.
  set (is := rev (firstn k (seq start (work_bound s' - start)))) in *.
  destruct is as [|m is2] eqn:His.
  - simpl in Hi. subst it0. split; [intros; lia|]. intro G. exfalso.
    change (In (cp_iteration cp') (indices f_begun (lx ++ pre))) in G.
    rewrite indices_app, (early_indices _ _ (proj1 plain_early) Hp), app_nil_r, (shape_begun _ _ _ _ _ Hsh) in G. destruct G.
  - simpl in Hi. pose proof (shape_done _ _ _ _ _ Hsh He) as G. split.
    + intros j H1 H2. apply done_of, done_post, G. right. rewrite Hi in H2. apply (seq_prefix k start (work_bound s' - start) j m [] is2); auto.
    + intros _. apply done_of, done_post, G. left. auto.
Qed.
End Conclusions.
Lemma callbacks_at_end : forall E s set s' new, env_ok E -> callbacks_keep_settings E ->
  run E s = (Ok set, s') -> recorded s s' new -> o_parallel (s_o s') = false ->
  called new = filter (due (callback_frequency (s_o s'))) (begun new) \/
  target_hit E (s_o s') set /\ called new = filter (due (callback_frequency (s_o s'))) (tl (begun new)).
Proof.
  intros E s set s' new Hok Hcb Hrun Hnew Hpar.
  destruct (at_end E Hok Hcb s s' (Ok set) new Hrun Hnew Hpar set eq_refl) as [(H1 & H2 & _)|(fin & l & it & _ & _ & _ & _ & [(H & _)|(H1 & H2 & _)])].
  - left. rewrite H1, H2. reflexivity.
  - left. exact H.
  - right. split; assumption.
Qed.

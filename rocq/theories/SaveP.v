(** * What the checkpoints saved by a run contain (C44, C52) *)
From Coq Require Import ZArith NArith List Bool Arith Lia String.
From Verif Require Import F64 F64Order F64Alg F64Real Base Builders Types Filters Runner Observer Env EnvSpec
  ScatterSearch Codec Checkpoint Oqnlp Spec SpecStage2 SpecObserver SpecCheckpoint SpecSave BasicP Wp Actions
  RunP SetP FrameP FilterP EmitsP CountP SeqP SeqP2 SeqP3 SeqP4.
Import ListNotations.

Lemma restored_agrees : forall cp o, agrees (restored cp o) cp.
Proof. intros cp o. unfold agrees. repeat split; reflexivity. Qed.
Lemma create_agrees : forall E s r s', create_checkpoint E s = (r, s') ->
  s_o s' = s_o s /\ exists cp, r = Ok cp /\ agrees (s_o s) cp.
Proof.
  intros E s r s' H. unfold create_checkpoint, bind, tick, the_oqnlp, get, ret, bind in H. cbn in H. injection H as <- <-.
  split; [reflexivity|]. eexists. split; [reflexivity|]. unfold agrees. repeat split; reflexivity.
Qed.
Lemma agrees_same : forall o o' cp, agrees o cp -> agrees o' cp -> same_progress o o'.
Proof. unfold agrees, same_progress. intuition congruence. Qed.

(** ** The state as a function of the record *)
Definition core (o1 : oqnlp) (s : st) : Prop :=
  o_set (s_o s) = latest_set (o_set o1) (trace s) /\
  mf_threshold (o_merit (s_o s)) = threshold_after (mf_threshold (o_merit o1)) (trace s) /\
  df_solutions (o_df (s_o s)) = df_solutions (o_df o1) ++ processed (trace s) /\
  same_config o1 (s_o s).
Lemma processed_cons : forall e l, processed (e :: l) =
  processed l ++ match e with EvResult x => [x] | _ => [] end.
Proof. intros e l. unfold processed. cbn [flat_map]. rewrite rev_app_distr. f_equal. destruct e; reflexivity. Qed.
Lemma core_start : forall s, trace s = [] -> core (s_o s) s.
Proof.
  intros s H. unfold core. rewrite H. cbn. rewrite app_nil_r. repeat split.
Qed.
Lemma act_core : forall E K objs o1 s s', act E K objs s s' -> core o1 s -> core o1 s'.
Proof.
  intros E K objs o1 s s' H (C1 & C2 & C3 & C4).
  assert (C4' : same_config o1 (s_o s')) by (eapply same_config_trans; [exact C4|eapply act_config; exact H]).
  split; [|split; [|split; [|exact C4']]]; clear C4'.
  - destruct H; try exact C1.
    + destruct e; try discriminate; exact C1.
    + destruct (pls_cases E sol s) as [[-> _]|[[_ [_ [-> _]]]|[_ [[_ [-> _]]|
        [cur [rst [_ [[_ [_ [ob ->]]]|[[_ [_ [_ [_ [ob ->]]]]]|[_ [_ [_ ->]]]]]]]]]]]]; try exact C1; reflexivity.
  - destruct H; try exact C2; try reflexivity.
    + destruct e; try discriminate; exact C2.
    + destruct (pls_cases E sol s) as [[-> _]|[[_ [_ [-> _]]]|[_ [[_ [-> _]]|
        [cur [rst [_ [[_ [_ [ob ->]]]|[[_ [_ [_ [_ [ob ->]]]]]|[_ [_ [_ ->]]]]]]]]]]]]; try exact C2; reflexivity.
  - destruct H; unfold noted, changed, with_disk, trace in *; cbn [s_o s_w w_trace o_df set_o_observer set_o_merit set_o_seed
      set_o_unchanged set_o_iteration set_o_ref] in *; rewrite ?processed_cons, ?app_nil_r; try exact C3.
    + destruct e; try discriminate; cbn; rewrite ?app_nil_r; exact C3.
    + assert (X : df_solutions (o_df (s_o s)) ++ [sol] = df_solutions (o_df o1) ++ processed (EvResult sol :: w_trace (s_w s)))
        by (rewrite processed_cons, app_assoc, C3; reflexivity).
      destruct (pls_cases E sol s) as [[-> _]|[[_ [_ [-> _]]]|[_ [[_ [-> _]]|
        [cur [rst [_ [[_ [_ [ob ->]]]|[[_ [_ [_ [_ [ob ->]]]]]|[_ [_ [_ ->]]]]]]]]]]]]; try exact C3;
        unfold changed, noted, trace; cbn [s_o s_w w_trace o_df set_o_df set_o_set set_o_merit set_o_observer df_solutions df_add];
        rewrite X, ?processed_cons, ?app_nil_r; reflexivity.
Qed.
Lemma acts_core : forall E K objs o1 s s', acts E K objs s s' -> core o1 s -> core o1 s'.
Proof.
  intros E K objs o1 s s' H. apply (star_inv _ _ (core o1) (fun a b Hi Ha => act_core E K objs o1 a b Ha Hi) _ _ H).
Qed.
(** ** The saves of Stage 2 *)
Definition saves_ok (o1 : oqnlp) (refs : list point) (tr : list event) : Prop :=
  forall l1 f cp l2, tr = l1 ++ EvSave f cp :: l2 -> carries o1 l2 refs cp.
Lemma saves_cons : forall o1 refs e tr, saves_ok o1 refs tr -> (forall f cp, e = EvSave f cp -> carries o1 tr refs cp) ->
  saves_ok o1 refs (e :: tr).
Proof.
  intros o1 refs e tr H He [|a l1] f cp l2 Heq; cbn [app] in Heq; injection Heq as -> ->; [eapply He; reflexivity|].
  eapply H; reflexivity.
Qed.
Lemma saves_quiet : forall o1 refs new tr, saves_ok o1 refs tr -> (forall f cp, ~ In (EvSave f cp) new) ->
  saves_ok o1 refs (new ++ tr).
Proof.
  intros o1 refs new. induction new as [|e new IH]; intros tr H Hn; [exact H|]. cbn [app].
  apply saves_cons; [apply IH; [exact H|]|].
  - intros f cp Hin. apply (Hn f cp). right. exact Hin.
  - intros f cp ->. destruct (Hn f cp). left. reflexivity.
Qed.
Lemma act_saves : forall E K objs o1 refs s s', act E K objs s s' -> core o1 s -> points_of (s_o s) = refs ->
  saves_ok o1 refs (trace s) -> saves_ok o1 refs (trace s').
Proof.
  intros E K objs o1 refs s s' H (C1 & C2 & C3 & C4) Hr Hs.
  destruct H; unfold noted, changed, with_disk, trace in *; cbn [s_o s_w w_trace];
    try exact Hs; try (apply saves_cons; [exact Hs|intros; discriminate]).
  - apply saves_cons; [exact Hs|]. intros f cp ->. discriminate.
  - (* a processed solution records no save *)
    destruct (pls_cases E sol s) as [[-> _]|[[_ [_ [-> _]]]|[_ [[_ [-> _]]|
        [cur [rst [_ [[_ [_ [ob ->]]]|[[_ [_ [_ [_ [ob ->]]]]]|[_ [_ [_ ->]]]]]]]]]]]]; unfold changed, noted, trace;
      cbn [s_o s_w w_trace]; try exact Hs;
      repeat (apply saves_cons; [|intros; discriminate]); exact Hs.
  - apply saves_cons; [exact Hs|]. intros f' cp' Heq. injection Heq as -> ->.
    unfold snapshot in H. destruct H as (S1 & S2 & S3 & S4 & S5 & S6 & S7 & S8 & S9 & S10 & S11 & S12 & S13 & S14).
    unfold same_config in C4. decompose [and] C4. unfold points_of in Hr.
    unfold carries. repeat split; congruence.
Qed.
Lemma act_ref : forall E K objs s s', (forall p, ~ K None p) -> act E K objs s s' -> o_ref (s_o s') = o_ref (s_o s).
Proof.
  intros E K objs s s' Hk H. apply (acts_ref E K objs s s' Hk). econstructor; [exact H|constructor].
Qed.
Lemma acts_saves : forall E K objs o1 refs s s', (forall p, ~ K None p) -> acts E K objs s s' -> core o1 s ->
  points_of (s_o s) = refs -> saves_ok o1 refs (trace s) -> saves_ok o1 refs (trace s').
Proof.
  intros E K objs o1 refs s s' Hk H C P S.
  refine (proj2 (proj2 (star_inv _ _ (fun s => core o1 s /\ points_of (s_o s) = refs /\ saves_ok o1 refs (trace s)) _ _ _ H (conj C (conj P S))))).
  intros a b (A1 & A2 & A3) Hab. split; [eapply act_core; eauto|]. split.
  - unfold points_of in *. rewrite (act_ref E K objs a b Hk Hab). exact A2.
  - eapply act_saves; eauto.
Qed.
Lemma resumes_blank : forall E s cp, resumes_from E (blank s) cp <-> resumes_from E s cp.
Proof. intros. reflexivity. Qed.
Lemma start_as : forall E s b s1, run_start E s b s1 -> starts_as E s (s_o s1).
Proof.
  intros E s b s1 H. destruct H as [d Hd Hn|c d cp H1 H2 H3 H4 Hd].
  - left. split; [reflexivity|]. intros cp (c & Hc & Ha & He & _). specialize (Hn c Hc Ha). congruence.
  - right. exists cp. split; [exists c; auto|]. apply restored_agrees.
Qed.
Lemma some_start : forall E s, exists o, starts_as E s o.
Proof.
  intros E s. destruct (first_index_some E s) as [i [[_ H]|(cp & H & _)]].
  - exists (s_o s). left. auto.
  - exists (restored cp (s_o s)). right. exists cp. split; [exact H|apply restored_agrees].
Qed.
Lemma early_no_save : forall new, Forall early new -> forall f cp, ~ In (EvSave f cp) new.
Proof. intros new H f cp Hin. rewrite Forall_forall in H. exact (H _ Hin). Qed.
Theorem run_saves : forall E s r s' new, run E s = (r, s') -> recorded s s' new ->
  exists o, starts_as E s o /\ forall l1 f cp l2, new = l1 ++ EvSave f cp :: l2 -> carries o l2 (points_of (s_o s')) cp.
Proof.
  intros E s r s' new Hrun Hnew.
  pose proof (run_blank E s r s' new Hrun Hnew) as Hb. fold (ends s' new) in Hb.
  change (points_of (s_o s')) with (points_of (s_o (ends s' new))).
  assert (Ht : new = trace (ends s' new)) by reflexivity.
  set (b := blank s) in *. assert (Eb : forall o, starts_as E b o <-> starts_as E s o) by (intro; reflexivity).
  assert (Tb : trace b = []) by reflexivity.
  generalize dependent (ends s' new). intros e Hb Ht. clearbody b.
  unfold run in Hb. unfold bind in Hb at 1.
  destruct (try_resume_from_checkpoint E b) as [[resumed|er|] s1] eqn:Hr.
  2,3: destruct (resume_fail E b _ _ Hr) as (d & _ & Hd); [congruence|];
       destruct (some_start E b) as [o Ho]; exists o; split; [apply Eb; exact Ho|];
       intros l1 f cp l2 Hx; exfalso; assert (He : trace e = []) by (injection Hb as _ <-; rewrite Hd; exact Tb);
       rewrite Ht, He in Hx; destruct l1; discriminate.
  apply resume_ok in Hr. exists (s_o s1). split; [apply Eb; eapply start_as; exact Hr|].
  assert (T1 : trace s1 = []) by (rewrite (proj2 (start_begins _ _ _ _ Hr)); exact Tb).
  pose proof (core_start s1 T1) as C1.
  change (saves_ok (s_o s1) (points_of (s_o e)) new). rewrite Ht. clear Ht Hnew Hrun new.
  destruct resumed.
  - unfold bind, the_oqnlp, get, ret, bind in Hb. cbn [s_o] in Hb.
    assert (Href : exists refs, o_ref (s_o s1) = Some refs) by (inversion Hr; subst; simpl; eauto).
    destruct Href as [refs Href]. rewrite Href in Hb.
    pose proof (a_stage2 E (candidate E true (s_o s1) refs) None true refs (o_unchanged (s_o s1))
                  (fun _ _ => True) s1 (fun i p H => H) (fun _ _ _ _ => I)) as [W1 _].
    rewrite Hb in W1. cbn [snd] in W1.
    assert (Hk : forall p, ~ candidate E true (s_o s1) refs None p) by (intros p (i & rs & Hx & _); discriminate).
    eapply acts_saves; [exact Hk|exact W1|exact C1| |].
    + unfold points_of. rewrite (acts_ref E _ _ _ _ Hk W1). reflexivity.
    + rewrite T1. intros l1 f cp l2 Hx. destruct l1; discriminate.
  - unfold bind in Hb at 1. destruct (stage1_run E s1) as [r2 s2] eqn:E1.
    destruct (em_stage1 E s1) as (pre & Hp & Hpre). rewrite E1 in Hp. cbn [snd] in Hp.
    assert (T2 : trace s2 = pre) by (unfold trace in *; rewrite Hp, T1, app_nil_r; reflexivity).
    assert (S2 : forall refs, saves_ok (s_o s1) refs (trace s2)).
    { intro refs. rewrite T2, <- (app_nil_r pre). apply saves_quiet; [intros [|? ?] ? ? ? Hx; discriminate|].
      apply early_no_save. exact Hpre. }
    pose proof (a_stage1 E (stage1_best E s1) None
        (fun r s2 => forall refs objs, r = Some (refs, objs) -> stage1_result E s1 s2 refs objs) s1
        (fun _ H => H) (fun _ _ _ H => H)) as [W1 W0].
    rewrite E1 in W1, W0. cbn [fst snd] in W1, W0.
    pose proof (acts_core _ _ _ _ _ _ W1 C1) as C2.
    destruct r2 as [[[refs objs]|]|er|].
    + pose proof (a_stage2 E (candidate E false (s_o s2) refs) (Some objs) false refs 0
                    (fun _ _ => True) s2 (fun i p H => H) (fun _ _ _ _ => I)) as [W2 _].
      rewrite Hb in W2. cbn [snd] in W2.
      assert (Hk : forall p, ~ candidate E false (s_o s2) refs None p) by (intros p (i & rs & Hx & _); discriminate).
      eapply acts_saves; [exact Hk|exact W2|exact C2| |apply S2].
      unfold points_of. rewrite (acts_ref E _ _ _ _ Hk W2). reflexivity.
    + assert (He : e = s2).
      { unfold final_set, bind, the_oqnlp, get, ret, fail, bind in Hb. cbn in Hb.
        destruct (o_set (s_o s2)); injection Hb; congruence. }
      rewrite He. apply S2.
    + injection Hb as _ <-. apply S2.
    + injection Hb as _ <-. apply S2.
Qed.

(** ** Where the saves of a sequential run are *)
Lemma idle_nil : idle_until_next [].
Proof. exists [], []. repeat split; auto. Qed.
Lemma idle_cons : forall e l, idle e -> idle_until_next l -> idle_until_next (e :: l).
Proof.
  intros e l He (later & gap & -> & Hg & [->|(a & i & ->)]).
  - exists [], (e :: gap). repeat split; auto.
  - exists (e :: a ++ [EvIteration i]), gap. repeat split; auto. right. exists (e :: a), i. reflexivity.
Qed.
Lemma idle_app : forall x l, Forall idle x -> idle_until_next l -> idle_until_next (x ++ l).
Proof. intros x l H Hl. induction H; [exact Hl|]. simpl. apply idle_cons; assumption. Qed.
Lemma idle_iter : forall x i l, idle_until_next l -> idle_until_next (x ++ EvIteration i :: l).
Proof.
  intros x i l (later & gap & -> & Hg & [->|(a & j & ->)]).
  - exists (x ++ [EvIteration i]), gap. rewrite <- app_assoc. repeat split; auto. right. exists x, i. reflexivity.
  - exists (x ++ EvIteration i :: a ++ [EvIteration j]), gap. split; [|split; [exact Hg|right]].
    + rewrite <- !app_assoc. cbn [app]. rewrite <- !app_assoc. reflexivity.
    + exists (x ++ EvIteration i :: a), j. rewrite <- app_assoc. reflexivity.
Qed.
Lemma quiet_no_save : forall mid f cp, Forall quiet mid -> ~ In (EvSave f cp) mid.
Proof. intros mid f cp H G. rewrite Forall_forall in H. exact (H _ G). Qed.
Lemma cb_no_save : forall q i l f cp, callback_record q i l -> ~ In (EvSave f cp) l.
Proof.
  intros q i l f cp H G. unfold callback_record in H. destruct (due q i); [|subst; destruct G]. destruct H as (prints & ob & ->).
  apply in_app_iff in G as [G|[G|[]]]; [|discriminate]. apply in_map_iff in G as (? & ? & _). discriminate.
Qed.
Lemma tail_split : forall q c i tail l1 f cp l2, whole_tail q c i tail -> tail = l1 ++ EvSave f cp :: l2 -> l1 = [].
Proof.
  intros q c i tail l1 f cp l2 (cbs & svs & -> & H1 & H2) Heq.
  apply in_split_l in Heq as (a2 & Ha & _); [|eapply cb_no_save; eauto].
  unfold save_record in H2. destruct (due_save c i); [|subst; destruct l1; discriminate].
  destruct H2 as (cfg & cp' & _ & -> & _). destruct l1 as [|? [|? ?]]; [reflexivity|discriminate ..].
Qed.
Lemma part_split : forall P q c i tail l1 f cp l2, part_tail P q c i tail -> tail = l1 ++ EvSave f cp :: l2 -> l1 = [].
Proof.
  intros P q c i tail l1 f cp l2 [->|(_ & [H|H])] Heq; [destruct l1; discriminate| |eapply tail_split; eauto].
  exfalso. eapply cb_no_save; [exact H|]. rewrite Heq. apply in_or_app; simpl; eauto.
Qed.
Lemma shape_idle : forall E fr is e l, shape E fr is e l -> forall l1 f cp l2, l = l1 ++ EvSave f cp :: l2 -> idle_until_next l1.
Proof.
  intros E fr is e l H. induction H as [|is e l He H IH|i is o mid tail l Ho Hm Hf Ht H IH|i is o mid l Ho Hm Hf H IH|
    i is mid tail l Hm Ht H IH]; intros l1 f cp l2 Heq.
  - destruct l1; discriminate.
  - destruct l1 as [|x l1]; [apply idle_nil|]. injection Heq as <- ->. apply idle_cons; [|eapply IH; reflexivity].
    destruct e; try contradiction; exact I.
  - apply app_cons_inv in Heq as [(a2 & Ha & _)|(b1 & -> & Hb)].
    + rewrite (tail_split _ _ _ _ _ _ _ _ Ht Ha). apply idle_nil.
    + apply in_split_r in Hb as (b2 & -> & Hb); [|apply quiet_no_save; exact Hm].
      destruct b2 as [|x b2]; [discriminate|]. injection Hb as <- ->. rewrite app_assoc. apply idle_iter. eapply IH. reflexivity.
  - apply in_split_r in Heq as (b2 & -> & Hb); [|apply quiet_no_save; exact Hm].
    destruct b2 as [|x b2]; [discriminate|]. injection Hb as <- ->. apply idle_iter. eapply IH. reflexivity.
  - apply app_cons_inv in Heq as [(a2 & Ha & _)|(b1 & -> & Hb)].
    + rewrite (part_split _ _ _ _ _ _ _ _ _ Ht Ha). apply idle_nil.
    + apply in_split_r in Hb as (b2 & -> & Hb); [|apply quiet_no_save; exact Hm].
      destruct b2 as [|x b2]; [discriminate|]. injection Hb as <- ->. rewrite app_assoc. apply idle_iter. eapply IH. reflexivity.
Qed.
Theorem saves_between : forall E s r s' new l1 f cp l2, env_ok E -> callbacks_keep_settings E -> run E s = (r, s') ->
  recorded s s' new -> o_parallel (s_o s') = false -> new = l1 ++ EvSave f cp :: l2 -> idle_until_next l1.
Proof.
  intros E s r s' new l1 f cp l2 Hok Hcb Hrun Hnew Hpar Heq.
  destruct (record_parts E Hok Hcb s s' r new Hrun Hnew Hpar) as (b & [(Hp & _)|(start & it0 & l & pre & Hp & -> & Hs & _)] & _).
  { exfalso. eapply early_no_save; [exact Hp|]. rewrite Heq. apply in_or_app; simpl; eauto. }
  apply in_split_l in Heq as (a2 & Ha & _); [|apply early_no_save; exact Hp].
  destruct Hs as [k e lx fin Hsh _ _ _ Hf|k e lx Hsh]; [|eapply shape_idle; eauto].
  assert (Hi : Forall idle fin).
  { unfold final_record in Hf. destruct (o_cp (s_o s')); [|subst; constructor].
    destruct Hf as (cp' & -> & _). repeat constructor. }
  apply app_cons_inv in Ha as [(a3 & Hx & _)|(b1 & -> & Hb)].
  - unfold final_record in Hf. destruct (o_cp (s_o s')); [|subst; destruct l1; discriminate].
    destruct Hf as (cp' & -> & _). destruct l1 as [|? [|? ?]]; [apply idle_nil|discriminate ..].
  - apply idle_app; [exact Hi|]. eapply shape_idle; eauto.
Qed.

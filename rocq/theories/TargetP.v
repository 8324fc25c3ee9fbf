(** * The target objective ends the search (C32) *)
From Coq Require Import ZArith NArith List Bool Arith Lia String Permutation.
From Verif Require Import F64 F64Order Base Builders Types Filters Runner Observer Env EnvSpec
  ScatterSearch Codec Checkpoint Oqnlp Spec SpecStage2 BasicP Wp Actions RunP SetP LeaderP FrameP FilterP CountP EmitsP.
Import ListNotations.

Lemma within_bounds_iff : forall b p, within_bounds b p = Some true <->
  List.length p <= List.length b /\
  forall i v lh, nth_error p i = Some v -> nth_error b i = Some lh -> not_outside lh v.
Proof.
  intros b p. split; [apply within_bounds_inside|]. revert b.
  induction p as [|x p IH]; intros [|[lo hi] b] [Hl Hn]; simpl in *; try reflexivity; try lia.
  destruct (Hn 0 x (lo, hi) eq_refl eq_refl) as [H1 H2]. simpl in *. unfold fgt. rewrite H1, H2. simpl.
  apply IH. split; [lia|]. intros i v lh Hv Hb. apply (Hn (S i) v lh); auto.
Qed.
Lemma reached_iff : forall E o, target_reached E o = Some true <->
  exists set, o_set o = Some set /\ target_hit E o set.
Proof.
  intros E o. unfold target_reached, target_hit. destruct (o_target o) as [t|].
  2: { split; [discriminate|]. intros (? & _ & ? & ? & ? & _). discriminate. }
  destruct (o_set o) as [set|]. 2: { split; [discriminate|]. intros (? & ? & _). discriminate. }
  destruct (best_solution set) as [b|] eqn:Hb.
  2: { split; [discriminate|]. intros (x & Hx & ? & ? & _ & ? & _). congruence. }
  destruct (o_exclude o) eqn:He; simpl; destruct (fle (ls_obj b) t) eqn:Hl.
  - split.
    + intro H. exists set. split; auto. exists t, b. apply within_bounds_iff in H. repeat (split; auto).
    + intros (x & Hx & t' & b' & Ht & Hb' & _ & Hi). apply within_bounds_iff. injection Hx as <-.
      rewrite Hb in Hb'. injection Hb' as <-. apply Hi. auto.
  - split; [discriminate|]. intros (x & Hx & t' & b' & Ht & Hb' & Hl' & _). congruence.
  - split; auto. intros _. exists set. split; auto. exists t, b. repeat split; auto; discriminate.
  - split; [discriminate|]. intros (x & Hx & t' & b' & Ht & Hb' & Hl' & _). congruence.
Qed.

Section Target.
Context (E : env) (c : oqnlp).   (* [c] fixes the target and the exclusion flag *)
Definition hit (set : solset) : Prop := target_hit E c set.
Definition fits (o : oqnlp) : Prop := o_target o = o_target c /\ o_exclude o = o_exclude c.
Lemma hit_reached : forall o set, fits o -> o_set o = Some set -> (target_reached E o = Some true <-> hit set).
Proof.
  intros o set [F1 F2] Hs. rewrite reached_iff. unfold hit, target_hit. rewrite F1, F2. split.
  - intros (x & Hx & H). rewrite Hs in Hx. injection Hx as <-. exact H.
  - intro H. exists set. auto.
Qed.
(** nothing that is work was recorded after a set that reaches the target *)
Definition halted (tr : list event) : Prop := forall l1 set l2, tr = l1 ++ EvSolutionSet set :: l2 -> hit set ->
  forall e, In e l1 -> ~ work e.
Definition no_hit (tr : list event) : Prop := forall set, In (EvSolutionSet set) tr -> ~ hit set.
Definition not_set (e : event) : Prop := match e with EvSolutionSet _ => False | _ => True end.
Lemma no_hit_halted : forall tr, no_hit tr -> halted tr.
Proof. intros tr H l1 set l2 -> Hh. exfalso. eapply H; eauto. apply in_or_app; right; left; auto. Qed.
Lemma no_hit_more : forall new tr, no_hit tr -> Forall not_set new -> no_hit (new ++ tr).
Proof.
  intros new tr H Hn set Hin. apply in_app_or in Hin as [Hin|Hin]; auto.
  rewrite Forall_forall in Hn. specialize (Hn _ Hin). contradiction.
Qed.
Lemma work_set : forall set, work (EvSolutionSet set). Proof. intro; exact I. Qed.
Lemma halted_more : forall new tr, halted tr -> Forall (fun e => ~ work e) new -> halted (new ++ tr).
Proof.
  intros new tr H Hn l1 set l2 Heq Hh e He. rewrite Forall_forall in Hn.
  apply app_split2 in Heq as [(r & Hx & Hy)|(r & Hx & Hy)].
  - exfalso. apply (Hn (EvSolutionSet set)); [rewrite Hx; apply in_or_app; right; left; auto|apply work_set].
  - subst l1. apply in_app_or in He as [He|He]; [apply Hn; auto|]. eapply H; eauto.
Qed.
(** before the target is reached / just after a solution was processed / when stopping *)
Definition before (s : st) : Prop := no_hit (trace s) /\ fits (s_o s).
Definition stopping (s : st) : Prop := halted (trace s) /\ fits (s_o s) /\
  (no_hit (trace s) \/ exists set, o_set (s_o s) = Some set /\ hit set).
Definition after (s : st) : Prop := halted (trace s) /\ fits (s_o s) /\
  exists set, o_set (s_o s) = Some set /\ hit set.
Definition okay (s : st) : Prop := halted (trace s) /\ fits (s_o s).
Definition hoare {A} (P : st -> Prop) (m : OM A) (Q : A -> st -> Prop) : Prop :=
  forall s, P s -> okay (snd (m s)) /\ (forall a s', m s = (Ok a, s') -> Q a s').

Lemma h_bind : forall A B (P : st -> Prop) (m : OM A) Q (k : A -> OM B) R,
  hoare P m Q -> (forall a, hoare (Q a) (k a) R) -> hoare P (bind m k) R.
Proof.
  intros A B P m Q k R H1 H2 s Hp. unfold bind. destruct (H1 s Hp) as [G1 G2].
  destruct (m s) as [[a|e|] s1] eqn:Em; simpl in *; [|split; [auto|intros; discriminate]..].
  apply H2. apply G2. auto.
Qed.
Lemma h_weak : forall A (P P' : st -> Prop) (m : OM A) (Q Q' : A -> st -> Prop),
  hoare P' m Q' -> (forall s, P s -> P' s) -> (forall a s, Q' a s -> Q a s) -> hoare P m Q.
Proof. intros A P P' m Q Q' H H1 H2 s Hp. destruct (H s (H1 s Hp)). split; auto. Qed.
Lemma before_halted : forall s, before s -> okay s.
Proof. intros s [H F]. split; [apply no_hit_halted|]; auto. Qed.
Lemma stopping_okay : forall s, stopping s -> okay s. Proof. intros s (H & F & _). split; auto. Qed.
Lemma after_okay : forall s, after s -> okay s. Proof. intros s (H & F & _). split; auto. Qed.
Lemma h_ret : forall A (P : st -> Prop) (a : A) (Q : A -> st -> Prop), (forall s, P s -> okay s /\ Q a s) -> hoare P (ret a) Q.
Proof. intros A P a Q H s Hp. destruct (H s Hp). split; auto. intros a' s' Hx. injection Hx as <- <-. auto. Qed.
(** a computation that records no set keeps [before] *)
Lemma h_before : forall A (m : OM A), emits not_set m -> keeps (fun o => (o_target o, o_exclude o)) m ->
  hoare before m (fun _ => before).
Proof.
  intros A m H1 H2 s [Hn [F1 F2]]. destruct (H1 s) as (new & Ht & Hw). specialize (H2 s). simpl in H2.
  injection H2 as K1 K2.
  assert (B : before (snd (m s))).
  { split; [rewrite Ht; apply no_hit_more; auto|]. split; congruence. }
  split; [apply before_halted; auto|]. intros a s' Hx. rewrite Hx in B. exact B.
Qed.
(** a computation that does no work keeps [stopping] *)
Definition key (o : oqnlp) := (o_target o, o_exclude o, o_set o).
Definition rest (e : event) : Prop := ~ work e.
Lemma rest_not_set : forall e, rest e -> not_set e.
Proof. intros [] H; simpl; auto. apply H. exact I. Qed.
Lemma h_stopping : forall A (m : OM A), emits rest m -> keeps key m -> hoare stopping m (fun _ => stopping).
Proof.
  intros A m H1 H2 s [Hh [[F1 F2] Hc]]. destruct (H1 s) as (new & Ht & Hw). specialize (H2 s). unfold key in H2.
  injection H2 as K1 K2 K3.
  assert (B : stopping (snd (m s))).
  { split; [rewrite Ht; apply halted_more; auto|]. split; [split; congruence|].
    destruct Hc as [Hc|(set & Hs & Hh2)]; [left; rewrite Ht; apply no_hit_more; auto|right].
    - eapply Forall_impl; [|exact Hw]. apply rest_not_set.
    - exists set. split; congruence. }
  split; [apply stopping_okay, B|]. intros a s' Hx. rewrite Hx in B. exact B.
Qed.
Lemma h_oqnlp : forall P : st -> Prop, (forall s, P s -> okay s) ->
  hoare P the_oqnlp (fun o s => P s /\ o = s_o s).
Proof. intros P H s Hp. split; [apply H; auto|]. intros a s' Hx. injection Hx as <- <-. auto. Qed.
(** the test made after a solution was processed *)
Lemma h_test : forall o, hoare (fun s => stopping s /\ o = s_o s) (unwrap (target_reached E o))
  (fun b s => if b : bool then after s else before s).
Proof.
  intros o s [[Hh [F Hc]] ->]. split.
  - destruct (target_reached E (s_o s)); split; auto.
  - intros b s' Hx. destruct (target_reached E (s_o s)) as [b'|] eqn:Ht; [|discriminate]. injection Hx as -> ->.
    destruct b; [split; [exact Hh|]; split; [exact F|]; apply reached_iff in Ht as (set & Hs & Hset); exists set; split; [exact Hs|]; apply (hit_reached _ _ F Hs); apply reached_iff; exists set; auto|]. split; auto. destruct Hc as [Hc|(set & Hs & Hh2)]; auto.
    exfalso. apply (hit_reached _ _ F Hs) in Hh2. congruence.
Qed.
Lemma before_stopping : forall s, before s -> stopping s.
Proof. intros s H. split; [apply before_halted; auto|]. split; [apply H|]. left. apply H. Qed.
(** processing a solution *)
Lemma halted_set : forall set tr l, no_hit tr -> Forall rest l -> halted (l ++ EvSolutionSet set :: tr).
Proof.
  intros set tr l Hn Hl. apply halted_more; auto. intros l1 set' l2 Heq Hh e He.
  destruct l1 as [|a l1]; [destruct He|]. simpl in Heq. injection Heq as _ Heq. exfalso.
  apply (Hn set'); auto. rewrite Heq. apply in_or_app; right; left; auto.
Qed.
Lemma stopping_set : forall s set l tr, fits (s_o s) -> o_set (s_o s) = Some set ->
  trace s = l ++ EvSolutionSet set :: tr -> no_hit tr -> Forall rest l -> stopping s.
Proof.
  intros s set l tr F Hs Ht Hn Hl. split; [rewrite Ht; apply halted_set; auto|]. split; [exact F|].
  pose proof (hit_reached _ _ F Hs) as Hr.
  assert (D : hit set \/ ~ hit set).
  { rewrite <- Hr. destruct (target_reached E (s_o s)) as [[|]|]; auto; right; discriminate. }
  destruct D as [D|D]; [right; eauto|left]. rewrite Ht. intros x Hin. apply in_app_or in Hin as [Hin|[Hin|Hin]].
  - rewrite Forall_forall in Hl. exfalso. apply (Hl _ Hin). exact I.
  - injection Hin as <-. exact D.
  - apply Hn; auto.
Qed.
Lemma h_process : forall sol, hoare before (process_local_solution E sol) (fun _ => stopping).
Proof.
  intros sol s [Hn F].
  assert (B : stopping (snd (process_local_solution E sol s))).
  { assert (F' : fits (s_o (snd (process_local_solution E sol s)))).
    { destruct F as [F1 F2]. destruct (pls_cases E sol s) as [[-> _]|[[_ [_ [-> _]]]|[_ [[_ [-> _]]|
        [cur [rst [_ [[_ [_ [ob ->]]]|[[_ [_ [_ [_ [ob ->]]]]]|[_ [_ [_ ->]]]]]]]]]]]]; split; auto. }
    assert (Hr : no_hit (EvResult sol :: trace s)) by (apply (no_hit_more [EvResult sol]); [exact Hn|repeat constructor]).
    destruct (pls_cases E sol s) as [[G _]|[[_ [_ [G _]]]|[_ [[_ [G _]]|
        [cur [rst [_ [[_ [_ [ob G]]]|[[_ [_ [_ [_ [ob G]]]]]|[_ [_ [_ G]]]]]]]]]]]]; rewrite G in *; clear G.
    - apply before_stopping. split; auto.
    - apply before_stopping. split; auto.
    - apply (stopping_set _ [sol] [EvThreshold (ls_obj sol)] (EvResult sol :: trace s)); auto.
      repeat constructor. intros [].
    - apply (stopping_set _ [sol] [EvThreshold (ls_obj sol)] (EvResult sol :: trace s)); auto.
      repeat constructor. intros [].
    - apply (stopping_set _ ((cur :: rst) ++ [sol]) [] (EvResult sol :: trace s)); auto.
    - apply before_stopping. split; auto. }
  split; [apply stopping_okay, B|]. intros b s' Hx. rewrite Hx in B. exact B.
Qed.

(** ** The driver *)
Notation tx := (fun o => (o_target o, o_exclude o)).
Lemma r_callback : forall i ob, rest (EvCallback i ob). Proof. intros i ob []. Qed.
Lemma r_print : forall m, rest (EvPrint m). Proof. intros m []. Qed.
Lemma r_save : forall f cp, rest (EvSave f cp). Proof. intros f cp []. Qed.
Lemma n_callback : forall i ob, not_set (EvCallback i ob). Proof. intros; exact I. Qed.
Lemma n_print : forall m, not_set (EvPrint m). Proof. intros; exact I. Qed.
Lemma n_save : forall f cp, not_set (EvSave f cp). Proof. intros; exact I. Qed.
Hint Resolve r_callback r_print r_save n_callback n_print n_save : core.
Lemma q_callback : forall i, hoare stopping (callback E i) (fun _ => stopping).
Proof. intro. apply h_stopping; [apply e_callback|apply k_callback]; auto. Qed.
Lemma q_callback_at : forall i, hoare stopping (callback_at E i) (fun _ => stopping).
Proof. intro. apply h_stopping; [apply e_callback_at|apply k_callback_at]; auto. Qed.
Lemma q_obs_search : forall a n, hoare stopping (obs_search a n) (fun _ => stopping).
Proof. intros. apply h_stopping; [apply e_obs_search|apply k_obs_search]; auto. Qed.
Lemma q_obs_iteration : forall a n, hoare stopping (obs_iteration a n) (fun _ => stopping).
Proof. intros. apply h_stopping; [apply e_obs_iteration|apply k_obs_iteration]; auto. Qed.
Lemma b_callback : forall i, hoare before (callback E i) (fun _ => before).
Proof. intro. apply h_before; [apply e_callback|apply k_callback]; auto. Qed.
Lemma b_callback_at : forall i, hoare before (callback_at E i) (fun _ => before).
Proof. intro. apply h_before; [apply e_callback_at|apply k_callback_at]; auto. Qed.
Lemma b_save : hoare before (maybe_save_checkpoint E) (fun _ => before).
Proof. apply h_before; [apply e_maybe_save|apply k_maybe_save]; auto. Qed.
Lemma b_obs_iteration : forall a n, hoare before (obs_iteration a n) (fun _ => before).
Proof. intros. apply h_before; [apply e_obs_iteration|apply k_obs_iteration]; auto. Qed.
Lemma b_count : forall u, hoare before (count_unchanged u) (fun _ => before).
Proof. intro. apply h_before; [apply e_count; exact (fun _ => I)|apply k_count; auto]. Qed.
Lemma b_threshold : forall v, hoare before (set_threshold v) (fun _ => before).
Proof. intro. apply h_before; [apply e_threshold; exact I|apply k_threshold; auto]. Qed.
Lemma b_begin : forall i u, hoare before (begin_iteration E i u) (fun _ => before).
Proof. intros. apply h_before; [apply e_begin; exact I|apply k_begin; auto]. Qed.
Lemma b_emit : forall l, Forall not_set l -> hoare before (emit l) (fun _ => before).
Proof. intros. apply h_before; [apply e_emit; auto|apply k_emit]. Qed.
Lemma b_obs : forall f, hoare before (obs f) (fun _ => before).
Proof. intros. apply h_before; [apply e_upd|apply k_upd; auto]. Qed.
Lemma b_tick : hoare before tick (fun _ => before).
Proof. apply h_before; [apply e_tick|apply k_tick]. Qed.
Lemma b_of_result : forall A r, hoare before (@of_result _ _ A r) (fun _ => before).
Proof. intros. apply h_before; [apply e_of_result|apply k_of_result]. Qed.
Lemma b_of_solver : forall A r, hoare before (@of_solver A r) (fun _ => before).
Proof. intros. apply h_before; [apply e_of_solver|apply k_of_solver]. Qed.
Lemma b_unwrap : forall A r, hoare before (@unwrap _ _ A r) (fun _ => before).
Proof. intros. apply h_before; [apply e_unwrap|apply k_unwrap]. Qed.
Lemma b_oqnlp : hoare before the_oqnlp (fun o s => before s).
Proof. apply h_before; [apply e_oqnlp|apply k_oqnlp]. Qed.
Lemma b_panic : forall A (Q : A -> st -> Prop), hoare before panic Q.
Proof. intros A Q s H. split; [apply before_halted; auto|intros; discriminate]. Qed.
Lemma b_fail : forall A e (Q : A -> st -> Prop), hoare before (fail e) Q.
Proof. intros A e Q s H. split; [apply before_halted; auto|intros; discriminate]. Qed.
(** what a computation leaves: the target was reached ([stop]) or not *)
Definition left_by (stop : bool) (s : st) : Prop := if stop then after s else before s.
Lemma b_ret : forall A (a : A) (Q : A -> st -> Prop), (forall s, before s -> Q a s) -> hoare before (ret a) Q.
Proof. intros. apply h_ret. intros; split; [apply before_halted|]; auto. Qed.
Lemma a_ret : forall A (a : A) (Q : A -> st -> Prop), (forall s, after s -> Q a s) -> hoare after (ret a) Q.
Proof. intros. apply h_ret. intros; split; auto using after_okay. Qed.
Lemma test_and : forall A (k : bool -> OM A) (Q : A -> st -> Prop),
  (forall b, hoare (left_by b) (k b) Q) ->
  hoare stopping (bind the_oqnlp (fun o => bind (unwrap (target_reached E o)) k)) Q.
Proof.
  intros A k Q H. eapply h_bind; [apply h_oqnlp; apply stopping_okay|]. intro o.
  eapply h_bind; [apply h_test|]. exact H.
Qed.

Ltac hb := first [ apply b_callback | apply b_callback_at | apply b_save | apply b_obs_iteration | apply b_count
  | apply b_threshold | apply b_begin | apply b_obs | apply b_tick | apply b_of_result | apply b_of_solver
  | apply b_unwrap | apply b_oqnlp | apply b_panic | apply b_fail
  | apply b_emit; repeat (apply Forall_cons; [exact I|]); apply Forall_nil
  | apply q_callback | apply q_callback_at | apply q_obs_search | apply q_obs_iteration | apply h_process ].
Ltac hs := eapply h_bind; [hb|intro].
Lemma h_one_seq : forall objs i p u, hoare before (process_one_seq E objs i p u) (fun r => left_by (snd r)).
Proof.
  intros. unfold process_one_seq. do 2 hs.
  eapply h_bind with (Q := fun _ => before). { unfold emit_eval. destruct objs; [apply b_ret; auto|hb]. } intros _.
  hs. eapply h_bind with (Q := fun _ => before). { destruct objs; [apply b_ret; auto|hb]. } intros _.
  hs. cbv zeta. hs.
  eapply h_bind with (Q := fun r : nat * bool => left_by (snd r)).
  - destruct (should_start_local _ _ _).
    + do 5 hs. apply test_and. intros [|]; [apply a_ret|apply b_ret]; auto.
    + hs. apply b_ret; auto.
  - intros [u' [|]]; simpl; [apply a_ret; auto|]. do 2 hs. apply b_ret; auto.
Qed.
Lemma left_stopping : forall b s, left_by b s -> stopping s.
Proof. intros [|] s H; [|apply before_stopping; auto]. destruct H as (H1 & H2 & H3). split; auto. Qed.
Lemma h_batch_seq : forall start res objs b u,
  hoare before (process_batch_sequential E start res objs b u) (fun _ => stopping).
Proof.
  intros start res objs b; induction b as [|[i p] b IH]; intros u; simpl.
  - apply b_ret. apply before_stopping.
  - destruct (res && (i <? start)); [apply IH|]. eapply h_bind; [apply h_one_seq|].
    intros [u' [|]]; [|apply IH]. apply a_ret. apply (left_stopping true).
Qed.
Lemma h_quicks : forall l u, hoare before (process_quicks E l u) (fun _ => before).
Proof.
  induction l as [|[[i p] v] l IH]; intros u; simpl; [apply b_ret; auto|].
  eapply h_bind; [|intro; apply IH]. unfold process_quick. do 5 hs. apply b_ret; auto.
Qed.
Lemma save_or_stop : forall b : bool,
  hoare (left_by b) (if b then ret true else bind (maybe_save_checkpoint E) (fun _ => ret false)) left_by.
Proof. intros [|]; [apply a_ret; auto|]. hs. apply b_ret; auto. Qed.
Lemma h_par_results : forall l u, hoare before (process_par_results E l u) (fun _ => stopping).
Proof.
  induction l as [|[[[i p] v] [x n]] l IH]; intros u; simpl; [apply b_ret; apply before_stopping|].
  eapply h_bind with (Q := left_by).
  - unfold process_par_result. do 6 hs. apply test_and. apply save_or_stop.
  - intros [|]; [apply a_ret; apply (left_stopping true)|apply IH].
Qed.
Lemma h_singles : forall l u, hoare before (process_singles E l u) (fun _ => stopping).
Proof.
  induction l as [|[[i p] v] l IH]; intros u; simpl; [apply b_ret; apply before_stopping|].
  eapply h_bind with (Q := left_by).
  - unfold process_single. do 9 hs. apply test_and. apply save_or_stop.
  - intros [|]; [apply a_ret; apply (left_stopping true)|apply IH].
Qed.
Lemma not_set_map : forall A (f : A -> event) l, (forall x, not_set (f x)) -> Forall not_set (map f l).
Proof. intros A f l H. apply Forall_forall. intros e He. apply in_map_iff in He as (x & <- & _). auto. Qed.
Lemma stop_ret : forall A (a : A), hoare stopping (ret a) (fun _ => stopping).
Proof. intros. apply h_ret. intros s H; split; auto using stopping_okay. Qed.
Lemma h_batch_par : forall start res objs b u,
  hoare before (process_batch_parallel E start res objs b u) (fun _ => stopping).
Proof.
  intros. unfold process_batch_parallel. set (fb := if res then _ else _). clearbody fb.
  destruct (match fb with [] => true | _ => false end); [apply b_ret; apply before_stopping|].
  eapply h_bind with (Q := fun _ => before).
  { destruct objs; [apply b_ret; auto|]. apply b_emit, not_set_map. intro; exact I. } intros _.
  do 2 hs. eapply h_bind with (Q := fun _ => before). { destruct objs; [apply b_ret; auto|hb]. } intros _.
  hs. cbv zeta. destruct (partition _ _) as [local quick].
  eapply h_bind; [apply b_emit, not_set_map; intro; exact I|intro].
  eapply h_bind; [apply h_quicks|intro u']. hs.
  eapply h_bind with (Q := fun _ => stopping); [|intro; apply stop_ret].
  destruct (_ && _); [|apply h_singles].
  eapply h_bind; [apply b_emit, not_set_map; intro; exact I|intro]. hs. apply h_par_results.
Qed.
Lemma h_loop : forall size start res objs l u, hoare before (stage2_loop E size start res objs l u) (fun _ => stopping).
Proof.
  intros size start res objs l; induction l as [|b l IH]; intros u; simpl; [apply b_ret; apply before_stopping|].
  hs. eapply h_bind with (Q := fun _ => before).
  { match goal with |- hoare _ (match ?x with _ => _ end) _ => destruct x end; [|apply b_ret; auto]. do 2 hs. apply b_ret; auto. }
  intros [|]; [apply b_ret; apply before_stopping|]. hs.
  eapply h_bind with (Q := fun _ => stopping). { destruct (1 <? size); [apply h_batch_par|apply h_batch_seq]. }
  intro u'. apply test_and. intros [|]; [apply a_ret; apply (left_stopping true)|apply IH].
Qed.
Lemma h_final : hoare stopping final_set (fun _ => stopping).
Proof.
  apply h_stopping; [unfold final_set; em|unfold final_set; kp].
Qed.
Lemma h_stage2 : forall res refs objs u, hoare before (stage2_run E res refs objs u) (fun _ => stopping).
Proof.
  intros. unfold stage2_run.
  eapply h_bind with (Q := fun _ => before).
  { apply h_before; [unfold begin_stage2; em|apply k_begin_stage2; auto]. }
  intros _. hs.
  eapply h_bind with (Q := fun _ => before).
  { destruct res; [apply b_ret; auto|]. hs. eapply h_bind with (Q := fun _ => before); [|intro; apply b_ret; auto].
    apply h_before; [apply e_upd|apply k_upd; auto]. }
  intro rs. cbv zeta. eapply h_bind with (Q := fun _ => stopping); [destruct (_ =? 0); [apply b_panic|apply h_loop]|intro].
  eapply h_bind with (Q := fun _ => stopping); [|intro; apply h_final].
  apply h_stopping; [apply e_final_save|apply k_final_save]; auto.
Qed.
Lemma r_enter : forall n, hoare stopping (stage1_enter n) (fun _ => stopping).
Proof. intros. unfold stage1_enter. apply h_stopping; [em|kp]. Qed.
Lemma h_end1 : forall P : st -> Prop,
  (forall A (m : OM A), emits rest m -> keeps key m -> hoare P m (fun _ => P)) -> hoare P (end_stage1 E) (fun _ => P).
Proof.
  intros P H. apply H; unfold end_stage1, stage1_enter; [em|kp]; auto using e_callback, k_callback.
Qed.
Lemma h_after : forall A (m : OM A), emits rest m -> keeps key m -> hoare after m (fun _ => after).
Proof.
  intros A m H1 H2 s (Hh & F & set & Hs & Ht).
  destruct (h_stopping A m H1 H2 s) as [G1 G2]; [split; [exact Hh|split; [exact F|right; eauto]]|].
  split; auto. intros a s' Hx. destruct (G2 a s' Hx) as (Q1 & Q2 & _). split; [exact Q1|split; [exact Q2|]].
  specialize (H2 s). unfold key in H2. rewrite Hx in H2. injection H2 as _ _ K3. exists set. split; [|exact Ht].
  simpl in K3. congruence.
Qed.
Lemma h_keep_before : forall A (m : OM A), emits rest m -> keeps key m -> hoare before m (fun _ => before).
Proof.
  intros A m H1 H2. apply h_before.
  - intro s. destruct (H1 s) as (new & Ht & Hw). exists new. split; auto. eapply Forall_impl; [|exact Hw]. apply rest_not_set.
  - intro s. specialize (H2 s). unfold key in H2. injection H2 as K1 K2 _. simpl. congruence.
Qed.
Lemma h_stage1 : hoare before (stage1_run E)
  (fun r s => match r with None => after s | Some _ => before s end).
Proof.
  unfold stage1_run. do 2 hs. destruct (stage1_init E a a0); [|hb..].
  destruct (ss_run E a1) as [res sf].
  eapply h_bind with (Q := fun _ => before).
  { destruct (observes1 a); [|apply b_ret; auto]. apply h_before; [apply e_upd|apply k_upd; auto]. } intros _.
  eapply h_bind; [apply b_emit, not_set_map; intro; exact I|intro].
  destruct res as [[pts cand]|e|]; [|hb..]. cbv zeta. do 2 hs. unfold stage1_enter. do 7 hs. hs.
  apply test_and. intros [|].
  - eapply h_bind with (Q := fun _ => after); [|intro; apply a_ret; auto].
    apply h_end1; apply h_after.
  - eapply h_bind with (Q := fun _ => before); [apply h_before; [apply e_upd|apply k_upd; auto]|intro].
    eapply h_bind with (Q := fun _ => before); [|intro; apply b_ret; auto].
    apply h_end1; apply h_keep_before.
Qed.
End Target.

(** ** The whole run *)
(** the solution set after the events [tr] *)
Fixpoint set_after (set0 : option solset) (tr : list event) : option solset :=
  match tr with
  | [] => set0
  | EvSolutionSet set :: _ => Some set
  | _ :: r => set_after set0 r
  end.
Lemma set_after_not : forall set0 new tr, Forall not_set new -> set_after set0 (new ++ tr) = set_after set0 tr.
Proof.
  intros set0 new tr H. induction new as [|e new IH]; [reflexivity|]. simpl.
  pose proof (Forall_inv H) as He. rewrite (IH (Forall_inv_tail H)). destruct e; try reflexivity. destruct He.
Qed.
Lemma act_set_after : forall E set0 s s', step E s s' -> o_set (s_o s) = set_after set0 (trace s) ->
  o_set (s_o s') = set_after set0 (trace s').
Proof.
  intros E set0 s s' (K & objs & H) Hi. destruct H; try exact Hi.
  - destruct e; try discriminate; exact Hi.
  - destruct (pls_cases E sol s) as [[-> _]|[[_ [_ [-> _]]]|[_ [[_ [-> _]]|
        [cur [rst [_ [[_ [_ [ob ->]]]|[[_ [_ [_ [_ [ob ->]]]]]|[_ [_ [_ ->]]]]]]]]]]]]; try exact Hi; reflexivity.
Qed.
Lemma run_set_after : forall E s r s' new, run E s = (r, s') -> recorded s s' new ->
  exists set0, o_set (s_o s') = set_after set0 new.
Proof.
  intros E s r s' new Hrun Hnew. destruct (run_steps E s r s' new Hrun Hnew) as (s1 & _ & Ht & Hs).
  exists (o_set (s_o s1)). change (s_o s') with (s_o (ends s' new)). change new with (trace (ends s' new)) at 2.
  refine (star_inv _ _ (fun s2 => o_set (s_o s2) = set_after (o_set (s_o s1)) (trace s2)) _ _ _ Hs _).
  - intros a b H1 H2. eapply act_set_after; eauto.
  - rewrite Ht. reflexivity.
Qed.

Lemma c32_run : forall E s r s' new l1 set l2, run E s = (r, s') -> recorded s s' new ->
  new = l1 ++ EvSolutionSet set :: l2 -> target_hit E (s_o s') set ->
  (forall e, In e l1 -> ~ work e) /\ (forall x, r = Ok x -> x = set).
Proof.
  intros E s r s' new l1 set l2 Hrun Hnew Hsplit Hhit.
  assert (Hh : halted E (s_o s') new).
  { pose proof (run_blank E s r s' new Hrun Hnew) as Hb. fold (ends s' new) in Hb.
    unfold run in Hb. unfold bind in Hb at 1.
    destruct (try_resume_from_checkpoint E (blank s)) as [[b|e|] s1] eqn:Ht.
    2,3: destruct (resume_fail E (blank s) _ _ Ht) as (d & _ & ->); [congruence|];
         injection Hb as _ _ _ _ <-; intros x1 x2 x3 Hx; destruct x1; discriminate.
    apply resume_ok in Ht. destruct (start_begins _ _ _ _ Ht) as [_ Htr]. simpl in Htr.
    assert (B : before E (s_o s1) s1).
    { split; [rewrite Htr; intros x []|]. split; reflexivity. }
    assert (O : okay E (s_o s1) (ends s' new)).
    { replace (ends s' new) with (snd (r, ends s' new)) by reflexivity. rewrite <- Hb. clear Hb.
      destruct b.
      - refine (proj1 (h_bind E (s_o s1) _ _ _ _ _ _ _ (b_oqnlp E (s_o s1)) _ s1 B)).
        intro. apply h_stage2.
      - refine (proj1 (h_bind E (s_o s1) _ _ _ _ _ _ _ (h_stage1 E (s_o s1)) _ s1 B)).
        intros [[refs objs]|]; [apply h_stage2|].
        eapply h_weak; [apply h_final|apply (left_stopping E (s_o s1) true)|auto]. }
    destruct O as [O [F1 F2]]. simpl in O, F1, F2.
    intros x1 x2 x3 Hx Hy. apply (O x1 x2 x3 Hx). unfold hit, target_hit in *. rewrite <- F1, <- F2. exact Hy. }
  split.
  - intros e He. eapply Hh; eauto.
  - intros x ->. destruct (run_set_after E s _ s' new Hrun Hnew) as (set0 & Hset).
    pose proof (proj2 (run_acts E s _ s' Hrun) x eq_refl) as Hx.
    rewrite Hsplit, set_after_not in Hset.
    + simpl in Hset. congruence.
    + apply Forall_forall. intros e He. apply rest_not_set. eapply Hh; eauto.
Qed.

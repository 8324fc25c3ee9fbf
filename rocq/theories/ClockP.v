(** * The time limit (C33) *)
From Coq Require Import ZArith NArith List Bool Arith Lia String Permutation.
From Verif Require Import F64 F64Order Base Builders Types Filters Runner Observer Env EnvSpec
  ScatterSearch Codec Checkpoint Oqnlp Spec SpecStage2 BasicP Wp Actions RunP SetP LeaderP FrameP FilterP CountP EmitsP HoareP.
Import ListNotations.

(** ** Events of one batch *)
Section Batch.
Context (E : env) (P : event -> Prop).
Hypothesis Pcb : forall i ob, P (EvCallback i ob).
Hypothesis Ppr : forall m, P (EvPrint m).
Hypothesis Psv : forall f c, P (EvSave f c).
Hypothesis Pit : forall i, P (EvIteration i).
Hypothesis Pob : forall i p, P (EvObjective i p).
Hypothesis Pde : forall i p v o b, P (EvDecide i p v o b).
Hypothesis Pse : forall i p, P (EvSearch i p).
Hypothesis Pre : forall s, P (EvResult s).
Hypothesis Pss : forall s, P (EvSolutionSet s).
Hypothesis Pth : forall v, P (EvThreshold v).
Hypothesis Prx : forall v, P (EvRelax v).
Ltac em2 := repeat first [ em1 | apply e_callback; auto | apply e_callback_at; auto | apply e_maybe_save; auto
  | apply e_obs_iteration | apply e_obs_search | apply e_count; auto | apply e_threshold; auto | apply e_begin; auto
  | apply e_process; auto ].
Lemma e_one_seq : forall objs i p u, emits P (process_one_seq E objs i p u).
Proof. intros. unfold process_one_seq, emit_eval. em2. Qed.
Lemma e_batch_seq : forall start res objs b u, emits P (process_batch_sequential E start res objs b u).
Proof. intros start res objs b; induction b as [|[i p] b IH]; intros u; simpl; em2; auto. apply e_one_seq. Qed.
Lemma e_quicks : forall l u, emits P (process_quicks E l u).
Proof. induction l as [|[[i p] v] l IH]; intros u; simpl; unfold process_quick; em2; auto. Qed.
Lemma e_par_results : forall l u, emits P (process_par_results E l u).
Proof. induction l as [|[[[i p] v] [x n]] l IH]; intros u; simpl; unfold process_par_result; em2; auto. Qed.
Lemma e_singles : forall l u, emits P (process_singles E l u).
Proof. induction l as [|[[i p] v] l IH]; intros u; simpl; unfold process_single; em2; auto. Qed.
Lemma e_batch_par : forall start res objs b u, emits P (process_batch_parallel E start res objs b u).
Proof.
  intros. unfold process_batch_parallel. set (fb := if res then _ else _). clearbody fb.
  destruct (match fb with [] => true | _ => false end); em2; first [apply e_quicks|apply e_par_results|apply e_singles].
Qed.
Hypothesis Ps1 : forall e, P (EvStage1 e).
Lemma e_stage1 : emits P (stage1_run E).
Proof. unfold stage1_run, end_stage1, stage1_enter. em2. Qed.
End Batch.

(** ** Batches start in time *)
Section Clock.
Context (E : env) (m : f64).
Definition timely (tr : list event) : Prop := forall l1 l2, tr = l1 ++ EvBatch :: l2 ->
  exists v l3, l2 = EvClock v :: l3 /\ fgt v m = false.
Definition ended (tr : list event) : Prop := forall l1 v l2, tr = l1 ++ EvClock v :: l2 -> fgt v m = true ->
  forall e, In e l1 -> ~ work e.
Definition in_time (tr : list event) : Prop := forall v, In (EvClock v) tr -> fgt v m = false.
Definition okay (s : st) : Prop := timely (trace s) /\ ended (trace s).
Definition before (s : st) : Prop := timely (trace s) /\ in_time (trace s) /\ o_max_time (s_o s) = Some m.
Notation hoare := (hoare okay).
Definition calm (e : event) : Prop := match e with EvBatch | EvClock _ => False | _ => True end.
Definition rest (e : event) : Prop := ~ work e /\ calm e.
Lemma timely_app : forall new tr, ~ In EvBatch new -> timely tr -> timely (new ++ tr).
Proof.
  intros new tr Hn H l1 l2 Heq. apply app_split2 in Heq as [(r & Hx & Hy)|(r & Hx & Hy)].
  - exfalso. apply Hn. rewrite Hx. apply in_or_app; right; left; reflexivity.
  - eapply H; eauto.
Qed.
Lemma calm_batch : forall new, Forall calm new -> ~ In EvBatch new.
Proof. intros new H Hi. rewrite Forall_forall in H. apply (H _ Hi). Qed.
Lemma calm_clock : forall new v, Forall calm new -> ~ In (EvClock v) new.
Proof. intros new v H Hi. rewrite Forall_forall in H. apply (H _ Hi). Qed.
Lemma in_time_ended : forall tr, in_time tr -> ended tr.
Proof.
  intros tr H l1 v l2 -> Hv. rewrite H in Hv; [discriminate|]. apply in_or_app; right; left; reflexivity.
Qed.
Lemma before_okay : forall s, before s -> okay s.
Proof. intros s (H1 & H2 & _). split; auto using in_time_ended. Qed.
Lemma before_stable : stable calm o_max_time before.
Proof.
  intros s s' new (H1 & H2 & H3) Ht Hn Hf. split; [|split; [|congruence]]; rewrite Ht.
  - apply timely_app; auto using calm_batch.
  - intros v Hv. apply in_app_or in Hv as [Hv|Hv]; auto. destruct (calm_clock _ _ Hn Hv).
Qed.
Lemma okay_stable : stable rest (fun _ => tt) okay.
Proof.
  intros s s' new [H1 H2] Ht Hn _. split; rewrite Ht.
  - apply timely_app; auto. apply calm_batch. eapply Forall_impl; [|exact Hn]. intros e He; apply He.
  - intros l1 v l2 Heq Hv e He. apply app_split2 in Heq as [(r & Hx & Hy)|(r & Hx & Hy)].
    + exfalso. rewrite Forall_forall in Hn. destruct (Hn (EvClock v)) as [_ []]. rewrite Hx. apply in_or_app; right; left; reflexivity.
    + subst l1. apply in_app_or in He as [He|He]; [|eapply H2; eauto]. rewrite Forall_forall in Hn. apply (Hn e He).
Qed.
Lemma t_calm : forall A (x : OM A), emits calm x -> keeps o_max_time x -> hoare before x (fun _ => before).
Proof. intros. eapply h_stable; eauto using before_stable, before_okay. Qed.
Lemma t_rest : forall A (x : OM A), emits rest x -> hoare okay x (fun _ => okay).
Proof. intros A x H. eapply h_stable; eauto using okay_stable. intro; reflexivity. Qed.
Ltac tc := apply t_calm; [parts|parts].
Ltac tstep := eapply h_bind; [tc|intro].
Lemma k_batch_seq : forall start res objs b u, keeps o_max_time (process_batch_sequential E start res objs b u).
Proof.
  intros start res objs b; induction b as [|[i p] b IH]; intros u; simpl; [parts|]. destruct (res && _); [apply IH|].
  apply k_bind; [|intros [u' [|]]; [parts|apply IH]]. unfold process_one_seq, emit_eval. kp; parts.
Qed.
Lemma k_quicks : forall l u, keeps o_max_time (process_quicks E l u).
Proof. induction l as [|[[i p] v] l IH]; intros u; simpl; unfold process_quick; kp; auto; parts. Qed.
Lemma k_par_results : forall l u, keeps o_max_time (process_par_results E l u).
Proof. induction l as [|[[[i p] v] [x n]] l IH]; intros u; simpl; unfold process_par_result; kp; auto; parts. Qed.
Lemma k_singles : forall l u, keeps o_max_time (process_singles E l u).
Proof. induction l as [|[[i p] v] l IH]; intros u; simpl; unfold process_single; kp; auto; parts. Qed.
Lemma k_batch_par : forall start res objs b u, keeps o_max_time (process_batch_parallel E start res objs b u).
Proof.
  intros. unfold process_batch_parallel. set (fb := if res then _ else _). clearbody fb.
  destruct (match fb with [] => true | _ => false end); kp; first [apply k_quicks|apply k_par_results|apply k_singles|parts].
Qed.
Lemma loop_clock : forall size start res objs b l u s, o_max_time (s_o s) = Some m ->
  stage2_loop E size start res objs (b :: l) u s =
  if fgt (e_clock E (w_tick (s_w s))) m
  then (Ok tt, mk_st (s_o s) (mk_world (w_disk (s_w s)) (S (w_tick (s_w s))) (EvClock (e_clock E (w_tick (s_w s))) :: trace s)))
  else bind (if 1 <? size then process_batch_parallel E start res objs b u
             else process_batch_sequential E start res objs b u) (fun u' =>
       bind the_oqnlp (fun o2 => bind (unwrap (target_reached E o2)) (fun stop : bool =>
       if stop then ret tt else stage2_loop E size start res objs l u')))
    (mk_st (s_o s) (mk_world (w_disk (s_w s)) (S (w_tick (s_w s))) (EvBatch :: EvClock (e_clock E (w_tick (s_w s))) :: trace s))).
Proof.
  intros size start res objs b l u [o w] H. simpl in *. unfold bind at 1. simpl. rewrite H. unfold bind at 1. simpl.
  destruct (fgt (e_clock E (w_tick w)) m); reflexivity.
Qed.
Lemma t_loop : forall size start res objs l u, hoare before (stage2_loop E size start res objs l u) (fun _ => okay).
Proof.
  intros size start res objs l; induction l as [|b l IH]; intros u; [apply h_ret; auto using before_okay|].
  intros s (H1 & H2 & H3).
  rewrite (loop_clock size start res objs b l u s H3).
  set (t := w_tick (s_w s)).
  set (s2 := mk_st (s_o s) (mk_world (w_disk (s_w s)) (S t) (EvClock (e_clock E t) :: trace s))).
  destruct (fgt (e_clock E t) m) eqn:Hv.
  - assert (O : okay s2).
    { split.
      - apply (timely_app [_]); auto. intros [Hx|[]]; discriminate.
      - intros [|a l1] v l2 Heq Hl e He; [destruct He|]. simpl in Heq. injection Heq as _ Heq. exfalso.
        rewrite (H2 v) in Hl; [discriminate|]. unfold trace in *. rewrite Heq. apply in_or_app; right; left; reflexivity. }
    split; [exact O|]. intros a s' Hx. injection Hx as _ <-. exact O.
  - set (s3 := mk_st (s_o s) (mk_world (w_disk (s_w s)) (S t) (EvBatch :: EvClock (e_clock E t) :: trace s))).
    assert (B : before s3).
    { split; [|split; [|exact H3]].
      - intros [|a l1] l2 Heq; simpl in Heq.
        + injection Heq as <-. exists (e_clock E t), (trace s). auto.
        + injection Heq as _ Heq. destruct l1 as [|a' l1]; simpl in Heq; [discriminate|]. injection Heq as _ Heq. eapply H1; eauto.
      - intros v [Hx|[Hx|Hx]]; [discriminate|injection Hx as <-; exact Hv|auto]. }
    revert B. generalize s3. clear - IH. intros s3 B. revert s3 B.
    match goal with |- forall s3, before s3 -> okay (snd (?x s3)) /\ _ => change (hoare before x (fun _ => okay)) end.
    eapply h_bind with (Q := fun _ => before).
    { destruct (1 <? size); apply t_calm; [apply e_batch_par; simpl; auto|apply k_batch_par|apply e_batch_seq; simpl; auto|apply k_batch_seq]. }
    intro u'. do 2 tstep. match goal with |- HoareP.hoare _ _ (if ?x then _ else _) _ => destruct x end; [|apply IH].
    apply h_ret; auto using before_okay.
Qed.
Lemma t_stage2 : forall res refs objs u, hoare before (stage2_run E res refs objs u) (fun _ => okay).
Proof.
  intros. unfold stage2_run.
  eapply h_bind with (Q := fun _ => before).
  { apply t_calm; [unfold begin_stage2; em|apply k_begin_stage2; auto]. } intros _. tstep.
  eapply h_bind with (Q := fun _ => before).
  { destruct res; [apply h_ret; auto using before_okay|]. do 2 tstep. apply h_ret; auto using before_okay. }
  intro rs. cbv zeta. eapply h_bind with (Q := fun _ => okay).
  { destruct (_ =? 0); [apply h_panic, before_okay|apply t_loop]. }
  intros _. eapply h_bind with (Q := fun _ => okay).
  - apply t_rest. apply e_final_save; intros; split; simpl; auto.
  - intros _. unfold final_set. apply t_rest. em.
Qed.
Lemma t_stage1 : hoare before (stage1_run E) (fun _ => before).
Proof. apply t_calm; [apply e_stage1; simpl; auto|]. unfold stage1_run, end_stage1, stage1_enter. kp; parts. Qed.
End Clock.

(** ** The size of a batch *)
Section Size.
Context (E : env) (wi wo wd ws : nat -> nat) (B : nat).
Notation tot := (total wi wo wd ws 0).
Definition segs (tr : list event) : Prop := forall l1 seg l2, tr = l1 ++ seg ++ l2 -> within_batch seg -> tot seg <= B.
Definition bounded (s : st) : Prop := segs (trace s).
Definition room (n : nat) (s : st) : Prop := segs (trace s) /\
  (forall seg l2, trace s = seg ++ l2 -> within_batch seg -> tot seg + n <= B).
Notation hoare := (hoare bounded).
Definition not_batch (e : event) : Prop := match e with EvBatch => False | _ => True end.
Lemma room_bounded : forall n s, room n s -> bounded s. Proof. intros n s H; apply H. Qed.
Lemma app_cut : forall A (a b c d : list A), a ++ b = c ++ d ->
  (exists x, a = c ++ x /\ d = x ++ b) \/ (exists x, c = a ++ x /\ b = x ++ d).
Proof.
  intros A a; induction a as [|x a IH]; intros b c d H; simpl in H.
  - right. exists c. auto.
  - destruct c as [|y c]; simpl in H; [left; exists (x :: a); auto|]. injection H as <- H.
    destruct (IH _ _ _ H) as [(z & -> & ->)|(z & -> & ->)]; [left|right]; exists z; auto.
Qed.
Lemma room_step : forall n k s s' new, room (k + n) s -> trace s' = new ++ trace s -> Forall not_batch new ->
  tot new <= k -> room n s'.
Proof.
  intros n k s s' new (H1 & H2) Ht Hn Hk.
  assert (G : forall seg l2, trace s' = seg ++ l2 -> within_batch seg -> tot seg + n <= B).
  { intros seg l2 Heq Hw. rewrite Ht in Heq. apply app_cut in Heq as [(x & -> & Hx)|(x & -> & Hx)].
    - rewrite total_app in Hk. specialize (H2 [] (trace s) eq_refl (fun H => H)). simpl in H2. lia.
    - assert (Hwx : within_batch x) by (intro Hi; apply Hw; apply in_or_app; auto).
      specialize (H2 x l2 Hx Hwx). rewrite total_app. lia. }
  split; [|exact G]. intros l1 seg l2 Heq Hw. rewrite Ht in Heq.
  apply app_cut in Heq as [(x & Hx & Hy)|(x & Hx & Hy)].
  - pose proof H2 as H2'. specialize (H2 [] (trace s) eq_refl (fun H => H)). simpl in H2.
    apply app_cut in Hy as [(y & -> & Hz)|(y & -> & Hz)].
    + assert (Hwy : within_batch y) by (intro Hi; apply Hw; apply in_or_app; auto).
      rewrite total_app. rewrite Hx, total_app in Hk. specialize (H2' y l2 Hz Hwy). lia.
    + rewrite Hx, !total_app in Hk. lia.
  - eapply H1; eauto.
Qed.
Lemma room_le : forall n k s, room n s -> k <= n -> room k s.
Proof. intros n k s [H1 H2] Hl. split; auto. intros seg l2 Ht Hw. specialize (H2 seg l2 Ht Hw). lia. Qed.
Lemma r_uses : forall A n k (x : OM A), uses wi wo wd ws 0 k x -> emits not_batch x ->
  hoare (room (k + n)) x (fun _ => room n).
Proof.
  intros A n k x Hu He s Hs. destruct (Hu s) as (new & Ht & Hk). destruct (He s) as (new' & Ht' & Hf).
  rewrite Ht in Ht'. apply app_inv_tail in Ht'. subst new'.
  pose proof (room_step n k s (snd (x s)) new Hs Ht Hf Hk) as G. split; [eapply room_bounded; exact G|].
  intros a s' Hx. rewrite Hx in G. exact G.
Qed.
Lemma r_zero : forall A n (x : OM A), uses wi wo wd ws 0 0 x -> emits not_batch x -> hoare (room n) x (fun _ => room n).
Proof. intros A n x. apply (r_uses A n 0 x). Qed.
Lemma r_batch : hoare (room 0) (emit [EvBatch]) (fun _ => room B).
Proof.
  intros s Hs.
  assert (G : room B (snd (emit [EvBatch] s))).
  { destruct Hs as [H1 H2]. unfold room, trace in *. simpl. split.
    - intros [|e l1] seg l2 Heq Hw.
      + simpl in Heq. destruct seg as [|e seg]; [simpl; lia|]. simpl in Heq. injection Heq as <- _. destruct Hw. left; reflexivity.
      + simpl in Heq. injection Heq as _ Heq. eapply H1; eauto.
    - intros [|e seg] l2 Heq Hw; [simpl; lia|]. simpl in Heq. injection Heq as <- _. destruct Hw. left; reflexivity. }
  split; [eapply room_bounded; exact G|]. intros a s' Hx. injection Hx as _ <-. exact G.
Qed.
Context (Hcost : forall i, cost wi wo wd ws i <= 1).
Lemma costs_len : forall b : list (nat * point), costs (fun x => cost wi wo wd ws (fst x)) b <= List.length b.
Proof. induction b as [|[i p] b IH]; simpl; [lia|]. specialize (Hcost i). lia. Qed.
Lemma chunks_len : forall A fuel n (l : list A) b, In b (chunks_fuel fuel n l) -> List.length b <= n.
Proof.
  intros A. induction fuel as [|fuel IH]; intros n l b Hb; [destruct Hb|].
  destruct l as [|x l]; [destruct Hb|]. destruct Hb as [<-|Hb]; [rewrite firstn_length; lia|eapply IH; eauto].
Qed.
Lemma r_loop : forall size start res objs l u, (forall b, In b l -> List.length b <= B) ->
  hoare (room 0) (stage2_loop E size start res objs l u) (fun _ => room 0).
Proof.
  intros size start res objs l; induction l as [|b l IH]; intros u Hl; simpl.
  { apply h_ret. eauto using room_bounded. }
  eapply h_bind; [apply r_zero; [apply u_oqnlp|em]|intro o].
  eapply h_bind; [apply r_zero; [|em; repeat constructor]|].
  { destruct (o_max_time o); [|apply u_ret]. repeat apply u_bind0; try intro; try apply u_tick; try apply u_ret.
    apply u_bind0; [apply u_emit0; reflexivity|intro; apply u_ret]. }
  intros [|]; [apply h_ret; eauto using room_bounded|].
  eapply h_bind; [apply r_batch|intro].
  eapply h_bind with (Q := fun _ => room 0).
  { assert (Hb : costs (fun x => cost wi wo wd ws (fst x)) b <= B) by (pose proof (costs_len b); specialize (Hl b (or_introl eq_refl)); lia).
    apply (h_weak _ _ _ (room (costs (fun x => cost wi wo wd ws (fst x)) b + 0)) _ _ (fun _ => room 0)); auto.
    2: { intros s Hs. eapply room_le; [exact Hs|lia]. }
    destruct (1 <? size); apply r_uses; [apply u_batch_par|apply e_batch_par; simpl; auto|apply u_batch_seq|apply e_batch_seq; simpl; auto]. }
  intro u'. eapply h_bind; [apply r_zero; [apply u_oqnlp|em]|intro o2].
  eapply h_bind; [apply r_zero; [apply u_unwrap|em]|intros [|]]; [apply h_ret; eauto using room_bounded|].
  apply IH. intros b' Hb'. apply Hl. right; auto.
Qed.
Lemma r_tail : forall res objs u o rs, max_batch o = B ->
  hoare (room B) (stage2_tail E res objs u o rs) (fun _ => room 0).
Proof.
  intros res objs u o rs Ho. unfold stage2_tail. cbv zeta. set (start := if res then _ else _).
  eapply h_bind with (Q := fun _ => room 0).
  - destruct (_ =? 0) eqn:Hz; [apply h_panic; eauto using room_bounded|]. apply Nat.eqb_neq in Hz.
    apply (h_weak _ _ _ (room 0) _ _ (fun _ => room 0)); auto; [|intros s Hs; eapply room_le; [exact Hs|lia]].
    apply r_loop. intros b Hb. apply chunks_len in Hb. rewrite <- Ho. eapply Nat.le_trans; [exact Hb|].
    unfold batch_size, max_batch. destruct (o_parallel o); simpl; [|lia]. destruct (o_batch o); [lia|].
    destruct (_ || _); lia.
  - intro. eapply h_bind; [apply r_zero; [apply u_final_save|apply e_final_save; simpl; auto]|intro].
    apply r_zero; [|unfold final_set; em]. unfold final_set. apply u_bind0; [apply u_oqnlp|intro o']. destruct (o_set o'); [apply u_ret|apply u_fail].
Qed.
Lemma r_stage2 : forall res refs objs u s, room B s -> max_batch (s_o s) = B ->
  bounded (snd (stage2_run E res refs objs u s)).
Proof.
  intros res refs objs u s Hs Hm. rewrite stage2_eq.
  assert (Hb : begin_stage2 s = (Ok tt, snd (begin_stage2 s))) by reflexivity.
  rewrite (bind_ok _ _ _ _ _ _ _ Hb). set (s1 := snd (begin_stage2 s)) in *.
  assert (R1 : room B s1) by exact Hs. assert (M1 : max_batch (s_o s1) = B) by exact Hm.
  clearbody s1. clear Hb. rewrite (bind_ok _ _ the_oqnlp _ s1 (s_o s1) s1 eq_refl).
  destruct res.
  - rewrite (bind_ok _ _ (ret refs) _ s1 refs s1 eq_refl). apply r_tail; auto.
  - destruct (add_u64 E (p_seed (o_params (s_o s1))) (N.of_nat (o_iteration (s_o s1)))) as [seed|] eqn:Hsd.
    + set (s2 := mk_st (set_o_seed seed (s_o s1)) (s_w s1)).
      erewrite bind_ok with (s' := s2); [|unfold bind, unwrap, ret; reflexivity]. apply r_tail; auto.
    + rewrite (bind_panic _ _ _ _ s1 s1) by reflexivity. eapply room_bounded; exact R1.
Qed.
End Size.

Lemma same_max_batch : forall o o', same_config o o' -> max_batch o' = max_batch o.
Proof.
  intros o o' H. unfold max_batch. unfold same_config in H. decompose [and] H.
  repeat match goal with X : o_parallel o' = _ |- _ => rewrite X; clear X | X : o_batch o' = _ |- _ => rewrite X; clear X end. reflexivity.
Qed.
Lemma k_stage1_config : forall E, keeps max_batch (stage1_run E).
Proof. intro E. unfold stage1_run, end_stage1, stage1_enter. kp; parts. Qed.
Lemma segs_run : forall E wi wo wd ws s r s' new, (forall i, cost wi wo wd ws i <= 1) ->
  run E s = (r, s') -> recorded s s' new -> 
  forall l1 seg l2, new = l1 ++ seg ++ l2 -> within_batch seg -> total wi wo wd ws 0 seg <= max_batch (s_o s').
Proof.
  intros E wi wo wd ws s r s' new Hc Hrun Hnew.
  destruct (run_cases E s r s' new Hrun Hnew) as [(-> & _ & _)|(b & s1 & _ & Ht & Hr & Hcfg)].
  { intros [|] [|] l2 H _; simpl in *; try discriminate; lia. }
  set (B := max_batch (s_o s')). assert (HB : max_batch (s_o s1) = B) by (symmetry; apply same_max_batch; auto).
  assert (R : room wi wo wd ws B B s1).
  { unfold room, segs. rewrite Ht. split.
    - intros [|] [|] l2 H _; simpl in *; try discriminate; lia.
    - intros [|] l2 H _; simpl in *; try discriminate; lia. }
  assert (G : bounded wi wo wd ws B (ends s' new)).
  { assert (Hs : ends s' new = snd (run_rest E b s1)) by (rewrite Hr; reflexivity). rewrite Hs. unfold run_rest. destruct b.
    - rewrite (bind_ok _ _ the_oqnlp _ s1 (s_o s1) s1 eq_refl). apply r_stage2; auto.
    - assert (R1 : hoare (bounded wi wo wd ws B) (room wi wo wd ws B B) (stage1_run E) (fun _ => room wi wo wd ws B B)).
      { apply r_zero; [apply u_stage1|apply e_stage1; simpl; auto]. }
      destruct (R1 s1 R) as [G1 G2]. pose proof (k_stage1_config E s1) as K. unfold bind.
      destruct (stage1_run E s1) as [[[[refs objs]|]|e|] s2] eqn:E1; simpl in *; auto.
      + apply r_stage2; auto; [eapply G2; reflexivity|congruence].
      + unfold final_set. rewrite (bind_ok _ _ the_oqnlp _ s2 (s_o s2) s2 eq_refl). destruct (o_set (s_o s2)); exact G1. }
  exact G.
Qed.
Lemma total_length : forall (f : event -> option nat) wi wo wd ws l,
  (forall e, weight wi wo wd ws 0 e = match f e with Some _ => 1 | None => 0 end) ->
  total wi wo wd ws 0 l = List.length (indices f l).
Proof.
  intros f wi wo wd ws l H. induction l as [|e l IH]; simpl; [reflexivity|].
  unfold indices. simpl. fold (indices f l). rewrite app_length, <- IH, H. destruct (f e); reflexivity.
Qed.
Definition one : nat -> nat := fun _ => 1.
Lemma batch_bound : forall E s r s' new l1 seg l2, run E s = (r, s') -> recorded s s' new ->
  new = l1 ++ seg ++ l2 -> within_batch seg ->
  List.length (begun seg) <= max_batch (s_o s') /\ List.length (evaluated seg) <= max_batch (s_o s') /\  List.length (decided seg) <= max_batch (s_o s') /\ List.length (searched seg) <= max_batch (s_o s').
Proof.
  intros E s r s' new l1 seg l2 Hrun Hnew Heq Hw.
  assert (W : forall e, weight one zero zero zero 0 e = match (match e with EvIteration i => Some i | _ => None end) with Some _ => 1 | None => 0 end) by (intro e; destruct e; try destruct iter; reflexivity).
  assert (W2 : forall e, weight zero one zero zero 0 e = match (match e with EvObjective i _ => Some i | _ => None end) with Some _ => 1 | None => 0 end) by (intro e; destruct e; try destruct iter; reflexivity).
  assert (W3 : forall e, weight zero zero one zero 0 e = match (match e with EvDecide i _ _ _ _ => Some i | _ => None end) with Some _ => 1 | None => 0 end) by (intro e; destruct e; try destruct iter; reflexivity).
  assert (W4 : forall e, weight zero zero zero one 0 e = match (match e with EvSearch (Some i) _ => Some i | _ => None end) with Some _ => 1 | None => 0 end) by (intro e; destruct e; try destruct iter; reflexivity).
  unfold begun, evaluated, decided, searched.
  rewrite <- (total_length _ _ _ _ _ _ W), <- (total_length _ _ _ _ _ _ W2), <- (total_length _ _ _ _ _ _ W3), <- (total_length _ _ _ _ _ _ W4).
  repeat split; eapply segs_run; eauto; intro; unfold cost, one, zero; lia.
Qed.

Lemma clock_run : forall E s r s' new m, run E s = (r, s') -> recorded s s' new -> o_max_time (s_o s') = Some m ->
  timely m new /\ ended m new.
Proof.
  intros E s r s' new m Hrun Hnew Hm.
  destruct (run_cases E s r s' new Hrun Hnew) as [(-> & _ & _)|(b & s1 & _ & Ht & Hr & Hcfg)].
  { split; intros [|]; intros; discriminate. }
  assert (M1 : o_max_time (s_o s1) = Some m). { unfold same_config in Hcfg. decompose [and] Hcfg. congruence. }
  assert (B : before m s1).
  { unfold before, timely, in_time. rewrite Ht. split; [|split; auto].
    - intros [|]; intros; discriminate.
    - intros v []. }
  assert (G : okay m (ends s' new)); [|exact G].
  assert (Hs : ends s' new = snd (run_rest E b s1)) by (rewrite Hr; reflexivity). rewrite Hs. unfold run_rest. destruct b.
  - rewrite (bind_ok _ _ the_oqnlp _ s1 (s_o s1) s1 eq_refl). apply t_stage2; auto.
  - destruct (t_stage1 E m s1 B) as [G1 G2]. unfold bind.
    destruct (stage1_run E s1) as [[[[refs objs]|]|e|] s2] eqn:E1; simpl in *; auto.
    + apply t_stage2. eapply G2; reflexivity.
    + unfold final_set. rewrite (bind_ok _ _ the_oqnlp _ s2 (s_o s2) s2 eq_refl). destruct (o_set (s_o s2)); exact G1.
Qed.

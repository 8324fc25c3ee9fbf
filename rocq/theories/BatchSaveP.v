(** * What is settled when a checkpoint is saved, for every batch size (C54) *)
From Coq Require Import ZArith NArith List Bool Arith Lia String Permutation.
From Verif Require Import F64 Base Builders Types Filters Runner Observer Env EnvSpec
  ScatterSearch Codec Checkpoint Oqnlp Spec SpecStage2 SpecObserver SpecSave SolverP Wp Actions RunP SetP FrameP EmitsP FilterP CountP TargetP HoareP SeqP SeqP2 SeqP3 AllP.
Import ListNotations.

Definition unsaved (e : event) : Prop := match e with EvSave _ _ => False | _ => True end.
Definition cfgs (o : oqnlp) := (o_params o, o_solver_type o, o_solver_config o).
Definition cfgi (o : oqnlp) := (cfgs o, o_iteration o).
Lemma settled_more : forall E o i new l, settled E o i l -> settled E o i (new ++ l).
Proof.
  intros E o i new l [(p & obj & o' & H)|(p & obj & o' & x & H1 & H2 & H3 & H4)].
  - left. exists p, obj, o'. apply in_or_app; auto.
  - right. exists p, obj, o', x. repeat split; auto using in_or_app.
Qed.
Section Batches.
Context (E : env) (o0 : oqnlp) (start n : nat).
Notation done := (settled E o0).
Definition saves_ok (l : list event) : Prop := forall l1 f cp l2, l = l1 ++ EvSave f cp :: l2 ->
  forall j, start <= j -> j + n <= cp_iteration cp -> done j l2.
Definition badb (s : st) : Prop := saves_ok (trace s).
Definition inb (k : nat) (X : list event -> Prop) (s : st) : Prop :=
  cfgs (s_o s) = cfgs o0 /\ o_iteration (s_o s) < k + n /\ (forall j, start <= j -> j < k -> done j (trace s)) /\
  saves_ok (trace s) /\ X (trace s).
Lemma inb_bad : forall k X s, inb k X s -> badb s. Proof. intros k X s H. apply H. Qed.
Lemma inb_imp : forall k (X Y : list event -> Prop) s, inb k X s -> (forall l, X l -> Y l) -> inb k Y s.
Proof. intros k X Y s (H1 & H2 & H3 & H4 & H5) H. split; [auto|]. split; [auto|]. split; [auto|]. split; auto. Qed.
Lemma saves_more : forall new l, Forall unsaved new -> saves_ok l -> saves_ok (new ++ l).
Proof.
  intros new l Hn H l1 f cp l2 Heq. induction new as [|e new IH] in l1, Hn, Heq |- *; [eapply H; exact Heq|].
  inversion Hn as [|? ? He Hn']; subst. destruct l1 as [|e1 l1]; simpl in Heq; injection Heq; intros.
  - subst e. destruct He.
  - eapply IH; eauto.
Qed.
Lemma inb_more : forall k X s s' new, grows X -> inb k X s -> cfgi (s_o s') = cfgi (s_o s) -> trace s' = new ++ trace s ->
  Forall unsaved new -> inb k X s'.
Proof.
  intros k X s s' new HX (H1 & H2 & H3 & H4 & H5) Hc Ht Hn. unfold cfgi in Hc. injection Hc as Ha Hb Hcc Hd.
  split; [unfold cfgs in *; congruence|]. split; [congruence|]. rewrite Ht. split; [intros; apply settled_more; auto|].
  split; [apply saves_more; auto|apply HX; auto].
Qed.
Lemma sp_in : forall k X A (m : OM A), grows X -> emits unsaved m -> keeps cfgi m -> spec badb (inb k X) m (fun _ => inb k X).
Proof.
  intros k X A m HX He Hk s H. destruct (He s) as (new & Ht & Hn). specialize (Hk s).
  pose proof (inb_more _ _ _ _ _ HX H Hk Ht Hn) as G. destruct (m s) as [[a|e|] s']; simpl in *; auto; eapply inb_bad; eauto.
Qed.
Lemma sp_out : forall k (X Y : list event -> Prop) l, Forall unsaved l -> (forall t, X t -> Y (rev l ++ t)) ->
  spec badb (inb k X) (emit l) (fun _ => inb k Y).
Proof.
  intros k X Y l Hl HY s (H1 & H2 & H3 & H4 & H5). cbv [emit modify].
  split; [exact H1|]. split; [exact H2|]. unfold trace in *. simpl w_trace.
  split; [intros; apply settled_more; auto|]. split; [apply saves_more; [apply Forall_rev; auto|auto]|apply HY; auto].
Qed.
Lemma sp_begin_b : forall k X i u, grows X -> i < k + n -> spec badb (inb k X) (begin_iteration E i u) (fun _ => inb k X).
Proof.
  intros k X i u HX Hi s (H1 & H2 & H3 & H4 & H5). unfold begin_iteration, bind, upd, modify, the_oqnlp, get, ret, bind, unwrap. simpl.
  destruct (add_u64 E (p_seed (o_params (s_o s))) (N.of_nat i)) as [sd|]; simpl; [|exact H4].
  split; [exact H1|]. split; [exact Hi|]. unfold trace in *. simpl.
  split; [intros; apply (settled_more _ _ _ [_]); auto|]. split; [apply (saves_more [_]); [repeat constructor|auto]|apply (HX [_]); auto].
Qed.
Lemma save_keeps : forall k X s f cp, grows X -> inb k X s -> cp_iteration cp = o_iteration (s_o s) -> forall s',
  s_o s' = s_o s -> trace s' = EvSave f cp :: trace s -> inb k X s'.
Proof.
  intros k X s f cp HX (H1 & H2 & H3 & H4 & H5) Hcp s' Ho Ht. rewrite <- Ho in H1, H2.
  split; [exact H1|]. split; [exact H2|]. rewrite Ht. split; [intros; apply (settled_more _ _ _ [_]); auto|].
  split; [|apply (HX [_]); auto].
  intros [|e l1] g cp' l2 Heq; simpl in Heq; injection Heq.
  - intros. subst. apply H3; [auto|]. rewrite <- Ho in Hcp. lia.
  - intros. eapply H4; eauto.
Qed.
Lemma sp_save_b : forall k X, grows X -> spec badb (inb k X) (maybe_save_checkpoint E) (fun _ => inb k X).
Proof.
  intros k X HX s H. destruct (maybe_save_checkpoint E s) as [r s'] eqn:Em. 
  destruct (maybe_save_spec E _ _ _ Em) as (_ & Ho & D).
  assert (G : inb k X s').
  { destruct D as [(new & Ht & D)|[_ Ht]].
    - unfold save_record in D. destruct (due_save _ _); [destruct D as (cfg & cp & _ & -> & Hcp)|subst new].
      + eapply save_keeps; eauto.
      + eapply (inb_more k X s s' []); eauto. rewrite Ho. reflexivity.
    - eapply (inb_more k X s s' []); eauto. rewrite Ho. reflexivity. }
  destruct r as [a|e|]; [exact G|eapply inb_bad; eauto..].
Qed.
Lemma sp_final_b : forall k X, grows X -> spec badb (inb k X) (maybe_save_final_checkpoint E) (fun _ => inb k X).
Proof.
  intros k X HX s H. destruct (maybe_save_final_checkpoint E s) as [r s'] eqn:Em.
  destruct (final_save_spec E _ _ _ Em) as (Ho & fin & Ht & D).
  assert (G : inb k X s').
  { unfold final_record in D. destruct (o_cp (s_o s)) as [cfg|].
    - destruct D as (cp & -> & Hcp). eapply save_keeps; eauto.
    - subst fin. eapply (inb_more k X s s' []); eauto. rewrite Ho. reflexivity. }
  destruct r as [a|e|]; [exact G|eapply inb_bad; eauto..].
Qed.
Lemma grows_and : forall X Y, grows X -> grows Y -> grows (fun l => X l /\ Y l).
Proof. intros X Y H1 H2 new l [A B]. split; auto. Qed.
Lemma grows_done : forall i, grows (done i). Proof. intros i new l H. apply settled_more; auto. Qed.
Lemma grows_all : forall A (P : A -> list event -> Prop), (forall a, grows (P a)) -> grows (fun l => forall a, P a l).
Proof. intros A P H new l G a. apply H; auto. Qed.
Lemma grows_imp : forall (H : Prop) (P : list event -> Prop), (H -> grows P) -> grows (fun l => H -> P l).
Proof. intros H P G new l K h. apply G; auto. Qed.
(** all the indices [ids] are settled *)
Definition all_done (ids : list nat) (l : list event) : Prop := forall j, In j ids -> done j l.
Lemma grows_ids : forall ids, grows (all_done ids).
Proof. intros ids new l H j Hj. apply settled_more; auto. Qed.
Ltac ib := apply sp_in; [|parts|parts].
Lemma k_pls : forall sol, keeps cfgi (process_local_solution E sol). Proof. intro. parts. Qed.
(** the result of a search is processed *)
Lemma sp_result : forall k X (i : nat) p obj (o : oqnlp) sol, grows X -> local_result E o0 p sol ->
  spec badb (inb k (fun l => X l /\ In (EvDecide i p obj o true) l /\ In (EvSearch (Some i) p) l))
    (process_local_solution E sol) (fun _ => inb k (fun l => X l /\ done i l)).
Proof.
  intros k X i p obj o sol HX Hl s H.
  assert (HX3 : grows (fun l => X l /\ In (EvDecide i p obj o true) l /\ In (EvSearch (Some i) p) l)).
  { apply grows_and; [auto|]. apply grows_and; apply grows_in. }
  assert (He : emits unsaved (process_local_solution E sol)) by (apply e_process; intros; exact I).
  pose proof (sp_in k _ _ _ HX3 He (k_pls sol) s H) as G.
  destruct (process_local_solution E sol s) as [[a|e|] s'] eqn:Hp; [|exact G..].
  destruct (pls_first E _ _ _ _ Hp) as (new & Ht & _). destruct G as (G1 & G2 & G3 & G4 & GX & G5 & G6).
  split; [auto|]. split; [auto|]. split; [auto|]. split; [auto|]. split; [auto|]. right. exists p, obj, o, sol. repeat split; auto.
  rewrite Ht. apply in_or_app. right. left. reflexivity.
Qed.
Lemma local_of : forall o p tr sol m, cfgs o = cfgs o0 -> solve_tracked E (o_solver_type o) (o_solver_config o) p tr = Ok (sol, m) -> local_result E o0 p sol.
Proof.
  intros o p tr sol m Hc H. unfold cfgs in Hc. injection Hc as H1 H2 H3. apply solve_tracked_solve in H.
  exists (o_solver_type o), (o_solver_config o). split; [exact H|]. left. auto.
Qed.
Lemma local_of_params : forall o p tr sol m, cfgs o = cfgs o0 ->
  solve_tracked E (p_solver_type (o_params o)) (p_solver_config (o_params o)) p tr = Ok (sol, m) -> local_result E o0 p sol.
Proof.
  intros o p tr sol m Hc H. unfold cfgs in Hc. injection Hc as H1 H2 H3. apply solve_tracked_solve in H.
  exists (p_solver_type (o_params o)), (p_solver_config (o_params o)). split; [exact H|]. right. rewrite H1. auto.
Qed.
Lemma sp_cfg : forall k X, spec badb (inb k X) the_oqnlp (fun o s => inb k X s /\ cfgs o = cfgs o0 /\ o = s_o s).
Proof. intros k X s H. simpl. split; [exact H|]. split; [apply H|reflexivity]. Qed.
Notation hit s := (target_reached E (s_o s) = Some true).

(** ** Sequential batches *)
Lemma one_b : forall objs i p u k X, grows X -> i < k + n ->
  spec badb (inb k X) (process_one_seq E objs i p u)
    (fun r s => inb k (if snd r then X else fun l => X l /\ done i l) s /\ (snd r = true -> hit s)).
Proof.
  intros objs i p u k X HX Hi. unfold process_one_seq.
  eapply sp_bind; [apply sp_begin_b; auto|intro; cbv beta]. eapply sp_bind; [ib; auto|intro; cbv beta].
  eapply sp_bind; [apply sp_in; [auto|unfold emit_eval; parts|unfold emit_eval; parts]|intro; cbv beta].
  eapply sp_bind; [apply sp_of_result; apply inb_bad|intro obj; cbv beta].
  eapply sp_bind; [eapply sp_weak; [apply (sp_in k X); [auto|destruct objs; parts|destruct objs; parts]|intros s [H _]; exact H|intros ? ? H; exact H]|intro; cbv beta].
  eapply sp_bind; [apply sp_cfg|intro o; cbv beta zeta].
  apply sp_pure with (H := cfgs o = cfgs o0); [intros s (_ & H & _); exact H|intro Ho].
  set (go := should_start_local o p obj).
  eapply sp_bind; [eapply sp_weak; [apply (sp_out k X (fun l => X l /\ In (EvDecide i p obj o go) l))|intros s [H _]; exact H|intros ? ? H; exact H]|intro; cbv beta].
  { repeat constructor. } { intros t H. split; [apply (HX [_]); auto|left; reflexivity]. }
  apply sp_bind with (Q := fun r s => inb k (fun l => X l /\ done i l) s /\ (snd r = true -> hit s)).
  - destruct go.
    + eapply sp_bind; [ib; apply grows_and; [auto|apply grows_in]|intro; cbv beta].
      eapply sp_bind; [apply (sp_out k _ (fun l => X l /\ In (EvDecide i p obj o true) l /\ In (EvSearch (Some i) p) l))|intro; cbv beta].
      { repeat constructor. } { intros t [H1 H2]. split; [apply (HX [_]); auto|]. split; [right; auto|left; reflexivity]. }
      eapply sp_bind; [apply sp_of_solver; apply inb_bad|intros [sol m]; cbv beta].
      apply sp_pure with (H := local_result E o0 p sol); [intros s [_ H]; eapply local_of; eauto|intro Hl].
      eapply sp_bind; [eapply sp_weak; [apply (sp_result k X i p obj o sol HX Hl)|intros s [H _]; exact H|intros ? ? H; exact H]|intro; cbv beta].
      eapply sp_bind; [ib; apply grows_and; [auto|apply grows_done]|intro; cbv beta].
      eapply sp_bind; [apply sp_oqnlp|intro o2; cbv beta].
      eapply sp_bind; [apply sp_unwrap; intros s [H _]; eapply inb_bad; eauto|intro stop; cbv beta].
      apply sp_ret. intros s [[H1 ->] H2]. split; [auto|]. simpl. intros ->. auto.
    + eapply sp_bind; [ib; apply grows_and; [auto|apply grows_in]|intro; cbv beta]. apply sp_ret. intros s (H1 & H2 & H3 & H4 & H5 & H6).
      split; [|discriminate]. split; [auto|]. split; [auto|]. split; [auto|]. split; [auto|]. split; [auto|]. left. eauto.
  - intros [u' stop]. simpl. destruct stop.
    + apply sp_ret. intros s [(H1 & H2 & H3 & H4 & H5 & _) H6]. split; [|auto]. repeat (split; [auto|]). exact H5.
    + eapply sp_weak with (P' := inb k (fun l => X l /\ done i l)) (Q' := fun r s => inb k (fun l => X l /\ done i l) s /\ snd r = false); [|intros s [H _]; exact H|].
      * eapply sp_bind; [ib; apply grows_and; [auto|apply grows_done]|intro; cbv beta].
        eapply sp_bind; [apply sp_save_b; apply grows_and; [auto|apply grows_done]|intro; cbv beta]. apply sp_ret. auto.
      * intros r s [H1 H2]. rewrite H2. split; [exact H1|discriminate].
Qed.
Definition tt_of : list event -> Prop := fun _ => True.
Lemma grows_tt : grows tt_of. Proof. intros ? ? ?. exact I. Qed.
Lemma inb_step : forall k b s, (forall j, k <= j -> j < k + b -> done j (trace s)) -> inb k tt_of s -> inb (k + b) tt_of s.
Proof.
  intros k b s Hb (H1 & H2 & H3 & H4 & H5). split; [auto|]. split; [lia|]. split; [|auto].
  intros j Hj Hk. destruct (le_lt_dec k j); [apply Hb; auto|auto].
Qed.
Lemma seq_b : 1 <= n -> forall res objs b u k, start <= k -> map fst b = seq k (List.length b) ->
  spec badb (inb k tt_of) (process_batch_sequential E start res objs b u)
    (fun _ s => (exists k', inb k' tt_of s) /\ (inb (k + List.length b) tt_of s \/ hit s)).
Proof.
  intros Hn res objs b. induction b as [|[i p] b IH]; intros u k Hk Hb.
  { apply sp_ret. intros s H. simpl. rewrite Nat.add_0_r. eauto. }
  simpl in Hb. injection Hb as Hi Hb. simpl process_batch_sequential.
  assert (Hlt : (i <? start) = false) by (apply Nat.ltb_ge; lia). rewrite Hlt, andb_false_r.
  eapply sp_bind; [apply (one_b objs i p u k tt_of grows_tt); lia|intros [u' stop]; cbv beta]. simpl snd. destruct stop.
  - apply sp_ret. intros s [H1 H2]. split; [eauto|right; auto].
  - eapply sp_weak; [apply (IH u' (S k)); [lia|auto]| |].
    + intros s [(H1 & H2 & H3 & H4 & H5 & H6) _]. rewrite <- Nat.add_1_r. apply inb_step; [|repeat (split; [auto|]); exact I].
      intros j Hj Hj'. assert (j = i) by lia. subst j. exact H6.
    + intros _ s [H1 H2]. split; [auto|]. simpl. rewrite <- Nat.add_succ_comm. exact H2.
Qed.

(** ** Parallel batches *)
Lemma quicks_b : forall l u k X, grows X -> (forall c, In c l -> fst (fst c) < k + n) ->
  spec badb (inb k X) (process_quicks E l u) (fun _ => inb k X).
Proof.
  intros l. induction l as [|[[i p] obj] l IH]; intros u k X HX Hl; [apply sp_ret; auto|]. simpl.
  apply sp_bind with (Q := fun _ => inb k X); [|intro; apply IH; auto; intros; apply Hl; right; auto].
  unfold process_quick.
  eapply sp_bind; [apply sp_begin_b; [auto|apply (Hl (i, p, obj)); left; reflexivity]|intro; cbv beta].
  eapply sp_bind; [ib; auto|intro; cbv beta]. eapply sp_bind; [ib; auto|intro; cbv beta]. eapply sp_bind; [ib; auto|intro; cbv beta].
  eapply sp_bind; [apply sp_save_b; auto|intro; cbv beta]. apply sp_ret. auto.
Qed.
Definition decided_all (l : list (nat * point * f64)) (t : list event) : Prop :=
  forall i p v, In (i, p, v) l -> exists o', In (EvDecide i p v o' true) t.
Lemma grows_decided : forall l, grows (decided_all l).
Proof. intros l new t H i p v Hin. destruct (H i p v Hin) as [o' Ho]. exists o'. apply in_or_app; auto. Qed.
Definition searched_all (l : list (nat * point * f64)) (t : list event) : Prop :=
  forall i p v, In (i, p, v) l -> In (EvSearch (Some i) p) t.
Lemma grows_searched : forall l, grows (searched_all l).
Proof. intros l new t H i p v Hin. apply in_or_app. right. eauto. Qed.
(** the choice of one recorded decision *)
Lemma sp_choose : forall A B k (X : list event -> Prop) (P : B -> list event -> Prop) (m : OM A) Q,
  (forall b, spec badb (inb k (fun l => X l /\ P b l)) m Q) -> spec badb (inb k (fun l => X l /\ exists b, P b l)) m Q.
Proof.
  intros A B k X P m Q H s (H1 & H2 & H3 & H4 & H5 & b & H6). apply (H b). repeat (split; [auto|]). auto.
Qed.
Lemma par_results_b : forall rs u k X, grows X ->
  (forall i p v sol m, In (i, p, v, (sol, m)) rs -> i < k + n /\ local_result E o0 p sol) ->
  spec badb (inb k (fun l => X l /\ decided_all (map fst rs) l /\ searched_all (map fst rs) l)) (process_par_results E rs u)
    (fun _ s => inb k X s /\ (inb k (fun l => X l /\ all_done (map (fun c => fst (fst (fst c))) rs) l) s \/ hit s)).
Proof.
  intros rs. induction rs as [|[[[i p] v] [sol m]] rs IH]; intros u k X HX Hrs.
  { apply sp_ret. intros s (H1 & H2 & H3 & H4 & H5 & _). split; [repeat (split; [auto|]); auto|]. left. repeat (split; [auto|]). intros j []. }
  simpl process_par_results. destruct (Hrs i p v sol m (or_introl eq_refl)) as [Hi Hl].
  set (R := fun l => X l /\ decided_all (map fst rs) l /\ searched_all (map fst rs) l).
  assert (HR : grows R) by (apply grows_and; [auto|apply grows_and; [apply grows_decided|apply grows_searched]]).
  eapply sp_weak with (P' := inb k (fun l => R l /\ exists o', In (EvDecide i p v o' true) l /\ In (EvSearch (Some i) p) l));
    [| |intros ? ? H; exact H].
  2: { intros s H. eapply inb_imp; [exact H|]. clear s H. intros l (H5 & H6 & H7). split.
       - split; [auto|]. split; [intros a b c Hin; exact (H6 a b c (or_intror Hin))|intros a b c Hin; exact (H7 a b c (or_intror Hin))].
       - destruct (H6 i p v (or_introl eq_refl)) as [o' Ho]. exists o'. split; [auto|]. exact (H7 i p v (or_introl eq_refl)). }
  apply sp_choose. intro o'.
  assert (HY : grows (fun l => R l /\ In (EvDecide i p v o' true) l /\ In (EvSearch (Some i) p) l)).
  { apply grows_and; [auto|]. apply grows_and; apply grows_in. }
  apply sp_bind with (Q := fun stop s => inb k (fun l => R l /\ done i l) s /\ (stop = true -> hit s)).
  - unfold process_par_result.
    eapply sp_bind; [apply sp_begin_b; auto|intro; cbv beta]. eapply sp_bind; [ib; auto|intro; cbv beta].
    eapply sp_bind; [apply (sp_result k R i p v o' sol HR Hl)|intro; cbv beta].
    assert (HZ : grows (fun l => R l /\ done i l)) by (apply grows_and; [auto|apply grows_done]).
    eapply sp_bind; [ib; auto|intro; cbv beta]. eapply sp_bind; [ib; auto|intro; cbv beta]. eapply sp_bind; [ib; auto|intro; cbv beta].
    eapply sp_bind; [apply sp_oqnlp|intro o2; cbv beta].
    eapply sp_bind; [apply sp_unwrap; intros s [H _]; eapply inb_bad; eauto|intro stop; cbv beta]. destruct stop.
    + apply sp_ret. intros s [[H ->] Hs]. auto.
    + eapply sp_weak with (P' := inb k (fun l => R l /\ done i l)) (Q' := fun st s => inb k (fun l => R l /\ done i l) s /\ st = false);
        [|intros s [[H _] _]; exact H|intros st s [H ->]; split; [auto|discriminate]].
      eapply sp_bind; [apply sp_save_b; auto|intro; cbv beta]. apply sp_ret. auto.
  - intros [|]; cbv beta.
    + apply sp_ret. intros s [(H1 & H2 & H3 & H4 & (H5 & _) & _) H]. split; [|right; auto]. repeat (split; [auto|]). auto.
    + eapply sp_weak; [apply (IH u k (fun l => X l /\ done i l))| |].
      * apply grows_and; [auto|apply grows_done].
      * intros. eapply Hrs. right. eauto.
      * intros s [(H1 & H2 & H3 & H4 & (H5 & H6 & H7) & H8) _]. repeat (split; [auto|]). auto.
      * intros _ s [(H1 & H2 & H3 & H4 & H5 & H8) G]. split; [repeat (split; [auto|]); auto|]. destruct G as [(_ & _ & _ & _ & _ & G)|G]; [left|right; auto].
        repeat (split; [auto|]). intros j [<-|Hj]; [exact H8|apply G; auto].
Qed.
Lemma singles_b : forall l u k X, grows X -> (forall i p v, In (i, p, v) l -> i < k + n) ->
  spec badb (inb k (fun t => X t /\ decided_all l t)) (process_singles E l u)
    (fun _ s => inb k X s /\ (inb k (fun t => X t /\ all_done (map (fun c => fst (fst c)) l) t) s \/ hit s)).
Proof.
  intros l. induction l as [|[[i p] v] l IH]; intros u k X HX Hl.
  { apply sp_ret. intros s (H1 & H2 & H3 & H4 & H5 & _). split; [repeat (split; [auto|]); auto|]. left. repeat (split; [auto|]). intros j []. }
  simpl process_singles. pose proof (Hl i p v (or_introl eq_refl)) as Hi.
  set (R := fun t => X t /\ decided_all l t).
  assert (HR : grows R) by (apply grows_and; [auto|apply grows_decided]).
  eapply sp_weak with (P' := inb k (fun t => R t /\ exists o', In (EvDecide i p v o' true) t)); [| |intros ? ? H; exact H].
  2: { intros s H. eapply inb_imp; [exact H|]. clear s H. intros t (H5 & H6). split.
       - split; [auto|]. intros a b c Hin. exact (H6 a b c (or_intror Hin)).
       - exact (H6 i p v (or_introl eq_refl)). }
  apply sp_choose. intro o'.
  assert (HY : grows (fun t => R t /\ In (EvDecide i p v o' true) t)) by (apply grows_and; [auto|apply grows_in]).
  apply sp_bind with (Q := fun stop s => inb k (fun t => R t /\ done i t) s /\ (stop = true -> hit s)).
  - unfold process_single.
    eapply sp_bind; [apply sp_begin_b; auto|intro; cbv beta]. eapply sp_bind; [ib; auto|intro; cbv beta].
    eapply sp_bind; [apply sp_cfg|intro o; cbv beta].
    apply sp_pure with (H := cfgs o = cfgs o0); [intros s (_ & H & _); exact H|intro Ho].
    eapply sp_bind; [eapply sp_weak; [apply (sp_out k (fun t => R t /\ In (EvDecide i p v o' true) t) (fun t => R t /\ In (EvDecide i p v o' true) t /\ In (EvSearch (Some i) p) t))|intros s [H _]; exact H|intros ? ? H; exact H]|intro; cbv beta].
    { repeat constructor. } { intros t [H1 H2]. split; [apply (HR [_]); auto|]. split; [right; auto|left; reflexivity]. }
    eapply sp_bind; [apply sp_of_solver; apply inb_bad|intros [sol m]; cbv beta].
    apply sp_pure with (H := local_result E o0 p sol); [intros s [_ H]; eapply local_of; eauto|intro Hloc].
    eapply sp_bind; [eapply sp_weak; [apply (sp_result k R i p v o' sol HR Hloc)|intros s [H _]; exact H|intros ? ? H; exact H]|intro; cbv beta].
    assert (HZ : grows (fun t => R t /\ done i t)) by (apply grows_and; [auto|apply grows_done]).
    eapply sp_bind; [ib; auto|intro; cbv beta]. eapply sp_bind; [ib; auto|intro; cbv beta]. eapply sp_bind; [ib; auto|intro; cbv beta].
    eapply sp_bind; [apply sp_oqnlp|intro o2; cbv beta].
    eapply sp_bind; [apply sp_unwrap; intros s [H _]; eapply inb_bad; eauto|intro stop; cbv beta]. destruct stop.
    + apply sp_ret. intros s [[H ->] Hs]. auto.
    + eapply sp_weak with (P' := inb k (fun t => R t /\ done i t)) (Q' := fun st s => inb k (fun t => R t /\ done i t) s /\ st = false);
        [|intros s [[H _] _]; exact H|intros st s [H ->]; split; [auto|discriminate]].
      eapply sp_bind; [apply sp_save_b; auto|intro; cbv beta]. apply sp_ret. auto.
  - intros [|]; cbv beta.
    + apply sp_ret. intros s [(H1 & H2 & H3 & H4 & (H5 & _) & _) H]. split; [|right; auto]. repeat (split; [auto|]). auto.
    + eapply sp_weak; [apply (IH u k (fun t => X t /\ done i t))| |].
      * apply grows_and; [auto|apply grows_done].
      * intros. eapply Hl. right. eauto.
      * intros s [(H1 & H2 & H3 & H4 & (H5 & H6) & H8) _]. repeat (split; [auto|]). auto.
      * intros _ s [(H1 & H2 & H3 & H4 & H5 & H8) G]. split; [repeat (split; [auto|]); auto|]. destruct G as [(_ & _ & _ & _ & _ & G)|G]; [left|right; auto].
        repeat (split; [auto|]). intros j [<-|Hj]; [exact H8|apply G; auto].
Qed.
Lemma collect_in : forall A pick (l : list (outcome oq_error A)) vals, par_collect pick l = Ok vals ->
  forall a, In a vals -> In (Ok a) l.
Proof.
  intros A pick l vals H a Ha. unfold par_collect in H. destruct (existsb oc_panic l); [discriminate|].
  destruct (oc_errs l); [|discriminate]. injection H as <-. unfold oc_vals in Ha. apply in_flat_map in Ha as (r & Hr & Ha).
  destruct r; simpl in Ha; [|destruct Ha..]. destruct Ha as [->|[]]. exact Hr.
Qed.
Lemma collect_map : forall A B pick (f : A -> outcome oq_error B) (g : B -> A) l vals,
  (forall a b, f a = Ok b -> g b = a) -> par_collect pick (map f l) = Ok vals -> map g vals = l.
Proof.
  intros A B pick f g l vals Hg H. unfold par_collect in H. destruct (existsb oc_panic _) eqn:Hp; [discriminate|].
  destruct (oc_errs _) eqn:He; [|discriminate]. injection H as <-.
  induction l as [|a l IH]; [reflexivity|]. simpl in *. destruct (f a) eqn:Hf; simpl in *; try discriminate.
  rewrite (Hg _ _ Hf). f_equal. apply IH; auto.
Qed.
Lemma partition_as : forall A (f : A -> bool) l, partition f l = (filter f l, filter (fun x => negb (f x)) l).
Proof. intros A f l. induction l as [|x l IH]; [reflexivity|]. simpl. rewrite IH. destruct (f x); reflexivity. Qed.
Lemma sp_drop : forall A k X (H : Prop) (m : OM A) Q, (H -> spec badb (inb k X) m Q) -> spec badb (fun s => inb k X s /\ H) m Q.
Proof. intros A k X H m Q Hm s [Hs Hh]. apply (Hm Hh); auto. Qed.
Lemma par_b : forall res objs b u k, start <= k -> List.length b <= n -> map fst b = seq k (List.length b) ->
  spec badb (inb k tt_of) (process_batch_parallel E start res objs b u)
    (fun _ s => (exists k', inb k' tt_of s) /\ (inb (k + List.length b) tt_of s \/ hit s)).
Proof.
  intros res objs b u k Hk Hlen Hb. unfold process_batch_parallel.
  assert (Hge : forall i p, In (i, p) b -> k <= i /\ i < k + List.length b).
  { intros i p Hin. apply (in_map fst) in Hin. rewrite Hb in Hin. apply in_seq in Hin. simpl in Hin. lia. }
  assert (Hf : (if res then filter (fun b => start <=? fst b) b else b) = b).
  { destruct res; [|reflexivity]. clear - Hge Hk. assert (G : forall i p, In (i, p) b -> start <= i) by (intros i p H; apply Hge in H; lia).
    clear Hge. induction b as [|[i p] b IH]; [reflexivity|]. simpl.
    assert (Hi : (start <=? i) = true) by (apply Nat.leb_le; eapply G; left; reflexivity). rewrite Hi, IH; auto. intros; eapply G; right; eauto. }
  rewrite Hf. clear Hf. cbv zeta. destruct b as [|b0 b1] eqn:Eb; [apply sp_ret; intros s H; simpl; rewrite Nat.add_0_r; eauto|]. rewrite <- Eb in *. clear b0 b1 Eb.
  eapply sp_bind; [apply (sp_in k tt_of); [apply grows_tt|destruct objs; parts|destruct objs; parts]|intro; cbv beta].
  eapply sp_bind; [apply (sp_in k tt_of); [apply grows_tt|parts|parts]|intro t; cbv beta].
  eapply sp_bind; [apply sp_of_result; apply inb_bad|intro results; cbv beta].
  apply sp_drop. intro Hres.
  assert (Hids : map fst results = b).
  { eapply collect_map; [|exact Hres]. intros [i p] c Hc. simpl in Hc. destruct (cand_objective E objs i p); try discriminate. injection Hc as <-. reflexivity. }
  eapply sp_bind; [apply (sp_in k tt_of); [apply grows_tt|destruct objs; parts|destruct objs; parts]|intro; cbv beta].
  eapply sp_bind; [apply sp_oqnlp|intro o; cbv beta].
  set (passes := fun c : nat * point * f64 => should_start_local o (snd (fst c)) (snd c)).
  destruct (partition passes results) as [local quick] eqn:Hpart.
  assert (Hin : forall c, In c results <-> In c local \/ In c quick).
  { intro c. apply elements_in_partition with (f := passes). exact Hpart. }
  assert (Hloc : forall c, In c local -> passes c = true).
  { intros c Hc. pose proof (partition_as _ passes results) as P. rewrite Hpart in P. injection P as P1 _. rewrite P1 in Hc. apply filter_In in Hc. apply Hc. }
  assert (Hqk : forall c, In c quick -> passes c = false).
  { intros c Hc. pose proof (partition_as _ passes results) as P. rewrite Hpart in P. injection P as _ P2. rewrite P2 in Hc. apply filter_In in Hc. destruct Hc as [_ Hc]. apply negb_true_iff. exact Hc. }
  assert (Hrng : forall i p v, In (i, p, v) results -> k <= i /\ i < k + n).
  { intros i p v H. assert (H2 : In (i, p) b) by (rewrite <- Hids; apply in_map_iff; exists (i, p, v); auto). apply Hge in H2. lia. }
  set (Q0 := fun t => all_done (map (fun c => fst (fst c)) quick) t).
  assert (HQ : grows Q0) by apply grows_ids.
  eapply sp_bind; [eapply sp_weak; [apply (sp_out k tt_of (fun t => Q0 t /\ decided_all local t))|intros s [H _]; exact H|intros ? ? H; exact H]|intro; cbv beta].
  { apply Forall_forall. intros e He. apply in_map_iff in He as (c & <- & _). exact I. }
  { intros tr _.
    assert (D : forall c, In c results -> In (EvDecide (fst (fst c)) (snd (fst c)) (snd c) o (passes c))
        (rev (map (fun c => EvDecide (fst (fst c)) (snd (fst c)) (snd c) o (passes c)) results) ++ tr)).
    { intros c Hc. apply in_or_app. left. apply -> in_rev. apply in_map_iff. exists c. auto. }
    split.
    - intros j Hj. apply in_map_iff in Hj as ([[i p] v] & <- & Hc). left. exists p, v, o.
      pose proof (D (i, p, v) (proj2 (Hin _) (or_intror Hc))) as G. rewrite (Hqk _ Hc) in G. exact G.
    - intros i p v Hc. exists o. pose proof (D (i, p, v) (proj2 (Hin _) (or_introl Hc))) as G. rewrite (Hloc _ Hc) in G. exact G. }
  assert (HX : grows (fun t => Q0 t /\ decided_all local t)) by (apply grows_and; [auto|apply grows_decided]).
  eapply sp_bind; [apply quicks_b; [auto|]|intro u'; cbv beta].
  { intros [[i p] v] Hc. apply (Hrng i p v). apply Hin. auto. }
  eapply sp_bind; [apply sp_cfg|intro o1; cbv beta].
  apply sp_pure with (H := cfgs o1 = cfgs o0); [intros s (_ & H & _); exact H|intro Ho].
  eapply sp_weak with (P' := inb k (fun t => Q0 t /\ decided_all local t)); [|intros s [H _]; exact H|intros ? ? H; exact H].
  assert (Fin : forall s, inb k Q0 s /\ (inb k (fun t => Q0 t /\ all_done (map (fun c => fst (fst c)) local) t) s \/ hit s) ->
      (exists k', inb k' tt_of s) /\ (inb (k + List.length b) tt_of s \/ hit s)).
  { intros s [H1 H2]. split; [exists k; eapply inb_imp; [exact H1|intros; exact I]|]. destruct H2 as [H2|H2]; [left|right; auto].
    apply inb_step; [|eapply inb_imp; [exact H2|intros; exact I]]. intros j Hj Hj'. destruct H2 as (_ & _ & _ & _ & H5 & H6).
    assert (Hjb : In j (map fst b)) by (rewrite Hb; apply in_seq; lia). rewrite <- Hids in Hjb. rewrite map_map in Hjb.
    apply in_map_iff in Hjb as (c & <- & Hc). apply Hin in Hc as [Hc|Hc]; [apply H6|apply H5]; apply in_map_iff; exists c; auto. }
  apply sp_bind with (Q := fun _ s => (exists k', inb k' tt_of s) /\ (inb (k + List.length b) tt_of s \/ hit s)); [|intro; apply sp_ret; auto].
  destruct ((2 <=? List.length local) && o_parallel o1).
  - eapply sp_bind; [apply (sp_out k _ (fun t => (Q0 t /\ decided_all local t) /\ searched_all local t))|intro; cbv beta].
    { apply Forall_forall. intros e He. apply in_map_iff in He as (c & <- & _). exact I. }
    { intros tr Htr. split; [apply HX; auto|]. intros i p v Hc. apply in_or_app. left. apply -> in_rev. apply in_map_iff. exists (i, p, v). auto. }
    eapply sp_bind; [apply sp_of_result; apply inb_bad|intro rs; cbv beta]. apply sp_drop. intro Hrs.
    assert (Hmap : map fst rs = local).
    { eapply collect_map; [|exact Hrs]. intros c r Hc. simpl in Hc. destruct (lift_solver _); try discriminate. injection Hc as <-. reflexivity. }
    eapply sp_weak; [apply (par_results_b rs u' k Q0 HQ)| |].
    + intros i p v sol m Hc. split.
      * apply (Hrng i p v). apply Hin. left. rewrite <- Hmap. apply in_map_iff. exists (i, p, v, (sol, m)). auto.
      * pose proof (collect_in _ _ _ _ Hrs _ Hc) as G. apply in_map_iff in G as (c & G & _).
        destruct (solve_tracked E (p_solver_type (o_params o1)) (p_solver_config (o_params o1)) (snd (fst c)) (observes2 o1)) as [[sol' m']|e|] eqn:Hs;
          simpl in G; try discriminate. injection G as -> -> ->. simpl in Hs. eapply local_of_params; eauto.
    + intros s H. eapply inb_imp; [exact H|]. rewrite Hmap. intros l [[A B] C]. auto.
    + intros x s H. apply Fin. rewrite <- Hmap. rewrite map_map. exact H.
  - eapply sp_weak; [apply (singles_b local u' k Q0 HQ)|auto|intros x s H; apply Fin; exact H].
    intros i p v Hc. apply (Hrng i p v). apply Hin. auto.
Qed.
Lemma app_len : forall A (a b c d : list A), a ++ b = c ++ d -> List.length a = List.length c -> a = c /\ b = d.
Proof.
  intros A a. induction a as [|x a IH]; intros b [|y c] d H Hl; simpl in *; try discriminate; auto.
  injection H as -> H. injection Hl as Hl. destruct (IH _ _ _ H Hl) as [-> ->]. auto.
Qed.
Lemma loop_b : forall res objs bs u k, start <= k -> 1 <= n -> Forall (fun b => List.length b <= n) bs ->
  map fst (List.concat bs) = seq k (List.length (List.concat bs)) ->
  spec badb (inb k tt_of) (stage2_loop E n start res objs bs u) (fun _ s => exists k', inb k' tt_of s).
Proof.
  intros res objs bs. induction bs as [|b bs IH]; intros u k Hk Hn Hl Hids; [apply sp_ret; eauto|].
  simpl stage2_loop. inversion Hl as [|? ? Hb Hl']; subst. simpl in Hids. rewrite map_app, app_length, seq_app in Hids.
  apply app_len in Hids as [Hi1 Hi2]; [|rewrite map_length, seq_length; reflexivity].
  eapply sp_bind; [apply sp_oqnlp|intro o; cbv beta].
  eapply sp_bind; [eapply sp_weak; [apply (sp_in k tt_of); [apply grows_tt| |]|intros s [H _]; exact H|intros ? ? H; exact H]|intros [|]; cbv beta].
  { destruct (o_max_time o); parts. } { destruct (o_max_time o); parts. } { apply sp_ret; eauto. }
  eapply sp_bind; [apply (sp_in k tt_of); [apply grows_tt|parts|parts]|intro; cbv beta].
  apply sp_bind with (Q := fun _ s => (exists k', inb k' tt_of s) /\ (inb (k + List.length b) tt_of s \/ hit s)).
  { destruct (1 <? n); [apply par_b; auto|apply seq_b; auto]. }
  intro u'. eapply sp_bind; [apply sp_oqnlp|intro o2; cbv beta].
  eapply sp_bind; [apply sp_unwrap; intros s [[[k' H] _] _]; eapply inb_bad; eauto|intro stop; cbv beta]. destruct stop.
  - apply sp_ret. intros s [[[H _] _] _]. exact H.
  - eapply sp_weak; [apply (IH u' (k + List.length b)); auto; lia| |auto].
    intros s [[[_ [H|H]] ->] Hn']; [exact H|congruence].
Qed.
End Batches.
Lemma chunks_small : forall A n (l : list A), Forall (fun b => List.length b <= n) (chunks n l).
Proof.
  intros A n l. unfold chunks. generalize (List.length l) as f. intro f. revert l.
  induction f as [|f IH]; intros [|x l]; simpl; auto. constructor; [|apply IH].
  rewrite firstn_length. apply Nat.le_min_l.
Qed.
Lemma size_max : forall E o start, batch_size E o start <= max_batch o.
Proof.
  intros E o start. unfold batch_size, max_batch. destruct (o_parallel o); simpl; [|lia]. destruct (o_batch o) as [m|]; [lia|].
  destruct (_ || _); [lia|]. apply Nat.le_min_r.
Qed.
Lemma em_weak : forall (P Q : event -> Prop) A (m : OM A), (forall e, P e -> Q e) -> emits P m -> emits Q m.
Proof. intros P Q A m H He s. destruct (He s) as (new & Ht & Hn). exists new. split; [auto|]. eapply Forall_impl; eauto. Qed.
(** Stage 2 *)
Lemma stage2_b : forall E (res : bool) refs objs u s,
  let start := if res then o_iteration (s_o s) else 0 in
  Forall unsaved (trace s) -> o_iteration (s_o s) <= start -> forall l1 f cp l2,
  trace (snd (stage2_run E res refs objs u s)) = l1 ++ EvSave f cp :: l2 ->
  forall j, start <= j -> j + max_batch (s_o s) <= cp_iteration cp -> settled E (s_o s) j l2.
Proof.
  intros E res refs objs u s start Htr Hit. unfold stage2_run. unfold bind at 1.
  assert (Hem : emits unsaved begin_stage2) by (unfold begin_stage2; parts).
  assert (Hk1 : keeps (fun o => (cfgi o, o_parallel o, o_batch o)) begin_stage2) by (unfold begin_stage2; parts).
  destruct (Hem s) as (new & Ht & Hn). specialize (Hk1 s). destruct (tr_begin_stage2 s) as [_ Hr]. destruct (begin_stage2 s) as [r0 s1]. simpl in Ht, Hk1, Hr. subst r0.
  unfold cfgi, cfgs in Hk1. injection Hk1 as K1 K2 K3 K4 K5 K6. rewrite (bind_ok _ _ the_oqnlp _ s1 (s_o s1) s1 eq_refl). cbv beta iota.
  assert (Hu : forall s2, trace s2 = trace s1 -> Forall unsaved (trace s2)).
  { intros s2 H. rewrite H, Ht. apply Forall_app. auto. }
  assert (No : forall l, Forall unsaved l -> forall l1 f cp l2, l = l1 ++ EvSave f cp :: l2 -> False).
  { intros l Hl l1 f cp l2 ->. rewrite Forall_forall in Hl. apply (Hl (EvSave f cp)). apply in_or_app; simpl; auto. }
  assert (Hsz : batch_size E (s_o s1) start <= max_batch (s_o s)).
  { eapply Nat.le_trans; [apply size_max|]. unfold max_batch. rewrite K5, K6. lia. }
  set (size := batch_size E (s_o s1) start) in *.
  assert (Go : forall refs1 s2, trace s2 = trace s1 -> cfgi (s_o s2) = cfgi (s_o s1) -> forall l1 f cp l2,
    trace (snd (bind (if size =? 0 then panic
     else stage2_loop E size start res objs (chunks size (skipn start (enumerate (firstn (p_iterations (o_params (s_o s1))) refs1)))) u)
     (fun _ => bind (maybe_save_final_checkpoint E) (fun _ => final_set)) s2)) = l1 ++ EvSave f cp :: l2 ->
    forall j, start <= j -> j + max_batch (s_o s) <= cp_iteration cp -> settled E (s_o s) j l2).
  { intros refs1 s2 Ht2 Hc2 l1 f cp l2. destruct (size =? 0) eqn:Hz.
    { simpl. intros H. exfalso. eapply No; [apply (Hu s2 Ht2)|exact H]. }
    apply Nat.eqb_neq in Hz. set (bs := chunks _ _).
    assert (Hbs : map fst (List.concat bs) = seq start (List.length (List.concat bs))).
    { unfold bs. rewrite chunks_all by auto. rewrite <- skipn_map. unfold enumerate. rewrite enum_fst, skipn_seq, skipn_length.
      f_equal. rewrite <- (map_length fst (enumerate_from 0 _)), enum_fst, seq_length. reflexivity. }
    assert (Hin : inb E (s_o s) start size start tt_of s2).
    { unfold cfgi, cfgs in *. injection Hc2 as C1 C2 C3 C4. split; [unfold cfgs; congruence|]. split; [rewrite C4, K4; lia|].
      split; [intros; lia|]. split; [|exact I]. intros a g c b H. exfalso. eapply No; [apply (Hu s2 Ht2)|exact H]. }
    intros Heq j Hj Hjc.
    assert (Sp : spec (badb E (s_o s) start size) (inb E (s_o s) start size start tt_of)
       (bind (stage2_loop E size start res objs bs u) (fun _ => bind (maybe_save_final_checkpoint E) (fun _ => final_set)))
       (fun _ => badb E (s_o s) start size)).
    { eapply sp_bind; [apply loop_b; auto; [lia|apply chunks_small]|intro; cbv beta].
      apply sp_pre. intros s3 [k' H3]. apply sp_weak with (P' := inb E (s_o s) start size k' tt_of) (Q' := fun _ => badb E (s_o s) start size); [|intros s4 ->; auto|auto].
      eapply sp_bind; [apply sp_final_b; apply grows_tt|intro; cbv beta].
      unfold final_set. eapply sp_bind; [apply sp_oqnlp|intro o; cbv beta]. intros s4 [H4 _]. apply inb_bad in H4. destruct (o_set o); exact H4. }
    specialize (Sp s2 Hin). revert Heq.
    destruct (bind _ _ s2) as [r s4]. simpl. intro Heq. assert (G : badb E (s_o s) start size s4) by (destruct r; exact Sp).
    eapply G; [exact Heq|auto|lia]. }
  destruct res.
  - rewrite (bind_ok _ _ (ret refs) _ s1 refs s1 eq_refl). cbv zeta beta iota. rewrite K4. apply (Go refs s1); auto.
  - cbv iota. destruct (add_u64 E (p_seed (o_params (s_o s1))) (N.of_nat (o_iteration (s_o s1)))) as [sd|] eqn:Ha.
    + set (s2 := mk_st (set_o_seed sd (s_o s1)) (s_w s1)).
      rewrite (bind_ok _ _ (bind (unwrap (Some sd)) _) _ s1 (e_shuffle E (e_seed_from E sd) refs) s2 eq_refl). cbv zeta.
      apply (Go _ s2); reflexivity.
    + rewrite (bind_panic _ _ (bind (unwrap None) _) _ s1 s1 eq_refl). simpl. intros l1 f cp l2 H. exfalso. eapply No; [apply (Hu s1 eq_refl)|exact H].
Qed.
Lemma settled_cfg : forall E o o' j l, cfgs o = cfgs o' -> settled E o j l -> settled E o' j l.
Proof.
  intros E o o' j l Hc [H|(p & obj & o1 & x & H1 & H2 & H3 & ty & cfg & H4 & H5)]; [left; exact H|].
  right. exists p, obj, o1, x. repeat (split; [auto|]). exists ty, cfg. split; [auto|]. unfold cfgs in Hc. injection Hc as Ha Hb Hcc.
  rewrite <- Ha, <- Hb, <- Hcc. exact H5.
Qed.
Lemma same_cfgs : forall o o', same_config o o' -> cfgs o' = cfgs o.
Proof. intros o o' H. unfold cfgs. unfold same_config in H. decompose [and] H. congruence. Qed.
Lemma same_batch : forall o o', same_config o o' -> max_batch o' = max_batch o.
Proof.
  intros o o' H. unfold max_batch. unfold same_config in H. decompose [and] H.
  repeat match goal with X : o_parallel o' = _ |- _ => rewrite X; clear X | X : o_batch o' = _ |- _ => rewrite X; clear X end. reflexivity.
Qed.
Theorem batch_saves : forall E s r s' new, run E s = (r, s') -> recorded s s' new -> o_iteration (s_o s) = 0 ->
  exists start, first_index E s start /\
    forall l1 f cp l2, new = l1 ++ EvSave f cp :: l2 ->
    forall j, start <= j -> j + max_batch (s_o s') <= cp_iteration cp -> settled E (s_o s') j l2.
Proof.
  intros E s r s' new Hrun Hnew Hz.
  destruct (run_cases E s r s' new Hrun Hnew) as [(-> & _ & _)|(b & s1 & Hst & Ht & Hr & Hcfg)].
  { destruct (first_index_some E s) as [start Hf]. exists start. split; [exact Hf|]. intros [|] f cp l2 H; discriminate H. }
  assert (Fr : forall s2, same_config (s_o s2) (s_o s') -> forall j l, settled E (s_o s2) j l -> settled E (s_o s') j l).
  { intros s2 H j l. apply settled_cfg. symmetry. apply same_cfgs; auto. }
  assert (Htn : trace (ends s' new) = new) by reflexivity.
  destruct b; unfold run_rest in Hr.
  - assert (Href : exists cp, resumes_from E s cp /\ o_iteration (s_o s1) = cp_iteration cp).
    { inversion Hst; subst. exists cp. split; [exists c; auto|reflexivity]. }
    destruct Href as (cp0 & Hres & Hit). exists (cp_iteration cp0). split; [right; eauto|].
    rewrite (bind_ok _ _ the_oqnlp _ s1 (s_o s1) s1 eq_refl) in Hr.
    intros l1 f cp l2 Heq j Hj Hjc. apply (Fr s1 Hcfg).
    eapply (stage2_b E true); [| |rewrite Hr; simpl; exact Heq| |].
    + rewrite Ht. constructor.
    + simpl. lia.
    + simpl. lia.
    + rewrite <- (same_batch _ _ Hcfg). exact Hjc.
  - exists 0. split; [left; split; [reflexivity|exact (start_fresh E _ _ Hst)]|].
    assert (Hi1 : o_iteration (s_o s1) = 0) by (inversion Hst; subst; exact Hz).
    pose proof (em_stage1 E s1) as (pre & Hp1 & Hp2).
    assert (K : keeps (fun o => (cfgi o, (o_parallel o, o_batch o))) (stage1_run E)) by (unfold stage1_run, end_stage1, stage1_enter; kp; parts).
    specialize (K s1).
    assert (Hun : forall s2, trace s2 = pre ++ trace s1 -> Forall unsaved (trace s2)).
    { intros s2 H. rewrite H, Ht, app_nil_r. eapply Forall_impl; [|exact Hp2]. intros []; simpl; auto. }
    unfold bind in Hr. destruct (stage1_run E s1) as [r2 s2] eqn:E1. simpl in Hp1, K. specialize (Hun s2 Hp1).
    unfold cfgi, cfgs in K. injection K as K1 K2 K3 K4 K5 K6.
    assert (No : forall x, ends s' new = x -> trace x = trace s2 -> forall l1 f cp l2, new = l1 ++ EvSave f cp :: l2 -> False).
    { intros x Hx Htx l1 f cp l2 H. rewrite <- Htn, Hx, Htx in H. rewrite H in Hun. rewrite Forall_forall in Hun.
      apply (Hun (EvSave f cp)). apply in_or_app; simpl; auto. }
    destruct r2 as [[[refs objs]|]|e|].
    + intros l1 f cp l2 Heq j Hj Hjc.
      assert (Hm : max_batch (s_o s') = max_batch (s_o s2)).
      { rewrite (same_batch _ _ Hcfg). unfold max_batch. rewrite K5, K6. reflexivity. }
      apply (settled_cfg E (s_o s2)). { rewrite (same_cfgs _ _ Hcfg). unfold cfgs. congruence. }
      eapply (stage2_b E false); [exact Hun| |rewrite Hr; simpl; exact Heq|exact Hj|rewrite <- Hm; exact Hjc].
      rewrite K4, Hi1. auto.
    + intros l1 f cp l2 Heq. exfalso. unfold final_set, bind, the_oqnlp, get, ret, bind, fail in Hr. simpl in Hr.
      destruct (o_set (s_o s2)); injection Hr as _ Hr; eapply (No s2); eauto.
    + intros l1 f cp l2 Heq. exfalso. injection Hr as _ Hr. eapply (No s2); eauto.
    + intros l1 f cp l2 Heq. exfalso. injection Hr as _ Hr. eapply (No s2); eauto.
Qed.

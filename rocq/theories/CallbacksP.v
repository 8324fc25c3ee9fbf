(** * Callbacks in both modes (C40)

    The iterations that are due call back once each; another callback is that of the only
    candidate its batch accepted. *)
From Coq Require Import ZArith NArith List Bool Arith Lia String.
From Verif Require Import F64 Base Builders Types Filters Runner Observer Env EnvSpec ScatterSearch Codec
  Checkpoint Oqnlp Spec SpecStage2 SpecObserver SolverP Wp Actions RunP SetP FrameP EmitsP FilterP CountP TargetP HoareP SeqP SeqP2 SeqP3 SeqP4.
Import ListNotations.

Section Callbacks.
Context (E : env) (Hcb : callbacks_keep_settings E) (q : option nat) (pa : bool).
Definition fq (o : oqnlp) := (callback_frequency o, o_parallel o).
Lemma fq_fi : forall A (m : OM A), keeps fi m -> keeps fq m.
Proof. intros A m H s. specialize (H s). unfold fi, frame, fq in *. injection H. congruence. Qed.
(** events that concern none of the invariant *)
Definition calm (e : event) : Prop :=
  match e with EvIteration _ | EvCallback (Some _) _ | EvBatch | EvDecide _ _ _ _ _ => False | _ => True end.
Definition offs (l : list event) : Prop := forall l1 i ob l2, l = l1 ++ EvCallback (Some i) ob :: l2 ->
  due q i = true \/ accepted (this_batch l2) = [i].
(** [pend] are the iterations begun that have not reached their callback *)
Definition Inv (pend la : list nat) (s : st) : Prop := fq (s_o s) = (q, pa) /\ offs (trace s) /\
  (exists b, begun (trace s) = pend ++ b /\ filter (due q) (called (trace s)) = filter (due q) b) /\
  accepted (this_batch (trace s)) = la.
Definition F (s : st) : Prop := fq (s_o s) = (q, pa) /\ offs (trace s).
Lemma inv_F : forall pend la s, Inv pend la s -> F s. Proof. intros pend la s (H1 & H2 & _). split; auto. Qed.
Lemma offs_quiet : forall new l, (forall i ob, ~ In (EvCallback (Some i) ob) new) -> offs l -> offs (new ++ l).
Proof.
  intros new l H G l1 i ob l2 Heq. apply in_split_r in Heq as (b1 & _ & Heq); [|apply H]. eapply G; eauto.
Qed.
Lemma this_app : forall new l, ~ In EvBatch new -> this_batch (new ++ l) = new ++ this_batch l.
Proof.
  induction new as [|e new IH]; intros l H; [reflexivity|]. simpl. rewrite IH by (intro; apply H; right; auto).
  destruct e; try reflexivity. exfalso. apply H. left. reflexivity.
Qed.
Lemma calm_app : forall new l, Forall calm new -> begun (new ++ l) = begun l /\ called (new ++ l) = called l /\
  accepted (this_batch (new ++ l)) = accepted (this_batch l) /\ (offs l -> offs (new ++ l)).
Proof.
  intros new l H. rewrite Forall_forall in H.
  assert (B : ~ In EvBatch new) by (intro G; exact (H _ G)).
  assert (C : forall i ob, ~ In (EvCallback (Some i) ob) new) by (intros i ob G; exact (H _ G)).
  rewrite (this_app _ _ B). unfold begun, called, accepted. rewrite !indices_app.
  assert (Z : forall f, (forall e, calm e -> f e = None) -> indices f new = []).
  { intros f Hf. clear B C. induction new as [|e new IH]; [reflexivity|]. unfold indices in *. simpl. rewrite Hf, IH; [reflexivity|intros; apply H; right; auto|apply H; left; auto]. }
  rewrite !Z; [|intros e; destruct e as [| | | | | | | |[|]| | | | |]; simpl; intro X; try destruct X; reflexivity..].
  split; [reflexivity|]. split; [reflexivity|]. split; [reflexivity|]. apply offs_quiet, C.
Qed.
Lemma calm_inv : forall pend la s s' new, Inv pend la s -> trace s' = new ++ trace s -> Forall calm new -> fq (s_o s') = fq (s_o s) -> Inv pend la s'.
Proof.
  intros pend la s s' new (H1 & H2 & (b & H3 & H4) & H5) Ht Hn Hf. destruct (calm_app new (trace s) Hn) as (C1 & C2 & C3 & C4).
  rewrite <- Ht in *. split; [congruence|]. split; [auto|]. split; [exists b; rewrite C1, C2; auto|congruence].
Qed.
Lemma sp_calm : forall A (m : OM A) pend la, emits calm m -> keeps fq m -> spec F (Inv pend la) m (fun _ => Inv pend la).
Proof.
  intros A m pend la He Hk s Hs. destruct (He s) as (new & Hn & Hp). specialize (Hk s).
  pose proof (calm_inv _ _ _ _ _ Hs Hn Hp Hk) as X. destruct (m s) as [[a|e|] s']; simpl in *; [exact X|eapply inv_F; eauto..].
Qed.
Lemma sp_begin : forall i u la, spec F (Inv [] la) (begin_iteration E i u) (fun _ => Inv [i] la).
Proof.
  intros i u la s Hs. unfold begin_iteration, bind, upd, modify, the_oqnlp, get, ret, unwrap, emit, panic, bind. simpl.
  destruct Hs as (H1 & H2 & (b & H3 & H4) & H5).
  destruct (add_u64 E _ _); simpl; [|split; [exact H1|exact H2]].
  split; [exact H1|]. split; [apply (offs_quiet [_]); [intros ? ? [G|[]]; discriminate G|exact H2]|].
  split; [exists b; split; [unfold trace in *; simpl in *; change (i :: begun (w_trace (s_w s)) = i :: b); congruence|exact H4]|exact H5].
Qed.
(** a callback for [i] made now *)
Lemma call_now : forall i la s s' prints ob, Inv [i] la s -> (due q i = true \/ la = [i]) ->
  trace s' = (map EvPrint prints ++ [EvCallback (Some i) ob]) ++ trace s -> fq (s_o s') = fq (s_o s) -> Inv [] la s'.
Proof.
  intros i la s s' prints ob (H1 & H2 & (b & H3 & H4) & H5) Hd Ht Hf. rewrite <- app_assoc in Ht. simpl in Ht.
  assert (X : Forall calm (map EvPrint prints)) by (clear; induction prints; simpl; constructor; simpl; auto).
  destruct (calm_app _ (EvCallback (Some i) ob :: trace s) X) as (C1 & C2 & C3 & C4). rewrite <- Ht in *.
  split; [congruence|]. split.
  { apply C4. intros l1 j ob' l2 G. destruct l1 as [|e l1]; [injection G as -> _ <-|injection G as _ G2; eapply H2; eauto].
    rewrite H5. destruct Hd as [Hd|Hd]; auto. }
  split; [|rewrite C3; exact H5]. exists (i :: b). rewrite C1, C2. split; [exact H3|].
  change (called (EvCallback (Some i) ob :: trace s)) with (i :: called (trace s)). simpl. rewrite H4. reflexivity.
Qed.
Lemma no_call : forall i la s s', Inv [i] la s -> due q i = false -> trace s' = trace s -> fq (s_o s') = fq (s_o s) -> Inv [] la s'.
Proof.
  intros i la s s' (H1 & H2 & (b & H3 & H4) & H5) Hd Ht Hf. split; [congruence|]. rewrite Ht. split; [auto|]. split; [|auto].
  exists (i :: b). split; [exact H3|]. simpl. rewrite Hd. exact H4.
Qed.
Lemma sp_callback_at : forall i la, spec F (Inv [i] la) (callback_at E i) (fun _ => Inv [] la).
Proof.
  intros i la s Hs. destruct (callback_at E i s) as [r s'] eqn:Hc. destruct (callback_at_spec E Hcb _ _ _ _ Hc) as (G1 & _ & _ & G).
  assert (G0 : fq (s_o s') = fq (s_o s)) by (unfold fi, frame, fq in *; congruence).
  destruct G as [[-> (new & Gt & Gr)]|[-> Gt]].
  - assert (Q : callback_frequency (s_o s) = q) by (destruct Hs as [Hs _]; unfold fq in Hs; congruence). rewrite Q in Gr.
    unfold callback_record in Gr. destruct (due q i) eqn:Hd; [destruct Gr as (prints & ob & ->); eapply call_now; eauto|subst; eapply no_call; eauto].
  - destruct (inv_F _ _ _ Hs) as [A B]. split; [congruence|]. rewrite Gt. exact B.
Qed.
Lemma sp_callback : forall i, spec F (Inv [i] [i]) (callback E (Some i)) (fun _ => Inv [] [i]).
Proof.
  intros i s Hs. pose proof (fq_fi _ _ (fi_callback E Hcb (Some i)) s) as K.
  assert (Q : callback_frequency (s_o s) = q) by (destruct Hs as [Hs _]; unfold fq in Hs; congruence).
  unfold callback, bind, the_oqnlp, get, ret, bind in *. simpl in *. unfold callback_frequency in Q.
  assert (N : q = None -> Inv [] [i] s) by (intro G; eapply no_call; eauto; rewrite G; reflexivity).
  destruct (o_observer (s_o s)) as [ob|] eqn:Ho; [|apply N; auto]. destruct (ob_callback ob) as [cb|] eqn:Hc; [|apply N; auto].
  destruct (invoke_callback (Env.e_callback E) ob) as [ob' msgs]. simpl in *.
  eapply (call_now i [i] s _ (rev msgs) ob Hs); [auto| |exact K]. unfold trace. simpl. rewrite map_rev. reflexivity.
Qed.
Ltac ct := repeat match goal with
  | |- keeps fq _ => apply fq_fi
  | |- keeps fi (maybe_save_checkpoint _) => let s := fresh in let H := fresh in intro s; destruct (maybe_save_checkpoint E s) eqn:H; apply maybe_save_spec in H; apply H
  | |- keeps fi (count_unchanged _) => apply fi_count
  | |- keeps fi (set_threshold _) => apply fi_threshold
  | |- keeps fi (obs_iteration _ _) => apply fi_obs_iteration
  | |- keeps fi (obs_search _ _) => apply fi_obs_search
  | |- keeps fi (process_local_solution _ _) => apply fi_process
  | |- keeps fi (obs (upd_stage2 _)) => apply fi_obs, cf2
  | _ => progress kp1
  end.
Ltac pe := repeat match goal with |- Forall calm _ => constructor | |- calm _ => exact I end.
Ltac fe := first [ apply e_maybe_save; side | apply e_obs_iteration | apply e_obs_search | apply e_count; side | apply e_threshold; side | apply e_process; intros; exact I
  | apply e_emit; solve [pe] | apply e_emit_map; intro; exact I ].
Ltac ge := repeat first [ fe | em1 ].
Ltac sk1 := eapply sp_bind; [apply sp_calm; [ge|ct]|intro; cbv beta].
Definition InvE (pend : list nat) (s : st) : Prop := exists la, Inv pend la s.
Lemma sp_exists : forall A B (P : B -> st -> Prop) (m : OM A) Q, (forall x, spec F (P x) m Q) -> spec F (fun s => exists x, P x s) m Q.
Proof. intros A B P m Q H s (x & Hs). exact (H x s Hs). Qed.
Lemma sp_decide : forall i p obj o go pend la, spec F (Inv pend la) (emit [EvDecide i p obj o go]) (fun _ => InvE pend).
Proof.
  intros i p obj o go pend la s (H1 & H2 & (b & H3 & H4) & H5). simpl. eexists. split; [exact H1|].
  split; [apply (offs_quiet [_]); [intros ? ? [G|[]]; discriminate G|exact H2]|].
  split; [exists b; split; [exact H3|exact H4]|reflexivity].
Qed.
(** the end of a piece of work: nothing pending, or the target was just reached *)
Definition settled (s : st) : Prop := InvE [] s \/ exists i, InvE [i] s /\ target_reached E (s_o s) = Some true.
Lemma settled_F : forall s, settled s -> F s.
Proof. intros s [(la & H)|(i & (la & H) & _)]; eapply inv_F; eauto. Qed.
Lemma one_settled : forall objs i p u, spec F (InvE []) (process_one_seq E objs i p u)
  (fun r s => if snd r then exists i, InvE [i] s /\ target_reached E (s_o s) = Some true else InvE [] s).
Proof.
  intros. apply sp_exists. intro la. unfold process_one_seq, emit_eval. eapply sp_bind; [apply sp_begin|intro; cbv beta].
  sk1. sk1. sk1. sk1. eapply sp_bind; [apply sp_oqnlp|intro o; cbv beta zeta].
  eapply sp_weak with (P' := Inv [i] la); [|intros ? ?; tauto|intros ? ? X; exact X].
  eapply sp_bind; [apply sp_decide|intro; cbv beta]. apply sp_exists. clear la. intro la.
  eapply sp_bind with (Q := fun r s => Inv [i] la s /\ (snd r = true -> target_reached E (s_o s) = Some true)).
  - destruct (should_start_local o p _).
    + sk1. sk1. sk1. sk1. sk1. eapply sp_bind; [apply sp_oqnlp|intro o2; cbv beta].
      eapply sp_bind; [apply sp_unwrap; intros s [X _]; eapply inv_F; eauto|intro stop; cbv beta]. apply sp_ret. intros s [[X ->] Y]. simpl. split; [exact X|intros ->; exact Y].
    + sk1. apply sp_ret. intros s X. split; [exact X|discriminate].
  - intros [u' stop]. destruct stop; [apply sp_ret; intros s [X Y]; simpl in *; exists i; split; [exists la; exact X|auto]|].
    eapply sp_weak with (P' := Inv [i] la); [|intros ? ?; tauto|intros ? ? X; exact X].
    eapply sp_bind; [apply sp_callback_at|intro; cbv beta]. sk1. apply sp_ret. intros s X. exists la. exact X.
Qed.
Lemma seq_settled : forall start res objs b u, spec F (InvE []) (process_batch_sequential E start res objs b u) (fun _ => settled).
Proof.
  intros start res objs b. induction b as [|[i p] b IH]; intro u; [apply sp_ret; intros s X; left; exact X|]. simpl.
  destruct (res && (i <? start)); [apply IH|]. eapply sp_bind; [apply one_settled|intros [u' stop]; cbv beta]. simpl.
  destruct stop; [apply sp_ret; intros s X; right; exact X|apply IH].
Qed.
Lemma accepted_batch : forall (f : nat * point * f64 -> event) o (rs : list (nat * point * f64)) (go : nat * point * f64 -> bool) l,
  (forall c, f c = EvDecide (fst (fst c)) (snd (fst c)) (snd c) o (go c)) -> accepted (this_batch l) = [] ->
  accepted (this_batch (rev (map f rs) ++ l)) = rev (map (fun c => fst (fst c)) (filter go rs)).
Proof.
  intros f o rs go l Hf Hl. rewrite this_app.
  2: { rewrite <- in_rev. intro G. apply in_map_iff in G as (c & G & _). rewrite Hf in G. discriminate G. }
  unfold accepted in *. rewrite indices_app, Hl, app_nil_r. clear Hl. induction rs as [|c rs IH]; [reflexivity|].
  simpl map. simpl rev. rewrite indices_app, IH. unfold indices. simpl. rewrite Hf. destruct (go c); simpl; [|rewrite app_nil_r]; reflexivity.
Qed.
Lemma part_filter : forall A (f : A -> bool) l a b, partition f l = (a, b) -> a = filter f l.
Proof.
  induction l as [|x l IH]; intros a b H; simpl in *; [congruence|]. destruct (partition f l) as [a' b'].
  rewrite (IH a' b' eq_refl) in *. destruct (f x); congruence.
Qed.
Lemma par_settled : forall start res objs b u, pa = true -> spec F (Inv [] []) (process_batch_parallel E start res objs b u) (fun _ => InvE []).
Proof.
  intros start res objs b u Hpa. unfold process_batch_parallel. cbv zeta.
  destruct (if res then _ else _) as [|b0 b1]; [apply sp_ret; intros s X; exists []; exact X|].
  sk1. sk1. sk1. rename a1 into rs. sk1. eapply sp_bind; [apply sp_oqnlp|intro o; cbv beta].
  eapply sp_weak with (P' := Inv [] []); [|intros ? ?; tauto|intros ? ? X; exact X]. destruct (partition _ _) as [local quick] eqn:Hp.
  apply part_filter in Hp.
  eapply sp_bind with (Q := fun _ => Inv [] (rev (map (fun c => fst (fst c)) local))).
  { intros s (H1 & H2 & (bb & H3 & H4) & H5). simpl.
    assert (NC : forall i ob, ~ In (EvCallback (Some i) ob) (rev (map (fun c => EvDecide (fst (fst c)) (snd (fst c)) (snd c) o (should_start_local o (snd (fst c)) (snd c))) rs))).
    { intros i ob G. rewrite <- in_rev in G. apply in_map_iff in G as (c & G & _). discriminate G. }
    assert (NI : forall f, (forall i p v o g, f (EvDecide i p v o g) = None) -> indices f (rev (map (fun c => EvDecide (fst (fst c)) (snd (fst c)) (snd c) o (should_start_local o (snd (fst c)) (snd c))) rs)) = []).
    { intros f Hf. clear - Hf. induction rs as [|c rs IH]; [reflexivity|]. simpl. rewrite indices_app, IH. unfold indices. simpl. rewrite Hf. reflexivity. }
    split; [exact H1|]. split; [apply offs_quiet; auto|]. split.
    - exists bb. unfold trace in *. simpl. unfold begun, called in *. rewrite !indices_app, !NI; auto.
    - subst local. unfold trace. simpl. eapply accepted_batch; [intro c; reflexivity|exact H5]. }
  intro. cbv beta. set (la := rev _). 
  eapply sp_bind with (Q := fun _ => Inv [] la).
  { generalize u. induction quick as [|[[i p] obj] q' IH]; intro w; simpl; [apply sp_ret; auto|].
    eapply sp_bind; [|intro w'; cbv beta; apply IH]. unfold process_quick. eapply sp_bind; [apply sp_begin|intro; cbv beta].
    sk1. sk1. eapply sp_bind; [apply sp_callback_at|intro; cbv beta]. sk1. apply sp_ret. auto. }
  intro w. eapply sp_bind; [apply sp_oqnlp|intro o2; cbv beta].
  eapply sp_bind with (Q := fun _ => Inv [] la); [|intro; apply sp_ret; intros s X; exists la; exact X].
  destruct (2 <=? List.length local) eqn:Hlen.
  - intros s [Hs Ho]. assert (Hpar : o_parallel o2 = true) by (destruct Hs as [Hs _]; unfold fq in Hs; subst; congruence).
    rewrite Hpar. simpl andb. cbv iota. revert s Hs Ho.
    match goal with |- forall s, Inv [] la s -> o2 = _ -> match ?m s with _ => _ end => cut (spec F (Inv [] la) m (fun _ => Inv [] la)); [intros X s Hs _; exact (X s Hs)|] end.
    sk1. sk1. match goal with |- spec _ _ (process_par_results _ ?l _) _ => induction l as [|[[[i p] obj] [sol ev]] l IH] end; [apply sp_ret; auto|].
    simpl. eapply sp_bind with (Q := fun _ => Inv [] la); [|intros [|]; [apply sp_ret; auto|exact IH]].
    unfold process_par_result. eapply sp_bind; [apply sp_begin|intro; cbv beta]. sk1. sk1. sk1. sk1. eapply sp_bind; [apply sp_callback_at|intro; cbv beta].
    sk1. sk1. match goal with |- spec _ _ (if ?c then _ else _) _ => destruct c end; [apply sp_ret; auto|]. sk1. apply sp_ret; auto.
  - simpl andb. cbv iota. eapply sp_weak with (P' := Inv [] la); [|intros ? ?; tauto|intros ? ? X; exact X].
    destruct local as [|[[i p] obj] [|c2 local]]; [apply sp_ret; auto| |discriminate Hlen].
    change la with [i]. clear la Hp Hlen.
    simpl. eapply sp_bind with (Q := fun _ => Inv [] [i]); [|intros [|]; apply sp_ret; auto].
    unfold process_single. eapply sp_bind; [apply sp_begin|intro; cbv beta]. sk1. sk1. sk1. sk1. sk1. sk1. sk1.
    eapply sp_bind; [apply sp_callback|intro; cbv beta]. sk1. sk1. match goal with |- spec _ _ (if ?c then _ else _) _ => destruct c end; [apply sp_ret; auto|]. sk1. apply sp_ret; auto.
Qed.
Lemma sp_batch : spec F (InvE []) (emit [EvBatch]) (fun _ => Inv [] []).
Proof.
  intros s (la & H1 & H2 & (b & H3 & H4) & H5). simpl. split; [exact H1|].
  split; [apply (offs_quiet [_]); [intros ? ? [G|[]]; discriminate G|exact H2]|].
  split; [exists b; split; [exact H3|exact H4]|reflexivity].
Qed.
Lemma loop_settled : forall size start res objs bs u, (1 <? size = true -> pa = true) ->
  spec F (InvE []) (stage2_loop E size start res objs bs u) (fun _ => settled).
Proof.
  intros size start res objs bs. induction bs as [|b bs IH]; intros u Hpa; [apply sp_ret; intros s X; left; exact X|]. simpl.
  eapply sp_bind; [apply sp_oqnlp|intro o; cbv beta].
  eapply sp_bind with (Q := fun _ => InvE []).
  { eapply sp_weak with (P' := InvE []); [|intros ? ?; tauto|intros ? ? X; exact X]. apply sp_exists. intro la.
    eapply sp_weak with (P' := Inv [] la) (Q' := fun _ => Inv [] la); [apply sp_calm; [ge|ct]|auto|intros a s X; exists la; exact X]. }
  intros [|]; [apply sp_ret; intros s X; left; exact X|].
  eapply sp_bind; [apply sp_batch|intro; cbv beta]. eapply sp_bind with (Q := fun _ => settled).
  { destruct (1 <? size) eqn:Hs; [eapply sp_weak; [apply par_settled; auto|intros s X; exact X|intros a' s X; left; exact X]|].
    eapply sp_weak; [apply seq_settled|intros s X; exists []; exact X|auto]. }
  intro u'. eapply sp_bind; [apply sp_oqnlp|intro o2; cbv beta].
  eapply sp_bind; [apply sp_unwrap; intros s [X _]; apply settled_F; exact X|intro stop; cbv beta].
  destruct stop; [apply sp_ret; intros s X; apply X|]. eapply sp_weak; [apply IH; exact Hpa| |auto].
  intros s [[[X|(i & _ & X)] ->] Y]; [exact X|congruence].
Qed.
Lemma after_settled : forall A (m : OM A), emits calm m -> keeps fq m -> keeps (target_reached E) m -> spec F settled m (fun _ => settled).
Proof.
  intros A m He Hk Ht s Hs. destruct (He s) as (new & Hn & Hp). specialize (Hk s). specialize (Ht s).
  assert (X : settled (snd (m s))).
  { destruct Hs as [(la & X)|(i & (la & X) & Y)]; [left|right; exists i; split; [|congruence]]; exists la; eapply calm_inv; eauto. }
  destruct (m s) as [[a|e|] s']; simpl in *; [exact X|apply settled_F; exact X..].
Qed.
Lemma stage2_settled : forall res refs objs u, spec F (InvE []) (stage2_run E res refs objs u) (fun _ => settled).
Proof.
  intros. unfold stage2_run. apply sp_bind with (Q := fun _ => InvE []).
  { apply sp_exists. intro la. eapply sp_weak with (P' := Inv [] la) (Q' := fun _ => Inv [] la); [|auto|intros a s' Y; exists la; exact Y].
    apply sp_calm; [unfold begin_stage2; ge|apply fq_fi, fi_begin_stage2]. }
  intro. cbv beta. eapply sp_bind; [apply sp_oqnlp|intro o; cbv beta].
  intros s [Hs Ho]. assert (Hpar : 1 <? batch_size E o (if res then o_iteration o else 0) = true -> pa = true).
  { intro G. destruct Hs as (la & Hs & _). unfold fq in Hs. subst o. injection Hs as _ <-. unfold batch_size in G.
    destruct (o_parallel (s_o s)); [reflexivity|discriminate G]. }
  clear Ho. revert s Hs. 
  match goal with |- forall s, InvE [] s -> match ?m s with _ => _ end => change (spec F (InvE []) m (fun _ => settled)) end.
  apply sp_exists. intro la. sk1. cbv zeta.
  eapply sp_bind with (Q := fun _ => settled).
  { match goal with |- spec _ _ (if ?c then _ else _) _ => destruct c end; [intros x Hx; eapply inv_F; eauto|].
    eapply sp_weak; [apply loop_settled; exact Hpar|intros s X; exists la; exact X|auto]. }
  intro. eapply sp_bind; [apply after_settled; [apply e_final_save; intros; exact I| |apply k_final_save; side]|intro; cbv beta].
  { intro s. destruct (maybe_save_final_checkpoint E s) as [r s'] eqn:H. apply final_save_spec in H as [H _]. simpl. rewrite H. reflexivity. }
  apply after_settled; [unfold final_set; em|unfold final_set; kp|unfold final_set; kp].
Qed.
Lemma rest_settled : forall b, spec F (InvE []) (run_rest E b) (fun _ => settled).
Proof.
  intros [|]; unfold run_rest.
  - eapply sp_bind; [apply sp_oqnlp|intro o; cbv beta]. eapply sp_weak; [apply stage2_settled|intros s [X _]; exact X|auto].
  - apply sp_bind with (Q := fun _ => InvE []).
    + apply sp_exists. intro la. eapply sp_weak with (P' := Inv [] la) (Q' := fun _ => Inv [] la); [|auto|intros a s' Y; exists la; exact Y].
      apply sp_calm; [|apply fq_fi, fi_stage1; exact Hcb]. intro s. destruct (em_stage1 E s) as (pre & P1 & P2). exists pre. split; [exact P1|].
      eapply Forall_impl; [|exact P2]. intros e. destruct e as [| | | | | | | |[|]| | | | |]; simpl; tauto.
    + intros [[refs objs]|]; [apply stage2_settled|]. eapply sp_weak with (P' := settled); [|intros s X; left; exact X|intros a s X; exact X].
      apply after_settled; [unfold final_set; em|unfold final_set; kp|unfold final_set; kp].
Qed.
End Callbacks.
Theorem c40_any : forall E s r s' new, callbacks_keep_settings E -> run E s = (r, s') -> recorded s s' new ->
  let q := callback_frequency (s_o s') in
  (forall l1 i ob l2, new = l1 ++ EvCallback (Some i) ob :: l2 -> due q i = true \/ accepted (this_batch l2) = [i]) /\
  (forall set, r = Ok set -> filter (due q) (called new) = filter (due q) (begun new) \/
     target_hit E (s_o s') set /\ filter (due q) (called new) = filter (due q) (tl (begun new))).
Proof.
  intros E s r s' new Hcb Hrun Hnew q.
  destruct (run_cases E s r s' new Hrun Hnew) as [(-> & _ & Hno)|(b & s1 & Hst & Ht & Hr & Hcfg)].
  { split; [intros l1 i ob l2 H; destruct l1; discriminate H|]. intros set ->. exfalso. eapply Hno; reflexivity. }
  set (q1 := callback_frequency (s_o s1)) in *. set (pa := o_parallel (s_o s1)) in *.
  assert (Fin : forall sx, trace sx = new -> s_o sx = s_o s' ->
    (forall set, r = Ok set -> settled E q1 pa sx) -> F q1 pa sx ->
    (forall l1 i ob l2, new = l1 ++ EvCallback (Some i) ob :: l2 -> due q i = true \/ accepted (this_batch l2) = [i]) /\
    (forall set, r = Ok set -> filter (due q) (called new) = filter (due q) (begun new) \/
     target_hit E (s_o s') set /\ filter (due q) (called new) = filter (due q) (tl (begun new)))).
  { intros sx H1 H2 Hs [F1 F2]. rewrite H1 in F2.
    assert (Hq : q = q1) by (unfold q; rewrite <- H2; unfold fq in F1; congruence). rewrite Hq. split; [exact F2|].
    intros set Hset. specialize (Hs set Hset).
    assert (Hos : o_set (s_o s') = Some set) by (eapply (run_acts E); eauto; rewrite Hrun; auto).
    destruct Hs as [(la & _ & _ & (b0 & G1 & G2) & _)|(i & (la & _ & _ & (b0 & G1 & G2) & _) & G3)]; rewrite H1 in *.
    - left. rewrite G1. exact G2.
    - right. rewrite G1. split; [|exact G2]. rewrite H2 in G3. apply reached_iff in G3 as (set' & K1 & K2). congruence. }
  assert (I0 : InvE q1 pa [] s1).
  { exists []. split; [reflexivity|]. rewrite Ht. split; [intros l1 i ob l2 H; destruct l1; discriminate H|]. split; [exists []; auto|reflexivity]. }
  pose proof (rest_settled E Hcb q1 pa b s1 I0) as G. rewrite Hr in G.
  apply (Fin (ends s' new) eq_refl eq_refl); clear Fin; destruct r; try discriminate; auto. apply settled_F with (1 := G).
Qed.

(** * What a crash costs, for every batch size (C103) *)
From Coq Require Import ZArith NArith List Bool Arith Lia String.
From Verif Require Import F64 Base Builders Types Filters Runner Observer Env EnvSpec
  ScatterSearch Codec Checkpoint Oqnlp Spec SpecStage1 SpecStage2 SpecObserver SpecSave SpecCheckpoint SpecTiming SpecCost SpecLoss
  SolverP Wp Actions RunP SetP FrameP EmitsP FilterP CountP TargetP HoareP SaveP Stage2P SeqP SeqP2 SeqP3 AllP
  ResumeP CostP FinishP SeqP4 BatchSaveP LossP.
Import ListNotations.

(** ** The newest checkpoint of a record *)
Fixpoint newest_save (l : list event) : option checkpoint :=
  match l with
  | [] => None
  | EvSave _ cp :: _ => Some cp
  | _ :: l => newest_save l
  end.
Definition calm (e : event) : Prop := match e with EvSave _ _ => False | _ => True end.
Definition still (e : event) : Prop := match e with EvSave _ _ | EvIteration _ => False | _ => True end.
Lemma calm_newest e l : calm e -> newest_save (e :: l) = newest_save l. Proof. destruct e; intros []; reflexivity. Qed.
Lemma still_begun e l : still e -> begun (e :: l) = begun l. Proof. destruct e; intros []; reflexivity. Qed.
Lemma still_calm e : still e -> calm e. Proof. destruct e; intro H; try exact I; destruct H. Qed.
Lemma newest_app a l : Forall calm a -> newest_save (a ++ l) = newest_save l.
Proof. intro H. induction H as [|e a He _ IH]; [reflexivity|]. simpl app. rewrite calm_newest; auto. Qed.
Lemma begun_still a l : Forall still a -> begun (a ++ l) = begun l.
Proof. intro H. induction H as [|e a He _ IH]; [reflexivity|]. simpl app. rewrite still_begun; auto. Qed.

Section Near.
Context (E : env) (c : cp_config) (start n : nat) (fresh : bool).
Context (Hn : 1 <= n) (Hf : 0 < cc_save_frequency c) (Hs : fresh = true -> start = 0).
Notation f := (cc_save_frequency c).
(** nothing begun is far from the newest checkpoint *)
Definition near (t : list event) : Prop := forall j, In j (begun t) ->
  match newest_save t with
  | Some cp => j <= cp_iteration cp + f + 2 * (n - 1)
  | None => if fresh then j < n else j <= start + f + (n - 1)
  end.
Fixpoint nears (t : list event) : Prop := near t /\ match t with [] => True | _ :: t => nears t end.
(** the record when the batches before index [k] are done *)
Definition bnd (k : nat) (t : list event) : Prop :=
  (forall j, In j (begun t) -> start <= j /\ j < k + n) /\
  (forall m, start <= m -> m < k -> multiple f m = true -> exists cp, newest_save t = Some cp /\ m <= cp_iteration cp + (n - 1)) /\
  (forall cp, newest_save t = Some cp -> start <= cp_iteration cp).
Lemma bnd_near k t : start <= k -> bnd k t -> near t.
Proof.
  intros Hk (B1 & B2 & B3) j Hj. destruct (B1 _ Hj) as [J1 J2].
  assert (C : (exists x, start <= x /\ x < k /\ k <= x + f /\ multiple f x = true) \/ (k <= start + f /\ (start = 0 -> k = 0))).
  { destruct (Nat.eq_dec k start) as [->|Hne2]; [right; lia|].
    set (x := f * ((k - 1) / f)). pose proof (Nat.div_mod (k - 1) f ltac:(lia)) as D. fold x in D.
    pose proof (Nat.mod_upper_bound (k - 1) f ltac:(lia)) as U.
    destruct (le_lt_dec start x) as [L|L]; [left; exists x|right; lia].
    repeat split; try lia. unfold multiple, x. rewrite Nat.mul_comm, Nat.mod_mul by lia. reflexivity. }
  destruct C as [(x & X1 & X2 & X3 & X4)|[X1 X2]].
  - destruct (B2 x X1 X2 X4) as (cp & -> & Hcp). lia.
  - destruct (newest_save t) as [cp|] eqn:Ht; [pose proof (B3 cp eq_refl); lia|]. destruct fresh; [|lia]. specialize (Hs eq_refl). lia.
Qed.
Definition inv (k : nat) (X : list event -> Prop) (s : st) : Prop :=
  o_cp (s_o s) = Some c /\ nears (trace s) /\ bnd k (trace s) /\
  (forall i rest, begun (trace s) = i :: rest -> o_iteration (s_o s) = i /\ k <= i + n) /\ start <= k /\ X (trace s).
Definition badn (s : st) : Prop := nears (trace s).
Lemma inv_bad k X s : inv k X s -> badn s. Proof. intros (_ & H & _). exact H. Qed.
Lemma inv_imp k (X Y : list event -> Prop) s : inv k X s -> (forall l, X l -> Y l) -> inv k Y s.
Proof. intros (H1 & H2 & H3 & H4 & H5 & H6) H. split; [exact H1|]. split; [exact H2|]. split; [exact H3|]. split; [exact H4|]. split; [exact H5|]. apply H. exact H6. Qed.
Definition steady (X : list event -> Prop) : Prop := forall e l, still e -> X l -> X (e :: l).
Lemma bnd_same k t t' : begun t' = begun t -> newest_save t' = newest_save t -> bnd k t -> bnd k t'.
Proof. intros H1 H2. unfold bnd. rewrite H1, H2. auto. Qed.
Lemma near_still e t : still e -> near t -> near (e :: t).
Proof. intros He H. unfold near. rewrite still_begun, calm_newest; auto using still_calm. Qed.
Lemma inv_still k X s s' new : steady X -> inv k X s -> o_cp (s_o s') = o_cp (s_o s) -> o_iteration (s_o s') = o_iteration (s_o s) ->
  trace s' = new ++ trace s -> Forall still new -> inv k X s'.
Proof.
  intros HX (H1 & H2 & H3 & H4 & H5 & H6) C1 C2 Ht Hnew.
  assert (B : begun (trace s') = begun (trace s)) by (rewrite Ht; apply begun_still; exact Hnew).
  assert (N : newest_save (trace s') = newest_save (trace s)).
  { rewrite Ht. apply newest_app. eapply Forall_impl; [apply still_calm|exact Hnew]. }
  split; [congruence|]. split.
  { rewrite Ht. clear - Hnew H2. induction Hnew as [|e l He _ IH]; [exact H2|]. simpl app. split; [|exact IH].
    apply near_still; [exact He|]. destruct (l ++ trace s); apply IH. }
  split; [eapply bnd_same; eauto|]. split; [rewrite B, C2; exact H4|]. split; [exact H5|].
  rewrite Ht. clear - Hnew H6 HX. induction Hnew as [|e l He _ IH]; [exact H6|]. apply HX; auto.
Qed.
Definition kept (o : oqnlp) := (o_cp o, o_iteration o).
Lemma l_in k X A (m : OM A) : steady X -> emits still m -> keeps kept m -> spec badn (inv k X) m (fun _ => inv k X).
Proof.
  intros HX He Hk s H. destruct (He s) as (new & Ht & Hnw). specialize (Hk s). unfold kept in Hk. injection Hk as K1 K2.
  pose proof (inv_still _ _ _ _ _ HX H K1 K2 Ht Hnw) as G. destruct (m s) as [[a|e|] s']; simpl in *; auto; eapply inv_bad; eauto.
Qed.
(** the candidates [ids] of the batch that begins at [k] are past their checkpoints *)
Definition past (k : nat) (ids : list nat) (l : list event) : Prop :=
  (forall i, In i ids -> multiple f i = true -> exists cp, newest_save l = Some cp /\ k <= cp_iteration cp) /\
  (ids <> [] -> exists i rest, begun l = i :: rest /\ k <= i).
Definition at_ (i : nat) (l : list event) : Prop := exists rest, begun l = i :: rest.
Lemma steady_past k ids : steady (past k ids).
Proof. intros e l He [H1 H2]. unfold past. rewrite still_begun, calm_newest; auto using still_calm. Qed.
Lemma steady_at i : steady (at_ i).
Proof. intros e l He H. unfold at_. rewrite still_begun; auto. Qed.
Lemma steady_and X Y : steady X -> steady Y -> steady (fun l => X l /\ Y l).
Proof. intros H1 H2 e l He [A B]. split; auto. Qed.
Hint Resolve steady_past steady_at steady_and : core.
Lemma l_begin k ids i u : k <= i -> i < k + n ->
  spec badn (inv k (past k ids)) (begin_iteration E i u) (fun _ => inv k (fun l => past k ids l /\ at_ i l)).
Proof.
  intros Hi Hi2 s (H1 & H2 & H3 & H4 & H5 & H6 & H7). unfold begin_iteration, bind, upd, modify, the_oqnlp, get, ret, bind, unwrap. simpl.
  destruct (add_u64 E (p_seed (o_params (s_o s))) (N.of_nat i)) as [sd|]; simpl; [|exact H2].
  assert (B : bnd k (EvIteration i :: trace s)).
  { destruct H3 as (B1 & B2 & B3). split; [|split].
    - intros j [<-|Hj]; [lia|apply B1; exact Hj].
    - exact B2.
    - exact B3. }
  split; [exact H1|]. split; [split; [exact (bnd_near _ _ H5 B)|exact H2]|]. split; [exact B|].
  split; [intros j rest Hj; injection Hj as <- _; split; [reflexivity|lia]|]. split; [exact H5|].
  split; [split; [exact H6|intros _; exists i, (begun (trace s)); split; [reflexivity|exact Hi]]|exists (begun (trace s)); reflexivity].
Qed.
Lemma l_save k ids i : k <= i -> spec badn (inv k (fun l => past k ids l /\ at_ i l)) (maybe_save_checkpoint E) (fun _ => inv k (past k (i :: ids))).
Proof.
  intros Hi s (H1 & H2 & H3 & H4 & H5 & [H6 H7] & rest & H8). destruct (maybe_save_checkpoint E s) as [r s'] eqn:Em.
  destruct (maybe_save_spec E _ _ _ Em) as (_ & Ho & D). destruct (H4 _ _ H8) as [O1 O2]. rewrite H1, O1 in D.
  destruct H3 as (B1 & B2 & B3). assert (Si : start <= i) by (refine (proj1 (B1 i _)); rewrite H8; left; reflexivity).
  assert (P2 : i :: ids <> [] -> exists i0 rest0, begun (trace s) = i0 :: rest0 /\ k <= i0) by (intros _; exists i, rest; auto).
  assert (G : badn s' /\ (r <> Panic -> inv k (past k (i :: ids)) s')).
  { destruct D as [(new & Ht & D)|[-> Ht]]; [|unfold badn; rewrite Ht; split; [exact H2|congruence]].
    unfold save_record in D. destruct (due_save _ _) eqn:Hd.
    - destruct D as (cfg & cp & _ & -> & Hcp). simpl app in Ht.
      assert (B : bnd k (trace s')).
      { rewrite Ht. split; [exact B1|]. split.
        - intros m M1 M2 _. exists cp. split; [reflexivity|]. lia.
        - intros cp' G. injection G as <-. lia. }
      assert (N : nears (trace s')) by (rewrite Ht in *; split; [exact (bnd_near _ _ H5 B)|exact H2]).
      split; [exact N|intros _]. split; [rewrite Ho; exact H1|]. split; [exact N|]. split; [exact B|].
      split; [rewrite Ht, Ho; exact H4|]. split; [exact H5|]. rewrite Ht. split; [|exact P2].
      intros j _ _. exists cp. split; [reflexivity|lia].
    - subst new. simpl app in Ht. unfold badn. rewrite Ht. split; [exact H2|intros _]. split; [rewrite Ho; exact H1|]. rewrite Ht, Ho.
      split; [exact H2|]. split; [split; [exact B1|split; [exact B2|exact B3]]|]. split; [exact H4|]. split; [exact H5|]. split; [|exact P2].
      intros j [<-|Hj] Hm; [|exact (H6 j Hj Hm)]. unfold due_save in Hd. congruence. }
  destruct G as [G1 G2]. destruct r as [a|e|]; [apply G2; discriminate|exact G1..].
Qed.
Lemma l_final k X : spec badn (inv k X) (maybe_save_final_checkpoint E) (fun _ => badn).
Proof.
  intros s (H1 & H2 & (B1 & B2 & B3) & H4 & H5 & H6). destruct (maybe_save_final_checkpoint E s) as [r s'] eqn:Em.
  destruct (final_save_spec E _ _ _ Em) as (Ho & fin & Ht & D).
  assert (G : badn s').
  { unfold final_record in D. rewrite H1 in D. destruct D as (cp & -> & Hcp). unfold badn. rewrite Ht. simpl app.
    split; [|exact H2]. destruct (begun (trace s)) as [|i rest] eqn:Hb.
    - intros j Hj. change (In j (begun (trace s))) in Hj. rewrite Hb in Hj. destruct Hj.
    - destruct (H4 _ _ eq_refl) as [O1 O2]. apply (bnd_near k); [exact H5|]. split; [|split].
      + intros j Hj. change (In j (begun (trace s))) in Hj. rewrite Hb in Hj. apply B1. exact Hj.
      + intros m M1 M2 _. exists cp. split; [reflexivity|]. lia.
      + intros cp' G. injection G as <-. rewrite Hcp, O1. refine (proj1 (B1 i _)). left. reflexivity. }
  destruct r; exact G.
Qed.
Notation hit s := (target_reached E (s_o s) = Some true).
Ltac li := apply l_in; [auto|parts|parts].
Lemma past_more k ids s : forall i, inv k (past k (i :: ids)) s -> inv k (past k ids) s.
Proof.
  intros i H. eapply inv_imp; [exact H|]. intros l [H1 H2]. split; [intros j Hj Hm; exact (H1 j (or_intror Hj) Hm)|]. intros _. apply H2. discriminate.
Qed.
Lemma past_at k ids i s : k <= i -> inv k (fun l => past k ids l /\ at_ i l) s -> inv k (past k ids) s.
Proof. intros Hi H. eapply inv_imp; [exact H|]. intros l [G _]. exact G. Qed.
(** the end of a candidate: the callback, and the checkpoint unless the target is reached *)
Lemma quick_n k ids i u : k <= i -> i < k + n ->
  spec badn (inv k (past k ids)) (process_quick E i u) (fun _ => inv k (past k (i :: ids))).
Proof.
  intros H1 H2. unfold process_quick. eapply sp_bind; [apply l_begin; assumption|intro; cbv beta].
  eapply sp_bind; [li|intro; cbv beta]. eapply sp_bind; [li|intro; cbv beta]. eapply sp_bind; [li|intro; cbv beta].
  eapply sp_bind; [apply l_save; assumption|intro; cbv beta]. apply sp_ret. auto.
Qed.
Lemma quicks_n k : forall l u ids, (forall i p v, In (i, p, v) l -> k <= i /\ i < k + n) ->
  spec badn (inv k (past k ids)) (process_quicks E l u) (fun _ => inv k (past k (rev (map (fun x => fst (fst x)) l) ++ ids))).
Proof.
  induction l as [|[[i p] v] l IH]; intros u ids Hl; [apply sp_ret; auto|]. simpl. rewrite <- app_assoc. simpl.
  eapply sp_bind; [apply quick_n; eapply Hl; left; reflexivity|intro; cbv beta]. apply IH. intros. eapply Hl. right. eassumption.
Qed.
(** what is done after a result was processed *)
Lemma tail_n k ids i (cb : OM unit) : k <= i -> emits still cb -> keeps kept cb ->
  spec badn (inv k (fun l => past k ids l /\ at_ i l))
    (bind cb (fun _ => bind the_oqnlp (fun o => bind (unwrap (target_reached E o)) (fun stop => if (stop : bool) then ret true else bind (maybe_save_checkpoint E) (fun _ => ret false)))))
    (fun stop s => if stop then inv k (past k ids) s /\ hit s else inv k (past k (i :: ids)) s).
Proof.
  intros Hi He Hk. eapply sp_bind; [apply l_in; auto|intro; cbv beta]. eapply sp_bind; [apply sp_oqnlp|intro o; cbv beta].
  eapply sp_bind; [apply sp_unwrap; intros s [H _]; eapply inv_bad; eauto|intro stop; cbv beta]. destruct stop.
  - apply sp_ret. intros s [[H ->] Ht]. split; [eapply past_at; eauto|exact Ht].
  - eapply sp_weak with (P' := inv k (fun l => past k ids l /\ at_ i l)) (Q' := fun st s => st = false /\ inv k (past k (i :: ids)) s).
    + eapply sp_bind; [apply l_save; assumption|intro; cbv beta]. apply sp_ret. auto.
    + intros s [[H _] _]. exact H.
    + intros st s [-> H]. exact H.
Qed.
Lemma result_n k ids i v x m u : k <= i -> i < k + n ->
  spec badn (inv k (past k ids)) (process_par_result E i v x m u)
    (fun stop s => if stop then inv k (past k ids) s /\ hit s else inv k (past k (i :: ids)) s).
Proof.
  intros H1 H2. unfold process_par_result. eapply sp_bind; [apply l_begin; assumption|intro; cbv beta].
  eapply sp_bind; [li|intro; cbv beta]. eapply sp_bind; [apply l_in; [auto|apply e_process; intros; exact I|parts]|intro; cbv beta].
  eapply sp_bind; [li|intro; cbv beta]. eapply sp_bind; [li|intro; cbv beta]. apply tail_n; [assumption|parts|parts].
Qed.
Lemma single_n k ids i p v u : k <= i -> i < k + n ->
  spec badn (inv k (past k ids)) (process_single E i p v u)
    (fun stop s => if stop then inv k (past k ids) s /\ hit s else inv k (past k (i :: ids)) s).
Proof.
  intros H1 H2. unfold process_single. eapply sp_bind; [apply l_begin; assumption|intro; cbv beta].
  eapply sp_bind; [li|intro; cbv beta]. eapply sp_bind; [apply sp_oqnlp|intro o; cbv beta].
  eapply sp_weak with (P' := inv k (fun l => past k ids l /\ at_ i l)); [|intros s [H _]; exact H|intros ? ? H; exact H].
  eapply sp_bind; [li|intro; cbv beta]. eapply sp_bind; [apply sp_of_solver; apply inv_bad|intros [x m]; cbv beta].
  eapply sp_weak with (P' := inv k (fun l => past k ids l /\ at_ i l)); [|intros s [H _]; exact H|intros ? ? H; exact H].
  eapply sp_bind; [apply l_in; [auto|apply e_process; intros; exact I|parts]|intro; cbv beta].
  eapply sp_bind; [li|intro; cbv beta]. eapply sp_bind; [li|intro; cbv beta]. apply tail_n; [assumption|parts|parts].
Qed.
Lemma results_n k u : forall rs ids, (forall i p v r, In (i, p, v, r) rs -> k <= i /\ i < k + n) ->
  spec badn (inv k (past k ids)) (process_par_results E rs u)
    (fun _ s => (exists ids', inv k (past k ids') s) /\ (inv k (past k (rev (map (fun x => fst (fst (fst x))) rs) ++ ids)) s \/ hit s)).
Proof.
  induction rs as [|[[[i p] v] [x m]] rs IH]; intros ids Hl; [apply sp_ret; simpl; eauto|]. simpl. rewrite <- app_assoc. simpl.
  eapply sp_bind; [apply result_n; eapply Hl; left; reflexivity|intros [|]; cbv beta].
  - apply sp_ret. intros s [H1 H2]. eauto.
  - apply IH. intros. eapply Hl. right. eassumption.
Qed.
Lemma singles_n k u : forall l ids, (forall i p v, In (i, p, v) l -> k <= i /\ i < k + n) ->
  spec badn (inv k (past k ids)) (process_singles E l u)
    (fun _ s => (exists ids', inv k (past k ids') s) /\ (inv k (past k (rev (map (fun x => fst (fst x)) l) ++ ids)) s \/ hit s)).
Proof.
  induction l as [|[[i p] v] l IH]; intros ids Hl; [apply sp_ret; simpl; eauto|]. simpl. rewrite <- app_assoc. simpl.
  eapply sp_bind; [apply single_n; eapply Hl; left; reflexivity|intros [|]; cbv beta].
  - apply sp_ret. intros s [H1 H2]. eauto.
  - apply IH. intros. eapply Hl. right. eassumption.
Qed.
Lemma one_n k ids objs i p u : k <= i -> i < k + n ->
  spec badn (inv k (past k ids)) (process_one_seq E objs i p u)
    (fun r s => if snd r then inv k (past k ids) s /\ hit s else inv k (past k (i :: ids)) s).
Proof.
  intros H1 H2. unfold process_one_seq. eapply sp_bind; [apply l_begin; assumption|intro; cbv beta].
  eapply sp_bind; [li|intro; cbv beta].
  eapply sp_bind; [apply l_in; [auto|unfold emit_eval; parts|unfold emit_eval; parts]|intro; cbv beta].
  eapply sp_bind; [apply sp_of_result; apply inv_bad|intro v; cbv beta].
  eapply sp_weak with (P' := inv k (fun l => past k ids l /\ at_ i l)); [|intros s [H _]; exact H|intros ? ? H; exact H].
  eapply sp_bind; [apply l_in; [auto|destruct objs; parts|destruct objs; parts]|intro; cbv beta].
  eapply sp_bind; [apply sp_oqnlp|intro o; cbv beta zeta].
  eapply sp_weak with (P' := inv k (fun l => past k ids l /\ at_ i l)); [|intros s [H _]; exact H|intros ? ? H; exact H].
  eapply sp_bind; [li|intro; cbv beta].
  apply sp_bind with (Q := fun r s => inv k (fun l => past k ids l /\ at_ i l) s /\ (snd r = true -> hit s)).
  - destruct (should_start_local o p v).
    + eapply sp_bind; [li|intro; cbv beta]. eapply sp_bind; [li|intro; cbv beta].
      eapply sp_bind; [apply sp_of_solver; apply inv_bad|intros [x m]; cbv beta].
      eapply sp_weak with (P' := inv k (fun l => past k ids l /\ at_ i l)); [|intros s [H _]; exact H|intros ? ? H; exact H].
      eapply sp_bind; [apply l_in; [auto|apply e_process; intros; exact I|parts]|intro; cbv beta].
      eapply sp_bind; [li|intro; cbv beta]. eapply sp_bind; [apply sp_oqnlp|intro o2; cbv beta].
      eapply sp_bind; [apply sp_unwrap; intros s [H _]; eapply inv_bad; eauto|intro stop; cbv beta].
      apply sp_ret. intros s [[H ->] Ht]. split; [exact H|]. simpl. intros ->. exact Ht.
    + eapply sp_bind; [li|intro; cbv beta]. apply sp_ret. intros s H. split; [exact H|discriminate].
  - intros [u' stop]. simpl. destruct stop.
    + apply sp_ret. intros s [H Ht]. split; [eapply past_at; eauto|apply Ht; reflexivity].
    + eapply sp_weak with (P' := inv k (fun l => past k ids l /\ at_ i l)) (Q' := fun r s => snd r = false /\ inv k (past k (i :: ids)) s);
        [|intros s [H _]; exact H|intros r s [-> H]; exact H].
      eapply sp_bind; [li|intro; cbv beta]. eapply sp_bind; [apply l_save; assumption|intro; cbv beta]. apply sp_ret. auto.
Qed.
(** ** A batch *)
Lemma past_nil k s X : inv k X s -> inv k (past k []) s.
Proof. intro H. eapply inv_imp; [exact H|]. intros l _. split; [intros i []|congruence]. Qed.
Lemma inv_next k b ids s : b <= n -> (forall j, k <= j -> j < k + b -> In j ids) -> inv k (past k ids) s -> inv (k + b) (past (k + b) []) s.
Proof.
  intros Hb Hids (H1 & H2 & (B1 & B2 & B3) & H4 & H5 & H6 & H7). split; [exact H1|]. split; [exact H2|]. split; [split; [|split]|].
  - intros j Hj. destruct (B1 j Hj). lia.
  - intros m M1 M2 Hm. destruct (le_lt_dec k m) as [L|L]; [|apply B2; assumption].
    destruct (H6 m (Hids m L M2) Hm) as (cp & Hcp & Hle). exists cp. split; [exact Hcp|lia].
  - exact B3.
  - split; [|split; [lia|split; [intros i []|congruence]]]. intros i rest Hi. destruct (H4 i rest Hi) as [O1 O2]. split; [exact O1|].
    destruct b as [|b]; [lia|]. assert (Hne : ids <> []) by (intro G; specialize (Hids k (le_n k) ltac:(lia)); rewrite G in Hids; destruct Hids).
    destruct (H7 Hne) as (i' & rest' & Hi' & Hk'). rewrite Hi in Hi'. injection Hi' as <- _. lia.
Qed.
Definition after (k b : nat) (s : st) : Prop := (exists k' X, inv k' X s) /\ (inv (k + b) (past (k + b) []) s \/ hit s).
Lemma seq_n res objs : forall b u k, start <= k -> map fst b = seq k (List.length b) ->
  spec badn (inv k (past k [])) (process_batch_sequential E start res objs b u) (fun _ => after k (List.length b)).
Proof.
  induction b as [|[i p] b IH]; intros u k Hk Hb.
  { apply sp_ret. intros s H. unfold after. simpl. rewrite Nat.add_0_r. eauto. }
  simpl in Hb. injection Hb as Hi Hb. simpl process_batch_sequential. subst i.
  assert (Hlt : (k <? start) = false) by (apply Nat.ltb_ge; lia). rewrite Hlt, andb_false_r.
  eapply sp_bind; [apply (one_n k [] objs k p u); lia|intros [u' stop]; cbv beta]. simpl snd. destruct stop.
  - apply sp_ret. intros s [H1 H2]. split; eauto.
  - eapply sp_weak; [apply (IH u' (S k)); [lia|exact Hb]| |].
    + intros s H. rewrite <- Nat.add_1_r. apply (inv_next k 1 [k]); [exact Hn|intros j; simpl; lia|exact H].
    + intros ? s H. unfold after in *. simpl List.length. rewrite <- Nat.add_succ_comm. exact H.
Qed.
Lemma par_n res objs b u k : start <= k -> List.length b <= n -> map fst b = seq k (List.length b) ->
  spec badn (inv k (past k [])) (process_batch_parallel E start res objs b u) (fun _ => after k (List.length b)).
Proof.
  intros Hk Hlen Hb. unfold process_batch_parallel.
  assert (Hge : forall i p, In (i, p) b -> k <= i /\ i < k + List.length b).
  { intros i p Hin. apply (in_map fst) in Hin. rewrite Hb in Hin. apply in_seq in Hin. simpl in Hin. lia. }
  assert (Hfl : (if res then filter (fun b => start <=? fst b) b else b) = b).
  { destruct res; [|reflexivity]. clear - Hge Hk. assert (G : forall i p, In (i, p) b -> start <= i) by (intros i p H; apply Hge in H; lia).
    clear Hge. induction b as [|[i p] b IH]; [reflexivity|]. simpl.
    assert (Hi : (start <=? i) = true) by (apply Nat.leb_le; eapply G; left; reflexivity). rewrite Hi, IH; auto. intros; eapply G; right; eauto. }
  rewrite Hfl. clear Hfl. cbv zeta. destruct b as [|b0 b1] eqn:Eb; [apply sp_ret; intros s H; unfold after; simpl; rewrite Nat.add_0_r; eauto|]. rewrite <- Eb in *. clear b0 b1 Eb.
  eapply sp_bind; [apply l_in; [auto|destruct objs; parts|destruct objs; parts]|intro; cbv beta].
  eapply sp_bind; [li|intro t; cbv beta].
  eapply sp_bind; [apply sp_of_result; apply inv_bad|intro results; cbv beta].
  apply sp_pure with (H := map fst results = b); [|intro Hids].
  { intros s [_ Hres]. eapply collect_map; [|exact Hres]. intros [i p] c0 Hc. simpl in Hc. destruct (cand_objective E objs i p); try discriminate. injection Hc as <-. reflexivity. }
  eapply sp_weak with (P' := inv k (past k [])); [|intros s [H _]; exact H|intros ? ? H; exact H].
  eapply sp_bind; [apply l_in; [auto|destruct objs; parts|destruct objs; parts]|intro; cbv beta].
  eapply sp_bind; [apply sp_oqnlp|intro o; cbv beta].
  eapply sp_weak with (P' := inv k (past k [])); [|intros s [H _]; exact H|intros ? ? H; exact H].
  set (passes := fun c : nat * point * f64 => should_start_local o (snd (fst c)) (snd c)).
  destruct (partition passes results) as [local quick] eqn:Hpart.
  assert (Hin : forall c, In c results <-> In c local \/ In c quick) by (intro c0; apply elements_in_partition with (f := passes); exact Hpart).
  assert (Hrng : forall i p v, In (i, p, v) results -> k <= i /\ i < k + n).
  { intros i p v H. assert (H2 : In (i, p) b) by (rewrite <- Hids; apply in_map_iff; exists (i, p, v); auto). apply Hge in H2. lia. }
  eapply sp_bind; [li|intro; cbv beta].
  eapply sp_bind; [apply quicks_n|intro u'; cbv beta].
  { intros i p v H. apply (Hrng i p v). apply Hin. right. exact H. }
  rewrite app_nil_r. set (qs := rev (map (fun x => fst (fst x)) quick)).
  eapply sp_bind; [apply sp_oqnlp|intro o1; cbv beta].
  eapply sp_weak with (P' := inv k (past k qs)); [|intros s [H _]; exact H|intros ? ? H; exact H].
  assert (Fin : forall s, (exists ids, inv k (past k ids) s) /\ (inv k (past k (rev (map (fun x => fst (fst x)) local) ++ qs)) s \/ hit s) -> after k (List.length b) s).
  { intros s [[ids H1] [H2|H2]]; (split; [eauto|]); [left|right; exact H2]. eapply inv_next; [exact Hlen| |exact H2].
    intros j J1 J2. assert (Hj : In j (map fst b)) by (rewrite Hb; apply in_seq; lia). rewrite <- Hids, map_map in Hj.
    apply in_map_iff in Hj as (c0 & <- & Hc). apply in_or_app. apply Hin in Hc as [Hc|Hc]; [left|right; unfold qs];
      (apply -> in_rev; apply in_map_iff; exists c0; split; [reflexivity|exact Hc]). }
  apply sp_bind with (Q := fun _ => after k (List.length b)); [|intro; apply sp_ret; auto].
  destruct ((2 <=? List.length local) && o_parallel o1).
  - eapply sp_bind; [li|intro; cbv beta]. eapply sp_bind; [apply sp_of_result; apply inv_bad|intro rs; cbv beta].
    apply sp_pure with (H := map fst rs = local); [|intro Hmap].
    { intros s [_ Hrs]. eapply collect_map; [|exact Hrs]. intros c0 r Hc. simpl in Hc. destruct (lift_solver _); try discriminate. injection Hc as <-. reflexivity. }
    eapply sp_weak; [apply (results_n k u' rs qs)|intros s [H _]; exact H|].
    + intros i p v r Hc. apply (Hrng i p v). apply Hin. left. rewrite <- Hmap. apply in_map_iff. exists (i, p, v, r). auto.
    + intros x s H. apply Fin. rewrite <- Hmap, map_map. exact H.
  - eapply sp_weak; [apply (singles_n k u' local qs)|auto|intros x s H; apply Fin; exact H].
    intros i p v Hc. apply (Hrng i p v). apply Hin. left. exact Hc.
Qed.
Lemma loop_n res objs : forall bs u k, start <= k -> Forall (fun b => List.length b <= n) bs ->
  map fst (List.concat bs) = seq k (List.length (List.concat bs)) ->
  spec badn (inv k (past k [])) (stage2_loop E n start res objs bs u) (fun _ s => exists k' X, inv k' X s).
Proof.
  induction bs as [|b bs IH]; intros u k Hk Hl Hids; [apply sp_ret; eauto|].
  simpl stage2_loop. inversion Hl as [|? ? Hb Hl']; subst. simpl in Hids. rewrite map_app, app_length, seq_app in Hids.
  apply app_len in Hids as [Hi1 Hi2]; [|rewrite map_length, seq_length; reflexivity].
  eapply sp_bind; [apply sp_oqnlp|intro o; cbv beta].
  eapply sp_weak with (P' := inv k (past k [])); [|intros s [H _]; exact H|intros ? ? H; exact H].
  eapply sp_bind; [apply l_in; [auto|destruct (o_max_time o); parts|destruct (o_max_time o); parts]|intros [|]; cbv beta].
  { apply sp_ret; eauto. }
  eapply sp_bind; [li|intro; cbv beta].
  apply sp_bind with (Q := fun _ => after k (List.length b)).
  { destruct (1 <? n); [apply par_n; auto|apply seq_n; auto]. }
  intro u'. eapply sp_bind; [apply sp_oqnlp|intro o2; cbv beta].
  eapply sp_bind; [apply sp_unwrap; intros s [[(k' & X & H) _] _]; eapply inv_bad; eauto|intro stop; cbv beta]. destruct stop.
  - apply sp_ret. intros s [[[H _] _] _]. exact H.
  - eapply sp_weak; [apply (IH u' (k + List.length b)); auto; lia| |auto].
    intros s [[[_ [H|H]] ->] Hn']; [exact H|congruence].
Qed.
End Near.
(** ** Whole runs *)
Lemma nears_still c start n fresh t : Forall still t -> nears c start n fresh t.
Proof.
  intro H. induction H as [|e t He Ht IH]; (split; [|try exact I; try exact IH]).
  - intros j [].
  - intros j Hj. exfalso. assert (G : begun (e :: t) = []) by (rewrite <- (app_nil_r (e :: t)), begun_still; [reflexivity|constructor; assumption]).
    rewrite G in Hj. destruct Hj.
Qed.
Lemma nears_mono c start n m fresh t : n <= m -> nears c start n fresh t -> nears c start m fresh t.
Proof.
  intro H. assert (N : forall t, near c start n fresh t -> near c start m fresh t).
  { intros t0 G j Hj. specialize (G j Hj). destruct (newest_save t0); [lia|]. destruct fresh; lia. }
  induction t as [|e t IH]; intros [G1 G2]; split; auto.
Qed.
Definition keptb (o : oqnlp) := (kept o, (o_parallel o, o_batch o)).
Lemma stage2_n : forall E c (res : bool) refs objs u s, Forall still (trace s) -> o_cp (s_o s) = Some c -> 0 < cc_save_frequency c ->
  nears c (if res then o_iteration (s_o s) else 0) (Nat.max 1 (max_batch (s_o s))) (negb res) (trace (snd (stage2_run E res refs objs u s))).
Proof.
  intros E c res refs objs u s Htr Hc Hf. set (start := if res then o_iteration (s_o s) else 0). unfold stage2_run. unfold bind at 1.
  assert (Hem : emits still begin_stage2) by (unfold begin_stage2; parts).
  assert (Hk1 : keeps keptb begin_stage2) by (unfold begin_stage2; parts).
  destruct (Hem s) as (new & Ht & Hn). specialize (Hk1 s). destruct (tr_begin_stage2 s) as [_ Hr]. destruct (begin_stage2 s) as [r0 s1]. simpl in Ht, Hk1, Hr. subst r0.
  unfold keptb, kept in Hk1. injection Hk1 as K1 K2 K3 K4. rewrite (bind_ok _ _ the_oqnlp _ s1 (s_o s1) s1 eq_refl). cbv beta iota.
  assert (Hu : forall s2, trace s2 = trace s1 -> Forall still (trace s2)).
  { intros s2 H. rewrite H, Ht. apply Forall_app. auto. }
  assert (Hsz : batch_size E (s_o s1) start <= max_batch (s_o s)).
  { eapply Nat.le_trans; [apply size_max|]. unfold max_batch. rewrite K3, K4. lia. }
  set (size := batch_size E (s_o s1) start) in *.
  assert (Go : forall refs1 s2, trace s2 = trace s1 -> o_cp (s_o s2) = Some c ->
    nears c start (Nat.max 1 (max_batch (s_o s))) (negb res) (trace (snd (bind (if size =? 0 then panic
     else stage2_loop E size start res objs (chunks size (skipn start (enumerate (firstn (p_iterations (o_params (s_o s1))) refs1)))) u)
     (fun _ => bind (maybe_save_final_checkpoint E) (fun _ => final_set)) s2)))).
  { intros refs1 s2 Ht2 Hc2. destruct (size =? 0) eqn:Hz.
    { simpl. apply nears_still. apply Hu. exact Ht2. }
    apply Nat.eqb_neq in Hz. set (bs := chunks _ _).
    assert (Hbs : map fst (List.concat bs) = seq start (List.length (List.concat bs))).
    { unfold bs. rewrite chunks_all by auto. rewrite <- skipn_map. unfold enumerate. rewrite enum_fst, skipn_seq, skipn_length.
      f_equal. rewrite <- (map_length fst (enumerate_from 0 _)), enum_fst, seq_length. reflexivity. }
    assert (Hfr : negb res = true -> start = 0) by (unfold start; destruct res; [discriminate|reflexivity]).
    pose proof (Hu s2 Ht2) as Hst.
    assert (Hb0 : begun (trace s2) = []) by (rewrite <- (app_nil_r (trace s2)), begun_still; [reflexivity|exact Hst]).
    assert (Hs0 : newest_save (trace s2) = None).
    { rewrite <- (app_nil_r (trace s2)), newest_app; [reflexivity|]. eapply Forall_impl; [apply still_calm|exact Hst]. }
    assert (Hin : inv c start size (negb res) start (past c start []) s2).
    { split; [exact Hc2|]. split; [apply nears_still; exact Hst|]. split; [split; [|split]|].
      - rewrite Hb0. intros j [].
      - intros; lia.
      - rewrite Hs0. discriminate.
      - rewrite Hb0. split; [discriminate|]. split; [lia|]. split; [intros i []|congruence]. }
    assert (Sp : spec (badn c start size (negb res)) (inv c start size (negb res) start (past c start []))
       (bind (stage2_loop E size start res objs bs u) (fun _ => bind (maybe_save_final_checkpoint E) (fun _ => final_set)))
       (fun _ => badn c start size (negb res))).
    { assert (H1 : 1 <= size) by lia.
      eapply sp_bind; [apply (loop_n E c start size (negb res) H1 Hf Hfr); [lia|apply chunks_small|exact Hbs]|intro; cbv beta].
      apply sp_pre. intros s3 (k' & X & H3). apply sp_weak with (P' := inv c start size (negb res) k' X) (Q' := fun _ => badn c start size (negb res)); [|intros s4 ->; auto|auto].
      eapply sp_bind; [apply (l_final E c start size (negb res) H1 Hf Hfr)|intro; cbv beta].
      unfold final_set. eapply sp_bind; [apply sp_oqnlp|intro o; cbv beta]. intros s4 [H4 _]. destruct (o_set o); exact H4. }
    specialize (Sp s2 Hin). apply (nears_mono c start size); [lia|].
    destruct (bind _ _ s2) as [r s4]. simpl. destruct r; exact Sp. }
  rewrite K2. fold start. destruct res.
  - rewrite (bind_ok _ _ (ret refs) _ s1 refs s1 eq_refl). cbv zeta beta iota. unfold start in *. apply (Go refs s1); [reflexivity|exact (eq_trans K1 Hc)].
  - cbv iota. destruct (add_u64 E (p_seed (o_params (s_o s1))) (N.of_nat (o_iteration (s_o s)))) as [sd|] eqn:Ha.
    + set (s2 := mk_st (set_o_seed sd (s_o s1)) (s_w s1)).
      rewrite (bind_ok _ _ (bind (unwrap (Some sd)) _) _ s1 (e_shuffle E (e_seed_from E sd) refs) s2 eq_refl). cbv zeta.
      apply (Go _ s2); [reflexivity|exact (eq_trans K1 Hc)].
    + rewrite (bind_panic _ _ (bind (unwrap None) _) _ s1 s1 eq_refl). simpl. apply nears_still, Hu. reflexivity.
Qed.
Lemma same_cp : forall o o', same_config o o' -> o_cp o' = o_cp o.
Proof. intros o o' H. unfold same_config in H. decompose [and] H. assumption. Qed.
Lemma run_near : forall E s r s' new c, run E s = (r, s') -> recorded s s' new -> o_cp (s_o s') = Some c -> 0 < cc_save_frequency c ->
  exists fresh start, nears c start (Nat.max 1 (max_batch (s_o s'))) fresh new /\
    (fresh = false -> exists cp, resumes_from E s cp /\ start = cp_iteration cp).
Proof.
  intros E s r s' new c Hrun Hnew Hc Hf.
  destruct (HoareP.run_cases E s r s' new Hrun Hnew) as [(-> & _ & _)|(b & s1 & Hst & Ht & Hr & Hcfg)].
  { exists true, 0. split; [apply nears_still; constructor|discriminate]. }
  assert (Htn : trace (ends s' new) = new) by reflexivity. exists (negb b).
  assert (Hc1 : o_cp (s_o s1) = Some c) by (rewrite <- (same_cp _ _ Hcfg); exact Hc).
  destruct b; unfold HoareP.run_rest in Hr.
  - assert (Href : exists cp, resumes_from E s cp /\ o_iteration (s_o s1) = cp_iteration cp).
    { inversion Hst; subst. exists cp. split; [exists c0; auto|reflexivity]. }
    destruct Href as (cp0 & Hres & Hit). exists (cp_iteration cp0). split; [|eauto].
    rewrite (bind_ok _ _ the_oqnlp _ s1 (s_o s1) s1 eq_refl) in Hr. rewrite (same_batch _ _ Hcfg), <- Hit.
    pose proof (stage2_n E c true (match o_ref (s_o s1) with Some r => r | None => [] end) None (o_unchanged (s_o s1)) s1) as G.
    rewrite Hr in G. simpl snd in G. rewrite Htn in G. apply G; [rewrite Ht; constructor|exact Hc1|exact Hf].
  - exists 0. split; [|discriminate].
    pose proof (em_stage1 E s1) as (pre & Hp1 & Hp2).
    assert (K : keeps keptb (stage1_run E)) by (unfold stage1_run, end_stage1, stage1_enter; kp; parts).
    specialize (K s1).
    assert (Hun : forall s2, trace s2 = pre ++ trace s1 -> Forall still (trace s2)).
    { intros s2 H. rewrite H, Ht, app_nil_r. eapply Forall_impl; [|exact Hp2]. intros []; simpl; auto. }
    unfold bind in Hr. destruct (stage1_run E s1) as [r2 s2] eqn:E1. simpl in Hp1, K. specialize (Hun s2 Hp1).
    unfold keptb, kept in K. injection K as K1 K2 K3 K4.
    destruct r2 as [[[refs objs]|]|e|].
    + assert (Hm : max_batch (s_o s') = max_batch (s_o s2)).
      { rewrite (same_batch _ _ Hcfg). unfold max_batch. rewrite K3, K4. reflexivity. }
      pose proof (stage2_n E c false refs (Some objs) 0 s2 Hun (eq_trans K1 Hc1) Hf) as G. rewrite Hr in G. simpl snd in G. rewrite Htn, <- Hm in G. exact G.
    + unfold final_set, bind, the_oqnlp, get, ret, bind, fail in Hr. simpl in Hr. rewrite <- Htn.
      destruct (o_set (s_o s2)); injection Hr as _ Hr; rewrite <- Hr; apply nears_still; exact Hun.
    + injection Hr as _ Hr. rewrite <- Htn, <- Hr. apply nears_still. exact Hun.
    + injection Hr as _ Hr. rewrite <- Htn, <- Hr. apply nears_still. exact Hun.
Qed.
Lemma tops_newest old l : tops old l = match newest_save l with Some cp => Some (enc_checkpoint cp) | None => old end.
Proof. induction l as [|e l IH]; [reflexivity|]. destruct e; try exact IH. reflexivity. Qed.
Lemma newest_in l cp : newest_save l = Some cp -> exists a f b, l = a ++ EvSave f cp :: b.
Proof.
  induction l as [|e l IH]; [discriminate|]. destruct e; intro H;
    try (destruct (IH H) as (a & f & b & ->); eexists (_ :: a), f, b; reflexivity). injection H as ->. exists [], f, l. reflexivity.
Qed.
(** ** The theorems *)
Theorem c103_batches : forall E E2 s r s1 new j c c2 o2, no_torn_write E -> io_works E2 ->
  run E s = (r, s1) -> recorded s s1 new ->
  o_cp (s_o s1) = Some c -> cc_keep_all c = false -> 0 < cc_save_frequency c ->
  (forall f cp, In (EvSave f cp) new -> checkpoint_ok cp) ->
  In (EvIteration j) new -> 0 < j -> max_batch (s_o s1) <= j ->
  o_cp o2 = Some c2 -> cc_name c2 = cc_name c -> cc_keep_all c2 = false -> cc_auto_resume c2 = true ->
  exists cp, resumes_from E2 (next_process s1 o2) cp /\ j <= cp_iteration cp + cc_save_frequency c + 2 * (max_batch (s_o s1) - 1) /\
    Nat.min (p_iterations (cp_params cp)) (List.length (cp_reference_set cp)) = work_bound s1.
Proof.
  intros E E2 s r s1 new j c c2 o2 Htorn Hio Hrun Hnew Hc Hk Hf Hfit Hin Hj0 Hj Hc2 Hnm Hk2 Ha2.
  assert (Hne : new <> []) by (intros ->; destruct Hin).
  assert (HF : file_name c2 0 = F c) by (unfold F, file_name; rewrite Hk, Hk2, Hnm; reflexivity).
  destruct (run_near E s r s1 new c Hrun Hnew Hc Hf) as (fresh & start & Hnr & Hfr).
  set (n := Nat.max 1 (max_batch (s_o s1))) in *.
  assert (Hn : n - 1 = max_batch (s_o s1) - 1 /\ n <= j) by (unfold n; lia). destruct Hn as [Hn1 Hn2].
  set (old := lookup (F c) (d_files (w_disk (s_w s)))).
  assert (Hdisk : exists x t, new = x ++ t /\ now c s1 = tops old t /\ near c start n fresh t /\ In j (begun t)).
  { assert (Hb : In j (begun new)) by (apply iter_begun; exact Hin).
    destruct (file_after E c Htorn Hk old s r s1 new Hrun Hnew Hne Hc eq_refl) as [G|(f & cp & l & Hl & G)].
    - exists [], new. split; [reflexivity|]. split; [exact G|]. split; [destruct new; apply Hnr|exact Hb].
    - exists [EvSave f cp], l. split; [exact Hl|]. split; [exact G|]. rewrite Hl in Hnr, Hb. split; [destruct l; apply Hnr|exact Hb]. }
  destruct Hdisk as (x & t & Hx & Hnow & Hnear & Hjt). specialize (Hnear j Hjt). rewrite tops_newest in Hnow.
  destruct (newest_save t) as [cp|] eqn:Ht.
  - destruct (newest_in _ _ Ht) as (a & f & b & ->). rewrite app_assoc in Hx. exists cp. split; [|split; [lia|eapply saved_bound; eassumption]].
    refine (next_resumes E2 c2 o2 s1 cp Hc2 Ha2 Hk2 Hio (Hfit f cp _) _).
    + rewrite Hx. apply in_or_app. right. left. reflexivity.
    + replace (file_name c2 (cp_iteration cp)) with (F c); [exact Hnow|]. rewrite <- HF. unfold file_name. rewrite Hk2. reflexivity.
  - destruct fresh; [lia|]. destruct (Hfr eq_refl) as (cp & Hres & ->). clear Hfr. exists cp. split; [|split; [lia|eapply resumed_bound; eassumption]].
    destruct Hres as (c0 & R1 & R2 & R3 & R4).
    assert (c0 = c).
    { destruct (HoareP.run_cases E s _ s1 new Hrun Hnew) as [(Hz & _ & _)|(bb & sx & Hst & Htr & Hr & Hcfg)]; [congruence|].
      destruct Hcfg as (_ & _ & _ & _ & _ & _ & _ & _ & Hcc & _).
      destruct Hst as [d Hd Hno|c' d cp' H1 H2 H3 H4 Hd]; rewrite Hc in Hcc; change (Some c = o_cp (s_o s)) in Hcc; congruence. }
    subst c0. exists c2. split; [exact Hc2|]. split; [exact Ha2|]. change (w_disk (s_w (next_process s1 o2))) with (w_disk (s_w s1)).
    revert R3 R4. unfold checkpoint_exists, load_latest. rewrite Hk, Hk2. unfold bind, get, ret, bind. cbn [fst snd].
    rewrite HF. change (file_name c 0) with (F c). unfold now in Hnow. rewrite Hnow. fold old. destruct old as [bs|] eqn:Ho; [|intro R3; discriminate R3]. intros _ R4. split; [reflexivity|].
    revert R4. unfold load_from_path, bind, get, ret, bind. cbn [fst snd]. rewrite Hnow. unfold old in Ho. rewrite Ho. unfold next_io. cbv beta iota. rewrite Hio.
    destruct (e_io E (d_tick (w_disk (s_w s)))), (decode_checkpoint bs); cbn [fst snd]; intro R4; first [discriminate R4|exact R4].
Qed.
Theorem c103_batches_cost : forall E E2 s r s1 new j c c2 o2 r2 s2 new2, env_ok E2 -> no_torn_write E -> io_works E2 ->
  run E s = (r, s1) -> recorded s s1 new ->
  o_cp (s_o s1) = Some c -> cc_keep_all c = false -> 0 < cc_save_frequency c ->
  (forall f cp, In (EvSave f cp) new -> checkpoint_ok cp) ->
  In (EvIteration j) new -> 0 < j -> max_batch (s_o s1) <= j ->
  o_cp o2 = Some c2 -> cc_name c2 = cc_name c -> cc_keep_all c2 = false -> cc_auto_resume c2 = true ->
  run E2 (next_process s1 o2) = (r2, s2) -> recorded (next_process s1 o2) s2 new2 ->
  List.length (objective_calls new2) <= work_bound s1 - j + cc_save_frequency c + 2 * (max_batch (s_o s1) - 1) /\
  List.length (search_starts new2) <= work_bound s1 - j + cc_save_frequency c + 2 * (max_batch (s_o s1) - 1).
Proof.
  intros E E2 s r s1 new j c c2 o2 r2 s2 new2 Hok2 Htorn Hio Hrun Hnew Hc Hk Hf Hfit Hin Hj Hjm Hc2 Hnm Hk2 Ha2 Hrun2 Hnew2.
  destruct (c103_batches E E2 s r s1 new j c c2 o2) as (cp & Hres & Hle & Hw); try assumption.
  destruct (c98_resumed E2 _ _ _ _ cp Hok2 Hrun2 Hnew2 Hres) as [B1 B2]. rewrite Hw in B1, B2. lia.
Qed.

(** * A run that nothing stops judges every candidate (C67) *)
From Coq Require Import ZArith NArith List Bool Arith Lia String Permutation.
From Verif Require Import F64 Base Builders Types Filters Runner Observer Env EnvSpec
  ScatterSearch Codec Checkpoint Oqnlp Spec SpecStage2 SpecObserver SolverP Wp Actions RunP SetP FrameP EmitsP FilterP CountP TargetP HoareP SeqP SeqP2 SeqP3.
Import ListNotations.

Definition any : st -> Prop := fun _ => True.
Definition judged (ids : list nat) (s : st) : Prop := forall i, In i ids -> In i (decided (trace s)).
Lemma judged_more : forall ids s l s', judged ids s -> trace s' = l ++ trace s -> judged ids s'.
Proof. intros ids s l s' H G i Hi. rewrite G. change (In i (indices (fun e => match e with EvDecide i _ _ _ _ => Some i | _ => None end) (l ++ trace s))). rewrite indices_app. apply in_or_app. right. apply H, Hi. Qed.
Definition free : event -> Prop := fun _ => True.
Lemma sp_grow : forall A (m : OM A) ids, emits free m -> spec any (judged ids) m (fun _ => judged ids).
Proof.
  intros A m ids He s Hs. destruct (He s) as (new & Ht & _). destruct (m s) as [[a|e|] s']; simpl in *; try exact I.
  eapply judged_more; eauto.
Qed.
Section All.
Context (E : env).
Ltac fr := first [ apply e_callback_at; side | apply e_maybe_save; side | apply e_obs_iteration | apply e_obs_search
  | apply e_callback; side | apply e_count; side | apply e_threshold; side | apply e_begin; side | apply e_process; side
  | apply e_emit; apply Forall_forall; intros; exact I ].
Ltac gr := repeat first [ fr | em1 ].
Lemma free_tail : emits free (maybe_save_checkpoint E). Proof. fr. Qed.
Lemma one_judged : forall objs i p u ids, spec any (judged ids) (process_one_seq E objs i p u)
  (fun r s => judged (i :: ids) s /\ (snd r = true -> target_reached E (s_o s) = Some true)).
Proof.
  intros objs i p u ids. unfold process_one_seq.
  eapply sp_bind; [apply sp_grow; gr|intro; cbv beta]. eapply sp_bind; [apply sp_grow; gr|intro; cbv beta].
  eapply sp_bind; [apply sp_grow; unfold emit_eval; gr|intro; cbv beta]. eapply sp_bind; [apply sp_grow; gr|intro obj; cbv beta].
  eapply sp_bind; [apply sp_grow; gr|intro; cbv beta]. eapply sp_bind; [apply sp_oqnlp|intro o; cbv beta zeta].
  apply sp_bind with (Q := fun _ => judged (i :: ids)).
  { intros s [Hs _]. simpl. intros j [<-|Hj]; [left; reflexivity|right; apply Hs, Hj]. }
  intro. apply sp_bind with (Q := fun r s => judged (i :: ids) s /\ (snd r = true -> target_reached E (s_o s) = Some true)).
  - destruct (should_start_local o p obj).
    + eapply sp_bind; [apply sp_grow; gr|intro; cbv beta]. eapply sp_bind; [apply sp_grow; gr|intro; cbv beta].
      eapply sp_bind; [apply sp_grow; gr|intro; cbv beta]. eapply sp_bind; [apply sp_grow; gr|intro; cbv beta].
      eapply sp_bind; [apply sp_grow; gr|intro; cbv beta]. eapply sp_bind; [apply sp_oqnlp|intro o2; cbv beta].
      eapply sp_bind; [apply sp_unwrap; intros; exact I|intro stop; cbv beta]. apply sp_ret. intros s [[H1 ->] H2]. split; [auto|]. simpl. intros ->. auto.
    + eapply sp_bind; [apply sp_grow; gr|intro; cbv beta]. apply sp_ret. intros s H. split; [auto|discriminate].
  - intros [u' stop]. simpl. destruct stop; [apply sp_ret; auto|].
    eapply sp_weak with (P' := judged (i :: ids)) (Q' := fun r s => judged (i :: ids) s /\ snd r = false); [|intros s [H _]; exact H|].
    + eapply sp_bind; [apply sp_grow; gr|intro; cbv beta]. eapply sp_bind; [apply sp_grow; gr|intro; cbv beta]. apply sp_ret. auto.
    + intros r s [H1 H2]. split; [auto|congruence].
Qed.
Lemma seq_judged : forall start res objs b u ids, (forall i p, In (i, p) b -> start <= i) ->
  spec any (judged ids) (process_batch_sequential E start res objs b u)
    (fun _ s => target_reached E (s_o s) = Some true \/ judged (map fst b ++ ids) s).
Proof.
  intros start res objs b. induction b as [|[i p] b IH]; intros u ids Hb; [apply sp_ret; auto|]. simpl.
  assert (Hi : (i <? start) = false) by (apply Nat.ltb_ge; eapply Hb; left; reflexivity). rewrite Hi, andb_false_r.
  eapply sp_bind; [apply one_judged|intros [u' stop]; cbv beta]. simpl. destruct stop.
  - apply sp_ret. intros s [_ H]. auto.
  - eapply sp_weak; [apply (IH u' (i :: ids)); intros; eapply Hb; right; eauto|intros s [H _]; exact H|].
    intros _ s [H|H]; [auto|right]. intros j Hj. apply H. simpl in Hj. apply in_or_app. destruct Hj as [<-|Hj]; [right; left; auto|].
    apply in_app_or in Hj. destruct Hj; [left|right; right]; auto.
Qed.
Lemma par_ids : forall pick objs b results,
  par_collect pick (map (fun b : nat * point => match cand_objective E objs (fst b) (snd b) with
      | Ok v => Ok (fst b, snd b, v) | Err e => Err e | Panic => Panic end) b) = Ok results ->
  map (fun c => fst (fst c)) results = map fst b.
Proof.
  intros pick objs b results H. unfold par_collect in H. destruct (existsb oc_panic _) eqn:Hp; [discriminate|].
  destruct (oc_errs _) eqn:He; [|discriminate]. injection H as <-.
  induction b as [|[i p] b IH]; [reflexivity|]. simpl in *. destruct (cand_objective E objs i p); simpl in *; try discriminate.
  f_equal. apply IH; auto.
Qed.
Lemma par_judged : forall start res objs b u ids, (forall i p, In (i, p) b -> start <= i) ->
  spec any (judged ids) (process_batch_parallel E start res objs b u) (fun _ s => judged (map fst b ++ ids) s).
Proof.
  intros start res objs b u ids Hb. unfold process_batch_parallel.
  assert (Hf : (if res then filter (fun b => start <=? fst b) b else b) = b).
  { destruct res; [|reflexivity]. clear u. induction b as [|[i p] b IH]; [reflexivity|]. simpl.
    assert (Hi : (start <=? i) = true) by (apply Nat.leb_le; eapply Hb; left; reflexivity). rewrite Hi, IH; auto. intros; eapply Hb; right; eauto. }
  rewrite Hf. cbv zeta. destruct b as [|b0 b]; [apply sp_ret; auto|].
  eapply sp_bind; [apply sp_grow|intro; cbv beta]. { destruct objs; gr. }
  eapply sp_bind; [apply sp_grow; gr|intro t; cbv beta].
  eapply sp_bind; [apply sp_of_result; intros; exact I|intro results; cbv beta].
  apply sp_pure with (H := map (fun c => fst (fst c)) results = map fst (b0 :: b)).
  { intros s [_ H]. eapply par_ids; eauto. }
  intro Hids. apply sp_weak with (P' := judged ids) (Q' := fun (_ : nat) => judged (map fst (b0 :: b) ++ ids)); [|intros s [H _]; exact H|auto].
  eapply sp_bind; [apply sp_grow|intro; cbv beta]. { destruct objs; gr. }
  eapply sp_bind; [apply sp_oqnlp|intro o; cbv beta].
  destruct (partition _ results) as [local quick].
  apply sp_bind with (Q := fun _ => judged (map fst (b0 :: b) ++ ids)).
  { intros s [Hs _]. cbv [emit modify]. intros j Hj. unfold trace. simpl w_trace.
    apply in_app_or in Hj. unfold decided. destruct Hj as [Hj|Hj].
    - rewrite <- Hids in Hj. apply in_map_iff in Hj as (c & <- & Hc). apply in_flat_map.
      exists (EvDecide (fst (fst c)) (snd (fst c)) (snd c) o (should_start_local o (snd (fst c)) (snd c))). split; [|left; reflexivity].
      apply in_or_app. left. apply -> in_rev. apply in_map_iff. exists c. auto.
    - rewrite indices_app. apply in_or_app. right. apply Hs, Hj. }
  intro. eapply sp_bind; [apply sp_grow|intro; cbv beta].
  { generalize u. clear - E. induction quick as [|[[i p] obj] q IH]; intro u; simpl; [gr|]. apply e_bind; [|intro; apply IH].
    unfold process_quick. gr. }
  eapply sp_bind; [apply sp_grow; gr|intro; cbv beta].
  eapply sp_bind; [apply sp_grow|intro; cbv beta; apply sp_ret; auto].
  match goal with |- emits _ (if ?c then _ else _) => destruct c end.
  - apply e_bind; [gr|intro]. apply e_bind; [gr|intro l]. match goal with |- emits _ (process_par_results _ _ ?x) => generalize x end. clear - E. induction l as [|[[[i p] obj] [sol ev]] l IH]; intro u; simpl; [gr|].
    apply e_bind; [unfold process_par_result; gr|intros [|]; [gr|apply IH]].
  - clear. induction local as [|[[i p] obj] l IH]; simpl; [gr|].
    apply e_bind; [unfold process_single; gr|intros [|]; [gr|apply IH]].
Qed.
Definition timed_out (s : st) : Prop := exists m v, o_max_time (s_o s) = Some m /\ In (EvClock v) (trace s) /\ fgt v m = true.
Lemma loop_judged : forall size start res objs bs u ids, (forall i p, In (i, p) (List.concat bs) -> start <= i) ->
  spec any (judged ids) (stage2_loop E size start res objs bs u)
    (fun _ s => target_reached E (s_o s) = Some true \/ timed_out s \/ judged (map fst (List.concat bs) ++ ids) s).
Proof.
  intros size start res objs bs. induction bs as [|b bs IH]; intros u ids Hb; [apply sp_ret; auto|].
  simpl stage2_loop. simpl List.concat. rewrite map_app.
  eapply sp_bind; [apply sp_oqnlp|intro o; cbv beta].
  apply sp_bind with (Q := fun timeout s => judged ids s /\ (timeout = true -> timed_out s)).
  { intros s [Hs ->]. destruct (o_max_time (s_o s)) as [m|] eqn:Hm; simpl; [|split; [exact Hs|discriminate]].
    split; [eapply (judged_more ids s [_]); [auto|reflexivity]|]. intro H. exists m, (e_clock E (w_tick (s_w s))). split; [auto|]. split; [left; reflexivity|auto]. }
  intros [|]; cbv beta; [apply sp_ret; intros s [_ H]; auto|].
  apply sp_bind with (Q := fun _ => judged ids); [intros s [Hs _]; simpl; eapply (judged_more ids s [_]); [auto|reflexivity]|intro].
  assert (Hb1 : forall i p, In (i, p) b -> start <= i) by (intros i p Hip; apply (Hb i p); simpl; apply in_or_app; auto).
  apply sp_bind with (Q := fun _ s => target_reached E (s_o s) = Some true \/ judged (map fst b ++ ids) s).
  { destruct (1 <? size); [|apply seq_judged; exact Hb1]. eapply sp_weak; [apply par_judged; exact Hb1|intros s0 H0; exact H0|intros ? ? H0; right; exact H0]. }
  intro u'. eapply sp_bind; [apply sp_oqnlp|intro o2; cbv beta].
  eapply sp_bind; [apply sp_unwrap; intros; exact I|intro stop; cbv beta]. destruct stop.
  - apply sp_ret. intros s [[_ ->] H]. auto.
  - eapply sp_weak; [apply (IH u' (map fst b ++ ids)); intros i p Hip; apply (Hb i p); simpl; apply in_or_app; auto| |].
    + intros s [[[H|H] ->] Hn]; [congruence|exact H].
    + intros _ s [H|[H|H]]; auto. right. right. intros j Hj. apply H. rewrite <- app_assoc in Hj. apply in_app_or in Hj. apply in_or_app.
      destruct Hj as [Hj|Hj]; [right; apply in_or_app; auto|]. apply in_app_or in Hj. destruct Hj; [auto|right; apply in_or_app; auto].
Qed.
Lemma chunks_all : forall A n (l : list A), n <> 0 -> List.concat (chunks n l) = l.
Proof.
  intros A n l Hn. unfold chunks. generalize (Nat.le_refl (List.length l)). generalize (List.length l) at 2 3 as f.
  intro f. revert l. induction f as [|f IH]; intros l H; destruct l as [|x l]; simpl in *; try reflexivity; try lia.
  rewrite IH; [apply (firstn_skipn n (x :: l))|]. destruct n; [lia|]. simpl. rewrite skipn_length. lia.
Qed.
Lemma stage2_judged : env_ok E -> forall res refs objs u s set s', stage2_run E res refs objs u s = (Ok set, s') ->
  let start := if res then o_iteration (s_o s) else 0 in
  o_set (s_o s') = Some set /\
  (target_reached E (s_o s') = Some true \/ timed_out s' \/
   judged (seq start (Nat.min (p_iterations (o_params (s_o s))) (List.length refs) - start)) s').
Proof.
  intros Hok res refs objs u s set s' H start. unfold stage2_run in H. unfold bind in H at 1.
  pose proof (fi_begin_stage2 s) as Hf. destruct (tr_begin_stage2 s) as [_ Hr].
  destruct (begin_stage2 s) as [r0 s1]. simpl in Hf, Hr. subst r0. unfold bind in H at 1. simpl in H.
  assert (H1 : o_iteration (s_o s1) = o_iteration (s_o s)) by (unfold fi in Hf; congruence).
  assert (H2 : o_params (s_o s1) = o_params (s_o s)).
  { assert (Hfr : frame (s_o s1) = frame (s_o s)) by (unfold fi in Hf; congruence). unfold frame in Hfr. injection Hfr; auto. }
  assert (Hgo : forall refs1 s2, List.length refs1 = List.length refs ->
    bind (if batch_size E (s_o s1) (if res then o_iteration (s_o s1) else 0) =? 0 then panic
     else stage2_loop E (batch_size E (s_o s1) (if res then o_iteration (s_o s1) else 0)) (if res then o_iteration (s_o s1) else 0) res objs
       (chunks (batch_size E (s_o s1) (if res then o_iteration (s_o s1) else 0))
          (skipn (if res then o_iteration (s_o s1) else 0) (enumerate (firstn (p_iterations (o_params (s_o s1))) refs1)))) u)
     (fun _ => bind (maybe_save_final_checkpoint E) (fun _ => final_set)) s2 = (Ok set, s') ->
    o_set (s_o s') = Some set /\
    (target_reached E (s_o s') = Some true \/ timed_out s' \/
     judged (seq start (Nat.min (p_iterations (o_params (s_o s))) (List.length refs) - start)) s')).
  { clear H. intros refs1 s2 Hlen H. rewrite H1, H2 in H. change (if res then o_iteration (s_o s) else 0) with start in H.
    set (size := batch_size E (s_o s1) start) in *. destruct (size =? 0) eqn:Hz; [discriminate H|]. apply Nat.eqb_neq in Hz.
    set (bs := chunks size (skipn start (enumerate (firstn (p_iterations (o_params (s_o s))) refs1)))) in *.
    assert (Hcc : List.concat bs = skipn start (enumerate (firstn (p_iterations (o_params (s_o s))) refs1))) by (apply chunks_all; auto).
    assert (Hids : map fst (List.concat bs) = seq start (Nat.min (p_iterations (o_params (s_o s))) (List.length refs) - start)).
    { rewrite Hcc, <- skipn_map. unfold enumerate. rewrite enum_fst, skipn_seq, firstn_length, Hlen. reflexivity. }
    assert (Hge : forall i p, In (i, p) (List.concat bs) -> start <= i).
    { intros i p Hin. apply (in_map fst) in Hin. rewrite Hids in Hin. apply in_seq in Hin. simpl in Hin. lia. }
    pose proof (loop_judged size start res objs bs u [] Hge s2 (fun i (H : In i []) => match H with end)) as G.
    rewrite Hids, app_nil_r in G. unfold bind in H at 1.
    destruct (stage2_loop E size start res objs bs u s2) as [[[]|e|] s3]; [|discriminate H..].
    unfold bind in H at 1. destruct (maybe_save_final_checkpoint E s3) as [r4 s4] eqn:E4.
    destruct (final_save_spec E _ _ _ E4) as (F1 & fin & F2 & _). destruct r4 as [[]|e4|]; [|discriminate H..].
    unfold final_set, bind, the_oqnlp, get, ret, bind, fail in H. simpl in H.
    destruct (o_set (s_o s4)) as [set'|] eqn:Hset; [|discriminate H]. injection H as -> <-. split; [auto|].
    destruct G as [G|[(m & v & G1 & G2 & G3)|G]].
    - left. rewrite F1. exact G.
    - right. left. exists m, v. rewrite F1, F2. split; [auto|]. split; [apply in_or_app; auto|auto].
    - right. right. eapply judged_more; eauto. }
  destruct res.
  - unfold bind in H at 1. simpl in H. apply (Hgo refs s1); auto.
  - unfold bind in H at 1. unfold bind in H at 1.
    destruct (add_u64 E (p_seed (o_params (s_o s1))) (N.of_nat (o_iteration (s_o s1)))) as [sd|]; simpl in H; [|discriminate H].
    eapply Hgo; [|exact H]. apply Permutation_length, (eo_shuffle E Hok).
Qed.
Theorem c67 : env_ok E -> forall s set s' new, run E s = (Ok set, s') -> recorded s s' new ->
  target_hit E (s_o s') set \/
  (exists m v, o_max_time (s_o s') = Some m /\ In (EvClock v) new /\ fgt v m = true) \/
  exists start, first_index E s start /\ forall i, start <= i -> i < work_bound s' -> In i (decided new).
Proof.
  intros Hok s set s' new Hrun Hnew.
  assert (Fin : forall x, o_set (s_o x) = Some set -> target_reached E (s_o x) = Some true -> target_hit E (s_o x) set).
  { intros x H1 H2. apply reached_iff in H2 as (set' & H3 & H4). congruence. }
  destruct (run_cases E s _ s' new Hrun Hnew) as [(-> & _ & Hno)|(b & s1 & Hst & Ht & Hr & Hcfg)].
  { exfalso. eapply Hno; reflexivity. }
  destruct b; unfold run_rest in Hr.
  - assert (Href : exists refs cp, o_ref (s_o s1) = Some refs /\ resumes_from E s cp /\ o_iteration (s_o s1) = cp_iteration cp).
    { inversion Hst; subst. simpl. exists (cp_reference_set cp), cp. split; [reflexivity|]. split; [|reflexivity]. exists c; auto. }
    destruct Href as (refs & cp & Href & Hres & Hit). unfold bind, the_oqnlp, get, ret, bind in Hr. simpl in Hr. rewrite Href in Hr.
    pose proof (a_stage2 E (candidate E true (s_o s1) refs) None true refs (o_unchanged (s_o s1))
                    (fun r s' => True) s1 (fun i p H => H) (fun r s' _ H => I)) as [W1 _].
    rewrite Hr in W1. simpl in W1.
    assert (Hrf : o_ref (s_o s') = Some refs).
    { rewrite <- Href. change (s_o s') with (s_o (ends s' new)). eapply acts_ref; [|exact W1]. intros p (i & rs & Hx & _). discriminate. }
    assert (Hw : work_bound s' = Nat.min (p_iterations (o_params (s_o s1))) (List.length refs)).
    { unfold work_bound, reference_set. rewrite Hrf. destruct Hcfg as [-> _]. reflexivity. }
    destruct (stage2_judged Hok _ _ _ _ _ _ _ Hr) as (F & [G|[G|G]]); [left; exact (Fin (ends s' new) F G)|right; left; exact G|].
    right. right. exists (cp_iteration cp). split; [right; exists cp; auto|]. rewrite Hit in G. intros i Hi Hj. apply G. apply in_seq. rewrite <- Hw. lia.
  - unfold bind in Hr at 1.
    pose proof (a_stage1 E (stage1_best E s1) None
        (fun r s2 => forall refs objs, r = Some (refs, objs) -> stage1_result E s1 s2 refs objs) s1
        (fun _ H => H) (fun _ _ _ H => H)) as [A1 W0].
    pose proof (stage1_stop E s1) as X.
    destruct (stage1_run E s1) as [r2 s2] eqn:E1. simpl in *.
    destruct r2 as [[[refs objs]|]|e|]; [| |discriminate Hr..].
    + destruct (W0 refs objs eq_refl) as (_ & _ & _ & _ & _ & _ & _ & _ & Href).
      pose proof (a_stage2 E (candidate E false (s_o s2) refs) (Some objs) false refs 0
                    (fun r s' => True) s2 (fun i p H => H) (fun r s' _ H => I)) as [W1 _].
      rewrite Hr in W1. simpl in W1. pose proof (acts_config _ _ _ _ _ W1) as C2. simpl in C2.
      assert (Hrf : o_ref (s_o s') = Some refs).
      { rewrite <- Href. change (s_o s') with (s_o (ends s' new)). eapply acts_ref; [|exact W1]. intros p (i & rs & Hx & _). discriminate. }
      assert (Hw : work_bound s' = Nat.min (p_iterations (o_params (s_o s2))) (List.length refs)).
      { unfold work_bound, reference_set. rewrite Hrf. destruct C2 as [-> _]. reflexivity. }
      destruct (stage2_judged Hok _ _ _ _ _ _ _ Hr) as (F & [G|[G|G]]); [left; exact (Fin (ends s' new) F G)|right; left; exact G|].
      right. right. exists 0. split; [left; split; [reflexivity|exact (start_fresh E _ _ Hst)]|]. intros i Hi Hj. apply G. apply in_seq. rewrite <- Hw. lia.
    + left. unfold final_set, bind, the_oqnlp, get, ret, fail, bind in Hr. simpl in Hr.
      destruct (o_set (s_o s2)) as [set'|] eqn:Hset; [|discriminate Hr]. injection Hr as -> Hr.
      change (s_o s') with (s_o (ends s' new)). rewrite <- Hr. apply Fin; [exact Hset|exact (X eq_refl)].
Qed.
End All.
Lemma c67_all : forall E s set s' new, env_ok E -> run E s = (Ok set, s') -> recorded s s' new ->
  target_hit E (s_o s') set \/
  (exists m v, o_max_time (s_o s') = Some m /\ In (EvClock v) new /\ fgt v m = true) \/
  NoDup (decided new) /\ exists start, first_index E s start /\
    forall i, start <= i -> i < work_bound s' -> In i (decided new).
Proof.
  intros E s set s' new Hok Hrun Hnew. destruct (c67 E Hok s set s' new Hrun Hnew) as [H|[H|H]]; [auto|auto|].
  right. right. split; [|exact H]. apply (c31_run E s (Ok set) s' new Hok Hrun Hnew).
Qed.

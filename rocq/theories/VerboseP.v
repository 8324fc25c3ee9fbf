(** * What the verbose output does to a run (C88) *)
From Coq Require Import ZArith NArith List Bool Arith Lia String.
From Verif Require Import F64 Base Builders Types Filters Runner Observer Env EnvSpec
  ScatterSearch Codec Checkpoint Oqnlp Verbose.
Import ListNotations.
Local Open Scope monad_scope.

(** ** Apart from panics the run with output is the run without *)
Section Erase.
Context (E : env) (io : nat -> bool) (v : bool).
(** the writes from [c] to [c'] succeeded *)
Definition written (c c' : con) : Prop := forall n, c_writes c <= n < c_writes c' -> io n = true.
Definition tracks {A} (m : VM A) (m' : OM A) : Prop := forall s c,
  match m (s, c) with
  | (r, (s', c')) => c_writes c <= c_writes c' /\
      (written c c' /\ m' s = (r, s') \/ r = Panic /\ exists n, c_writes c <= n < c_writes c' /\ io n = false)
  end.
Lemma tr_quietly : forall A (m : OM A), tracks (quietly m) m.
Proof.
  intros A m s c. unfold quietly. simpl. destruct (m s) as [r s'] eqn:H. split; [lia|]. left. split; [intros n Hn; simpl in Hn; lia|auto].
Qed.
Lemma tr_bind : forall A B (m : VM A) m' (k : A -> VM B) k', tracks m m' -> (forall a, tracks (k a) (k' a)) ->
  tracks (bind m k) (bind m' k').
Proof.
  intros A B m m' k k' H1 H2 s b. unfold bind. specialize (H1 s b). destruct (m (s, b)) as [[a|e|] [s1 b1]].
  - destruct H1 as [L [[G1 G2]|[G1 G2]]]; [|discriminate G1]. specialize (H2 a s1 b1). destruct (k a (s1, b1)) as [r [s2 b2]].
    destruct H2 as [L' H2]. split; [lia|]. rewrite G2. destruct H2 as [[H2 H3]|[-> (n & H3 & H4)]].
    + left. split; [|exact H3]. intros n Hn. destruct (le_lt_dec (c_writes b1) n); [apply H2|apply G1]; lia.
    + right. split; [reflexivity|]. exists n. split; [lia|auto].
  - destruct H1 as [L [[G1 G2]|[G1 G2]]]; [|discriminate G1]. split; [auto|]. left. rewrite G2. auto.
  - destruct H1 as [L [[G1 G2]|[_ G2]]]; (split; [auto|]); [left; rewrite G2; auto|right; auto].
Qed.
Lemma tr_ret : forall A (a : A), tracks (ret a) (ret a).
Proof. intros A a s b. simpl. split; [lia|]. left. split; [intros n Hn; lia|auto]. Qed.
Lemma tr_fail : forall A e, @tracks A (fail e) (fail e).
Proof. intros A e s b. simpl. split; [lia|]. left. split; [intros n Hn; lia|auto]. Qed.
Lemma tr_panic : forall A, @tracks A panic panic.
Proof. intros A s b. simpl. split; [lia|]. left. split; [intros n Hn; lia|auto]. Qed.
Lemma tr_ext : forall A (m : VM A) m' m'', (forall s, m' s = m'' s) -> tracks m m' -> tracks m m''.
Proof. intros A m m' m'' H G s b. specialize (G s b). destruct (m (s, b)) as [r [s' b']]. rewrite <- H. exact G. Qed.
Lemma tr_print : forall l, tracks (print io l) (ret tt).
Proof.
  intros l s c. unfold print. destruct (io (c_writes c)) eqn:H; simpl; (split; [lia|]).
  - left. split; [|reflexivity]. intros n Hn. simpl in Hn. assert (n = c_writes c) as -> by lia. exact H.
  - right. split; [reflexivity|]. exists (c_writes c). split; [lia|exact H].
Qed.
Lemma tr_say : forall l, tracks (say io v l) (ret tt).
Proof. intro l. unfold say. destruct v; [apply tr_print|apply tr_ret]. Qed.
Lemma tr_skip : forall A (m : VM unit) (k : VM A) k', tracks m (ret tt) -> tracks k k' -> tracks (bind m (fun _ => k)) k'.
Proof.
  intros A m k k' H1 H2. eapply tr_ext; [|apply tr_bind with (m' := ret tt) (k' := fun _ => k'); [exact H1|intro; exact H2]].
  intro s. reflexivity.
Qed.
Lemma tr_added : forall a i s, tracks (say_added io v a i s) (ret tt).
Proof. intros a i s. unfold say_added. destruct a; [|apply tr_ret]. apply tr_skip; apply tr_say. Qed.
Lemma target_some : forall o, target_reached E o = Some true -> exists t, o_target o = Some t.
Proof. intros o H. unfold target_reached in H. destruct (o_target o) as [t|]; [eauto|discriminate H]. Qed.
Lemma tr_stop : forall A l (ky kn : VM A) ky' kn', tracks ky ky' -> tracks kn kn' ->
  tracks (o <- quietly the_oqnlp ;; stop <- quietly (unwrap (target_reached E o)) ;;
          if (stop : bool) then say_target io v l ;;; ky else kn)
         (o <- the_oqnlp ;; stop <- unwrap (target_reached E o) ;; if (stop : bool) then ky' else kn').
Proof.
  intros A l ky kn ky' kn' Hy Hn s c.
  unfold bind at 1 2, quietly at 1, the_oqnlp, get, ret, bind, quietly. simpl.
  destruct (target_reached E (s_o s)) as [[|]|] eqn:T; simpl.
  - destruct (target_some _ T) as [t Ht]. unfold say_target. destruct v; [|apply Hy].
    unfold bind, quietly, the_oqnlp, get, ret, bind. simpl. rewrite Ht. simpl.
    pose proof (tr_skip A (print io (l t)) ky ky' (tr_print _) Hy s c) as G. unfold bind in G. exact G.
  - apply Hn.
  - split; [lia|]. left. split; [intros n Hx; simpl in Hx; lia|reflexivity].
Qed.
Ltac tr1 :=
  match goal with
  | |- tracks (bind (say _ _ _) _) _ => apply tr_skip; [apply tr_say|]
  | |- tracks (bind (print _ _) _) _ => apply tr_skip; [apply tr_print|]
  | |- tracks (bind (say_added _ _ _ _ _) _) _ => apply tr_skip; [apply tr_added|]
  | |- tracks (bind (quietly the_oqnlp) (fun o => bind (quietly (unwrap (target_reached _ o))) _)) _ => apply tr_stop
  | |- tracks (bind (quietly _) _) (bind _ _) => apply tr_bind; [apply tr_quietly|intro]
  | |- tracks (quietly _) _ => apply tr_quietly
  | |- tracks (ret _) (ret _) => apply tr_ret
  | |- tracks (fail _) (fail _) => apply tr_fail
  | |- tracks panic panic => apply tr_panic
  | |- tracks (say _ _ _) _ => apply tr_say
  | |- tracks (if ?b then _ else _) (if ?b then _ else _) => destruct b
  end.
Ltac tr := repeat tr1.
Lemma tr_process : forall s, tracks (v_process_local_solution E io v s) (process_local_solution E s).
Proof.
  intro s. unfold v_process_local_solution, process_local_solution. apply tr_bind; [apply tr_quietly|intro o]. apply tr_bind; [apply tr_quietly|intro b].
  destruct (negb b); [tr|]. destruct (o_set o) as [[|cur l]|]; [tr| |tr]. cbv zeta. tr. apply tr_bind; [|intro; tr]. tr.
Qed.
Lemma tr_count : forall i u, tracks (v_count_unchanged io v i u) (count_unchanged u).
Proof. intros i u. unfold v_count_unchanged, count_unchanged. apply tr_bind; [apply tr_quietly|intro o]. tr. Qed.
Lemma bind_ret_r : forall A (m : OM unit) (f : unit -> A) s, f tt = f tt -> bind m (fun _ => ret tt) s = m s.
Proof. intros A m f s _. unfold bind, ret. destruct (m s) as [[[]|e|] s']; reflexivity. Qed.
Lemma tr_save : forall b c, tracks (v_save E io v b c) (save_now E c).
Proof.
  intros b c. unfold v_save. eapply tr_ext; [|apply tr_bind with (k' := fun _ => ret tt); [apply tr_quietly|intro]].
  - intro s. apply (bind_ret_r _ _ (fun u => u)). reflexivity.
  - eapply tr_ext; [|apply tr_bind with (k' := fun _ => ret tt); [apply tr_quietly|intro; apply tr_say]]. reflexivity.
Qed.
Lemma tr_maybe_save : tracks (v_maybe_save E io v) (maybe_save_checkpoint E).
Proof.
  unfold v_maybe_save, maybe_save_checkpoint. apply tr_bind; [apply tr_quietly|intro o]. destruct (o_cp o) as [c|]; [|tr].
  destruct (cc_save_frequency c); tr. apply tr_save.
Qed.
Lemma tr_final_save : tracks (v_final_save E io v) (maybe_save_final_checkpoint E).
Proof.
  unfold v_final_save, maybe_save_final_checkpoint. apply tr_bind; [apply tr_quietly|intro o]. destruct (o_cp o) as [c|]; [apply tr_save|tr].
Qed.
Lemma tr_restore : forall cp, tracks (v_restore io v cp) (restore_from_checkpoint cp).
Proof.
  intro cp. unfold v_restore. eapply tr_ext; [|apply tr_bind with (k' := fun _ => ret tt); [apply tr_quietly|intro; apply tr_say]].
  intro s. apply (bind_ret_r _ _ (fun u => u)). reflexivity.
Qed.
Lemma tr_try : tracks (v_try_resume E io v) (try_resume_from_checkpoint E).
Proof.
  unfold v_try_resume, try_resume_from_checkpoint. apply tr_bind; [apply tr_quietly|intro o]. destruct (o_cp o) as [c|]; [|tr]. tr.
  apply tr_bind; [apply tr_restore|intro; tr].
Qed.
Lemma tr_modified : forall np, tracks (v_resume_modified E io v np) (resume_with_modified_params E np).
Proof.
  intro np. unfold v_resume_modified, resume_with_modified_params. apply tr_bind; [apply tr_quietly|intro o].
  destruct (o_cp o) as [c|]; [|tr]. apply tr_bind; [apply tr_quietly|intros [|]]; [|tr].
  apply tr_bind; [apply tr_quietly|intro cp]. cbv zeta. apply tr_bind.
  - destruct (p_population (cp_params cp) <? p_population np).
    + eapply tr_ext; [|apply tr_bind with (k' := fun r => ret r); [apply tr_quietly|intro; tr]].
      intro s. unfold bind, ret. match goal with |- context [expand_reference_set ?x ?y ?z ?w s] => destruct (expand_reference_set x y z w s) as [[r|e|] s'] end; reflexivity.
    + destruct (p_population np <? p_population (cp_params cp)); tr.
  - intro refs. apply tr_bind; [apply tr_restore|intro; tr].
Qed.
Lemma tr_path : forall f np, tracks (v_resume_path E io v f np) (resume_from_checkpoint_with_params E f np).
Proof.
  intros f np. unfold v_resume_path, resume_from_checkpoint_with_params. apply tr_bind; [apply tr_quietly|intro o].
  destruct (o_cp o) as [c|]; [|tr]. tr. eapply tr_ext; [|apply tr_bind with (k' := fun _ => ret tt); [apply tr_restore|intro; apply tr_say]].
  intro s. apply (bind_ret_r _ _ (fun u => u)). reflexivity.
Qed.
Lemma tr_one : forall objs i p u, tracks (v_process_one E io v objs i p u) (process_one_seq E objs i p u).
Proof.
  intros objs i p u. unfold v_process_one, process_one_seq. tr. cbv zeta. tr. apply tr_bind.
  - tr.
    + apply tr_bind; [apply tr_process|intro added]. tr1. tr1.
      eapply tr_ext; [|apply tr_stop with (l := LIterTarget i); [apply tr_ret with (a := (u, true))|apply tr_ret with (a := (u, false))]].
      intro s. unfold bind, the_oqnlp, get, ret, bind. destruct (target_reached E (s_o s)) as [[|]|]; reflexivity.
    + apply tr_bind; [apply tr_count|intro; tr].
  - intros [u' stop]. tr. apply tr_bind; [apply tr_maybe_save|intro; tr].
Qed.
Lemma tr_seq : forall start res objs l u, tracks (v_batch_sequential E io v start res objs l u) (process_batch_sequential E start res objs l u).
Proof.
  intros start res objs. induction l as [|[i p] l IH]; intro u; simpl; [tr|]. destruct (res && (i <? start)); [apply IH|].
  apply tr_bind; [apply tr_one|intros [u' stop]]. destruct stop; [tr|apply IH].
Qed.
Lemma tr_quick : forall i u, tracks (v_quick E io v i u) (process_quick E i u).
Proof.
  intros i u. unfold v_quick, process_quick. tr. apply tr_bind; [apply tr_count|intro u']. tr. apply tr_bind; [apply tr_maybe_save|intro; tr].
Qed.
Lemma tr_quicks : forall l u, tracks (v_quicks E io v l u) (process_quicks E l u).
Proof. induction l as [|[[i p] x] l IH]; intro u; simpl; [tr|]. apply tr_bind; [apply tr_quick|intro; apply IH]. Qed.
Lemma tr_result : forall i x s n u, tracks (v_par_result E io v i x s n u) (process_par_result E i x s n u).
Proof.
  intros i x s n u. unfold v_par_result, process_par_result. tr. apply tr_bind; [apply tr_process|intro added]. tr.
  apply tr_bind; [apply tr_maybe_save|intro; tr].
Qed.
Lemma tr_results : forall l u, tracks (v_par_results E io v l u) (process_par_results E l u).
Proof.
  induction l as [|[[[i p] x] [s n]] l IH]; intro u; simpl; [tr|]. apply tr_bind; [apply tr_result|intro stop]. destruct stop; [tr|apply IH].
Qed.
Lemma tr_single : forall i p x u, tracks (v_single E io v i p x u) (process_single E i p x u).
Proof.
  intros i p x u. unfold v_single, process_single. apply tr_bind; [apply tr_quietly|intro]. apply tr_bind; [apply tr_quietly|intro].
  apply tr_bind; [apply tr_quietly|intro o]. apply tr_bind; [apply tr_quietly|intro]. apply tr_bind; [apply tr_quietly|intro r].
  apply tr_bind; [apply tr_process|intro added]. tr. apply tr_bind; [apply tr_maybe_save|intro; tr].
Qed.
Lemma tr_singles : forall l u, tracks (v_singles E io v l u) (process_singles E l u).
Proof.
  induction l as [|[[i p] x] l IH]; intro u; simpl; [tr|]. apply tr_bind; [apply tr_single|intro stop]. destruct stop; [tr|apply IH].
Qed.
Lemma tr_par : forall start res objs l u, tracks (v_batch_parallel E io v start res objs l u) (process_batch_parallel E start res objs l u).
Proof.
  intros start res objs l u. unfold v_batch_parallel, process_batch_parallel. cbv zeta.
  match goal with |- tracks (if ?b then _ else _) _ => destruct b end; [tr|].
  apply tr_bind; [apply tr_quietly|intro]. apply tr_bind; [apply tr_quietly|intro t]. apply tr_bind; [apply tr_quietly|intro results].
  apply tr_bind; [apply tr_quietly|intro]. apply tr_bind; [apply tr_quietly|intro o].
  match goal with |- context [partition ?f ?x] => destruct (partition f x) as [local quick] end.
  apply tr_bind; [apply tr_quietly|intro]. apply tr_bind; [apply tr_quicks|intro u']. apply tr_bind; [apply tr_quietly|intro o2].
  apply tr_bind; [|intro; tr]. match goal with |- tracks (if ?b then _ else _) _ => destruct b end; [|apply tr_singles].
  apply tr_bind; [apply tr_quietly|intro]. apply tr_bind; [apply tr_quietly|intro rs]. apply tr_results.
Qed.
Lemma tr_loop : forall size start res objs l u, tracks (v_stage2_loop E io v size start res objs l u) (stage2_loop E size start res objs l u).
Proof.
  intros size start res objs. induction l as [|b l IH]; intro u; simpl; [tr|].
  apply tr_bind; [apply tr_quietly|intro o]. apply tr_bind; [apply tr_quietly|intro timeout].
  destruct timeout; [destruct (o_max_time o); tr|]. apply tr_bind; [apply tr_quietly|intro].
  apply tr_bind; [destruct (1 <? size); [apply tr_par|apply tr_seq]|intro u']. apply tr_stop; [tr|apply IH].
Qed.
Lemma tr_stage1 : tracks (v_stage1 E io v) (stage1_run E).
Proof.
  unfold v_stage1, stage1_run. tr1. apply tr_bind; [apply tr_quietly|intro o]. apply tr_bind; [apply tr_quietly|intro t].
  destruct (stage1_init E o t) as [s3|e|]; [|tr|tr]. destruct (ss_run E s3) as [res sf].
  apply tr_bind; [apply tr_quietly|intro]. apply tr_bind; [apply tr_quietly|intro]. destruct res as [[pts cand]|e|]; [|tr|tr].
  cbv zeta. do 6 tr1. tr1. tr1. tr1. tr1. apply tr_bind; [apply tr_process|intro]. tr.
Qed.
Lemma tr_stage2 : forall res refs objs u, tracks (v_stage2 E io v res refs objs u) (stage2_run E res refs objs u).
Proof.
  intros. unfold v_stage2, stage2_run. tr1. apply tr_bind; [apply tr_quietly|intro]. apply tr_bind; [apply tr_quietly|intro o].
  apply tr_bind; [apply tr_quietly|intro l]. cbv zeta. apply tr_bind; [|intro; apply tr_bind; [apply tr_final_save|intro; tr]].
  match goal with |- tracks (if ?b then _ else _) _ => destruct b end; [tr|apply tr_loop].
Qed.
Theorem tr_run : tracks (v_run E io v) (run E).
Proof.
  unfold v_run, run. apply tr_bind; [apply tr_try|intros [|]].
  - apply tr_bind; [apply tr_quietly|intro]. tr1. apply tr_stage2.
  - apply tr_bind; [apply tr_stage1|intros [[refs objs]|]]; [apply tr_stage2|tr].
Qed.
End Erase.

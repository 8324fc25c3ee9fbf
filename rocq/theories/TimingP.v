(** * What the timers show (C82) *)
From Coq Require Import ZArith NArith List Bool Arith Lia String.
From Verif Require Import F64 Base Builders Types Filters Runner Observer Env EnvSpec
  ScatterSearch Codec Checkpoint Oqnlp Timing Spec SpecStage2 SpecObserver SpecTiming SolverP Wp Actions RunP SetP FrameP EmitsP CountP HoareP SeqP SeqP3 AllP CallsP.
Import ListNotations.
Local Open Scope monad_scope.

(** ** Without the timers the run is [run] *)
Definition erases {A} (m : TM A) (m' : OM A) : Prop :=
  forall t, m' (t_st t) = (fst (m t), t_st (snd (m t))).
Lemma er_lift : forall A (m : OM A), erases (lift m) m.
Proof. intros A m t. unfold lift. destruct (m (t_st t)). reflexivity. Qed.
Lemma er_bind : forall A B (m : TM A) m' (k : A -> TM B) k', erases m m' -> (forall a, erases (k a) (k' a)) ->
  erases (bind m k) (bind m' k').
Proof.
  intros A B m m' k k' H1 H2 t. unfold bind. rewrite H1. destruct (m t) as [[a|e|] t1]; simpl; [|reflexivity..]. apply H2.
Qed.
Lemma er_skip : forall A (m : TM unit) (k : TM A) k', erases m (ret tt) -> erases k k' -> erases (bind m (fun _ => k)) k'.
Proof.
  intros A m k k' H1 H2 t. unfold bind. specialize (H1 t). unfold ret in H1. destruct (m t) as [[a|e|] t1]; simpl in *; [|discriminate H1..].
  injection H1 as H1 H1'. rewrite H1'. apply H2.
Qed.
Lemma er_look : forall A (k : oqnlp -> TM A) k', (forall o, erases (k o) k') -> erases (bind (lift the_oqnlp) k) k'.
Proof. intros A k k' H t. destruct t as [s c n]. unfold bind at 1. simpl. apply (H (s_o s) (mk_tst s c n)). Qed.
Lemma er_read : forall clock f, erases (read_clock clock f) (ret tt). Proof. intros clock f t. reflexivity. Qed.
Lemma er_ret : forall A (a : A), erases (ret a) (ret a). Proof. intros A a t. reflexivity. Qed.
Lemma er_fail : forall A e, @erases A (fail e) (fail e). Proof. intros A e t. reflexivity. Qed.
Lemma er_panic : forall A, @erases A panic panic. Proof. intros A t. reflexivity. Qed.
Lemma er_if : forall (b : bool) (m : TM unit), erases m (ret tt) -> erases (if b then m else ret tt) (ret tt).
Proof. intros [] m H; [exact H|apply er_ret]. Qed.

Lemma tbind_ok : forall A B (m : TM A) (k : A -> TM B) t a t1, m t = (Ok a, t1) -> bind m k t = k a t1.
Proof. intros A B m k t a t1 H. unfold bind. rewrite H. reflexivity. Qed.

(** ** What each step does to the timers *)
Section Steps.
Context (E : env) (clock : nat -> instant).
Lemma er_end1 : erases (end_stage1_timed E clock) (end_stage1 E).
Proof.
  unfold end_stage1_timed, end_stage1. apply er_bind; [apply er_lift|intro]. apply er_look. intro o.
  apply er_skip; [apply er_if, er_read|]. apply er_bind; [apply er_lift|intro; apply er_lift].
Qed.
Lemma er_stage1 : erases (stage1_timed E clock) (stage1_run E).
Proof.
  unfold stage1_timed, stage1_run. apply er_bind; [apply er_lift|intro o]. apply er_bind; [apply er_lift|intro t].
  destruct (stage1_init E o t) as [s3|e|]; [|apply er_fail|apply er_panic]. destruct (ss_run E s3) as [res sf].
  apply er_bind; [apply er_lift|intro]. apply er_bind; [apply er_lift|intro]. destruct res as [[pts cand]|e|]; [|apply er_fail|apply er_panic].
  cbv zeta. repeat (apply er_bind; [apply er_lift|intro]).
  match goal with |- erases (if ?b then _ else _) _ => destruct b end.
  - apply er_bind; [apply er_end1|intro; apply er_ret].
  - apply er_bind; [apply er_lift|intro]. apply er_bind; [apply er_end1|intro; apply er_ret].
Qed.
Lemma er_stage2 : forall res refs objs u, erases (stage2_timed E clock res refs objs u) (stage2_run E res refs objs u).
Proof.
  intros. unfold stage2_timed, stage2_run. apply er_look. intro o0. apply er_skip; [apply er_if, er_read|].
  apply er_bind; [apply er_lift|intro]. apply er_bind; [apply er_lift|intro o]. apply er_bind; [apply er_lift|intro l]. cbv zeta.
  apply er_bind; [apply er_lift|intro]. apply er_look. intro o1. apply er_skip; [apply er_if, er_read|].
  apply er_bind; [apply er_lift|intro; apply er_lift].
Qed.
Lemma er_start : erases (start_timers clock) (ret tt).
Proof.
  unfold start_timers. apply er_look. intro o. destruct (o_observer o) as [ob|]; [|apply er_ret].
  apply er_skip; apply er_if, er_read.
Qed.
Lemma er_run : erases (run_timed E clock) (run E).
Proof.
  unfold run_timed, run. apply er_skip; [apply er_start|]. apply er_bind; [apply er_lift|intro res]. apply er_skip; [apply er_read|].
  destruct res.
  - apply er_bind; [apply er_lift|intro; apply er_stage2].
  - apply er_bind; [apply er_stage1|intros [[refs objs]|]]; [apply er_stage2|apply er_lift].
Qed.

(** Stage 2 after its timer was started *)
Definition rest2 (res : bool) (refs : list point) (objs : option (list f64)) (u : nat) (k : OM unit) : TM solset :=
  lift k ;;; o <- lift the_oqnlp ;;
    refs <- lift (if (res : bool) then ret refs
           else
             seed <- unwrap (add_u64 E (p_seed (o_params o)) (N.of_nat (o_iteration o))) ;;
             upd (set_o_seed seed) ;;;
             ret (e_shuffle E (e_seed_from E seed) refs)) ;;
  let start := if res then o_iteration o else 0 in
  let size := batch_size E o start in
  let trials := skipn start (enumerate (firstn (p_iterations (o_params o)) refs)) in
  lift (if size =? 0 then panic
        else stage2_loop E size start res objs (chunks size trials) u) ;;;
  o <- lift the_oqnlp ;;
  (if observes2 o then read_clock clock (fun t c => set_ck_stage2 (timer_end t (ck_stage2 c)) c) else ret tt) ;;;
  lift (maybe_save_final_checkpoint E) ;;;
  lift final_set.
(** a relation between the timers and readings before and after *)
Definition steps (R : clocks * nat -> clocks * nat -> Prop) {A} (m : TM A) : Prop :=
  forall t, R (t_ck t, t_reads t) (t_ck (snd (m t)), t_reads (snd (m t))).
Section Rel.
Context (R : clocks * nat -> clocks * nat -> Prop).
Hypothesis Rrefl : forall x, R x x.
Hypothesis Rtrans : forall x y z, R x y -> R y z -> R x z.
Lemma s_lift : forall A (m : OM A), steps R (lift m).
Proof. intros A m t. unfold lift. destruct (m (t_st t)). apply Rrefl. Qed.
Lemma s_bind : forall A B (m : TM A) (k : A -> TM B), steps R m -> (forall a, steps R (k a)) -> steps R (bind m k).
Proof.
  intros A B m k H1 H2 t. unfold bind. specialize (H1 t). destruct (m t) as [[a|e|] t1]; simpl in *; [|exact H1..].
  eapply Rtrans; [exact H1|apply H2].
Qed.
Lemma s_ret : forall A (a : A), steps R (ret a). Proof. intros A a t. apply Rrefl. Qed.
Lemma s_fail : forall A e, @steps R A (fail e). Proof. intros A e t. apply Rrefl. Qed.
Lemma s_panic : forall A, @steps R A panic. Proof. intros A t. apply Rrefl. Qed.
Lemma s_read : forall f, (forall c n, R (c, n) (f (clock n) c, S n)) -> steps R (read_clock clock f).
Proof. intros f H t. apply H. Qed.
Hypothesis Rend1 : forall c n, R (c, n) (set_ck_stage1 (timer_end (clock n) (ck_stage1 c)) c, S n).
Lemma s_stage1 : steps R (stage1_timed E clock).
Proof.
  assert (X : steps R (end_stage1_timed E clock)).
  { unfold end_stage1_timed. apply s_bind; [apply s_lift|intro]. apply s_bind; [apply s_lift|intro o].
    apply s_bind; [destruct (observes1 o); [apply s_read, Rend1|apply s_ret]|intro]. apply s_bind; [apply s_lift|intro; apply s_lift]. }
  unfold stage1_timed. apply s_bind; [apply s_lift|intro o]. apply s_bind; [apply s_lift|intro t].
  destruct (stage1_init E o t) as [s3|e|]; [|apply s_fail|apply s_panic]. destruct (ss_run E s3) as [res sf].
  apply s_bind; [apply s_lift|intro]. apply s_bind; [apply s_lift|intro]. destruct res as [[pts cand]|e|]; [|apply s_fail|apply s_panic].
  cbv zeta. repeat (apply s_bind; [apply s_lift|intro]).
  match goal with |- steps _ (if ?b then _ else _) => destruct b end.
  - apply s_bind; [exact X|intro; apply s_ret].
  - apply s_bind; [apply s_lift|intro]. apply s_bind; [exact X|intro; apply s_ret].
Qed.
Hypothesis Rend2 : forall c n, R (c, n) (set_ck_stage2 (timer_end (clock n) (ck_stage2 c)) c, S n).
Lemma s_rest2 : forall res refs objs u k, steps R (rest2 res refs objs u k).
Proof.
  intros. unfold rest2. apply s_bind; [apply s_lift|intro]. apply s_bind; [apply s_lift|intro]. apply s_bind; [apply s_lift|intro]. cbv zeta.
  apply s_bind; [apply s_lift|intro]. apply s_bind; [apply s_lift|intro o].
  apply s_bind; [destruct (observes2 o); [apply s_read, Rend2|apply s_ret]|intro]. apply s_bind; [apply s_lift|intro; apply s_lift].
Qed.
Hypothesis Rbegin2 : forall c n, R (c, n) (set_ck_stage2 (timer_begin (clock n) (ck_stage2 c)) c, S n).
Lemma s_stage2 : forall res refs objs u, steps R (stage2_timed E clock res refs objs u).
Proof.
  intros. unfold stage2_timed. apply s_bind; [apply s_lift|intro o].
  apply s_bind; [destruct (observes2 o); [apply s_read, Rbegin2|apply s_ret]|intro]. apply s_rest2.
Qed.
Hypothesis Ropt : forall c n, R (c, n) (match ck_optimizer c with None => set_ck_optimizer (Some (clock n)) c | Some _ => c end, S n).
Lemma s_after : forall res, steps R (start_optimizer clock ;;;
  if (res : bool) then
    o <- lift the_oqnlp ;;
    stage2_timed E clock true (match o_ref o with Some r => r | None => [] end) None (o_unchanged o)
  else
    r <- stage1_timed E clock ;;
    match r with
    | None => lift final_set
    | Some (refs, objs) => stage2_timed E clock false refs (Some objs) 0
    end).
Proof.
  intro res. apply s_bind; [apply s_read, Ropt|intro]. destruct res.
  - apply s_bind; [apply s_lift|intro; apply s_stage2].
  - apply s_bind; [apply s_stage1|intros [[refs objs]|]]; [apply s_stage2|apply s_lift].
Qed.
End Rel.

Lemma end_reads : forall now t, reads_as t (timer_end now t).
Proof. intros now t n. unfold timer_end, total_time. destruct (tm_start t) eqn:H; simpl; rewrite ?H; reflexivity. Qed.
Lemma ra_refl : forall t, reads_as t t. Proof. intros t n. reflexivity. Qed.
Lemma ra_trans : forall a b c, reads_as a b -> reads_as b c -> reads_as a c.
Proof. intros a b c H1 H2 n. rewrite H2. apply H1. Qed.
(** from the start of the timers on, the timer of the run and that of Stage 1 show the same *)
Definition R1 (x y : clocks * nat) : Prop :=
  snd x <= snd y /\ ck_run (fst y) = ck_run (fst x) /\ reads_as (ck_stage1 (fst x)) (ck_stage1 (fst y)).
Lemma R1_refl : forall x, R1 x x. Proof. intro x. split; [lia|]. split; [reflexivity|apply ra_refl]. Qed.
Lemma R1_trans : forall x y z, R1 x y -> R1 y z -> R1 x z.
Proof.
  intros x y z (A1 & A2 & A3) (B1 & B2 & B3). split; [lia|]. split; [congruence|]. eapply ra_trans; eauto.
Qed.
Lemma run_split : forall t, exists r1 t1 t2, start_timers clock t = (Ok tt, t1) /\ t_st t1 = t_st t /\
  lift (try_resume_from_checkpoint E) t1 = (r1, t2) /\ t_ck t2 = t_ck t1 /\ t_reads t2 = t_reads t1 /\
  try_resume_from_checkpoint E (t_st t) = (r1, t_st t2).
Proof.
  intro t. pose proof (er_start t) as H. destruct (start_timers clock t) as [r t1]. unfold ret in H. simpl in H. injection H as <- H.
  assert (X : try_resume_from_checkpoint E (t_st t1) = try_resume_from_checkpoint E (t_st t)) by (rewrite H; reflexivity).
  destruct (try_resume_from_checkpoint E (t_st t)) as [r1 s2].
  exists r1, t1, (mk_tst s2 (t_ck t1) (t_reads t1)). split; [reflexivity|]. split; [auto|]. unfold lift. rewrite X. auto.
Qed.
Lemma rest_R1 : forall t t1, start_timers clock t = (Ok tt, t1) ->
  R1 (t_ck t1, t_reads t1) (t_ck (snd (run_timed E clock t)), t_reads (snd (run_timed E clock t))).
Proof.
  intros t t1 H. unfold run_timed. rewrite (tbind_ok _ _ _ _ _ _ _ H).
  apply (s_bind R1 R1_trans _ _ _ _ (s_lift R1 R1_refl _ _)). intro res. apply s_after.
  - apply R1_refl.
  - apply R1_trans.
  - intros c n. split; [simpl; lia|]. split; [reflexivity|apply end_reads].
  - intros c n. split; [simpl; lia|]. split; [reflexivity|apply ra_refl].
  - intros c n. split; [simpl; lia|]. split; [reflexivity|apply ra_refl].
  - intros c n. destruct (ck_optimizer c); (split; [simpl; lia|]; split; [reflexivity|apply ra_refl]).
Qed.
Lemma start_cases : forall t t1, start_timers clock t = (Ok tt, t1) ->
  ck_run (t_ck t1) = (if timing (s_o (t_st t)) then Some (clock (t_reads t)) else ck_run (t_ck t)) /\
  (if observes1 (s_o (t_st t))
   then let a := t_reads t + (if timing (s_o (t_st t)) then 1 else 0) in
        t_reads t1 = S a /\ reads_since clock a (ck_stage1 (t_ck t1))
   else t_reads t <= t_reads t1 /\ ck_stage1 (t_ck t1) = ck_stage1 (t_ck t)) /\
  ck_stage2 (t_ck t1) = ck_stage2 (t_ck t) /\ t_reads t <= t_reads t1.
Proof.
  intros t t1 H. destruct t as [s c n]. unfold start_timers in H.
  rewrite (tbind_ok _ _ (lift the_oqnlp) _ (mk_tst s c n) (s_o s) (mk_tst s c n) eq_refl) in H. simpl in *. unfold timing, observes1 in *.
  destruct (o_observer (s_o s)) as [ob|]; [|injection H as <-; simpl; auto].
  destruct (ob_timing ob), (should_observe_stage1 ob); unfold bind, read_clock, modify, ret in H; simpl in H; injection H as <-; simpl;
    (split; [reflexivity|]); (split; [|split; [reflexivity|lia]]); try (split; [lia|reflexivity]).
  - split; [lia|]. intro now. replace (n + 1) with (S n) by lia. reflexivity.
  - split; [lia|]. intro now. rewrite Nat.add_0_r. reflexivity.
Qed.
Lemma c82_run_time : forall t now, elapsed_time now (t_ck (snd (run_timed E clock t))) =
  if timing (s_o (t_st t)) then Some (elapsed now (clock (t_reads t))) else elapsed_time now (t_ck t).
Proof.
  intros t now. destruct (run_split t) as (r1 & t1 & t2 & H & _). destruct (start_cases _ _ H) as (S1 & _).
  destruct (rest_R1 _ _ H) as (_ & R & _). simpl in R. unfold elapsed_time. rewrite R, S1. destruct (timing _); reflexivity.
Qed.
Lemma c82_stage1 : forall t, let t' := snd (run_timed E clock t) in
  if observes1 (s_o (t_st t))
  then let a := t_reads t + (if timing (s_o (t_st t)) then 1 else 0) in a < t_reads t' /\ reads_since clock a (ck_stage1 (t_ck t'))
  else reads_as (ck_stage1 (t_ck t)) (ck_stage1 (t_ck t')).
Proof.
  intros t t'. destruct (run_split t) as (r1 & t1 & t2 & H & _). destruct (start_cases _ _ H) as (_ & S1 & _).
  destruct (rest_R1 _ _ H) as (R1' & _ & R). simpl in *. fold t' in R, R1'. destruct (observes1 _).
  - destruct S1 as [S1 S2]. split; [lia|]. intro now. rewrite R. apply S2.
  - destruct S1 as [_ <-]. exact R.
Qed.

(** ** Stage 2 *)
Definition R2 (x y : clocks * nat) : Prop :=
  snd x <= snd y /\ reads_as (ck_stage2 (fst x)) (ck_stage2 (fst y)).
Lemma R2_refl : forall x, R2 x x. Proof. intro x. split; [lia|]. apply ra_refl. Qed.
Lemma R2_trans : forall x y z, R2 x y -> R2 y z -> R2 x z.
Proof. intros x y z (A1 & A3) (B1 & B3). split; [lia|]. eapply ra_trans; eauto. Qed.
Lemma R2_end : forall c n, R2 (c, n) (set_ck_stage2 (timer_end (clock n) (ck_stage2 c)) c, S n).
Proof. intros c n. split; [simpl; lia|apply end_reads]. Qed.
Lemma stage2_timer : forall res refs objs u t, let t' := snd (stage2_timed E clock res refs objs u t) in
  if observes2 (s_o (t_st t))
  then t_reads t < t_reads t' /\ reads_since clock (t_reads t) (ck_stage2 (t_ck t'))
  else t_reads t <= t_reads t' /\ reads_as (ck_stage2 (t_ck t)) (ck_stage2 (t_ck t')).
Proof.
  intros res refs objs u t. cbv zeta. destruct t as [s c n].
  change (stage2_timed E clock res refs objs u (mk_tst s c n)) with
    (bind (if observes2 (s_o s) then read_clock clock (fun t c => set_ck_stage2 (timer_begin t (ck_stage2 c)) c) else ret tt)
       (fun _ => rest2 res refs objs u begin_stage2) (mk_tst s c n)).
  pose proof (s_rest2 R2 R2_refl R2_trans R2_end res refs objs u begin_stage2) as X. cbn [t_st t_ck t_reads].
  generalize dependent (rest2 res refs objs u begin_stage2). intros rest X.
  destruct (observes2 (s_o s)); unfold bind, read_clock, modify, ret; cbn [t_st t_ck t_reads].
  - destruct (X (mk_tst s (set_ck_stage2 (timer_begin (clock n) (ck_stage2 c)) c) (S n))) as [A B]. simpl in A, B. split; [lia|].
    intro now. rewrite B. reflexivity.
  - destruct (X (mk_tst s c n)) as [A B]. split; [exact A|exact B].
Qed.
Hypothesis Hcb : callbacks_keep_stage2 E.
Lemma o2_tally : forall a b, tally a = tally b -> observes2 a = observes2 b.
Proof.
  clear Hcb. intros a b H. unfold tally, observes2, should_observe_stage2 in *. destruct (o_observer a) as [x|], (o_observer b) as [y|]; try discriminate H; auto.
  unfold g2 in H. simpl in H. injection H as -> H. destruct (ob_stage2 x), (ob_stage2 y); try discriminate H; reflexivity.
Qed.
Lemma t_resume : keeps tally (try_resume_from_checkpoint E).
Proof. clear Hcb. unfold try_resume_from_checkpoint, restore_from_checkpoint. kp. Qed.
Lemma no_batch_resume : emits (fun e => False) (try_resume_from_checkpoint E).
Proof. clear Hcb. unfold try_resume_from_checkpoint, restore_from_checkpoint. em. Qed.
Lemma c82_stage2 : forall t new, let t' := snd (run_timed E clock t) in
  w_trace (s_w (t_st t')) = new ++ w_trace (s_w (t_st t)) ->
  (In EvBatch new -> observes2 (s_o (t_st t)) = true ->
   exists a, t_reads t <= a < t_reads t' /\ reads_since clock a (ck_stage2 (t_ck t'))) /\
  (observes2 (s_o (t_st t)) = false -> reads_as (ck_stage2 (t_ck t)) (ck_stage2 (t_ck t'))).
Proof.
  intros t new t' Hn. destruct (run_split t) as (r1 & t1 & t2 & H1 & H2 & H3 & H4 & H5 & H6).
  destruct (start_cases _ _ H1) as (_ & _ & S2 & S3).
  pose proof (t_resume (t_st t)) as K1. destruct (no_batch_resume (t_st t)) as (n1 & T1 & N1). rewrite H6 in K1, T1. simpl in K1, T1.
  assert (n1 = []) as -> by (destruct n1; [reflexivity|inversion N1; tauto]). clear N1. simpl in T1.
  assert (Nil : forall r, w_trace (s_w (t_st t2)) = w_trace (s_w (t_st t)) -> r = w_trace (s_w (t_st t2)) -> r = new ++ w_trace (s_w (t_st t)) -> new = []).
  { intros r X1 X2 X3. rewrite X2, X1 in X3. apply (f_equal (@List.length _)) in X3. rewrite app_length in X3. destruct new; [reflexivity|simpl in X3; lia]. }
  unfold t' in *. clear t'. unfold run_timed in Hn |- *. rewrite (tbind_ok _ _ _ _ _ _ _ H1) in Hn |- *.
  destruct r1 as [res|e|]; [|unfold bind in Hn |- *; rewrite H3 in Hn |- *; simpl in *;
    (split; [intro Hb; rewrite (Nil _ T1 eq_refl Hn) in Hb; destruct Hb|]); intros _; rewrite H4, S2; apply ra_refl..].
  rewrite (tbind_ok _ _ _ _ _ _ _ H3) in Hn |- *.
  set (t3 := mk_tst (t_st t2) (match ck_optimizer (t_ck t2) with None => set_ck_optimizer (Some (clock (t_reads t2))) (t_ck t2) | Some _ => t_ck t2 end) (S (t_reads t2))).
  assert (X3 : start_optimizer clock t2 = (Ok tt, t3)) by reflexivity.
  assert (C3 : ck_stage2 (t_ck t3) = ck_stage2 (t_ck t)) by (unfold t3; simpl; destruct (ck_optimizer (t_ck t2)); simpl; congruence).
  assert (L3 : t_reads t <= t_reads t3) by (unfold t3; simpl; lia). assert (G3 : t_st t3 = t_st t2) by reflexivity. clearbody t3.
  rewrite (tbind_ok _ _ _ _ _ _ _ X3) in Hn |- *. destruct res.
  - rewrite (tbind_ok _ _ (lift the_oqnlp) _ t3 (s_o (t_st t3)) t3) in Hn |- * by (destruct t3; reflexivity).
    match type of Hn with context [stage2_timed ?a ?b ?c ?d ?e ?f ?g] => pose proof (stage2_timer c d e f g) as X end. cbv zeta in X.
    assert (O3 : observes2 (s_o (t_st t3)) = observes2 (s_o (t_st t))) by (rewrite G3; exact (o2_tally _ _ K1)). rewrite O3 in X. split.
    + intros _ O. rewrite O in X. destruct X as [X1 X2]. exists (t_reads t3). split; [lia|exact X2].
    + intro O. rewrite O in X. destruct X as [_ X2]. rewrite <- C3. exact X2.
  - pose proof (er_stage1 t3) as X. pose proof (t_stage1 E Hcb (t_st t3)) as K2. destruct (em_stage1 E (t_st t3)) as (n2 & T2 & N2).
    pose proof (s_stage1 R2 R2_refl R2_trans (fun c n => conj (le_S _ _ (le_n n)) (ra_refl (ck_stage2 c))) t3) as [L4 C4]. simpl in L4, C4.
    rewrite X in K2, T2. clear X. unfold bind in Hn |- *. destruct (stage1_timed E clock t3) as [r4 t4]. simpl in *.
    assert (Early : w_trace (s_w (t_st t4)) = new ++ w_trace (s_w (t_st t)) -> ~ In EvBatch new).
    { intros Y Hb. unfold trace in T2, T1. rewrite T2, G3, T1 in Y. apply app_inv_tail in Y. subst n2. rewrite Forall_forall in N2. exact (N2 _ Hb). }
    assert (Same : reads_as (ck_stage2 (t_ck t)) (ck_stage2 (t_ck t4))) by (rewrite <- C3; exact C4).
    assert (O4 : observes2 (s_o (t_st t4)) = observes2 (s_o (t_st t))) by (rewrite (o2_tally _ _ K2), G3; exact (o2_tally _ _ K1)).
    destruct r4 as [[[refs objs]|]|e|]; simpl in *; [|(split; [intros Hb; exfalso|auto])..].
    + pose proof (stage2_timer false refs (Some objs) 0 t4) as X. cbv zeta in X. rewrite O4 in X. split.
      * intros _ O. rewrite O in X. destruct X as [X1 X2]. exists (t_reads t4). split; [lia|exact X2].
      * intro O. rewrite O in X. destruct X as [_ X2]. eapply ra_trans; eauto.
    + revert Hn. unfold lift. assert (Y : t_st t4 = snd (final_set (t_st t4))).
      { unfold final_set, bind, the_oqnlp, get, ret, bind. simpl. destruct (o_set (s_o (t_st t4))); reflexivity. }
      destruct (final_set (t_st t4)) as [r5 s5]. simpl in *. subst s5. intro Hn. exact (Early Hn Hb).
    + revert Hn. unfold lift. destruct (final_set (t_st t4)) as [r5 s5]. simpl. intros _ O. exact Same.
    + exact (Early Hn Hb).
    + exact (Early Hn Hb).
Qed.
End Steps.

(** * The elapsed times stored in checkpoints (C83) *)
From Coq Require Import ZArith NArith List Bool Arith Lia String Sorted.
From Verif Require Import F64 Base Builders Types Filters Runner Observer Env EnvSpec
  ScatterSearch Codec Checkpoint Oqnlp Timing SpecTiming Wp Actions RunP EmitsP.
Import ListNotations.

(** the saves of a record (latest first) read the clock at readings from [lo] on and before [hi],
    one after the other *)
Fixpoint in_turn (E : env) (lo hi : nat) (l : list event) : Prop :=
  match l with
  | [] => lo <= hi
  | EvSave _ c :: r => exists t, lo <= t < hi /\ cp_elapsed c = e_clock E t /\ in_turn E lo t r
  | _ :: r => in_turn E lo hi r
  end.
Lemma it_le : forall E l lo hi, in_turn E lo hi l -> lo <= hi.
Proof. intros E l. induction l as [|e l IH]; intros lo hi H; [exact H|]. destruct e; simpl in H; eauto. destruct H as (t & H & _). lia. Qed.
Lemma it_more : forall E l lo hi hi', in_turn E lo hi l -> hi <= hi' -> in_turn E lo hi' l.
Proof.
  intros E l. induction l as [|e l IH]; intros lo hi hi' H G; [simpl in *; lia|]. destruct e; simpl in *; eauto.
  destruct H as (t & H1 & H2 & H3). exists t. split; [lia|auto].
Qed.
Lemma it_app : forall E l2 l1 lo mid hi, in_turn E lo mid l1 -> in_turn E mid hi l2 -> in_turn E lo hi (l2 ++ l1).
Proof.
  intros E l2. induction l2 as [|e l2 IH]; intros l1 lo mid hi H1 H2; [exact (it_more _ _ _ _ _ H1 H2)|].
  pose proof (it_le _ _ _ _ H1). destruct e; simpl in *; eauto.
  destruct H2 as (t & G1 & G2 & G3). exists t. split; [lia|]. split; [exact G2|]. eauto.
Qed.
Definition no_save (e : event) : Prop := match e with EvSave _ _ => False | _ => True end.
Lemma it_none : forall E l n, Forall no_save l -> in_turn E n n l.
Proof. intros E l n H. induction H as [|e l He H IH]; [simpl; auto|]. destruct e; simpl in *; auto. destruct He. Qed.

Definition ticks (s : st) : nat := w_tick (s_w s).
Section Saves.
Context (E : env).
Definition sv {A} (m : OM A) : Prop :=
  forall s, exists new, trace (snd (m s)) = new ++ trace s /\ in_turn E (ticks s) (ticks (snd (m s))) new.
Lemma v_bind : forall A B (m : OM A) (k : A -> OM B), sv m -> (forall x, sv (k x)) -> sv (bind m k).
Proof.
  intros A B m k H1 H2 s. unfold bind. destruct (H1 s) as (n1 & T1 & L1).
  destruct (m s) as [[x|e|] s1] eqn:Em; simpl in *; [|exists n1; auto..].
  destruct (H2 x s1) as (n2 & T2 & L2). exists (n2 ++ n1). rewrite T2, T1, app_assoc. split; auto. eapply it_app; eauto.
Qed.
Lemma v_quiet : forall A (m : OM A), (forall s, trace (snd (m s)) = trace s) -> (forall s, ticks s <= ticks (snd (m s))) -> sv m.
Proof. intros A m H1 H2 s. exists []. split; [apply H1|apply H2]. Qed.
Lemma v_ret : forall A (a : A), sv (ret a). Proof. intros. apply v_quiet; intro; simpl; auto. Qed.
Lemma v_fail : forall A e, @sv A (fail e). Proof. intros. apply v_quiet; intro; simpl; auto. Qed.
Lemma v_panic : forall A, @sv A panic. Proof. intros. apply v_quiet; intro; simpl; auto. Qed.
Lemma v_oqnlp : sv the_oqnlp. Proof. apply v_quiet; intro; simpl; auto. Qed.
Lemma v_upd : forall f, sv (upd f). Proof. intros. apply v_quiet; intro; simpl; auto. Qed.
Lemma v_tick : sv tick. Proof. apply v_quiet; intro; unfold ticks; simpl; auto. Qed.
Lemma v_on_disk : forall A (m : DM A), sv (on_disk m).
Proof. intros. apply v_quiet; intro s; rewrite on_disk_state; unfold ticks; simpl; auto. Qed.
Lemma v_unwrap : forall A (o : option A), sv (unwrap o). Proof. intros A []; [apply v_ret|apply v_panic]. Qed.
Lemma v_of_result : forall A r, @sv A (of_result r). Proof. intros. apply v_quiet; intro; simpl; auto. Qed.
Lemma v_of_solver : forall A r, @sv A (of_solver r). Proof. intros A [a|e|]; [apply v_ret|apply v_fail|apply v_panic]. Qed.
Lemma v_emit : forall l, Forall no_save l -> sv (emit l).
Proof. intros l H s. exists (rev l). split; [reflexivity|]. apply it_none. apply Forall_rev; auto. Qed.
Lemma v_emit_map : forall A (f : A -> event) l, (forall x, no_save (f x)) -> sv (emit (map f l)).
Proof. intros A f l H. apply v_emit. apply Forall_forall. intros x Hx. apply in_map_iff in Hx as (y & <- & _). auto. Qed.
Lemma v_save_now : forall c, sv (save_now E c).
Proof.
  intros c s. unfold save_now, create_checkpoint.
  unfold bind, tick, the_oqnlp, get, ret, bind. simpl.
  match goal with |- context [on_disk ?m ?x] => set (s1 := x); pose proof (on_disk_state _ m s1) as H; destruct (on_disk m s1) as [r s2] eqn:G end.
  simpl in H. assert (X : trace s2 = trace s1 /\ ticks s2 = ticks s1) by (rewrite H; split; reflexivity). destruct X as [X1 X2].
  assert (Y : snd (match r with Ok _ => (Ok tt, s2) | Err e => (Err e, s2) | Panic => (Panic, s2) end) = s2) by (destruct r; reflexivity).
  rewrite Y, X1, X2. eexists [_]. split; [reflexivity|]. simpl. exists (w_tick (s_w s)). unfold ticks. simpl. split; [lia|]. split; [reflexivity|lia].
Qed.
Ltac v1 :=
  match goal with
  | |- sv (bind _ _) => apply v_bind; [|intro]
  | |- sv (ret _) => apply v_ret
  | |- sv (fail _) => apply v_fail
  | |- sv panic => apply v_panic
  | |- sv the_oqnlp => apply v_oqnlp
  | |- sv (upd _) => apply v_upd
  | |- sv (obs _) => apply v_upd
  | |- sv (emit (map _ _)) => apply v_emit_map; intro; exact I
  | |- sv (emit _) => apply v_emit; repeat (apply Forall_cons; [exact I|]); try apply Forall_nil
  | |- sv tick => apply v_tick
  | |- sv (on_disk _) => apply v_on_disk
  | |- sv (unwrap _) => apply v_unwrap
  | |- sv (of_result _) => apply v_of_result
  | |- sv (of_solver _) => apply v_of_solver
  | |- sv (save_now _ _) => apply v_save_now
  | |- sv (let '(_, _) := ?x in _) => destruct x
  | |- sv (if ?b then _ else _) => destruct b
  | |- sv (match ?x with _ => _ end) => destruct x
  end.
Ltac v := repeat v1.
Lemma v_callback : forall i, sv (callback E i).
Proof.
  intro i. unfold callback. v. apply Forall_forall. intros ev Hx. apply in_map_iff in Hx as (y & <- & _). exact I.
Qed.
Lemma v_callback_at : forall i, sv (callback_at E i). Proof. intro. unfold callback_at. v. apply v_callback. Qed.
Lemma v_maybe : sv (maybe_save_checkpoint E). Proof. unfold maybe_save_checkpoint. v. Qed.
Lemma v_final : sv (maybe_save_final_checkpoint E). Proof. unfold maybe_save_final_checkpoint. v. Qed.
Lemma v_pls : forall x, sv (process_local_solution E x).
Proof. intro. unfold process_local_solution, set_solutions, set_threshold, add_to_filter. v. Qed.
Ltac w := repeat first [ apply v_callback | apply v_callback_at | apply v_maybe | apply v_pls
  | progress unfold begin_iteration, obs_iteration, emit_eval, set_threshold, obs_search, count_unchanged, adjust_threshold | v1 ].
Lemma v_one : forall objs i p u, sv (process_one_seq E objs i p u). Proof. intros. unfold process_one_seq. w. Qed.
Lemma v_seq : forall start res objs b u, sv (process_batch_sequential E start res objs b u).
Proof.
  intros start res objs b. induction b as [|[i p] b IH]; intro u; [apply v_ret|]. simpl. destruct (res && (i <? start)); [apply IH|].
  apply v_bind; [apply v_one|intros [u' []]]; [apply v_ret|apply IH].
Qed.
Lemma v_quicks : forall l u, sv (process_quicks E l u).
Proof. induction l as [|[[i p] v] l IH]; intro u; simpl; [apply v_ret|]. apply v_bind; [unfold process_quick; w|intro; apply IH]. Qed.
Lemma v_results : forall l u, sv (process_par_results E l u).
Proof.
  induction l as [|[[[i p] v] [x n]] l IH]; intro u; simpl; [apply v_ret|].
  apply v_bind; [unfold process_par_result; w|intros []]; [apply v_ret|apply IH].
Qed.
Lemma v_singles : forall l u, sv (process_singles E l u).
Proof.
  induction l as [|[[i p] v] l IH]; intro u; simpl; [apply v_ret|].
  apply v_bind; [unfold process_single; w|intros []]; [apply v_ret|apply IH].
Qed.
Lemma v_par : forall start res objs b u, sv (process_batch_parallel E start res objs b u).
Proof.
  intros. unfold process_batch_parallel. cbv zeta. set (fb := if res then _ else _).
  destruct (match fb with [] => true | _ => false end); [apply v_ret|]. apply v_bind; [w|intro]. apply v_bind; [w|intro].
  apply v_bind; [w|intro]. apply v_bind; [w|intro]. apply v_bind; [w|intro]. destruct (partition _ _) as [local quick].
  apply v_bind; [w|intro]. apply v_bind; [apply v_quicks|intro]. apply v_bind; [w|intro].
  apply v_bind; [|intro; apply v_ret]. destruct (_ && _); [|apply v_singles]. apply v_bind; [w|intro]. apply v_bind; [w|intro]. apply v_results.
Qed.
Lemma v_loop : forall size start res objs bs u, sv (stage2_loop E size start res objs bs u).
Proof.
  intros size start res objs bs. induction bs as [|b bs IH]; intro u; simpl; [apply v_ret|].
  apply v_bind; [w|intro o]. apply v_bind; [w|intros []]; [apply v_ret|]. apply v_bind; [w|intro].
  apply v_bind; [destruct (1 <? size); [apply v_par|apply v_seq]|intro]. apply v_bind; [w|intro]. apply v_bind; [w|intros []]; [apply v_ret|apply IH].
Qed.
Lemma v_end1 : sv (end_stage1 E). Proof. unfold end_stage1, stage1_enter. w. Qed.
Lemma v_stage1 : sv (stage1_run E).
Proof.
  unfold stage1_run, stage1_enter. apply v_bind; [w|intro]. apply v_bind; [w|intro]. destruct (stage1_init E _ _); [|w..].
  destruct (ss_run E _) as [res sf]. apply v_bind; [w|intro]. apply v_bind; [w|intro]. destruct res as [[pts cand]|e|]; [|w..]. cbv zeta.
  repeat (apply v_bind; [w|intro]). match goal with |- sv (if ?b then _ else _) => destruct b end.
  - apply v_bind; [apply v_end1|intro; w].
  - apply v_bind; [w|intro]. apply v_bind; [apply v_end1|intro; w].
Qed.
Lemma v_stage2 : forall res refs objs u, sv (stage2_run E res refs objs u).
Proof.
  intros. unfold stage2_run, begin_stage2. apply v_bind; [w|intro]. apply v_bind; [w|intro]. apply v_bind; [w|intro]. cbv zeta.
  apply v_bind; [destruct (_ =? 0); [w|apply v_loop]|intro]. apply v_bind; [apply v_final|intro]. unfold final_set. w.
Qed.
Lemma v_run : sv (run E).
Proof.
  unfold run, try_resume_from_checkpoint, restore_from_checkpoint. apply v_bind; [w|intros []].
  - apply v_bind; [w|intro; apply v_stage2].
  - apply v_bind; [apply v_stage1|intros [[refs objs]|]]; [apply v_stage2|unfold final_set; w].
Qed.
(** a run saves the times of successive clock readings *)
Lemma it_times : forall l lo hi, in_turn E lo hi l -> exists ks, elapsed_times l = map (e_clock E) ks /\
  StronglySorted (fun a b => b < a) ks /\ Forall (fun k => lo <= k < hi) ks.
Proof.
  induction l as [|e l IH]; intros lo hi H; [exists []; repeat constructor|].
  destruct e; simpl in H; try (destruct (IH _ _ H) as (ks & K); exists ks; exact K).
  destruct H as (t & H1 & H2 & H3). destruct (IH _ _ H3) as (ks & K1 & K2 & K3). exists (t :: ks). simpl. rewrite H2, K1.
  split; [reflexivity|]. rewrite Forall_forall in K3. split; constructor; auto.
  - apply Forall_forall. intros k Hk. destruct (K3 _ Hk). auto.
  - apply Forall_forall. intros k Hk. specialize (K3 _ Hk). lia.
Qed.
End Saves.
Lemma c83_readings : forall E s, exists new ks, w_trace (s_w (snd (run E s))) = new ++ w_trace (s_w s) /\
  elapsed_times new = map (e_clock E) ks /\ StronglySorted (fun a b => b < a) ks /\
  Forall (fun k => w_tick (s_w s) <= k < w_tick (s_w (snd (run E s)))) ks.
Proof.
  intros E s. destruct (v_run E s) as (new & T & I). destruct (it_times E _ _ _ I) as (ks & K). exists new, ks. auto.
Qed.
Lemma c83_run : forall E s new, w_trace (s_w (snd (run E s))) = new ++ w_trace (s_w s) -> never_back (e_clock E) ->
  StronglySorted (fun later earlier => fle earlier later = true) (elapsed_times new).
Proof.
  intros E s new Hn Hc. destruct (c83_readings E s) as (new' & ks & T & K1 & K2 & _). rewrite T in Hn. apply app_inv_tail in Hn. subst new'.
  rewrite K1. clear - K2 Hc. induction K2 as [|k ks K2 IH F]; simpl; constructor; auto.
  rewrite Forall_forall in F |- *. intros x Hx. apply in_map_iff in Hx as (j & <- & Hj). apply Hc. specialize (F _ Hj). lia.
Qed.

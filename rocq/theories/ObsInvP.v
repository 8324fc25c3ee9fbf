(** * Invariants of the observer of a run

    What every update and callback of an observer preserves holds of the observer at every callback
    of a run and at its end, whatever the outcome. *)
From Coq Require Import ZArith NArith List Bool Arith Lia String.
From Verif Require Import F64 Base Builders Types Filters Runner Observer Env
  ScatterSearch Codec Checkpoint Oqnlp Spec.
Import ListNotations.
Local Open Scope monad_scope.

(** events that are neither callbacks nor printed lines *)
Definition no_call (e : event) : Prop :=
  match e with EvCallback _ _ | EvPrint _ | EvStage1 (SsCallback _) | EvStage1 (SsPrint _) => False | _ => True end.
(** the observer, if there is one, has the property; [N] is what may be assumed when there is none *)
Definition has (I : observer -> Prop) (N : Prop) (ob : option observer) : Prop := match ob with Some o => I o | None => N end.

Section Scatter.
Context (E : env) (I : observer -> Prop) (Pe : event -> Prop) (N : Prop).
Context (H1 : forall f ob, I ob -> I (upd_stage1 f ob)) (H2 : forall f ob, I ob -> I (upd_stage2 f ob))
  (H3 : forall f ob, I ob -> I (upd_stage2_any f ob)) (H4 : forall ob, I ob -> I (mark_stage1_complete ob))
  (H5 : forall ob, I ob -> I (mark_stage2_started ob))
  (H6 : forall ob, I ob -> ob_callback ob <> None -> I (fst (invoke_callback (e_callback E) ob)))
  (P0 : forall e, no_call e -> Pe e)
  (P1 : forall i ob, I ob -> ob_callback ob <> None -> Pe (EvCallback i ob))
  (P2 : forall ob m, I ob -> In m (snd (invoke_callback (e_callback E) ob)) -> Pe (EvPrint m))
  (P3 : forall ob, I ob -> ob_callback ob <> None -> Pe (EvStage1 (SsCallback ob)))
  (P4 : forall ob m, I ob -> In m (snd (invoke_callback (e_callback E) ob)) -> Pe (EvStage1 (SsPrint m))).
(** ** The scatter search *)
Definition K (s : ss) : Prop := has I N (ss_observer s) /\ Forall Pe (map EvStage1 (ss_log s)).
Definition sv {A} (m : M ss ss_error A) : Prop := forall s, K s -> K (snd (m s)).
Lemma sv_bind : forall A B (m : M ss ss_error A) (k : A -> M ss ss_error B), sv m -> (forall a, sv (k a)) -> sv (bind m k).
Proof. clear. intros A B m k Hm Hk s Hs. unfold bind. specialize (Hm s Hs). destruct (m s) as [[a|e|] s']; simpl in *; auto. apply Hk, Hm. Qed.
Lemma sv_ret : forall A (a : A), sv (ret a). Proof. intros A a s H. exact H. Qed.
Lemma sv_fail : forall A e, @sv A (fail e). Proof. intros A a s H. exact H. Qed.
Lemma sv_unwrap : forall A (o : option A), sv (unwrap o). Proof. intros A [a|] s H; exact H. Qed.
Lemma sv_result : forall A (o : outcome ss_error A), sv (of_result o). Proof. intros A o s H; exact H. Qed.
Lemma sv_get : sv get. Proof. intros s H. exact H. Qed.
Lemma sv_rng : forall r, sv (modify (ss_with_rng r)). Proof. intros r s H. exact H. Qed.
Lemma sv_ref : forall a b, sv (modify (ss_with_ref a b)). Proof. intros a b s H. exact H. Qed.
Definition quiet_ss (e : ss_event) : Prop := match e with SsSample _ | SsEval _ => True | _ => False end.
Lemma sv_emit : forall A (f : A -> ss_event) l, (forall a, quiet_ss (f a)) -> sv (modify (ss_emit (map f l))).
Proof.
  intros A f l H s [Ha Hb]. split; [exact Ha|]. simpl. rewrite map_app. apply Forall_app. split; [|exact Hb].
  apply Forall_forall. intros e He. apply in_map_iff in He as (x & <- & Hx). apply in_rev in Hx. apply in_map_iff in Hx as (a & <- & _).
  apply P0. specialize (H a). destruct (f a); simpl in *; auto.
Qed.
Lemma sv_obs : forall f, (forall ob, I ob -> I (f ob)) -> sv (ss_obs f).
Proof.
  intros f H s [Ha Hb]. split; [|exact Hb]. simpl. destruct (ss_observer s) as [o|]; [apply H, Ha|exact Ha].
Qed.
Lemma sv_callback : sv (ss_callback E).
Proof.
  intros s HJ. pose proof HJ as [Ha Hb]. unfold ss_callback, bind, get. simpl.
  destruct (ss_observer s) as [ob|] eqn:Ho; [|exact HJ]. destruct (ob_callback ob) as [cb|] eqn:Hc; [|exact HJ].
  assert (Hi : I ob) by exact Ha. assert (Hn : ob_callback ob <> None) by congruence.
  specialize (H6 ob Hi Hn). specialize (P4 ob). destruct (invoke_callback (e_callback E) ob) as [ob' msgs]. simpl in *.
  split; [exact H6|]. simpl. rewrite <- app_assoc, map_app. apply Forall_app. split.
  - apply Forall_forall. intros e He. apply in_map_iff in He as (x & <- & Hx). apply in_rev in Hx. apply in_map_iff in Hx as (m & <- & Hm). apply P4; auto.
  - simpl. constructor; [apply P3; auto|exact Hb].
Qed.
Ltac sv1 :=
  match goal with
  | |- sv (bind _ _) => apply sv_bind; [|intro]
  | |- sv (ret _) => apply sv_ret
  | |- sv (fail _) => apply sv_fail
  | |- sv (unwrap _) => apply sv_unwrap
  | |- sv (of_result _) => apply sv_result
  | |- sv get => apply sv_get
  | |- sv (modify (ss_with_rng _)) => apply sv_rng
  | |- sv (modify (ss_with_ref _ _)) => apply sv_ref
  | |- sv (modify (ss_emit (map _ _))) => apply sv_emit; intro; exact Logic.I
  | |- sv (ss_obs _) => apply sv_obs; intros; solve [auto]
  | |- sv (ss_callback _) => apply sv_callback
  | |- sv (let _ := _ in _) => cbv zeta
  | |- sv (let '(_, _) := ?x in _) => destruct x
  | |- sv (if ?b then _ else _) => destruct b
  | |- sv (match ?x with _ => _ end) => destruct x
  end.
Ltac svs := repeat sv1.
Lemma sv_stratified : forall n, sv (generate_stratified_samples E n). Proof. intro. unfold generate_stratified_samples. svs. Qed.
Lemma sv_refill : forall pop cs fuel a l, sv (refill E pop cs fuel a l).
Proof. intros pop cs. induction fuel as [|fuel IH]; intros a l; simpl; svs; [apply sv_stratified|apply IH]. Qed.
Lemma sv_diversify : forall refs cs, sv (diversify_reference_set E refs cs).
Proof. intros. unfold diversify_reference_set. svs; try apply sv_stratified; apply sv_refill. Qed.
Lemma sv_init : sv (initialize_reference_set E). Proof. unfold initialize_reference_set. svs; apply sv_diversify. Qed.
Lemma sv_trials : sv (generate_trial_points E). Proof. unfold generate_trial_points. svs. Qed.
Lemma sv_update : forall l, sv (update_reference_set E l). Proof. intro. unfold update_reference_set. svs. Qed.
Lemma sv_best : sv (ss_best_solution E). Proof. unfold ss_best_solution. svs. Qed.
Lemma sv_run : sv (ss_run E).
Proof. unfold ss_run. svs; try apply sv_init; try apply sv_trials; try apply sv_update; apply sv_best. Qed.
End Scatter.

(** ** The driver *)
Section Driver.
Context (E : env) (I : observer -> Prop) (Pe : event -> Prop) (N : Prop).
Context (H1 : forall f ob, I ob -> I (upd_stage1 f ob)) (H2 : forall f ob, I ob -> I (upd_stage2 f ob))
  (H3 : forall f ob, I ob -> I (upd_stage2_any f ob)) (H4 : forall ob, I ob -> I (mark_stage1_complete ob))
  (H5 : forall ob, I ob -> I (mark_stage2_started ob))
  (H6 : forall ob, I ob -> ob_callback ob <> None -> I (fst (invoke_callback (e_callback E) ob)))
  (P0 : forall e, no_call e -> Pe e)
  (P1 : forall i ob, I ob -> ob_callback ob <> None -> Pe (EvCallback i ob))
  (P2 : forall ob m, I ob -> In m (snd (invoke_callback (e_callback E) ob)) -> Pe (EvPrint m))
  (P3 : forall ob, I ob -> ob_callback ob <> None -> Pe (EvStage1 (SsCallback ob)))
  (P4 : forall ob m, I ob -> In m (snd (invoke_callback (e_callback E) ob)) -> Pe (EvStage1 (SsPrint m))).
Definition J (s : st) : Prop := has I N (o_observer (s_o s)) /\ Forall Pe (w_trace (s_w s)).
Definition iv {A} (m : OM A) : Prop := forall s, J s -> J (snd (m s)).
Lemma iv_bind : forall A B (m : OM A) (k : A -> OM B), iv m -> (forall a, iv (k a)) -> iv (bind m k).
Proof. clear. intros A B m k Hm Hk s Hs. unfold bind. specialize (Hm s Hs). destruct (m s) as [[a|e|] s']; simpl in *; auto. apply Hk, Hm. Qed.
Lemma iv_ret : forall A (a : A), iv (ret a). Proof. intros A a s H. exact H. Qed.
Lemma iv_fail : forall A e, @iv A (fail e). Proof. intros A a s H. exact H. Qed.
Lemma iv_panic : forall A, @iv A panic. Proof. intros A s H. exact H. Qed.
Lemma iv_unwrap : forall A (o : option A), iv (unwrap o). Proof. intros A [a|] s H; exact H. Qed.
Lemma iv_result : forall A (o : outcome oq_error A), iv (of_result o). Proof. intros A o s H; exact H. Qed.
Lemma iv_solver : forall A (o : outcome ls_error A), iv (of_solver o). Proof. intros A [a|e|] s H; exact H. Qed.
Lemma iv_tick : iv tick. Proof. intros s H. exact H. Qed.
Lemma iv_disk : forall A (m : DM A), iv (on_disk m).
Proof. intros A m s H. unfold on_disk. destruct (m _) as [[a|e|] d]; exact H. Qed.
Lemma iv_get : forall A (k : oqnlp -> OM A), (forall o, has I N (o_observer o) -> iv (k o)) -> iv (bind the_oqnlp k).
Proof. intros A k H s Hs. unfold bind, the_oqnlp, get, ret, bind. apply H; [apply Hs|exact Hs]. Qed.
Lemma iv_upd : forall f, (forall o, has I N (o_observer o) -> has I N (o_observer (f o))) -> iv (upd f).
Proof. intros f H s [Ha Hb]. split; [simpl; apply H, Ha|exact Hb]. Qed.
Lemma iv_emit : forall l, Forall Pe l -> iv (emit l).
Proof. intros l H s [Ha Hb]. split; [exact Ha|]. simpl. apply Forall_app. split; [apply Forall_rev, H|exact Hb]. Qed.
Lemma iv_obs : forall f, (forall ob, I ob -> I (f ob)) -> iv (obs f).
Proof.
  intros f H s [Ha Hb]. split; [|exact Hb]. simpl. destruct (o_observer (s_o s)) as [o|]; [apply H, Ha|exact Ha].
Qed.
Lemma iv_callback : forall i, iv (callback E i).
Proof.
  intros i s HJ. pose proof HJ as [Ha Hb]. unfold callback, bind, the_oqnlp, get, ret, bind. simpl.
  destruct (o_observer (s_o s)) as [ob|] eqn:Ho; [|exact HJ]. destruct (ob_callback ob) as [cb|] eqn:Hc; [|exact HJ].
  assert (Hi : I ob) by exact Ha. assert (Hn : ob_callback ob <> None) by congruence.
  specialize (H6 ob Hi Hn). specialize (P2 ob). destruct (invoke_callback (e_callback E) ob) as [ob' msgs]. simpl in *.
  split; [exact H6|]. simpl. rewrite <- app_assoc. apply Forall_app. split.
  - apply Forall_rev. apply Forall_forall. intros e He. apply in_map_iff in He as (m & <- & Hm). apply P2; auto.
  - simpl. constructor; [apply P1; auto|exact Hb].
Qed.
Ltac iv1 :=
  match goal with
  | |- iv (bind the_oqnlp _) => apply iv_get; intros
  | |- iv (bind _ _) => apply iv_bind; [|intro]
  | |- iv (ret _) => apply iv_ret
  | |- iv (fail _) => apply iv_fail
  | |- iv panic => apply iv_panic
  | |- iv (unwrap _) => apply iv_unwrap
  | |- iv (of_result _) => apply iv_result
  | |- iv (of_solver _) => apply iv_solver
  | |- iv tick => apply iv_tick
  | |- iv (on_disk _) => apply iv_disk
  | |- iv (upd _) => apply iv_upd; intros ? X; exact X
  | |- iv (emit []) => apply iv_emit; constructor
  | |- iv (emit [_]) => apply iv_emit; constructor; [apply P0; exact Logic.I|constructor]
  | |- iv (emit (map _ _)) => apply iv_emit; apply Forall_forall; let x := fresh in intros ? x; apply in_map_iff in x as (? & <- & _); apply P0; exact Logic.I
  | |- iv (obs _) => apply iv_obs; intros; solve [auto]
  | |- iv (callback _ _) => apply iv_callback
  | |- iv (let _ := _ in _) => cbv zeta
  | |- iv (let '(_, _) := ?x in _) => destruct x
  | |- iv (if ?b then _ else _) => destruct b
  | |- iv (match ?x with _ => _ end) => destruct x
  end.
Ltac ivs := repeat iv1.
Lemma iv_callback_at : forall i, iv (callback_at E i). Proof. intro. unfold callback_at. ivs. Qed.
Lemma iv_process : forall x, iv (process_local_solution E x).
Proof. intro. unfold process_local_solution, set_solutions, set_threshold, add_to_filter. ivs. Qed.
Lemma iv_save_now : forall c, iv (save_now E c). Proof. intro. unfold save_now, create_checkpoint. ivs. Qed.
Lemma iv_maybe_save : iv (maybe_save_checkpoint E). Proof. unfold maybe_save_checkpoint. ivs. apply iv_save_now. Qed.
Lemma iv_final_save : iv (maybe_save_final_checkpoint E). Proof. unfold maybe_save_final_checkpoint. ivs. apply iv_save_now. Qed.
Lemma iv_begin : forall i u, iv (begin_iteration E i u). Proof. intros. unfold begin_iteration. ivs. Qed.
Lemma iv_iteration : forall i u, iv (obs_iteration i u). Proof. intros. unfold obs_iteration. ivs. Qed.
Lemma iv_search : forall a n, iv (obs_search a n). Proof. intros. unfold obs_search. ivs. Qed.
Lemma iv_count : forall u, iv (count_unchanged u). Proof. intros. unfold count_unchanged, adjust_threshold. ivs. Qed.
Lemma iv_threshold : forall v, iv (set_threshold v). Proof. intros. unfold set_threshold. ivs. Qed.
Ltac ivt := repeat first [ apply iv_callback_at | apply iv_process | apply iv_maybe_save | apply iv_final_save | apply iv_begin
  | apply iv_iteration | apply iv_search | apply iv_count | apply iv_threshold | iv1 ].
Lemma iv_one : forall objs i p u, iv (process_one_seq E objs i p u).
Proof. intros. unfold process_one_seq, emit_eval. ivt. Qed.
Lemma iv_seq : forall start res objs b u, iv (process_batch_sequential E start res objs b u).
Proof. intros start res objs b. induction b as [|[i p] b IH]; intro u; simpl; ivt; try apply IH. apply iv_one. Qed.
Lemma iv_quicks : forall l u, iv (process_quicks E l u).
Proof. induction l as [|[[i p] v] l IH]; intro u; simpl; unfold process_quick; ivt; apply IH. Qed.
Lemma iv_results : forall l u, iv (process_par_results E l u).
Proof. induction l as [|[[[i p] v] [x n]] l IH]; intro u; simpl; unfold process_par_result; ivt; apply IH. Qed.
Lemma iv_singles : forall l u, iv (process_singles E l u).
Proof. induction l as [|[[i p] v] l IH]; intro u; simpl; unfold process_single; ivt; apply IH. Qed.
Lemma iv_par : forall start res objs b u, iv (process_batch_parallel E start res objs b u).
Proof.
  intros. unfold process_batch_parallel. ivt; try apply iv_quicks; try apply iv_results; try apply iv_singles.
Qed.
Lemma iv_loop : forall size start res objs l u, iv (stage2_loop E size start res objs l u).
Proof. intros size start res objs l. induction l as [|b l IH]; intro u; simpl; ivt; try apply IH; [apply iv_par|apply iv_seq]. Qed.
Lemma iv_stage2 : forall res refs objs u, iv (stage2_run E res refs objs u).
Proof. intros. unfold stage2_run, begin_stage2, final_set. ivt; apply iv_loop. Qed.
(** from the start of Stage 2 on *)
Lemma iv_stage2_from : forall res refs objs u s, J (snd (begin_stage2 s)) -> J (snd (stage2_run E res refs objs u s)).
Proof.
  intros res refs objs u s. unfold stage2_run. change (begin_stage2 s) with (@Ok oq_error unit tt, snd (begin_stage2 s)). unfold bind at 1. change (begin_stage2 s) with (@Ok oq_error unit tt, snd (begin_stage2 s)).
  generalize (snd (begin_stage2 s)). clear s.
  match goal with |- forall s, _ -> J (snd (?m s)) => change (iv m) end. unfold final_set. ivt; apply iv_loop.
Qed.

Lemma init_has : forall o t s, has I N (o_observer o) -> stage1_init E o t = Ok s ->
  K I Pe (if observes1 o then N else True) s.
Proof.
  intros o t s H X. unfold stage1_init in X. destruct (ss_new E (o_params o) t) as [s0|e|] eqn:Hn; try discriminate X.
  unfold ss_new in Hn. destruct (bad_bound _ _); [discriminate Hn|]. injection Hn as <-. injection X as <-.
  destruct (observes1 o), (o_custom o); (split; simpl; [first [exact H|exact Logic.I]|constructor]).
Qed.
Lemma iv_stage1 : iv (stage1_run E).
Proof.
  unfold stage1_run, end_stage1, stage1_enter. iv1. iv1; [iv1|]. destruct (stage1_init E o a) as [s3|e|] eqn:Hi; [|ivs..].
  pose proof (init_has _ _ _ H Hi) as Hk. apply sv_run with (E := E) in Hk; auto. destruct Hk as [Ka Kb]. destruct (ss_run E s3) as [res sf]. simpl in Ka, Kb.
  iv1; [destruct (observes1 o); [apply iv_upd; intros; exact Ka|iv1]|].
  iv1; [apply iv_emit; rewrite map_rev; apply Forall_rev; exact Kb|]. ivt.
Qed.
Lemma iv_run : iv (run E).
Proof.
  unfold run, try_resume_from_checkpoint, restore_from_checkpoint, final_set. ivt; try apply iv_stage2. apply iv_stage1.
Qed.
Theorem observer_invariant : forall s r s', run E s = (r, s') -> has I N (o_observer (s_o s)) -> Forall Pe (w_trace (s_w s)) ->
  has I N (o_observer (s_o s')) /\ Forall Pe (w_trace (s_w s')).
Proof. intros s r s' Hr Ha Hb. pose proof (iv_run s (conj Ha Hb)) as G. rewrite Hr in G. exact G. Qed.
End Driver.

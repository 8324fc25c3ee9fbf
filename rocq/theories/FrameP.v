(** * The recorded trace has no influence on the run

    [w_trace] is a ghost record: running from a state with more recorded events gives the
    same result, the same optimizer and the same files, and the older events stay below. *)
From Coq Require Import ZArith NArith List Bool Arith Lia String.
From Verif Require Import F64 Base Builders Types Filters Runner Observer Env ScatterSearch
  Codec Checkpoint Oqnlp.
Import ListNotations.

Definition older (old : list event) (s : st) : st :=
  mk_st (s_o s) (mk_world (w_disk (s_w s)) (w_tick (s_w s)) (w_trace (s_w s) ++ old)).
Definition frame {A} (m : OM A) : Prop :=
  forall s old, m (older old s) = (fst (m s), older old (snd (m s))).

Lemma fr_ret : forall A (a : A), frame (ret a). Proof. repeat intro; reflexivity. Qed.
Lemma fr_fail : forall A e, @frame A (fail e). Proof. repeat intro; reflexivity. Qed.
Lemma fr_panic : forall A, @frame A panic. Proof. repeat intro; reflexivity. Qed.
Lemma fr_bind : forall A B (m : OM A) (k : A -> OM B), frame m -> (forall a, frame (k a)) -> frame (bind m k).
Proof.
  intros A B m k H1 H2 s old. unfold bind. rewrite H1. destruct (m s) as [[a|e|] s']; simpl; auto. apply H2.
Qed.
Lemma fr_oqnlp : frame the_oqnlp. Proof. repeat intro; reflexivity. Qed.
Lemma fr_upd : forall f, frame (upd f). Proof. repeat intro; reflexivity. Qed.
Lemma fr_emit : forall l, frame (emit l).
Proof. intros l s old. unfold emit, modify, older. simpl. rewrite app_assoc. reflexivity. Qed.
Lemma fr_tick : frame tick. Proof. repeat intro; reflexivity. Qed.
Lemma fr_on_disk : forall A (m : DM A), frame (on_disk m).
Proof.
  intros A m s old. unfold on_disk, older. simpl. destruct (m (w_disk (s_w s))) as [[a|e|] d]; reflexivity.
Qed.
Lemma fr_unwrap : forall A (o : option A), frame (unwrap o). Proof. intros A []; [apply fr_ret|apply fr_panic]. Qed.
Lemma fr_of_result : forall A r, @frame A (of_result r). Proof. repeat intro; reflexivity. Qed.
Lemma fr_of_solver : forall A r, @frame A (of_solver r).
Proof. intros A [a|e|]; [apply fr_ret|apply fr_fail|apply fr_panic]. Qed.

Ltac fr1 :=
  match goal with
  | |- frame (bind _ _) => apply fr_bind; [|intro]
  | |- frame (ret _) => apply fr_ret
  | |- frame (fail _) => apply fr_fail
  | |- frame panic => apply fr_panic
  | |- frame the_oqnlp => apply fr_oqnlp
  | |- frame (upd _) => apply fr_upd
  | |- frame (emit _) => apply fr_emit
  | |- frame tick => apply fr_tick
  | |- frame (on_disk _) => apply fr_on_disk
  | |- frame (unwrap _) => apply fr_unwrap
  | |- frame (of_result _) => apply fr_of_result
  | |- frame (of_solver _) => apply fr_of_solver
  | |- frame (obs _) => apply fr_upd
  | |- frame (let '(_, _) := ?x in _) => destruct x
  | |- frame (if ?b then _ else _) => destruct b
  | |- frame (match ?x with _ => _ end) => destruct x
  end.
Ltac fr := repeat fr1.

Section Frame.
Context (E : env).
Lemma fr_process : forall sol, frame (process_local_solution E sol).
Proof. intro sol. unfold process_local_solution, set_solutions, set_threshold, add_to_filter. fr. Qed.
Lemma fr_callback : forall i, frame (callback E i). Proof. intro. unfold callback. fr. Qed.
Lemma fr_callback_at : forall i, frame (callback_at E i).
Proof. intro. unfold callback_at. fr. apply fr_callback. Qed.
Lemma fr_save_now : forall c, frame (save_now E c). Proof. intro. unfold save_now, create_checkpoint. fr. Qed.
Lemma fr_maybe_save : frame (maybe_save_checkpoint E).
Proof. unfold maybe_save_checkpoint. fr. apply fr_save_now. Qed.
Lemma fr_final_save : frame (maybe_save_final_checkpoint E).
Proof. unfold maybe_save_final_checkpoint. fr. apply fr_save_now. Qed.
Lemma fr_resume : frame (try_resume_from_checkpoint E).
Proof. unfold try_resume_from_checkpoint, restore_from_checkpoint. fr. Qed.
Lemma fr_begin : forall i u, frame (begin_iteration E i u). Proof. intros. unfold begin_iteration. fr. Qed.
Lemma fr_obs_iteration : forall i u, frame (obs_iteration i u). Proof. intros. unfold obs_iteration. fr. Qed.
Lemma fr_obs_search : forall a n, frame (obs_search a n). Proof. intros. unfold obs_search. fr. Qed.
Lemma fr_count : forall u, frame (count_unchanged u).
Proof. intros. unfold count_unchanged, adjust_threshold. fr. Qed.
Lemma fr_threshold : forall v, frame (set_threshold v). Proof. intros. unfold set_threshold. fr. Qed.
Ltac fr2 := repeat first
  [ fr1 | apply fr_process | apply fr_callback | apply fr_callback_at | apply fr_maybe_save | apply fr_final_save
  | apply fr_begin | apply fr_obs_iteration | apply fr_obs_search | apply fr_count | apply fr_threshold ].
Lemma fr_one_seq : forall objs i p u, frame (process_one_seq E objs i p u).
Proof. intros. unfold process_one_seq, emit_eval. fr2. Qed.
Lemma fr_batch_seq : forall start res objs b u, frame (process_batch_sequential E start res objs b u).
Proof. intros start res objs b; induction b as [|[i p] b IH]; intros u; simpl; fr2; auto. apply fr_one_seq. Qed.
Lemma fr_quicks : forall l u, frame (process_quicks E l u).
Proof. induction l as [|[[i p] v] l IH]; intros u; simpl; unfold process_quick; fr2; auto. Qed.
Lemma fr_par_results : forall l u, frame (process_par_results E l u).
Proof. induction l as [|[[[i p] v] [x n]] l IH]; intros u; simpl; unfold process_par_result; fr2; auto. Qed.
Lemma fr_singles : forall l u, frame (process_singles E l u).
Proof. induction l as [|[[i p] v] l IH]; intros u; simpl; unfold process_single; fr2; auto. Qed.
Lemma fr_batch_par : forall start res objs b u, frame (process_batch_parallel E start res objs b u).
Proof.
  intros. unfold process_batch_parallel. set (fb := if res then _ else _). clearbody fb.
  destruct (match fb with [] => true | _ => false end); fr2.
  - apply fr_quicks.
  - apply fr_par_results.
  - apply fr_singles.
Qed.
Lemma fr_loop : forall size start res objs l u, frame (stage2_loop E size start res objs l u).
Proof.
  intros size start res objs l; induction l as [|b l IH]; intros u; simpl; fr2; auto;
    first [apply fr_batch_par | apply fr_batch_seq].
Qed.
Lemma fr_stage2 : forall res refs objs u, frame (stage2_run E res refs objs u).
Proof. intros. unfold stage2_run, begin_stage2, final_set. fr2; apply fr_loop. Qed.
Lemma fr_stage1 : frame (stage1_run E).
Proof. unfold stage1_run, end_stage1, stage1_enter. fr2. Qed.
Lemma fr_run : frame (run E).
Proof.
  unfold run, final_set. apply fr_bind; [apply fr_resume|]. intros [|].
  - fr. apply fr_stage2.
  - apply fr_bind; [apply fr_stage1|]. intro; fr. apply fr_stage2.
Qed.
End Frame.

(** a state with an empty record *)
Definition blank (s : st) : st := mk_st (s_o s) (mk_world (w_disk (s_w s)) (w_tick (s_w s)) []).
Lemma older_blank : forall s, older (w_trace (s_w s)) (blank s) = s.
Proof. intros [o [d t tr]]; reflexivity. Qed.
Theorem run_blank : forall E s r s' new, run E s = (r, s') -> w_trace (s_w s') = new ++ w_trace (s_w s) ->
  run E (blank s) = (r, mk_st (s_o s') (mk_world (w_disk (s_w s')) (w_tick (s_w s')) new)).
Proof.
  intros E s r s' new Hr Ht. pose proof (fr_run E (blank s) (w_trace (s_w s))) as H.
  rewrite older_blank, Hr in H. destruct (run E (blank s)) as [r1 [o1 [d1 t1 tr1]]]. simpl in H.
  injection H as <- ->. simpl in *. unfold older in *. simpl in *. apply app_inv_tail in Ht. subst. reflexivity.
Qed.

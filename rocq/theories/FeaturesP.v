(** * The builds without rayon or checkpointing (C78, C79) *)
From Coq Require Import ZArith NArith List Bool Arith Lia String.
From Verif Require Import F64 Base Builders Types Filters Runner Observer Env EnvSpec
  ScatterSearch Codec Checkpoint Oqnlp Features SpecFeatures SimP.
Import ListNotations.
Local Open Scope monad_scope.

(** ** With both features on, this is the model of the other files *)
Lemma bind_ext : forall S E A B (m m' : M S E A) (k k' : A -> M S E B) s, m s = m' s ->
  (forall a s', k a s' = k' a s') -> bind m k s = bind m' k' s.
Proof. intros S E A B m m' k k' s H G. unfold bind. rewrite H. destruct (m' s) as [[a|e|] s']; auto. Qed.
Ltac ext1 := first
  [ reflexivity
  | apply bind_ext; [|intros ? ?]
  | match goal with
    | |- (let '(_, _) := ?x in _) _ = _ => destruct x
    | |- (if ?b then _ else _) _ = _ => destruct b
    | |- (match ?x with _ => _ end) _ = _ => destruct x
    end ].
Lemma full_greedy : forall E ctx par n refs cands ds, b_greedy full_build E ctx par n refs cands ds = greedy E ctx par n refs cands ds.
Proof.
  intros E ctx par. induction n as [|n IH]; intros refs cands ds; [reflexivity|].
  cbn [b_greedy greedy]. change (b_argmax full_build) with argmax. destruct (argmax _ _ _); [|reflexivity].
  destruct (swap_remove n0 cands) as [[? ?]|]; [|reflexivity]. destruct (swap_remove n0 ds) as [[? ?]|]; [|reflexivity]. apply IH.
Qed.
Lemma full_diversify : forall E refs cs s, b_diversify full_build E refs cs s = diversify_reference_set E refs cs s.
Proof.
  intros E refs cs s. unfold b_diversify, diversify_reference_set. apply bind_ext; [reflexivity|]. intros s1 s'. cbv zeta.
  apply bind_ext; [reflexivity|]. intros c s2. apply bind_ext; [reflexivity|]. intros c2 s3. rewrite full_greedy. reflexivity.
Qed.
Lemma full_initialize : forall E s, b_initialize full_build E s = initialize_reference_set E s.
Proof.
  intros E s. unfold b_initialize, initialize_reference_set. apply bind_ext; [reflexivity|]. intros s1 s'. cbv zeta.
  apply bind_ext; [apply full_diversify|]. intros refs s2. cbn [full_build f_rayon]. reflexivity.
Qed.
Lemma full_ss : forall E s, b_ss_run full_build E s = ss_run E s.
Proof. intros E s. unfold b_ss_run, ss_run. apply bind_ext; [apply full_initialize|]. reflexivity. Qed.
Lemma full_begin : forall E i u s, b_begin_iteration full_build E i u s = begin_iteration E i u s.
Proof.
  intros E i u s. unfold b_begin_iteration, begin_iteration. cbn [full_build f_checkpointing].
  unfold bind, upd, modify, the_oqnlp, get, ret, unwrap. cbn. destruct (add_u64 _ _ _); reflexivity.
Qed.
Lemma full_one : forall E objs i p u s, b_process_one full_build E objs i p u s = process_one_seq E objs i p u s.
Proof. intros. unfold b_process_one, process_one_seq. apply bind_ext; [apply full_begin|]. reflexivity. Qed.
Lemma full_seq : forall E start res objs b u s,
  b_batch_sequential full_build E start res objs b u s = process_batch_sequential E start res objs b u s.
Proof.
  intros E start res objs b. induction b as [|[i p] b IH]; intros u s; [reflexivity|]. cbn [b_batch_sequential process_batch_sequential].
  destruct (res && _); [apply IH|]. apply bind_ext; [apply full_one|]. intros [u' stop] s'. destruct stop; [reflexivity|apply IH].
Qed.
Lemma full_quicks : forall E l u s, b_quicks full_build E l u s = process_quicks E l u s.
Proof.
  intros E. induction l as [|[[i p] v] l IH]; intros u s; [reflexivity|]. cbn [b_quicks process_quicks].
  apply bind_ext; [|intros; apply IH]. unfold b_quick, process_quick. apply bind_ext; [apply full_begin|]. reflexivity.
Qed.
Lemma full_par_results : forall E l u s, b_par_results full_build E l u s = process_par_results E l u s.
Proof.
  intros E. induction l as [|[[[i p] v] [x n]] l IH]; intros u s; [reflexivity|]. cbn [b_par_results process_par_results].
  apply bind_ext; [|intros [] ?; [reflexivity|apply IH]]. unfold b_par_result, process_par_result. apply bind_ext; [apply full_begin|]. reflexivity.
Qed.
Lemma full_singles : forall E l u s, b_singles full_build E l u s = process_singles E l u s.
Proof.
  intros E. induction l as [|[[i p] v] l IH]; intros u s; [reflexivity|]. cbn [b_singles process_singles].
  apply bind_ext; [|intros [] ?; [reflexivity|apply IH]]. unfold b_single, process_single. apply bind_ext; [apply full_begin|]. reflexivity.
Qed.
Lemma full_par : forall E start res objs b u s,
  b_batch_parallel full_build E start res objs b u s = process_batch_parallel E start res objs b u s.
Proof.
  intros E start res objs b u s. unfold b_batch_parallel, process_batch_parallel. cbv zeta.
  set (fb := if res then _ else _). destruct (match fb with [] => true | _ => false end); [reflexivity|].
  do 4 (apply bind_ext; [reflexivity|intros ? ?]). apply bind_ext; [reflexivity|intros ? ?].
  destruct (partition _ _) as [loc quick]. apply bind_ext; [reflexivity|intros ? ?]. apply bind_ext; [apply full_quicks|intros ? ?].
  apply bind_ext; [reflexivity|intros ? ?]. apply bind_ext; [|reflexivity]. destruct (_ && _); [|apply full_singles].
  apply bind_ext; [reflexivity|intros ? ?]. apply bind_ext; [reflexivity|intros ? ?]. apply full_par_results.
Qed.
Lemma full_loop : forall E size start res objs l u s,
  b_loop full_build E size start res objs l u s = stage2_loop E size start res objs l u s.
Proof.
  intros E size start res objs l. induction l as [|b l IH]; intros u s; [reflexivity|]. cbn [b_loop stage2_loop full_build f_rayon].
  apply bind_ext; [reflexivity|intros ? ?]. apply bind_ext; [reflexivity|intros [] ?]; [reflexivity|].
  apply bind_ext; [reflexivity|intros ? ?]. apply bind_ext; [destruct (1 <? size); [apply full_par|apply full_seq]|intros ? ?].
  apply bind_ext; [reflexivity|intros ? ?]. apply bind_ext; [reflexivity|intros [] ?]; [reflexivity|apply IH].
Qed.
Lemma full_stage2 : forall E res refs objs u s, b_stage2_run full_build E res refs objs u s = stage2_run E res refs objs u s.
Proof.
  intros. unfold b_stage2_run, stage2_run. cbn [full_build f_checkpointing]. apply bind_ext; [reflexivity|intros ? ?].
  apply bind_ext; [reflexivity|intros ? ?]. apply bind_ext; [reflexivity|intros ? ?]. cbv zeta. change (b_batch_size full_build) with batch_size.
  apply bind_ext; [destruct (_ =? 0); [reflexivity|apply full_loop]|]. reflexivity.
Qed.
Lemma full_stage1 : forall E s, b_stage1_run full_build E s = stage1_run E s.
Proof.
  intros E s. unfold b_stage1_run, stage1_run. apply bind_ext; [reflexivity|intros o ?]. apply bind_ext; [reflexivity|intros t ?].
  change (b_stage1_init full_build) with stage1_init. destruct (stage1_init E o t); [|reflexivity|reflexivity]. rewrite full_ss. reflexivity.
Qed.
Theorem full_is_run : forall E s, build_run full_build E s = run E s.
Proof.
  intros E s. unfold build_run, run. cbn [full_build f_checkpointing]. apply bind_ext; [reflexivity|]. intros [] s1.
  - apply bind_ext; [reflexivity|]. intros. apply full_stage2.
  - apply bind_ext; [apply full_stage1|]. intros [[refs objs]|] s2; [apply full_stage2|reflexivity].
Qed.

(** * What a crash costs a run that checkpoints (C103)

    Statements only; the proofs are lemmas of LossP.v, BatchLossP.v and KeepAllP.v. *)
From Coq Require Import ZArith NArith List Bool Arith Lia String.
From Verif Require Import F64 Base Builders Types Filters Runner Observer Env EnvSpec ScatterSearch Codec
  Checkpoint Oqnlp Spec SpecStage1 SpecStage2 SpecObserver SpecSave SpecCheckpoint SpecTiming SpecCost SpecLoss
  Actions FinishP LossP BatchLossP KeepAllP Demo Demo2 DemoCp DemoSession Properties_Stage2.
Import ListNotations.

(** The wells, in a process that dies at its third write, which leaves what [r] says. *)
Definition dying (r : io) : env := match wells_env with
  | mk_env a b c d e f g h i j k l m n _ p q x => mk_env a b c d e f g h i j k l m n (fun t => if t =? 2 then r else IoOk) p q x end.
Definition every_second : cp_config := mk_cpc "demo" 2 false true.
Definition saver : oqnlp := set_o_cp (Some every_second) (sequential demo_oqnlp).

(** C103 is false of the code: the checkpoint file is written in place, so a process that dies
    during a save leaves a file that the next one cannot resume from. *)
Definition C103_full : Prop := forall E E2 p o c r s1 new j, env_ok E -> env_ok E2 -> io_works E2 -> callbacks_keep_settings E ->
  oq_new p = Ok o -> cc_keep_all c = false -> cc_auto_resume c = true -> 0 < cc_save_frequency c ->
  let first := set_o_cp (Some c) (sequential o) in
  run E (start_state first) = (r, s1) -> recorded (start_state first) s1 new ->
  (forall f cp, In (EvSave f cp) new -> checkpoint_ok cp) -> In (EvIteration j) new -> 0 < j ->
  exists cp, resumes_from E2 (next_process s1 first) cp /\ j <= cp_iteration cp + cc_save_frequency c.
Lemma begun_iteration (j : nat) l : existsb (fun e => match e with EvIteration i => i =? j | _ => false end) l = true -> In (EvIteration j) l.
Proof. intro H. apply existsb_exists in H as (e & He & X). destruct e; try discriminate X. apply Nat.eqb_eq in X. subst. exact He. Qed.
Lemma dying_fit r : saves_okb (state_of (dying r) saver) = true -> forall f cp, In (EvSave f cp) (record_of (dying r) saver) -> checkpoint_ok cp.
Proof. intro H. apply (saves_okb_fit (state_of (dying r) saver)). exact H. Qed.
Lemma dying_ok r : env_ok (dying r).
Proof. destruct (demo_env_ok two_wells to_well). constructor; assumption. Qed.
Theorem C103_torn_refuted : ~ C103_full.
Proof.
  intro H.
  assert (Hin : In (EvIteration 4) (record_of (dying (IoShort 10)) saver)) by (apply begun_iteration; vm_compute; reflexivity).
  assert (Hfit : forall f cp, In (EvSave f cp) (record_of (dying (IoShort 10)) saver) -> checkpoint_ok cp) by (apply dying_fit; vm_compute; reflexivity).
  destruct (H (dying (IoShort 10)) wells_env demo_params demo_oqnlp every_second _ _ _ 4 (dying_ok _) (demo_env_ok _ _) (proj1 wells_io)
    (fun _ _ => conj eq_refl eq_refl) eq_refl eq_refl eq_refl (le_S _ _ (le_n _)) (run_pair (dying (IoShort 10)) saver) (record_recorded (dying (IoShort 10)) saver) Hfit Hin
    (le_S _ _ (le_S _ _ (le_S _ _ (le_n _))))) as (cp & (c & R1 & _ & _ & R4) & _).
  injection R1 as <-.
  assert (X : fst (load_latest wells_env every_second (snd (checkpoint_exists wells_env every_second (w_disk (s_w (next_process (state_of (dying (IoShort 10)) saver) saver))))))
    = Err CpSerialization) by (vm_compute; reflexivity).
  discriminate (eq_trans (eq_sym X) R4).
Qed.
Print Assumptions C103_torn_refuted.

(** Unless the process dies during a save: when a sequential run with one checkpoint file has
    begun iteration [j > 0] and stops, for whatever reason, the next program with that file
    name and auto_resume resumes from an iteration at most save_frequency before [j], with the
    same number of candidates.  Missing: deaths during a save; for parallel mode and for one file
    per save see below. *)
Theorem C103_resume_partial : forall E E2 s r s1 new j c c2 o2, env_ok E -> callbacks_keep_settings E -> no_torn_write E -> io_works E2 ->
  run E s = (r, s1) -> recorded s s1 new -> o_parallel (s_o s1) = false ->
  o_cp (s_o s1) = Some c -> cc_keep_all c = false -> 0 < cc_save_frequency c ->
  (forall f cp, In (EvSave f cp) new -> checkpoint_ok cp) ->
  In (EvIteration j) new -> 0 < j ->
  o_cp o2 = Some c2 -> cc_name c2 = cc_name c -> cc_keep_all c2 = false -> cc_auto_resume c2 = true ->
  exists cp, resumes_from E2 (next_process s1 o2) cp /\ j <= cp_iteration cp + cc_save_frequency c /\
    Nat.min (p_iterations (cp_params cp)) (List.length (cp_reference_set cp)) = work_bound s1.
Proof. exact c103_resume. Qed.
Print Assumptions C103_resume_partial.
(** So the next program evaluates and searches at most what the first still had to do from [j]
    on, and save_frequency candidates more, Stage 1 included. *)
Theorem C103_cost_partial : forall E E2 s r s1 new j c c2 o2 r2 s2 new2, env_ok E -> env_ok E2 -> callbacks_keep_settings E ->
  no_torn_write E -> io_works E2 ->
  run E s = (r, s1) -> recorded s s1 new -> o_parallel (s_o s1) = false ->
  o_cp (s_o s1) = Some c -> cc_keep_all c = false -> 0 < cc_save_frequency c ->
  (forall f cp, In (EvSave f cp) new -> checkpoint_ok cp) ->
  In (EvIteration j) new -> 0 < j ->
  o_cp o2 = Some c2 -> cc_name c2 = cc_name c -> cc_keep_all c2 = false -> cc_auto_resume c2 = true ->
  run E2 (next_process s1 o2) = (r2, s2) -> recorded (next_process s1 o2) s2 new2 ->
  List.length (objective_calls new2) <= work_bound s1 - j + cc_save_frequency c /\
  List.length (search_starts new2) <= work_bound s1 - j + cc_save_frequency c.
Proof. exact c103_cost. Qed.
Print Assumptions C103_cost_partial.
(** A run that saves every second iteration and dies in its fourth, at a write that did not
    begin: the next one resumes from iteration 2, the bound exactly. *)
Lemma dying_keeps : no_torn_write (dying IoFail).
Proof. intros t n. change ((if t =? 2 then IoFail else IoOk) <> IoShort n). destruct (t =? 2); discriminate. Qed.
Example C103_case : result_of (dying IoFail) saver = Err (CheckpointError (CpIo "write")) /\
  (exists cp, resumes_from wells_env (next_process (state_of (dying IoFail) saver) saver) cp /\ 4 <= cp_iteration cp + 2) /\
  exists cp, resumes_from wells_env (next_process (state_of (dying IoFail) saver) saver) cp /\ cp_iteration cp = 2.
Proof.
  split; [vm_compute; reflexivity|]. split.
  - assert (Hin : In (EvIteration 4) (record_of (dying IoFail) saver)) by (apply begun_iteration; vm_compute; reflexivity).
    assert (Hfit : forall f cp, In (EvSave f cp) (record_of (dying IoFail) saver) -> checkpoint_ok cp) by (apply dying_fit; vm_compute; reflexivity).
    assert (Hp : o_parallel (s_o (state_of (dying IoFail) saver)) = false) by (vm_compute; reflexivity).
    assert (Hc : o_cp (s_o (state_of (dying IoFail) saver)) = Some every_second) by (vm_compute; reflexivity).
    destruct (C103_resume_partial (dying IoFail) wells_env (start_state saver) _ _ _ 4 every_second every_second saver (dying_ok _)
      (fun _ _ => conj eq_refl eq_refl) dying_keeps (proj1 wells_io) (run_pair (dying IoFail) saver) (record_recorded (dying IoFail) saver) Hp Hc eq_refl
      (le_S _ _ (le_n _)) Hfit Hin (le_S _ _ (le_S _ _ (le_S _ _ (le_n _)))) eq_refl eq_refl eq_refl eq_refl) as (cp & H1 & H2 & _).
    exists cp. split; [exact H1|exact H2].
  - set (s := next_process (state_of (dying IoFail) saver) saver).
    assert (X : match fst (load_latest wells_env every_second (snd (checkpoint_exists wells_env every_second (w_disk (s_w s))))) with Ok cp => cp_iteration cp | _ => 9 end = 2)
      by (vm_compute; reflexivity).
    destruct (fst (load_latest wells_env every_second (snd (checkpoint_exists wells_env every_second (w_disk (s_w s)))))) as [cp|e|] eqn:L; [|discriminate X|discriminate X].
    exists cp. split; [|exact X]. exists every_second. split; [reflexivity|]. split; [reflexivity|]. split; [vm_compute; reflexivity|exact L].
Qed.

(** In parallel mode it is false even then: the candidates of a batch are not begun in order. *)
Definition C103_batched : Prop := forall E E2 p o n c r s1 new j, env_ok E -> env_ok E2 -> no_torn_write E -> io_works E2 -> callbacks_keep_settings E ->
  oq_new p = Ok o -> 0 < n -> cc_keep_all c = false -> cc_auto_resume c = true -> 0 < cc_save_frequency c ->
  let first := set_o_cp (Some c) (batch_iterations n o) in
  run E (start_state first) = (r, s1) -> recorded (start_state first) s1 new ->
  (forall f cp, In (EvSave f cp) new -> checkpoint_ok cp) -> In (EvIteration j) new -> n <= j ->
  exists cp, resumes_from E2 (next_process s1 first) cp /\ j <= cp_iteration cp + cc_save_frequency c.
Definition threes : oqnlp := set_o_cp (Some every_second) (batch_iterations 3 demo_oqnlp).
Lemma threes_fit : forall f cp, In (EvSave f cp) (record_of (dying IoFail) threes) -> checkpoint_ok cp.
Proof. apply (saves_okb_fit (state_of (dying IoFail) threes)). vm_compute. reflexivity. Qed.
Lemma threes_begun : In (EvIteration 5) (record_of (dying IoFail) threes).
Proof. apply begun_iteration. vm_compute. reflexivity. Qed.
Lemma le_3_5 : 3 <= 5. Proof. repeat constructor. Qed.
Lemma lt_0_5 : 0 < 5. Proof. repeat constructor. Qed.
(** Batches of three, saving at even iterations.  The second batch is begun in the order 5, 3, 4,
    and the process dies at the save of iteration 4, so iteration 2 is what the next one finds. *)
Theorem C103_parallel_refuted : ~ C103_batched.
Proof.
  intro H.
  destruct (H (dying IoFail) wells_env demo_params demo_oqnlp 3 every_second _ _ _ 5 (dying_ok _) (demo_env_ok _ _) dying_keeps (proj1 wells_io)
    (fun _ _ => conj eq_refl eq_refl) eq_refl (Nat.lt_0_succ 2) eq_refl eq_refl (le_S _ _ (le_n _)) (run_pair (dying IoFail) threes) (record_recorded (dying IoFail) threes)
    threes_fit threes_begun le_3_5) as (cp & (c & R1 & _ & _ & R4) & L).
  injection R1 as <-.
  assert (X : match fst (load_latest wells_env every_second (snd (checkpoint_exists wells_env every_second (w_disk (s_w (next_process (state_of (dying IoFail) threes) threes)))))) with
    | Ok cp => cp_iteration cp | _ => 9 end = 2) by (vm_compute; reflexivity).
  assert (G : forall r : outcome cp_error checkpoint, r = Ok cp -> match r with Ok cp => cp_iteration cp | _ => 9 end = 2 -> cp_iteration cp = 2) by (intros r0 -> G; exact G).
  pose proof (G _ R4 X) as Y. rewrite Y in L. apply Nat.leb_le in L. discriminate L.
Qed.
Print Assumptions C103_parallel_refuted.
(** For every batch size, and new or resumed runs: the next program resumes from an iteration at
    most save_frequency and twice the other candidates of a batch before any iteration that was
    begun after the first batch.  With batches of one candidate this is the bound above. *)
Theorem C103_batches_partial : forall E E2 s r s1 new j c c2 o2, no_torn_write E -> io_works E2 ->
  run E s = (r, s1) -> recorded s s1 new ->
  o_cp (s_o s1) = Some c -> cc_keep_all c = false -> 0 < cc_save_frequency c ->
  (forall f cp, In (EvSave f cp) new -> checkpoint_ok cp) ->
  In (EvIteration j) new -> 0 < j -> max_batch (s_o s1) <= j ->
  o_cp o2 = Some c2 -> cc_name c2 = cc_name c -> cc_keep_all c2 = false -> cc_auto_resume c2 = true ->
  exists cp, resumes_from E2 (next_process s1 o2) cp /\ j <= cp_iteration cp + cc_save_frequency c + 2 * (max_batch (s_o s1) - 1) /\
    Nat.min (p_iterations (cp_params cp)) (List.length (cp_reference_set cp)) = work_bound s1.
Proof. exact c103_batches. Qed.
Print Assumptions C103_batches_partial.
Theorem C103_batches_cost_partial : forall E E2 s r s1 new j c c2 o2 r2 s2 new2, env_ok E2 -> no_torn_write E -> io_works E2 ->
  run E s = (r, s1) -> recorded s s1 new ->
  o_cp (s_o s1) = Some c -> cc_keep_all c = false -> 0 < cc_save_frequency c ->
  (forall f cp, In (EvSave f cp) new -> checkpoint_ok cp) ->
  In (EvIteration j) new -> 0 < j -> max_batch (s_o s1) <= j ->
  o_cp o2 = Some c2 -> cc_name c2 = cc_name c -> cc_keep_all c2 = false -> cc_auto_resume c2 = true ->
  run E2 (next_process s1 o2) = (r2, s2) -> recorded (next_process s1 o2) s2 new2 ->
  List.length (objective_calls new2) <= work_bound s1 - j + cc_save_frequency c + 2 * (max_batch (s_o s1) - 1) /\
  List.length (search_starts new2) <= work_bound s1 - j + cc_save_frequency c + 2 * (max_batch (s_o s1) - 1).
Proof. exact c103_batches_cost. Qed.
Print Assumptions C103_batches_cost_partial.
(** the run of the refutation *)
Example C103_batches_case : max_batch (s_o (state_of (dying IoFail) threes)) = 3 /\
  exists cp, resumes_from wells_env (next_process (state_of (dying IoFail) threes) threes) cp /\ 5 <= cp_iteration cp + 2 + 2 * (3 - 1).
Proof.
  assert (M : max_batch (s_o (state_of (dying IoFail) threes)) = 3) by (vm_compute; reflexivity). split; [exact M|].
  assert (Hc : o_cp (s_o (state_of (dying IoFail) threes)) = Some every_second) by (vm_compute; reflexivity).
  assert (Hm : max_batch (s_o (state_of (dying IoFail) threes)) <= 5) by (rewrite M; exact le_3_5).
  destruct (C103_batches_partial (dying IoFail) wells_env (start_state threes) _ _ _ 5 every_second every_second threes dying_keeps (proj1 wells_io)
    (run_pair (dying IoFail) threes) (record_recorded (dying IoFail) threes) Hc eq_refl (le_S _ _ (le_n _)) threes_fit threes_begun lt_0_5 Hm
    eq_refl eq_refl eq_refl eq_refl) as (cp & H1 & H2 & _).
  exists cp. split; [exact H1|]. rewrite M in H2. exact H2.
Qed.

(** With one file per save it is false from the start: the file of iteration 0 is not found
    (C47), so a process that dies before its second save leaves nothing to resume from. *)
Definition failing (k : nat) : env := match wells_env with
  | mk_env a b c d e f g h i j l m n o _ p q x => mk_env a b c d e f g h i j l m n o (fun t => if t =? k then IoFail else IoOk) p q x end.
Definition all_kept : cp_config := mk_cpc "demo" 2 true true.
Definition keeper : oqnlp := set_o_cp (Some all_kept) (sequential demo_oqnlp).
Lemma failing_ok k : env_ok (failing k).
Proof. destruct (demo_env_ok two_wells to_well). constructor; assumption. Qed.
Lemma failing_whole k : no_torn_write (failing k).
Proof. intros t n. change ((if t =? k then IoFail else IoOk) <> IoShort n). destruct (t =? k); discriminate. Qed.
Definition C103_kept : Prop := forall E E2 p o c r s1 new j, env_ok E -> env_ok E2 -> no_torn_write E -> io_works E2 -> lists_all E2 -> callbacks_keep_settings E ->
  oq_new p = Ok o -> cc_keep_all c = true -> cc_auto_resume c = true -> 0 < cc_save_frequency c ->
  let first := set_o_cp (Some c) (sequential o) in
  run E (start_state first) = (r, s1) -> recorded (start_state first) s1 new ->
  (forall f cp, In (EvSave f cp) new -> checkpoint_ok cp) -> In (EvIteration j) new -> 0 < j ->
  exists cp, resumes_from E2 (next_process s1 first) cp /\ j <= cp_iteration cp + cc_save_frequency c.
Lemma keeper_fit k : saves_okb (state_of (failing k) keeper) = true -> forall f cp, In (EvSave f cp) (record_of (failing k) keeper) -> checkpoint_ok cp.
Proof. intro H. apply (saves_okb_fit (state_of (failing k) keeper)). exact H. Qed.
Theorem C103_first_file_refuted : ~ C103_kept.
Proof.
  intro H.
  assert (Hin : In (EvIteration 2) (record_of (failing 2) keeper)) by (apply begun_iteration; vm_compute; reflexivity).
  assert (Hfit : forall f cp, In (EvSave f cp) (record_of (failing 2) keeper) -> checkpoint_ok cp) by (apply keeper_fit; vm_compute; reflexivity).
  destruct (H (failing 2) wells_env demo_params demo_oqnlp all_kept _ _ _ 2 (failing_ok _) (demo_env_ok _ _) (failing_whole _) (proj1 wells_io) (proj2 wells_io)
    (fun _ _ => conj eq_refl eq_refl) eq_refl eq_refl eq_refl (le_S _ _ (le_n _)) (run_pair (failing 2) keeper) (record_recorded (failing 2) keeper) Hfit Hin
    (le_S _ _ (le_n _))) as (cp & (c & R1 & _ & R3 & _) & _).
  injection R1 as <-.
  assert (X : fst (checkpoint_exists wells_env all_kept (w_disk (s_w (next_process (state_of (failing 2) keeper) keeper)))) = Ok false) by (vm_compute; reflexivity).
  discriminate (eq_trans (eq_sym X) R3).
Qed.
Print Assumptions C103_first_file_refuted.
(** From the iterations on that are further from 0 than the bound, it holds for one file per
    save as well, for every batch size, if the run found its directory in order. *)
Theorem C103_keep_all_partial : forall E E2 s r s1 new j c c2 o2, no_torn_write E -> io_works E2 -> lists_all E2 ->
  run E s = (r, s1) -> recorded s s1 new ->
  o_cp (s_o s1) = Some c -> cc_keep_all c = true -> string_utf8 (cc_name c) -> 0 < cc_save_frequency c -> directory_in_order E s c ->
  (forall f cp, In (EvSave f cp) new -> checkpoint_ok cp) ->
  In (EvIteration j) new -> max_batch (s_o s1) <= j -> cc_save_frequency c + 2 * (max_batch (s_o s1) - 1) < j ->
  o_cp o2 = Some c2 -> cc_name c2 = cc_name c -> cc_keep_all c2 = true -> cc_auto_resume c2 = true ->
  exists cp, resumes_from E2 (next_process s1 o2) cp /\ j <= cp_iteration cp + cc_save_frequency c + 2 * (max_batch (s_o s1) - 1) /\
    Nat.min (p_iterations (cp_params cp)) (List.length (cp_reference_set cp)) = work_bound s1.
Proof. exact c103_keep_all. Qed.
Print Assumptions C103_keep_all_partial.
Theorem C103_keep_all_cost_partial : forall E E2 s r s1 new j c c2 o2 r2 s2 new2, env_ok E2 -> no_torn_write E -> io_works E2 -> lists_all E2 ->
  run E s = (r, s1) -> recorded s s1 new ->
  o_cp (s_o s1) = Some c -> cc_keep_all c = true -> string_utf8 (cc_name c) -> 0 < cc_save_frequency c -> directory_in_order E s c ->
  (forall f cp, In (EvSave f cp) new -> checkpoint_ok cp) ->
  In (EvIteration j) new -> max_batch (s_o s1) <= j -> cc_save_frequency c + 2 * (max_batch (s_o s1) - 1) < j ->
  o_cp o2 = Some c2 -> cc_name c2 = cc_name c -> cc_keep_all c2 = true -> cc_auto_resume c2 = true ->
  run E2 (next_process s1 o2) = (r2, s2) -> recorded (next_process s1 o2) s2 new2 ->
  List.length (objective_calls new2) <= work_bound s1 - j + cc_save_frequency c + 2 * (max_batch (s_o s1) - 1) /\
  List.length (search_starts new2) <= work_bound s1 - j + cc_save_frequency c + 2 * (max_batch (s_o s1) - 1).
Proof. exact c103_keep_all_cost. Qed.
Print Assumptions C103_keep_all_cost_partial.
(** A run in an empty directory dies at its third save, of iteration 4: the next one resumes from
    iteration 2.  That one finds the directory in order, too. *)
Lemma keeper_order k : directory_in_order (failing (S k)) (start_state keeper) all_kept.
Proof.
  left. split.
  - intros cp (c & R1 & _ & R3 & _). injection R1 as <-. discriminate R3.
  - intros f i P. destruct P. reflexivity.
Qed.
Example C103_keep_all_case : result_of (failing 3) keeper = Err (CheckpointError (CpIo "write")) /\
  exists cp, resumes_from wells_env (next_process (state_of (failing 3) keeper) keeper) cp /\ 4 <= cp_iteration cp + 2 + 0.
Proof.
  split; [vm_compute; reflexivity|].
  assert (M : max_batch (s_o (state_of (failing 3) keeper)) = 1) by (vm_compute; reflexivity).
  assert (Hc : o_cp (s_o (state_of (failing 3) keeper)) = Some all_kept) by (vm_compute; reflexivity).
  assert (Hin : In (EvIteration 4) (record_of (failing 3) keeper)) by (apply begun_iteration; vm_compute; reflexivity).
  assert (Hfit : forall f cp, In (EvSave f cp) (record_of (failing 3) keeper) -> checkpoint_ok cp) by (apply keeper_fit; vm_compute; reflexivity).
  assert (H1 : max_batch (s_o (state_of (failing 3) keeper)) <= 4) by (rewrite M; repeat constructor).
  assert (H2 : 2 + 2 * (max_batch (s_o (state_of (failing 3) keeper)) - 1) < 4) by (rewrite M; repeat constructor).
  destruct (C103_keep_all_partial (failing 3) wells_env (start_state keeper) _ _ _ 4 all_kept all_kept keeper (failing_whole 3) (proj1 wells_io) (proj2 wells_io)
    (run_pair (failing 3) keeper) (record_recorded (failing 3) keeper) Hc eq_refl eq_refl (le_S _ _ (le_n _)) (keeper_order 2) Hfit Hin H1 H2
    eq_refl eq_refl eq_refl eq_refl) as (cp & G1 & G2 & _).
  exists cp. split; [exact G1|]. rewrite M in G2. exact G2.
Qed.
Lemma second_saved : exists f cp, In (EvSave f cp) (record_of (failing 3) keeper) /\
  newest_save (tl (record_of (failing 3) keeper)) = Some cp.
Proof.
  assert (X : match newest_save (tl (record_of (failing 3) keeper)) with Some _ => true | None => false end = true) by (vm_compute; reflexivity).
  destruct (newest_save (tl (record_of (failing 3) keeper))) as [cp|] eqn:N; [|discriminate X].
  destruct (newest_in _ _ N) as (a & f & b & H). exists f, cp. split; [|reflexivity].
  destruct (record_of (failing 3) keeper) as [|e l]; [destruct a; discriminate H|]. right. cbn [tl] in H. rewrite H. apply in_or_app. right. left. reflexivity.
Qed.
(** a directory with the files of iterations 0 and [n] *)
Lemma two_files E c o s1 cp n : o_cp o = Some c -> cc_auto_resume c = true -> cc_keep_all c = true -> io_works E -> lists_all E -> string_utf8 (cc_name c) ->
  checkpoint_ok cp -> cp_iteration cp = S n -> content (w_disk (s_w s1)) (file_name c (S n)) = Some (enc_checkpoint cp) ->
  map fst (d_files (w_disk (s_w s1))) = [file_name c 0; file_name c (S n)] -> directory_in_order E (next_process s1 o) c.
Proof.
  intros Ho Ha Hk Hio Hl Hu Hok Hit Hco Hfs. right. exists cp. rewrite Hit.
  assert (Sn : stands_for (cc_name c) (file_name c (S n)) (N.of_nat (S n))) by (apply CheckpointP.generated; [exact Hk|]; rewrite <- Hit; exact (proj1 (proj2 Hok))).
  assert (S0 : stands_for (cc_name c) (file_name c 0) 0) by (apply (CheckpointP.generated c 0); [exact Hk|reflexivity]).
  split.
  - destruct (next_resumes_all E c o s1 Ho Ha Hk Hio Hl Hu) as (g & (k & Pg & Sg & Zg & _) & Hg).
    + exists (file_name c (S n)), (N.of_nat (S n)). split; [|split; [exact Sn|lia]]. unfold present. rewrite Hco. discriminate.
    + apply Hg; [exact Hok|]. apply CheckpointP.present_in in Pg. rewrite Hfs in Pg. destruct Pg as [<-|[<-|[]]]; [|exact Hco].
      rewrite (CheckpointP.stands_fun _ _ _ _ Hu Sg S0) in Zg. discriminate Zg.
  - split; [exact Hok|]. split; [exact Hco|].
    intros g i P Sg. apply CheckpointP.present_in in P. change (w_disk (s_w (next_process s1 o))) with (w_disk (s_w s1)) in P. rewrite Hfs in P.
    destruct P as [<-|[<-|[]]]; [right|left; reflexivity]. rewrite (CheckpointP.stands_fun _ _ _ _ Hu Sg S0). lia.
Qed.
Lemma the_saved (o : option checkpoint) cp (x : option bytes) : o = Some cp -> x = option_map enc_checkpoint o -> x = Some (enc_checkpoint cp).
Proof. intros -> H. exact H. Qed.
Lemma the_number (o : option checkpoint) cp n : o = Some cp -> option_map cp_iteration o = Some n -> cp_iteration cp = n.
Proof. intros -> H. injection H as H. exact H. Qed.
Example C103_order_case : directory_in_order wells_env (next_process (state_of (failing 3) keeper) keeper) all_kept.
Proof.
  destruct second_saved as (f & cp & Hin & N).
  assert (Hfit : forall f cp, In (EvSave f cp) (record_of (failing 3) keeper) -> checkpoint_ok cp) by (apply keeper_fit; vm_compute; reflexivity).
  assert (X1 : option_map cp_iteration (newest_save (tl (record_of (failing 3) keeper))) = Some 2) by (vm_compute; reflexivity).
  assert (X2 : content (w_disk (s_w (state_of (failing 3) keeper))) (file_name all_kept 2) = option_map enc_checkpoint (newest_save (tl (record_of (failing 3) keeper)))) by (vm_compute; reflexivity).
  assert (X3 : map fst (d_files (w_disk (s_w (state_of (failing 3) keeper)))) = [file_name all_kept 0; file_name all_kept 2]) by (vm_compute; reflexivity).
  exact (two_files wells_env all_kept keeper (state_of (failing 3) keeper) cp 1 eq_refl eq_refl eq_refl (proj1 wells_io) (proj2 wells_io) eq_refl
    (Hfit f cp Hin) (the_number _ cp 2 N X1) (the_saved _ cp _ N X2) X3).
Qed.

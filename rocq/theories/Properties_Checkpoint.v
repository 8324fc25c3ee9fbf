(** * Properties of checkpoints and of resuming (C44 - C55)

    Statements only; the proofs are lemmas of CodecP.v, CheckpointP.v, SaveP.v and ResumeP.v. *)
From Coq Require Import ZArith NArith List Bool Arith Lia String Ascii.
From Verif Require Import F64 Base Builders Types Filters Runner Observer Env EnvSpec ScatterSearch Codec
  Checkpoint Oqnlp Spec SpecStage2 SpecObserver SpecCheckpoint SpecSave Demo Demo2 DemoCp CodecP CheckpointP SaveP ResumeP
  SeqP4 BatchSaveP Properties_Stage2.
Import ListNotations.

(** C44: a checkpoint is always created, and restoring it into any optimizer gives one with
    the same parameters, progress and settings. *)
Theorem C44_lossless : forall E s r s1 s2 x s3, create_checkpoint E s = (r, s1) -> exists cp, r = Ok cp /\
  (restore_from_checkpoint cp s2 = (x, s3) -> x = Ok tt /\ same_progress (s_o s) (s_o s3)).
Proof.
  intros E s r s1 s2 x s3 H. destruct (create_agrees E s r s1 H) as (_ & cp & -> & Ha). exists cp. split; [reflexivity|].
  intro Hr. injection Hr as <- <-. split; [reflexivity|]. exact (agrees_same _ _ _ Ha (restored_agrees cp (s_o s2))).
Qed.
Print Assumptions C44_lossless.
Example C44_example : cp_reference_set demo_cp <> [] /\ cp_solution_set demo_cp = Some [sol1 (of_Z (-2)) f0] /\
  cp_iteration demo_cp = 5 /\ List.length (cp_df_solutions demo_cp) = 3.
Proof. split; [vm_compute; discriminate|]. split; [vm_compute; reflexivity|]. split; vm_compute; reflexivity. Qed.

(** C45: the bytes of a checkpoint decode to it, and no strict prefix of them decodes. *)
Theorem C45_round_trip : forall cp, checkpoint_ok cp -> decode_checkpoint (enc_checkpoint cp) = Some cp /\
  forall k, k < List.length (enc_checkpoint cp) -> decode_checkpoint (firstn k (enc_checkpoint cp)) = None.
Proof. exact (fun cp H => conj (decode_encode cp H) (fun k => decode_prefix cp k H)). Qed.
Print Assumptions C45_round_trip.
Example C45_example : checkpoint_ok demo_cp /\ 300 < List.length (enc_checkpoint demo_cp).
Proof. split; [exact demo_cp_ok|]. apply Nat.ltb_lt. vm_compute. reflexivity. Qed.

(** C46: with one file the most recent save is loaded; with all files kept, the save with the
    greatest iteration (the later one of two with the same number).  Other programs may write
    and delete files that are not checkpoints of this name. *)
Theorem C46_single_file : forall E c d h1 cp i h2, io_works E -> lists_all E -> string_utf8 (cc_name c) ->
  cc_keep_all c = false -> checkpoint_ok cp -> Forall (keeps_away c) h2 -> Forall no_save h2 ->
  fst (load_latest E c (apply_ops E c d (h1 ++ Save cp i :: h2))) = Ok cp.
Proof. exact load_last_single. Qed.
Print Assumptions C46_single_file.
Theorem C46_keep_all : forall E c d h1 cp i h2, io_works E -> lists_all E -> string_utf8 (cc_name c) ->
  cc_keep_all c = true -> checkpoint_ok cp -> 1 <= i -> usize_ok i ->
  Forall (keeps_away c) (h1 ++ h2) -> Forall (saves_up_to i) h1 -> Forall (saves_below i) h2 ->
  (forall f j, present d f -> stands_for (cc_name c) f j -> (j < N.of_nat i)%N) ->
  fst (load_latest E c (apply_ops E c d (h1 ++ Save cp i :: h2))) = Ok cp.
Proof. exact load_greatest. Qed.
Print Assumptions C46_keep_all.
Definition all_files : cp_config := mk_cpc "demo" 1 true true.
Example C46_example : string_utf8 (cc_name all_files) /\
  fst (load_latest wells_env all_files (apply_ops wells_env all_files no_files
    ([Save early_cp 3; Write (str_bytes "notes.txt") []] ++ Save demo_cp 12 :: [Save early_cp 7]))) = Ok demo_cp /\
  keeps_away all_files (Write (str_bytes "notes.txt") []) /\ 1 <= 12.
Proof.
  split; [reflexivity|]. split; [vm_compute; reflexivity|]. split; [|lia]. split; [discriminate|].
  intros i (s & d & H & _). discriminate.
Qed.

(** C47 is false of the code: iteration 0 is not above the initial 0 of the search. *)
Definition C47_full : Prop := forall E c d cp, io_works E -> lists_all E -> string_utf8 (cc_name c) ->
  cc_keep_all c = true -> fst (checkpoint_exists E c (snd (save_checkpoint E c cp 0 d))) = Ok true.
Theorem C47_iteration_zero_refuted : ~ C47_full.
Proof.
  intro H. specialize (H wells_env all_files no_files demo_cp (proj1 wells_io) (proj2 wells_io) eq_refl eq_refl).
  assert (X : fst (checkpoint_exists wells_env all_files (snd (save_checkpoint wells_env all_files demo_cp 0 no_files))) = Ok false)
    by (vm_compute; reflexivity).
  rewrite X in H. discriminate.
Qed.
Print Assumptions C47_iteration_zero_refuted.
(** What holds: every other iteration is found.  Missing: iteration 0. *)
Theorem C47_later_iterations_partial : forall E c d cp i, io_works E -> lists_all E -> string_utf8 (cc_name c) ->
  cc_keep_all c = true -> 1 <= i -> usize_ok i ->
  fst (checkpoint_exists E c (snd (save_checkpoint E c cp i d))) = Ok true.
Proof.
  intros E c d cp i W L U K Hi Ui. apply (exists_spec E c _ W L U). rewrite K.
  exists (file_name c i), (N.of_nat i). split; [|split; [apply generated; assumption|lia]].
  unfold present. rewrite content_save by apply W. rewrite bytes_eqb_refl. discriminate.
Qed.
Print Assumptions C47_later_iterations_partial.
Example C47_example : usize_ok 1 /\ string_utf8 (cc_name all_files) /\ cc_keep_all all_files = true.
Proof. split; [apply small; vm_compute; reflexivity|]. split; reflexivity. Qed.

(** C48: the file name for an iteration stands for that iteration and no other; different
    iterations have different names; and a directory entry is read as what it stands for. *)
Theorem C48_names : forall c i, cc_keep_all c = true -> usize_ok i -> string_utf8 (cc_name c) ->
  (forall j, stands_for (cc_name c) (file_name c i) j <-> j = N.of_nat i) /\
  (forall j, usize_ok j -> file_name c i = file_name c j -> i = j) /\
  entry_iteration (cc_name c) (file_name c i) = Ok (Some (N.of_nat i)).
Proof.
  intros c i K U S. split; [|split].
  - intro j. split; [intro H; eapply stands_fun; eauto using generated|intros ->; apply generated; assumption].
  - intros j _. apply file_name_inj. exact K.
  - apply entry_iff; [exact S|]. apply generated; assumption.
Qed.
Print Assumptions C48_names.
Theorem C48_entries : forall name f i, string_utf8 name ->
  entry_iteration name f = Ok (Some i) <-> stands_for name f i.
Proof. exact entry_iff. Qed.
Print Assumptions C48_entries.
Example C48_example : file_name all_files 7 = str_bytes "demo_000007.bin" /\
  file_name all_files (20 * 100 * 1000) = str_bytes "demo_2000000.bin" /\ cc_keep_all all_files = true.
Proof. repeat split; vm_compute; reflexivity. Qed.

(** C49 is false of the code for two modes: the single file of "b_000001" is what the name "b"
    takes for its iteration 1. *)
Definition C49_full : Prop := forall E c1 c2 cp i d, io_works E -> lists_all E -> string_utf8 (cc_name c2) -> usize_ok i ->
  cc_name c1 <> cc_name c2 -> distinct_iterations (cc_name c2) d ->
  fst (load_latest E c2 (snd (save_checkpoint E c1 cp i d))) = fst (load_latest E c2 d).
Theorem C49_mixed_modes_refuted : ~ C49_full.
Proof.
  intro H. specialize (H wells_env (mk_cpc "b_000001" 1 false true) (mk_cpc "b" 1 true true) demo_cp 4 no_files
    (proj1 wells_io) (proj2 wells_io) eq_refl (small 4 eq_refl)).
  assert (X : fst (load_latest wells_env (mk_cpc "b" 1 true true) (snd (save_checkpoint wells_env
     (mk_cpc "b_000001" 1 false true) demo_cp 4 no_files))) = Ok demo_cp) by (vm_compute; reflexivity).
  rewrite X in H. assert (Y : fst (load_latest wells_env (mk_cpc "b" 1 true true) no_files) = Err CpNotFound) by (vm_compute; reflexivity).
  rewrite Y in H. assert (Z : @Ok cp_error checkpoint demo_cp = Err CpNotFound); [|discriminate].
  apply H; [discriminate|]. intros f g j Hf. exfalso. apply Hf. reflexivity.
Qed.
Print Assumptions C49_mixed_modes_refuted.
(** What holds: names in the same mode do not interfere, when no two files stand for the same
    iteration.  Missing: a single file next to kept files. *)
Theorem C49_same_mode_partial : forall E c1 c2 cp i d, io_works E -> lists_all E -> string_utf8 (cc_name c2) -> usize_ok i ->
  cc_name c1 <> cc_name c2 -> cc_keep_all c1 = cc_keep_all c2 -> distinct_iterations (cc_name c2) d ->
  fst (load_latest E c2 (snd (save_checkpoint E c1 cp i d))) = fst (load_latest E c2 d).
Proof. exact other_name. Qed.
Print Assumptions C49_same_mode_partial.
(** names that extend each other *)
Example C49_example :
  let d := snd (save_checkpoint wells_env (mk_cpc "a" 1 true true) early_cp 1 no_files) in
  let d' := snd (save_checkpoint wells_env (mk_cpc "a_1" 1 true true) demo_cp 5 d) in
  fst (load_latest wells_env (mk_cpc "a" 1 true true) d') = Ok early_cp /\
  fst (load_latest wells_env (mk_cpc "a_1" 1 true true) d') = Ok demo_cp.
Proof. split; vm_compute; reflexivity. Qed.

(** C50: cleanup keeps the n files with the greatest iterations, removes the other
    checkpoints of this name and touches nothing else; *)
Theorem C50_cleanup : forall E c n d, io_works E -> lists_all E -> string_utf8 (cc_name c) ->
  NoDup (map fst (d_files d)) -> cc_keep_all c = true -> 1 <= n ->
  exists d' kept removed, cleanup E c n d = (Ok tt, d') /\
    NoDup (kept ++ removed) /\
    (forall f, In f (kept ++ removed) <-> present d f /\ exists i, stands_for (cc_name c) f i) /\
    List.length kept = min n (List.length (kept ++ removed)) /\
    (forall k r i j, In k kept -> In r removed -> stands_for (cc_name c) k i -> stands_for (cc_name c) r j -> (j <= i)%N) /\
    (forall f, In f removed -> content d' f = None) /\
    (forall f, ~ In f removed -> content d' f = content d f).
Proof. exact cleanup_spec. Qed.
Print Assumptions C50_cleanup.
(** it does not change what is loaded; *)
Theorem C50_load : forall E c n d, io_works E -> lists_all E -> string_utf8 (cc_name c) ->
  NoDup (map fst (d_files d)) -> distinct_iterations (cc_name c) d ->
  fst (load_latest E c (snd (cleanup E c n d))) = fst (load_latest E c d).
Proof. exact cleanup_load. Qed.
Print Assumptions C50_load.
(** otherwise it does nothing. *)
Theorem C50_off : forall E c n d, cc_keep_all c = false \/ n = 0 -> cleanup E c n d = (Ok tt, d).
Proof. exact cleanup_off. Qed.
Print Assumptions C50_off.
Example C50_example :
  let d := apply_ops wells_env all_files no_files [Save early_cp 9; Save demo_cp 10; Save early_cp 2; Write (str_bytes "demo.txt") []] in
  map (fun kv => string_of_list_ascii (fst kv)) (d_files d) =
    ["demo_000009.bin"; "demo_000010.bin"; "demo_000002.bin"; "demo.txt"]%string /\
  map (fun kv => string_of_list_ascii (fst kv)) (d_files (snd (cleanup wells_env all_files 1 d))) =
    ["demo_000010.bin"; "demo.txt"]%string.
Proof. split; vm_compute; reflexivity. Qed.

(** C51 is false of the code in both modes: the file is written in place, and a torn file is
    an error.  [E0] decides what happens to the interrupted write, [E] is a later process. *)
Definition C51_full (keep_all : bool) : Prop := forall E0 E c cp0 cp i d, io_works E -> lists_all E -> string_utf8 (cc_name c) ->
  distinct_iterations (cc_name c) d -> checkpoint_ok cp -> usize_ok i -> cc_keep_all c = keep_all ->
  fst (load_latest E c d) = Ok cp0 ->
  let d' := snd (save_checkpoint E0 c cp i d) in
  fst (load_latest E c d') = Ok cp0 \/ fst (load_latest E c d') = Ok cp.
Theorem C51_single_file_refuted : ~ C51_full false.
Proof.
  intro H. set (c := mk_cpc "demo" 1 false true).
  set (d := snd (save_checkpoint wells_env c early_cp 1 no_files)).
  assert (X : fst (load_latest wells_env c (snd (save_checkpoint torn_env c demo_cp 2 d))) = Err CpSerialization) by (vm_compute; reflexivity).
  destruct (H torn_env wells_env c early_cp demo_cp 2 d (proj1 wells_io) (proj2 wells_io) eq_refl (one_iteration _ _ _) demo_cp_ok
    (small 2 eq_refl) eq_refl) as [G|G]; [vm_compute; reflexivity| |]; rewrite X in G; discriminate.
Qed.
Print Assumptions C51_single_file_refuted.
Theorem C51_keep_all_refuted : ~ C51_full true.
Proof.
  intro H. set (d := snd (save_checkpoint wells_env all_files early_cp 1 no_files)).
  assert (X : fst (load_latest wells_env all_files (snd (save_checkpoint torn_env all_files demo_cp 2 d))) = Err CpSerialization) by (vm_compute; reflexivity).
  destruct (H torn_env wells_env all_files early_cp demo_cp 2 d (proj1 wells_io) (proj2 wells_io) eq_refl (one_iteration _ _ _) demo_cp_ok
    (small 2 eq_refl) eq_refl) as [G|G]; [vm_compute; reflexivity| |]; rewrite X in G; discriminate.
Qed.
Print Assumptions C51_keep_all_refuted.
(** What holds for every crash point: the old checkpoint, the new one or an error is loaded,
    never anything else; *)
Theorem C51_detected_partial : forall E0 E c cp i d, io_works E -> lists_all E -> string_utf8 (cc_name c) ->
  distinct_iterations (cc_name c) d -> checkpoint_ok cp -> usize_ok i ->
  let d' := snd (save_checkpoint E0 c cp i d) in
  fst (load_latest E c d') = fst (load_latest E c d) \/ fst (load_latest E c d') = Ok cp \/
  fst (load_latest E c d') = Err CpSerialization.
Proof. exact interrupted. Qed.
Print Assumptions C51_detected_partial.
(** a crash before the file is opened changes nothing; *)
Theorem C51_before_open_partial : forall E0 E c cp i d, io_works E -> lists_all E -> string_utf8 (cc_name c) ->
  distinct_iterations (cc_name c) d -> e_io E0 (d_tick d) = IoFail ->
  fst (load_latest E c (snd (save_checkpoint E0 c cp i d))) = fst (load_latest E c d).
Proof. exact interrupted_before. Qed.
Print Assumptions C51_before_open_partial.
(** and every other file can still be loaded by its path.  Missing: a torn file is skipped. *)
Theorem C51_other_files_partial : forall E0 E c cp i d f, io_works E -> f <> file_name c i ->
  fst (load_from_path E f (snd (save_checkpoint E0 c cp i d))) = fst (load_from_path E f d).
Proof. exact others_intact. Qed.
Print Assumptions C51_other_files_partial.
Example C51_example :
  let d := snd (save_checkpoint wells_env all_files early_cp 1 no_files) in
  fst (load_from_path wells_env (file_name all_files 1) (snd (save_checkpoint torn_env all_files demo_cp 2 d))) = Ok early_cp.
Proof. vm_compute. reflexivity. Qed.

(** C52, sequential mode.  When an iteration begins, the saves so far were for exactly those
    earlier iterations whose index is a multiple of the frequency; *)
Theorem C52_periodic : forall E s r s' new l1 i l2, env_ok E -> callbacks_keep_settings E ->
  run E s = (r, s') -> recorded s s' new -> o_parallel (s_o s') = false -> new = l1 ++ EvIteration i :: l2 ->
  saved l2 = filter (due_save (o_cp (s_o s'))) (begun l2).
Proof.
  intros E s r s' new l1 i l2 Hok Hcb Hrun Hnew Hpar Heq.
  exact (proj2 (before_iteration E Hok Hcb s s' r new Hrun Hnew Hpar l1 i l2 Heq)).
Qed.
Print Assumptions C52_periodic.
(** at the end there is one more, the final one; an iteration that reached the target has no
    periodic save; a run that reached the target in Stage 1 has no save at all; *)
Theorem C52_final : forall E s set s' new, env_ok E -> callbacks_keep_settings E ->
  run E s = (Ok set, s') -> recorded s s' new -> o_parallel (s_o s') = false ->
  (begun new = [] /\ saved new = [] /\ target_hit E (s_o s') set) \/
  exists fin l it, new = fin ++ l /\ final_record (o_cp (s_o s')) it fin /\ (forall i rest, begun new = i :: rest -> it = i) /\
    (saved l = filter (due_save (o_cp (s_o s'))) (begun new) \/
     target_hit E (s_o s') set /\ saved l = filter (due_save (o_cp (s_o s'))) (tl (begun new))).
Proof.
  intros E s set s' new Hok Hcb Hrun Hnew Hpar.
  destruct (at_end E Hok Hcb s s' (Ok set) new Hrun Hnew Hpar set eq_refl) as
    [(H1 & _ & H3 & H4)|(fin & l & it & H1 & H2 & H3 & _ & [(_ & H4)|(H4 & _ & H5)])]; [left; auto|right ..];
    exists fin, l, it; auto 6.
Qed.
Print Assumptions C52_final.
(** each save is made when its iteration is over: only callbacks, saves and clock readings
    are recorded before the next iteration begins; *)
Theorem C52_after_iteration : forall E s r s' new l1 f cp l2, env_ok E -> callbacks_keep_settings E -> run E s = (r, s') ->
  recorded s s' new -> o_parallel (s_o s') = false -> new = l1 ++ EvSave f cp :: l2 -> idle_until_next l1.
Proof. exact saves_between. Qed.
Print Assumptions C52_after_iteration.
(** The state a checkpoint should carry includes the wait counter; that is false of the code:
    the saved counter is the one from before the iteration. *)
Definition C52_full : Prop := forall E p o r s' new l1 f cp l2, env_ok E -> oq_new p = Ok o ->
  run E (start_state (saving (sequential o))) = (r, s') -> recorded (start_state (saving (sequential o))) s' new ->
  new = l1 ++ EvSave f cp :: l2 ->
  (exists set, cp_solution_set cp = Some set) /\ rejections l2 = relaxations l2 * cycle (s_o s') + cp_unchanged cp.
Theorem C52_counter_refuted : ~ C52_full.
Proof.
  intro H. set (p := with_wait 5 demo_params). set (o := made p).
  destruct (stale_counter_split 5 (record_of wells_env (saving (sequential o)))) as (l1 & f & cp & l2 & Heq & N).
  - vm_compute. reflexivity.
  - apply N. pose proof (proj2 (H wells_env p o _ _ _ l1 f cp l2 (demo_env_ok _ _) eq_refl
      (run_pair _ _) (record_recorded _ _) Heq)) as G.
    replace (cycle (s_o (state_of wells_env (saving (sequential o))))) with 5 in G by (vm_compute; reflexivity). exact G.
Qed.
Print Assumptions C52_counter_refuted.
(** What holds, in both modes: each checkpoint carries the solution set, the threshold and the
    local solutions that the events before the save lead to from the state the run started
    with, the reference set, the parameters and the settings.  Missing: the counter. *)
Theorem C52_state_partial : forall E s r s' new, run E s = (r, s') -> recorded s s' new ->
  exists o, starts_as E s o /\ forall l1 f cp l2, new = l1 ++ EvSave f cp :: l2 -> carries o l2 (points_of (s_o s')) cp.
Proof. exact run_saves. Qed.
Print Assumptions C52_state_partial.
Example C52_example :
  rev (saved (record_of wells_env (saving (sequential demo_oqnlp)))) = [0; 1; 2; 3; 4; 5; 5] /\
  rev (saved (record_of wells_env (set_o_cp (Some (mk_cpc "demo" 2 true false)) (sequential demo_oqnlp)))) = [0; 2; 4; 5].
Proof. split; vm_compute; reflexivity. Qed.

(** C53 is false of the code: the checkpoint holds the reference set in its order before the
    shuffle, and the saved iteration is done again. *)
Definition C53_full : Prop := forall E p o set s' new l1 f cp l2, env_ok E -> oq_new p = Ok o ->
  run E (start_state (saving (sequential o))) = (Ok set, s') -> recorded (start_state (saving (sequential o))) s' new ->
  new = l1 ++ EvSave f cp :: l2 -> fst (run E (stopped_with f cp (saving (sequential o)))) = Ok set.
Theorem C53_resume_refuted : ~ C53_full.
Proof.
  intro H. set (o := saving (sequential demo_oqnlp)).
  assert (Hr : result_of wells_env o = Ok [sol1 (of_Z (-2)) f0]) by (vm_compute; reflexivity).
  pose proof (run_pair wells_env o) as Hrun. rewrite Hr in Hrun.
  destruct (other_count_split wells_env o 1 (record_of wells_env o)) as (l1 & f & cp & l2 & Heq & N).
  - vm_compute. reflexivity.
  - apply N. unfold o at 1.
    rewrite (H wells_env demo_params demo_oqnlp _ _ _ l1 f cp l2 (demo_env_ok _ _) eq_refl Hrun (record_recorded _ _) Heq).
    reflexivity.
Qed.
Print Assumptions C53_resume_refuted.
(** What holds: the resumed run is never worse than the checkpoint, and works with its state
    ([C52_state_partial] with [starts_as]).  Missing: the same result. *)
Theorem C53_no_worse_partial : forall E s set s' new cp s0, run E s = (Ok set, s') -> recorded s s' new ->
  resumes_from E s cp -> wf (cp_abs_tol cp) = true -> wf (cp_rel_tol cp) = true -> fle f0 (cp_abs_tol cp) = true ->
  cp_solution_set cp = Some s0 -> numeric_set s0 -> (forall x, In (EvResult x) new -> number (ls_obj x)) ->
  not_worse set s0.
Proof. exact resumed_no_worse. Qed.
Print Assumptions C53_no_worse_partial.
Example C53_example : resumes_from wells_env (stopped_with (file_name each_iteration 0) demo_cp (saving (sequential demo_oqnlp))) demo_cp /\
  fst (run wells_env (stopped_with (file_name each_iteration 0) demo_cp (saving (sequential demo_oqnlp)))) =
    Ok [sol1 (of_Z (-2)) f0; sol1 f2 f0].
Proof.
  split; [|vm_compute; reflexivity]. exists each_iteration. split; [reflexivity|]. split; [reflexivity|]. split; vm_compute; reflexivity.
Qed.

(** C54 is false of the code in parallel mode: a candidate judged without a search is saved
    before earlier candidates of its batch are searched. *)
Definition C54_full : Prop := forall E p o n r s' new l1 f cp l2 j, env_ok E -> oq_new p = Ok o -> 1 <= n ->
  let s := start_state (saving (batch_iterations n o)) in
  run E s = (r, s') -> recorded s s' new -> new = l1 ++ EvSave f cp :: l2 -> j < cp_iteration cp -> finished E (s_o s') j l2.
Theorem C54_parallel_refuted : ~ C54_full.
Proof.
  intro H. destruct (skipping_split 3 (record_of wells_env (saving (batch_iterations 3 demo_oqnlp)))) as (l1 & f & cp & l2 & Heq & Hj & Hu).
  - vm_compute. reflexivity.
  - eapply untouched_not; [exact Hu|].
    refine (H wells_env demo_params demo_oqnlp 3 _ _ _ l1 f cp l2 3 (demo_env_ok _ _) eq_refl _ (run_pair _ _) (record_recorded _ _) Heq Hj). lia.
Qed.
Print Assumptions C54_parallel_refuted.
(** What holds in sequential mode: at each save every candidate from the first of the run up
    to the saved iteration is finished.  Missing: parallel mode. *)
Theorem C54_sequential_partial : forall E s r s' new, env_ok E -> callbacks_keep_settings E -> run E s = (r, s') ->
  recorded s s' new -> o_parallel (s_o s') = false -> o_iteration (s_o s) = 0 ->
  exists start, first_index E s start /\ (forall j, In j (begun new) -> start <= j) /\
    forall l1 f cp l2, new = l1 ++ EvSave f cp :: l2 ->
      (forall j, start <= j -> j < cp_iteration cp -> finished E (s_o s') j l2) /\
      (In (cp_iteration cp) (begun l2) -> finished E (s_o s') (cp_iteration cp) l2).
Proof. exact (fun E s r s' new Hok Hcb Hrun Hnew Hpar => at_save E Hok Hcb s s' r new Hrun Hnew Hpar). Qed.
Print Assumptions C54_sequential_partial.
Example C54_example : env_ok wells_env /\ callbacks_keep_settings wells_env /\ o_iteration (saving (sequential demo_oqnlp)) = 0 /\
  saved (record_of wells_env (saving (sequential demo_oqnlp))) <> [].
Proof.
  split; [apply demo_env_ok|]. split; [intros n o; split; reflexivity|]. split; [reflexivity|vm_compute; discriminate].
Qed.

(** What holds in both modes, for every outcome of the run: at each save every candidate that is a
    batch or more behind the saved iteration is settled, so a resumed run skips fewer candidates
    than fit in a batch.  Missing: the last candidates before the saved one. *)
Theorem C54_batches_partial : forall E s r s' new, run E s = (r, s') -> recorded s s' new -> o_iteration (s_o s) = 0 ->
  exists start, first_index E s start /\
    forall l1 f cp l2, new = l1 ++ EvSave f cp :: l2 ->
    forall j, start <= j -> j + max_batch (s_o s') <= cp_iteration cp -> settled E (s_o s') j l2.
Proof. exact batch_saves. Qed.
Print Assumptions C54_batches_partial.
Example C54_batches_example : o_iteration (saving (batch_iterations 2 demo_oqnlp)) = 0 /\
  max_batch (s_o (snd (run wells_env (start_state (saving (batch_iterations 2 demo_oqnlp)))))) = 2 /\
  existsb (fun i => 2 <=? i) (saved (record_of wells_env (saving (batch_iterations 2 demo_oqnlp)))) = true.
Proof. split; [reflexivity|]. split; vm_compute; reflexivity. Qed.

(** C55 is false of the code: a following run with auto_resume loads the old parameters again, *)
Definition C55_full : Prop := forall E np s s1 r s', env_ok E -> resume_with_modified_params E np s = (Ok true, s1) ->
  run E s1 = (r, s') -> o_params (s_o s') = np.
Definition stopped_demo (c : cp_config) : st := stopped_with (file_name c 0) demo_cp (set_o_cp (Some c) (sequential demo_oqnlp)).
Theorem C55_auto_resume_refuted : ~ C55_full.
Proof.
  intro H. set (s := stopped_demo each_iteration). set (np := with_wait 9 demo_params).
  set (s1 := snd (resume_with_modified_params wells_env np s)).
  assert (H1 : fst (resume_with_modified_params wells_env np s) = Ok true) by (vm_compute; reflexivity).
  assert (H2 : p_wait_cycle (o_params (s_o (snd (run wells_env s1)))) = 1) by (vm_compute; reflexivity).
  pose proof (pair_fst _ _ _ _ H1) as H3. fold s1 in H3. pose proof (pair_fst _ _ (run wells_env s1) _ eq_refl) as H4.
  rewrite (H wells_env np s s1 _ _ (demo_env_ok _ _) H3 H4) in H2. discriminate H2.
Qed.
Print Assumptions C55_auto_resume_refuted.
(** and even without auto_resume the local solver and the distance filter keep their old
    settings. *)
Definition C55_solver_full : Prop := forall E np s s1 r s', env_ok E -> resume_with_modified_params E np s = (Ok true, s1) ->
  (forall c, o_cp (s_o s) = Some c -> cc_auto_resume c = false) -> run E s1 = (r, s') ->
  o_solver_type (s_o s') = p_solver_type np /\ fp_distance_factor (df_params (o_df (s_o s'))) = p_distance_factor np.
Definition no_resume : cp_config := mk_cpc "demo" 1 false false.
Theorem C55_solver_refuted : ~ C55_solver_full.
Proof.
  intro H. set (s := stopped_demo no_resume). set (np := with_factor f2 demo_params).
  set (s1 := snd (resume_with_modified_params wells_env np s)).
  assert (H1 : fst (resume_with_modified_params wells_env np s) = Ok true) by (vm_compute; reflexivity).
  assert (H2 : fp_distance_factor (df_params (o_df (s_o (snd (run wells_env s1))))) = lit 75 100) by (vm_compute; reflexivity).
  pose proof (pair_fst _ _ _ _ H1) as H3. fold s1 in H3. pose proof (pair_fst _ _ (run wells_env s1) _ eq_refl) as H4.
  assert (H5 : forall c, o_cp (s_o s) = Some c -> cc_auto_resume c = false) by (intros c Hc; injection Hc as <-; reflexivity).
  rewrite (proj2 (H wells_env np s s1 _ _ (demo_env_ok _ _) H3 H5 H4)) in H2. vm_compute in H2. discriminate H2.
Qed.
Print Assumptions C55_solver_refuted.
(** What holds: without auto_resume the next run keeps the new parameters (which it uses for
    iterations, population, wait cycle and threshold factor).  Missing: the solver and the
    distance factor, and auto_resume. *)
Theorem C55_manual_resume_partial : forall E np s s1 r s', resume_with_modified_params E np s = (Ok true, s1) ->
  (forall c, o_cp (s_o s) = Some c -> cc_auto_resume c = false) -> run E s1 = (r, s') -> o_params (s_o s') = np.
Proof. exact modified_run. Qed.
Print Assumptions C55_manual_resume_partial.
Example C55_example : fst (resume_with_modified_params wells_env (with_wait 9 demo_params) (stopped_demo no_resume)) = Ok true.
Proof. vm_compute. reflexivity. Qed.

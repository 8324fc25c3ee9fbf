(** * Properties of the crate's cargo features (C78 - C80)

    Statements only; the proofs are lemmas of FeaturesP.v, FeaturesQ.v, FeaturesR.v and
    FeaturesS.v.  [build_run F] is the optimization as compiled with the features [F];
    [run] is the optimization with all of them, which the other properties are about. *)
From Coq Require Import ZArith NArith List Bool Arith Lia Ascii String.
From Verif Require Import F64 Base Builders Types Filters Runner Observer Env EnvSpec ScatterSearch Codec
  Checkpoint Oqnlp Features SpecCheckpoint SpecFeatures Demo Demo2 DemoCp DemoFeatures FeaturesP FeaturesR FeaturesS.
Import ListNotations.

(** the transcription of all builds agrees with the one the other properties use *)
Theorem C78_all_features : forall E s, build_run (mk_features true true) E s = run E s.
Proof. exact full_is_run. Qed.
Print Assumptions C78_all_features.
(** C78: compiling without rayon is switching parallel processing off: the same calls,
    decisions, solutions, callbacks, messages, saves and files (up to the two settings that
    the file format has only with rayon), whatever the settings, the problem, the files
    present and the failures of the file system *)
Theorem C78_without_rayon : forall E s files,
  alike_files read_alike (w_disk (s_w s)) (w_disk (s_w (switched_off s files))) ->
  same_execution (fun c c' => read_alike c c' \/ written_alike c c')
    (build_run (mk_features false true) E s) (run E (switched_off s files)).
Proof. exact without_rayon. Qed.
Print Assumptions C78_without_rayon.
(** without the checkpointing feature too, the files play no role *)
Theorem C78_without_both : forall E s,
  same_execution eq (build_run (mk_features false false) E s)
    (build_run (mk_features true false) E (switched_off s (d_files (w_disk (s_w s))))).
Proof. exact without_both. Qed.
Print Assumptions C78_without_both.
(** what the two builds write for the same state they read alike: the comparison carries
    over to a resumed run *)
Theorem C78_own_files : forall cp cp', checkpoint_ok cp -> checkpoint_ok cp' -> alike_checkpoint cp cp' ->
  cp_parallel cp' = false ->
  read_alike (b_enc_checkpoint (mk_features false true) cp) (b_enc_checkpoint (mk_features true true) cp').
Proof. exact own_files_alike. Qed.
Print Assumptions C78_own_files.
(** an optimizer that resumes from a file, runs two more saves and returns a solution *)
Example C78_example :
  alike_files read_alike (w_disk (s_w (before no_ray))) (w_disk (s_w (switched_off (before no_ray) (d_files (w_disk (s_w (before full_build))))))) /\
  fst (build_run no_ray wells_env (before no_ray)) = Ok [sol1 (of_Z (-2)) f0; sol1 (of_Z 2) f0] /\
  List.length (w_trace (s_w (snd (build_run no_ray wells_env (before no_ray))))) > 5.
Proof.
  split; [|split].
  - constructor; [|constructor]. split; [reflexivity|]. cbn [snd].
    apply own_files_alike; [exact demo_cp_ok|exact demo_cp_ok|unfold alike_checkpoint; repeat split|vm_compute; reflexivity].
  - vm_compute. reflexivity.
  - apply Nat.ltb_lt. vm_compute. reflexivity.
Qed.

(** C79: with no checkpoint manager attached, the checkpointing feature should change
    nothing.  It does: the feature adds `current_iteration`, which survives a run and is
    added to the seed of the next one ... *)
Definition C79_reuse_full : Prop := forall ray E s, o_cp (s_o s) = None -> o_iteration (s_o s) = 0 ->
  (p_seed (o_params (s_o s)) < 2 ^ 64)%N -> e_overflow_checks E = false ->
  same_execution eq
    (build_run (mk_features ray false) E (snd (build_run (mk_features ray false) E s)))
    (build_run (mk_features ray true) E (snd (build_run (mk_features ray true) E s))).
Lemma same_points : forall l l', Forall2 alike_event l l' -> decided_points l' = decided_points l.
Proof.
  intros l l' H. induction H as [|e e' l l' K H IH]; [reflexivity|]. cbn. fold (decided_points l) (decided_points l'). rewrite IH. f_equal.
  destruct e, e'; cbn in *; try (inversion K; subst; reflexivity); try discriminate; intuition congruence.
Qed.
Theorem C79_reuse_refuted : ~ C79_reuse_full.
Proof.
  intro H. specialize (H true (seeded_env false) (start_state (sequential demo_oqnlp))).
  assert (S : (p_seed demo_params < 2 ^ 64)%N) by (vm_compute; reflexivity).
  specialize (H eq_refl eq_refl S eq_refl). destruct H as (_ & _ & _ & H). apply same_points in H.
  apply (f_equal (map (map to_bits))) in H.
  assert (B : (if list_eq_dec (list_eq_dec N.eq_dec) (map (map to_bits) (decided_points (w_trace (s_w (snd (second_run full_build))))))
                 (map (map to_bits) (decided_points (w_trace (s_w (snd (second_run no_ckpt)))))) then true else false) = false) by (vm_compute; reflexivity).
  destruct (list_eq_dec _ _ _) as [e|n]; [discriminate|]. apply n. exact H.
Qed.
Print Assumptions C79_reuse_refuted.
(** ... and adds each iteration number to the seed, which panics with overflow checks when
    the seed is large *)
Definition C79_seed_full : Prop := forall ray E s, o_cp (s_o s) = None -> o_iteration (s_o s) = 0 ->
  (p_seed (o_params (s_o s)) < 2 ^ 64)%N ->
  same_execution eq (build_run (mk_features ray false) E s) (build_run (mk_features ray true) E s).
Theorem C79_seed_refuted : ~ C79_seed_full.
Proof.
  intro H. specialize (H true (seeded_env true) (start_state (sequential (made last_seed)))).
  assert (I : o_cp (sequential (made last_seed)) = None /\ o_iteration (sequential (made last_seed)) = 0 /\
              p_seed (o_params (sequential (made last_seed))) = (2 ^ 64 - 1)%N) by (vm_compute; auto).
  destruct I as (I1 & I2 & I3).
  assert (S : (p_seed (o_params (s_o (start_state (sequential (made last_seed))))) < 2 ^ 64)%N)
    by (change (s_o (start_state (sequential (made last_seed)))) with (sequential (made last_seed)); rewrite I3; vm_compute; reflexivity).
  specialize (H I1 I2 S). destruct H as (H & _).
  assert (B : (match fst (overflow_run full_build), fst (overflow_run no_ckpt) with Panic, Ok _ => true | _, _ => false end) = true)
    by (vm_compute; reflexivity).
  assert (X : fst (overflow_run full_build) = fst (overflow_run no_ckpt)) by exact H. revert B X. clear.
  generalize (fst (overflow_run full_build)) (fst (overflow_run no_ckpt)). intros x y B ->. destruct y; discriminate.
Qed.
Print Assumptions C79_seed_refuted.
(** What holds: the first run of an optimizer without a manager is the same with and without
    the feature, unless seed plus iterations overflows with overflow checks.  Missing: later
    runs on the same optimizer, and that overflow. *)
Theorem C79_first_run_partial : forall ray E s, o_cp (s_o s) = None -> o_iteration (s_o s) = 0 ->
  (p_seed (o_params (s_o s)) < 2 ^ 64)%N ->
  (e_overflow_checks E = false \/ (p_seed (o_params (s_o s)) + N.of_nat (p_iterations (o_params (s_o s))) <= 2 ^ 64)%N) ->
  same_execution eq (build_run (mk_features ray false) E s) (build_run (mk_features ray true) E s).
Proof. exact without_checkpointing. Qed.
Print Assumptions C79_first_run_partial.
Example C79_example : o_cp demo_oqnlp = None /\ o_iteration demo_oqnlp = 0 /\
  (p_seed (o_params demo_oqnlp) + N.of_nat (p_iterations (o_params demo_oqnlp)) <= 2 ^ 64)%N /\
  fst (build_run (mk_features true false) wells_env (start_state demo_oqnlp)) = Ok [sol1 (of_Z (-2)) f0; sol1 (of_Z 2) f0].
Proof. split; [reflexivity|]. split; [reflexivity|]. split; [vm_compute; discriminate|vm_compute; reflexivity]. Qed.

(** C80: every build reads back what it wrote ... *)
Theorem C80_same_build : forall F cp, checkpoint_ok cp ->
  b_decode F (b_enc_checkpoint F cp) = Some (as_kept F cp) /\
  forall k, k < List.length (b_enc_checkpoint F cp) -> b_decode F (firstn k (b_enc_checkpoint F cp)) = None.
Proof. intros F cp H. split; [apply own_decode; exact H|]. intros k Hk. apply own_prefix; assumption. Qed.
Print Assumptions C80_same_build.
(** ... and should refuse a file of the other build or read the same values from it.  A file
    with a batch size and without tolerances is accepted with other tolerances and without
    its timestamp: the format carries no mark of the build. *)
Definition C80_full : Prop := forall F G cp cp', checkpoint_ok cp -> real_timestamp (cp_timestamp cp) ->
  b_decode G (b_enc_checkpoint F cp) = Some cp' -> alike_checkpoint cp cp'.
Theorem C80_accepted_refuted : ~ C80_full.
Proof.
  intro H. destruct (b_decode no_ray (b_enc_checkpoint full_build exact_cp)) as [cp'|] eqn:D.
  - assert (T : cp_timestamp exact_cp = "2026-01-01T00:00:00+00:00"%string) by (vm_compute; reflexivity).
    specialize (H full_build no_ray exact_cp cp'). destruct H as (_ & _ & _ & _ & _ & _ & _ & _ & _ & _ & _ & _ & _ & H).
    + pose proof demo_cp_ok as K. unfold checkpoint_ok in *. unfold exact_cp. cbn [cp_params cp_iteration cp_threshold cp_solution_set cp_reference_set cp_unchanged cp_elapsed
       cp_df_solutions cp_seed cp_target cp_exclude_oob cp_batch cp_parallel cp_abs_tol cp_rel_tol cp_timestamp].
      intuition; try (vm_compute; reflexivity).
    + rewrite T. split; [split; apply Nat.leb_le; vm_compute; reflexivity|]. repeat constructor; discriminate.
    + exact D.
    + rewrite T in H. assert (B : option_map cp_timestamp (b_decode no_ray (b_enc_checkpoint full_build exact_cp)) = Some ""%string) by (vm_compute; reflexivity).
      rewrite D in B. cbn [option_map] in B. congruence.
  - assert (B : (match b_decode no_ray (b_enc_checkpoint full_build exact_cp) with Some _ => true | None => false end) = true) by (vm_compute; reflexivity).
    rewrite D in B. discriminate.
Qed.
Print Assumptions C80_accepted_refuted.
(** What holds: with an ordinary timestamp the file of the build with rayon is refused by the
    build without, when it has no batch size or an absolute tolerance that is not zero or
    tiny; and the other way round always. *)
Theorem C80_refused_partial : forall cp, checkpoint_ok cp -> real_timestamp (cp_timestamp cp) ->
  (cp_batch cp = None \/ not_tiny (cp_abs_tol cp) ->
   b_decode (mk_features false true) (b_enc_checkpoint (mk_features true true) cp) = None) /\
  b_decode (mk_features true true) (b_enc_checkpoint (mk_features false true) cp) = None.
Proof.
  intros cp H T. split; [|apply other_rejected; assumption]. intros K.
  destruct (cp_batch cp) as [b|] eqn:B; [|apply none_rejected; assumption]. destruct K as [K|K]; [discriminate|].
  eapply some_rejected; eassumption.
Qed.
Print Assumptions C80_refused_partial.
(** an optimizer that finds an unreadable file reports an error; it does not start afresh *)
Theorem C80_run_reports : forall F E s c b, f_checkpointing F = true -> o_cp (s_o s) = Some c -> cc_keep_all c = false ->
  cc_auto_resume c = true -> io_works E -> content (w_disk (s_w s)) (file_name c 0) = Some b -> b_decode F b = None ->
  fst (build_run F E s) = Err (CheckpointError CpSerialization).
Proof. exact unreadable. Qed.
Print Assumptions C80_run_reports.
Example C80_example : checkpoint_ok demo_cp /\ real_timestamp (cp_timestamp demo_cp) /\ cp_batch demo_cp = None /\
  not_tiny (cp_abs_tol demo_cp) /\
  fst (build_run no_ray wells_env (before full_build)) = Err (CheckpointError CpSerialization) /\
  fst (build_run full_build wells_env (before no_ray)) = Err (CheckpointError CpSerialization).
Proof.
  split; [exact demo_cp_ok|].
  split; [replace (cp_timestamp demo_cp) with "2026-01-01T00:00:00+00:00"%string by (vm_compute; reflexivity);
          split; [split; apply Nat.leb_le; vm_compute; reflexivity|repeat constructor; discriminate]|].
  split; [vm_compute; reflexivity|].
  split; [replace (cp_abs_tol demo_cp) with (lit 1 100000000) by (vm_compute; reflexivity); vm_compute; discriminate|].
  split; vm_compute; reflexivity.
Qed.

(** * Builds compared, as the properties state it *)
From Coq Require Import ZArith NArith List Bool Arith Lia Ascii String.
From Verif Require Import F64 Base Builders Types Filters Runner Observer Env EnvSpec ScatterSearch Codec Checkpoint Oqnlp
  Features SpecCheckpoint SpecFeatures SimP FeaturesP FeaturesQ FeaturesR CodecP.
Import ListNotations.

Lemma ended : forall F F' E P C s t,
  vrel eq (fst (build_run F E s)) (fst (build_run F' E t)) /\ alikes F F' P false C (snd (build_run F E s)) (snd (build_run F' E t)) ->
  same_execution C (build_run F E s) (build_run F' E t).
Proof.
  intros F F' E P C s t (H1 & H2 & (_ & H3) & _ & H4). apply vrel_eq_inv in H1. split; [auto|]. split; [eapply vo_alike; exact H2|]. split; [exact H3|exact H4].
Qed.
Lemma off_alikes : forall c P D s files, alike_files D (w_disk (s_w s)) (w_disk (s_w (switched_off s files))) ->
  alikes (mk_features false c) (mk_features true c) P true D s (switched_off s files).
Proof.
  intros c P D s files H. split; [|split; [split; [reflexivity|exact H]|split; [reflexivity|apply events_refl]]].
  unfold switched_off. cbn [s_o]. exists (o_batch (s_o s)), false, (o_cp (s_o s)), (o_iteration (s_o s)), (o_ref (s_o s)), (o_unchanged (s_o s)), (o_seed (s_o s)).
  cbn [f_rayon f_checkpointing]. split; [destruct (s_o s); reflexivity|]. repeat split; intros; congruence.
Qed.
Theorem without_rayon : forall E s files,
  alike_files read_alike (w_disk (s_w s)) (w_disk (s_w (switched_off s files))) ->
  same_execution (fun c c' => read_alike c c' \/ written_alike c c')
    (build_run (mk_features false true) E s) (run E (switched_off s files)).
Proof.
  intros E s files H. rewrite <- full_is_run. change full_build with (mk_features true true).
  apply ended with (P := o_params (s_o s)). apply q_run with (D := read_alike); try (cbn; congruence).
  - intros _ cp cp' k K. right. exists cp, cp', k. auto.
  - intros c c' K. left. exact K.
  - intros _ c c' K. unfold read_alike in K. unfold reads. cbn [f_rayon]. destruct (b_decode _ c), (b_decode _ c'); auto.
    destruct K as [K1 K2]. split; [exact K1|]. split; [discriminate|auto].
  - apply off_alikes. exact H.
Qed.
Lemma files_refl : forall d, alike_files eq d d.
Proof. intro d. unfold alike_files. induction (d_files d); constructor; auto. Qed.
Theorem without_both : forall E s,
  same_execution eq (build_run (mk_features false false) E s)
    (build_run (mk_features true false) E (switched_off s (d_files (w_disk (s_w s))))).
Proof.
  intros E s. apply ended with (P := o_params (s_o s)). apply q_run with (D := eq); try (cbn; congruence). apply off_alikes. exact (files_refl (w_disk (s_w s))).
Qed.
Theorem own_files_alike : forall cp cp', checkpoint_ok cp -> checkpoint_ok cp' -> alike_checkpoint cp cp' -> cp_parallel cp' = false ->
  read_alike (b_enc_checkpoint (mk_features false true) cp) (b_enc_checkpoint (mk_features true true) cp').
Proof.
  intros cp cp' H H' K P. unfold read_alike. rewrite !own_decode by assumption. unfold as_kept. cbn [f_rayon]. split; [|exact P].
  unfold alike_checkpoint in *. cbn. tauto.
Qed.
Theorem without_checkpointing : forall ray E s, o_cp (s_o s) = None -> o_iteration (s_o s) = 0 ->
  (p_seed (o_params (s_o s)) < 2 ^ 64)%N ->
  (e_overflow_checks E = false \/ (p_seed (o_params (s_o s)) + N.of_nat (p_iterations (o_params (s_o s))) <= 2 ^ 64)%N) ->
  same_execution eq (build_run (mk_features ray false) E s) (build_run (mk_features ray true) E s).
Proof.
  intros ray E s Hc Hi Hs Ho. apply ended with (P := o_params (s_o s)). apply q_run with (D := eq); try (cbn; congruence).
  - intros _ i Li. unfold add_u64, u64_mod. destruct (N.ltb_spec (p_seed (o_params (s_o s)) + N.of_nat i) (2 ^ 64)); [discriminate|].
    destruct Ho as [->|Ho]; [discriminate|]. exfalso. revert Ho H Li. generalize (2 ^ 64)%N. intros. lia.
  - intros _. exact Hs.
  - split; [|split; [split; [reflexivity|apply files_refl]|split; [reflexivity|apply events_refl]]].
    exists (o_batch (s_o s)), (o_parallel (s_o s)), (o_cp (s_o s)), (o_iteration (s_o s)), (o_ref (s_o s)), (o_unchanged (s_o s)), (o_seed (s_o s)).
    cbn [f_rayon f_checkpointing]. split; [destruct (s_o s); reflexivity|]. repeat split; intros; congruence.
Qed.
(** ** Runs in front of an unreadable file *)
Theorem unreadable : forall F E s c b, f_checkpointing F = true -> o_cp (s_o s) = Some c -> cc_keep_all c = false ->
  cc_auto_resume c = true -> io_works E -> content (w_disk (s_w s)) (file_name c 0) = Some b -> b_decode F b = None ->
  fst (build_run F E s) = Err (CheckpointError CpSerialization).
Proof.
  intros F E s c b Hf Hc Hk Ha Hio Hb Hd. unfold content in Hb.
  assert (X : b_try_resume F E s = (Err (CheckpointError CpSerialization), snd (b_try_resume F E s))).
  { unfold b_try_resume. rewrite Hf. cbv [the_oqnlp bind get ret]. rewrite Hc, Ha. cbv [on_disk checkpoint_exists]. rewrite Hk.
    cbv [bind get ret]. rewrite Hb. cbn [s_w w_disk]. cbv [b_load_latest b_load_from_path bind get ret]. rewrite Hk, Hb. unfold next_io.
    rewrite Hio, Hd. reflexivity. }
  unfold build_run, bind at 1. rewrite X. reflexivity.
Qed.

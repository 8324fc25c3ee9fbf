(** * Properties of the build without argmin (C86)

    Statements only; the proofs are lemmas of NoArgminP.v.  [enc_checkpoint] and
    [decode_checkpoint] write and read the checkpoint files of a build with argmin,
    [n_enc_checkpoint] and [n_decode_checkpoint] those of a build without. *)
From Coq Require Import ZArith NArith List Bool Arith Lia Ascii String.
From Verif Require Import F64 Base Builders Types Filters Runner Observer Env EnvSpec ScatterSearch Codec
  Checkpoint Oqnlp NoArgmin Spec SpecCheckpoint NoArgminP Demo Demo2 DemoCp.
Import ListNotations.

(** the names of local solvers it knows are those the other build knows for COBYLA *)
Theorem C86_names : forall s t, n_from_string s = Some t <-> t = COBYLA /\ from_string s = Some COBYLA.
Proof. exact n_names. Qed.
Print Assumptions C86_names.
Example C86_names_example : n_from_string "CobyLA" = Some COBYLA /\ n_from_string "lbfgs" = None /\ from_string "lbfgs" = Some LBFGS.
Proof. vm_compute. auto. Qed.
(** it reads back what it wrote and refuses a torn file *)
Theorem C86_same_build : forall cp, checkpoint_ok cp -> cobyla_only (cp_params cp) ->
  n_decode_checkpoint (n_enc_checkpoint cp) = Some cp /\
  forall k, k < List.length (n_enc_checkpoint cp) -> n_decode_checkpoint (firstn k (n_enc_checkpoint cp)) = None.
Proof. intros cp H C. split; [apply n_decode_encode; assumption|]. intros k Hk. apply n_decode_prefix; assumption. Qed.
Print Assumptions C86_same_build.
(** C86 is false of the code: with absolute parameter tolerances for sixteen variables a file
    of the build without argmin is accepted by the full build as another checkpoint *)
Definition C86_full : Prop :=
  (forall cp cp', checkpoint_ok cp -> cobyla_only (cp_params cp) ->
     decode_checkpoint (n_enc_checkpoint cp) = Some cp' -> cp' = cp) /\
  (forall cp cp', checkpoint_ok cp -> n_decode_checkpoint (enc_checkpoint cp) = Some cp' -> cp' = cp).
Definition tolerances : list f64 := f0 :: Fin false (2 ^ 40) (-1074) :: repeat f0 14.
Definition tight_params (xr : f64) (xa : list f64) : params :=
  mk_params 6 5 3 (lit 2 10) (lit 75 100) COBYLA (CfgCOBYLA 300 (lit 1 2) (lit 1 1000000) f0 xr xa) 7.
Definition with_params (p : params) (c : checkpoint) : checkpoint :=
  mk_cp p (cp_iteration c) (cp_threshold c) (cp_solution_set c) (cp_reference_set c) (cp_unchanged c) (cp_elapsed c)
    (cp_df_solutions c) (cp_seed c) (cp_target c) (cp_exclude_oob c) (cp_batch c) (cp_parallel c) (cp_abs_tol c) (cp_rel_tol c) (cp_timestamp c).
Lemma with_params_ok : forall p, params_ok p -> checkpoint_ok (with_params p demo_cp).
Proof. intros p H. pose proof demo_cp_ok as K. revert K. generalize demo_cp. intros c (_ & K). split; [exact H|exact K]. Qed.
Lemma tight_ok : params_ok (tight_params f0 tolerances) /\ params_ok (tight_params f0 []).
Proof.
  split; (repeat split; try (vm_compute; reflexivity)); unfold tolerances; simpl; repeat constructor.
Qed.
Definition sixteen : checkpoint := with_params (tight_params f0 tolerances) demo_cp.
Theorem C86_tolerances_refuted : ~ C86_full.
Proof.
  intros [H _]. specialize (H sixteen).
  assert (B : option_map cp_iteration (decode_checkpoint (n_enc_checkpoint sixteen)) = Some 0) by (vm_compute; reflexivity).
  assert (I : cp_iteration sixteen = 5) by (vm_compute; reflexivity).
  assert (C : cobyla_only (cp_params sixteen)) by (split; [reflexivity|repeat eexists]).
  pose proof (with_params_ok _ (proj1 tight_ok)) as K. fold sixteen in K.
  revert H B I C K. generalize (decode_checkpoint (n_enc_checkpoint sixteen)). generalize sixteen. intros c [c'|] H B I C K; [|discriminate B].
  specialize (H c' K C eq_refl). simpl in B. injection B as B. congruence.
Qed.
Print Assumptions C86_tolerances_refuted.
(** What holds: a file of the build without argmin is refused by the full build if neither
    parameter tolerance is set (as by default) and fewer than 2^40 iterations were done. *)
Theorem C86_to_full_partial : forall cp it st fr fa, checkpoint_ok cp -> p_solver_type (cp_params cp) = COBYLA ->
  p_solver_config (cp_params cp) = CfgCOBYLA it st fr fa f0 [] -> (N.of_nat (cp_iteration cp) < 2 ^ 40)%N ->
  decode_checkpoint (n_enc_checkpoint cp) = None.
Proof. exact default_cobyla_refused. Qed.
Print Assumptions C86_to_full_partial.
(** And the file of a full build is refused by the build without argmin if the solver type or
    the configuration is not L-BFGS, in particular if it is COBYLA, or if it is L-BFGS without
    L1 coefficient and with the first two parameters of the line search as by default (and the
    file is not larger than 2^63 bytes).  Missing: the other L-BFGS configurations. *)
Definition usual_search (l : line_search) : Prop :=
  (exists w b, l = MoreThuente (mt_c1 mt_default) (mt_c2 mt_default) w b) \/
  (exists e t g n b, l = HagerZhang (hz_delta hz_default) (hz_sigma hz_default) e t g n b).
Theorem C86_from_full_partial : forall cp, checkpoint_ok cp ->
  (p_solver_type (cp_params cp) <> LBFGS -> n_decode_checkpoint (enc_checkpoint cp) = None) /\
  ((forall it tg tc h l1 ls, p_solver_config (cp_params cp) <> CfgLBFGS it tg tc h l1 ls) ->
   n_decode_checkpoint (enc_checkpoint cp) = None) /\
  (forall it tg tc h ls, p_solver_config (cp_params cp) = CfgLBFGS it tg tc h None ls -> usual_search ls ->
   (N.of_nat (List.length (enc_checkpoint cp)) < 2 ^ 63)%N -> n_decode_checkpoint (enc_checkpoint cp) = None).
Proof.
  intros cp H. split; [apply other_solver_refused; exact H|]. split.
  - intro C. apply other_config_refused; [exact H|]. destruct (p_solver_config (cp_params cp)); try reflexivity. exfalso. eapply C. reflexivity.
  - intros it tg tc h ls C U. eapply default_lbfgs_refused; [exact H|exact C|]. 
    destruct U as [(w & b & ->)|(e & t & g & n & b & ->)]; [left; exists w, b; reflexivity|right; exists e, t, g, n, b; reflexivity].
Qed.
Print Assumptions C86_from_full_partial.
(** the demonstration's checkpoint, with COBYLA and without parameter tolerances, and one of a
    default L-BFGS *)
Definition lbfgs_params : params :=
  mk_params 6 5 3 (lit 2 10) (lit 75 100) LBFGS (lb_build lb_default) 7.
Example C86_example : checkpoint_ok (with_params (tight_params f0 []) demo_cp) /\
  cobyla_only (cp_params (with_params (tight_params f0 []) demo_cp)) /\
  (N.of_nat (cp_iteration (with_params (tight_params f0 []) demo_cp)) < 2 ^ 40)%N /\
  p_solver_type (cp_params (with_params (tight_params f0 []) demo_cp)) <> LBFGS /\
  (exists it tg tc h ls, p_solver_config lbfgs_params = CfgLBFGS it tg tc h None ls /\ usual_search ls) /\
  (N.of_nat (List.length (enc_checkpoint (with_params lbfgs_params demo_cp))) < 2 ^ 63)%N.
Proof.
  split; [apply with_params_ok, tight_ok|]. split; [split; [reflexivity|repeat eexists]|]. split; [vm_compute; reflexivity|].
  split; [discriminate|]. split; [|vm_compute; reflexivity].
  do 5 eexists. split; [reflexivity|]. left. do 2 eexists. reflexivity.
Qed.

(** * Specification vocabulary for what a crash costs (C103) *)
From Coq Require Import ZArith NArith List Bool Arith String.
From Verif Require Import F64 Base Builders Types Filters Runner Observer Env ScatterSearch Codec
  Checkpoint Oqnlp Spec SpecStage2 SpecObserver SpecCheckpoint.
Import ListNotations.

(** A process that dies leaves the files of a run whose next disk operation fails.  It died
    outside of a write if no write stops half-way. *)
Definition no_torn_write (E : env) : Prop := forall t n, e_io E t <> IoShort n.
(** The run in state [s], which keeps one file per save, finds its directory in order: there is
    no file of its checkpoint name, or only of iteration 0, and it starts afresh; or it resumes
    from a checkpoint in the file that is named for its iteration, and the numbers of the other
    files are less. *)
Definition directory_in_order (E : env) (s : st) (c : cp_config) : Prop :=
  (forall cp, ~ resumes_from E s cp) /\
    (forall f i, present (w_disk (s_w s)) f -> stands_for (cc_name c) f i -> i = 0%N) \/
  exists cp0, resumes_from E s cp0 /\ checkpoint_ok cp0 /\
    content (w_disk (s_w s)) (file_name c (cp_iteration cp0)) = Some (enc_checkpoint cp0) /\
    forall f i, present (w_disk (s_w s)) f -> stands_for (cc_name c) f i ->
      f = file_name c (cp_iteration cp0) \/ (i < N.of_nat (cp_iteration cp0))%N.

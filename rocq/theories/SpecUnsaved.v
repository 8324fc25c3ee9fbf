(** * What it means to run without checkpoints (C109) *)
From Coq Require Import NArith List Bool Arith.
From Verif Require Import F64 Base Types Observer Env ScatterSearch Codec Checkpoint Oqnlp.
Import ListNotations.

(** the program without the call to with_checkpointing (builder with_checkpointing,
    src/oqnlp.rs 1357-1360) *)
Definition unsaved_state (s : st) : st := mk_st (set_o_cp None (s_o s)) (s_w s).

(** What a run does, latest first, apart from writing checkpoint files: evaluations, decisions,
    local searches and their results, stored solution sets, thresholds, callbacks, messages.
    (A decision is recorded with the optimizer that made it; the checkpoint settings in there
    are left out.) *)
Definition doing (e : event) : list event :=
  match e with
  | EvSave _ _ => []
  | EvDecide i p v o go => [EvDecide i p v (set_o_cp None o) go]
  | e => [e]
  end.
Definition doings (l : list event) : list event := flat_map doing l.

(** a run that ended because a checkpoint could not be written: the error of the file system,
    or the panic of a save frequency of zero *)
Definition save_failed {A} (c : cp_config) (r : outcome oq_error A) : Prop :=
  (exists e, r = Err (CheckpointError e)) \/ (r = Panic /\ cc_save_frequency c = 0).

(** a run that does not look for a checkpoint to resume from, or looks and finds none *)
Definition nothing_to_resume (E : env) (c : cp_config) (s : st) : Prop :=
  cc_auto_resume c = true -> fst (checkpoint_exists E c (w_disk (s_w s))) = Ok false.

(** * What it means to ask for another batch size (C113) *)
From Coq Require Import NArith List Bool Arith.
From Verif Require Import F64 Base Types Observer Env ScatterSearch Codec Checkpoint Oqnlp.
Import ListNotations.

(** the program with another batch size, or without one (batch_iterations, src/oqnlp.rs 1206-1218) *)
Definition batched_state (b : option nat) (s : st) : st := mk_st (set_o_batch b (s_o s)) (s_w s).

(** What a run does, latest first, apart from the checkpoint files it writes: evaluations,
    decisions, local searches and their results, stored solution sets, thresholds, callbacks,
    messages, clock readings.  (A decision is recorded with the optimizer that made it; the
    batch size in there is left out.) *)
Definition work (e : event) : list event :=
  match e with
  | EvSave _ _ => []
  | EvDecide i p v o go => [EvDecide i p v (set_o_batch None o) go]
  | e => [e]
  end.
Definition works (l : list event) : list event := flat_map work l.

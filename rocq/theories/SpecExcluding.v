(** * What it means to exclude out-of-bounds solutions (C110) *)
From Coq Require Import NArith List Bool Arith.
From Verif Require Import F64 Base Types Observer Env ScatterSearch Codec Checkpoint Oqnlp.
Import ListNotations.

(** the program with the call to exclude_out_of_bounds (src/oqnlp.rs 1349-1351) *)
Definition excluding_state (s : st) : st := mk_st (set_o_exclude true (s_o s)) (s_w s).

(** What a run does, latest first, apart from the checkpoint files it writes: evaluations,
    decisions, local searches and their results, stored solution sets, thresholds, callbacks,
    messages, clock readings.  (A decision is recorded with the optimizer that made it; the
    option in there is left out.) *)
Definition effect (e : event) : list event :=
  match e with
  | EvSave _ _ => []
  | EvDecide i p v o go => [EvDecide i p v (set_o_exclude true o) go]
  | e => [e]
  end.
Definition effects (l : list event) : list event := flat_map effect l.
